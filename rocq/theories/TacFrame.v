(* Prologue and epilogue, the guards do not change the code, and the whole
   function. *)
From Coq Require Import ZArith Bool Lia List.
From Verif Require Import Word WordProofs SyTree ExprSem VM VmCode VmBase TacSpec Tac TacSafe TacInv TacInv2 TacSim TacRun.
Import ListNotations.
Open Scope Z_scope.

(* ---- the guards only refuse ---- *)
Definition le (f g : act) : Prop := forall s r, f s = Some r -> g s = Some r.
Lemma le_refl : forall f, le f f.
Proof. intros f s r H. exact H. Qed.
Lemma le_seq : forall f f' g g', le f f' -> le g g' -> le (f ;; g) (f' ;; g').
Proof.
  intros f f' g g' A B s r H. unfold andThen in *. destruct (f s) as [[c1 s1]|] eqn:F; [|discriminate H]. rewrite (A _ _ F).
  destruct (g s1) as [[c2 s2]|] eqn:G; [|discriminate H]. rewrite (B _ _ G). exact H.
Qed.
Lemma le_get : forall k k', (forall s, le (k s) (k' s)) -> le (get k) (get k').
Proof. intros k k' A s r H. exact (A _ _ _ H). Qed.
Lemma le_ent : forall o k k', (forall e, le (k e) (k' e)) -> le (ent_at o k) (ent_at o k').
Proof. intros o k k' A s r H. unfold ent_at in *. destruct (nth_error (vst s) o); [exact (A _ _ _ H)|discriminate H]. Qed.
Lemma le_reg : forall e k k', (forall r, le (k r) (k' r)) -> le (regOf e k) (regOf e k').
Proof. intros e k k' A s r H. destruct e; simpl in *; try discriminate H; exact (A _ _ _ H). Qed.
Lemma le_alloc : forall k k', (forall a, le (k a) (k' a)) -> le (allocAcc k) (allocAcc k').
Proof.
  intros k k' A. apply le_get. intros s. destruct (firstFree (bsy s)); [|apply le_refl]. apply le_seq; [apply le_refl|apply A].
Qed.
Lemma le_guard : forall b, le (guard true b) (guard false b).
Proof. intros [] s r H; [exact H|discriminate H]. Qed.
Ltac le1 := lazymatch goal with
  | |- le (fun _ => _) _ => fail
  | |- le ?f ?f => exact (le_refl f)
  | |- le (guard true ?b) (guard false ?b) => exact (le_guard b)
  | |- le (andThen _ _) (andThen _ _) => apply le_seq
  | |- le (get _) (get _) => apply le_get; intros ?; cbv beta zeta
  | |- le (ent_at _ _) (ent_at _ _) => apply le_ent; intros ?; cbv beta zeta
  | |- le (regOf _ _) (regOf _ _) => apply le_reg; intros ?; cbv beta zeta
  | |- le (allocAcc _) (allocAcc _) => apply le_alloc; intros ?; cbv beta zeta
  | |- le (match ?x with _ => _ end) (match ?x with _ => _ end) => destruct x
  end.
Ltac les := repeat le1.
Lemma le_loadReg : forall r o, le (loadReg true r o) (loadReg false r o).
Proof. intros. unfold loadReg. les. Qed.
Lemma le_popStk : forall n, le (popStk true n) (popStk false n).
Proof. intros. unfold popStk. les. Qed.
Ltac le2 := lazymatch goal with
  | |- le (loadReg true _ _) _ => apply le_loadReg
  | |- le (popStk true _) _ => apply le_popStk
  | _ => le1
  end.
Lemma le_outStk : le (outStk true) (outStk false).
Proof. unfold outStk. repeat le2. Qed.
Lemma le_outStkN : forall n, le (outStkN true n) (outStkN false n).
Proof. induction n as [|n IH]; simpl; apply le_get; intros s; destruct (acnt s <=? 0); try apply le_refl. apply le_seq; [apply le_outStk|exact IH]. Qed.
Lemma le_loadStk : forall o, le (loadStk true o) (loadStk false o).
Proof. intros. unfold loadStk. repeat (lazymatch goal with |- le (outStk true) _ => apply le_outStk | _ => le2 end). Qed.
Lemma le_loadTop : forall o, le (loadTop true o) (loadTop false o).
Proof. intros. unfold loadTop. repeat (lazymatch goal with |- le (loadStk true _) _ => apply le_loadStk | _ => le2 end). Qed.
Ltac le3 := lazymatch goal with
  | |- le (outStk true) _ => apply le_outStk
  | |- le (outStkN true _) _ => apply le_outStkN
  | |- le (loadStk true _) _ => apply le_loadStk
  | |- le (loadTop true _) _ => apply le_loadTop
  | _ => le2
  end.
Lemma le_vmLdWrd : le (vmLdWrd true) (vmLdWrd false).
Proof. unfold vmLdWrd. repeat le3. Qed.
Lemma le_vmLdByt : le (vmLdByt true) (vmLdByt false).
Proof. unfold vmLdByt. repeat le3. Qed.
Lemma le_storeInd : forall mk, le (storeInd true mk) (storeInd false mk).
Proof. intros. unfold storeInd. repeat le3. Qed.
Lemma le_cal : forall a, le (cal true a) (cal false a).
Proof. intros. unfold cal. repeat le3. Qed.
Lemma le_rcal : forall a, le (rcal true a) (rcal false a).
Proof. intros. unfold rcal. repeat (lazymatch goal with |- le (cal true _) _ => apply le_cal | _ => le3 end). Qed.
Lemma le_cmpEnd : forall k, le (cmpEnd true k) (cmpEnd false k).
Proof. intros. unfold cmpEnd. repeat le3. Qed.
Lemma le_callF : forall n f, le (callF true n f) (callF false n f).
Proof. intros. unfold callF, noPend, outStkAll. repeat le3. Qed.
Ltac le4 := lazymatch goal with
  | |- le (cal true _) _ => apply le_cal
  | |- le (rcal true _) _ => apply le_rcal
  | |- le (cmpEnd true _) _ => apply le_cmpEnd
  | |- le (callF true _ _) _ => apply le_callF
  | |- le (vmLdWrd true) _ => apply le_vmLdWrd
  | |- le (vmLdByt true) _ => apply le_vmLdByt
  | |- le (storeInd true _) _ => apply le_storeInd
  | _ => le3
  end.
Lemma le_vm : forall ord d np v, le (vm true ord d np v) (vm false ord d np v).
Proof.
  intros ord d np [i|x l1 l2 l3]; cbn [vm].
  - destruct i; unfold boolJmp, vmLdLoc, vmLdPrm, vmStGlb, vmStLoc, vmStPrm, vmStWrd, vmStByt, vmUn, vmPop, vmArg, vmCallF, vmMReg, cancelFrame, noPend, outStkAll;
      try (repeat le4).
    destruct o; cbn [vmBin ccOf]; unfold vmMul, vmDiv, vmMod, cmp; cbv beta zeta; repeat le4.
  - unfold vmBool. repeat le4.
Qed.
Lemma le_tac : forall ord d np p, le (tac true ord d np p) (tac false ord d np p).
Proof. intros ord d np. induction p as [|v p IH]; simpl; [apply le_refl|]. apply le_seq; [apply le_vm|exact IH]. Qed.

Section Frame.
Variable M : machine.
Variable Hw : hw M.
Notation Ex := (Ex M Hw).

Lemma push_run : forall k j (t : mst M), exists t', Ex (map (fun i => TPush (Z.of_nat i + 3)) (seq j k)) t t' /\
  gr t' = gr t /\ fp t' = fp t /\ tg t' = tg t /\ sp t' = sp t - 2 * Z.of_nat k /\
  (forall i, (i < k)%nat -> sm t' (sp t - 2 - 2 * Z.of_nat i) = gr t (Z.of_nat (j + i) + 3)) /\
  (forall a, sp t <= a -> sm t' a = sm t a).
Proof.
  induction k as [|k IH]; intros j t.
  - exists t. split; [apply Ex_nil|]. split; [reflexivity|split; [reflexivity|split; [reflexivity|split; [cbn [Z.of_nat]; lia|split; [intros i L; lia|reflexivity]]]]].
  - destruct (IH (S j) (push M t (gr t (Z.of_nat j + 3)))) as [t' [X [A [B [C [D [E F]]]]]]].
    cbn [push setsm setsp gr fp tg sp sm] in *. exists t'. split; [|split; [exact A|split; [exact B|split; [exact C|split; [|split]]]]].
    + cbn [seq map]. eapply Ex_one; [reflexivity|exact X].
    + rewrite D. rewrite Nat2Z.inj_succ. lia.
    + intros [|i] L.
      * rewrite F by (cbn [Z.of_nat]; lia). unfold upd. rewrite Nat.add_0_r.
        destruct (Z.eqb_spec (sp t - 2 - 2 * Z.of_nat 0) (sp t - 2)); [reflexivity|cbn [Z.of_nat] in *; lia].
      * specialize (E i ltac:(lia)). replace (sp t - 2 - 2 * Z.of_nat (S i)) with (sp t - 2 - 2 - 2 * Z.of_nat i) by (rewrite Nat2Z.inj_succ; lia).
        rewrite E. f_equal. f_equal. lia.
    + intros a La. rewrite F by lia. unfold upd. destruct (Z.eqb_spec a (sp t - 2)); [lia|reflexivity].
Qed.

Lemma pop_run : forall k (t : mst M), exists t', Ex (map (fun i => TPop (Z.of_nat i + 3)) (rev (seq 0 k))) t t' /\
  sm t' = sm t /\ fp t' = fp t /\ tg t' = tg t /\ sp t' = sp t + 2 * Z.of_nat k /\
  (forall i, (i < k)%nat -> gr t' (Z.of_nat i + 3) = sm t (sp t + 2 * Z.of_nat (k - 1 - i))) /\
  (forall r, r < 3 \/ Z.of_nat k + 3 <= r -> gr t' r = gr t r).
Proof.
  induction k as [|k IH]; intros t.
  - exists t. split; [apply Ex_nil|]. split; [reflexivity|split; [reflexivity|split; [reflexivity|split; [cbn [Z.of_nat]; lia|split; [intros i L; lia|reflexivity]]]]].
  - destruct (IH (setsp M (setr M t (Z.of_nat k + 3) (sm t (sp t))) (sp t + 2))) as [t' [X [A [B [C [D [E F]]]]]]].
    cbn [setr setsp gr fp tg sp sm] in *. exists t'. split; [|split; [exact A|split; [exact B|split; [exact C|split; [|split]]]]].
    + rewrite seq_S, rev_unit. cbn [map]. eapply Ex_one; [reflexivity|exact X].
    + rewrite D. rewrite Nat2Z.inj_succ. lia.
    + intros i L. destruct (Nat.eq_dec i k) as [->|Ne].
      * rewrite F by lia. unfold upd. rewrite Z.eqb_refl. f_equal. replace (S k - 1 - k)%nat with O by lia. cbn [Z.of_nat]. lia.
      * rewrite E by lia. f_equal. replace (S k - 1 - i)%nat with (S (k - 1 - i)) by lia. rewrite Nat2Z.inj_succ. lia.
    + intros r Hr. rewrite F by lia. unfold upd. destruct (Z.eqb_spec r (Z.of_nat k + 3)); [lia|reflexivity].
Qed.

(* sizes of the frame, vm2tac.c:322-333 *)
Definition frSz (d : Z) := if 9 <? d then (d - 9) * 2 else 0.
Definition rvSz (d : Z) := if 9 <? d then 9 else d.
Lemma sizes : forall d, 0 <= d -> frSz d + 2 * rvSz d = 2 * d /\ 0 <= frSz d /\ 0 <= rvSz d <= 9 /\ rvSz d <= d /\
  (9 < d -> frSz d = (d - 9) * 2) /\ (d <= 9 -> frSz d = 0 /\ rvSz d = d).
Proof. intros d H. unfold frSz, rvSz. destruct (Z.ltb_spec 9 d); lia. Qed.

Definition frameCode (d : Z) : list tin :=
  [TPushFP; TLdFPSP] ++ (if 0 <? frSz d then [TSubSP (frSz d)] else [])
   ++ map (fun i => TPush (Z.of_nat i + 3)) (seq 0 (Z.to_nat (rvSz d))).
Lemma frame_run : forall d (t : mst M), 0 <= d -> let F := sp t - 2 in exists t', Ex (frameCode d) t t' /\
  gr t' = gr t /\ fp t' = F /\ tg t' = tg t /\ sp t' = F - 2 * d /\
  (forall i, 0 <= i < rvSz d -> sm t' (F - frSz d - 2 - 2 * i) = gr t (i + 3)) /\
  sm t' F = fp t /\
  (forall a, F - frSz d <= a -> a <> F -> sm t' a = sm t a).
Proof.
  intros d t Hd F. pose proof (sizes d Hd) as (Z1 & Z2 & Z3 & Z4 & _).
  set (t1 := setfp M (push M t (fp t)) F). set (t2 := setsp M t1 (F - frSz d)).
  destruct (push_run (Z.to_nat (rvSz d)) 0 t2) as [t3 [X [A [B [C [D [E G]]]]]]].
  exists t3. cbn [t1 t2 push setsm setsp setfp gr fp tg sp sm] in A, B, C, D, E, G.
  split; [|split; [exact A|split; [exact B|split; [exact C|split; [|split; [|split]]]]]].
  - unfold frameCode. cbn [app]. apply (Ex_one _ _ _ _ _ (push M t (fp t))); [reflexivity|].
    apply (Ex_one _ _ _ _ _ t1); [reflexivity|]. apply (Ex_app M Hw _ t1 t2); [|exact X].
    destruct (Z.ltb_spec 0 (frSz d)).
    + apply Ex1. reflexivity.
    + assert (t2 = t1) as ->. { unfold t2. replace (F - frSz d) with F by lia. reflexivity. } apply Ex_nil.
  - rewrite D. rewrite Z2Nat.id by lia. lia.
  - intros i Hi. specialize (E (Z.to_nat i) ltac:(lia)). rewrite Nat.add_0_l in E. rewrite Z2Nat.id in E by lia. exact E.
  - rewrite G by lia. unfold upd. unfold F. rewrite Z.eqb_refl. reflexivity.
  - intros a L Ne. rewrite G by lia. unfold upd. unfold F in *. destruct (Z.eqb_spec a (sp t - 2)); [contradiction|reflexivity].
Qed.

Definition unframe (d : Z) : list tin :=
  map (fun i => TPop (Z.of_nat i + 3)) (rev (seq 0 (Z.to_nat (rvSz d)))) ++ (if 0 <? frSz d then [TLdSPFP] else []) ++ [TPopFP].
Lemma unframe_run : forall d (t : mst M) F, 0 <= d -> fp t = F -> sp t = F - 2 * d -> exists t', Ex (unframe d) t t' /\
  sm t' = sm t /\ fp t' = sm t F /\ sp t' = F + 2 /\ tg t' = tg t /\
  (forall i, 0 <= i < rvSz d -> gr t' (i + 3) = sm t (F - frSz d - 2 - 2 * i)) /\
  (forall r, r < 3 \/ rvSz d + 3 <= r -> gr t' r = gr t r).
Proof.
  intros d t F Hd Hf Hs. pose proof (sizes d Hd) as (Z1 & Z2 & Z3 & Z4 & _).
  destruct (pop_run (Z.to_nat (rvSz d)) t) as [t1 [X [A [B [C [D [E G]]]]]]]. rewrite Z2Nat.id in * by lia.
  set (t2 := if 0 <? frSz d then setsp M t1 (fp t1) else t1).
  assert (S2 : sp t2 = F).
  { unfold t2. destruct (Z.ltb_spec 0 (frSz d)); cbn [setsp sp]; [congruence|]. rewrite D, Hs. lia. }
  exists (setsp M (setfp M t2 (sm t2 (sp t2))) (sp t2 + 2)).
  assert (Q : sm t2 = sm t /\ tg t2 = tg t /\ gr t2 = gr t1).
  { unfold t2. destruct (0 <? frSz d); cbn [setsp sm tg gr]; auto. }
  destruct Q as [Q1 [Q2 Q3]]. cbn [setsp setfp gr fp tg sp sm].
  split; [|split; [exact Q1|split; [rewrite S2, Q1; reflexivity|split; [lia|split; [exact Q2|split]]]]].
  - unfold unframe. apply (Ex_app _ _ _ _ _ X). apply (Ex_app M Hw _ t1 t2).
    + unfold t2. destruct (0 <? frSz d); [apply Ex1; reflexivity|apply Ex_nil].
    + apply Ex1. reflexivity.
  - intros i Hi. rewrite Q3. specialize (E (Z.to_nat i) ltac:(lia)). rewrite Z2Nat.id in E by lia. rewrite E. f_equal. rewrite Hs. lia.
  - intros r Hr. rewrite Q3. apply G. exact Hr.
Qed.
End Frame.

Lemma tac_frame : forall st ord d np inr p s c s', forallb (opOK inr) p = true -> WF s -> tac st ord d np p s = Some (c, s') ->
  rv s' = rv s /\ fr s' = fr s.
Proof.
  intros st ord d np inr. induction p as [|v p IH]; intros s c s' Ok Wf H; simpl in H.
  - inv1 H. auto.
  - seqi H as c1 s1 A c2. simpl in Ok. apply andb_true_iff in Ok. destruct Ok as [O1 O2].
    assert (So : slotOk v) by (destruct v as [[]|]; simpl in *; auto; apply Z.leb_le; exact O1).
    assert (Ie : isEntry v = false) by (destruct v as [[]|]; simpl in *; auto; discriminate O1).
    destruct (vm_WF _ _ _ _ v So Ie _ _ _ Wf A) as [W1 [R1 F1]]. destruct (IH _ _ _ O2 W1 H) as [R2 F2]. split; congruence.
Qed.

Lemma cancel_inv : forall s c s', cancelFrame true s = Some (c, s') ->
  vst s = [] /\ lay s = [] /\ s' = s /\
  c = map (fun i => TPop (Z.of_nat i + 3)) (rev (seq 0 (Z.to_nat (rv s)))) ++ (if 0 <? fr s then [TLdSPFP] else []) ++ [TPopFP].
Proof.
  unfold cancelFrame. intros s c s' H. inv1 H. seqi H as c1 s1 A c2. inv1 A. seqi H as c3 s3 B c4. inv1 B. seqi H as c5 s5 D c6. inv1 D. inv1 H.
  specialize (G eq_refl). apply Nat.eqb_eq in G. apply negb_false_iff in Eb. apply Nat.eqb_eq in Eb.
  destruct (vst s); [|discriminate Eb]. destruct (lay s); [|discriminate G]. auto.
Qed.

Definition entryCode (e : instr) (d : Z) : list tin :=
  match e with
  | IEntry _ => frameCode d ++ [TStkChk]
  | IEntryK _ => frameCode d
  | IEntryI _ => [TPush 0; TPush 1; TPush 2] ++ frameCode d
  | _ => []
  end.
Lemma entry_inv : forall st ord depth np e n c s, entryOK depth np e = true ->
  vm st ord depth np (VI e) (tinit n) = Some (c, s) ->
  0 <= depth /\ c = entryCode e depth /\ s = set_frm (tinit n) (rvSz depth) (frSz depth).
Proof.
  intros st ord depth np e n c s Ok H. destruct e; try discriminate Ok; unfold entryOK in Ok.
  - apply andb_true_iff in Ok. destruct Ok as [O1 O2]. apply Z.eqb_eq in O1. apply Z.leb_le in O2. subst d.
    cbn [vm] in H. unfold makeFrame in H. cbv zeta in H. seqi H as c1 s1 A c2. seqi A as c3 s3 B c4. inv1 B. inv1 A. inv1 H. auto.
  - apply andb_true_iff in Ok. destruct Ok as [O1 O2]. apply Z.eqb_eq in O1. apply Z.leb_le in O2. subst d.
    cbn [vm] in H. unfold makeFrame in H. cbv zeta in H. seqi H as c3 s3 B c4. inv1 B. inv1 H. auto.
  - apply andb_true_iff in Ok. destruct Ok as [Ok _]. apply andb_true_iff in Ok. destruct Ok as [O1 O2]. apply Z.eqb_eq in O1. apply Z.leb_le in O2. subst d.
    cbn [vm] in H. unfold makeFrame in H. cbv zeta in H. seqi H as c1 s1 A c2. inv1 A. seqi H as c3 s3 B c4. inv1 B. inv1 H. auto.
Qed.
