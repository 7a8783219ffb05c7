(* Control flow: a run of the virtual machine up to the return instruction is
   followed by the TaC code, piece by piece. *)
From Coq Require Import ZArith Bool Lia List.
From Verif Require Import Word WordProofs SyTree ExprSem VM VmCode VmBase TacSpec Tac TacSafe TacInv TacInv2 TacSim.
Import ListNotations.
Open Scope Z_scope.

Lemma expand_app : forall a b, expand (a ++ b) = expand a ++ expand b.
Proof. induction a as [|v a IH]; intros b; simpl; [reflexivity|]. rewrite IH, app_assoc. reflexivity. Qed.

Lemma nodupb_NoDup : forall {A} dec (l : list A), nodupb dec l = true -> NoDup l.
Proof.
  induction l as [|x l IH]; simpl; intros H; [constructor|]. apply andb_true_iff in H. destruct H as [H1 H2].
  constructor; [|auto]. destruct (in_dec dec x l); [discriminate H1|assumption].
Qed.

Lemma tac_app : forall st ord d np a b s c s', tac st ord d np (a ++ b) s = Some (c, s') ->
  exists c1 s1 c2, tac st ord d np a s = Some (c1, s1) /\ tac st ord d np b s1 = Some (c2, s') /\ c = c1 ++ c2.
Proof.
  induction a as [|v a IH]; intros b s c s' H; simpl in H.
  - exists [], s, c. auto.
  - seqi H as c1 s1 V c2. destruct (IH _ _ _ _ H) as [d1 [s2 [d2 [A [B ->]]]]].
    exists (c1 ++ d1), s2, d2. split; [|split; [exact B|rewrite app_assoc; reflexivity]].
    simpl. unfold andThen. rewrite V, A. reflexivity.
Qed.
Lemma tac_snoc : forall st ord d np a v s c1 s1 c2 s2, tac st ord d np a s = Some (c1, s1) ->
  vm st ord d np v s1 = Some (c2, s2) -> tac st ord d np (a ++ [v]) s = Some (c1 ++ c2, s2).
Proof.
  induction a as [|w a IH]; intros v s c1 s1 c2 s2 H K; simpl in *.
  - inv1 H. unfold andThen. rewrite K. unfold skip, emit. rewrite app_nil_r. reflexivity.
  - seqi H as d1 t1 V d2. unfold andThen. rewrite V. rewrite (IH _ _ _ _ _ _ H K). rewrite app_assoc. reflexivity.
Qed.

Lemma in_targets : forall ord d np l sh p s, In (l, sh) (targets ord d np p s) ->
  exists a v b ca sa cv sb, p = a ++ v :: b /\ tac true ord d np a s = Some (ca, sa) /\
    vm true ord d np v sa = Some (cv, sb) /\
    ((v = VI (ILab l) /\ sh = (vst sa, lay sa)) \/
     (exists x l1 l2 l3, v = VBool x l1 l2 l3 /\ sh = (List.tl (vst sb), lay sb) /\ (l = l1 \/ (l = l2 /\ l2 <> -1)))).
Proof.
  intros ord d np l sh. induction p as [|v p IH]; intros s H; simpl in H; [contradiction|].
  destruct (vm true ord d np v s) as [[cv sb]|] eqn:V; [|contradiction].
  apply in_app_or in H. destruct H as [H|H].
  - exists [], v, p, [], s, cv, sb. split; [reflexivity|split; [reflexivity|split; [exact V|]]].
    destruct v as [[]|x l1 l2 l3]; try contradiction.
    + destruct H as [H|[]]. injection H as -> <-. left. auto.
    + right. exists x, l1, l2, l3. destruct H as [H|H]; [injection H as -> <-; auto|].
      destruct (Z.eqb_spec l2 (-1)); [contradiction|]. destruct H as [H|[]]. injection H as -> <-. auto.
  - destruct (IH _ H) as [a [w [b [ca [sa [cw [sb' [-> [A [B C]]]]]]]]]].
    exists (v :: a), w, b, (cv ++ ca), sa, cw, sb'. split; [reflexivity|split; [|split; [exact B|exact C]]].
    simpl. unfold andThen. rewrite V, A. reflexivity.
Qed.
Lemma in_jumps : forall ord d np l p1 v p2 s c1 s1 cv s2, tac true ord d np p1 s = Some (c1, s1) ->
  vm true ord d np v s1 = Some (cv, s2) -> (v = VI (IJmp l) \/ v = VI (IJT l) \/ v = VI (IJF l)) ->
  In (l, (vst s2, lay s2)) (jumps ord d np (p1 ++ v :: p2) s).
Proof.
  intros ord d np l. induction p1 as [|w p1 IH]; intros v p2 s c1 s1 cv s2 H K Q; simpl in *.
  - inv1 H. rewrite K. destruct Q as [-> | [-> | ->]]; left; reflexivity.
  - seqi H as d1 t1 V d2. rewrite V. apply in_or_app. right. exact (IH _ _ _ _ _ _ _ H K Q).
Qed.

Lemma after_in : forall l p q, after l p = Some q -> In l (defs (expand p)).
Proof.
  intros l. induction p as [|v p IH]; intros q H; simpl in H; [discriminate|].
  simpl. rewrite defs_app. apply in_or_app. destruct v as [[]|x l1 l2 l3]; try (right; exact (IH _ H)).
  destruct (Z.eqb_spec l0 l) as [->|]; [left; left; reflexivity|right; exact (IH _ H)].
Qed.
Lemma NoDup_app_no : forall {A} (a b : list A) x, NoDup (a ++ b) -> In x a -> In x b -> False.
Proof.
  induction a as [|y a IH]; intros b x N I J; [contradiction|]. inversion N as [|? ? N1 N2]; subst.
  destruct I as [->|I]; [apply N1; apply in_or_app; auto|exact (IH _ _ N2 I J)].
Qed.
Lemma NoDup_app_r : forall {A} (a b : list A), NoDup (a ++ b) -> NoDup b.
Proof. induction a as [|y a IH]; intros b N; [exact N|]. inversion N; subst. auto. Qed.
Lemma after_lab : forall l a b, NoDup (defs (expand (a ++ VI (ILab l) :: b))) -> after l (a ++ VI (ILab l) :: b) = Some b.
Proof.
  intros l. induction a as [|v a IH]; intros b N; simpl in *.
  - rewrite Z.eqb_refl. reflexivity.
  - rewrite defs_app in N. pose proof (NoDup_app_r _ _ N) as N2.
    destruct v as [[]|x l1 l2 l3]; try exact (IH _ N2).
    destruct (Z.eqb_spec l0 l) as [->|]; [|exact (IH _ N2)].
    exfalso. apply (NoDup_app_no _ _ l N); [left; reflexivity|]. rewrite expand_app, defs_app. apply in_or_app. right. left. reflexivity.
Qed.
Lemma defs_macro : forall x l1 l2 l3 l, l = l1 \/ (l = l2 /\ l2 <> -1) -> In l (defs (expand1 (VBool x l1 l2 l3))).
Proof.
  intros x l1 l2 l3 l H. unfold expand1, vmBoolOR, vmBoolAND.
  destruct (x =? 1); destruct (Z.eqb_spec l2 (-1)); destruct H as [->|[-> H]]; simpl; auto; contradiction.
Qed.
Lemma after_macro : forall l x l1 l2 l3 a b, NoDup (defs (expand (a ++ VBool x l1 l2 l3 :: b))) ->
  l = l1 \/ (l = l2 /\ l2 <> -1) -> after l (a ++ VBool x l1 l2 l3 :: b) = None.
Proof.
  intros l x l1 l2 l3 a b N Hl. revert N. induction a as [|v a IH]; intros N.
  - change ([] ++ VBool x l1 l2 l3 :: b) with (VBool x l1 l2 l3 :: b) in *. cbn [after].
    destruct (after l b) eqn:E; [|reflexivity]. exfalso. cbn [expand] in N. rewrite defs_app in N.
    exact (NoDup_app_no _ _ l N (defs_macro _ _ _ _ _ Hl) (after_in _ _ _ E)).
  - cbn [app expand] in N. rewrite defs_app in N. pose proof (NoDup_app_r _ _ N) as N2. cbn [app after].
    destruct v as [[]|? ? ? ?]; try exact (IH N2).
    destruct (Z.eqb_spec l0 l) as [->|]; [|exact (IH N2)].
    exfalso. apply (NoDup_app_no _ _ l N); [left; reflexivity|]. rewrite expand_app, defs_app. apply in_or_app. right.
    cbn [expand]. rewrite defs_app. apply in_or_app. left. exact (defs_macro _ _ _ _ _ Hl).
Qed.

Lemma resOK_at : forall p a b, resOK p (a ++ VI IMReg :: b) = true -> toRet (S (length p)) p b = true.
Proof.
  intros p. induction a as [|v a IH]; intros b H; cbn [app resOK] in H; apply andb_true_iff in H; destruct H as [H1 H2]; [exact H1|exact (IH _ H2)].
Qed.

Section VmRun.
Variable M : machine.
Lemma fs_next : forall P n c cf d, fsteps M P n c cf -> at_ret M P cf -> step M P c = Some d ->
  exists n', n = S n' /\ fineAt P c /\ fsteps M P n' d cf.
Proof.
  intros P n c cf d F R S1. destruct n as [|n]; simpl in F.
  - subst cf. exfalso. unfold at_ret in R. destruct c as [k vs va r m]. simpl in R. unfold step in S1.
    destruct R as [R|R]; rewrite R in S1; discriminate S1.
  - destruct F as [Fi [d' [S2 F]]]. rewrite S1 in S2. injection S2 as <-. exists n. auto.
Qed.
Lemma step_lab : forall P k l c vs va r m, code_at P k (ILab l :: c) -> step M P (Cfg k vs va r m) = Some (Cfg (S k) vs va r m).
Proof. intros. unfold step. rewrite (code_at_hd _ _ _ _ H). reflexivity. Qed.
Lemma step_cns : forall P k x c vs va r m, code_at P k (ILdCns x :: c) -> step M P (Cfg k vs va r m) = Some (Cfg (S k) (w16 x :: vs) va r m).
Proof. intros. unfold step. rewrite (code_at_hd _ _ _ _ H). reflexivity. Qed.
Lemma step_jmp : forall P k l c k' c' vs va r m, code_at P k (IJmp l :: c) -> code_at P k' (ILab l :: c') -> NoDup (defs P) ->
  step M P (Cfg k vs va r m) = Some (Cfg k' vs va r m).
Proof. intros. unfold step, goto. rewrite (code_at_hd _ _ _ _ H). rewrite (code_at_find _ _ _ _ H0 H1). reflexivity. Qed.

Definition mac (x l1 l2 l3 : Z) : code :=
  [IJmp l3; ILab l1; ILdCns x] ++ (if l2 =? -1 then [] else [IJmp l3; ILab l2; ILdCns (1 - x)]) ++ [ILab l3].
Lemma expand_mac : forall x l1 l2 l3, x = 0 \/ x = 1 -> expand1 (VBool x l1 l2 l3) = mac x l1 l2 l3.
Proof. intros x l1 l2 l3 [-> | ->]; reflexivity. Qed.

Ltac nxt F R S1 := let n := fresh "n" in let E := fresh "E" in
  destruct (fs_next _ _ _ _ _ F R S1) as [n [E [_ F2]]]; clear F; rename F2 into F.

Lemma mac_fall : forall P k x l1 l2 l3 n vs va r m cf, code_at P k (mac x l1 l2 l3) -> NoDup (defs P) ->
  fsteps M P n (Cfg k vs va r m) cf -> at_ret M P cf ->
  exists n', (n' < n)%nat /\ fsteps M P n' (Cfg (k + length (mac x l1 l2 l3)) vs va r m) cf.
Proof.
  unfold mac. intros P k x l1 l2 l3 n vs va r m cf H N F R. destruct (l2 =? -1).
  - pose proof (code_at_tl _ _ _ _ (code_at_tl _ _ _ _ (code_at_tl _ _ _ _ H))) as H3.
    nxt F R (step_jmp _ _ _ _ _ _ vs va r m H H3 N). nxt F R (step_lab _ _ _ _ vs va r m H3). subst.
    eexists. split; [|match goal with |- fsteps _ _ _ (Cfg ?a _ _ _ _) _ => replace a with (S (S (S (S k)))) by (simpl; lia) end; exact F]. lia.
  - pose proof (code_at_tl _ _ _ _ (code_at_tl _ _ _ _ (code_at_tl _ _ _ _ (code_at_tl _ _ _ _ (code_at_tl _ _ _ _ (code_at_tl _ _ _ _ H)))))) as H6.
    nxt F R (step_jmp _ _ _ _ _ _ vs va r m H H6 N). nxt F R (step_lab _ _ _ _ vs va r m H6). subst.
    eexists. split; [|match goal with |- fsteps _ _ _ (Cfg ?a _ _ _ _) _ => replace a with (S (S (S (S (S (S (S k))))))) by (simpl; lia) end; exact F]. lia.
Qed.
Lemma mac_l1 : forall P k j x l1 l2 l3 n vs va r m cf, code_at P k (mac x l1 l2 l3) -> NoDup (defs P) -> find l1 P = Some j ->
  fsteps M P n (Cfg j vs va r m) cf -> at_ret M P cf ->
  exists n', (n' < n)%nat /\ fsteps M P n' (Cfg (k + length (mac x l1 l2 l3)) (w16 x :: vs) va r m) cf.
Proof.
  unfold mac. intros P k j x l1 l2 l3 n vs va r m cf H N J F R.
  pose proof (code_at_tl _ _ _ _ H) as H1. rewrite (code_at_find _ _ _ _ H1 N) in J. injection J as <-.
  pose proof (code_at_tl _ _ _ _ H1) as H2. pose proof (code_at_tl _ _ _ _ H2) as H3.
  nxt F R (step_lab _ _ _ _ vs va r m H1). nxt F R (step_cns _ _ _ _ vs va r m H2). destruct (l2 =? -1).
  - nxt F R (step_lab _ _ _ _ (w16 x :: vs) va r m H3). subst.
    eexists. split; [|match goal with |- fsteps _ _ _ (Cfg ?a _ _ _ _) _ => replace a with (S (S (S (S k)))) by (simpl; lia) end; exact F]. lia.
  - pose proof (code_at_tl _ _ _ _ (code_at_tl _ _ _ _ (code_at_tl _ _ _ _ H3))) as H6.
    nxt F R (step_jmp _ _ _ _ _ _ (w16 x :: vs) va r m H3 H6 N). nxt F R (step_lab _ _ _ _ (w16 x :: vs) va r m H6). subst.
    eexists. split; [|match goal with |- fsteps _ _ _ (Cfg ?a _ _ _ _) _ => replace a with (S (S (S (S (S (S (S k))))))) by (simpl; lia) end; exact F]. lia.
Qed.
Lemma mac_l2 : forall P k j x l1 l2 l3 n vs va r m cf, l2 <> -1 -> code_at P k (mac x l1 l2 l3) -> NoDup (defs P) -> find l2 P = Some j ->
  fsteps M P n (Cfg j vs va r m) cf -> at_ret M P cf ->
  exists n', (n' < n)%nat /\ fsteps M P n' (Cfg (k + length (mac x l1 l2 l3)) (w16 (1 - x) :: vs) va r m) cf.
Proof.
  unfold mac. intros P k j x l1 l2 l3 n vs va r m cf D H N J F R. destruct (Z.eqb_spec l2 (-1)); [contradiction|].
  pose proof (code_at_tl _ _ _ _ (code_at_tl _ _ _ _ (code_at_tl _ _ _ _ (code_at_tl _ _ _ _ H)))) as H4.
  rewrite (code_at_find _ _ _ _ H4 N) in J. injection J as <-.
  pose proof (code_at_tl _ _ _ _ H4) as H5. pose proof (code_at_tl _ _ _ _ H5) as H6.
  nxt F R (step_lab _ _ _ _ vs va r m H4). nxt F R (step_cns _ _ _ _ vs va r m H5).
  nxt F R (step_lab _ _ _ _ (w16 (1 - x) :: vs) va r m H6). subst.
  eexists. split; [|match goal with |- fsteps _ _ _ (Cfg ?a _ _ _ _) _ => replace a with (S (S (S (S (S (S (S k))))))) by (simpl; lia) end; exact F]. lia.
Qed.
End VmRun.

Lemma lab_inv : forall ord d np l s c s', vm true ord d np (VI (ILab l)) s = Some (c, s') ->
  noFlg s /\ c = [TLab (LbL l)] /\ s' = set_fv s false.
Proof.
  intros ord d np l s c s' H. cbn [vm] in H. seqi H as x1 y1 A1 z1. inv1 A1. inv1 A1. seqi H as x2 y2 A2 z2. inv1 A2. inv1 H.
  specialize (G eq_refl). apply negb_true_iff in G. apply noFlg_exists in G. auto.
Qed.

Section Loop.
Variable M : machine.
Variable Hw : hw M.
Variables (FP0 depth np : Z) (GR0 SMS : Z -> Z) (ord : bool).
Hypothesis Hd : 0 <= depth.
Hypothesis Hfl : flat M.
Hypothesis Hhw : hwOk M Hw ord.
Notation SIM := (SIM M FP0 depth np GR0 SMS ord).
Notation tacT := (tac true ord depth np).
Notation vmT := (vm true ord depth np).
Notation treaches := (treaches M Hw).

(* the function: entry instruction e0 with code cE, then p with code cp *)
Variables (e0 : instr) (p : list vop) (sE sF : tst) (cE cp : list tin) (inr : bool).
Hypothesis Htac : tacT p sE = Some (cp, sF).
Hypothesis HwfE : WF sE.
Hypothesis Hops : forallb (opOK inr) p = true.
Hypothesis Hnd : NoDup (defs (e0 :: expand p)).
Hypothesis Hnt : NoDup (tdefs (cE ++ cp)).
Hypothesis Hjoin : joinOK ord depth np p sE = true.
Hypothesis Hres : resOK p p = true.
Variables (P : code) (C : list tin).
Hypothesis HP : P = e0 :: expand p.
Hypothesis HC : C = cE ++ cp.

Lemma slots : Forall slotOk p.
Proof.
  apply Forall_forall. intros v I. rewrite forallb_forall in Hops. specialize (Hops _ I).
  destruct v as [[]|]; simpl in *; auto; apply Z.leb_le; exact Hops.
Qed.
Lemma WF_at : forall p1 p2 c1 s1, p = p1 ++ p2 -> tacT p1 sE = Some (c1, s1) -> WF s1.
Proof.
  intros p1 p2 c1 s1 E T. pose proof slots as Sl. rewrite E in Sl. apply Forall_app in Sl. exact (tac_WF _ _ _ _ _ _ _ _ (proj1 Sl) HwfE T).
Qed.
Lemma split_at : forall p1 v p2 c1 s1, p = p1 ++ v :: p2 -> tacT p1 sE = Some (c1, s1) ->
  exists cv s2 c2, vmT v s1 = Some (cv, s2) /\ tacT (p1 ++ [v]) sE = Some (c1 ++ cv, s2) /\ WF s1 /\ WF s2 /\
    opOK inr v = true /\ C = (cE ++ c1) ++ cv ++ c2 /\ code_at P (S (length (expand p1))) (expand1 v) /\
    S (length (expand (p1 ++ [v]))) = (S (length (expand p1)) + length (expand1 v))%nat.
Proof.
  intros p1 v p2 c1 s1 E T. pose proof Htac as T0. rewrite E in T0. destruct (tac_app _ _ _ _ _ _ _ _ _ T0) as [d1 [q1 [d2 [A [B Ec]]]]].
  rewrite T in A. injection A as <- <-. simpl in B. destruct (andThen_inv _ _ _ _ _ B) as [cv [s2 [c2 [V [B2 E2]]]]].
  assert (T1 : tacT (p1 ++ [v]) sE = Some (c1 ++ cv, s2)) by exact (tac_snoc _ _ _ _ _ _ _ _ _ _ _ T V).
  exists cv, s2, c2. split; [exact V|split; [exact T1|split; [exact (WF_at _ _ _ _ E T)|split; [|split; [|split; [|split]]]]]].
  - apply (WF_at (p1 ++ [v]) p2 (c1 ++ cv)); [rewrite <- app_assoc; exact E|exact T1].
  - rewrite forallb_forall in Hops. apply Hops. rewrite E. apply in_or_app. right. left. reflexivity.
  - rewrite HC. rewrite Ec, E2. rewrite <- !app_assoc. reflexivity.
  - exists (e0 :: expand p1), (expand p2). split; [|reflexivity]. rewrite HP. rewrite E, expand_app. reflexivity.
  - rewrite expand_app, app_length. simpl. rewrite app_nil_r. reflexivity.
Qed.

(* a result waiting in G0 is not disturbed before the return *)
Definition RV (q : list vop) (r : option Z) (t : mst M) : Prop :=
  r = None \/ exists v fuel, r = Some v /\ gr t 0 = v /\ toRet fuel p q = true.

Definition AT (n : nat) (p1 p2 : list vop) (c1 : list tin) (s1 : tst) vs va r m t cf : Prop :=
  p = p1 ++ p2 /\ tacT p1 sE = Some (c1, s1) /\ SIM s1 vs va m t /\ RV p2 r t /\
  fsteps M P n (Cfg (S (length (expand p1))) vs va r m) cf.

Lemma NdP : NoDup (defs P).
Proof. rewrite HP. exact Hnd. Qed.
Lemma Ndp : NoDup (defs (expand p)).
Proof. pose proof Hnd as H. destruct e0; try exact H. inversion H; assumption. Qed.

(* where C stands when the label is inside the code after the entry *)
Lemma arrive : forall n l sj vs va r m t cf k, In (l, (vst sj, lay sj)) (targets ord depth np p sE) ->
  SIM sj vs va m t ->
  (r = None \/ exists v fuel q, r = Some v /\ gr t 0 = v /\ after l p = Some q /\ toRet fuel p q = true) ->
  find l P = Some k -> fsteps M P n (Cfg k vs va r m) cf -> at_ret M P cf ->
  exists n' p1 p2 c1 s1 vs' t' j, (n' < n)%nat /\ tfind (LbL l) C = Some j /\
    treaches C (TCfg j t) (TCfg (length (cE ++ c1)) t') /\ AT n' p1 p2 c1 s1 vs' va r m t' cf.
Proof.
  intros n l sj vs va r m t cf k It Sm Rv Fk Fs Ar.
  destruct (in_targets _ _ _ _ _ _ _ It) as [a [v [b [ca [sa [cv [sb [E [Ta [Vb K]]]]]]]]]].
  destruct (split_at _ _ _ _ _ E Ta) as [cv' [sb' [c2 [V' [T1 [Wa [Wb [Ok [Ec [Ca Le]]]]]]]]]].
  rewrite Vb in V'. injection V' as <- <-.
  pose proof Hnt as Nt. rewrite <- HC in Nt. rewrite Ec in Nt.
  assert (Eb : p = (a ++ [v]) ++ b) by (rewrite <- app_assoc; exact E).
  destruct K as [[-> Sh]|[x [l1 [l2 [l3 [-> [Sh Hl]]]]]]]; injection Sh as Sh1 Sh2.
  - (* a label instruction *)
    simpl in Ca. rewrite (code_at_find _ _ _ _ Ca NdP) in Fk. injection Fk as <-.
    destruct (fs_next _ _ _ _ _ _ Fs Ar (step_lab M _ _ _ _ vs va r m Ca)) as [n' [-> [_ Fs']]].
    destruct (lab_inv _ _ _ _ _ _ _ Vb) as [G [-> ->]].
    exists n', (a ++ [VI (ILab l)]), b, (ca ++ [TLab (LbL l)]), (set_fv sa false), vs, t, (length (cE ++ ca)).
    split; [lia|split; [|split; [|split; [exact Eb|split; [exact T1|split; [|split]]]]]].
    + rewrite Ec. replace (length (cE ++ ca)) with (length (cE ++ ca) + 0)%nat by lia. apply find_mid; [reflexivity|exact Nt].
    + rewrite Ec. replace (length (cE ++ ca ++ [TLab (LbL l)])) with (length (cE ++ ca) + 1)%nat by (rewrite !app_length; simpl; lia).
      replace (length (cE ++ ca)) with (length (cE ++ ca) + 0)%nat at 1 by lia.
      apply (treaches_step _ _ _ _ (TCfg (length (cE ++ ca) + 1) t)); [|apply treaches_refl].
      exact (run_lab M Hw (cE ++ ca) [TLab (LbL l)] c2 0 (LbL l) t eq_refl).
    + destruct Sm as [S1 S2 S3 S4 S5 S6 S7 S8]. rewrite Sh1 in *. rewrite Sh2 in *. split; cbn [set_fv vst lay fcc fv]; try assumption; [|discriminate].
      apply (Forall2_change (den M depth np (fcc sj) t)); [exact S3|].
      intros o x y X _ D. eapply den_cc; [exact (noFlg_nth _ _ _ G X)|exact D].
    + destruct Rv as [->|[u [fuel [q [-> [Gu [Aq Tr]]]]]]]; [left; reflexivity|right]. exists u, fuel. split; [reflexivity|split; [exact Gu|]].
      rewrite E in Aq. rewrite after_lab in Aq by (rewrite <- E; exact Ndp). injection Aq as <-. exact Tr.
    + rewrite Le. simpl. replace (length (expand a) + 1)%nat with (S (length (expand a))) by lia. exact Fs'.
  - (* a label of a macro instruction *)
    assert (Hx : x = 0 \/ x = 1).
    { simpl in Ok. apply orb_true_iff in Ok. destruct Ok as [Ok|Ok]; apply Z.eqb_eq in Ok; auto. }
    rewrite (expand_mac _ _ _ _ Hx) in Ca, Le.
    assert (Rn : r = None).
    { destruct Rv as [->|[u [fuel [q [_ [_ [Aq _]]]]]]]; [reflexivity|].
      exfalso. rewrite E in Aq. rewrite (after_macro l x l1 l2 l3) in Aq; [discriminate Aq|rewrite <- E; exact Ndp|exact Hl]. }
    assert (Q : forall y n' t' j, (n' < n)%nat -> tfind (LbL l) C = Some j ->
      treaches C (TCfg j t) (TCfg (length (cE ++ ca) + length cv) t') -> SIM sb (w16 y :: vs) va m t' ->
      fsteps M P n' (Cfg (S (length (expand a)) + length (mac x l1 l2 l3)) (w16 y :: vs) va r m) cf ->
      exists n' p1 p2 c1 s1 vs' t' j, (n' < n)%nat /\ tfind (LbL l) C = Some j /\
        treaches C (TCfg j t) (TCfg (length (cE ++ c1)) t') /\ AT n' p1 p2 c1 s1 vs' va r m t' cf).
    { intros y n' t' j L1 L2 L3 L4 L5. exists n', (a ++ [VBool x l1 l2 l3]), b, (ca ++ cv), sb, (w16 y :: vs), t', j.
      split; [exact L1|split; [exact L2|split; [|split; [exact Eb|split; [exact T1|split; [exact L4|split; [left; exact Rn|]]]]]]].
      - replace (length (cE ++ ca ++ cv)) with (length (cE ++ ca) + length cv)%nat by (rewrite !app_length; lia). exact L3.
      - rewrite Le. exact L5. }
    rewrite Ec in Q. cbn [vm] in Vb. destruct Hl as [->|[-> D2]].
    + destruct (mac_l1 M _ _ _ _ _ _ _ _ _ _ _ _ _ Ca NdP Fk Fs Ar) as [n' [L1 L5]].
      destruct (macro_l1 M Hw FP0 depth np GR0 SMS ord x l1 l2 l3 sa cv sb sj vs va m t (cE ++ ca) c2 Wa Wb Vb Nt Sm Sh1 Sh2) as [j [t' [J1 [J2 J3]]]].
      rewrite Ec. exact (Q x n' t' j L1 J1 J2 J3 L5).
    + destruct (mac_l2 M _ _ _ _ _ _ _ _ _ _ _ _ _ D2 Ca NdP Fk Fs Ar) as [n' [L1 L5]].
      destruct (macro_l2 M Hw FP0 depth np GR0 SMS ord x l1 l2 l3 sa cv sb sj vs va m t (cE ++ ca) c2 D2 Wa Wb Vb Nt Sm Sh1 Sh2) as [j [t' [J1 [J2 J3]]]].
      rewrite Ec. exact (Q (1 - x) n' t' j L1 J1 J2 J3 L5).
Qed.

Lemma join_at : forall p1 v p2 c1 s1 cv s2 l, p = p1 ++ v :: p2 -> tacT p1 sE = Some (c1, s1) -> vmT v s1 = Some (cv, s2) ->
  (v = VI (IJmp l) \/ v = VI (IJT l) \/ v = VI (IJF l)) -> In (l, (vst s2, lay s2)) (targets ord depth np p sE).
Proof.
  intros p1 v p2 c1 s1 cv s2 l E T V K. pose proof Hjoin as J. unfold joinOK in J. rewrite forallb_forall in J.
  pose proof (in_jumps _ _ _ _ p1 v p2 _ _ _ _ _ T V K) as I. rewrite <- E in I. specialize (J _ I).
  destruct (in_dec shape_dec (l, (vst s2, lay s2)) (targets ord depth np p sE)); [assumption|discriminate J].
Qed.

Definition ends (cf : cfg M) (c : tcfg M) : Prop :=
  exists q1 i q2 cq sr t, p = q1 ++ VI i :: q2 /\ (i = IRet \/ i = IRetI) /\ tacT q1 sE = Some (cq, sr) /\
    c = TCfg (length (cE ++ cq)) t /\ SIM sr (stk cf) (args cf) (mem cf) t /\
    forall v, reg cf = Some v -> gr t 0 = v.

Lemma run_main : forall n p1 p2 c1 s1 vs va r m t cf, AT n p1 p2 c1 s1 vs va r m t cf -> at_ret M P cf ->
  exists c, treaches C (TCfg (length (cE ++ c1)) t) c /\ ends cf c.
Proof.
  induction n as [n IH] using (well_founded_induction lt_wf).
  intros p1 p2 c1 s1 vs va r m t cf (E & T & Sm & Rv & Fs) Ar.
  destruct p2 as [|v p2].
  { exfalso. rewrite app_nil_r in E. assert (L : nth_error P (S (length (expand p1))) = None).
    { apply nth_error_None. rewrite HP. rewrite E. simpl. lia. }
    destruct n as [|n]; cbn [fsteps] in Fs.
    - subst cf. unfold at_ret in Ar. cbn [pc] in Ar. destruct Ar as [Ar|Ar]; rewrite L in Ar; discriminate Ar.
    - destruct Fs as [_ [d [Fs _]]]. unfold step in Fs. rewrite L in Fs. discriminate Fs. }
  destruct (split_at _ _ _ _ _ E T) as [cv [s2 [c2 [V [T1 [W1 [W2 [Ok [Ec [Ca Le]]]]]]]]]].
  pose proof Hnt as Nt. rewrite <- HC in Nt. rewrite Ec in Nt.
  assert (Eb : p = (p1 ++ [v]) ++ p2) by (rewrite <- app_assoc; exact E).
  assert (Lc : length (cE ++ c1 ++ cv) = (length (cE ++ c1) + length cv)%nat) by (rewrite !app_length; lia).
  (* continue at the next piece *)
  assert (Go : forall n' vs' va' r' m' t', (n' < n)%nat -> SIM s2 vs' va' m' t' -> RV p2 r' t' ->
    fsteps M P n' (Cfg (S (length (expand (p1 ++ [v])))) vs' va' r' m') cf ->
    treaches C (TCfg (length (cE ++ c1)) t) (TCfg (length (cE ++ c1) + length cv) t') ->
    exists c, treaches C (TCfg (length (cE ++ c1)) t) c /\ ends cf c).
  { intros n' vs' va' r' m' t' L Sm' Rv' Fs' Tr.
    destruct (IH n' L (p1 ++ [v]) p2 (c1 ++ cv) s2 vs' va' r' m' t' cf) as [c [R1 R2]].
    - split; [exact Eb|split; [exact T1|split; [exact Sm'|split; [exact Rv'|exact Fs']]]].
    - exact Ar.
    - exists c. split; [|exact R2]. rewrite Lc in R1. exact (treaches_trans M Hw _ _ _ _ Tr R1). }
  destruct v as [i|x l1 l2 l3].
  - (* an instruction *)
    assert (Hk : nth_error P (S (length (expand p1))) = Some i) by exact (code_at_hd _ _ _ _ Ca).
    assert (Le' : S (length (expand (p1 ++ [VI i]))) = S (S (length (expand p1)))) by (rewrite Le; simpl; lia). clear Le.
    destruct (match i with IRet | IRetI => true | _ => false end) eqn:Ir.
    { assert (Hi : i = IRet \/ i = IRetI) by (destruct i; try discriminate Ir; auto).
      destruct n as [|n]; cbn [fsteps] in Fs.
      - subst cf. exists (TCfg (length (cE ++ c1)) t). split; [apply treaches_refl|].
        exists p1, i, p2, c1, s1, t. split; [exact E|split; [exact Hi|split; [exact T|split; [reflexivity|split; [exact Sm|]]]]].
        simpl. intros u Hu. destruct Rv as [->|[w [f [-> [Gw _]]]]]; [discriminate Hu|]. congruence.
      - exfalso. destruct Fs as [_ [d [Fs _]]]. unfold step in Fs. rewrite Hk in Fs. destruct Hi as [-> | ->]; discriminate Fs. }
    (* not a return: the virtual machine takes a step *)
    destruct n as [|n].
    { exfalso. cbn [fsteps] in Fs. subst cf. destruct Ar as [Ar|Ar]; change (pc (Cfg (S (length (expand p1))) vs va r m)) with (S (length (expand p1))) in Ar;
        rewrite Hk in Ar; injection Ar as ->; discriminate Ir. }
    cbn [fsteps] in Fs. destruct Fs as [Fi [d [St Fs]]]. unfold fineAt in Fi. cbn [pc stk] in Fi. rewrite Hk in Fi.
    assert (RvL : forall l, i = IJmp l -> r = None \/ exists v fuel q, r = Some v /\ gr t 0 = v /\ after l p = Some q /\ toRet fuel p q = true).
    { intros l ->. destruct Rv as [->|[u [fu [-> [Gu Tr]]]]]; [left; reflexivity|right].
      destruct fu as [|fu]; [discriminate Tr|]. simpl in Tr. destruct (after l p) as [q|] eqn:Aq; [|discriminate Tr]. exists u, fu, q. auto. }
    assert (RvN : forall (t1 : mst M), i <> IMReg -> (forall l, i <> ILab l) -> (forall l, i <> IJmp l) -> RV p2 r t1 /\ r = None).
    { intros t1 N1 N2 N3. destruct Rv as [->|[u [fu [-> [Gu Tr]]]]]; [split; [left|]; reflexivity|]. exfalso.
      destruct fu as [|fu]; [discriminate Tr|]. simpl in Tr. destruct i; try discriminate Tr; try discriminate Ir; [exact (N2 _ eq_refl)|exact (N3 _ eq_refl)]. }
    (* taking a jump with the machine in a state that matches *)
    assert (Jump : forall l vs' va' t1 pre j0, In (l, (vst s2, lay s2)) (targets ord depth np p sE) -> SIM s2 vs' va' m t1 ->
      (r = None \/ exists v fuel q, r = Some v /\ gr t1 0 = v /\ after l p = Some q /\ toRet fuel p q = true) ->
      goto M P l vs' va' r m = Some d -> pre = TCfg (length (cE ++ c1)) t ->
      (forall j, tfind (LbL l) C = Some j -> treaches C pre (TCfg j0 t1) /\ tstep M Hw C (TCfg j0 t1) = Some (TCfg j t1)) ->
      exists c, treaches C pre c /\ ends cf c).
    { intros l vs' va' t1 pre j0 It Sm' Rj Gt -> Tr. unfold goto in Gt. destruct (find l P) as [k|] eqn:Fk; [|discriminate Gt].
      injection Gt as <-. destruct (arrive _ _ _ _ _ _ _ _ _ _ It Sm' Rj Fk Fs Ar) as [n' [q1 [q2 [cq [sq [vs2 [t2 [j [L [Fj [Tq At]]]]]]]]]]].
      destruct (Tr j Fj) as [Tr1 Tr2]. destruct (IH n' ltac:(lia) _ _ _ _ _ _ _ _ _ _ At Ar) as [c [R1 R2]].
      exists c. split; [|exact R2]. refine (treaches_trans M Hw _ _ _ _ Tr1 _). apply (treaches_step M Hw _ _ _ _ Tr2).
      exact (treaches_trans M Hw _ _ _ _ Tq R1). }
    destruct (straight i) eqn:Si.
    + (* straight-line *)
      destruct d as [k' vs' va' r' m'].
      destruct (straight_SIM M Hw FP0 depth np GR0 SMS ord Hd Hfl Hhw i s1 cv s2 P _ vs va r m vs' va' r' m' k' t Si W1 Sm V Hk St Fi) as [-> [t1 [X1 [S1 Rr]]]].
      apply (Go n vs' va' r' m' t1); [lia|exact S1| | |].
      * destruct Rr as [[N ->]|[-> ->]].
        -- destruct i; try discriminate Si; try (refine (proj1 (RvN t1 N _ _)); intros; discriminate).
           (* label: t1 = t *) destruct (lab_inv _ _ _ _ _ _ _ V) as [_ [-> _]].
           assert (t1 = t) as ->. { inversion X1; subst. match goal with Q : exec1 _ _ _ _ = Some _ |- _ => simpl in Q; injection Q as <- end.
             match goal with Q : Ex _ _ [] _ _ |- _ => inversion Q; reflexivity end. }
           destruct Rv as [->|[u [fu [-> [Gu Tr]]]]]; [left; reflexivity|right]. destruct fu as [|fu]; [discriminate Tr|]. exists u, fu. auto.
        -- right. exists (gr t1 0), (S (length p)). split; [reflexivity|split; [reflexivity|]].
           pose proof Hres as Q. rewrite E in Q at 2. exact (resOK_at _ _ _ Q).
      * rewrite Le'. exact Fs.
      * rewrite Ec. exact (Ex_run M Hw _ _ _ X1 (cE ++ c1) c2 Nt).
    + destruct i; try discriminate Si; try discriminate Ir; try discriminate Ok.
      * (* IJmp *) unfold step in St. rewrite Hk in St. simpl in V. inv1 V.
        apply (Jump l vs va t _ (length (cE ++ c1))); [exact (join_at _ _ _ _ _ [TJmp (LbL l)] s1 l E T eq_refl (or_introl eq_refl))|exact Sm|exact (RvL _ eq_refl)|exact St|reflexivity|].
        intros j Fj. split; [apply treaches_refl|]. unfold tstep. simpl tpc. rewrite Ec. 
        replace (length (cE ++ c1)) with (length (cE ++ c1) + 0)%nat by lia. rewrite (at_mid (cE ++ c1) [TJmp (LbL l)] c2 0 (TJmp (LbL l)) eq_refl).
        unfold tgoto. rewrite <- Ec, Fj. reflexivity.
      * (* IJT *) unfold step in St. rewrite Hk in St. destruct vs as [|v vs]; [discriminate St|]. 
        destruct (RvN t) as [_ Rn]; try (intros; discriminate). subst r.
        cbn [vm] in V. destruct (boolJmp_SIM M Hw FP0 depth np GR0 SMS ord Hd true l s1 cv s2 v vs va m t W1 Sm V) as [c0 [kk [t1 [-> [X1 [S1 Ho]]]]]].
        assert (Ec2 : C = (cE ++ c1) ++ c0 ++ ([TJcc kk (LbL l)] ++ c2)) by (rewrite Ec, <- !app_assoc; reflexivity).
        assert (Tr0 : treaches C (TCfg (length (cE ++ c1)) t) (TCfg (length (cE ++ c1) + length c0) t1)).
        { rewrite Ec2. apply (Ex_run M Hw _ _ _ X1). rewrite <- Ec2, Ec. exact Nt. }
        assert (At : nth_error C (length (cE ++ c1) + length c0) = Some (TJcc kk (LbL l))).
        { rewrite Ec. apply at_mid. rewrite nth_error_app2 by lia. rewrite Nat.sub_diag. reflexivity. }
        destruct (v =? 0) eqn:Ez.
        -- injection St as <-. apply (Go n vs va None m t1); [lia|exact S1|left; reflexivity|rewrite Le'; exact Fs|].
           apply (treaches_trans M Hw _ _ _ _ Tr0). apply (treaches_step M Hw _ _ (TCfg (length (cE ++ c1) + length (c0 ++ [TJcc kk (LbL l)])) t1)); [|apply treaches_refl].
           unfold tstep. simpl tpc. rewrite At. simpl. rewrite Ho. simpl. f_equal. f_equal. rewrite !app_length. simpl. lia.
        -- apply (Jump l vs va t1 _ (length (cE ++ c1) + length c0)%nat); [exact (join_at _ _ _ _ _ _ s2 l E T V (or_intror (or_introl eq_refl)))|exact S1|left; reflexivity|exact St|reflexivity|].
           intros j Fj. split; [exact Tr0|]. unfold tstep. simpl tpc. rewrite At. simpl. rewrite Ho. simpl. unfold tgoto. rewrite Fj. reflexivity.
      * (* IJF *) unfold step in St. rewrite Hk in St. destruct vs as [|v vs]; [discriminate St|]. 
        destruct (RvN t) as [_ Rn]; try (intros; discriminate). subst r.
        cbn [vm] in V. destruct (boolJmp_SIM M Hw FP0 depth np GR0 SMS ord Hd false l s1 cv s2 v vs va m t W1 Sm V) as [c0 [kk [t1 [-> [X1 [S1 Ho]]]]]].
        assert (Ec2 : C = (cE ++ c1) ++ c0 ++ ([TJcc kk (LbL l)] ++ c2)) by (rewrite Ec, <- !app_assoc; reflexivity).
        assert (Tr0 : treaches C (TCfg (length (cE ++ c1)) t) (TCfg (length (cE ++ c1) + length c0) t1)).
        { rewrite Ec2. apply (Ex_run M Hw _ _ _ X1). rewrite <- Ec2, Ec. exact Nt. }
        assert (At : nth_error C (length (cE ++ c1) + length c0) = Some (TJcc kk (LbL l))).
        { rewrite Ec. apply at_mid. rewrite nth_error_app2 by lia. rewrite Nat.sub_diag. reflexivity. }
        destruct (v =? 0) eqn:Ez.
        -- apply (Jump l vs va t1 _ (length (cE ++ c1) + length c0)%nat); [exact (join_at _ _ _ _ _ _ s2 l E T V (or_intror (or_intror eq_refl)))|exact S1|left; reflexivity|exact St|reflexivity|].
           intros j Fj. split; [exact Tr0|]. unfold tstep. simpl tpc. rewrite At. simpl. rewrite Ho. simpl. unfold tgoto. rewrite Fj. reflexivity.
        -- injection St as <-. apply (Go n vs va None m t1); [lia|exact S1|left; reflexivity|rewrite Le'; exact Fs|].
           apply (treaches_trans M Hw _ _ _ _ Tr0). apply (treaches_step M Hw _ _ (TCfg (length (cE ++ c1) + length (c0 ++ [TJcc kk (LbL l)])) t1)); [|apply treaches_refl].
           unfold tstep. simpl tpc. rewrite At. simpl. rewrite Ho. simpl. f_equal. f_equal. rewrite !app_length. simpl. lia.
  - (* a macro instruction *)
    assert (Hx : x = 0 \/ x = 1).
    { simpl in Ok. apply orb_true_iff in Ok. destruct Ok as [Ok|Ok]; apply Z.eqb_eq in Ok; auto. }
    assert (Rn : r = None).
    { destruct Rv as [->|[u [fu [_ [_ Tr]]]]]; [reflexivity|]. destruct fu; discriminate Tr. }
    subst r. rewrite (expand_mac _ _ _ _ Hx) in Ca, Le. cbn [vm] in V.
    destruct (mac_fall M _ _ _ _ _ _ _ _ _ _ _ _ Ca NdP Fs Ar) as [n' [L Fs']].
    assert (Vs : exists v rest, vs = v :: rest).
    { destruct vs as [|v rest]; [|eauto]. exfalso. pose proof (SIM_len M _ _ _ _ _ _ _ _ _ _ _ Sm) as Ln.
      unfold vmBool in V. inv1 V. apply ent_at_inv in A. destruct A as [e [A _]]. apply nth_error_lt in A. simpl in Ln. lia. }
    destruct Vs as [v [rest ->]].
    destruct (macro_fall M Hw FP0 depth np GR0 SMS ord Hd x l1 l2 l3 s1 cv s2 v rest va m t (cE ++ c1) c2 Hx W1 W2 Sm V Nt) as [t1 [Tr S1]].
    apply (Go n' (v :: rest) va None m t1); [exact L|exact S1|left; reflexivity|rewrite Le; exact Fs'|rewrite Ec; exact Tr].
Qed.
End Loop.
