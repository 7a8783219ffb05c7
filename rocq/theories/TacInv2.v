(* Every instruction of the translator keeps the bookkeeping of TacInv.v. *)
From Coq Require Import ZArith Bool Lia List Permutation.
From Verif Require Import Word SyTree ExprSem VM VmCode TacSpec Tac TacInv.
Import ListNotations.
Open Scope Z_scope.

Definition regN (e : ent) : option Z :=
  match e with XAcc r | XReg r | XFlg r | XWnd r | XByt r => Some r | _ => None end.
Lemma regOf_inv : forall e k s c s', regOf e k s = Some (c, s') ->
  exists r, regN e = Some r /\ k r s = Some (c, s').
Proof. intros e k s c s' H. destruct e; unfold regOf, fail in H; try discriminate H; simpl; eauto. Qed.

Ltac inv2 H :=
  match type of H with
  | regOf _ _ _ = Some _ =>
      let r := fresh "r" in let E := fresh "R" in
      apply regOf_inv in H; destruct H as [r [E H]]; cbv beta in H
  | _ => inv1 H
  end.

(* like WF, with the accumulators in use given separately *)
Record PW (s : tst) (l : list Z) : Prop := {
  pw_acc : W s l; pw_ent : Forall entOk (vst s); pw_flg : flgOk s; pw_len : (length (vst s) <= 20)%nat }.

Lemma WF_PW : forall s, WF s <-> PW s (accs (vst s)).
Proof. intros s. split; intros [A B C D]; split; assumption. Qed.
Lemma PW_perm : forall s l l', Permutation l l' -> PW s l -> PW s l'.
Proof. intros s l l' P [A B C D]. split; try assumption. exact (W_perm _ _ _ P A). Qed.

Lemma flg_is_set_acc : forall s b n o, flg_is (set_acc s b n) o = flg_is s o.
Proof. reflexivity. Qed.

Lemma relEnt_PW : forall o s c s' l l', PW s l -> relEnt o s = Some (c, s') ->
  exists e, nth_error (vst s) o = Some e /\ c = [] /\ vst s' = vst s /\ flg s' = flg s /\ fcc s' = fcc s
    /\ rv s' = rv s /\ fr s' = fr s /\ lay s' = lay s /\ fv s' = fv s /\ tl s' = tl s /\
    (Permutation l (accE e ++ l') -> PW s' l').
Proof.
  intros o s c s' l l' P H. destruct (relEnt_inv _ _ _ _ H) as [e [b [n [E [-> [-> K]]]]]].
  exists e. split; [exact E|]. do 9 (split; [reflexivity|]).
  intros Q. destruct P as [A B C D]. split; try assumption. exact (K l l' A Q).
Qed.

Lemma popRaw_inv : forall n s c s', popRaw n s = Some (c, s') ->
  (n <= length (vst s))%nat /\ c = [] /\
  s' = set_vst (set_flg s (match flg s with
                        | Some i => if Nat.ltb (i + n) (length (vst s)) then Some i else None
                        | None => None end)) (skipn n (vst s)).
Proof.
  unfold popRaw. intros n s c s' H. inv1 H. inv1 H. inv1 A. inv1 B.
  apply Nat.ltb_ge in Eb. split; [exact Eb|split; reflexivity].
Qed.
Lemma nth_error_skip : forall {A} n (l : list A) o, nth_error (skipn n l) o = nth_error l (n + o).
Proof. intros A. induction n; intros [|x l] o; simpl; auto. destruct o; reflexivity. Qed.

Lemma popRaw_WF : forall n s c s' l, PW s l -> Permutation l (accs (skipn n (vst s))) ->
  popRaw n s = Some (c, s') -> WF s' /\ vst s' = skipn n (vst s) /\ (noFlg s -> noFlg s') /\
    (length (vst s') + n = length (vst s))%nat.
Proof.
  intros n s c s' l [A B C D] P H. destruct (popRaw_inv _ _ _ _ H) as [L [_ E]].
  assert (V : vst s' = skipn n (vst s)) by (rewrite E; reflexivity).
  assert (Ln : (length (vst s') + n = length (vst s))%nat) by (rewrite V, skipn_length; lia).
  split; [split|split; [exact V|split; [|exact Ln]]].
  - rewrite V. apply (W_perm _ _ _ P). apply (W_same s); [rewrite E; reflexivity|rewrite E; reflexivity|exact A].
  - rewrite V. apply Forall_forall. intros x I. rewrite Forall_forall in B. apply B.
    rewrite <- (firstn_skipn n (vst s)). apply in_or_app. right. exact I.
  - destruct C as [C1 C2].
    assert (F : flg s' = match flg s with
                        | Some i => if Nat.ltb (i + n) (length (vst s)) then Some i else None
                        | None => None end) by (rewrite E; reflexivity).
    split.
    + intros i I. rewrite F in I. destruct (flg s) as [j|]; [|discriminate].
      destruct (Nat.ltb_spec (j + n) (length (vst s))); [|discriminate]. injection I as <-. lia.
    + intros o r I. rewrite V, nth_error_skip in I. pose proof (nth_error_lt _ _ _ I) as Lt.
      specialize (C2 _ _ I). unfold flg_is in *. rewrite F.
      destruct (flg s) as [j|]; [|discriminate]. apply Nat.eqb_eq in C2.
      destruct (Nat.ltb_spec (j + n) (length (vst s))); [|lia]. apply Nat.eqb_eq. lia.
  - lia.
  - intros N o r I. rewrite V, nth_error_skip in I. exact (N _ _ I).
Qed.

Lemma pushStk_inv : forall e s c s', pushStk e s = Some (c, s') ->
  c = [] /\ s' = set_vst s (e :: vst s) /\ (length (vst s) < 20)%nat.
Proof.
  unfold pushStk. intros e s c s' H. inv1 H. inv1 H. inv1 A. inv1 B.
  apply Nat.leb_gt in Eb. auto.
Qed.
Lemma pushStk_WF : forall e s c s', PW s (accE e ++ accs (vst s)) -> entOk e -> isFlg e = false ->
  pushStk e s = Some (c, s') -> WF s'.
Proof.
  intros e s c s' [A B [C1 C2] D] O N H. destruct (pushStk_inv _ _ _ _ H) as [_ [-> L]].
  split; simpl.
  - exact A.
  - constructor; assumption.
  - split; simpl.
    + intros i I. specialize (C1 i I). lia.
    + intros [|o] r I; simpl in I.
      * injection I as ->. discriminate N.
      * specialize (C2 o r I). unfold flg_is in *. simpl. destruct (flg s) as [j|]; [|discriminate].
        apply Nat.eqb_eq in C2. apply Nat.eqb_eq. lia.
  - lia.
Qed.

Lemma noFlg_exists : forall s, existsb isFlg (vst s) = false <-> noFlg s.
Proof.
  intros s. split.
  - intros H o r I. apply nth_error_In in I.
    assert (existsb isFlg (vst s) = true) by (apply existsb_exists; exists (XFlg r); auto). congruence.
  - intros N. destruct (existsb isFlg (vst s)) eqn:E; [|reflexivity].
    apply existsb_exists in E. destruct E as [x [I F]]. apply In_nth_error in I. destruct I as [k I].
    destruct x; try discriminate F. elim (N k r I).
Qed.

(* an entry that names a register can become an indirect address through it *)
Lemma accs_in : forall l o e a, nth_error l o = Some e -> accOf e = Some a -> In a (accs l).
Proof.
  intros l o e a E F. destruct (accs_put _ _ _ E) as [r [P _]].
  apply (Permutation_in a (Permutation_sym P)). unfold accE. rewrite F. left; reflexivity.
Qed.
Lemma WF_acc_range : forall s o e a, WF s -> nth_error (vst s) o = Some e -> accOf e = Some a -> 0 <= a < 3.
Proof.
  intros s o e a Wf E F. destruct (wf_acc _ Wf) as [[_ [_ [C _]]] _]. apply C. exact (accs_in _ _ _ _ E F).
Qed.
Lemma regN_ok : forall s o e r, WF s -> nth_error (vst s) o = Some e -> regN e = Some r ->
  0 <= r < 12 /\ accE e = if r <? 3 then [r] else [].
Proof.
  intros s o e r Wf E R. pose proof (wf_ent _ Wf) as He. rewrite Forall_forall in He.
  specialize (He e (nth_error_In _ _ E)).
  destruct e; simpl in R; try discriminate R; injection R as ->; simpl in He; unfold accE; simpl.
  - split; [lia|]. destruct (Z.ltb_spec r 3); [lia|reflexivity].
  - split; [lia|]. destruct (r <? 3); reflexivity.
  - split; [lia|]. destruct (r <? 3); reflexivity.
  - pose proof (WF_acc_range _ _ _ r Wf E eq_refl). split; [lia|]. destruct (Z.ltb_spec r 3); [reflexivity|lia].
  - pose proof (WF_acc_range _ _ _ r Wf E eq_refl). split; [lia|]. destruct (Z.ltb_spec r 3); [reflexivity|lia].
Qed.

(* replacing an entry by another using the same accumulator *)
Lemma set_ent_WF : forall s o e e', WF s -> nth_error (vst s) o = Some e -> accE e' = accE e ->
  entOk e' -> isFlg e' = false -> WF (set_vst s (put (vst s) o e')).
Proof.
  intros s o e e' Wf E A O N. apply (WF_put s o e e' _ Wf E); try reflexivity; try assumption.
  intros r P. apply (W_same s); try reflexivity. rewrite A. exact (W_perm _ _ _ P (wf_acc _ Wf)).
Qed.

Lemma accs_two : forall a b l, accs (a :: b :: l) = accE a ++ accE b ++ accs l.
Proof. reflexivity. Qed.

Lemma flgTop_WF : forall s, WF s -> noFlg s -> (0 < length (vst s))%nat ->
  WF (set_fv (set_flg s (Some (idx s 0))) true).
Proof.
  intros s Wf N L. destruct Wf as [A B C D]. split; simpl; try assumption.
  split; simpl.
  - intros i I. injection I as <-. unfold idx. lia.
  - intros o r I. elim (N o r I).
Qed.

Section WF2.
Variables (strict ord : bool) (depth np : Z).

Lemma popStk_inv : forall n s c s', popStk strict n s = Some (c, s') ->
  popRaw n s = Some (c, s') /\ (strict = true -> existsb isStk (firstn n (vst s)) = false).
Proof.
  unfold popStk. intros n s c s' H. inv1 H. inv1 A. inv1 A. split; [exact B|].
  intros S. specialize (G S). apply negb_true_iff in G. exact G.
Qed.

(* relEnt 0 ;; popStk 1: a common ending *)
Lemma relpop_WF : forall s c s', WF s -> (relEnt 0 ;; popStk strict 1) s = Some (c, s') ->
  WF s' /\ c = [] /\ vst s' = skipn 1 (vst s) /\ (noFlg s -> noFlg s') /\ (length (vst s') + 1 = length (vst s))%nat
  /\ rv s' = rv s /\ fr s' = fr s.
Proof.
  intros s c s' Wf H. inv1 H. destruct (popStk_inv _ _ _ _ B) as [B1 _].
  destruct (relEnt_PW _ _ _ _ _ (accs (skipn 1 (vst s))) (proj1 (WF_PW s) Wf) A) as [e [E [-> [V [F [_ [Rv [Fr [_ [_ [_ K]]]]]]]]]]].
  assert (P : PW s0 (accs (skipn 1 (vst s0)))).
  { rewrite V. apply K. destruct (vst s) as [|x l]; [discriminate E|]. injection E as ->. apply Permutation_refl. }
  destruct (popRaw_WF 1 s0 c1 s' _ P (Permutation_refl _) B1) as [Wf' [V' [N' L']]].
  destruct (popRaw_inv _ _ _ _ B1) as [_ [-> E']].
  split; [exact Wf'|split; [reflexivity|split; [rewrite V', V; reflexivity|split; [|split; [rewrite L', V; reflexivity|]]]]].
  - intros N. apply N'. intros o r I. rewrite V in I. exact (N o r I).
  - rewrite E'. simpl. auto.
Qed.

Lemma outStkN_WF : forall n s c s', WF s -> outStkN strict n s = Some (c, s') ->
  WF s' /\ length (vst s') = length (vst s) /\ accs (vst s') = [] /\ flg s' = flg s /\ rv s' = rv s /\ fr s' = fr s /\
  (forall o e, nth_error (vst s) o = Some e -> accOf e = None -> nth_error (vst s') o = Some e) /\
  (forall o, nth_error (vst s') o = nth_error (vst s) o \/ nth_error (vst s') o = Some XStk).
Proof.
  induction n as [|n IH]; intros s c s' Wf H; simpl in H; inv1 H; destruct (Z.leb_spec (acnt s) 0) as [Z0|Z0].
  1,3: inv1 H; pose proof (wf_acc _ Wf) as [_ Hc];
    (split; [exact Wf|split; [reflexivity|split; [|auto 8]]]; destruct (accs (vst s)) as [|x l]; [reflexivity|simpl in Hc; lia]).
  - discriminate H.
  - inv1 H. destruct (outStk_WF _ _ _ _ Wf A) as [Wf1 [L1 [_ [_ [o [e [S [E [V1 [F1 [_ [R1 Fr1]]]]]]]]]]]].
    destruct (IH _ _ _ Wf1 B) as [Wf' [L' [Ac [F' [R' [Fr' [K1 K2]]]]]]].
    split; [exact Wf'|split; [congruence|split; [exact Ac|split; [congruence|split; [congruence|split; [congruence|split]]]]]].
    + intros o' e' E' Fn. apply K1; [|exact Fn]. rewrite V1. rewrite put_other; [exact E'|].
      intros ->. destruct (srchAcc_some _ _ S) as [e2 [a2 [E2 F2]]]. rewrite E' in E2. injection E2 as <-. congruence.
    + intros o'. destruct (K2 o') as [K|K]; [|auto]. rewrite K, V1.
      destruct (Nat.eq_dec o o') as [<-|D]; [right; apply put_same; exact (nth_error_lt _ _ _ E)|left; apply put_other; exact D].
Qed.
Lemma accs_nil_noFlg : forall s, accs (vst s) = [] -> noFlg s.
Proof. intros s H o r I. pose proof (accs_nil_flg _ H o _ I) as F. discriminate F. Qed.

Lemma loadTop_WF : forall o s c s', WF s -> loadTop strict o s = Some (c, s') ->
  WF s' /\ length (vst s') = length (vst s) /\ (exists e r, nth_error (vst s') o = Some e /\ (e = XAcc r \/ e = XReg r)) /\
  (noFlg s -> noFlg s') /\ flg s' = flg s /\ rv s' = rv s /\ fr s' = fr s.
Proof.
  unfold loadTop. intros o s c s' Wf H. inv1 H. destruct (isReg e) eqn:I.
  - inv1 H. destruct e; try discriminate I. split; [exact Wf|split; [reflexivity|split; [|auto]]].
    exists (XReg r), r. auto.
  - destruct (loadStk_WF _ _ _ _ _ Wf H) as [Wf' [L [[a K] [N [F [R [Fr _]]]]]]].
    split; [exact Wf'|split; [exact L|split; [|auto]]]. exists (XAcc a), a. auto.
Qed.

Lemma swap_inv : forall s c s', swap s = Some (c, s') ->
  exists t b l, vst s = t :: b :: l /\ c = [] /\ s' = set_vst s (b :: t :: l).
Proof.
  unfold swap. intros s c s' H. inv1 H. inv1 H. inv1 H. inv1 A. inv1 B. simpl.
  destruct (vst s) as [|x [|y l]]; try discriminate. simpl in *. injection E as <-. injection E0 as <-.
  exists x, y, l. auto.
Qed.
Lemma swap_WF : forall s c s', WF s -> swap s = Some (c, s') ->
  (forall t b l, vst s = t :: b :: l -> isFlg t = false /\ isFlg b = false) -> WF s'.
Proof.
  intros s c s' Wf H K. destruct (swap_inv _ _ _ H) as [t [b [l [V [_ ->]]]]].
  destruct (K t b l V) as [Ft Fb]. destruct Wf as [A B [C1 C2] D].
  assert (Le : length (vst (set_vst s (b :: t :: l))) = length (vst s)) by (rewrite V; reflexivity).
  split; simpl.
  - apply (W_perm s (accs (vst s))); [|exact A]. rewrite V. simpl accs.
    change (Permutation (accE t ++ accE b ++ accs l) (accE b ++ accE t ++ accs l)). apply Permutation_app_swap_app.
  - rewrite V in B. inversion B; subst. inversion H3; subst. constructor; [|constructor]; assumption.
  - split.
    + intros i I. rewrite V in C1. exact (C1 i I).
    + intros o r I.
      assert (Q : flg_is (set_vst s (b :: t :: l)) o = flg_is s o) by (unfold flg_is; rewrite Le; reflexivity).
      rewrite Q.
      destruct o as [|[|o]]; simpl in I.
      * injection I as ->. discriminate Fb.
      * injection I as ->. discriminate Ft.
      * apply (C2 _ r). rewrite V. exact I.
  - rewrite V in D. exact D.
Qed.

(* cal *)
Lemma cal_WF : forall a s c s', WF s -> cal strict a s = Some (c, s') -> WF s' /\ rv s' = rv s /\ fr s' = fr s.
Proof.
  unfold cal. intros a s c s' Wf H.
  seqi H as c1 s1 Cl d1. seqi H as c2 s2 L1 d2. seqi H as c3 s3 L0 d3. seqi H as c4 s4 Cr d4.
  seqi H as c5 s5 Re d5. seqi H as c6 s6 Po d6. unfold flgTop in H. inv1 H.
  destruct (clearFlg_WF _ _ _ Wf Cl) as [W1 [N1 _]].
  destruct (clearFlg_inv _ _ _ Wf Cl) as [_ [Ra [Rb _]]].
  destruct (loadStk_WF _ _ _ _ _ W1 L1) as [W2 [_ [_ [N2 [_ [Rc [Rd _]]]]]]].
  assert (W3 : WF s3 /\ noFlg s3 /\ rv s3 = rv s2 /\ fr s3 = fr s2).
  { inv1 L0. destruct (isStk e || isFlg e).
    - destruct (loadStk_WF _ _ _ _ _ W2 L0) as [W3 [_ [_ [N3 [_ [Re' [Rf _]]]]]]]. auto.
    - inv1 L0. auto. }
  destruct W3 as [W3 [N3 [Re3 Rf3]]].
  inv1 Cr. inv2 Cr. destruct (calReg_inv _ _ _ _ _ Cr) as [e' [x [_ [_ [-> ->]]]]].
  assert (RP : (relEnt 0 ;; popStk strict 1) s3 = Some (c5 ++ c6, s6)).
  { unfold andThen. rewrite Re. rewrite Po. reflexivity. }
  destruct (relpop_WF _ _ _ W3 RP) as [W5 [_ [V5 [N5 [L5 [Rg Rh]]]]]].
  split; [|simpl; split; congruence].
  apply flgTop_WF; [exact W5|exact (N5 N3)|].
  (* the destination entry remains *)
  pose proof (nth_error_lt _ _ _ E). lia.
Qed.

Definition keeps (f : act) : Prop := forall s c s', WF s -> f s = Some (c, s') ->
  WF s' /\ rv s' = rv s /\ fr s' = fr s.

Lemma keeps_seq : forall f g, keeps f -> keeps g -> keeps (f ;; g).
Proof.
  intros f g F G s c s' Wf H. seqi H as c1 s1 A c2.
  destruct (F _ _ _ Wf A) as [W1 [R1 F1]]. destruct (G _ _ _ W1 H) as [W2 [R2 F2]].
  split; [exact W2|split; congruence].
Qed.
Lemma keeps_skip : keeps skip.
Proof. intros s c s' Wf H. inv1 H. auto. Qed.
Lemma keeps_emit : forall c, keeps (emit c).
Proof. intros c0 s c s' Wf H. inv1 H. auto. Qed.
Lemma keeps_guard : forall b, keeps (guard strict b).
Proof. intros b s c s' Wf H. inv1 H. auto. Qed.
Lemma keeps_bug : forall b, keeps (bug b).
Proof. intros b s c s' Wf H. inv1 H. auto. Qed.
Lemma keeps_fail : keeps fail.
Proof. intros s c s' Wf H. discriminate H. Qed.
Lemma keeps_get : forall k, (forall s, keeps (k s)) -> keeps (get k).
Proof. intros k K s c s' Wf H. exact (K s s c s' Wf H). Qed.
Lemma keeps_ent : forall o k, (forall e, keeps (k e)) -> keeps (ent_at o k).
Proof. intros o k K s c s' Wf H. inv1 H. exact (K e s c s' Wf H). Qed.
Lemma keeps_reg : forall e k, (forall r, keeps (k r)) -> keeps (regOf e k).
Proof. intros e k K s c s' Wf H. inv2 H. exact (K r s c s' Wf H). Qed.
Lemma keeps_cal : forall a, keeps (cal strict a).
Proof. exact cal_WF. Qed.
Lemma keeps_calReg : forall mk o, keeps (calReg mk o).
Proof. intros mk o s c s' Wf H. destruct (calReg_inv _ _ _ _ _ H) as [e [x [_ [_ [_ ->]]]]]. auto. Qed.
Lemma keeps_loadTop : forall o, keeps (loadTop strict o).
Proof. intros o s c s' Wf H. destruct (loadTop_WF _ _ _ _ Wf H) as [A [_ [_ [_ [_ B]]]]]. auto. Qed.
Lemma keeps_loadStk : forall o, keeps (loadStk strict o).
Proof. intros o s c s' Wf H. destruct (loadStk_WF _ _ _ _ _ Wf H) as [A [_ [_ [_ [_ [B [C _]]]]]]]. auto. Qed.
Lemma keeps_clear : keeps clearFlg.
Proof.
  intros s c s' Wf H. destruct (clearFlg_WF _ _ _ Wf H) as [A _].
  destruct (clearFlg_inv _ _ _ Wf H) as [_ [B [C _]]]. auto.
Qed.
Lemma keeps_relpop : keeps (relEnt 0 ;; popStk strict 1).
Proof. intros s c s' Wf H. destruct (relpop_WF _ _ _ Wf H) as [A [_ [_ [_ [_ B]]]]]. auto. Qed.
Lemma keeps_push : forall e, accOf e = None -> entOk e -> keeps (pushStk e).
Proof.
  intros e F O s c s' Wf H.
  assert (N : isFlg e = false) by (destruct e; try reflexivity; discriminate F).
  split; [|destruct (pushStk_inv _ _ _ _ H) as [_ [-> _]]; auto].
  apply (pushStk_WF e s c s'); try assumption. apply WF_PW in Wf. unfold accE. rewrite F. exact Wf.
Qed.
Lemma keeps_fv : forall b, keeps (modify (fun s => set_fv s b)).
Proof.
  intros b s c s' Wf H. inv1 H. split; [|auto].
  apply (WF_same s); try reflexivity. exact Wf.
Qed.
Lemma keeps_lay : forall h, keeps (modify (fun s => set_lay s (h s))).
Proof.
  intros b s c s' Wf H. inv1 H. split; [|auto].
  apply (WF_same s); try reflexivity. exact Wf.
Qed.
Lemma keeps_outStkAll : keeps (outStkAll strict).
Proof.
  intros s c s' Wf H. destruct (outStkN_WF _ _ _ _ Wf H) as [A [_ [_ [_ [B [C _]]]]]]. auto.
Qed.
Lemma keeps_outStk : keeps (outStk strict).
Proof.
  intros s c s' Wf H. destruct (outStk_WF _ _ _ _ Wf H) as [A [_ [_ [_ [o [e [_ [_ [_ [_ [_ [B C]]]]]]]]]]]]. auto.
Qed.

(* MREG and ARG drop the top entry *)
Lemma vmMReg_WF : keeps (vmMReg strict).
Proof.
  unfold vmMReg. intros s c s' Wf H. seqi H as c1 s1 A d1. seqi H as c2 s2 G0 d2. seqi H as c3 s3 Re d3.
  assert (Sm : WF s1 /\ rv s1 = rv s /\ fr s1 = fr s).
  { assert (L : forall c s', loadReg strict 0 0 s = Some (c, s') -> WF s' /\ rv s' = rv s /\ fr s' = fr s).
    { intros c0 s0 L. destruct (loadReg_same _ _ _ _ _ _ L) as [V [B [C [F [_ [R Fr]]]]]].
      split; [apply (WF_same s); assumption|auto]. }
    inv1 A. destruct e; try exact (L _ _ A). destruct (r =? 0); [inv1 A; auto|exact (L _ _ A)]. }
  destruct Sm as [W1 [R1 F1]]. inv1 G0. inv1 G0.
  destruct (relEnt_PW _ _ _ _ _ (accs (skipn 1 (vst s1))) (proj1 (WF_PW s1) W1) Re) as [e [E [-> [V [F [_ [Rv [Fr [_ [_ [_ K]]]]]]]]]]].
  assert (P : PW s3 (accs (skipn 1 (vst s3)))).
  { rewrite V. apply K. destruct (vst s1) as [|x l]; [discriminate E|]. injection E as ->. apply Permutation_refl. }
  destruct (popRaw_WF 1 s3 _ s' _ P (Permutation_refl _) H) as [Wf' _].
  destruct (popRaw_inv _ _ _ _ H) as [_ [_ E']].
  split; [exact Wf'|]. rewrite E'. simpl. split; congruence.
Qed.

Lemma popRaw1_WF : forall s c s' e, WF s -> nth_error (vst s) 0 = Some e -> accOf e = None ->
  popRaw 1 s = Some (c, s') -> WF s' /\ rv s' = rv s /\ fr s' = fr s.
Proof.
  intros s c s' e Wf E F H.
  assert (P : PW s (accs (skipn 1 (vst s)))).
  { apply (PW_perm _ (accs (vst s))); [|apply WF_PW; exact Wf].
    destruct (vst s) as [|x l]; [discriminate E|]. injection E as ->. simpl. unfold accE. rewrite F. apply Permutation_refl. }
  destruct (popRaw_WF 1 s c s' _ P (Permutation_refl _) H) as [Wf' _].
  destruct (popRaw_inv _ _ _ _ H) as [_ [_ E']].
  split; [exact Wf'|]. rewrite E'. auto.
Qed.

Lemma vmArg_WF : keeps (vmArg strict).
Proof.
  unfold vmArg. intros s c s' Wf H. seqi H as c1 s1 A d1. inv1 A.
  assert (Wl : forall t h, WF t -> WF (set_lay t h)).
  { intros t h Wt. apply (WF_same t); try reflexivity. exact Wt. }
  assert (D : (loadStk strict 0;; outStkAll strict;;
        get (fun s => guard strict (match lay s with Some i :: _ => Nat.eqb i (idx s 0) | _ => false end)) ;;
           modify (fun s => set_lay s (None :: List.tl (lay s)))) s = Some (c1, s1) -> WF s' /\ rv s' = rv s /\ fr s' = fr s).
  { intros K. seqi K as k1 t1 L d2. seqi K as k2 t2 O d3. seqi K as k3 t3 Gd d4. inv1 Gd. inv1 Gd. inv1 K.
    destruct (loadStk_WF _ _ _ _ _ Wf L) as [W1 [_ [[a Ea] [_ [_ [R1 [F1 _]]]]]]].
    destruct (outStkN_WF _ _ _ _ W1 O) as [W2 [_ [Ac [_ [R2 [F2 [_ K2]]]]]]].
    assert (E2 : exists e2, nth_error (vst t2) 0 = Some e2).
    { destruct (K2 0%nat) as [Q|Q]; rewrite Q; [exists (XAcc a); exact Ea|exists XStk; reflexivity]. }
    destruct E2 as [e2 E2].
    destruct (popRaw1_WF _ _ _ e2 (Wl t2 _ W2) E2 (accs_nil_flg _ Ac 0 e2 E2) H) as [W3 [R3 F3]].
    simpl in R3, F3. split; [exact W3|split; congruence]. }
  destruct e; try exact (D A).
  seqi A as k1 t1 O d2. seqi A as k2 t2 Em d3. inv1 Em. inv1 A.
  destruct (outStkN_WF _ _ _ _ Wf O) as [W2 [_ [Ac [_ [R2 [F2 [K1 _]]]]]]].
  pose proof (K1 0%nat _ E eq_refl) as E2.
  destruct (popRaw1_WF _ _ _ _ (Wl t1 _ W2) E2 eq_refl H) as [W3 [R3 F3]].
  simpl in R3, F3. split; [exact W3|split; congruence].
Qed.

Lemma callF_WF : forall n f, keeps (callF strict n f).
Proof.
  intros n f. unfold callF, noPend. apply keeps_seq; [apply keeps_outStkAll|].
  apply keeps_seq; [apply keeps_get; intros; apply keeps_guard|].
  apply keeps_seq; [apply keeps_get; intros; apply keeps_guard|].
  apply keeps_seq; [apply keeps_emit|].
  apply keeps_seq; [destruct n; [apply keeps_skip|apply keeps_emit]|].
  intros s c s' Wf H. inv1 H. split; [|auto]. apply (WF_same s); try reflexivity. exact Wf.
Qed.

Lemma vmCallF_WF : forall n f, keeps (vmCallF strict n f).
Proof.
  unfold vmCallF. intros n f s c s' Wf H. seqi H as c1 s1 A d1.
  destruct (callF_WF _ _ _ _ _ Wf A) as [W1 [R1 F1]].
  destruct (allocAcc_inv _ _ _ _ H) as [a [FF K]]. seqi K as c2 s2 Bg d2. inv1 Bg.
  destruct (alloc_W _ _ _ (wf_acc _ W1) FF) as [Ra [_ Wa]].
  split.
  - apply (pushStk_WF _ _ _ _) in K; [exact K| |exact I|reflexivity].
    destruct W1 as [X1 X2 X3 X4]. split; [exact Wa|exact X2|exact X3|exact X4].
  - destruct (pushStk_inv _ _ _ _ K) as [_ [-> _]]. simpl. auto.
Qed.

Lemma boolJmp_WF : forall tf l, keeps (boolJmp strict tf l).
Proof.
  intros tf l. unfold boolJmp. apply keeps_seq; [|exact keeps_relpop].
  apply keeps_ent. intros e.
  assert (D : keeps (get (fun s => if flg_is s 0 then guard strict (fv s) else
        clearFlg ;;
        ent_at 0 (fun e => if isReg e then skip else loadStk strict 0) ;;
        ent_at 0 (fun e => regOf e (fun r => emit [TCmp r (OImm 0)]))) ;;
      emit [TJcc (if tf then JNZ else JEQ) (LbL l)])).
  { apply keeps_seq; [|apply keeps_emit]. apply keeps_get. intros s0. destruct (flg_is s0 0); [apply keeps_guard|].
    apply keeps_seq; [exact keeps_clear|]. apply keeps_seq.
    - apply keeps_ent. intros e0. destruct (isReg e0); [apply keeps_skip|apply keeps_loadStk].
    - apply keeps_ent. intros e0. apply keeps_reg. intros r. apply keeps_emit. }
  destruct e; try exact D. apply keeps_get. intros s0. apply keeps_seq; [apply keeps_bug|apply keeps_emit].
Qed.

Lemma vmStLoc_WF : forall n, 1 <= n -> keeps (vmStLoc strict depth n).
Proof.
  intros n Hn. unfold vmStLoc. apply keeps_seq; [apply keeps_guard|].
  destruct (Z.leb_spec n 9) as [N9|N9].
  2:{ apply keeps_seq; [apply keeps_loadTop|]. apply keeps_seq; [apply keeps_get; intros; apply keeps_guard|].
    apply keeps_ent. intros e. apply keeps_reg. intros r. apply keeps_emit. }
  apply keeps_seq; [apply keeps_get; intros; apply keeps_guard|].
  apply keeps_seq.
  - assert (L : keeps (loadReg strict (n - 1 + 3) 0)).
    { intros s c s' Wf L. destruct (loadReg_same _ _ _ _ _ _ L) as [V [B [C [F [_ [R Fr]]]]]].
      split; [apply (WF_same s); assumption|auto]. }
    apply keeps_ent. intros e. destruct e; try exact L. destruct (r =? n - 1 + 3); [apply keeps_skip|exact L].
  - intros s c s' Wf H. inv1 H. destruct (isACC e) eqn:Ia.
    + inv1 H. auto.
    + seqi H as c1 s1 Re d1. inv1 H.
      destruct (relEnt_inv _ _ _ _ Re) as [e1 [b [k [E1 [-> [-> K]]]]]].
      rewrite E in E1. injection E1 as <-. split; [|auto].
      apply (WF_put s 0 e (XReg (n - 1 + 3)) _ Wf E); try reflexivity.
      * intros r P. apply (W_same (set_acc s b k)); try reflexivity.
        apply (K _ _ (wf_acc _ Wf)). exact P.
      * simpl. lia.
Qed.

(* the address of an element *)
Lemma toInd_WF : forall (mk : Z -> ent), (forall r, accE (mk r) = if r <? 3 then [r] else []) ->
  (forall r, 0 <= r < 12 -> entOk (mk r)) -> (forall r, isFlg (mk r) = false) ->
  keeps (ent_at 0 (fun b => regOf b (fun r => set_ent 0 (mk r)))).
Proof.
  intros mk A O N s c s' Wf H. inv1 H. inv2 H. inv1 H. split; [|auto].
  destruct (regN_ok _ _ _ _ Wf E R) as [Rr Ae].
  apply (set_ent_WF s 0 e); auto. rewrite A, Ae. reflexivity.
Qed.
Lemma accE_wnd : forall r, accE (XWnd r) = if r <? 3 then [r] else [].
Proof. intros r. unfold accE. simpl. destruct (r <? 3); reflexivity. Qed.
Lemma accE_byt : forall r, accE (XByt r) = if r <? 3 then [r] else [].
Proof. intros r. unfold accE. simpl. destruct (r <? 3); reflexivity. Qed.

Lemma vmLdWrd_WF : keeps (vmLdWrd strict).
Proof.
  unfold vmLdWrd. apply keeps_seq.
  - apply keeps_ent. intros t. apply keeps_ent. intros b.
    destruct (negb (isCnst0 t) || negb (isReg b)); [|apply keeps_skip].
    apply keeps_seq; [apply keeps_loadStk|]. destruct (isCnst0 t); [apply keeps_skip|].
    apply keeps_seq; [exact keeps_clear|]. apply keeps_ent. intros e. apply keeps_reg. intros r. apply keeps_calReg.
  - assert (K : keeps ((relEnt 0 ;; popStk strict 1) ;; ent_at 0 (fun b => regOf b (fun r => set_ent 0 (XWnd r))) ;; modify (fun s => set_fv s false))).
    { apply keeps_seq; [exact keeps_relpop|]. apply keeps_seq; [|apply keeps_fv].
      apply toInd_WF; [exact accE_wnd|intros; simpl; lia|reflexivity]. }
    intros s c s' Wf H. seqi H as c1 s1 A d1. seqi H as c2 s2 B d2. apply (K s ((c1 ++ c2) ++ d2) s' Wf).
    unfold andThen at 1 2. rewrite A, B. rewrite H. reflexivity.
Qed.

Lemma vmLdByt_WF : keeps (vmLdByt strict).
Proof.
  assert (K : keeps (ent_at 0 (fun b => regOf b (fun r => set_ent 0 (XByt r))) ;; modify (fun s => set_fv s false))).
  { apply keeps_seq; [|apply keeps_fv]. apply toInd_WF; [exact accE_byt|intros; simpl; lia|reflexivity]. }
  unfold vmLdByt. intros s c s' Wf H. seqi H as c1 s1 A d1. seqi H as c2 s2 Po d2.
  assert (Q : WF s2 /\ rv s2 = rv s /\ fr s2 = fr s).
  { inv1 A. inv1 A. rename e into t, e0 into b.
    destruct ((isACC t || isStk t) && negb (isACC b) && negb (isStk b)) eqn:Br.
    - seqi A as k1 t1 Cl e1. seqi A as k2 t2 Ls e2. inv1 A. inv2 A. seqi A as k3 t3 Cr e3. seqi A as k4 t4 Re e4. inv1 A.
      destruct (keeps_clear _ _ _ Wf Cl) as [W1 [R1 F1]].
      destruct (loadStk_WF _ _ _ _ _ W1 Ls) as [W2 [_ [[a Ea] [_ [_ [R2 [F2 _]]]]]]].
      rewrite Ea in E1. injection E1 as <-. simpl in R. injection R as <-.
      destruct (calReg_inv _ _ _ _ _ Cr) as [eb [x [Eb' [Ox [-> ->]]]]].
      destruct (relEnt_inv _ _ _ _ Re) as [eb' [bb [nn [Eb2 [-> [-> Kr]]]]]].
      rewrite Eb' in Eb2. injection Eb2 as <-.
      apply popStk_inv in Po. destruct Po as [Po _].
      destruct (vst t2) as [|x0 [|x1 l]] eqn:V2; try discriminate Eb'. simpl in Ea, Eb'.
      injection Ea as ->. injection Eb' as ->.
      assert (Wr : W (set_acc t2 bb nn) (a :: accs l)).
      { apply (Kr _ (a :: accs l) (wf_acc _ W2)). rewrite V2. rewrite accs_two.
        change (accE (XAcc a)) with [a]. change (a :: accs l) with ([a] ++ accs l). apply Permutation_app_swap_app. }
      pose proof (wf_ent _ W2) as He. rewrite V2 in He. inversion He as [|? ? H1 H2]; subst. inversion H2; subst.
      pose proof (wf_flg _ W2) as [Hf1 Hf2]. pose proof (wf_len _ W2) as Hl. rewrite V2 in Hl.
      destruct (popRaw_inv _ _ _ _ Po) as [_ [_ Es2]].
      split; [|rewrite Es2; simpl; split; congruence].
      apply (popRaw_WF 1 _ _ _ (a :: accs l)) in Po; [exact (proj1 Po)| |].
      + split; simpl; rewrite ?V2; simpl.
        * exact Wr.
        * constructor; [exact I|constructor; [exact I|assumption]].
        * split; simpl; rewrite ?V2; simpl.
          -- intros i Hi. specialize (Hf1 i Hi). rewrite V2 in Hf1. exact Hf1.
          -- intros o r Hi. assert (V3 : nth_error (vst t2) o = Some (XFlg r)).
             { rewrite V2. destruct o as [|[|o]]; simpl in Hi; try discriminate Hi. exact Hi. }
             specialize (Hf2 o r V3). unfold flg_is in *. simpl. rewrite V2 in *. exact Hf2.
        * simpl in Hl. exact Hl.
      + simpl. rewrite V2. simpl. unfold accE. simpl. apply Permutation_refl.
    - destruct (negb (isCnst0 t) || negb (isReg b)) eqn:Br2.
      + assert (K1 : keeps (loadStk strict 1 ;; (if isCnst0 t then skip
         else clearFlg ;; ent_at 1 (fun b => regOf b (fun r => calReg (TAlu AAdd r) 0))))).
        { apply keeps_seq; [apply keeps_loadStk|]. destruct (isCnst0 t); [apply keeps_skip|].
          apply keeps_seq; [exact keeps_clear|]. apply keeps_ent. intros e. apply keeps_reg. intros r. apply keeps_calReg. }
        seqi A as k1 t1 Ls e1. seqi A as k2 t2 Cr e2.
        assert (A1 : (loadStk strict 1 ;; (if isCnst0 t then skip
         else clearFlg ;; ent_at 1 (fun b => regOf b (fun r => calReg (TAlu AAdd r) 0)))) s = Some (k1 ++ k2, t2)).
        { unfold andThen at 1. rewrite Ls. rewrite Cr. reflexivity. }
        destruct (K1 _ _ _ Wf A1) as [W1 [R1 F1]].
        assert (A2 : (relEnt 0 ;; popStk strict 1) t2 = Some (e2 ++ c2, s2)).
        { unfold andThen. rewrite A. rewrite Po. reflexivity. }
        destruct (keeps_relpop _ _ _ W1 A2) as [W2 [R2 F2]]. split; [exact W2|split; congruence].
      + inv1 A. apply popStk_inv in Po. destruct Po as [Po _].
        assert (At : accOf t = None). { apply orb_false_iff in Br2. destruct Br2 as [Bt _]. destruct t; try reflexivity; discriminate Bt. }
        exact (popRaw1_WF _ _ _ t Wf E At Po). }
  destruct Q as [W2 [R2 F2]]. destruct (K _ _ _ W2 H) as [W3 [R3 F3]]. split; [exact W3|split; congruence].
Qed.

Lemma storeInd_WF : forall mk, keeps (storeInd strict mk).
Proof.
  intros mk. unfold storeInd. apply keeps_seq; [apply keeps_loadTop|].
  apply keeps_seq; [apply keeps_get; intros; apply keeps_guard|].
  apply keeps_seq; [|exact keeps_relpop].
  apply keeps_ent. intros v. apply keeps_reg. intros r. apply keeps_ent. intros d. apply keeps_reg. intros b. apply keeps_emit.
Qed.

Lemma vmUn_WF : forall o, keeps (vmUn strict o).
Proof.
  unfold vmUn. intros o s c s' Wf H. seqi H as c1 s1 Cl d1. seqi H as c2 s2 Ls d2. seqi H as c3 s3 Em d3.
  inv1 Em. inv2 Em. inv1 Em. unfold flgTop in H. inv1 H.
  destruct (clearFlg_WF _ _ _ Wf Cl) as [W1 [N1 _]].
  destruct (clearFlg_inv _ _ _ Wf Cl) as [_ [Ra [Rb _]]].
  destruct (loadStk_WF _ _ _ _ _ W1 Ls) as [W2 [_ [_ [N2 [_ [Rc [Rd _]]]]]]].
  split; [|simpl; split; congruence]. apply flgTop_WF; [exact W2|exact (N2 N1)|]. pose proof (nth_error_lt _ _ _ E). lia.
Qed.

Lemma rcal_WF : forall a, keeps (rcal strict a).
Proof.
  intros a. unfold rcal. apply keeps_seq; [|apply keeps_cal].
  intros s c s' Wf H. inv1 H. inv1 H. 
  destruct (isACC e && negb (isACC e0) && negb (isStk e0) && negb (isFlg e0)) eqn:Br; [|inv1 H; auto].
  split; [|destruct (swap_inv _ _ _ H) as [t [b [l [_ [_ ->]]]]]; auto].
  apply (swap_WF _ _ _ Wf H). intros t b l V. rewrite V in E, E0. simpl in E, E0. injection E as <-. injection E0 as <-.
  repeat (apply andb_true_iff in Br; destruct Br as [Br ?]).
  split; [destruct t; try reflexivity; discriminate Br|]. apply negb_true_iff. assumption.
Qed.

Lemma set_cns_WF : forall s e n, WF s -> nth_error (vst s) 0 = Some e -> accOf e = None ->
  WF (set_vst s (put (vst s) 0 (XCns n))).
Proof.
  intros s e n Wf E F. apply (set_ent_WF s 0 e); auto.
  - unfold accE. rewrite F. reflexivity.
  - exact I.
Qed.
Lemma pow2_acc : forall e n, pow2 e = Some n -> accOf e = None.
Proof. intros [] n H; try discriminate H; reflexivity. Qed.

Lemma mul2_WF : forall s t b l n, WF s -> vst s = t :: b :: l -> isFlg t = false -> accE b = [] ->
  WF (set_vst s (XCns n :: t :: l)).
Proof.
  intros s t b l n Wf V Ft Bn. set (s2 := set_vst s (XCns n :: t :: l)).
  assert (V2 : vst s2 = XCns n :: t :: l) by reflexivity.
  destruct Wf as [X1 X2 [X3 X3'] X4]. rewrite V in X1, X2, X4. split.
  - rewrite V2. apply (W_same s); try reflexivity. rewrite accs_two in X1. rewrite Bn in X1.
    rewrite accs_two. exact X1.
  - rewrite V2. inversion X2; subst. inversion H2; subst. constructor; [exact I|constructor; assumption].
  - split.
    + intros i Hi. specialize (X3 i Hi). rewrite V in X3. exact X3.
    + intros o r Hi. rewrite V2 in Hi. destruct o as [|[|o]]; simpl in Hi; try discriminate Hi.
      * injection Hi as ->. discriminate Ft.
      * specialize (X3' (S (S o)) r). rewrite V in X3'. specialize (X3' Hi). unfold flg_is in *.
        change (flg s2) with (flg s). rewrite V2. rewrite V in X3'. exact X3'.
  - rewrite V2. exact X4.
Qed.

Lemma vmMul_WF : keeps (vmMul strict).
Proof.
  unfold vmMul. intros s c s' Wf H. inv1 H. inv1 H. rename e into t, e0 into b.
  destruct (pow2 t) as [n|] eqn:Pt.
  - seqi H as c1 s1 A d1. inv1 A.
    destruct (keeps_cal _ _ _ _ (set_cns_WF _ _ n Wf E (pow2_acc _ _ Pt)) H) as [X1 [X2 X3]].
    simpl in X2, X3. auto.
  - destruct (pow2 b) as [n|] eqn:Pb; [|exact (rcal_WF _ _ _ _ Wf H)].
    seqi H as c0 s0 A d0. inv1 A.
    seqi H as c1 s1 A d1. inv1 A. seqi H as c2 s2 A d2. inv1 A. simpl in H.
    destruct (vst s) as [|x0 [|x1 l]] eqn:V; try discriminate E0. simpl in E, E0, H. injection E as ->. injection E0 as ->.
    set (s2 := set_vst (set_vst s (t :: t :: l)) (XCns n :: t :: l)) in *.
    assert (V2 : vst s2 = XCns n :: t :: l) by reflexivity.
    assert (Bn : accE b = []) by (unfold accE; rewrite (pow2_acc _ _ Pb); reflexivity).
    destruct (isFlg t) eqn:Ft.
    + (* a truth value: loadStk would fail *)
      exfalso. destruct t; try discriminate Ft.
      pose proof (wf_flg _ Wf) as [Hf1 Hf2].
      assert (F0 : flg_is s 0 = true) by (apply (Hf2 0%nat r); rewrite V; reflexivity).
      unfold cal in H. seqi H as k1 t1 Cl e1. seqi H as k2 t2 Ls e2.
      assert (T1 : vst t1 = vst s2 /\ flg t1 = None).
      { unfold clearFlg in Cl. seqi Cl as j1 u1 A e3. inv1 Cl. inv1 A.
        assert (Fp : flgPos s2 = Some 0%nat).
        { unfold flgPos. change (flg s2) with (flg s). unfold flg_is in F0. rewrite V2. rewrite V in F0.
          destruct (flg s) as [i|]; [|discriminate]. apply Nat.eqb_eq in F0. f_equal. simpl length in *. lia. }
        rewrite Fp in A. inv1 A. rewrite V2 in E. injection E as <-. inv1 A. auto. }
      destruct T1 as [T1 T2]. destruct (loadStk_inv _ _ _ _ _ Ls) as [e [Ee K]].
      rewrite T1, V2 in Ee. injection Ee as <-.
      destruct K as [[[a Ka] _]|[_ [[a [Ka K]]|[? [? [? [? [Ka _]]]]]]]]; try discriminate Ka.
      seqi K as j1 u1 A e3. destruct (loadReg_inv _ _ _ _ _ _ A) as [e' [Ee' K']].
      rewrite T1, V2 in Ee'. injection Ee' as <-. destruct K' as [K' _]. unfold flg_is in K'. rewrite T2 in K'. discriminate K'.
    + pose proof (mul2_WF s t b l n Wf V Ft Bn) as W2.
      destruct (keeps_cal _ _ _ _ W2 H) as [Y1 [Y2 Y3]]. auto.
Qed.

Lemma vmDiv_WF : keeps (vmDiv strict).
Proof.
  unfold vmDiv. intros s c s' Wf H. inv1 H. destruct (pow2 e) as [n|] eqn:Pt; [|exact (keeps_cal _ _ _ _ Wf H)].
  seqi H as c1 s1 A d1. inv1 A.
  destruct (keeps_cal _ _ _ _ (set_cns_WF _ _ n Wf E (pow2_acc _ _ Pt)) H) as [X1 [X2 X3]]. auto.
Qed.
Lemma vmMod_WF : keeps (vmMod strict).
Proof.
  unfold vmMod. intros s c s' Wf H. inv1 H. destruct (pow2 e) as [n|] eqn:Pt; [|exact (keeps_cal _ _ _ _ Wf H)].
  seqi H as c1 s1 A d1. inv1 A.
  destruct (rcal_WF _ _ _ _ (set_cns_WF _ _ (2 ^ n - 1) Wf E (pow2_acc _ _ Pt)) H) as [X1 [X2 X3]]. auto.
Qed.

(* no truth value waits in the flags below the two top entries *)
Lemma cmpEnd_WF : forall cc s c s', WF s ->
  (forall o r, nth_error (vst s) (S (S o)) <> Some (XFlg r)) ->
  cmpEnd strict cc s = Some (c, s') -> WF s' /\ rv s' = rv s /\ fr s' = fr s.
Proof.
  unfold cmpEnd. intros cc s c s' Wf N H. seqi H as c1 s1 R0 d1. seqi H as c2 s2 R1 d2. seqi H as c3 s3 Po d3.
  seqi H as c4 s4 Os d4. seqi H as c5 s5 Al d5. inv1 H.
  destruct (relEnt_inv _ _ _ _ R0) as [e0 [b0 [n0 [E0 [-> [-> K0]]]]]].
  destruct (relEnt_inv _ _ _ _ R1) as [e1 [b1 [n1 [E1 [-> [-> K1]]]]]]. simpl in E1.
  destruct (vst s) as [|x0 [|x1 l]] eqn:V; try discriminate E1. simpl in E0, E1. injection E0 as ->. injection E1 as ->.
  set (u := set_acc (set_acc s b0 n0) b1 n1) in *.
  assert (P2 : PW u (accs l)).
  { destruct Wf as [X1 X2 X3 X4]. split; try assumption.
    apply (K1 (accE e1 ++ accs l)); [|apply Permutation_refl].
    apply (K0 _ _ X1). rewrite V. apply Permutation_refl. }
  apply popStk_inv in Po. destruct Po as [Po _].
  assert (Vu : vst u = e0 :: e1 :: l) by exact V.
  destruct (popRaw_WF 2 u c3 s3 _ P2 ltac:(rewrite Vu; apply Permutation_refl) Po) as [W3 [V3 _]].
  destruct (popRaw_inv _ _ _ _ Po) as [_ [-> Es3]].
  assert (N3 : noFlg s3).
  { intros o r I. rewrite V3, Vu in I. simpl in I. exact (N o r I). }
  assert (W4 : WF s4 /\ noFlg s4 /\ rv s4 = rv s3 /\ fr s4 = fr s3).
  { inv1 Os. destruct (3 <=? acnt s3).
    - destruct (outStk_WF _ _ _ _ W3 Os) as [A1 [_ [_ [A2 [o [e [_ [_ [_ [_ [_ A3]]]]]]]]]]]. tauto.
    - inv1 Os. auto. }
  destruct W4 as [W4 [N4 [R4 F4]]].
  destruct (allocAcc_inv _ _ _ _ Al) as [a [FF K]].
  destruct (alloc_W _ _ _ (wf_acc _ W4) FF) as [Ra [_ Wa]].
  destruct (pushStk_inv _ _ _ _ K) as [_ [-> Lp]]. simpl in Lp.
  split.
  - destruct W4 as [X1 X2 [X3 X3'] X4]. split; simpl.
    + exact Wa.
    + constructor; [exact I|exact X2].
    + split; simpl.
      * intros i Hi. injection Hi as <-. unfold idx. simpl. lia.
      * intros [|o] r Hi; simpl in Hi.
        -- unfold flg_is. simpl. unfold idx. simpl. apply Nat.eqb_eq. lia.
        -- elim (N4 o r Hi).
    + lia.
  - simpl. rewrite R4, F4, Es3. auto.
Qed.

Lemma noFlg_below : forall s o, flgOk s -> flg_is s o = true ->
  forall k r, k <> o -> nth_error (vst s) k <> Some (XFlg r).
Proof. intros s o [_ F] A k r D I. apply D. exact (flg_is_uniq _ _ _ (F k r I) A). Qed.

Lemma cmp_WF : forall cc, keeps (cmp strict ord cc).
Proof.
  unfold cmp. intros cc s c s' Wf H. inv1 H. inv1 H. inv1 H. rename e into t, e0 into b.
  destruct (isCnst0 t && flg_is s 1) eqn:B1.
  - apply andb_true_iff in B1. destruct B1 as [_ B1]. seqi H as c1 s1 G1 d1. inv1 G1.
    apply (cmpEnd_WF _ _ _ _ Wf) in H; [exact H|].
    intros o r. apply (noFlg_below _ _ (wf_flg _ Wf) B1). lia.
  - destruct (isCnst0 b && flg_is s 0) eqn:B2.
    + apply andb_true_iff in B2. destruct B2 as [_ B2]. seqi H as c1 s1 G1 d1. inv1 G1.
      apply (cmpEnd_WF _ _ _ _ Wf) in H; [exact H|].
      intros o r. apply (noFlg_below _ _ (wf_flg _ Wf) B2). lia.
    + cbv zeta in H. set (sw := (isACC t || isReg t) && negb (isACC b) && negb (isReg b) && negb (isStk b) && negb (isFlg b)) in *.
      seqi H as c1 s1 Sw d1. seqi H as c2 s2 Cl d2. seqi H as c3 s3 Lt d3. seqi H as c4 s4 L0 d4. seqi H as c5 s5 Cr d5.
      assert (W1 : WF s1 /\ rv s1 = rv s /\ fr s1 = fr s).
      { destruct sw eqn:Es; [|inv1 Sw; auto].
        split; [|destruct (swap_inv _ _ _ Sw) as [? [? [? [_ [_ ->]]]]]; auto].
        apply (swap_WF _ _ _ Wf Sw). intros t' b' l V. rewrite V in E, E0. simpl in E, E0. injection E as <-. injection E0 as <-.
        unfold sw in Es. repeat (apply andb_true_iff in Es; destruct Es as [Es ?]).
        split; [destruct t'; try reflexivity; discriminate Es|]. apply negb_true_iff. assumption. }
      destruct W1 as [W1 [R1 F1]].
      destruct (clearFlg_WF _ _ _ W1 Cl) as [W2 [N2 _]].
      destruct (clearFlg_inv _ _ _ W1 Cl) as [_ [R2 [F2 _]]].
      destruct (loadTop_WF _ _ _ _ W2 Lt) as [W3 [_ [_ [N3 [_ [R3 F3]]]]]].
      assert (W4 : WF s4 /\ noFlg s4 /\ rv s4 = rv s3 /\ fr s4 = fr s3).
      { inv1 L0. destruct (isStk e || isFlg e).
        - destruct (loadStk_WF _ _ _ _ _ W3 L0) as [A1 [_ [_ [A2 [_ [A3 [A4 _]]]]]]]. auto.
        - inv1 L0. auto. }
      destruct W4 as [W4 [N4 [R4 F4]]].
      inv1 Cr. inv2 Cr. destruct (calReg_inv _ _ _ _ _ Cr) as [e' [x [_ [_ [-> ->]]]]].
      apply (cmpEnd_WF _ _ _ _ W4) in H; [|intros o q; apply N4].
      destruct H as [H1 [H2 H3]]. split; [exact H1|split; congruence].
Qed.

Lemma vmBool_WF : forall x l1 l2 l3, keeps (vmBool strict x l1 l2 l3).
Proof.
  intros x l1 l2 l3. unfold vmBool. apply keeps_seq.
  2:{ apply keeps_seq; [apply keeps_get; intros; apply keeps_guard|apply keeps_fv]. }
  intros s c s' Wf H. inv1 H.
  assert (D : keeps (loadStk strict 0 ;;
        ent_at 0 (fun e => regOf e (fun a =>
          emit ([TJmp (LbL l3); TLab (LbL l1); TLd a (OImm x)]
                ++ (if l2 =? -1 then []
                    else [TJmp (LbL l3); TLab (LbL l2); TLd a (OImm (1 - x))])
                ++ [TLab (LbL l3)]))))).
  { apply keeps_seq; [apply keeps_loadStk|]. apply keeps_ent. intros e0. apply keeps_reg. intros r. apply keeps_emit. }
  destruct e; try exact (D _ _ _ Wf H).
  inv1 H. seqi H as c1 s1 Em d1. inv1 Em. seqi H as c2 s2 G1 d2. inv1 G1. inv1 H.
  split; [|auto]. apply (set_ent_WF s 0 (XFlg r)); auto. exact I.
Qed.

Definition isEntry (v : vop) : bool :=
  match v with VI (IEntry _) | VI (IEntryK _) | VI (IEntryI _) => true | _ => false end.
Definition slotOk (v : vop) : Prop :=
  match v with VI (ILdLoc n) | VI (IStLoc n) => 1 <= n | _ => True end.

Lemma vm_WF : forall v, slotOk v -> isEntry v = false -> keeps (vm strict ord depth np v).
Proof.
  intros v So Ie. destruct v as [i|x l1 l2 l3]; [|apply vmBool_WF].
  destruct i; simpl vm; try discriminate Ie; try (apply keeps_push; [reflexivity|exact I]).
  - apply keeps_seq; [apply keeps_get; intros; apply keeps_guard|].
    apply keeps_seq; [apply keeps_emit|apply keeps_fv].
  - apply keeps_emit.
  - apply boolJmp_WF.
  - apply boolJmp_WF.
  - unfold vmLdLoc. simpl in So. apply keeps_seq; [apply keeps_guard|].
    destruct (Z.leb_spec i 9); apply keeps_push; try reflexivity; simpl; lia.
  - unfold vmLdPrm. apply keeps_seq; [apply keeps_guard|]. apply keeps_push; [reflexivity|exact I].
  - apply vmLdWrd_WF.
  - apply vmLdByt_WF.
  - unfold vmStGlb. apply keeps_seq; [apply keeps_loadTop|]. apply keeps_seq; [apply keeps_get; intros; apply keeps_guard|].
    apply keeps_ent. intros e. apply keeps_reg. intros r. apply keeps_emit.
  - apply vmStLoc_WF. exact So.
  - unfold vmStPrm. apply keeps_seq; [apply keeps_guard|]. apply keeps_seq; [apply keeps_loadTop|].
    apply keeps_seq; [apply keeps_get; intros; apply keeps_guard|].
    apply keeps_ent. intros e. apply keeps_reg. intros r. apply keeps_emit.
  - apply keeps_seq; [apply vmLdWrd_WF|apply storeInd_WF].
  - apply keeps_seq; [apply vmLdByt_WF|apply storeInd_WF].
  - apply vmUn_WF.
  - destruct o; simpl; try apply keeps_fail; try apply keeps_cal; try apply rcal_WF;
      [apply vmMul_WF|apply vmDiv_WF|apply vmMod_WF|apply cmp_WF..].
  - exact keeps_relpop.
  - apply vmArg_WF.
  - apply vmCallF_WF.
  - apply callF_WF.
  - apply vmMReg_WF.
  - apply keeps_seq; [|apply keeps_emit]. unfold cancelFrame. apply keeps_get. intros s0.
    apply keeps_seq; [apply keeps_bug|]. apply keeps_seq; [apply keeps_bug|]. apply keeps_seq; [apply keeps_guard|apply keeps_emit].
  - apply keeps_seq; [|apply keeps_emit]. unfold cancelFrame. apply keeps_get. intros s0.
    apply keeps_seq; [apply keeps_bug|]. apply keeps_seq; [apply keeps_bug|]. apply keeps_seq; [apply keeps_guard|apply keeps_emit].
Qed.

Lemma makeFrame_WF : forall d s c s', WF s -> makeFrame d s = Some (c, s') -> WF s'.
Proof.
  unfold makeFrame. intros d s c s' Wf H. cbv zeta in H. seqi H as c1 s1 A d1. inv1 A. inv1 H.
  apply (WF_same s); try reflexivity. exact Wf.
Qed.
Lemma vm_WF' : forall v s c s', slotOk v -> WF s -> vm strict ord depth np v s = Some (c, s') -> WF s'.
Proof.
  intros v s c s' So Wf H. destruct (isEntry v) eqn:Ie; [|exact (proj1 (vm_WF v So Ie _ _ _ Wf H))].
  destruct v as [[]|]; try discriminate Ie; simpl vm in H.
  - seqi H as c1 s1 A d1. inv1 H. exact (makeFrame_WF _ _ _ _ Wf A).
  - exact (makeFrame_WF _ _ _ _ Wf H).
  - seqi H as c1 s1 A d1. inv1 A. exact (makeFrame_WF _ _ _ _ Wf H).
Qed.

Lemma tac_WF : forall p s c s', Forall slotOk p -> WF s -> tac strict ord depth np p s = Some (c, s') -> WF s'.
Proof.
  induction p as [|v p IH]; intros s c s' So Wf H; simpl in H.
  - inv1 H. exact Wf.
  - inversion So; subst. seqi H as c1 s1 A d1. exact (IH _ _ _ H3 (vm_WF' _ _ _ _ H2 Wf A) H).
Qed.

Lemma tinit_WF : forall n, WF (tinit n).
Proof.
  intros n. split; simpl.
  - split; [|reflexivity]. split; [reflexivity|split; [constructor|split; [intros a []|]]].
    intros a R. split; [|intros []]. assert (a = 0 \/ a = 1 \/ a = 2) as [->|[->| ->]] by lia; discriminate.
  - constructor.
  - split; simpl; [discriminate|]. intros [|o] r I; discriminate I.
  - lia.
Qed.
End WF2.
