(* The bookkeeping of the translator to TaC: accumulators are never shared,
   the busy table and the counter agree with the virtual stack, and a truth
   value waiting in the flags is always the one flgPtr points to. *)
From Coq Require Import ZArith Bool Lia List Permutation.
From Verif Require Import Word SyTree ExprSem VM VmCode TacSpec Tac.
Import ListNotations.
Open Scope Z_scope.

(* ---- running actions ---- *)
Lemma andThen_inv : forall f g s c s',
  (f ;; g) s = Some (c, s') ->
  exists c1 s1 c2, f s = Some (c1, s1) /\ g s1 = Some (c2, s') /\ c = c1 ++ c2.
Proof.
  unfold andThen. intros f g s c s' H.
  destruct (f s) as [[c1 s1]|]; [|discriminate].
  destruct (g s1) as [[c2 s2]|] eqn:E; [|discriminate].
  injection H as <- <-. eauto 6.
Qed.
Lemma emit_inv : forall c s c' s', emit c s = Some (c', s') -> c' = c /\ s' = s.
Proof. unfold emit. intros c s c' s' H. injection H as <- <-. auto. Qed.
Lemma skip_inv : forall s c' s', skip s = Some (c', s') -> c' = [] /\ s' = s.
Proof. intros s c' s' H. exact (emit_inv [] s c' s' H). Qed.
Lemma modify_inv : forall h s c' s', modify h s = Some (c', s') -> c' = [] /\ s' = h s.
Proof. unfold modify. intros h s c' s' H. injection H as <- <-. auto. Qed.
Lemma bug_inv : forall b s c' s', bug b s = Some (c', s') -> b = false /\ c' = [] /\ s' = s.
Proof.
  intros [|] s c' s' H; [discriminate H|].
  destruct (skip_inv s c' s' H). auto.
Qed.
Lemma guard_inv : forall st b s c' s', guard st b s = Some (c', s') ->
  (st = true -> b = true) /\ c' = [] /\ s' = s.
Proof.
  unfold guard. intros st b s c' s' H. destruct st, b; simpl in H;
    try discriminate H; destruct (skip_inv s c' s' H); auto.
Qed.
Lemma ent_at_inv : forall o k s c' s', ent_at o k s = Some (c', s') ->
  exists e, nth_error (vst s) o = Some e /\ k e s = Some (c', s').
Proof.
  unfold ent_at. intros o k s c' s' H. destruct (nth_error (vst s) o) as [e|] eqn:E; [eauto|discriminate].
Qed.

Ltac inv1 H :=
  match type of H with
  | (_ ;; _) _ = Some _ =>
      let c1 := fresh "c" in let s1 := fresh "s" in let c2 := fresh "c" in
      let H1 := fresh "A" in let H2 := fresh "B" in let E := fresh "E" in
      destruct (andThen_inv _ _ _ _ _ H) as [c1 [s1 [c2 [H1 [H2 E]]]]]; clear H;
      try subst
  | emit _ _ = Some _ => apply emit_inv in H; destruct H as [-> ->]
  | skip _ = Some _ => apply skip_inv in H; destruct H as [-> ->]
  | modify _ _ = Some _ => apply modify_inv in H; destruct H as [-> ->]
  | set_ent _ _ _ = Some _ => unfold set_ent in H; apply modify_inv in H; destruct H as [-> ->]
  | bug _ _ = Some _ =>
      let E := fresh "Eb" in apply bug_inv in H; destruct H as [E [-> ->]]
  | guard _ _ _ = Some _ =>
      let E := fresh "G" in apply guard_inv in H; destruct H as [E [-> ->]]
  | ent_at _ _ _ = Some _ =>
      let e := fresh "e" in let E := fresh "E" in
      apply ent_at_inv in H; destruct H as [e [E H]]; cbv beta in H
  | get _ _ = Some _ => unfold get in H; cbv beta in H
  | fail _ = Some _ => discriminate H
  | None = Some _ => discriminate H
  end.

(* split a sequence, naming the code and state of its first part *)
Tactic Notation "seqi" hyp(H) "as" ident(c1) ident(s1) ident(A) ident(c2) :=
  let H' := fresh "H" in let E := fresh "E" in
  destruct (andThen_inv _ _ _ _ _ H) as [c1 [s1 [c2 [A [H' E]]]]];
  clear H; rename H' into H; try subst.

(* ---- lists ---- *)
Lemma put_length : forall {A} (l : list A) o e, length (put l o e) = length l.
Proof. induction l; intros [|o] e; simpl; auto. Qed.
Lemma put_same : forall {A} (l : list A) o e, (o < length l)%nat -> nth_error (put l o e) o = Some e.
Proof.
  induction l as [|x l IH]; intros [|o] e; simpl; intros; try lia; auto. apply IH; lia.
Qed.
Lemma put_other : forall {A} (l : list A) o k e, o <> k -> nth_error (put l o e) k = nth_error l k.
Proof.
  induction l as [|x l IH]; intros [|o] [|k] e D; simpl; auto; try lia. 
Qed.
Lemma nth_error_lt : forall {A} (l : list A) o e, nth_error l o = Some e -> (o < length l)%nat.
Proof. intros A l o e H. apply nth_error_Some. rewrite H. discriminate. Qed.
Lemma put_put : forall {A} (l : list A) o a b, put (put l o a) o b = put l o b.
Proof. induction l as [|x l IH]; intros [|o] a b; simpl; auto. rewrite IH. auto. Qed.

(* ---- accumulators in use ---- *)
Definition accE (e : ent) : list Z := match accOf e with Some a => [a] | None => [] end.
Definition accs (l : list ent) : list Z := flat_map accE l.

Lemma accs_put : forall l o e, nth_error l o = Some e ->
  exists r, Permutation (accs l) (accE e ++ r) /\
    forall e', Permutation (accs (put l o e')) (accE e' ++ r).
Proof.
  induction l as [|x l IH]; intros [|o] e H; try discriminate H.
  - injection H as <-. exists (accs l). split; [apply Permutation_refl|].
    intros e'. apply Permutation_refl.
  - simpl in H. destruct (IH o e H) as [r [P Q]].
    exists (accE x ++ r). split.
    + change (accs (x :: l)) with (accE x ++ accs l). rewrite P.
      apply Permutation_app_swap_app.
    + intros e'. change (accs (put (x :: l) (S o) e')) with (accE x ++ accs (put l o e')).
      rewrite (Q e'). apply Permutation_app_swap_app.
Qed.

(* the busy table says exactly that the accumulators of l are in use *)
Definition BS (b : list bool) (l : list Z) : Prop :=
  length b = 3%nat /\ NoDup l /\ (forall a, In a l -> 0 <= a < 3) /\
  (forall a, 0 <= a < 3 -> (nth (Z.to_nat a) b false = true <-> In a l)).

Lemma BS_perm : forall b l l', Permutation l l' -> BS b l -> BS b l'.
Proof.
  intros b l l' P [A [B [C D]]]. split; [exact A|split; [|split]].
  - exact (Permutation_NoDup P B).
  - intros a I. apply C. exact (Permutation_in a (Permutation_sym P) I).
  - intros a R. rewrite (D a R). split; intros I.
    + exact (Permutation_in a P I).
    + exact (Permutation_in a (Permutation_sym P) I).
Qed.

Lemma nth_put : forall (b : list bool) i j v, (i < length b)%nat ->
  nth j (put b i v) false = if Nat.eqb i j then v else nth j b false.
Proof.
  induction b as [|x b IH]; intros [|i] [|j] v H; simpl in *; try lia; auto.
  apply IH. lia.
Qed.

Lemma BS_rel : forall b a l, BS b (a :: l) -> BS (put b (Z.to_nat a) false) l.
Proof.
  intros b a l [A [B [C D]]]. inversion B; subst.
  split; [rewrite put_length; exact A|split; [assumption|split]].
  - intros x I. apply C. right; exact I.
  - intros x R. assert (Ra : 0 <= a < 3) by (apply C; left; reflexivity).
    rewrite nth_put by (rewrite A; lia).
    destruct (Nat.eqb_spec (Z.to_nat a) (Z.to_nat x)) as [E|E].
    + assert (x = a) by lia. subst x. split; [discriminate|]. intros I. contradiction.
    + rewrite (D x R). split; [intros [I|I]; [lia|exact I]|intros I; right; exact I].
Qed.

Lemma BS_alloc : forall b l a, BS b l -> firstFree b = Some a ->
  0 <= a < 3 /\ ~ In a l /\ BS (put b (Z.to_nat a) true) (a :: l).
Proof.
  intros b l a Hb F.
  assert (Ra : 0 <= a < 3 /\ nth (Z.to_nat a) b false = false).
  { destruct Hb as [A _]. destruct b as [|x [|y [|z [|w b]]]]; try discriminate A.
    destruct x, y, z; simpl in F; try discriminate F; injection F as <-; (split; [lia|reflexivity]). }
  destruct Ra as [Ra Fa]. destruct Hb as [A [B [C D]]].
  assert (N : ~ In a l). { intros I. rewrite <- (D a Ra) in I. rewrite I in Fa. discriminate. }
  split; [exact Ra|split; [exact N|]].
  split; [rewrite put_length; exact A|split; [constructor; assumption|split]].
  - intros x [<-|I]; [exact Ra|exact (C x I)].
  - intros x R. rewrite nth_put by (rewrite A; lia).
    destruct (Nat.eqb_spec (Z.to_nat a) (Z.to_nat x)) as [E|E].
    + assert (x = a) by lia. subst x. split; [intros _; left; reflexivity|reflexivity].
    + rewrite (D x R). split; [intros I; right; exact I|intros [I|I]; [lia|exact I]].
Qed.

Lemma BS_le3 : forall b l, BS b l -> (length l <= 3)%nat.
Proof.
  intros b l [_ [N [C _]]].
  apply (NoDup_incl_length (l' := [0; 1; 2])) in N; [exact N|].
  intros a I. specialize (C a I). simpl. lia.
Qed.

Lemma BS_free : forall b l, BS b l -> (length l < 3)%nat -> exists a, firstFree b = Some a.
Proof.
  intros b l Hb L. pose proof Hb as [A [N [C D]]].
  destruct b as [|x [|y [|z [|w b]]]]; try discriminate A.
  destruct x; [|exists 0; reflexivity]. destruct y; [|exists 1; reflexivity].
  destruct z; [|exists 2; reflexivity]. exfalso.
  assert (incl [0; 1; 2] l).
  { intros a I. assert (0 <= a < 3) by (simpl in I; lia). apply D; [assumption|].
    destruct I as [<-|[<-|[<-|[]]]]; reflexivity. }
  apply NoDup_incl_length in H; [simpl in H; lia|].
  repeat constructor; simpl; lia.
Qed.

(* accounts: l is the list of accumulators in use *)
Definition W (s : tst) (l : list Z) : Prop := BS (bsy s) l /\ acnt s = Z.of_nat (length l).

Lemma W_perm : forall s l l', Permutation l l' -> W s l -> W s l'.
Proof.
  intros s l l' P [B C]. split; [exact (BS_perm _ _ _ P B)|].
  rewrite C. rewrite (Permutation_length P). reflexivity.
Qed.

(* ---- well-formed entries ---- *)
Definition entOk (e : ent) : Prop :=
  match e with
  | XReg r => 3 <= r < 12
  | XWnd r | XByt r => 0 <= r < 12
  | _ => True
  end.

Definition flgOk (s : tst) : Prop :=
  (forall i, flg s = Some i -> (i < length (vst s))%nat) /\
  (forall o r, nth_error (vst s) o = Some (XFlg r) -> flg_is s o = true).

Definition noFlg (s : tst) : Prop := forall o r, nth_error (vst s) o <> Some (XFlg r).

Record WF (s : tst) : Prop := {
  wf_acc : W s (accs (vst s));
  wf_ent : Forall entOk (vst s);
  wf_flg : flgOk s;
  wf_len : (length (vst s) <= 20)%nat }.

Lemma flg_is_uniq : forall s o k, flg_is s o = true -> flg_is s k = true -> o = k.
Proof.
  unfold flg_is. intros s o k A B. destruct (flg s) as [i|]; [|discriminate].
  apply Nat.eqb_eq in A. apply Nat.eqb_eq in B. lia.
Qed.
Lemma flg_is_pos : forall s o, flgOk s -> flg_is s o = true -> flgPos s = Some o.
Proof.
  unfold flg_is, flgPos. intros s o [A _] E. destruct (flg s) as [i|] eqn:F; [|discriminate].
  specialize (A i eq_refl).
  apply Nat.eqb_eq in E. f_equal. lia.
Qed.
Lemma flgPos_is : forall s o, flgOk s -> flgPos s = Some o -> flg_is s o = true.
Proof.
  unfold flg_is, flgPos. intros s o [A _] E. destruct (flg s) as [i|] eqn:F; [|discriminate].
  injection E as <-. apply Nat.eqb_eq. specialize (A i eq_refl). lia.
Qed.

(* accumulators used by the state do not change when fields other than the stack do *)
Lemma relAcc_inv : forall a s c s', relAcc a s = Some (c, s') ->
  c = [] /\ s' = set_acc s (put (bsy s) (Z.to_nat a) false) (acnt s - 1) /\ 0 <= a < 3.
Proof.
  unfold relAcc. intros a s c s' H. inv1 H. inv1 H. inv1 A. inv1 B.
  apply orb_false_iff in Eb. destruct Eb as [Eb _]. apply orb_false_iff in Eb. destruct Eb as [E1 E2].
  apply Z.ltb_ge in E1. apply Z.leb_gt in E2. simpl. split; [reflexivity|split; [reflexivity|lia]].
Qed.
Lemma relAcc_W : forall a s c s' l, relAcc a s = Some (c, s') -> W s (a :: l) -> W s' l.
Proof.
  intros a s c s' l H [B C]. destruct (relAcc_inv _ _ _ _ H) as [_ [-> _]].
  split; [exact (BS_rel _ _ _ B)|]. simpl. rewrite C. simpl length. lia.
Qed.

Lemma relEnt_inv : forall o s c s', relEnt o s = Some (c, s') ->
  exists e b n, nth_error (vst s) o = Some e /\ c = [] /\ s' = set_acc s b n /\
    forall l l', W s l -> Permutation l (accE e ++ l') -> W s' l'.
Proof.
  unfold relEnt. intros o s c s' H. inv1 H.
  unfold accE. destruct (accOf e) as [a|] eqn:F.
  - destruct (relAcc_inv _ _ _ _ H) as [-> [E' _]].
    exists e, (put (bsy s) (Z.to_nat a) false), (acnt s - 1).
    split; [exact E|split; [reflexivity|split; [exact E'|]]].
    intros l l' Hw P. rewrite F in P. apply (relAcc_W _ _ _ _ l' H). exact (W_perm _ _ _ P Hw).
  - inv1 H. exists e, (bsy s), (acnt s).
    split; [exact E|split; [reflexivity|split; [destruct s; reflexivity|]]].
    intros l l' Hw P. rewrite F in P. exact (W_perm _ _ _ P Hw).
Qed.

Lemma allocAcc_inv : forall k s c s', allocAcc k s = Some (c, s') ->
  exists a, firstFree (bsy s) = Some a /\
    k a (set_acc s (put (bsy s) (Z.to_nat a) true) (acnt s + 1)) = Some (c, s').
Proof.
  unfold allocAcc. intros k s c s' H. inv1 H.
  destruct (firstFree (bsy s)) as [a|]; [|discriminate]. inv1 H. inv1 A. exists a. split; [reflexivity|exact B].
Qed.
Lemma alloc_W : forall s l a, W s l -> firstFree (bsy s) = Some a ->
  0 <= a < 3 /\ ~ In a l /\ W (set_acc s (put (bsy s) (Z.to_nat a) true) (acnt s + 1)) (a :: l).
Proof.
  intros s l a [B C] F. destruct (BS_alloc _ _ _ B F) as [R [N B']].
  split; [exact R|split; [exact N|]]. split; [exact B'|]. simpl. rewrite C. lia.
Qed.

(* ---- loadFlg, loadReg leave the stack alone ---- *)
Definition sameStk (s s' : tst) : Prop :=
  vst s' = vst s /\ bsy s' = bsy s /\ acnt s' = acnt s /\ flg s' = flg s /\ fcc s' = fcc s
  /\ rv s' = rv s /\ fr s' = fr s.

Lemma loadFlg_inv : forall r o s c s', loadFlg r o s = Some (c, s') ->
  flg_is s o = true /\ (exists q, nth_error (vst s) o = Some (XFlg q)) /\
  c = [TLd r (OImm 1); TJcc (fcc s) (LbT (tl s)); TLd r (OImm 0); TLab (LbT (tl s))] /\
  s' = set_tl s (tl s + 1).
Proof.
  unfold loadFlg. intros r o s c s' H. inv1 H. inv1 H. inv1 A. inv1 B. inv1 A.
  inv1 A. inv1 B0. inv1 A. inv1 B.
  apply negb_false_iff in Eb. apply negb_false_iff in Eb0.
  split; [exact Eb|split].
  - destruct e; try discriminate Eb0. eauto.
  - split; reflexivity.
Qed.

Lemma calReg_inv : forall mk o s c s', calReg mk o s = Some (c, s') ->
  exists e x, nth_error (vst s) o = Some e /\ opdOf e = Some x /\ c = [mk x] /\ s' = s.
Proof.
  unfold calReg. intros mk o s c s' H. inv1 H. destruct (opdOf e) as [x|] eqn:F; [|discriminate].
  inv1 H. eauto 6.
Qed.

Section WFp.
Variables (strict ord : bool) (depth np : Z).
Notation loadReg := (loadReg strict).
Notation popStk := (popStk strict).
Notation outStk := (outStk strict).
Notation loadStk := (loadStk strict).

Lemma loadReg_inv : forall r o s c s', loadReg r o s = Some (c, s') ->
  exists e, nth_error (vst s) o = Some e /\
  match e with
  | XStk => (strict = true -> exists l, lay s = Some (idx s o) :: l) /\
            c = [TPop r] /\ s' = set_lay s (List.tl (lay s))
  | XFlg _ => flg_is s o = true /\
      c = [TLd r (OImm 1); TJcc (fcc s) (LbT (tl s)); TLd r (OImm 0); TLab (LbT (tl s))] /\
      s' = set_fv (set_tl s (tl s + 1)) false
  | _ => exists x, opdOf e = Some x /\ c = [TLd r x] /\ s' = s
  end.
Proof.
  unfold Tac.loadReg. intros r o s c s' H. inv1 H. exists e. split; [exact E|].
  assert (D : forall b, (bug b;; calReg (TLd r) o) s = Some (c, s') ->
    exists x, opdOf e = Some x /\ c = [TLd r x] /\ s' = s).
  { intros b K. inv1 K. inv1 A. destruct (calReg_inv _ _ _ _ _ B) as [e' [x [E' [F [-> ->]]]]].
    rewrite E in E'. injection E' as <-. eauto. }
  destruct e; try (exact (D _ H)).
  - inv1 H. destruct (loadFlg_inv _ _ _ _ _ A) as [A1 [_ [-> ->]]]. inv1 B.
    simpl. split; [exact A1|split; reflexivity].
  - inv1 H. inv1 A. inv1 A. inv1 B. inv1 A. inv1 B0. simpl. split; [|split; reflexivity].
    intros S. specialize (G S). destruct (lay s) as [|[i|] l]; try discriminate G.
    apply Nat.eqb_eq in G. subst. exists l. reflexivity.
Qed.

Lemma loadReg_same : forall r o s c s', loadReg r o s = Some (c, s') -> sameStk s s'.
Proof.
  intros r o s c s' H. destruct (loadReg_inv _ _ _ _ _ H) as [e [_ K]]. unfold sameStk.
  destruct e; try (destruct K as [x [_ [_ ->]]]; repeat split; reflexivity).
  - destruct K as [_ [_ ->]]. repeat split; reflexivity.
  - destruct K as [_ [_ ->]]. repeat split; reflexivity.
Qed.

(* replacing one entry *)
Lemma WF_put : forall s o e e' s',
  WF s -> nth_error (vst s) o = Some e ->
  vst s' = put (vst s) o e' -> flg s' = flg s ->
  (forall r, Permutation (accs (vst s)) (accE e ++ r) -> W s' (accE e' ++ r)) ->
  entOk e' -> isFlg e' = false -> WF s'.
Proof.
  intros s o e e' s' [Ha He [Hf1 Hf2] Hl] E V F K O NF.
  destruct (accs_put _ _ _ E) as [r [P Q]].
  split.
  - rewrite V. apply (W_perm _ (accE e' ++ r)); [apply Permutation_sym; apply Q|]. exact (K r P).
  - rewrite V. apply Forall_forall. intros x I.
    apply In_nth_error in I. destruct I as [k I].
    destruct (Nat.eq_dec o k) as [<-|D].
    + rewrite put_same in I by exact (nth_error_lt _ _ _ E). injection I as <-. exact O.
    + rewrite put_other in I by exact D. apply nth_error_In in I.
      rewrite Forall_forall in He. exact (He x I).
  - split.
    + intros i I. rewrite F in I. rewrite V, put_length. exact (Hf1 i I).
    + intros k q I. rewrite V in I.
      destruct (Nat.eq_dec o k) as [<-|D].
      * rewrite put_same in I by exact (nth_error_lt _ _ _ E). injection I as ->. discriminate NF.
      * rewrite put_other in I by exact D. unfold flg_is. rewrite F, V, put_length.
        exact (Hf2 k q I).
  - rewrite V, put_length. exact Hl.
Qed.

Definition sameAcc (s s' : tst) : Prop := bsy s' = bsy s /\ acnt s' = acnt s.
Lemma W_same : forall s s' l, bsy s' = bsy s -> acnt s' = acnt s -> W s l -> W s' l.
Proof. intros s s' l A B [C D]. split; [rewrite A; exact C|rewrite B; exact D]. Qed.

Lemma WF_same : forall s s', vst s' = vst s -> bsy s' = bsy s -> acnt s' = acnt s -> flg s' = flg s ->
  WF s -> WF s'.
Proof.
  intros s s' V B A F [Ha He [Hf1 Hf2] Hl]. split.
  - rewrite V. exact (W_same _ _ _ B A Ha).
  - rewrite V. exact He.
  - split.
    + intros i I. rewrite F in I. rewrite V. exact (Hf1 i I).
    + intros o r I. rewrite V in I. unfold flg_is. rewrite F, V. exact (Hf2 o r I).
  - rewrite V. exact Hl.
Qed.

Lemma WF_flgNone : forall s s', vst s' = vst s -> bsy s' = bsy s -> acnt s' = acnt s -> flg s' = None ->
  noFlg s -> WF s -> WF s'.
Proof.
  intros s s' V B A F N [Ha He _ Hl]. split.
  - rewrite V. exact (W_same _ _ _ B A Ha).
  - rewrite V. exact He.
  - split.
    + intros i I. rewrite F in I. discriminate I.
    + intros o r I. rewrite V in I. elim (N o r I).
  - rewrite V. exact Hl.
Qed.

(* ---- clearFlg ---- *)
Lemma clearFlg_inv : forall s c s', WF s -> clearFlg s = Some (c, s') ->
  flg s' = None /\ rv s' = rv s /\ fr s' = fr s /\ lay s' = lay s /\
  ((exists o r, flg_is s o = true /\ nth_error (vst s) o = Some (XFlg r) /\
      c = [TLd r (OImm 1); TJcc (fcc s) (LbT (tl s)); TLd r (OImm 0); TLab (LbT (tl s))] /\
      s' = set_flg (set_vst (set_tl s (tl s + 1)) (put (vst s) o (XAcc r))) None)
   \/ (c = [] /\ noFlg s /\ s' = set_flg s None)).
Proof.
  unfold clearFlg. intros s c s' Wf H. inv1 H. inv1 B. inv1 A.
  pose proof (wf_flg _ Wf) as Fo.
  assert (N0 : forall o, flgPos s = Some o -> (forall r, nth_error (vst s) o <> Some (XFlg r)) -> noFlg s).
  { intros o P N k r I. pose proof (proj2 Fo k r I) as K.
    rewrite (flg_is_pos _ _ Fo K) in P. injection P as ->. exact (N r I). }
  destruct (flgPos s) as [o|] eqn:P.
  - pose proof (flgPos_is _ _ Fo P) as K. inv1 A.
    destruct e; try (inv1 A; simpl; split; [reflexivity|split; [reflexivity|split; [reflexivity|split;[reflexivity|]]]];
      right; split; [reflexivity|split; [apply (N0 o eq_refl); intros r' I; rewrite E in I; discriminate I|reflexivity]]).
    inv1 A. destruct (loadFlg_inv _ _ _ _ _ A0) as [_ [_ [-> ->]]]. inv1 B. simpl.
    split; [reflexivity|split; [reflexivity|split; [reflexivity|split;[reflexivity|]]]].
    left. exists o, r. auto.
  - inv1 A. simpl. split; [reflexivity|split; [reflexivity|split; [reflexivity|split;[reflexivity|]]]].
    right. split; [reflexivity|split; [|reflexivity]].
    intros k r I. pose proof (proj2 Fo k r I) as K. rewrite (flg_is_pos _ _ Fo K) in P. discriminate.
Qed.

Lemma clearFlg_WF : forall s c s', WF s -> clearFlg s = Some (c, s') ->
  WF s' /\ noFlg s' /\ length (vst s') = length (vst s).
Proof.
  intros s c s' Wf H. destruct (clearFlg_inv _ _ _ Wf H) as [_ [_ [_ [_ [[o [r [K [E [_ ->]]]]]|[_ [N ->]]]]]]].
  - set (s2 := set_vst (set_tl s (tl s + 1)) (put (vst s) o (XAcc r))).
    assert (W2 : WF s2).
    { apply (WF_put s o (XFlg r) (XAcc r) s2 Wf E eq_refl eq_refl); try exact I; try reflexivity.
      intros q P. apply (W_same s); [reflexivity|reflexivity|].
      exact (W_perm _ _ _ P (wf_acc _ Wf)). }
    assert (N2 : noFlg s2).
    { intros k q I. unfold s2 in I. cbn [vst set_vst] in I. destruct (Nat.eq_dec o k) as [<-|D].
      - rewrite put_same in I by exact (nth_error_lt _ _ _ E). discriminate I.
      - rewrite put_other in I by exact D. pose proof (proj2 (wf_flg _ Wf) k q I) as K2.
        elim D. exact (flg_is_uniq _ _ _ K K2). }
    split; [|split].
    + exact (WF_flgNone s2 (set_flg s2 None) eq_refl eq_refl eq_refl eq_refl N2 W2).
    + exact N2.
    + simpl. apply put_length.
  - split; [|split; [exact N|reflexivity]].
    exact (WF_flgNone s (set_flg s None) eq_refl eq_refl eq_refl eq_refl N Wf).
Qed.

(* ---- outStk ---- *)
Lemma srchAcc_some : forall l o, srchAcc l = Some o -> exists e a, nth_error l o = Some e /\ accOf e = Some a.
Proof.
  induction l as [|x l IH]; intros o H; [discriminate|]. simpl in H.
  destruct (srchAcc l) as [k|].
  - injection H as <-. exact (IH k eq_refl).
  - destruct (accOf x) as [a|] eqn:F; [|discriminate]. injection H as <-. exists x, a. auto.
Qed.

Lemma outStk_inv : forall s c s', outStk s = Some (c, s') ->
  exists o e a c1 s1, srchAcc (vst s) = Some o /\ nth_error (vst s) o = Some e /\ accOf e = Some a /\ 0 <= a < 3 /\
    (if isACC e then c1 = [] /\ s1 = s else loadReg a o s = Some (c1, s1)) /\
    c = c1 ++ [TPush a] /\
    s' = set_vst (set_acc (set_lay s1 (Some (idx s1 o) :: lay s1)) (put (bsy s1) (Z.to_nat a) false) (acnt s1 - 1))
                 (put (vst s1) o XStk).
Proof.
  unfold Tac.outStk. intros s c s' H. inv1 H.
  destruct (srchAcc (vst s)) as [o|] eqn:S; [|discriminate].
  inv1 H. destruct (accOf e) as [a|] eqn:F; [|discriminate].
  inv1 H. inv1 B. inv1 A0. inv1 B0. inv1 A0. inv1 B. 
  destruct (relAcc_inv _ _ _ _ A0) as [-> [-> R]]. inv1 B0.
  exists o, e, a, c0, s0. split; [reflexivity|split; [exact E|split; [exact F|split; [exact R|split; [|split]]]]].
  - destruct (isACC e); [inv1 A; auto|exact A].
  - rewrite !app_nil_r. reflexivity.
  - reflexivity.
Qed.

Lemma outStk_WF : forall s c s', WF s -> outStk s = Some (c, s') ->
  WF s' /\ length (vst s') = length (vst s) /\ acnt s' = acnt s - 1 /\
  (noFlg s -> noFlg s') /\
  exists o e, srchAcc (vst s) = Some o /\ nth_error (vst s) o = Some e /\ vst s' = put (vst s) o XStk /\ flg s' = flg s
    /\ fcc s' = fcc s /\ rv s' = rv s /\ fr s' = fr s.
Proof.
  intros s c s' Wf H. destruct (outStk_inv _ _ _ H) as [o [e [a [c1 [s1 [S [E [F [R [K [_ ->]]]]]]]]]]].
  assert (Sm : sameStk s s1).
  { destruct (isACC e); [destruct K as [_ ->]; repeat split; reflexivity|exact (loadReg_same _ _ _ _ _ K)]. }
  destruct Sm as [V [B [C [Fl [Fc [Rv Fr]]]]]].
  split; [|split; [|split; [|split]]].
  - apply (WF_put s o e XStk _ Wf E); simpl; try exact I; try reflexivity.
    + rewrite V. reflexivity.
    + exact Fl.
    + intros r P. unfold accE in P. rewrite F in P. simpl.
      pose proof (W_perm _ _ _ P (wf_acc _ Wf)) as [Hb Hc]. simpl in Hc.
      split; simpl.
      * rewrite B. exact (BS_rel _ _ _ Hb).
      * rewrite C, Hc. lia.
  - simpl. rewrite put_length, V. reflexivity.
  - simpl. rewrite C. reflexivity.
  - intros N k r I. simpl in I. rewrite V in I. destruct (Nat.eq_dec o k) as [<-|D].
    + rewrite put_same in I by exact (nth_error_lt _ _ _ E). discriminate I.
    + rewrite put_other in I by exact D. exact (N k r I).
  - exists o, e. simpl. rewrite V, Fl, Fc, Rv, Fr. auto 8.
Qed.

(* ---- loadStk ---- *)
Lemma accs_nil_flg : forall l, accs l = [] -> forall o e, nth_error l o = Some e -> accOf e = None.
Proof.
  induction l as [|x l IH]; intros H [|o] e E; try discriminate E;
    change (accE x ++ accs l = []) in H; apply app_eq_nil in H; destruct H as [A B].
  - injection E as <-. unfold accE in A. destruct (accOf x); [discriminate A|reflexivity].
  - exact (IH B o e E).
Qed.

(* the common end of loadStk: entry o becomes the accumulator a *)
Lemma load_end_WF : forall s o e a c s1 s',
  WF s -> nth_error (vst s) o = Some e ->
  (accOf e = Some a /\ s1 = s \/ accOf e = None /\ firstFree (bsy s) = Some a /\
     s1 = set_acc s (put (bsy s) (Z.to_nat a) true) (acnt s + 1)) ->
  (loadReg a o ;; set_ent o (XAcc a)) s1 = Some (c, s') ->
  WF s' /\ vst s' = put (vst s) o (XAcc a) /\ flg s' = flg s /\ fcc s' = fcc s /\ rv s' = rv s /\ fr s' = fr s.
Proof.
  intros s o e a c s1 s' Wf E K H. inv1 H. inv1 B.
  destruct (loadReg_same _ _ _ _ _ A) as [V [B [C [Fl [Fc [Rv Fr]]]]]].
  assert (V1 : vst s1 = vst s /\ flg s1 = flg s /\ fcc s1 = fcc s /\ rv s1 = rv s /\ fr s1 = fr s).
  { destruct K as [[_ ->]|[_ [_ ->]]]; simpl; auto. }
  destruct V1 as [V1 [F1 [F2 [F3 F4]]]]. simpl. rewrite V, V1.
  split; [|rewrite Fl, F1, Fc, F2, Rv, F3, Fr, F4; auto 8].
  apply (WF_put s o e (XAcc a) _ Wf E); simpl; try exact I; try reflexivity; try (rewrite V, V1; reflexivity).
  - rewrite Fl, F1. reflexivity.
  - intros r P. apply (W_same s1); simpl; [exact B|exact C|].
    destruct K as [[F ->]|[F [FF ->]]]; unfold accE in P; rewrite F in P.
    + exact (W_perm _ _ _ P (wf_acc _ Wf)).
    + simpl in P. pose proof (W_perm _ _ _ P (wf_acc _ Wf)) as Hw.
      exact (proj2 (proj2 (alloc_W _ _ _ Hw FF))).
Qed.

Lemma loadStk_inv : forall o s c s', loadStk o s = Some (c, s') ->
  exists e, nth_error (vst s) o = Some e /\
  ((exists a, e = XAcc a) /\ c = [] /\ s' = s \/
   isACC e = false /\
   ((exists a, accOf e = Some a /\ (loadReg a o ;; set_ent o (XAcc a)) s = Some (c, s'))
    \/ exists c1 s1 a c2, accOf e = None /\
         (if 3 <=? acnt s then outStk s = Some (c1, s1) else c1 = [] /\ s1 = s) /\
         firstFree (bsy s1) = Some a /\
         (loadReg a o ;; set_ent o (XAcc a)) (set_acc s1 (put (bsy s1) (Z.to_nat a) true) (acnt s1 + 1)) = Some (c2, s') /\
         c = c1 ++ c2)).
Proof.
  unfold Tac.loadStk. intros o s c s' H. inv1 H. exists e. split; [exact E|].
  destruct (isACC e) eqn:I.
  - left. inv1 H. destruct e; try discriminate I. eauto.
  - right. split; [reflexivity|]. destruct (accOf e) as [a|] eqn:F.
    + left. exists a. auto.
    + right. inv1 H. inv1 A.
      destruct (allocAcc_inv _ _ _ _ B) as [a [FF K]].
      exists c0, s0, a, c1. split; [reflexivity|split; [|auto]].
      destruct (3 <=? acnt s); [exact A|inv1 A; auto].
Qed.

Lemma loadStk_WF : forall o s c s', WF s -> loadStk o s = Some (c, s') ->
  WF s' /\ length (vst s') = length (vst s) /\ (exists a, nth_error (vst s') o = Some (XAcc a)) /\
  (noFlg s -> noFlg s') /\ flg s' = flg s /\ rv s' = rv s /\ fr s' = fr s /\
  (forall k, k <> o -> nth_error (vst s') k = nth_error (vst s) k \/ nth_error (vst s') k = Some XStk).
Proof.
  intros o s c s' Wf H. destruct (loadStk_inv _ _ _ _ H) as [e [E [[[a ->] [_ ->]]|[_ [[a [F K]]|[c1 [s1 [a [c2 [F [O [FF [K _]]]]]]]]]]]]].
  - split; [exact Wf|split; [reflexivity|split; [eauto|auto 8]]].
  - destruct (load_end_WF s o e a c s s' Wf E (or_introl (conj F eq_refl)) K) as [Wf' [V [Fl [_ [Rv Fr]]]]].
    split; [exact Wf'|split; [rewrite V; apply put_length|split; [|split; [|split; [|split; [|split]]]]]].
    + exists a. rewrite V. apply put_same. exact (nth_error_lt _ _ _ E).
    + intros N k r I. rewrite V in I. destruct (Nat.eq_dec o k) as [<-|D].
      * rewrite put_same in I by exact (nth_error_lt _ _ _ E). discriminate I.
      * rewrite put_other in I by exact D. exact (N k r I).
    + exact Fl.
    + exact Rv.
    + exact Fr.
    + intros k D. left. rewrite V. apply put_other. lia.
  - assert (S1 : WF s1 /\ length (vst s1) = length (vst s) /\ (noFlg s -> noFlg s1) /\ flg s1 = flg s /\ rv s1 = rv s /\ fr s1 = fr s /\
      nth_error (vst s1) o = Some e /\ (forall k, nth_error (vst s1) k = nth_error (vst s) k \/ nth_error (vst s1) k = Some XStk)).
    { destruct (3 <=? acnt s).
      - destruct (outStk_WF _ _ _ Wf O) as [Wf1 [L1 [_ [N1 [o1 [e1 [S [E1 [V1 [F1 [_ [Rv Fr]]]]]]]]]]]].
        split; [exact Wf1|split; [exact L1|split; [exact N1|split; [exact F1|split; [exact Rv|split; [exact Fr|split]]]]]].
        + rewrite V1. rewrite put_other; [exact E|].
          intros ->. destruct (srchAcc_some _ _ S) as [e2 [a2 [E2 F2]]].
          rewrite E in E2. injection E2 as <-. congruence.
        + intros k. rewrite V1. destruct (Nat.eq_dec o1 k) as [<-|D].
          * right. apply put_same. exact (nth_error_lt _ _ _ E1).
          * left. apply put_other. exact D.
      - destruct O as [_ ->]. auto 10. }
    destruct S1 as [Wf1 [L1 [N1 [F1 [R1 [Fr1 [E1 Kk]]]]]]].
    destruct (load_end_WF s1 o e a c2 _ s' Wf1 E1 (or_intror (conj F (conj FF eq_refl))) K) as [Wf' [V [Fl [_ [Rv Fr]]]]].
    split; [exact Wf'|split; [rewrite V, put_length; exact L1|split; [|split; [|split; [|split; [|split]]]]]].
    + exists a. rewrite V. apply put_same. exact (nth_error_lt _ _ _ E1).
    + intros N k r I. rewrite V in I. destruct (Nat.eq_dec o k) as [<-|D].
      * rewrite put_same in I by exact (nth_error_lt _ _ _ E1). discriminate I.
      * rewrite put_other in I by exact D. exact (N1 N k r I).
    + rewrite Fl. exact F1.
    + rewrite Rv. exact R1.
    + rewrite Fr. exact Fr1.
    + intros k D. rewrite V. rewrite put_other by lia. apply Kk.
Qed.
End WFp.
