(* Execution of the code emitted by the translator: what the entries of its
   virtual stack stand for, and that loading and spilling keep it so. *)
From Coq Require Import ZArith Bool Lia List Permutation.
From Verif Require OptProofs.
From Verif Require Import Word WordProofs SyTree ExprSem VM VmCode TacSpec Tac TacSafe TacInv TacInv2.
Import ListNotations.
Open Scope Z_scope.

(* element at a distance from the bottom *)
Fixpoint bot {A} (l : list A) (i : nat) : option A :=
  match l with
  | [] => None
  | x :: l' => if Nat.eqb i (length l') then Some x else bot l' i
  end.
Lemma bot_lt : forall {A} (l : list A) i x, bot l i = Some x -> (i < length l)%nat.
Proof.
  intros A. induction l as [|y l IH]; intros i x H; simpl in H; [discriminate|].
  destruct (Nat.eqb_spec i (length l)); simpl; [lia|]. specialize (IH _ _ H). lia.
Qed.
Lemma bot_nth : forall {A} (l : list A) i, (i < length l)%nat -> bot l i = nth_error l (length l - 1 - i).
Proof.
  intros A. induction l as [|y l IH]; intros i H; simpl in H; [lia|]. simpl.
  destruct (Nat.eqb_spec i (length l)) as [->|D].
  - replace (length l - 0 - length l)%nat with 0%nat by lia. reflexivity.
  - rewrite IH by lia. replace (length l - 0 - i)%nat with (S (length l - 1 - i)) by lia. reflexivity.
Qed.
Lemma bot_idx : forall {A} (l : list A) o, (o < length l)%nat -> bot l (length l - 1 - o) = nth_error l o.
Proof. intros A l o H. rewrite bot_nth by lia. f_equal. lia. Qed.
Lemma bot_cons : forall {A} (l : list A) i x, (i < length l)%nat -> bot (x :: l) i = bot l i.
Proof. intros A l i x H. simpl. destruct (Nat.eqb_spec i (length l)); [lia|reflexivity]. Qed.
Lemma bot_skipn : forall {A} n (l : list A) i, (i + n < length l)%nat -> bot (skipn n l) i = bot l i.
Proof.
  intros A. induction n as [|n IH]; intros [|x l] i H; simpl in H; try reflexivity; try lia.
  change (skipn (S n) (x :: l)) with (skipn n l). rewrite IH by lia. symmetry. apply bot_cons. lia.
Qed.
Lemma bot_put_other : forall {A} (l : list A) o e i, (i < length l)%nat -> i <> (length l - 1 - o)%nat ->
  bot (put l o e) i = bot l i.
Proof.
  intros A l o e i L D. rewrite !bot_nth; rewrite ?put_length; try assumption.
  destruct (Nat.lt_ge_cases o (length l)) as [Lt|Ge].
  - apply put_other. lia.
  - assert (P : put l o e = l).
    { clear - Ge. revert o Ge. induction l as [|x l IH]; intros o Ge; [reflexivity|]. destruct o; simpl in Ge; [lia|].
      simpl. f_equal. apply IH. lia. }
    rewrite P. reflexivity.
Qed.

Section Sim.
Variable M : machine.
Variable Hw : hw M.
Notation mst := (mst M).

(* straight-line execution of a piece of code. The four-instruction block that
   turns the flags into a truth value is one step. *)
Inductive Ex : list tin -> mst -> mst -> Prop :=
| Ex_nil : forall t, Ex [] t t
| Ex_one : forall i c t t1 t', exec1 M Hw i t = Some t1 -> Ex c t1 t' -> Ex (i :: c) t t'
| Ex_flg : forall r k n c t t',
    Ex c (if holds k (zf t) (lf t) then setr M t r 1 else setr M (setr M t r 1) r 0) t' ->
    Ex (TLd r (OImm 1) :: TJcc k (LbT n) :: TLd r (OImm 0) :: TLab (LbT n) :: c) t t'.

Lemma Ex_app : forall c1 t t1, Ex c1 t t1 -> forall c2 t2, Ex c2 t1 t2 -> Ex (c1 ++ c2) t t2.
Proof.
  induction 1 as [t|i c t t1 t' E _ IH|r k n c t t' _ IH]; intros c2 t2 H2; simpl.
  - exact H2.
  - exact (Ex_one i _ _ _ _ E (IH _ _ H2)).
  - apply Ex_flg. exact (IH _ _ H2).
Qed.
Lemma Ex1 : forall i t t1, exec1 M Hw i t = Some t1 -> Ex [i] t t1.
Proof. intros i t t1 H. exact (Ex_one _ _ _ _ _ H (Ex_nil _)). Qed.

Lemma tdefs_app : forall a b, tdefs (a ++ b) = tdefs a ++ tdefs b.
Proof. induction a as [|i a IH]; intros b; [reflexivity|]. destruct i; simpl; rewrite ?IH; reflexivity. Qed.
Lemma tlabel_eqb_eq : forall a b, tlabel_eqb a b = true <-> a = b.
Proof.
  intros [x|x] [y|y]; simpl; split; intros H; try discriminate H; try (apply Z.eqb_eq in H; subst; reflexivity);
    injection H as ->; apply Z.eqb_refl.
Qed.
Lemma tfind_unique : forall l a b, NoDup (tdefs (a ++ TLab l :: b)) -> tfind l (a ++ TLab l :: b) = Some (length a).
Proof.
  intros l. induction a as [|i a IH]; intros b N.
  - simpl. destruct (tlabel_eqb l l) eqn:E; [reflexivity|]. assert (tlabel_eqb l l = true) by (apply tlabel_eqb_eq; reflexivity). congruence.
  - destruct i; simpl in *; try (rewrite (IH b N); reflexivity).
    inversion N as [|? ? N1 N2]; subst. destruct (tlabel_eqb l0 l) eqn:E.
    + apply tlabel_eqb_eq in E. subst. elim N1. rewrite tdefs_app. apply in_or_app. right. left. reflexivity.
    + rewrite (IH b N2). reflexivity.
Qed.

Lemma treaches_refl : forall p c, treaches M Hw p c c.
Proof. intros p c. exists O. reflexivity. Qed.
Lemma treaches_step : forall p c d e, tstep M Hw p c = Some d -> treaches M Hw p d e -> treaches M Hw p c e.
Proof. intros p c d e S1 [n H]. exists (S n). simpl. eauto. Qed.
Lemma treaches_trans : forall p c d e, treaches M Hw p c d -> treaches M Hw p d e -> treaches M Hw p c e.
Proof.
  intros p c d e [n H] K. revert c H. induction n as [|n IH]; intros c H; simpl in H; [subst; exact K|].
  destruct H as [c' [S1 H]]. exact (treaches_step _ _ _ _ S1 (IH _ H)).
Qed.

Lemma nth_mid : forall {A} (a b : list A) x, nth_error (a ++ x :: b) (length a) = Some x.
Proof. intros A a b x. rewrite nth_error_app2 by lia. rewrite Nat.sub_diag. reflexivity. Qed.

(* the machine executes a piece of straight-line code wherever it stands *)
Lemma Ex_run : forall c t t', Ex c t t' -> forall pre post,
  NoDup (tdefs (pre ++ c ++ post)) ->
  treaches M Hw (pre ++ c ++ post) (TCfg (length pre) t) (TCfg (length pre + length c) t').
Proof.
  induction 1 as [t|i c t t1 t' E _ IH|r k n c t t' _ IH]; intros pre post N.
  - rewrite Nat.add_0_r. apply treaches_refl.
  - assert (P : pre ++ (i :: c) ++ post = (pre ++ [i]) ++ c ++ post) by (rewrite <- app_assoc; reflexivity).
    rewrite P in *. specialize (IH (pre ++ [i]) post N). rewrite app_length in IH. simpl in IH.
    replace (length pre + 1)%nat with (S (length pre)) in IH by lia.
    replace (length pre + length (i :: c))%nat with (S (length pre) + length c)%nat by (simpl; lia).
    apply (treaches_step _ _ (TCfg (S (length pre)) t1)); [|exact IH].
    rewrite <- app_assoc. change ([i] ++ c ++ post) with (i :: c ++ post). unfold tstep. simpl tpc. simpl ms. rewrite nth_mid.
    destruct i; try (rewrite E; reflexivity); discriminate E.
  - set (c4 := [TLd r (OImm 1); TJcc k (LbT n); TLd r (OImm 0); TLab (LbT n)]).
    change (TLd r (OImm 1) :: TJcc k (LbT n) :: TLd r (OImm 0) :: TLab (LbT n) :: c) with (c4 ++ c) in *.
    assert (P : pre ++ (c4 ++ c) ++ post = (pre ++ c4) ++ c ++ post) by (rewrite <- !app_assoc; reflexivity).
    rewrite P in *. specialize (IH (pre ++ c4) post N). rewrite app_length in IH. simpl (length c4) in IH.
    rewrite app_length. simpl (length c4).
    replace (length pre + (4 + length c))%nat with (length pre + 4 + length c)%nat by lia.
    refine (treaches_trans _ _ _ _ _ IH).
    assert (Pq : (pre ++ c4) ++ c ++ post = pre ++ TLd r (OImm 1) :: TJcc k (LbT n) :: TLd r (OImm 0) :: TLab (LbT n) :: c ++ post)
      by (rewrite <- app_assoc; reflexivity).
    assert (Pf : (pre ++ c4) ++ c ++ post = (pre ++ [TLd r (OImm 1); TJcc k (LbT n); TLd r (OImm 0)]) ++ TLab (LbT n) :: c ++ post)
      by (rewrite <- !app_assoc; reflexivity).
    assert (F : tfind (LbT n) ((pre ++ c4) ++ c ++ post) = Some (length pre + 3)%nat).
    { rewrite Pf in N |- *. rewrite tfind_unique by exact N. rewrite app_length. reflexivity. }
    assert (N0 : nth_error ((pre ++ c4) ++ c ++ post) (length pre) = Some (TLd r (OImm 1))) by (rewrite Pq; apply nth_mid).
    assert (Nk : forall j, nth_error ((pre ++ c4) ++ c ++ post) (length pre + j) =
      nth_error (TLd r (OImm 1) :: TJcc k (LbT n) :: TLd r (OImm 0) :: TLab (LbT n) :: c ++ post) j).
    { intros j. rewrite Pq. rewrite nth_error_app2 by lia. f_equal. lia. }
    set (p := (pre ++ c4) ++ c ++ post) in *.
    apply (treaches_step _ _ (TCfg (length pre + 1) (setr M t r 1))).
    { unfold tstep. simpl tpc. rewrite N0. simpl. f_equal. f_equal. lia. }
    destruct (holds k (zf t) (lf t)) eqn:Hk.
    + apply (treaches_step _ _ (TCfg (length pre + 3) (setr M t r 1))).
      { unfold tstep. simpl tpc. rewrite (Nk 1%nat). simpl. rewrite Hk. unfold tgoto. rewrite F. reflexivity. }
      apply (treaches_step _ _ (TCfg (length pre + 4) (setr M t r 1))); [|apply treaches_refl].
      unfold tstep. simpl tpc. rewrite (Nk 3%nat). simpl. f_equal. f_equal. lia.
    + apply (treaches_step _ _ (TCfg (length pre + 2) (setr M t r 1))).
      { unfold tstep. simpl tpc. rewrite (Nk 1%nat). simpl. rewrite Hk. f_equal. f_equal. lia. }
      apply (treaches_step _ _ (TCfg (length pre + 3) (setr M (setr M t r 1) r 0))).
      { unfold tstep. simpl tpc. rewrite (Nk 2%nat). simpl. f_equal. f_equal. lia. }
      apply (treaches_step _ _ (TCfg (length pre + 4) (setr M (setr M t r 1) r 0))); [|apply treaches_refl].
      unfold tstep. simpl tpc. rewrite (Nk 3%nat). simpl. f_equal. f_equal. lia.
Qed.

(* the frame of the function being executed: frame pointer, local variables,
   parameters; registers at the call and stack contents after the prologue *)
Variables (FP0 depth np : Z) (GR0 SMS : Z -> Z) (ord : bool).
Hypothesis Hd : 0 <= depth.
Hypothesis Hfl : flat M.
Hypothesis Hhw : hwOk M Hw ord.
Definition base : Z := FP0 - 2 * depth.

Record FRM (t : mst) (m : state M) : Prop := {
  f_fp : fp t = FP0;
  f_g : tg t = gs m;
  f_reg : forall n, 1 <= n <= depth -> n <= 9 -> gr t (n + 2) = w16 (locs m n);
  f_loc : forall n, 9 < n <= depth -> sm t (FP0 - (n - 9) * 2) = w16 (locs m n);
  f_prm : forall n, 0 <= n < np -> sm t (FP0 + (n + 2) * 2) = w16 (prms m n);
  f_keep : forall r, 3 <= r < 12 -> depth + 2 < r -> gr t r = GR0 r;
  f_sm : forall a, base <= a ->
    (forall n, 9 < n <= depth -> a <> FP0 - (n - 9) * 2) ->
    (forall n, 0 <= n < np -> a <> FP0 + (n + 2) * 2) -> sm t a = SMS a }.

(* what an entry stands for; a value on the real stack is found through lay *)
Definition entFr (e : ent) : Prop :=
  match e with
  | XLoc d => exists n, 9 < n <= depth /\ d = (n - 9) * 2
  | XPrm d => exists n, 0 <= n < np /\ d = (n + 2) * 2
  | _ => True
  end.
Definition den (k : cc) (t : mst) (e : ent) (v : Z) : Prop :=
  entFr e /\
  match opdOf e with
  | Some o => opd_val M o t = v
  | None => isFlg e = true -> v = b2w (holds k (zf t) (lf t))
  end.

Fixpoint LY (mem : Z -> Z) (vs : list Z) (a : Z) (l : list (option nat)) (va : list Z) : Prop :=
  match l with
  | [] => va = []
  | None :: l' => match va with x :: va' => mem a = x /\ LY mem vs (a + 2) l' va' | [] => False end
  | Some i :: l' => bot vs i = Some (mem a) /\ LY mem vs (a + 2) l' va
  end.

Record SIM (s : tst) (vs va : list Z) (m : state M) (t : mst) : Prop := {
  s_frm : FRM t m;
  s_sp : sp t = base - 2 * Z.of_nat (length (lay s));
  s_den : Forall2 (den (fcc s) t) (vst s) vs;
  s_lay : LY (sm t) vs (sp t) (lay s) va;
  s_wl : forall i, In (Some i) (lay s) -> bot (vst s) i = Some XStk;
  s_nd : NoDup (filter (fun x => negb (isArg x)) (lay s));
  s_word : Forall is_word vs;
  s_flag : fv s = true -> forall o e v, flg_is s o = true -> nth_error (vst s) o = Some e ->
     isFlg e = false -> nth_error vs o = Some v ->
     zf t = (v =? 0) /\ (ord = true -> lf t = (sval v <? 0)) }.

Lemma LY_ext : forall mem mem' vs vs' l a va,
  (forall i, In (Some i) l -> bot vs' i = bot vs i) ->
  (forall x, a <= x < a + 2 * Z.of_nat (length l) -> mem' x = mem x) ->
  LY mem vs a l va -> LY mem' vs' a l va.
Proof.
  intros mem mem' vs vs'. induction l as [|[i|] l IH]; intros a va Hi Hm H; cbn [LY length] in *;
    rewrite ?Nat2Z.inj_succ in Hm.
  - exact H.
  - destruct H as [H1 H2]. rewrite Hm by lia. rewrite (Hi i) by (left; reflexivity). split; [exact H1|].
    apply IH; [intros j J; apply Hi; right; exact J| |exact H2]. intros x X. apply Hm. lia.
  - destruct va as [|x va]; [exact H|]. destruct H as [H1 H2]. rewrite Hm by lia. split; [exact H1|].
    apply IH; [intros j J; apply Hi; right; exact J| |exact H2]. intros y Y. apply Hm. lia.
Qed.

Lemma Forall2_nth : forall {A B} (P : A -> B -> Prop) l l', Forall2 P l l' ->
  forall o x, nth_error l o = Some x -> exists y, nth_error l' o = Some y /\ P x y.
Proof.
  intros A B P l l' H. induction H as [|a b l l' Hab _ IH]; intros o x E; destruct o; simpl in E; try discriminate.
  - injection E as <-. exists b. auto.
  - exact (IH o x E).
Qed.
Lemma Forall2_change : forall {A B} (P Q : A -> B -> Prop) l l', Forall2 P l l' ->
  (forall o x y, nth_error l o = Some x -> nth_error l' o = Some y -> P x y -> Q x y) -> Forall2 Q l l'.
Proof.
  intros A B P Q l l' H. induction H as [|a b l l' Hab _ IH]; intros K; constructor.
  - exact (K 0%nat a b eq_refl eq_refl Hab).
  - apply IH. intros o x y X Y. exact (K (S o) x y X Y).
Qed.
Lemma Forall2_put : forall {A B} (P Q : A -> B -> Prop) l l' o e v, Forall2 P l l' ->
  nth_error l' o = Some v -> Q e v ->
  (forall k x y, k <> o -> nth_error l k = Some x -> nth_error l' k = Some y -> P x y -> Q x y) ->
  Forall2 Q (put l o e) l'.
Proof.
  intros A B P Q l l' o e v H. revert o. induction H as [|a b l l' Hab Hl IH]; intros o E He K; destruct o; simpl in *; try discriminate.
  - injection E as ->. constructor; [exact He|]. apply (Forall2_change P); [exact Hl|].
    intros k x y X Y. apply (K (S k) x y); [lia|exact X|exact Y].
  - constructor; [apply (K 0%nat); auto|]. apply IH; auto.
    intros k x y Dk X Y. apply (K (S k) x y); [lia|exact X|exact Y].
Qed.

(* writing an accumulator *)
Lemma den_acc : forall k t e v a x, 0 <= a < 3 -> ~ In a (accE e) -> entOk e ->
  den k t e v -> den k (setr M t a x) e v.
Proof.
  intros k t e v a x Ra Na Oe [F D]. split; [exact F|].
  assert (U : forall r, r <> a -> upd (gr t) a x r = gr t r).
  { intros r Dr. unfold upd. destruct (Z.eqb_spec r a); [contradiction|reflexivity]. }
  destruct e; simpl in *; try exact D; unfold accE in Na; simpl in Na; simpl in Oe.
  - rewrite U by lia. exact D.
  - rewrite U; [exact D|]. destruct (Z.ltb_spec r 3); simpl in Na; [tauto|lia].
  - rewrite U; [exact D|]. destruct (Z.ltb_spec r 3); simpl in Na; [tauto|lia].
  - rewrite U; [exact D|]. tauto.
Qed.
Lemma FRM_acc : forall t m a x, 0 <= a < 3 -> FRM t m -> FRM (setr M t a x) m.
Proof.
  intros t m a x Ra [A B C D E F G].
  assert (U : forall r, 3 <= r -> upd (gr t) a x r = gr t r).
  { intros r Dr. unfold upd. destruct (Z.eqb_spec r a); [lia|reflexivity]. }
  split; simpl; try assumption.
  - intros n N1 N2. rewrite U by lia. auto.
  - intros r R1 R2. rewrite U by lia. auto.
Qed.
(* moving the stack pointer, writing below the frame *)
Lemma den_sm : forall k t t' e v, gr t' = gr t -> fp t' = FP0 -> fp t = FP0 -> tg t' = tg t ->
  zf t' = zf t -> lf t' = lf t -> (forall a, base <= a -> sm t' a = sm t a) ->
  den k t e v -> den k t' e v.
Proof.
  intros k t t' e v Hg Hf Hf' Ht Hz Hl Hm [F D]. split; [exact F|].
  destruct e; simpl in *; rewrite ?Hg, ?Ht, ?Hz, ?Hl; try exact D.
  - destruct F as [n [Hn ->]]. rewrite Hf in *. rewrite Hf' in D. rewrite Hm; [exact D|unfold base; lia].
  - destruct F as [n [Hn ->]]. rewrite Hf in *. rewrite Hf' in D. rewrite Hm; [exact D|unfold base; lia].
Qed.

Lemma SIM_val : forall s vs va m t o e, SIM s vs va m t -> nth_error (vst s) o = Some e ->
  exists v, nth_error vs o = Some v /\ den (fcc s) t e v /\ is_word v.
Proof.
  intros s vs va m t o e H E. destruct (Forall2_nth _ _ _ (s_den _ _ _ _ _ H) _ _ E) as [v [V D]].
  exists v. split; [exact V|split; [exact D|]]. pose proof (s_word _ _ _ _ _ H) as Fw. rewrite Forall_forall in Fw.
  apply Fw. exact (nth_error_In _ _ V).
Qed.
Lemma SIM_len : forall s vs va m t, SIM s vs va m t -> length (vst s) = length vs.
Proof. intros s vs va m t H. pose proof (s_den _ _ _ _ _ H) as D. clear H. induction D as [|a b l l' _ _ IH]; simpl; [reflexivity|f_equal; exact IH]. Qed.

(* loading entry o into an accumulator no other entry uses *)
Lemma load_SIM : forall s vs va m t o a c s1 s',
  SIM s vs va m t -> Forall entOk (vst s) -> 0 <= a < 3 ->
  (forall k e, k <> o -> nth_error (vst s) k = Some e -> ~ In a (accE e)) ->
  loadReg true a o s = Some (c, s1) ->
  vst s' = put (vst s) o (XAcc a) -> lay s' = lay s1 -> fcc s' = fcc s -> flg s' = flg s ->
  (fv s' = true -> fv s1 = true) ->
  exists t', Ex c t t' /\ SIM s' vs va m t' /\ zf t' = zf t /\ lf t' = lf t /\
    (forall r, r <> a -> gr t' r = gr t r).
Proof.
  intros s vs va m t o a c s1 s' Sm Oe Ra Ex1' L V' La' Fc' Fl' Fv'.
  destruct (loadReg_inv _ _ _ _ _ _ L) as [e [E K]].
  destruct (SIM_val _ _ _ _ _ _ _ Sm E) as [v [Vo [De Wv]]].
  pose proof (nth_error_lt _ _ _ E) as Lo.
  (* all cases end in a state with a holding v *)
  assert (FIN : forall t1, (forall r, gr t1 r = gr (setr M t a v) r) -> fp t1 = fp t -> sm t1 = sm t -> tg t1 = tg t ->
     zf t1 = zf t -> lf t1 = lf t -> sp t1 = base - 2 * Z.of_nat (length (lay s')) ->
     LY (sm t) vs (sp t1) (lay s') va ->
     (forall i, In (Some i) (lay s') -> In (Some i) (lay s) /\ i <> idx s o) ->
     NoDup (filter (fun x => negb (isArg x)) (lay s')) ->
     (fv s' = true -> isFlg e = false /\ fv s = true) ->
     SIM s' vs va m t1).
  { intros t1 Hg Hf Hm Ht Hz Hl Hs Hly Hwl Hnd Hfv.
    pose proof (FRM_acc t m a v Ra (s_frm _ _ _ _ _ Sm)) as Fr.
    assert (DC : forall k x y, den k (setr M t a v) x y -> den k t1 x y).
    { intros k x y [D1 D2]. split; [exact D1|]. destruct x; simpl in *; rewrite ?Hg, ?Hf, ?Hm, ?Ht, ?Hz, ?Hl; exact D2. }
    split.
    - destruct Fr as [A B C D E' F G]. split; simpl in *.
      + rewrite Hf; exact A.
      + rewrite Ht; exact B.
      + intros n N1 N2. rewrite Hg. apply C; assumption.
      + rewrite Hm; exact D.
      + rewrite Hm; exact E'.
      + intros r R1 R2. rewrite Hg. apply F; assumption.
      + rewrite Hm; exact G.
    - exact Hs.
    - rewrite V', Fc'. apply (Forall2_put (den (fcc s) t) _ _ _ o (XAcc a) v (s_den _ _ _ _ _ Sm) Vo).
      + apply DC. split; [exact I|]. simpl. unfold upd. rewrite Z.eqb_refl. reflexivity.
      + intros k x y Dk X Y D. apply DC. apply den_acc; auto.
        * exact (Ex1' k x Dk X).
        * rewrite Forall_forall in Oe. apply Oe. exact (nth_error_In _ _ X).
    - rewrite Hm. exact Hly.
    - intros i I. destruct (Hwl i I) as [I1 I2]. rewrite V'.
      pose proof (s_wl _ _ _ _ _ Sm i I1) as B1. rewrite bot_put_other; [exact B1|exact (bot_lt _ _ _ B1)|exact I2].
    - exact Hnd.
    - exact (s_word _ _ _ _ _ Sm).
    - intros F1 o' e' v' Fi E1 N1 V1. destruct (Hfv F1) as [Ne Fv].
      assert (Fi' : flg_is s o' = true).
      { unfold flg_is in *. rewrite Fl', V', put_length in Fi. exact Fi. }
      rewrite V' in E1. rewrite Hz, Hl.
      destruct (Nat.eq_dec o o') as [<-|Dn].
      + exact (s_flag _ _ _ _ _ Sm Fv o e v' Fi' E Ne V1).
      + rewrite put_other in E1 by exact Dn. exact (s_flag _ _ _ _ _ Sm Fv o' e' v' Fi' E1 N1 V1). }
  assert (SAME : forall x, s1 = s -> c = [TLd a x] -> opdOf e = Some x -> isStk e = false -> isFlg e = false ->
    exists t', Ex c t t' /\ SIM s' vs va m t' /\ zf t' = zf t /\ lf t' = lf t /\
      (forall r, r <> a -> gr t' r = gr t r)).
  { intros x -> -> Ox Ns Nf. exists (setr M t a (opd_val M x t)). split; [apply Ex1; reflexivity|].
    split; [|split; [reflexivity|split; [reflexivity|intros q Dq; simpl; unfold upd; destruct (Z.eqb_spec q a); [contradiction|reflexivity]]]].
    destruct De as [_ D2]. rewrite Ox in D2. rewrite D2.
    apply FIN; try reflexivity.
    - rewrite La'. exact (s_sp _ _ _ _ _ Sm).
    - rewrite La'. exact (s_lay _ _ _ _ _ Sm).
    - intros i I. rewrite La' in I. split; [exact I|]. intros ->.
      pose proof (s_wl _ _ _ _ _ Sm _ I) as B. unfold idx in B. rewrite bot_idx in B by exact Lo.
      rewrite E in B. injection B as ->. discriminate Ns.
    - rewrite La'. exact (s_nd _ _ _ _ _ Sm).
    - intros F. split; [exact Nf|exact (Fv' F)]. }
  destruct e; try (destruct K as [x [Ox [-> ->]]]; apply (SAME x); try reflexivity; exact Ox).
  - (* flags *)
    destruct K as [Fi [-> ->]]. destruct De as [_ D2]. specialize (D2 eq_refl).
    exists (if holds (fcc s) (zf t) (lf t) then setr M t a 1 else setr M (setr M t a 1) a 0).
    split; [apply Ex_flg; apply Ex_nil|].
    split; [|destruct (holds (fcc s) (zf t) (lf t)); (split; [reflexivity|split; [reflexivity|
      intros q Dq; simpl; unfold upd; destruct (Z.eqb_spec q a); [contradiction|reflexivity]]])].
    apply FIN.
    + intros q. destruct (holds (fcc s) (zf t) (lf t)); rewrite D2; simpl; unfold upd; destruct (q =? a); reflexivity.
    + destruct (holds (fcc s) (zf t) (lf t)); reflexivity.
    + destruct (holds (fcc s) (zf t) (lf t)); reflexivity.
    + destruct (holds (fcc s) (zf t) (lf t)); reflexivity.
    + destruct (holds (fcc s) (zf t) (lf t)); reflexivity.
    + destruct (holds (fcc s) (zf t) (lf t)); reflexivity.
    + rewrite La'. pose proof (s_sp _ _ _ _ _ Sm). destruct (holds (fcc s) (zf t) (lf t)); exact H.
    + rewrite La'. pose proof (s_lay _ _ _ _ _ Sm). destruct (holds (fcc s) (zf t) (lf t)); exact H.
    + intros i I. rewrite La' in I. split; [exact I|]. intros ->.
      pose proof (s_wl _ _ _ _ _ Sm _ I) as B. unfold idx in B. rewrite bot_idx in B by exact Lo. rewrite E in B. discriminate B.
    + rewrite La'. exact (s_nd _ _ _ _ _ Sm).
    + intros F. specialize (Fv' F). discriminate Fv'.
  - (* on the real stack *)
    destruct K as [G [-> ->]]. destruct (G eq_refl) as [l Hl]. clear G.
    pose proof (s_lay _ _ _ _ _ Sm) as Ly. rewrite Hl in Ly. cbn [LY] in Ly. destruct Ly as [Lv Ly].
    assert (Ev : sm t (sp t) = v).
    { unfold idx in Lv. rewrite (SIM_len _ _ _ _ _ Sm) in Lv. rewrite (SIM_len _ _ _ _ _ Sm) in Lo.
      rewrite bot_idx in Lv by exact Lo. rewrite Vo in Lv. injection Lv as ->. reflexivity. }
    simpl in La'. rewrite Hl in La'. simpl in La'.
    pose proof (s_nd _ _ _ _ _ Sm) as Nd. rewrite Hl in Nd. simpl in Nd. apply NoDup_cons_iff in Nd. destruct Nd as [N1 N2].
    exists (setsp M (setr M t a v) (sp t + 2)). split; [apply Ex1; simpl; rewrite Ev; reflexivity|].
    split; [|split; [reflexivity|split; [reflexivity|intros q Dq; simpl; unfold upd; destruct (Z.eqb_spec q a); [contradiction|reflexivity]]]].
    apply FIN; try reflexivity.
    + change (sp t + 2 = base - 2 * Z.of_nat (length (lay s'))). rewrite (s_sp _ _ _ _ _ Sm), Hl, La'. cbn [length]. rewrite Nat2Z.inj_succ. lia.
    + rewrite La'. exact Ly.
    + intros i I. rewrite La' in I. split; [rewrite Hl; right; exact I|]. intros ->. apply N1.
      apply filter_In. split; [exact I|reflexivity].
    + rewrite La'. exact N2.
    + intros F. split; [reflexivity|]. exact (Fv' F).
Qed.

(* pushing the accumulator of entry o *)
Lemma push_SIM : forall s vs va m t o a s',
  SIM s vs va m t -> nth_error (vst s) o = Some (XAcc a) ->
  vst s' = put (vst s) o XStk -> lay s' = Some (idx s o) :: lay s -> fcc s' = fcc s -> flg s' = flg s ->
  (fv s' = true -> fv s = true) ->
  SIM s' vs va m (push M t (gr t a)).
Proof.
  intros s vs va m t o a s' Sm E V' La' Fc' Fl' Fv'.
  destruct (SIM_val _ _ _ _ _ _ _ Sm E) as [v [Vo [[_ De] Wv]]]. simpl in De.
  pose proof (nth_error_lt _ _ _ E) as Lo. pose proof (s_sp _ _ _ _ _ Sm) as Sp.
  assert (Hm : forall x, sp t <= x -> upd (sm t) (sp t - 2) (gr t a) x = sm t x).
  { intros x Hx. unfold upd. destruct (Z.eqb_spec x (sp t - 2)); [lia|reflexivity]. }
  assert (Hb : forall x, base <= x -> upd (sm t) (sp t - 2) (gr t a) x = sm t x) by (intros; apply Hm; lia).
  destruct (s_frm _ _ _ _ _ Sm) as [A B C D E' F G].
  split.
  - split; simpl; try assumption.
    + intros n N1. rewrite Hb by (unfold base; lia). auto.
    + intros n N1. rewrite Hb by (unfold base; lia). auto.
    + intros x X1 X2 X3. rewrite Hb by assumption. auto.
  - rewrite La'. cbn [length]. rewrite Nat2Z.inj_succ. change (sp (push M t (gr t a))) with (sp t - 2). lia.
  - rewrite V', Fc'. apply (Forall2_put (den (fcc s) t) _ _ _ o XStk v (s_den _ _ _ _ _ Sm) Vo).
    + split; [exact I|]. simpl. discriminate.
    + intros k x y Dk X Y Dn. apply (den_sm _ t); try reflexivity; auto.
  - rewrite La'. cbn [LY]. simpl sp. simpl sm. split.
    + unfold upd at 1. rewrite Z.eqb_refl. rewrite De. unfold idx. rewrite (SIM_len _ _ _ _ _ Sm) in *.
      rewrite bot_idx by exact Lo. exact Vo.
    + replace (sp t - 2 + 2) with (sp t) by lia.
      apply (LY_ext (sm t) _ vs vs); [reflexivity| |exact (s_lay _ _ _ _ _ Sm)]. intros x X. apply Hm. lia.
  - intros i I. rewrite La' in I. rewrite V'. destruct I as [I|I].
    + injection I as <-. unfold idx. rewrite <- (put_length (vst s) o XStk).
      rewrite bot_idx by (rewrite put_length; exact Lo). apply put_same. exact Lo.
    + pose proof (s_wl _ _ _ _ _ Sm i I) as B1. destruct (Nat.eq_dec i (length (vst s) - 1 - o)) as [->|Dn].
      * rewrite <- (put_length (vst s) o XStk).
        rewrite bot_idx by (rewrite put_length; exact Lo). apply put_same. exact Lo.
      * rewrite bot_put_other; [exact B1|exact (bot_lt _ _ _ B1)|exact Dn].
  - rewrite La'. simpl. constructor; [|exact (s_nd _ _ _ _ _ Sm)].
    intros I. apply filter_In in I. destruct I as [I _]. pose proof (s_wl _ _ _ _ _ Sm _ I) as B1.
    unfold idx in B1. rewrite bot_idx in B1 by exact Lo. rewrite E in B1. discriminate B1.
  - exact (s_word _ _ _ _ _ Sm).
  - intros F1 o' e' v' Fi E1 N1 V1.
    assert (Fi' : flg_is s o' = true).
    { unfold flg_is in *. rewrite Fl', V', put_length in Fi. exact Fi. }
    rewrite V' in E1. simpl. destruct (Nat.eq_dec o o') as [<-|Dn].
    + exact (s_flag _ _ _ _ _ Sm (Fv' F1) o (XAcc a) v' Fi' E eq_refl V1).
    + rewrite put_other in E1 by exact Dn. exact (s_flag _ _ _ _ _ Sm (Fv' F1) o' e' v' Fi' E1 N1 V1).
Qed.

(* a piece of the translator that only moves values around *)
Definition moves (f : act) : Prop := forall s c s' vs va m t,
  WF s -> SIM s vs va m t -> f s = Some (c, s') ->
  exists t', Ex c t t' /\ SIM s' vs va m t' /\ zf t' = zf t /\ lf t' = lf t.

Lemma excl : forall s o e a, WF s -> nth_error (vst s) o = Some e -> accOf e = Some a ->
  forall k e', k <> o -> nth_error (vst s) k = Some e' -> ~ In a (accE e').
Proof.
  intros s o e a Wf E F k e' Dk E' I.
  destruct (wf_acc _ Wf) as [[_ [N _]] _].
  destruct (accs_put _ _ _ E) as [r [P Q]].
  assert (X : In a (accs (put (vst s) o XStk))).
  { unfold accs. apply in_flat_map. exists e'. split; [|exact I]. apply (nth_error_In _ k). rewrite put_other by (intros X; apply Dk; auto). exact E'. }
  apply (Permutation_in a (Q XStk)) in X. unfold accE in X at 1. simpl in X.
  pose proof (Permutation_NoDup P N) as N2. unfold accE in N2. rewrite F in N2. simpl in N2. inversion N2; contradiction.
Qed.
Lemma exclFree : forall s a, WF s -> firstFree (bsy s) = Some a ->
  0 <= a < 3 /\ forall k e', nth_error (vst s) k = Some e' -> ~ In a (accE e').
Proof.
  intros s a Wf F. destruct (alloc_W _ _ _ (wf_acc _ Wf) F) as [R [N _]]. split; [exact R|].
  intros k e' E' I. apply N. unfold accs. apply in_flat_map. exists e'. split; [exact (nth_error_In _ _ E')|exact I].
Qed.

(* entries that stay keep the contents of their registers *)
Definition keepR (s s' : tst) (t t' : mst) : Prop := forall k e r,
  nth_error (vst s) k = Some e -> nth_error (vst s') k = Some e -> regN e = Some r -> gr t' r = gr t r.

Lemma outStk_movesR : forall s c s' vs va m t,
  WF s -> SIM s vs va m t -> outStk true s = Some (c, s') ->
  exists t', Ex c t t' /\ SIM s' vs va m t' /\ zf t' = zf t /\ lf t' = lf t /\ keepR s s' t t'.
Proof.
  intros s c s' vs va m t Wf Sm H.
  destruct (outStk_inv _ _ _ _ H) as [o [e [a [c1 [s1 [Sr [E [Fa [Ra [K [-> ->]]]]]]]]]]].
  pose proof (nth_error_lt _ _ _ E) as Lo.
  destruct (isACC e) eqn:Ia.
  - destruct K as [-> ->]. destruct e; try discriminate Ia. simpl in Fa. injection Fa as ->.
    exists (push M t (gr t a)). split; [apply Ex1; reflexivity|].
    split; [|split; [reflexivity|split; [reflexivity|intros k e q _ _ _; reflexivity]]]. eapply (push_SIM s); eauto; reflexivity.
  - destruct (loadReg_same _ _ _ _ _ _ K) as [Vs [Bs [As [Fs [Fcs _]]]]].
    destruct (load_SIM s vs va m t o a c1 s1 (set_vst s1 (put (vst s) o (XAcc a))) Sm (wf_ent _ Wf) Ra
       (fun k e' D E' => excl s o e a Wf E Fa k e' D E') K eq_refl eq_refl Fcs Fs (fun x => x)) as [t1 [X1 [S1 [Z1 [L1 R1]]]]].
    exists (push M t1 (gr t1 a)). split; [apply (Ex_app _ _ _ X1); apply Ex1; reflexivity|].
    split; [|split; [exact Z1|split; [exact L1|]]].
    + apply (push_SIM (set_vst s1 (put (vst s) o (XAcc a))) vs va m t1 o a); try reflexivity.
      * exact S1.
      * simpl. apply put_same. exact Lo.
      * simpl. rewrite put_put, Vs. reflexivity.
      * simpl. unfold idx. simpl. rewrite put_length, Vs. reflexivity.
      * simpl. auto.
    + intros k e' q E1 E2 Rq. change (gr t1 q = gr t q). apply R1. intros ->. simpl in E2. rewrite Vs in E2.
      destruct (Nat.eq_dec o k) as [<-|Dk].
      * rewrite put_same in E2 by exact Lo. injection E2 as <-. discriminate Rq.
      * apply (excl s o e a Wf E Fa k e' (fun x => Dk (eq_sym x)) E1).
        destruct (regN_ok _ _ _ _ Wf E1 Rq) as [_ ->]. destruct (Z.ltb_spec a 3); [left; reflexivity|lia].
Qed.
Lemma outStk_moves : moves (outStk true).
Proof.
  intros s c s' vs va m t Wf Sm H. destruct (outStk_movesR _ _ _ _ _ _ _ Wf Sm H) as [t' [A [B [C [D _]]]]]. eauto.
Qed.

(* the accounting of accumulators does not matter for SIM *)
Lemma SIM_acc : forall s vs va m t b n, SIM s vs va m t -> SIM (set_acc s b n) vs va m t.
Proof. intros s vs va m t b n [A B C D E F G K]. split; assumption. Qed.

Lemma loadStk_movesR : forall o s c s' vs va m t,
  WF s -> SIM s vs va m t -> loadStk true o s = Some (c, s') ->
  exists t', Ex c t t' /\ SIM s' vs va m t' /\ zf t' = zf t /\ lf t' = lf t /\ keepR s s' t t'.
Proof.
  intros o s c s' vs va m t Wf Sm H. destruct (loadStk_inv _ _ _ _ _ H) as [e [E K]].
  pose proof (nth_error_lt _ _ _ E) as Lo.
  destruct K as [[[a ->] [-> ->]]|[Ia [[a [Fa K]]|[c1 [s1 [a [c2 [Fa [O [FF [K ->]]]]]]]]]]].
  - exists t. split; [apply Ex_nil|]. split; [exact Sm|split; [reflexivity|split; [reflexivity|intros k e q _ _ _; reflexivity]]].
  - seqi K as k1 s1 L k2. inv1 K. rewrite app_nil_r.
    destruct (loadReg_same _ _ _ _ _ _ L) as [Vs [_ [_ [Fs [Fcs _]]]]].
    destruct (load_SIM s vs va m t o a k1 s1 (set_vst s1 (put (vst s1) o (XAcc a))) Sm (wf_ent _ Wf) (WF_acc_range _ _ _ _ Wf E Fa)
      (fun k e' D E' => excl s o e a Wf E Fa k e' D E') L) as [t1 [X1 [S1 [Z1 [L1 R1]]]]]; simpl; auto.
    { rewrite Vs. reflexivity. }
    exists t1. do 4 (split; [assumption|]). intros k e' q E1 E2 Rq. apply R1. intros ->. simpl in E2. rewrite Vs in E2.
    destruct (Nat.eq_dec o k) as [<-|Dk].
    + rewrite put_same in E2 by exact Lo. injection E2 as <-. rewrite E in E1. injection E1 as ->. discriminate Ia.
    + apply (excl s o e a Wf E Fa k e' (fun x => Dk (eq_sym x)) E1).
      destruct (regN_ok _ _ _ _ Wf E1 Rq) as [_ ->]. pose proof (WF_acc_range _ _ _ _ Wf E Fa).
      destruct (Z.ltb_spec a 3); [left; reflexivity|lia].
  - assert (S1 : WF s1 /\ nth_error (vst s1) o = Some e /\
      (forall k e', nth_error (vst s1) k = Some e' -> e' <> XStk -> nth_error (vst s) k = Some e') /\
      exists t1, Ex c1 t t1 /\ SIM s1 vs va m t1 /\ zf t1 = zf t /\ lf t1 = lf t /\ keepR s s1 t t1).
    { destruct (3 <=? acnt s).
      - destruct (outStk_WF _ _ _ _ Wf O) as [Wf1 [_ [_ [_ [o2 [e2 [Sr [E2 [V1 _]]]]]]]]].
        split; [exact Wf1|split; [|split; [|exact (outStk_movesR _ _ _ _ _ _ _ Wf Sm O)]]].
        + rewrite V1. rewrite put_other; [exact E|]. intros ->. destruct (srchAcc_some _ _ Sr) as [e3 [a3 [E3 F3]]].
          rewrite E in E3. injection E3 as <-. congruence.
        + intros k e' Ek Ne. rewrite V1 in Ek. destruct (Nat.eq_dec o2 k) as [<-|Dk].
          * rewrite put_same in Ek by exact (nth_error_lt _ _ _ E2). congruence.
          * rewrite put_other in Ek by exact Dk. exact Ek.
      - destruct O as [-> ->]. split; [exact Wf|split; [exact E|split; [auto|]]].
        exists t. split; [apply Ex_nil|]. split; [exact Sm|split; [reflexivity|split; [reflexivity|intros k e' q _ _ _; reflexivity]]]. }
    destruct S1 as [Wf1 [E1 [Bk [t1 [X1 [Sm1 [Z1 [L1 R1]]]]]]]].
    seqi K as k1 s2 L k2. inv1 K. rewrite app_nil_r.
    destruct (exclFree _ _ Wf1 FF) as [Ra Xa].
    destruct (loadReg_same _ _ _ _ _ _ L) as [Vs [_ [_ [Fs [Fcs _]]]]].
    destruct (load_SIM (set_acc s1 (put (bsy s1) (Z.to_nat a) true) (acnt s1 + 1)) vs va m t1 o a k1 s2
      (set_vst s2 (put (vst s2) o (XAcc a))) (SIM_acc _ _ _ _ _ _ _ Sm1) (wf_ent _ Wf1) Ra
      (fun k e' _ E' => Xa k e' E') L) as [t2 [X2 [Sm2 [Z2 [L2 R2]]]]]; simpl; auto.
    { rewrite Vs. reflexivity. }
    exists t2. split; [exact (Ex_app _ _ _ X1 _ _ X2)|split; [exact Sm2|split; [congruence|split; [congruence|]]]].
    intros k e' q Ek1 Ek2 Rq. simpl in Ek2. rewrite Vs in Ek2. simpl in Ek2.
    destruct (Nat.eq_dec o k) as [<-|Dk].
    + rewrite put_same in Ek2 by exact (nth_error_lt _ _ _ E1). injection Ek2 as <-. rewrite E in Ek1. injection Ek1 as ->. discriminate Ia.
    + rewrite put_other in Ek2 by exact Dk. rewrite R2.
      * exact (R1 k e' q Ek1 Ek2 Rq).
      * intros ->. apply (Xa k e' Ek2). destruct (regN_ok _ _ _ _ Wf1 Ek2 Rq) as [_ ->].
        destruct (Z.ltb_spec a 3); [left; reflexivity|lia].
Qed.
Lemma loadStk_moves : forall o, moves (loadStk true o).
Proof.
  intros o s c s' vs va m t Wf Sm H. destruct (loadStk_movesR _ _ _ _ _ _ _ _ Wf Sm H) as [t' [A [B [C [D _]]]]]. eauto.
Qed.

Lemma moves_seq : forall f g, keeps f -> moves f -> moves g -> moves (f ;; g).
Proof.
  intros f g Kf F G s c s' vs va m t Wf Sm H. seqi H as c1 s1 A c2.
  destruct (F _ _ _ _ _ _ _ Wf Sm A) as [t1 [X1 [S1 [Z1 L1]]]].
  destruct (G _ _ _ _ _ _ _ (proj1 (Kf _ _ _ Wf A)) S1 H) as [t2 [X2 [S2 [Z2 L2]]]].
  exists t2. split; [exact (Ex_app _ _ _ X1 _ _ X2)|split; [exact S2|split; congruence]].
Qed.
Lemma moves_skip : moves skip.
Proof. intros s c s' vs va m t Wf Sm H. inv1 H. exists t. split; [apply Ex_nil|auto]. Qed.
Lemma moves_get : forall k, (forall s, moves (k s)) -> moves (get k).
Proof. intros k K s c s' vs va m t Wf Sm H. exact (K s s c s' vs va m t Wf Sm H). Qed.
Lemma moves_ent : forall o k, (forall e, moves (k e)) -> moves (ent_at o k).
Proof. intros o k K s c s' vs va m t Wf Sm H. inv1 H. exact (K e s c s' vs va m t Wf Sm H). Qed.
Lemma moves_fail : moves fail.
Proof. intros s c s' vs va m t Wf Sm H. discriminate H. Qed.

Lemma loadTop_moves : forall o, moves (loadTop true o).
Proof. intros o. apply moves_ent. intros e. destruct (isReg e); [apply moves_skip|apply loadStk_moves]. Qed.
Lemma outStkN_moves : forall n, moves (outStkN true n).
Proof.
  induction n as [|n IH]; simpl; apply moves_get; intros s; destruct (acnt s <=? 0); try apply moves_skip.
  - apply moves_fail.
  - apply moves_seq; [apply keeps_outStk|exact outStk_moves|exact IH].
Qed.
(* clearFlg does not rely on what the flags say of other entries *)
Lemma SIM_fv : forall s vs va m t, SIM s vs va m t -> SIM (set_fv s false) vs va m t.
Proof. intros s vs va m t [A B C D E F G K]. split; try assumption. intros X. discriminate X. Qed.
Lemma clearFlg_SIM : forall s c s' vs va m t,
  WF s -> SIM (set_fv s false) vs va m t -> clearFlg s = Some (c, s') ->
  exists t', Ex c t t' /\ SIM s' vs va m t' /\ zf t' = zf t /\ lf t' = lf t.
Proof.
  intros s c s' vs va m t Wf Sm H. destruct (clearFlg_inv _ _ _ Wf H) as [_ [_ [_ [_ K]]]].
  destruct K as [[o [r [Fi [E [-> ->]]]]]|[-> [N ->]]].
  - pose proof (WF_acc_range _ _ _ r Wf E eq_refl) as Ra.
    assert (L : loadReg true r o (set_fv s false) = Some ([TLd r (OImm 1); TJcc (fcc s) (LbT (tl s)); TLd r (OImm 0); TLab (LbT (tl s))],
       set_fv (set_tl (set_fv s false) (tl s + 1)) false)).
    { unfold loadReg, ent_at. change (vst (set_fv s false)) with (vst s). rewrite E. cbv beta iota.
      assert (Lf : loadFlg r o (set_fv s false) = Some ([TLd r (OImm 1); TJcc (fcc s) (LbT (tl s)); TLd r (OImm 0); TLab (LbT (tl s))], set_tl (set_fv s false) (tl s + 1))).
      { unfold loadFlg, get, andThen. change (flg_is (set_fv s false) o) with (flg_is s o). rewrite Fi. cbn [negb bug].
        unfold skip, emit, ent_at. change (vst (set_fv s false)) with (vst s). rewrite E. reflexivity. }
      unfold andThen. rewrite Lf. reflexivity. }
    destruct (load_SIM (set_fv s false) vs va m t o r _ _ (set_fv (set_vst s (put (vst s) o (XAcc r))) false) Sm (wf_ent _ Wf) Ra
      (fun k e' D E' => excl s o (XFlg r) r Wf E eq_refl k e' D E') L eq_refl eq_refl eq_refl eq_refl (fun x => x)) as [t1 [X1 [S1 [Z1 [L1 _]]]]].
    exists t1. split; [exact X1|split; [|auto]].
    destruct S1 as [A B C D E' F G K]. split; try assumption. intros _ o' e' v' Fi'. discriminate Fi'.
  - exists t. split; [apply Ex_nil|split; [|auto]].
    destruct Sm as [A B C D E' F G K]. split; try assumption. intros _ o' e' v' Fi'. discriminate Fi'.
Qed.

(* ---- changes of the virtual stack ---- *)
Lemma isStk_firstn : forall n l o e, existsb isStk (firstn n l) = false -> (o < n)%nat -> nth_error l o = Some e -> e <> XStk.
Proof.
  induction n as [|n IH]; intros [|x l] o e H Lt E; try lia; destruct o; simpl in *; try discriminate.
  - injection E as ->. intros ->. discriminate H.
  - apply orb_false_iff in H. destruct H as [_ H]. apply (IH l o e H); [lia|exact E].
Qed.
Lemma Forall2_skipn : forall {A B} (P : A -> B -> Prop) n l l', Forall2 P l l' -> Forall2 P (skipn n l) (skipn n l').
Proof. intros A B P n. induction n as [|n IH]; intros l l' H; [exact H|]. destruct H; [constructor|apply IH; assumption]. Qed.
Lemma Forall_skipn : forall {A} (P : A -> Prop) n l, Forall P l -> Forall P (skipn n l).
Proof. intros A P n. induction n as [|n IH]; intros l H; [exact H|]. destruct H; [constructor|apply IH; assumption]. Qed.

Lemma SIM_pop : forall n s c s' vs va m t, flgOk s -> SIM s vs va m t -> existsb isStk (firstn n (vst s)) = false ->
  popRaw n s = Some (c, s') -> c = [] /\ SIM s' (skipn n vs) va m t.
Proof.
  intros n s c s' vs va m t Fo Sm Ns H. destruct (popRaw_inv _ _ _ _ H) as [L [-> ->]]. split; [reflexivity|].
  pose proof (SIM_len _ _ _ _ _ Sm) as Le.
  assert (Hi : forall i, In (Some i) (lay s) -> (i + n < length (vst s))%nat).
  { intros i I. pose proof (s_wl _ _ _ _ _ Sm i I) as B. pose proof (bot_lt _ _ _ B) as Li.
    rewrite bot_nth in B by exact Li. destruct (Nat.lt_ge_cases (length (vst s) - 1 - i) n) as [Lt|Ge]; [|lia].
    elim (isStk_firstn _ _ _ _ Ns Lt B). reflexivity. }
  destruct Sm as [A B C D E F G K]. split; simpl; try assumption.
  - apply Forall2_skipn. exact C.
  - apply (LY_ext (sm t) _ vs); [|reflexivity|exact D]. intros i I. apply bot_skipn. rewrite <- Le. auto.
  - intros i I. rewrite bot_skipn by auto. auto.
  - apply Forall_skipn. exact G.
  - intros Fv o e v Fi Ee Ne Ev. rewrite nth_error_skip in Ee. rewrite nth_error_skip in Ev.
    apply (K Fv (n + o)%nat e v); auto. unfold flg_is in *. simpl in Fi. rewrite skipn_length in Fi.
    destruct (flg s) as [i|]; [|discriminate]. destruct (Nat.ltb_spec (i + n) (length (vst s))); [|discriminate].
    apply Nat.eqb_eq in Fi. apply Nat.eqb_eq. lia.
Qed.
Lemma SIM_relpop : forall s c s' vs va m t, WF s -> SIM s vs va m t ->
  (relEnt 0 ;; popStk true 1) s = Some (c, s') -> c = [] /\ SIM s' (skipn 1 vs) va m t.
Proof.
  intros s c s' vs va m t Wf Sm H. seqi H as c1 s1 Re c2.
  destruct (relEnt_inv _ _ _ _ Re) as [e [b [n [E [-> [-> _]]]]]].
  apply popStk_inv in H. destruct H as [H G]. specialize (G eq_refl).
  apply (SIM_pop 1 (set_acc s b n) c2 s' vs va m t); auto.
  - exact (wf_flg _ Wf).
  - apply SIM_acc. exact Sm.
Qed.

Lemma SIM_push : forall e v s s' vs va m t, flgOk s -> SIM s vs va m t -> den (fcc s) t e v -> is_word v ->
  s' = set_vst s (e :: vst s) -> SIM s' (v :: vs) va m t.
Proof.
  intros e v s s' vs va m t Fo Sm De Wv ->. pose proof (SIM_len _ _ _ _ _ Sm) as Le.
  assert (Hi : forall i, In (Some i) (lay s) -> (i < length (vst s))%nat).
  { intros i I. exact (bot_lt _ _ _ (s_wl _ _ _ _ _ Sm i I)). }
  destruct Sm as [A B C D E F G K]. split; cbn [set_vst vst lay fcc fv flg]; try assumption.
  - constructor; assumption.
  - apply (LY_ext (sm t) _ vs); [|reflexivity|exact D]. intros i I. apply bot_cons. rewrite <- Le. auto.
  - intros i I. rewrite bot_cons by auto. auto.
  - constructor; assumption.
  - intros Fv o e' v' Fi Ee Ne Ev. destruct o as [|o].
    + exfalso. unfold flg_is in Fi. simpl in Fi. destruct (flg s) as [i|] eqn:Ef; [|discriminate].
      apply Nat.eqb_eq in Fi. destruct Fo as [Fo _]. specialize (Fo i Ef). lia.
    + apply (K Fv o e' v'); auto. unfold flg_is in *. simpl in Fi. destruct (flg s); [|discriminate].
      apply Nat.eqb_eq in Fi. apply Nat.eqb_eq. lia.
Qed.

Lemma den_setf : forall k t e v z l, isFlg e = false -> den k t e v -> den k (setf M t z l) e v.
Proof. intros k t e v z l N [A B]. split; [exact A|]. destruct e; try discriminate N; try exact B; intros X; discriminate X. Qed.
Lemma FRM_setf : forall t m z l, FRM t m -> FRM (setf M t z l) m.
Proof. intros t m z l [A B C D E F G]. split; assumption. Qed.
Lemma noFlg_nth : forall s o e, noFlg s -> nth_error (vst s) o = Some e -> isFlg e = false.
Proof. intros s o e N E. destruct e; try reflexivity. elim (N _ _ E). Qed.

(* flags change while nothing depends on them *)
Lemma SIM_setf : forall s vs va m t z l, noFlg s -> flg s = None -> SIM s vs va m t -> SIM s vs va m (setf M t z l).
Proof.
  intros s vs va m t z l N Fn [A B C D E F G K]. split; try assumption.
  - apply FRM_setf. exact A.
  - apply (Forall2_change (den (fcc s) t)); [exact C|]. intros o x y X Y Dn. apply den_setf; [exact (noFlg_nth _ _ _ N X)|exact Dn].
  - intros _ o e v Fi. unfold flg_is in Fi. rewrite Fn in Fi. discriminate Fi.
Qed.

(* an arithmetic instruction on the accumulator of entry o *)
Lemma put_nth : forall {A} (l : list A) o k x y, nth_error l o = Some y ->
  nth_error (put l o x) k = if Nat.eqb o k then Some x else nth_error l k.
Proof.
  intros A l o k x y E. destruct (Nat.eqb_spec o k) as [<-|D].
  - apply put_same. exact (nth_error_lt _ _ _ E).
  - apply put_other. exact D.
Qed.
Lemma SIM_alu : forall s vs va m t o a w z l, WF s -> SIM s vs va m t -> noFlg s -> flg s = None ->
  nth_error (vst s) o = Some (XAcc a) -> is_word w ->
  SIM s (put vs o w) va m (setf M (setr M t a w) z l).
Proof.
  intros s vs va m t o a w z l Wf Sm N Fn E Ww.
  pose proof (SIM_len _ _ _ _ _ Sm) as Le. pose proof (nth_error_lt _ _ _ E) as Lo.
  pose proof (WF_acc_range _ _ _ a Wf E eq_refl) as Ra.
  apply SIM_setf; [exact N|exact Fn|].
  destruct Sm as [A B C D E' F G K]. split; try assumption.
  - apply FRM_acc; assumption.
  - pose proof (wf_ent _ Wf) as Oe. rewrite Forall_forall in Oe.
    assert (X : forall k e', k <> o -> nth_error (vst s) k = Some e' -> ~ In a (accE e')) by (exact (excl s o (XAcc a) a Wf E eq_refl)).
    assert (Y : Forall2 (fun e v => den (fcc s) (setr M t a w) e v) (vst s) (put vs o w)).
    {
      assert (Q : forall k e v, nth_error (vst s) k = Some e -> nth_error (put vs o w) k = Some v -> den (fcc s) (setr M t a w) e v).
      { intros k e v Ek Vk. destruct (Forall2_nth _ _ _ C _ _ Ek) as [v0 [V0 D0]].
        destruct (Nat.eq_dec o k) as [<-|Dk].
        - rewrite put_same in Vk by lia. injection Vk as <-. rewrite E in Ek. injection Ek as <-.
          split; [exact I|]. simpl. unfold upd. rewrite Z.eqb_refl. reflexivity.
        - rewrite put_other in Vk by exact Dk. rewrite V0 in Vk. injection Vk as <-. apply den_acc; auto.
          + exact (X k e (fun q => Dk (eq_sym q)) Ek).
          + apply Oe. exact (nth_error_In _ _ Ek). }
      assert (Len : length (vst s) = length (put vs o w)) by (rewrite put_length; exact Le).
      revert Q Len. generalize (vst s) (put vs o w). clear. induction l as [|x l IH]; intros [|y l0] Q Len; simpl in Len; try discriminate; constructor.
      - exact (Q 0%nat x y eq_refl eq_refl).
      - apply IH; [|lia]. intros k e v. exact (Q (S k) e v). }
    exact Y.
  - apply (LY_ext (sm t) _ vs); [|reflexivity|exact D]. intros i I. pose proof (E' i I) as Bi.
    apply bot_put_other; [rewrite <- Le; exact (bot_lt _ _ _ Bi)|]. intros ->. rewrite <- Le in Bi. rewrite bot_idx in Bi by exact Lo.
    rewrite E in Bi. discriminate Bi.
  - clear - G Ww. revert o. induction G as [|x l Hx Hl IH]; intros [|o]; simpl; try constructor; auto.
  - intros _ o' e v Fi. unfold flg_is in Fi. rewrite Fn in Fi. discriminate Fi.
Qed.

Lemma swap_SIM : forall s c s' vs va m t, SIM s vs va m t -> swap s = Some (c, s') ->
  (forall x y l, vst s = x :: y :: l -> isStk x = false /\ isStk y = false) ->
  c = [] /\ exists v0 v1 rest, vs = v0 :: v1 :: rest /\ SIM (set_fv s' false) (v1 :: v0 :: rest) va m t.
Proof.
  intros s c s' vs va m t Sm H K. destruct (swap_inv _ _ _ H) as [x [y [l [V [-> ->]]]]]. split; [reflexivity|].
  destruct (K x y l V) as [Nx Ny]. pose proof (SIM_len _ _ _ _ _ Sm) as Le.
  destruct Sm as [A B C D E F G Q]. rewrite V in C, Le.
  destruct vs as [|v0 [|v1 rest]]; simpl in Le; try discriminate Le.
  exists v0, v1, rest. split; [reflexivity|].
  assert (Hi : forall i, In (Some i) (lay s) -> (i < length l)%nat).
  { intros i I. pose proof (E i I) as Bi. rewrite V in Bi. simpl in Bi.
    destruct (Nat.eqb_spec i (S (length l))); [injection Bi as ->; discriminate Nx|].
    destruct (Nat.eqb_spec i (length l)); [injection Bi as ->; discriminate Ny|]. exact (bot_lt _ _ _ Bi). }
  split; cbn [set_fv set_vst vst lay fcc fv flg]; try assumption.
  - inversion C; subst. inversion H5; subst. constructor; [|constructor]; assumption.
  - apply (LY_ext (sm t) _ (v0 :: v1 :: rest)); [|reflexivity|exact D]. intros i I. specialize (Hi i I).
    rewrite !bot_cons; simpl; try lia; reflexivity.
  - intros i I. specialize (E i I). specialize (Hi i I). rewrite V in E.
    rewrite !bot_cons in E |- *; simpl; try lia; exact E.
  - inversion G; subst. inversion H3; subst. constructor; [|constructor]; assumption.
  - intros X. discriminate X.
Qed.

Lemma SIM_flgTop : forall s v rest va m t, SIM s (v :: rest) va m t ->
  zf t = (v =? 0) -> (ord = true -> lf t = (sval v <? 0)) -> (0 < length (vst s))%nat ->
  SIM (set_fv (set_flg s (Some (idx s 0))) true) (v :: rest) va m t.
Proof.
  intros s v rest va m t [A B C D E F G Q] Hz Hl Lp. split; try assumption.
  intros _ o e v' Fi Ee Ne Ev. unfold flg_is, idx in Fi. simpl in Fi. apply Nat.eqb_eq in Fi.
  assert (o = 0)%nat as -> by lia. simpl in Ev. injection Ev as <-. auto.
Qed.

Lemma cal_SIM : forall a s c s' v0 v1 rest va m t, WF s -> SIM (set_fv s false) (v0 :: v1 :: rest) va m t ->
  cal true a s = Some (c, s') -> is_word (alu_val M Hw a v1 v0) ->
  exists t', Ex c t t' /\ SIM s' (alu_val M Hw a v1 v0 :: rest) va m t'.
Proof.
  unfold cal. intros a s c s' v0 v1 rest va m t Wf Sm H Ww.
  seqi H as c1 s1 Cl d1. seqi H as c2 s2 L1 d2. seqi H as c3 s3 L0 d3. seqi H as c4 s4 Cr d4.
  seqi H as c5 s5 Re d5. seqi H as c6 s6 Po d6. unfold flgTop in H. inv1 H.
  destruct (clearFlg_SIM _ _ _ _ _ _ _ Wf Sm Cl) as [t1 [X1 [S1 _]]].
  destruct (clearFlg_WF _ _ _ Wf Cl) as [W1 [N1 _]].
  destruct (clearFlg_inv _ _ _ Wf Cl) as [F1 _].
  destruct (loadStk_moves _ _ _ _ _ _ _ _ W1 S1 L1) as [t2 [X2 [S2 _]]].
  destruct (loadStk_WF _ _ _ _ _ W1 L1) as [W2 [_ [[q Eq] [N2 [F2 _]]]]].
  assert (W3 : WF s3 /\ noFlg s3 /\ flg s3 = None /\ (nth_error (vst s3) 1 = Some (XAcc q) \/ nth_error (vst s3) 1 = Some XStk)
     /\ exists t3, Ex c3 t2 t3 /\ SIM s3 (v0 :: v1 :: rest) va m t3).
  { inv1 L0. destruct (isStk e || isFlg e).
    - destruct (loadStk_WF _ _ _ _ _ W2 L0) as [W3 [_ [_ [N3 [F3 [_ [_ K]]]]]]].
      destruct (loadStk_moves _ _ _ _ _ _ _ _ W2 S2 L0) as [t3 [X3 [S3 _]]].
      split; [exact W3|split; [auto|split; [congruence|split; [|eauto]]]].
      destruct (K 1%nat ltac:(discriminate)) as [K1|K1]; [left; congruence|right; exact K1].
    - inv1 L0. split; [exact W2|split; [auto|split; [congruence|split; [auto|]]]]. exists t2. split; [apply Ex_nil|exact S2]. }
  destruct W3 as [W3 [N3 [F3 [E1 [t3 [X3 S3]]]]]].
  inv1 Cr. inv2 Cr. destruct (calReg_inv _ _ _ _ _ Cr) as [e0 [x [E0 [Ox [-> ->]]]]].
  destruct E1 as [E1|E1]; rewrite E1 in E; injection E as <-; simpl in R; try discriminate R. injection R as <-.
  destruct (SIM_val _ _ _ _ _ _ _ S3 E0) as [u0 [U0 [[_ D0] _]]]. simpl in U0. injection U0 as <-. rewrite Ox in D0.
  destruct (SIM_val _ _ _ _ _ _ _ S3 E1) as [u1 [U1 [[_ D1] _]]]. simpl in U1. injection U1 as <-. simpl in D1.
  set (w := alu_val M Hw a v1 v0) in *.
  assert (X4 : exec1 M Hw (TAlu a q x) t3 = Some (setf M (setr M t3 q w) (w =? 0) (hlt Hw a v1 v0))).
  { simpl. rewrite D0, D1. reflexivity. }
  pose proof (SIM_alu _ _ _ _ _ 1%nat q w (w =? 0) (hlt Hw a v1 v0) W3 S3 N3 F3 E1 Ww) as S4. simpl put in S4.
  assert (RP : (relEnt 0 ;; popStk true 1) s3 = Some (c5 ++ c6, s6)).
  { unfold andThen. rewrite Re. rewrite Po. reflexivity. }
  destruct (SIM_relpop _ _ _ _ _ _ _ W3 S4 RP) as [Z5 S5]. simpl in S5.
  apply app_eq_nil in Z5. destruct Z5 as [-> ->].
  destruct (relpop_WF _ _ _ _ W3 RP) as [W6 [_ [V6 _]]].
  eexists. split.
  - apply (Ex_app _ _ _ X1). apply (Ex_app _ _ _ X2). apply (Ex_app _ _ _ X3). apply (Ex_one _ _ _ _ _ X4). apply Ex_nil.
  - apply SIM_flgTop; [exact S5|reflexivity| |].
    + intros Ho. simpl. rewrite (hw_lt _ _ _ Hhw Ho). reflexivity.
    + rewrite (SIM_len _ _ _ _ _ S5). simpl. lia.
Qed.

(* the destination of rcal is the right operand when that saves a load *)
Lemma rcal_SIM : forall a s c s' v0 v1 rest va m t, WF s -> SIM (set_fv s false) (v0 :: v1 :: rest) va m t ->
  rcal true a s = Some (c, s') -> is_word (alu_val M Hw a v1 v0) -> alu_val M Hw a v0 v1 = alu_val M Hw a v1 v0 ->
  exists t', Ex c t t' /\ SIM s' (alu_val M Hw a v1 v0 :: rest) va m t'.
Proof.
  unfold rcal. intros a s c s' v0 v1 rest va m t Wf Sm H Ww Cm. seqi H as c1 s1 Sw c2.
  inv1 Sw. inv1 Sw. destruct (isACC e && negb (isACC e0) && negb (isStk e0) && negb (isFlg e0)) eqn:Br.
  - assert (Sw' : swap (set_fv s false) = Some (c1, set_fv s1 false)).
    { destruct (swap_inv _ _ _ Sw) as [x [y [l [V [-> ->]]]]]. unfold swap, ent_at. simpl. rewrite V. simpl.
      unfold set_ent, andThen, modify. simpl. rewrite V. reflexivity. }
    repeat (apply andb_true_iff in Br; destruct Br as [Br ?]).
    assert (Kc : forall x y l, vst s = x :: y :: l -> x = e /\ y = e0).
    { intros x y l V. rewrite V in E, E0. simpl in E, E0. split; congruence. }
    destruct (swap_SIM _ _ _ _ _ _ _ Sm Sw') as [-> [u0 [u1 [rs [Eq S1]]]]].
    { intros x y l V. destruct (Kc x y l V) as [-> ->]. split; [destruct e; try discriminate Br; reflexivity|apply negb_true_iff; assumption]. }
    injection Eq as <- <- <-.
    assert (W1 : WF s1).
    { apply (swap_WF _ _ _ Wf Sw). intros x y l V. destruct (Kc x y l V) as [-> ->].
      split; [destruct e; try discriminate Br; reflexivity|apply negb_true_iff; assumption]. }
    rewrite <- Cm. apply (cal_SIM a s1 c2 s' v1 v0 rest va m t W1 S1 H). rewrite Cm. exact Ww.
  - inv1 Sw. exact (cal_SIM a s c2 s' v0 v1 rest va m t Wf Sm H Ww).
Qed.

(* ---- unary operators ---- *)
Lemma xor_ones : forall v, is_word v -> Z.lxor v 65535 = 65535 - v.
Proof.
  intros v Wv. assert (L : Z.ldiff v 65535 = 0).
  { apply Z.bits_inj'. intros i Hi. rewrite Z.ldiff_spec, Z.bits_0. apply word_bits in Wv. destruct Wv as [_ B].
    change 65535 with (Z.ones 16). destruct (Z.lt_ge_cases i 16).
    - rewrite Z.ones_spec_low by lia. apply andb_false_r.
    - rewrite B by lia. reflexivity. }
  rewrite (Z.sub_nocarry_ldiff 65535 v L). apply Z.bits_inj'. intros i Hi.
  rewrite Z.lxor_spec, Z.ldiff_spec. apply word_bits in Wv. destruct Wv as [_ B]. change 65535 with (Z.ones 16).
  destruct (Z.lt_ge_cases i 16).
  - rewrite Z.ones_spec_low by lia. destruct (Z.testbit v i); reflexivity.
  - rewrite B by lia. rewrite Z.ones_spec_high by lia. reflexivity.
Qed.
(* a truth value is 0 or 1 *)

Lemma vmUn_SIM : forall o s c s' v rest va m t, WF s -> SIM s (v :: rest) va m t -> vmUn true o s = Some (c, s') ->
  fine1 o v -> exists t', Ex c t t' /\ SIM s' (op1_val o v :: rest) va m t'.
Proof.
  unfold vmUn. intros o s c s' v rest va m t Wf Sm H Fi.
  seqi H as c1 s1 Cl d1. seqi H as c2 s2 Ls d2. seqi H as c3 s3 Em d3.
  inv1 Em. inv2 Em. inv1 Em. unfold flgTop in H. inv1 H.
  destruct (clearFlg_SIM _ _ _ _ _ _ _ Wf (SIM_fv _ _ _ _ _ Sm) Cl) as [t1 [X1 [S1 _]]].
  destruct (clearFlg_WF _ _ _ Wf Cl) as [W1 [N1 _]].
  destruct (clearFlg_inv _ _ _ Wf Cl) as [F1 _].
  destruct (loadStk_moves _ _ _ _ _ _ _ _ W1 S1 Ls) as [t2 [X2 [S2 _]]].
  destruct (loadStk_WF _ _ _ _ _ W1 Ls) as [W2 [_ [[q Eq] [N2 [F2 _]]]]].
  rewrite Eq in E. injection E as <-. simpl in R. injection R as <-.
  destruct (SIM_val _ _ _ _ _ _ _ S2 Eq) as [u [U [[_ D] Wv]]]. simpl in U. injection U as <-. simpl in D.
  specialize (N2 N1). rewrite F1 in F2.
  pose proof (OptProofs.op1_word o v Wv) as Ww. set (w := op1_val o v) in *.
  assert (GO : exists l t3, Ex (unCode o q) t2 t3 /\ SIM s2 (w :: rest) va m t3 /\ zf t3 = (w =? 0) /\ lf t3 = l /\
     (ord = true -> l = (sval w <? 0))).
  { assert (ONE : forall a y, alu_val M Hw a v (w16 y) = w -> unCode o q = [TAlu a q (OImm y)] ->
      exists l t3, Ex (unCode o q) t2 t3 /\ SIM s2 (w :: rest) va m t3 /\ zf t3 = (w =? 0) /\ lf t3 = l /\
       (ord = true -> l = (sval w <? 0))).
    { intros a y Ha Hu. rewrite Hu. exists (hlt Hw a v (w16 y)).
      exists (setf M (setr M t2 q w) (w =? 0) (hlt Hw a v (w16 y))).
      split; [apply Ex1; simpl; rewrite D, Ha; reflexivity|].
      split; [exact (SIM_alu _ _ _ _ _ 0%nat q w _ _ W2 S2 N2 F2 Eq Ww)|].
      split; [reflexivity|split; [reflexivity|]]. intros Ho. rewrite (hw_lt _ _ _ Hhw Ho). rewrite Ha. reflexivity. }
    destruct o.
    - (* negation takes two instructions *)
      set (x := Z.lxor v 65535). assert (Wx : is_word x) by (apply lxor_word; [exact Wv|split; lia]).
      assert (Hx : w_add x 1 = w).
      { change (w_add x 1 = w16 (- v)). unfold x, w_add. rewrite xor_ones by exact Wv. apply (w16_cong _ _ 1). lia. }
      exists (hlt Hw AAdd x 1).
      exists (setf M (setr M (setf M (setr M t2 q x) (x =? 0) (hlt Hw AXor v 65535)) q w) (w =? 0) (hlt Hw AAdd x 1)). split.
      + assert (Ux : upd (gr t2) q x q = x) by (unfold upd; rewrite Z.eqb_refl; reflexivity).
        apply (Ex_one _ _ _ (setf M (setr M t2 q x) (x =? 0) (hlt Hw AXor v 65535))); [simpl; rewrite D; reflexivity|].
        apply Ex1. simpl. rewrite Ux. change (w16 1) with 1. rewrite Hx. reflexivity.
      + split; [|split; [reflexivity|split; [reflexivity|]]].
        * pose proof (SIM_alu _ _ _ _ _ 0%nat q x (x =? 0) (hlt Hw AXor v 65535) W2 S2 N2 F2 Eq Wx) as S3. simpl put in S3.
          exact (SIM_alu _ _ _ _ _ 0%nat q w (w =? 0) (hlt Hw AAdd x 1) W2 S3 N2 F2 Eq Ww).
        * intros Ho. rewrite (hw_lt _ _ _ Hhw Ho). simpl. rewrite Hx. reflexivity.
    - apply (ONE AXor 1); [|reflexivity]. simpl in Fi. destruct Fi as [-> | ->]; reflexivity.
    - apply (ONE AXor (-1)); [|reflexivity]. change (w16 (-1)) with 65535. exact (xor_ones v Wv).
    - apply (ONE AAnd 255); [|reflexivity]. change (w16 255) with 255. exact (land_255 v).
    - apply (ONE AAnd 1); [|reflexivity]. change (w16 1) with (Z.ones 1). simpl alu_val. unfold w_and. rewrite Z.land_ones by lia. reflexivity. }
  destruct GO as [l [t3 [X3 [S3 [Z3 [L3 L3']]]]]].
  exists t3. rewrite app_nil_r. split; [exact (Ex_app _ _ _ X1 _ _ (Ex_app _ _ _ X2 _ _ X3))|].
  apply SIM_flgTop; [exact S3|exact Z3|intros Ho; rewrite L3; auto|]. rewrite (SIM_len _ _ _ _ _ S3). simpl. lia.
Qed.

(* ---- multiplication, division, remainder ---- *)
Lemma isPower2_spec : forall c, 0 < isPower2 c -> c = 2 ^ isPower2 c /\ 1 <= isPower2 c <= 14.
Proof.
  intros c. unfold isPower2.
  repeat match goal with |- context [c =? ?p] => destruct (Z.eqb_spec c p) as [->|?]; [vm_compute; intuition discriminate || (intros; split; [reflexivity|split; discriminate])|] end.
  intros X. vm_compute in X. discriminate X.
Qed.
Lemma pow2_spec : forall e n, pow2 e = Some n -> e = XCns (2 ^ n) /\ 1 <= n <= 14.
Proof.
  intros e n H. destruct e; try discriminate H. unfold pow2 in H. destruct (Z.ltb_spec 0 (isPower2 c)) as [L|]; [|discriminate H].
  injection H as <-. destruct (isPower2_spec _ L) as [E R]. split; [f_equal; exact E|exact R].
Qed.
Lemma pow_small : forall n, 1 <= n <= 14 -> 2 <= 2 ^ n <= 16384.
Proof.
  intros n Hn. split.
  - change 2 with (2 ^ 1) at 1. apply Z.pow_le_mono_r; lia.
  - change 16384 with (2 ^ 14). apply Z.pow_le_mono_r; lia.
Qed.

Lemma SIM_put : forall s vs va m t o e e' v', SIM (set_fv s false) vs va m t ->
  nth_error (vst s) o = Some e -> e <> XStk -> den (fcc s) t e' v' -> is_word v' ->
  SIM (set_fv (set_vst s (put (vst s) o e')) false) (put vs o v') va m t.
Proof.
  intros s vs va m t o e e' v' Sm E Ns De Wv.
  pose proof (SIM_len _ _ _ _ _ Sm) as Le. cbn [set_fv vst] in Le. pose proof (nth_error_lt _ _ _ E) as Lo.
  destruct Sm as [A B C D E' F G K]. cbn [set_fv set_vst vst lay fcc fv flg] in *. 
  assert (Hi : forall i, In (Some i) (lay s) -> (i < length (vst s))%nat /\ i <> (length (vst s) - 1 - o)%nat).
  { intros i I. pose proof (E' i I) as Bi. split; [exact (bot_lt _ _ _ Bi)|]. intros ->.
    rewrite bot_idx in Bi by exact Lo. rewrite E in Bi. injection Bi as ->. apply Ns. reflexivity. }
  split; cbn [set_fv set_vst vst lay fcc fv flg]; try assumption.
  - clear - C De Lo. revert o Lo. induction C as [|x y l l' Hxy Hl IH]; intros [|o] Lo; simpl in *; try lia; constructor; auto.
    apply IH. lia.
  - apply (LY_ext (sm t) _ vs); [|reflexivity|exact D]. intros i I. destruct (Hi i I). rewrite Le in *. apply bot_put_other; assumption.
  - intros i I. destruct (Hi i I). rewrite bot_put_other; auto.
  - clear - G Wv. revert o. induction G as [|x l Hx Hl IH]; intros [|o]; simpl; try constructor; auto.
  - intros X. discriminate X.
Qed.
Lemma den_cns : forall k t c, den k t (XCns c) (w16 c).
Proof. intros k t c. split; [exact I|reflexivity]. Qed.


Lemma cns_val : forall s vs va m t o c v, SIM s vs va m t -> nth_error (vst s) o = Some (XCns c) -> nth_error vs o = Some v -> v = w16 c.
Proof.
  intros s vs va m t o c v Sm E V. destruct (SIM_val _ _ _ _ _ _ _ Sm E) as [u [U [[_ D] _]]]. rewrite V in U. injection U as <-.
  simpl in D. symmetry. exact D.
Qed.

Lemma vmMul_SIM : forall s c s' v0 v1 rest va m t, WF s -> SIM s (v0 :: v1 :: rest) va m t -> vmMul true s = Some (c, s') ->
  exists t', Ex c t t' /\ SIM s' (w_mul v1 v0 :: rest) va m t'.
Proof.
  unfold vmMul. intros s c s' v0 v1 rest va m t Wf Sm H. inv1 H. inv1 H. rename e into x, e0 into y.
  destruct (pow2 x) as [n|] eqn:Px.
  - seqi H as c1 s1 A d1. inv1 A. destruct (pow2_spec _ _ Px) as [Ex' Rn]. pose proof (pow_small n Rn) as Ps. subst x.
    assert (V0 : v0 = 2 ^ n). { rewrite (cns_val _ _ _ _ _ 0%nat _ v0 Sm E eq_refl). apply w16_id. split; lia. }
    pose proof (SIM_put s _ _ _ _ 0%nat _ (XCns n) (w16 n) (SIM_fv _ _ _ _ _ Sm) E ltac:(discriminate) (den_cns _ _ _) (w16_range _)) as S1.
    simpl put in S1. assert (Wn : w16 n = n) by (apply w16_id; split; lia).
    assert (Hv : alu_val M Hw AShl v1 (w16 n) = w_mul v1 v0) by (rewrite Wn, V0; reflexivity).
    rewrite <- Hv.
    apply (cal_SIM AShl _ _ _ _ _ _ _ _ _ (set_cns_WF _ _ n Wf E (pow2_acc _ _ Px)) S1 H). rewrite Hv. apply w16_range.
  - destruct (pow2 y) as [n|] eqn:Py.
    + seqi H as c0 s0 A d0. inv1 A. specialize (G eq_refl). apply andb_true_iff in G. destruct G as [G1 G2].
      apply negb_true_iff in G1. apply negb_true_iff in G2.
      seqi H as c1 s1 A d1. inv1 A. seqi H as c2 s2 A d2. inv1 A.
      destruct (pow2_spec _ _ Py) as [Ey Rn]. pose proof (pow_small n Rn) as Ps. subst y.
      assert (V1 : v1 = 2 ^ n). { rewrite (cns_val _ _ _ _ _ 1%nat _ v1 Sm E0 eq_refl). apply w16_id. split; lia. }
      destruct (SIM_val _ _ _ _ _ _ _ Sm E) as [u [U [Du Wu]]]. simpl in U. injection U as <-.
      pose proof (SIM_put s _ _ _ _ 1%nat _ x v0 (SIM_fv _ _ _ _ _ Sm) E0 ltac:(discriminate) Du Wu) as S1. simpl put in S1.
      assert (Nx : x <> XStk) by (intros ->; discriminate G1).
      destruct (vst s) as [|x0 [|x1 l]] eqn:V; try discriminate E0. simpl in E, E0. injection E as ->. injection E0 as ->.
      cbn [put set_vst vst] in H, S1.
      pose proof (SIM_put (set_vst s (x :: x :: l)) _ _ _ _ 0%nat x (XCns n) (w16 n) S1 eq_refl Nx (den_cns _ _ _) (w16_range _)) as S2.
      simpl put in S2. assert (Wn : w16 n = n) by (apply w16_id; split; lia).
      assert (Hv : alu_val M Hw AShl v0 (w16 n) = w_mul v1 v0) by (rewrite Wn, V1; simpl; unfold w_mul; f_equal; lia).
      rewrite <- Hv.
      apply (cal_SIM AShl _ _ _ _ _ _ _ _ _ (mul2_WF _ _ _ _ n Wf V G2 eq_refl) S2 H). rewrite Hv. apply w16_range.
    + apply (rcal_SIM AMul _ _ _ v0 v1 rest va m t Wf (SIM_fv _ _ _ _ _ Sm) H); [apply w16_range|].
      simpl. unfold w_mul. f_equal. lia.
Qed.

Lemma sval_pos : forall a, is_word a -> a < 32768 -> sval a = a.
Proof. intros a Wa L. unfold sval. destruct (Z.ltb_spec a 32768); [reflexivity|lia]. Qed.

Lemma vmDiv_SIM : forall s c s' v0 v1 rest w va m t, WF s -> SIM s (v0 :: v1 :: rest) va m t -> vmDiv true s = Some (c, s') ->
  v1 < 32768 -> v0 < 32768 -> w_div v1 v0 = Some w ->
  exists t', Ex c t t' /\ SIM s' (w :: rest) va m t'.
Proof.
  unfold vmDiv, w_div. intros s c s' v0 v1 rest w va m t Wf Sm H L1 L0 Ew.
  pose proof (s_word _ _ _ _ _ Sm) as Wd. inversion Wd as [|? ? Wv0 Wd']; subst. inversion Wd' as [|? ? Wv1 _]; subst. clear Wd Wd'.
  destruct (Z.eqb_spec v0 0) as [|Nz]; [discriminate Ew|]. injection Ew as <-.
  rewrite !sval_pos by assumption. rewrite Z.quot_div_nonneg by (unfold is_word in *; lia).
  assert (Wd : is_word (v1 / v0)).
  { unfold is_word in *. split; [apply Z.div_pos; lia|]. apply Z.le_lt_trans with v1; [|lia]. apply Z.div_le_upper_bound; nia. }
  rewrite (w16_id _ Wd). inv1 H. destruct (pow2 e) as [n|] eqn:Px.
  - seqi H as c1 s1 A d1. inv1 A. destruct (pow2_spec _ _ Px) as [Ex' Rn]. pose proof (pow_small n Rn) as Ps. subst e.
    assert (V0 : v0 = 2 ^ n). { rewrite (cns_val _ _ _ _ _ 0%nat _ v0 Sm E eq_refl). apply w16_id. split; lia. }
    pose proof (SIM_put s _ _ _ _ 0%nat _ (XCns n) (w16 n) (SIM_fv _ _ _ _ _ Sm) E ltac:(discriminate) (den_cns _ _ _) (w16_range _)) as S1.
    simpl put in S1. assert (Wn : w16 n = n) by (apply w16_id; split; lia).
    assert (Hv : alu_val M Hw AShr v1 (w16 n) = v1 / v0).
    { rewrite Wn, V0. simpl. rewrite sval_pos by assumption. rewrite <- V0. apply w16_id. exact Wd. }
    rewrite <- Hv.
    apply (cal_SIM AShr _ _ _ _ _ _ _ _ _ (set_cns_WF _ _ n Wf E (pow2_acc _ _ Px)) S1 H). rewrite Hv. exact Wd.
  - assert (Hv : alu_val M Hw ADiv v1 v0 = v1 / v0). { simpl. apply (hw_div _ _ _ Hhw); unfold is_word in *; lia. }
    rewrite <- Hv. apply (cal_SIM ADiv _ _ _ _ _ _ _ _ _ Wf (SIM_fv _ _ _ _ _ Sm) H). rewrite Hv. exact Wd.
Qed.

Lemma vmMod_SIM : forall s c s' v0 v1 rest w va m t, WF s -> SIM s (v0 :: v1 :: rest) va m t -> vmMod true s = Some (c, s') ->
  v1 < 32768 -> v0 < 32768 -> w_mod v1 v0 = Some w ->
  exists t', Ex c t t' /\ SIM s' (w :: rest) va m t'.
Proof.
  unfold vmMod, w_mod. intros s c s' v0 v1 rest w va m t Wf Sm H L1 L0 Ew.
  pose proof (s_word _ _ _ _ _ Sm) as Wd. inversion Wd as [|? ? Wv0 Wd']; subst. inversion Wd' as [|? ? Wv1 _]; subst. clear Wd Wd'.
  destruct (Z.eqb_spec v0 0) as [|Nz]; [discriminate Ew|]. injection Ew as <-.
  rewrite !sval_pos by assumption. rewrite Z.rem_mod_nonneg by (unfold is_word in *; lia).
  assert (Wd : is_word (v1 mod v0)). { unfold is_word in *. pose proof (Z.mod_pos_bound v1 v0 ltac:(lia)). lia. }
  rewrite (w16_id _ Wd). inv1 H. destruct (pow2 e) as [n|] eqn:Px.
  - seqi H as c1 s1 A d1. inv1 A. destruct (pow2_spec _ _ Px) as [Ex' Rn]. pose proof (pow_small n Rn) as Ps. subst e.
    assert (V0 : v0 = 2 ^ n). { rewrite (cns_val _ _ _ _ _ 0%nat _ v0 Sm E eq_refl). apply w16_id. split; lia. }
    pose proof (SIM_put s _ _ _ _ 0%nat _ (XCns (2 ^ n - 1)) (w16 (2 ^ n - 1)) (SIM_fv _ _ _ _ _ Sm) E ltac:(discriminate) (den_cns _ _ _) (w16_range _)) as S1.
    simpl put in S1. assert (Wn : w16 (2 ^ n - 1) = 2 ^ n - 1) by (apply w16_id; split; lia).
    assert (Hv : alu_val M Hw AAnd v1 (w16 (2 ^ n - 1)) = v1 mod v0).
    { rewrite Wn, V0. simpl. unfold w_and. rewrite <- (Z.land_ones v1 n) by lia. f_equal. rewrite Z.ones_equiv. lia. }
    rewrite <- Hv.
    apply (rcal_SIM AAnd _ _ _ _ _ _ _ _ _ (set_cns_WF _ _ (2 ^ n - 1) Wf E (pow2_acc _ _ Px)) S1 H).
    + rewrite Hv. exact Wd.
    + simpl. apply Z.land_comm.
  - assert (Hv : alu_val M Hw AMod v1 v0 = v1 mod v0). { simpl. apply (hw_mod _ _ _ Hhw); unfold is_word in *; lia. }
    rewrite <- Hv. apply (cal_SIM AMod _ _ _ _ _ _ _ _ _ Wf (SIM_fv _ _ _ _ _ Sm) H). rewrite Hv. exact Wd.
Qed.

(* ---- comparison ---- *)
Lemma den_cc : forall k k' t e v, isFlg e = false -> den k t e v -> den k' t e v.
Proof.
  intros k k' t e v N [A B]. split; [exact A|]. destruct e; try discriminate N; try exact B. intros X. discriminate X.
Qed.
Lemma SIM_full : forall s vs va m t, flg s = None -> SIM (set_fv s false) vs va m t -> SIM s vs va m t.
Proof.
  intros s vs va m t Fn [A B C D E F G K]. split; try assumption.
  intros _ o e v Fi. unfold flg_is in Fi. rewrite Fn in Fi. discriminate Fi.
Qed.
Lemma popRaw_fv : forall n s c s', popRaw n s = Some (c, s') -> popRaw n (set_fv s false) = Some (c, set_fv s' false).
Proof.
  intros n s c s' H. destruct (popRaw_inv _ _ _ _ H) as [L [-> ->]].
  unfold popRaw, get, andThen, bug. cbn [set_fv vst flg].
  destruct (Nat.ltb_spec (length (vst s)) n); [lia|]. reflexivity.
Qed.

Lemma cmpEnd_SIM : forall k s c s' v0 v1 rest va m t, WF s -> SIM (set_fv s false) (v0 :: v1 :: rest) va m t ->
  (flg s = None \/ flg_is s 0 = true \/ flg_is s 1 = true) ->
  (forall o r, nth_error (vst s) (S (S o)) <> Some (XFlg r)) ->
  cmpEnd true k s = Some (c, s') ->
  exists t', Ex c t t' /\ SIM s' (b2w (holds k (zf t) (lf t)) :: rest) va m t'.
Proof.
  unfold cmpEnd. intros k s c s' v0 v1 rest va m t Wf Sm Fl N H.
  seqi H as c1 s1 R0 d1. seqi H as c2 s2 R1 d2. seqi H as c3 s3 Po d3. seqi H as c4 s4 Os d4. seqi H as c5 s5 Al d5. inv1 H.
  (* accounting *)
  assert (W3 : WF s3 /\ noFlg s3 /\ flg s3 = None /\ c1 = [] /\ c2 = [] /\ c3 = [] /\ SIM (set_fv s3 false) rest va m t).
  { destruct (relEnt_inv _ _ _ _ R0) as [e0 [b0 [n0 [E0 [-> [-> K0]]]]]].
    destruct (relEnt_inv _ _ _ _ R1) as [e1 [b1 [n1 [E1 [-> [-> K1]]]]]]. simpl in E1.
    destruct (vst s) as [|x0 [|x1 l]] eqn:V; try discriminate E1. simpl in E0, E1. injection E0 as ->. injection E1 as ->.
    set (u := set_acc (set_acc s b0 n0) b1 n1) in *.
    assert (P2 : PW u (accs l)).
    { destruct Wf as [X1 X2 X3 X4]. split; try assumption.
      apply (K1 (accE e1 ++ accs l)); [|apply Permutation_refl].
      apply (K0 _ _ X1). rewrite V. apply Permutation_refl. }
    apply popStk_inv in Po. destruct Po as [Po Gs]. specialize (Gs eq_refl).
    assert (Vu : vst u = e0 :: e1 :: l) by exact V.
    destruct (popRaw_WF 2 u c3 s3 _ P2 ltac:(rewrite Vu; apply Permutation_refl) Po) as [W3 [V3 _]].
    pose proof (popRaw_fv _ _ _ _ Po) as Po'.
    destruct (SIM_pop 2 (set_fv u false) c3 (set_fv s3 false) (v0 :: v1 :: rest) va m t (wf_flg _ Wf) (SIM_acc _ _ _ _ _ b1 n1 (SIM_acc _ _ _ _ _ b0 n0 Sm)) Gs Po') as [-> S3].
    split; [exact W3|split; [|split; [|auto]]].
    - intros o r I. rewrite V3, Vu in I. simpl in I. exact (N o r I).
    - destruct (popRaw_inv _ _ _ _ Po) as [_ [_ ->]]. cbn [set_vst set_flg flg].
      change (flg u) with (flg s). destruct (flg s) as [i|] eqn:Ef; [|reflexivity].
      rewrite Vu. destruct (Nat.ltb_spec (i + 2) (length (e0 :: e1 :: l))) as [Lt|]; [|reflexivity].
      exfalso. unfold flg_is in Fl. rewrite Ef, V in Fl. simpl in Fl, Lt.
      destruct Fl as [X|[X|X]]; [discriminate X| |]; apply Nat.eqb_eq in X; lia. }
  destruct W3 as [W3 [N3 [F3 [-> [-> [-> S3]]]]]]. apply SIM_full in S3; [|exact F3].
  assert (W4 : WF s4 /\ noFlg s4 /\ exists t4, Ex c4 t t4 /\ SIM s4 rest va m t4 /\ zf t4 = zf t /\ lf t4 = lf t).
  { inv1 Os. destruct (3 <=? acnt s3).
    - destruct (outStk_WF _ _ _ _ W3 Os) as [A1 [_ [_ [A2 _]]]]. split; [exact A1|split; [auto|]].
      exact (outStk_moves _ _ _ _ _ _ _ W3 S3 Os).
    - inv1 Os. split; [exact W3|split; [exact N3|]]. exists t. split; [apply Ex_nil|auto]. }
  destruct W4 as [W4 [N4 [t4 [X4 [S4 [Z4 L4]]]]]].
  destruct (allocAcc_inv _ _ _ _ Al) as [a [FF K]]. destruct (pushStk_inv _ _ _ _ K) as [-> [-> Lp]].
  exists t4. rewrite ?app_nil_r. cbn [app]. split; [exact X4|].
  pose proof (SIM_len _ _ _ _ _ S4) as Le.
  assert (Hi : forall i, In (Some i) (lay s4) -> (i < length (vst s4))%nat).
  { intros i I. exact (bot_lt _ _ _ (s_wl _ _ _ _ _ S4 i I)). }
  destruct S4 as [A B C D E F G Q]. split; cbn [set_fcc set_flg set_vst set_acc vst lay fcc fv flg]; try assumption.
  - constructor.
    + split; [exact I|]. simpl. intros _. rewrite Z4, L4. reflexivity.
    + apply (Forall2_change (den (fcc s4) t4)); [exact C|]. intros o x y X Y Dn.
      exact (den_cc _ _ _ _ _ (noFlg_nth _ _ _ N4 X) Dn).
  - apply (LY_ext (sm t4) _ rest); [|reflexivity|exact D]. intros i I. apply bot_cons. rewrite <- Le. auto.
  - intros i I. rewrite bot_cons by auto. auto.
  - constructor; [apply b2w_word|assumption].
  - intros _ o e v Fi Ee Ne. exfalso. unfold flg_is, idx in Fi. simpl in Fi. apply Nat.eqb_eq in Fi.
    assert (o = 0)%nat as -> by lia. simpl in Ee. injection Ee as <-. discriminate Ne.
Qed.

Lemma cc_val : forall o k a b, ccOf o = Some k ->
  op2_val o a b = Some (b2w (holds k (a =? b) (sval a <? sval b))) \/ ~ (is_word a /\ is_word b).
Proof.
  intros o k a b H.
  assert (D : (is_word a /\ is_word b) \/ ~ (is_word a /\ is_word b)) by (unfold is_word; lia).
  destruct D as [[Wa Wb]|D]; [left|right; exact D].
  assert (EQ : (a =? b) = (sval a =? sval b)).
  { destruct (Z.eqb_spec a b) as [->|Nn]; [symmetry; apply Z.eqb_refl|].
    destruct (Z.eqb_spec (sval a) (sval b)) as [X|]; [|reflexivity]. elim Nn. exact (sval_inj _ _ Wa Wb X). }
  destruct o; simpl in H; try discriminate H; injection H as <-; simpl; unfold w_gt, w_ge, w_lt, w_le, w_eq, w_ne; try reflexivity.
  - rewrite EQ. f_equal. f_equal. destruct (Z.ltb_spec (sval b) (sval a)), (Z.ltb_spec (sval a) (sval b)), (Z.eqb_spec (sval a) (sval b)); simpl; try reflexivity; lia.
  - f_equal. f_equal. destruct (Z.leb_spec (sval b) (sval a)), (Z.ltb_spec (sval a) (sval b)); simpl; try reflexivity; lia.
  - rewrite EQ. f_equal. f_equal. destruct (Z.leb_spec (sval a) (sval b)), (Z.ltb_spec (sval a) (sval b)), (Z.eqb_spec (sval a) (sval b)); simpl; try reflexivity; lia.
Qed.
Lemma holds_swap : forall k a b, is_word a -> is_word b ->
  holds (swapJcc k) (b =? a) (sval b <? sval a) = holds k (a =? b) (sval a <? sval b).
Proof.
  intros k a b Wa Wb.
  assert (EQ : forall x y, is_word x -> is_word y -> (x =? y) = (sval x =? sval y)).
  { intros x y Wx Wy. destruct (Z.eqb_spec x y) as [->|Nn]; [symmetry; apply Z.eqb_refl|].
    destruct (Z.eqb_spec (sval x) (sval y)) as [X|]; [|reflexivity]. elim Nn. exact (sval_inj _ _ Wx Wy X). }
  rewrite (EQ a b), (EQ b a) by assumption.
  destruct k; simpl; destruct (Z.ltb_spec (sval b) (sval a)), (Z.ltb_spec (sval a) (sval b)), (Z.eqb_spec (sval a) (sval b)), (Z.eqb_spec (sval b) (sval a)); simpl; try reflexivity; lia.
Qed.
Lemma holds_onlyZ : forall k z l l', onlyZ k = true -> holds k z l = holds k z l'.
Proof. intros k z l l' H. destruct k; try discriminate H; reflexivity. Qed.
Lemma onlyZ_swap : forall k, onlyZ (swapJcc k) = onlyZ k.
Proof. intros []; reflexivity. Qed.
Lemma isCnst0_eq : forall e, isCnst0 e = true -> e = XCns 0.
Proof. intros e H. destruct e; try discriminate H. simpl in H. apply Z.eqb_eq in H. subst. reflexivity. Qed.

Lemma cmp_SIM : forall o k s c s' v0 v1 rest w va m t, ccOf o = Some k -> WF s -> SIM s (v0 :: v1 :: rest) va m t ->
  cmp true ord k s = Some (c, s') -> op2_val o v1 v0 = Some w ->
  exists t', Ex c t t' /\ SIM s' (w :: rest) va m t'.
Proof.
  unfold cmp. intros o k s c s' v0 v1 rest w va m t Ok Wf Sm H Ow.
  pose proof (s_word _ _ _ _ _ Sm) as Wd. inversion Wd as [|? ? Wv0 Wd']; subst. inversion Wd' as [|? ? Wv1 _]; subst. clear Wd Wd'.
  assert (Hw' : w = b2w (holds k (v1 =? v0) (sval v1 <? sval v0))).
  { destruct (cc_val o k v1 v0 Ok) as [X|X]; [congruence|elim X; auto]. }
  clear Ow. subst w. inv1 H. inv1 H. inv1 H. rename e into x, e0 into y.
  destruct (isCnst0 x && flg_is s 1) eqn:B1.
  - apply andb_true_iff in B1. destruct B1 as [Cx B1]. apply isCnst0_eq in Cx. subst x.
    seqi H as c1 s1 G1 d1. inv1 G1. specialize (G eq_refl).
    apply andb_true_iff in G. destruct G as [G Go]. apply andb_true_iff in G. destruct G as [Gv Gy]. apply negb_true_iff in Gy.
    assert (V0 : v0 = 0) by (exact (cns_val _ _ _ _ _ 0%nat 0 v0 Sm E eq_refl)).
    destruct (s_flag _ _ _ _ _ Sm Gv 1%nat y v1 B1 E0 Gy eq_refl) as [Zt Lt].
    destruct (cmpEnd_SIM k s d1 s' v0 v1 rest va m t Wf (SIM_fv _ _ _ _ _ Sm) ltac:(auto)) as [t' [X' S']]; [|exact H|].
    { intros o' r. apply (noFlg_below _ _ (wf_flg _ Wf) B1). lia. }
    exists t'. split; [exact X'|]. rewrite V0.
    replace (holds k (v1 =? 0) (sval v1 <? sval 0)) with (holds k (zf t) (lf t)); [exact S'|].
    rewrite Zt. change (sval 0) with 0. apply orb_true_iff in Go. destruct Go as [Go|Go]; [rewrite (Lt Go); reflexivity|].
    apply holds_onlyZ. exact Go.
  - destruct (isCnst0 y && flg_is s 0) eqn:B2.
    + apply andb_true_iff in B2. destruct B2 as [Cy B2]. apply isCnst0_eq in Cy. subst y.
      seqi H as c1 s1 G1 d1. inv1 G1. specialize (G eq_refl).
      apply andb_true_iff in G. destruct G as [G Go]. apply andb_true_iff in G. destruct G as [Gv Gx]. apply negb_true_iff in Gx.
      assert (V1 : v1 = 0) by (exact (cns_val _ _ _ _ _ 1%nat 0 v1 Sm E0 eq_refl)).
      destruct (s_flag _ _ _ _ _ Sm Gv 0%nat x v0 B2 E Gx eq_refl) as [Zt Lt].
      destruct (cmpEnd_SIM (swapJcc k) s d1 s' v0 v1 rest va m t Wf (SIM_fv _ _ _ _ _ Sm) ltac:(auto)) as [t' [X' S']]; [|exact H|].
      { intros o' r. apply (noFlg_below _ _ (wf_flg _ Wf) B2). lia. }
      exists t'. split; [exact X'|]. rewrite <- (holds_swap k v1 v0) by assumption. rewrite V1.
      replace (holds (swapJcc k) (v0 =? 0) (sval v0 <? sval 0)) with (holds (swapJcc k) (zf t) (lf t)); [exact S'|].
      rewrite Zt. change (sval 0) with 0. apply orb_true_iff in Go. destruct Go as [Go|Go]; [rewrite (Lt Go); reflexivity|].
      apply holds_onlyZ. rewrite onlyZ_swap. exact Go.
    + cbv zeta in H. set (sw := (isACC x || isReg x) && negb (isACC y) && negb (isReg y) && negb (isStk y) && negb (isFlg y)) in *.
      seqi H as c1 s1 Sw d1. seqi H as c2 s2 Cl d2. seqi H as c3 s3 Lt d3. seqi H as c4 s4 L0 d4. seqi H as c5 s5 Cr d5.
      assert (S1 : exists u0 u1, WF s1 /\ c1 = [] /\ SIM (set_fv s1 false) (u0 :: u1 :: rest) va m t /\
        (if sw then u0 = v1 /\ u1 = v0 else u0 = v0 /\ u1 = v1)).
      { destruct sw eqn:Es.
        - unfold sw in Es. repeat (apply andb_true_iff in Es; destruct Es as [Es ?]).
          assert (Kc : forall a b l, vst s = a :: b :: l -> a = x /\ b = y).
          { intros a b l V. rewrite V in E, E0. simpl in E, E0. split; congruence. }
          destruct (swap_SIM _ _ _ _ _ _ _ Sm Sw) as [-> [u0 [u1 [rs [Eq S1]]]]].
          { intros a b l V. destruct (Kc a b l V) as [-> ->]. split; [destruct x; try discriminate Es; reflexivity|apply negb_true_iff; assumption]. }
          injection Eq as <- <- <-. exists v1, v0. split; [|auto].
          apply (swap_WF _ _ _ Wf Sw). intros a b l V. destruct (Kc a b l V) as [-> ->].
          split; [destruct x; try discriminate Es; reflexivity|apply negb_true_iff; assumption].
        - inv1 Sw. exists v0, v1. split; [exact Wf|split; [reflexivity|split; [exact (SIM_fv _ _ _ _ _ Sm)|auto]]]. }
      destruct S1 as [u0 [u1 [W1 [-> [S1 Us]]]]].
      destruct (clearFlg_SIM _ _ _ _ _ _ _ W1 S1 Cl) as [t2 [X2 [S2 _]]].
      destruct (clearFlg_WF _ _ _ W1 Cl) as [W2 [N2 _]].
      destruct (clearFlg_inv _ _ _ W1 Cl) as [F2 _].
      destruct (loadTop_moves _ _ _ _ _ _ _ _ W2 S2 Lt) as [t3 [X3 [S3 _]]].
      destruct (loadTop_WF _ _ _ _ _ W2 Lt) as [W3 [_ [_ [N3 [F3 _]]]]].
      assert (W4 : WF s4 /\ noFlg s4 /\ flg s4 = None /\ exists t4, Ex c4 t3 t4 /\ SIM s4 (u0 :: u1 :: rest) va m t4).
      { inv1 L0. destruct (isStk e || isFlg e).
        - destruct (loadStk_WF _ _ _ _ _ W3 L0) as [A1 [_ [_ [A2 [A3 _]]]]].
          destruct (loadStk_moves _ _ _ _ _ _ _ _ W3 S3 L0) as [t4 [X4 [S4 _]]].
          split; [exact A1|split; [auto|split; [congruence|eauto]]].
        - inv1 L0. split; [exact W3|split; [auto|split; [congruence|]]]. exists t3. split; [apply Ex_nil|exact S3]. }
      destruct W4 as [W4 [N4 [F4 [t4 [X4 S4]]]]].
      inv1 Cr. inv2 Cr. destruct (calReg_inv _ _ _ _ _ Cr) as [e0 [z [Ez [Oz [-> ->]]]]].
      destruct (SIM_val _ _ _ _ _ _ _ S4 Ez) as [q0 [Q0 [[_ D0] Wu0]]]. simpl in Q0. injection Q0 as <-. rewrite Oz in D0.
      destruct (SIM_val _ _ _ _ _ _ _ S4 E1) as [q1 [Q1 [[_ D1] Wu1]]]. simpl in Q1. injection Q1 as <-.
      (* the register really holds the left operand *)
      assert (Gr : gr t4 r = u1).
      { assert (Ek : e = XAcc r \/ e = XReg r).
        { destruct (loadTop_WF _ _ _ _ _ W2 Lt) as [_ [_ [[ee [rr [Eee Kee]]] _]]].
          assert (Same : nth_error (vst s4) 1 = Some ee \/ nth_error (vst s4) 1 = Some XStk).
          { inv1 L0. destruct (isStk e1 || isFlg e1).
            - destruct (loadStk_WF _ _ _ _ _ W3 L0) as [_ [_ [_ [_ [_ [_ [_ Kk]]]]]]].
              destruct (Kk 1%nat ltac:(discriminate)) as [Z|Z]; [left; congruence|right; exact Z].
            - inv1 L0. left. exact Eee. }
          destruct Same as [Sa|Sa]; rewrite Sa in E1; injection E1 as <-; [|discriminate R].
          destruct Kee as [-> | ->]; simpl in R; injection R as ->; auto. }
        destruct Ek as [-> | ->]; exact D1. }
      set (t5 := setf M t4 (u1 =? u0) (sval u1 <? sval u0)).
      assert (X5 : exec1 M Hw (TCmp r z) t4 = Some t5).
      { simpl. rewrite D0, Gr. reflexivity. }
      pose proof (SIM_setf _ _ _ _ _ (u1 =? u0) (sval u1 <? sval u0) N4 F4 S4) as S5. fold t5 in S5.
      destruct (cmpEnd_SIM (if sw then swapJcc k else k) s4 d5 s' u0 u1 rest va m t5 W4 (SIM_fv _ _ _ _ _ S5) ltac:(auto)
        ltac:(intros; apply N4) H) as [t' [X' S']].
      exists t'. split.
      * cbn [app]. apply (Ex_app _ _ _ X2). apply (Ex_app _ _ _ X3). apply (Ex_app _ _ _ X4). apply (Ex_one _ _ _ _ _ X5). exact X'.
      * unfold t5 in S'. simpl in S'. destruct sw; destruct Us as [-> ->]; [|exact S'].
        rewrite (holds_swap k v1 v0) in S' by assumption. exact S'.
Qed.

Lemma vmBin_SIM : forall o s c s' v0 v1 rest w va m t, WF s -> SIM s (v0 :: v1 :: rest) va m t ->
  vmBin true ord o s = Some (c, s') -> op2_val o v1 v0 = Some w -> fine2 o v1 v0 ->
  exists t', Ex c t t' /\ SIM s' (w :: rest) va m t'.
Proof.
  intros o s c s' v0 v1 rest w va m t Wf Sm H Ow Fi.
  assert (Ww : is_word w).
  { pose proof (s_word _ _ _ _ _ Sm) as Wd. inversion Wd as [|? ? Wv0 Wd']; subst. inversion Wd' as [|? ? Wv1 _]; subst.
    exact (OptProofs.op2_word o v1 v0 w Wv1 Wv0 Ow). }
  pose proof (SIM_fv _ _ _ _ _ Sm) as Sf.
  assert (RC : forall a, rcal true a s = Some (c, s') -> alu_val M Hw a v1 v0 = w -> alu_val M Hw a v0 v1 = w ->
    exists t', Ex c t t' /\ SIM s' (w :: rest) va m t').
  { intros a K A1 A2. rewrite <- A1. apply (rcal_SIM a s c s' v0 v1 rest va m t Wf Sf K); [rewrite A1; exact Ww|congruence]. }
  assert (CC : forall a, cal true a s = Some (c, s') -> alu_val M Hw a v1 v0 = w ->
    exists t', Ex c t t' /\ SIM s' (w :: rest) va m t').
  { intros a K A1. rewrite <- A1. apply (cal_SIM a s c s' v0 v1 rest va m t Wf Sf K). rewrite A1; exact Ww. }
  assert (CM : forall k, ccOf o = Some k -> cmp true ord k s = Some (c, s') -> exists t', Ex c t t' /\ SIM s' (w :: rest) va m t').
  { intros k K1 K2. exact (cmp_SIM o k s c s' v0 v1 rest w va m t K1 Wf Sm K2 Ow). }
  destruct o; simpl in H; try discriminate H; try (apply (CM _ eq_refl H)); simpl in Ow; try (injection Ow as <-).
  - apply (RC AAdd H); simpl; unfold w_add; f_equal; lia.
  - apply (CC ASub H); reflexivity.
  - apply (CC AShl H). unfold w_shl in Ow. destruct (v0 <? 16); [|discriminate Ow]. injection Ow as <-. reflexivity.
  - apply (CC AShr H). unfold w_shr in Ow. destruct (v0 <? 16); [|discriminate Ow]. injection Ow as <-. reflexivity.
  - apply (RC AAnd H); simpl; [reflexivity|]. unfold w_and. apply Z.land_comm.
  - apply (RC AXor H); simpl; [reflexivity|]. unfold w_xor. apply Z.lxor_comm.
  - apply (RC AOr H); simpl; [reflexivity|]. unfold w_or. apply Z.lor_comm.
  - exact (vmMul_SIM _ _ _ _ _ _ _ _ _ Wf Sm H).
  - destruct Fi as [F1 F2]. exact (vmDiv_SIM _ _ _ _ _ _ w _ _ _ Wf Sm H F1 F2 Ow).
  - destruct Fi as [F1 F2]. exact (vmMod_SIM _ _ _ _ _ _ w _ _ _ Wf Sm H F1 F2 Ow).
Qed.

(* ---- loads ---- *)
Lemma pushStk_SIM : forall e v s c s' vs va m t, WF s -> SIM s vs va m t -> den (fcc s) t e v -> is_word v ->
  pushStk e s = Some (c, s') -> c = [] /\ SIM s' (v :: vs) va m t.
Proof.
  intros e v s c s' vs va m t Wf Sm De Wv H. destruct (pushStk_inv _ _ _ _ H) as [-> [-> _]]. split; [reflexivity|].
  exact (SIM_push e v s _ vs va m t (wf_flg _ Wf) Sm De Wv eq_refl).
Qed.
Lemma vmLdLoc_SIM : forall n s c s' vs va m t, WF s -> SIM s vs va m t -> vmLdLoc true depth n s = Some (c, s') ->
  c = [] /\ SIM s' (w16 (locs m n) :: vs) va m t.
Proof.
  unfold vmLdLoc. intros n s c s' vs va m t Wf Sm H. seqi H as c1 s1 G1 d1. inv1 G1. specialize (G eq_refl).
  apply andb_true_iff in G. destruct G as [G1 G2]. apply Z.leb_le in G1. apply Z.leb_le in G2.
  destruct (s_frm _ _ _ _ _ Sm) as [A B C D E F K].
  destruct (Z.leb_spec n 9) as [N9|N9].
  - apply (pushStk_SIM _ (w16 (locs m n)) _ _ _ _ _ _ _ Wf Sm) in H; [exact H| |apply w16_range].
    split; [exact I|]. simpl. replace (n - 1 + 3) with (n + 2) by lia. apply C; lia.
  - apply (pushStk_SIM _ (w16 (locs m n)) _ _ _ _ _ _ _ Wf Sm) in H; [exact H| |apply w16_range].
    split; [exists n; split; [lia|reflexivity]|]. cbn [opdOf opd_val]. rewrite A.
    replace (FP0 + - ((n - 9) * 2)) with (FP0 - (n - 9) * 2) by lia. apply D. lia.
Qed.
Lemma vmLdPrm_SIM : forall n s c s' vs va m t, WF s -> SIM s vs va m t -> vmLdPrm true np n s = Some (c, s') ->
  c = [] /\ SIM s' (w16 (prms m n) :: vs) va m t.
Proof.
  unfold vmLdPrm. intros n s c s' vs va m t Wf Sm H. seqi H as c1 s1 G1 d1. inv1 G1. specialize (G eq_refl).
  apply andb_true_iff in G. destruct G as [G1 G2]. apply Z.leb_le in G1. apply Z.ltb_lt in G2.
  destruct (s_frm _ _ _ _ _ Sm) as [A B C D E F K].
  apply (pushStk_SIM _ (w16 (prms m n)) _ _ _ _ _ _ _ Wf Sm) in H; [exact H| |apply w16_range].
  split; [exists n; split; [lia|reflexivity]|]. cbn [opdOf opd_val]. rewrite A. apply E. lia.
Qed.

Lemma clearFlg_keep : forall s c s' k e, WF s -> clearFlg s = Some (c, s') -> nth_error (vst s) k = Some e ->
  isFlg e = false -> nth_error (vst s') k = Some e.
Proof.
  intros s c s' k e Wf H E N. destruct (clearFlg_inv _ _ _ Wf H) as [_ [_ [_ [_ [[o [r [_ [Eo [_ ->]]]]]|[_ [_ ->]]]]]]].
  - simpl. destruct (Nat.eq_dec o k) as [->|D]; [|rewrite put_other by exact D; exact E]. rewrite E in Eo. injection Eo as ->. discriminate N.
  - exact E.
Qed.

(* the end of an indexed access: the address is in the register of the top entry *)
Lemma toInd_SIM : forall mk rd s c s' A v rest va m t r, SIM (set_fv s false) (A :: rest) va m t ->
  nth_error (vst s) 0 = Some (XAcc r) \/ nth_error (vst s) 0 = Some (XReg r) ->
  (ent_at 0 (fun b => regOf b (fun r => set_ent 0 (mk r))) ;; modify (fun s => set_fv s false)) s = Some (c, s') ->
  opdOf (mk r) = Some (rd r) -> entFr (mk r) -> opd_val M (rd r) t = v -> is_word v ->
  c = [] /\ SIM s' (v :: rest) va m t /\ nth_error (vst s') 0 = Some (mk r) /\ gr t r = A.
Proof.
  intros mk rd s c s' A v rest va m t r Sm E H Om Fm Vv Wv. seqi H as c1 s1 B d1. inv1 H. inv1 B. inv2 B. inv1 B.
  assert (Rr : r0 = r /\ gr t r = A).
  { assert (X : gr t r = A).
    { destruct E as [X|X]; destruct (SIM_val _ _ _ _ _ 0%nat _ Sm X) as [u [U [[_ Du] _]]]; simpl in U; injection U as <-; exact Du. }
    split; [|exact X]. destruct E as [X'|X']; rewrite X' in E0; injection E0 as <-; simpl in R; congruence. }
  destruct Rr as [-> Gr]. split; [reflexivity|]. split; [|split; [|exact Gr]].
  - assert (Ne : e <> XStk). { intros ->. discriminate R. }
    refine (SIM_put s (_ :: rest) va m t 0%nat e (mk r) _ Sm E0 Ne _ Wv).
    split; [exact Fm|]. rewrite Om. reflexivity.
  - exact (put_same (vst s) 0 (mk r) (nth_error_lt _ _ _ E0)).
Qed.

Lemma vmLdWrd_SIM : forall s c s' v0 v1 rest va m t, WF s -> SIM s (v0 :: v1 :: rest) va m t -> vmLdWrd true s = Some (c, s') ->
  exists t' r, Ex c t t' /\ SIM s' (w16 (ldw M (gs m) v1 v0) :: rest) va m t' /\
    nth_error (vst s') 0 = Some (XWnd r) /\ gr t' r = w16 (v1 + 2 * v0).
Proof.
  unfold vmLdWrd. intros s c s' v0 v1 rest va m t Wf Sm H.
  pose proof (s_word _ _ _ _ _ Sm) as Wd. inversion Wd as [|? ? Wv0 Wd']; subst. inversion Wd' as [|? ? Wv1 _]; subst. clear Wd Wd'.
  seqi H as c1 s1 Ad d1. seqi H as c2 s2 Re d2. seqi H as c3 s3 Po d3.
  assert (RP : (relEnt 0 ;; popStk true 1) s1 = Some (c2 ++ c3, s3)) by (unfold andThen; rewrite Re, Po; reflexivity).
  assert (S1 : WF s1 /\ exists t1 r, Ex c1 t t1 /\ SIM (set_fv s1 false) (v0 :: w16 (v1 + 2 * v0) :: rest) va m t1 /\
    (nth_error (vst s1) 1 = Some (XAcc r) \/ nth_error (vst s1) 1 = Some (XReg r))).
  { inv1 Ad. inv1 Ad. rename e into x, e0 into y.
    destruct (negb (isCnst0 x) || negb (isReg y)) eqn:Br.
    - seqi Ad as k1 u1 L1 k2.
      destruct (loadStk_moves _ _ _ _ _ _ _ _ Wf Sm L1) as [t1 [X1 [S1 _]]].
      destruct (loadStk_WF _ _ _ _ _ Wf L1) as [W1 [_ [[q Eq] _]]].
      destruct (isCnst0 x) eqn:Cx.
      + inv1 Ad. split; [exact W1|]. exists t1, q. rewrite app_nil_r. split; [exact X1|split; [|left; exact Eq]].
        apply isCnst0_eq in Cx. subst x. assert (v0 = 0) as -> by exact (cns_val _ _ _ _ _ 0%nat 0 v0 Sm E eq_refl).
        replace (v1 + 2 * 0) with v1 by lia. rewrite (w16_id _ Wv1). exact (SIM_fv _ _ _ _ _ S1).
      + seqi Ad as k3 u3 Cl k4.
        destruct (clearFlg_SIM _ _ _ _ _ _ _ W1 (SIM_fv _ _ _ _ _ S1) Cl) as [t2 [X2 [S2 _]]].
        destruct (clearFlg_WF _ _ _ W1 Cl) as [W2 [N2 _]]. destruct (clearFlg_inv _ _ _ W1 Cl) as [F2 _].
        pose proof (clearFlg_keep _ _ _ 1%nat _ W1 Cl Eq eq_refl) as E1.
        inv1 Ad. inv2 Ad. rewrite E1 in E2. injection E2 as <-. simpl in R. injection R as <-.
        destruct (calReg_inv _ _ _ _ _ Ad) as [e0 [z [Ez [Oz [-> ->]]]]].
        destruct (SIM_val _ _ _ _ _ _ _ S2 Ez) as [q0 [Q0 [[_ D0] _]]]. simpl in Q0. injection Q0 as <-. rewrite Oz in D0.
        destruct (SIM_val _ _ _ _ _ _ _ S2 E1) as [q1 [Q1 [[_ D1] _]]]. simpl in Q1. injection Q1 as <-. simpl in D1.
        split; [exact W2|].
        exists (setf M (setr M t2 q (w16 (v1 + 2 * v0))) (w16 (v1 + 2 * v0) =? 0) (hlt Hw AAdds v1 v0)), q.
        split; [|split; [|left; exact E1]].
        * apply (Ex_app _ _ _ X1). apply (Ex_app _ _ _ X2). apply Ex1. unfold exec1, alu_val. rewrite D0, D1. reflexivity.
        * apply SIM_fv. exact (SIM_alu _ _ _ _ _ 1%nat q _ _ _ W2 S2 N2 F2 E1 (w16_range _)).
    - apply orb_false_iff in Br. destruct Br as [B1 B2]. apply negb_false_iff in B1. apply negb_false_iff in B2.
      inv1 Ad. split; [exact Wf|]. apply isCnst0_eq in B1. subst x. destruct y; try discriminate B2.
      exists t, r. split; [apply Ex_nil|split; [|right; exact E0]].
      assert (v0 = 0) as -> by exact (cns_val _ _ _ _ _ 0%nat 0 v0 Sm E eq_refl).
      replace (v1 + 2 * 0) with v1 by lia. rewrite (w16_id _ Wv1). exact (SIM_fv _ _ _ _ _ Sm). }
  destruct S1 as [W1 [t1 [r [X1 [S1 E1]]]]].
  assert (Sp : c2 = [] /\ c3 = [] /\ SIM (set_fv s3 false) (w16 (v1 + 2 * v0) :: rest) va m t1).
  { destruct (relEnt_inv _ _ _ _ Re) as [e [b [n [E [-> [-> _]]]]]].
    apply popStk_inv in Po. destruct Po as [Po G]. specialize (G eq_refl).
    destruct (SIM_pop 1 (set_fv (set_acc s1 b n) false) c3 (set_fv s3 false) (v0 :: w16 (v1 + 2 * v0) :: rest) va m t1 (wf_flg _ W1)
      (SIM_acc _ _ _ _ _ b n S1) G (popRaw_fv _ _ _ _ Po)) as [-> S3]. auto. }
  destruct Sp as [-> [-> S3]].
  destruct (relpop_WF _ _ _ _ W1 RP) as [_ [_ [V3 _]]].
  assert (E3 : nth_error (vst s3) 0 = Some (XAcc r) \/ nth_error (vst s3) 0 = Some (XReg r)).
  { rewrite V3, nth_error_skip. exact E1. }
  assert (Gg : tg t1 = gs m) by exact (f_g _ _ (s_frm _ _ _ _ _ S1)).
  assert (Gr : gr t1 r = w16 (v1 + 2 * v0)).
  { destruct E3 as [X|X]; destruct (SIM_val _ _ _ _ _ 0%nat _ S3 X) as [u [U [[_ Du] _]]]; simpl in U; injection U as <-; exact Du. }
  destruct (toInd_SIM XWnd OWnd s3 d3 s' _ (w16 (ldw M (gs m) v1 v0)) rest va m t1 r S3 E3 H eq_refl I) as [-> [S' [E' _]]].
  - simpl. rewrite Gr, Gg. rewrite (fl_ldw _ Hfl (gs m) v1 v0 Wv1 Wv0). reflexivity.
  - apply w16_range.
  - exists t1, r. rewrite !app_nil_r. auto.
Qed.

Lemma vmLdByt_SIM : forall s c s' v0 v1 rest va m t, WF s -> SIM s (v0 :: v1 :: rest) va m t -> vmLdByt true s = Some (c, s') ->
  exists t' r, Ex c t t' /\ SIM s' (w_chr (ldb M (gs m) v1 v0) :: rest) va m t' /\
    nth_error (vst s') 0 = Some (XByt r) /\ gr t' r = w16 (v1 + v0).
Proof.
  unfold vmLdByt. intros s c s' v0 v1 rest va m t Wf Sm H.
  pose proof (s_word _ _ _ _ _ Sm) as Wd. inversion Wd as [|? ? Wv0 Wd']; subst. inversion Wd' as [|? ? Wv1 _]; subst. clear Wd Wd'.
  seqi H as c1 s1 Ad d1. seqi H as c3 s3 Po d3.
  apply popStk_inv in Po. destruct Po as [Po G]. specialize (G eq_refl).
  assert (S1 : flgOk s1 /\ exists u t1 r, Ex c1 t t1 /\ SIM (set_fv s1 false) (u :: w16 (v1 + v0) :: rest) va m t1 /\
    (nth_error (vst s1) 1 = Some (XAcc r) \/ nth_error (vst s1) 1 = Some (XReg r))).
  { inv1 Ad. inv1 Ad. rename e into x, e0 into y.
    destruct ((isACC x || isStk x) && negb (isACC y) && negb (isStk y)).
    - seqi Ad as k1 u1 Cl k2. seqi Ad as k3 u2 L0 k4.
      destruct (clearFlg_SIM _ _ _ _ _ _ _ Wf (SIM_fv _ _ _ _ _ Sm) Cl) as [t1 [X1 [S1 _]]].
      destruct (clearFlg_WF _ _ _ Wf Cl) as [W1 [N1 _]]. destruct (clearFlg_inv _ _ _ Wf Cl) as [F1 _].
      destruct (loadStk_moves _ _ _ _ _ _ _ _ W1 S1 L0) as [t2 [X2 [S2 _]]].
      destruct (loadStk_WF _ _ _ _ _ W1 L0) as [W2 [_ [[q Eq] [N2 [F2 _]]]]]. specialize (N2 N1).
      inv1 Ad. inv2 Ad. rewrite Eq in E1. injection E1 as <-. simpl in R. injection R as <-.
      seqi Ad as k5 u5 Ca k6. destruct (calReg_inv _ _ _ _ _ Ca) as [e1 [z [Ez [Oz [-> ->]]]]].
      seqi Ad as k7 u7 Re k8. inv1 Ad. destruct (relEnt_inv _ _ _ _ Re) as [e [b [n [E' [-> [-> _]]]]]].
      destruct (SIM_val _ _ _ _ _ _ _ S2 Ez) as [q1 [Q1 [[_ D1] _]]]. simpl in Q1. injection Q1 as <-. rewrite Oz in D1.
      destruct (SIM_val _ _ _ _ _ _ _ S2 Eq) as [q0 [Q0 [[_ D0] _]]]. simpl in Q0. injection Q0 as <-. simpl in D0.
      assert (Nf : noFlg (set_vst (set_acc u2 b n) (put (vst u2) 1 (XAcc q)))).
      { intros o r X. simpl in X. destruct (Nat.eq_dec 1 o) as [<-|Dn].
        - assert (Q := put_same (vst u2) 1 (XAcc q) (nth_error_lt _ _ _ Ez)). simpl in Q, X. rewrite Q in X. discriminate X.
        - rewrite put_other in X by exact Dn. exact (N2 o r X). }
      split.
      { split; simpl; [|intros o r X; elim (Nf o r X)]. intros i X. rewrite F2, F1 in X. discriminate X. }
      set (w := w16 (v0 + v1)).
      set (t3 := setf M (setr M t2 q w) (w =? 0) (hlt Hw AAdd v0 v1)).
      exists w, t3, q.
      pose proof (SIM_alu _ _ _ _ _ 0%nat q w (w =? 0) (hlt Hw AAdd v0 v1) W2 S2 N2 ltac:(congruence) Eq (w16_range _)) as S3.
      simpl put in S3. fold t3 in S3.
      split; [|split].
      + apply (Ex_app _ _ _ X1). apply (Ex_app _ _ _ X2). apply Ex1. unfold exec1. rewrite D0, D1. reflexivity.
      + replace (v1 + v0) with (v0 + v1) by lia. fold w.
        assert (Ne : e1 <> XStk) by (intros ->; discriminate Oz).
        assert (Gq : opd_val M (OReg q) t3 = w) by (unfold t3; simpl; unfold upd; rewrite Z.eqb_refl; reflexivity).
        exact (SIM_acc _ _ _ _ _ b n (SIM_put u2 _ _ _ _ 1%nat e1 (XAcc q) w (SIM_fv _ _ _ _ _ S3) Ez Ne
           (conj I Gq) (w16_range _))).
      + left. exact (put_same (vst u2) 1 (XAcc q) (nth_error_lt _ _ _ Ez)).
    - destruct (negb (isCnst0 x) || negb (isReg y)) eqn:Br.
      + seqi Ad as k1 u1 L1 k2. seqi Ad as k3 u3 Md k4.
        destruct (relEnt_inv _ _ _ _ Ad) as [e [b [n [E' [-> [-> _]]]]]].
        destruct (loadStk_moves _ _ _ _ _ _ _ _ Wf Sm L1) as [t1 [X1 [S1 _]]].
        destruct (loadStk_WF _ _ _ _ _ Wf L1) as [W1 [_ [[q Eq] _]]].
        destruct (isCnst0 x) eqn:Cx.
        * inv1 Md. split; [exact (wf_flg _ W1)|]. exists v0, t1, q. rewrite !app_nil_r. split; [exact X1|split; [|left; exact Eq]].
          apply isCnst0_eq in Cx. subst x. assert (v0 = 0) as -> by exact (cns_val _ _ _ _ _ 0%nat 0 v0 Sm E eq_refl).
          replace (v1 + 0) with v1 by lia. rewrite (w16_id _ Wv1). exact (SIM_acc _ _ _ _ _ b n (SIM_fv _ _ _ _ _ S1)).
        * seqi Md as k5 u5 Cl k6.
          destruct (clearFlg_SIM _ _ _ _ _ _ _ W1 (SIM_fv _ _ _ _ _ S1) Cl) as [t2 [X2 [S2 _]]].
          destruct (clearFlg_WF _ _ _ W1 Cl) as [W2 [N2 _]]. destruct (clearFlg_inv _ _ _ W1 Cl) as [F2 _].
          pose proof (clearFlg_keep _ _ _ 1%nat _ W1 Cl Eq eq_refl) as E1.
          inv1 Md. inv2 Md. rewrite E1 in E2. injection E2 as <-. simpl in R. injection R as <-.
          destruct (calReg_inv _ _ _ _ _ Md) as [e0 [z [Ez [Oz [-> ->]]]]].
          destruct (SIM_val _ _ _ _ _ _ _ S2 Ez) as [q0 [Q0 [[_ D0] _]]]. simpl in Q0. injection Q0 as <-. rewrite Oz in D0.
          destruct (SIM_val _ _ _ _ _ _ _ S2 E1) as [q1 [Q1 [[_ D1] _]]]. simpl in Q1. injection Q1 as <-. simpl in D1.
          split; [exact (wf_flg _ W2)|]. exists v0.
          exists (setf M (setr M t2 q (w16 (v1 + v0))) (w16 (v1 + v0) =? 0) (hlt Hw AAdd v1 v0)), q.
          rewrite app_nil_r.
          split; [|split; [|left; exact E1]].
          -- apply (Ex_app _ _ _ X1). apply (Ex_app _ _ _ X2). apply Ex1. unfold exec1, alu_val. rewrite D0, D1. reflexivity.
          -- exact (SIM_acc _ _ _ _ _ b n (SIM_fv _ _ _ _ _ (SIM_alu _ _ _ _ _ 1%nat q _ _ _ W2 S2 N2 F2 E1 (w16_range _)))).
      + apply orb_false_iff in Br. destruct Br as [B1 B2]. apply negb_false_iff in B1. apply negb_false_iff in B2.
        inv1 Ad. split; [exact (wf_flg _ Wf)|]. apply isCnst0_eq in B1. subst x. destruct y; try discriminate B2.
        exists v0, t, r. split; [apply Ex_nil|split; [|right; exact E0]].
        assert (v0 = 0) as -> by exact (cns_val _ _ _ _ _ 0%nat 0 v0 Sm E eq_refl).
        replace (v1 + 0) with v1 by lia. rewrite (w16_id _ Wv1). exact (SIM_fv _ _ _ _ _ Sm). }
  destruct S1 as [F1 [u [t1 [r [X1 [S1 E1]]]]]].
  destruct (SIM_pop 1 (set_fv s1 false) c3 (set_fv s3 false) (u :: w16 (v1 + v0) :: rest) va m t1 F1 S1 G (popRaw_fv _ _ _ _ Po)) as [-> S3].
  simpl in S3. destruct (popRaw_inv _ _ _ _ Po) as [_ [_ V3]].
  assert (E3 : nth_error (vst s3) 0 = Some (XAcc r) \/ nth_error (vst s3) 0 = Some (XReg r)).
  { rewrite V3. cbn [set_vst vst]. rewrite nth_error_skip. exact E1. }
  assert (Gg : tg t1 = gs m) by exact (f_g _ _ (s_frm _ _ _ _ _ S1)).
  assert (Gr : gr t1 r = w16 (v1 + v0)).
  { destruct E3 as [X|X]; destruct (SIM_val _ _ _ _ _ 0%nat _ S3 X) as [q [U [[_ Du] _]]]; simpl in U; injection U as <-; exact Du. }
  destruct (toInd_SIM XByt OByt s3 d3 s' _ (w_chr (ldb M (gs m) v1 v0)) rest va m t1 r S3 E3 H eq_refl I) as [-> [S' [E' _]]].
  - simpl. rewrite Gr, Gg. rewrite (fl_ldb _ Hfl (gs m) v1 v0 Wv1 Wv0). reflexivity.
  - exact (OptProofs.chr_word _).
  - exists t1, r. rewrite !app_nil_r. auto.
Qed.

(* ---- stores ---- *)
Lemma den_setg : forall k t e v g, readsMem e = false -> den k t e v -> den k (setg M t g) e v.
Proof. intros k t e v g N [A B]. split; [exact A|]. destruct e; try discriminate N; exact B. Qed.
Lemma SIM_setg : forall s vs va m t g, existsb readsMem (vst s) = false -> SIM s vs va m t ->
  SIM s vs va (set_g M m g) (setg M t g).
Proof.
  intros s vs va m t g N [A B C D E F G K]. split; try assumption.
  - destruct A as [A1 A2 A3 A4 A5 A6 A7]. split; try assumption. reflexivity.
  - apply (Forall2_change (den (fcc s) t)); [exact C|]. intros o x y X Y Dn. apply den_setg; [|exact Dn].
    destruct (readsMem x) eqn:Rx; [|reflexivity]. rewrite <- N. symmetry. apply existsb_exists. exists x. split; [exact (nth_error_In _ _ X)|exact Rx].
Qed.
Lemma top_reg : forall s vs va m t o e r v, SIM s vs va m t -> nth_error (vst s) o = Some e -> (e = XAcc r \/ e = XReg r) ->
  nth_error vs o = Some v -> gr t r = v.
Proof.
  intros s vs va m t o e r v Sm E K V. destruct (SIM_val _ _ _ _ _ _ _ Sm E) as [u [U [[_ D] _]]]. rewrite V in U. injection U as <-.
  destruct K as [-> | ->]; exact D.
Qed.

Lemma vmStGlb_SIM : forall i s c s' v rest va m t, WF s -> SIM s (v :: rest) va m t -> vmStGlb true i s = Some (c, s') ->
  exists t', Ex c t t' /\ SIM s' (v :: rest) va (set_g M m (stg M (gs m) i v)) t'.
Proof.
  unfold vmStGlb. intros i s c s' v rest va m t Wf Sm H. seqi H as c1 s1 L d1. seqi H as c2 s2 Np d2.
  unfold noPend in Np. inv1 Np. inv1 Np. specialize (G eq_refl). apply negb_true_iff in G.
  destruct (loadTop_moves _ _ _ _ _ _ _ _ Wf Sm L) as [t1 [X1 [S1 _]]].
  destruct (loadTop_WF _ _ _ _ _ Wf L) as [W1 [_ [[e [r [E K]]] _]]].
  inv1 H. inv2 H. inv1 H. rewrite E in E0. injection E0 as <-.
  assert (r0 = r) as -> by (destruct K as [-> | ->]; simpl in R; congruence).
  pose proof (top_reg _ _ _ _ _ _ _ _ v S1 E K eq_refl) as Gr.
  exists (setg M t1 (stg M (gs m) i v)). split.
  - apply (Ex_app _ _ _ X1). apply Ex1. unfold exec1. rewrite Gr, (f_g _ _ (s_frm _ _ _ _ _ S1)). reflexivity.
  - apply SIM_setg; assumption.
Qed.

Lemma storeInd_SIM : forall (mk : Z -> Z -> tin) st s c s' x v rest va m t A r,
  (forall u q b, exec1 M Hw (mk q b) u = Some (setg M u (st (tg u) (gr u b) (gr u q)))) ->
  WF s -> SIM s (x :: v :: rest) va m t -> nth_error (vst s) 0 = Some (XWnd r) \/ nth_error (vst s) 0 = Some (XByt r) -> gr t r = A ->
  storeInd true mk s = Some (c, s') ->
  exists t', Ex c t t' /\ SIM s' (v :: rest) va (set_g M m (st (gs m) A v)) t'.
Proof.
  unfold storeInd. intros mk st s c s' x v rest va m t A r Hx Wf Sm E0 Gr H.
  subst A.
  seqi H as c1 s1 L d1. seqi H as c2 s2 Np d2. inv1 Np. inv1 Np. specialize (G eq_refl). apply negb_true_iff in G.
  seqi H as c3 s3 Em d3.
  assert (Mv : exists t1, Ex c1 t t1 /\ SIM s1 (x :: v :: rest) va m t1 /\ keepR s s1 t t1).
  { unfold loadTop in L. inv1 L. destruct (isReg e).
    - inv1 L. exists t. split; [apply Ex_nil|split; [exact Sm|intros k e' q _ _ _; reflexivity]].
    - destruct (loadStk_movesR _ _ _ _ _ _ _ _ Wf Sm L) as [t1 [X1 [S1 [_ [_ K]]]]]. eauto. }
  destruct Mv as [t1 [X1 [S1 Kp]]].
  destruct (loadTop_WF _ _ _ _ _ Wf L) as [W1 [_ [[e [q [E K]]] _]]].
  assert (E0' : nth_error (vst s1) 0 = nth_error (vst s) 0 \/ nth_error (vst s1) 0 = Some XStk).
  { unfold loadTop in L. inv1 L. destruct (isReg e0); [inv1 L; auto|].
    destruct (loadStk_WF _ _ _ _ _ Wf L) as [_ [_ [_ [_ [_ [_ [_ Kk]]]]]]]. exact (Kk 0%nat ltac:(discriminate)). }
  inv1 Em. inv2 Em. inv1 Em. inv2 Em. inv1 Em. rewrite E in E1. injection E1 as <-.
  assert (r0 = q) as -> by (destruct K as [-> | ->]; simpl in R; congruence).
  assert (Gq : gr t1 q = v) by exact (top_reg _ _ _ _ _ _ _ _ v S1 E K eq_refl).
  destruct E0' as [E0'|E0']; [|rewrite E0' in E2; injection E2 as <-; discriminate R0].
  assert (Eq : nth_error (vst s) 0 = Some e1) by congruence.
  assert (r1 = r) as -> by (destruct E0 as [X|X]; rewrite X in Eq; injection Eq as <-; simpl in R0; congruence).
  assert (Ga : gr t1 r = gr t r) by (rewrite (Kp 0%nat e1 r Eq E2 R0); reflexivity).
  destruct (SIM_relpop _ _ _ _ _ _ _ W1 S1 H) as [-> S2]. simpl in S2.
  destruct (relpop_WF _ _ _ _ W1 H) as [_ [_ [V2 _]]].
  exists (setg M t1 (st (gs m) (gr t r) v)). split.
  - apply (Ex_app _ _ _ X1). cbn [app]. apply Ex1. rewrite Hx, Ga, Gq, (f_g _ _ (s_frm _ _ _ _ _ S1)). reflexivity.
  - apply SIM_setg; [|exact S2]. rewrite V2. destruct (vst s1); exact G.
Qed.

Lemma vmStWrd_SIM : forall s c s' v0 v1 v rest va m t, WF s -> SIM s (v0 :: v1 :: v :: rest) va m t -> vmStWrd true s = Some (c, s') ->
  exists t', Ex c t t' /\ SIM s' (v :: rest) va (set_g M m (stw M (gs m) v1 v0 v)) t'.
Proof.
  unfold vmStWrd. intros s c s' v0 v1 v rest va m t Wf Sm H.
  pose proof (s_word _ _ _ _ _ Sm) as Wd. inversion Wd as [|? ? Wv0 Wd']; subst. inversion Wd' as [|? ? Wv1 _]; subst. clear Wd Wd'.
  seqi H as c1 s1 L d1.
  destruct (vmLdWrd_SIM _ _ _ _ _ _ _ _ _ Wf Sm L) as [t1 [r [X1 [S1 [E1 Gr]]]]].
  destruct (vmLdWrd_WF _ _ _ _ Wf L) as [W1 _].
  destruct (storeInd_SIM TStW (fun g a x => stw M g a 0 x) s1 d1 s' _ v rest va m t1 _ r (fun u q b => eq_refl) W1 S1 (or_introl E1) Gr H) as [t2 [X2 S2]].
  exists t2. split; [exact (Ex_app _ _ _ X1 _ _ X2)|]. rewrite (fl_stw _ Hfl (gs m) v1 v0 v Wv1 Wv0). exact S2.
Qed.
Lemma vmStByt_SIM : forall s c s' v0 v1 v rest va m t, WF s -> SIM s (v0 :: v1 :: v :: rest) va m t -> vmStByt true s = Some (c, s') ->
  exists t', Ex c t t' /\ SIM s' (v :: rest) va (set_g M m (stb M (gs m) v1 v0 v)) t'.
Proof.
  unfold vmStByt. intros s c s' v0 v1 v rest va m t Wf Sm H.
  pose proof (s_word _ _ _ _ _ Sm) as Wd. inversion Wd as [|? ? Wv0 Wd']; subst. inversion Wd' as [|? ? Wv1 _]; subst. clear Wd Wd'.
  seqi H as c1 s1 L d1.
  destruct (vmLdByt_SIM _ _ _ _ _ _ _ _ _ Wf Sm L) as [t1 [r [X1 [S1 [E1 Gr]]]]].
  destruct (vmLdByt_WF _ _ _ _ Wf L) as [W1 _].
  destruct (storeInd_SIM TStB (fun g a x => stb M g a 0 x) s1 d1 s' _ v rest va m t1 _ r (fun u q b => eq_refl) W1 S1 (or_intror E1) Gr H) as [t2 [X2 S2]].
  exists t2. split; [exact (Ex_app _ _ _ X1 _ _ X2)|]. rewrite (fl_stb _ Hfl (gs m) v1 v0 v Wv1 Wv0). exact S2.
Qed.

(* a local variable in a register *)
Lemma den_loc : forall k t t1 e v r x, 3 <= r -> readsReg r e = false -> (forall a, accOf e = Some a -> 0 <= a < 3) ->
  (forall q, gr t1 q = upd (gr t) r x q) -> fp t1 = fp t -> sm t1 = sm t -> tg t1 = tg t -> zf t1 = zf t -> lf t1 = lf t ->
  den k t e v -> den k t1 e v.
Proof.
  intros k t t1 e v r x Rr Nr Oe Hg Hf Hm Ht Hz Hl [F D]. split; [exact F|].
  assert (U : forall q, q <> r -> gr t1 q = gr t q).
  { intros q Dq. rewrite Hg. unfold upd. destruct (Z.eqb_spec q r); [contradiction|reflexivity]. }
  destruct e; simpl in *; rewrite ?Hf, ?Hm, ?Ht, ?Hz, ?Hl; try exact D;
    rewrite U; try exact D; try (apply Z.eqb_neq; exact Nr). specialize (Oe _ eq_refl). lia.
Qed.

Lemma vmStReg_SIM : forall n s c s' v rest va m t, 1 <= n <= depth -> n <= 9 -> WF s -> SIM s (v :: rest) va m t ->
  existsb (readsReg (n + 2)) (List.tl (vst s)) = false ->
  (ent_at 0 (fun e => match e with
      | XReg r => if r =? n + 2 then skip else loadReg true (n + 2) 0
      | _ => loadReg true (n + 2) 0 end) ;;
    ent_at 0 (fun e => if isACC e then skip else relEnt 0 ;; set_ent 0 (XReg (n + 2)))) s = Some (c, s') ->
  exists t', Ex c t t' /\ SIM s' (v :: rest) va (set_loc M m n v) t'.
Proof.
  intros n s c s' v rest va m t Hn N9 Wf Sm Np H. seqi H as c1 s1 A d1. inv1 A.
  destruct (SIM_val _ _ _ _ _ _ _ Sm E) as [v' [Vo [De Wv]]]. simpl in Vo. injection Vo as <-.
  pose proof (nth_error_lt _ _ _ E) as Lo.
  assert (K : (e = XReg (n + 2) /\ c1 = [] /\ s1 = s) \/ loadReg true (n + 2) 0 s = Some (c1, s1)).
  { destruct e; auto. destruct (Z.eqb_spec r (n + 2)) as [->|]; [inv1 A; auto|auto]. }
  clear A.
  assert (V1 : vst s1 = vst s /\ flg s1 = flg s /\ fcc s1 = fcc s).
  { destruct K as [[_ [_ ->]]|K]; [auto|]. destruct (loadReg_same _ _ _ _ _ _ K) as [X1 [_ [_ [X2 [X3 _]]]]]. auto. }
  destruct V1 as [V1 [F1 C1]].
  assert (V' : d1 = [] /\ vst s' = (if isACC e then vst s else put (vst s) 0 (XReg (n + 2))) /\ flg s' = flg s /\ fcc s' = fcc s /\
    lay s' = lay s1 /\ fv s' = fv s1).
  { inv1 H. rewrite V1 in E0. rewrite E in E0. injection E0 as <-. destruct (isACC e).
    - inv1 H. auto 8.
    - seqi H as k1 u1 Re k2. inv1 H. destruct (relEnt_inv _ _ _ _ Re) as [e1 [b [k [_ [-> [-> _]]]]]]. simpl. rewrite V1. auto 8. }
  destruct V' as [-> [V' [F' [C' [La' Fv']]]]]. rewrite app_nil_r.
  destruct (s_frm _ _ _ _ _ Sm) as [Q1 Q2 Q3 Q4 Q5 Q6 Q7].
  assert (Top : forall k x, nth_error (vst s) (S k) = Some x -> readsReg (n + 2) x = false).
  { intros k x X. destruct (readsReg (n + 2) x) eqn:Rx; [|reflexivity]. rewrite <- Np. symmetry. apply existsb_exists. exists x.
    split; [|exact Rx]. destruct (vst s) as [|y l]; [discriminate X|]. simpl in X |- *. exact (nth_error_In _ _ X). }
  assert (Acc : forall k x a, nth_error (vst s) k = Some x -> accOf x = Some a -> 0 <= a < 3).
  { intros k x a X Fx. exact (WF_acc_range _ _ _ _ Wf X Fx). }
  assert (FIN : forall t1, (forall r, gr t1 r = upd (gr t) (n + 2) v r) -> fp t1 = fp t -> sm t1 = sm t -> tg t1 = tg t ->
     zf t1 = zf t -> lf t1 = lf t -> sp t1 = base - 2 * Z.of_nat (length (lay s')) ->
     LY (sm t) (v :: rest) (sp t1) (lay s') va ->
     (forall i, In (Some i) (lay s') -> In (Some i) (lay s) /\ (isACC e = false -> i <> idx s 0)) ->
     NoDup (filter (fun x => negb (isArg x)) (lay s')) ->
     (fv s' = true -> isFlg e = false /\ fv s = true) ->
     SIM s' (v :: rest) va (set_loc M m n v) t1).
  { intros t1 Hg Hf Hm Ht Hz Hl Hs Hly Hwl Hnd Hfv. split.
    - split; simpl.
      + congruence.
      + congruence.
      + intros i I1 I2. rewrite Hg. unfold upd. destruct (Z.eqb_spec (i + 2) (n + 2)), (Z.eqb_spec i n); try lia.
        * rewrite (w16_id _ Wv). reflexivity.
        * auto.
      + intros i I1. rewrite Hm. unfold upd. destruct (Z.eqb_spec i n); [lia|]. auto.
      + intros i I1. rewrite Hm. auto.
      + intros r R1 R2. rewrite Hg. unfold upd. destruct (Z.eqb_spec r (n + 2)); [lia|]. auto.
      + intros a A1 A2 A3. rewrite Hm. auto.
    - exact Hs.
    - assert (DD : forall x y, readsReg (n + 2) x = false -> (forall a, accOf x = Some a -> 0 <= a < 3) -> den (fcc s) t x y -> den (fcc s') t1 x y).
      { intros x y Rx Ax Dx. rewrite C'. exact (den_loc _ t t1 x y (n + 2) v ltac:(lia) Rx Ax Hg Hf Hm Ht Hz Hl Dx). }
      rewrite V'. destruct (isACC e) eqn:Ia.
      + apply (Forall2_change (den (fcc s) t)); [exact (s_den _ _ _ _ _ Sm)|]. intros k x y X Y Dx. apply DD; auto.
        * destruct k as [|k]; [|exact (Top k x X)]. rewrite E in X. injection X as <-. destruct e; try discriminate Ia. reflexivity.
        * exact (fun a => Acc k x a X).
      + apply (Forall2_put (den (fcc s) t) _ _ _ 0%nat (XReg (n + 2)) v (s_den _ _ _ _ _ Sm) eq_refl).
        * split; [exact I|]. simpl. rewrite Hg. unfold upd. rewrite Z.eqb_refl. reflexivity.
        * intros k x y Dk X Y Dx. destruct k as [|k]; [elim Dk; reflexivity|]. apply DD; auto.
          -- exact (Top k x X).
          -- exact (fun a => Acc (S k) x a X).
    - rewrite Hm. exact Hly.
    - intros i I. destruct (Hwl i I) as [I1 I2]. rewrite V'. pose proof (s_wl _ _ _ _ _ Sm i I1) as B1.
      destruct (isACC e); [exact B1|]. rewrite bot_put_other; [exact B1|exact (bot_lt _ _ _ B1)|exact (I2 eq_refl)].
    - exact Hnd.
    - exact (s_word _ _ _ _ _ Sm).
    - intros X o' e' v' Fi E1 N1 Vv. destruct (Hfv X) as [Ne Fv]. rewrite Hz, Hl.
      assert (Fi' : flg_is s o' = true).
      { unfold flg_is in *. rewrite F', V' in Fi. destruct (isACC e); [exact Fi|]. rewrite put_length in Fi. exact Fi. }
      destruct o' as [|o'].
      + exact (s_flag _ _ _ _ _ Sm Fv 0%nat e v' Fi' E Ne Vv).
      + apply (s_flag _ _ _ _ _ Sm Fv (S o') e' v' Fi'); auto. rewrite V' in E1. destruct (isACC e); [exact E1|].
        rewrite put_other in E1 by discriminate. exact E1. }
  assert (NS : isStk e = false -> forall i, In (Some i) (lay s) -> i <> idx s 0).
  { intros Ns i I ->. pose proof (s_wl _ _ _ _ _ Sm _ I) as B. unfold idx in B. rewrite bot_idx in B by exact Lo.
    rewrite E in B. injection B as ->. discriminate Ns. }
  destruct K as [[-> [-> ->]]|K].
  - exists t. split; [apply Ex_nil|]. destruct De as [_ De]. cbn in De. apply FIN; try reflexivity.
    + intros r. unfold upd. destruct (Z.eqb_spec r (n + 2)) as [->|]; [exact De|reflexivity].
    + rewrite La'. exact (s_sp _ _ _ _ _ Sm).
    + rewrite La'. exact (s_lay _ _ _ _ _ Sm).
    + intros i I. rewrite La' in I. split; [exact I|]. intros _. exact (NS eq_refl i I).
    + rewrite La'. exact (s_nd _ _ _ _ _ Sm).
    + intros X. split; [reflexivity|congruence].
  - destruct (loadReg_inv _ _ _ _ _ _ K) as [e2 [E2 K2]]. rewrite E in E2. injection E2 as <-.
    assert (SAME : forall x, s1 = s -> c1 = [TLd (n + 2) x] -> opdOf e = Some x -> isStk e = false -> isFlg e = false ->
      exists t', Ex c1 t t' /\ SIM s' (v :: rest) va (set_loc M m n v) t').
    { intros x -> -> Ox Ns Nf. destruct De as [_ De]. rewrite Ox in De. exists (setr M t (n + 2) v).
      split; [apply Ex1; unfold exec1; rewrite De; reflexivity|]. apply FIN; try reflexivity.
      - rewrite La'. exact (s_sp _ _ _ _ _ Sm).
      - rewrite La'. exact (s_lay _ _ _ _ _ Sm).
      - intros i I. rewrite La' in I. split; [exact I|]. intros _. exact (NS Ns i I).
      - rewrite La'. exact (s_nd _ _ _ _ _ Sm).
      - intros X. split; [exact Nf|congruence]. }
    destruct e; try (destruct K2 as [x [Ox [-> ->]]]; apply (SAME x); try reflexivity; exact Ox).
    + destruct K2 as [Fi [-> ->]]. destruct De as [_ De]. specialize (De eq_refl).
      exists (if holds (fcc s) (zf t) (lf t) then setr M t (n + 2) 1 else setr M (setr M t (n + 2) 1) (n + 2) 0).
      split; [apply Ex_flg; apply Ex_nil|]. apply FIN.
      * intros q. destruct (holds (fcc s) (zf t) (lf t)); rewrite De; simpl; unfold upd; destruct (q =? n + 2); reflexivity.
      * destruct (holds (fcc s) (zf t) (lf t)); reflexivity.
      * destruct (holds (fcc s) (zf t) (lf t)); reflexivity.
      * destruct (holds (fcc s) (zf t) (lf t)); reflexivity.
      * destruct (holds (fcc s) (zf t) (lf t)); reflexivity.
      * destruct (holds (fcc s) (zf t) (lf t)); reflexivity.
      * rewrite La'. pose proof (s_sp _ _ _ _ _ Sm) as Q. destruct (holds (fcc s) (zf t) (lf t)); exact Q.
      * rewrite La'. pose proof (s_lay _ _ _ _ _ Sm) as Q. destruct (holds (fcc s) (zf t) (lf t)); exact Q.
      * intros i I. rewrite La' in I. split; [exact I|]. intros _. exact (NS eq_refl i I).
      * rewrite La'. exact (s_nd _ _ _ _ _ Sm).
      * intros X. rewrite Fv' in X. discriminate X.
    + destruct K2 as [G [-> ->]]. destruct (G eq_refl) as [l Hl]. clear G.
      pose proof (s_lay _ _ _ _ _ Sm) as Ly. rewrite Hl in Ly. cbn [LY] in Ly. destruct Ly as [Lv Ly].
      assert (Ev : sm t (sp t) = v).
      { unfold idx in Lv. rewrite (SIM_len _ _ _ _ _ Sm) in Lv. rewrite bot_idx in Lv by (simpl; lia). injection Lv as ->. reflexivity. }
      simpl in La'. rewrite Hl in La'. simpl in La'.
      pose proof (s_nd _ _ _ _ _ Sm) as Nd. rewrite Hl in Nd. simpl in Nd. apply NoDup_cons_iff in Nd. destruct Nd as [N1 N2].
      exists (setsp M (setr M t (n + 2) v) (sp t + 2)). split; [apply Ex1; simpl; rewrite Ev; reflexivity|].
      apply FIN; try reflexivity.
      * change (sp t + 2 = base - 2 * Z.of_nat (length (lay s'))). rewrite (s_sp _ _ _ _ _ Sm), Hl, La'. cbn [length]. rewrite Nat2Z.inj_succ. lia.
      * rewrite La'. exact Ly.
      * intros i I. rewrite La' in I. split; [rewrite Hl; right; exact I|]. intros _ ->. apply N1.
        apply filter_In. split; [exact I|reflexivity].
      * rewrite La'. exact N2.
      * intros X. split; [reflexivity|]. rewrite Fv' in X. exact X.
Qed.

(* a local variable or parameter in the frame *)
Lemma SIM_frame : forall s vs va m m' t a x, SIM s vs va m t -> base <= a -> FRM (setsm M t a x) m' ->
  (forall o e, nth_error (vst s) o = Some e -> match e with XLoc d => FP0 - d <> a | XPrm d => FP0 + d <> a | _ => True end) ->
  SIM s vs va m' (setsm M t a x).
Proof.
  intros s vs va m m' t a x Sm Ha Fr Ne. pose proof (s_sp _ _ _ _ _ Sm) as Sp. pose proof (f_fp _ _ (s_frm _ _ _ _ _ Sm)) as Hf.
  destruct Sm as [A B C D E F G K]. split; try assumption.
  - apply (Forall2_change (den (fcc s) t)); [exact C|]. intros o e v X Y [D1 D2]. split; [exact D1|]. specialize (Ne o e X).
    destruct e; cbn [opdOf opd_val setsm sm fp] in *; try exact D2; rewrite Hf in *; unfold upd.
    + destruct (Z.eqb_spec (FP0 + - d) a); [lia|exact D2].
    + destruct (Z.eqb_spec (FP0 + d) a); [lia|exact D2].
  - apply (LY_ext (sm t) _ vs vs); [reflexivity| |exact D]. intros y Y. cbn [setsm sm sp] in *. unfold upd.
    destruct (Z.eqb_spec y a); [lia|reflexivity].
Qed.
Lemma noPend_nth : forall f s o e, existsb f (vst s) = false -> nth_error (vst s) o = Some e -> f e = false.
Proof.
  intros f s o e N E. destruct (f e) eqn:Fe; [|reflexivity]. rewrite <- N. symmetry. apply existsb_exists. exists e.
  split; [exact (nth_error_In _ _ E)|exact Fe].
Qed.

Lemma vmStLoc_SIM : forall n s c s' v rest va m t, WF s -> SIM s (v :: rest) va m t -> vmStLoc true depth n s = Some (c, s') ->
  exists t', Ex c t t' /\ SIM s' (v :: rest) va (set_loc M m n v) t'.
Proof.
  unfold vmStLoc. intros n s c s' v rest va m t Wf Sm H. seqi H as c0 s0 G1 d0. inv1 G1. specialize (G eq_refl).
  apply andb_true_iff in G. destruct G as [G1 G2]. apply Z.leb_le in G1. apply Z.leb_le in G2.
  destruct (Z.leb_spec n 9) as [N9|N9].
  - cbv zeta in H. replace (n - 1 + 3) with (n + 2) in H by lia. seqi H as c2 s2 Np d2. inv1 Np. inv1 Np. specialize (G eq_refl).
    apply negb_true_iff in G. exact (vmStReg_SIM n s d2 s' v rest va m t (conj G1 G2) N9 Wf Sm G H).
  - seqi H as c1 s1 L d1. seqi H as c2 s2 Np d2. unfold noPend in Np. inv1 Np. inv1 Np. specialize (G eq_refl). apply negb_true_iff in G.
    destruct (loadTop_moves _ _ _ _ _ _ _ _ Wf Sm L) as [t1 [X1 [S1 _]]].
    destruct (loadTop_WF _ _ _ _ _ Wf L) as [W1 [_ [[e [r [E K]]] _]]].
    inv1 H. inv2 H. inv1 H. rewrite E in E0. injection E0 as <-.
    assert (r0 = r) as -> by (destruct K as [-> | ->]; simpl in R; congruence).
    pose proof (top_reg _ _ _ _ _ _ _ _ v S1 E K eq_refl) as Gr.
    pose proof (s_word _ _ _ _ _ Sm) as Wd. inversion Wd as [|? ? Wv _]; subst x l.
    destruct (s_frm _ _ _ _ _ S1) as [Q1 Q2 Q3 Q4 Q5 Q6 Q7].
    exists (setsm M t1 (FP0 - (n - 9) * 2) v). split.
    + apply (Ex_app _ _ _ X1). apply Ex1. unfold exec1. rewrite Gr, Q1. do 2 f_equal. 
    + apply (SIM_frame s1 _ _ m); [exact S1|unfold base; lia| |].
      * split; cbn [setsm gr fp sm tg set_loc gs locs prms]; auto; unfold upd.
        -- intros i I1 I2. destruct (Z.eqb_spec i n); [lia|]. auto.
        -- intros i I1. destruct (Z.eqb_spec (FP0 - (i - 9) * 2) (FP0 - (n - 9) * 2)), (Z.eqb_spec i n); try lia.
           ++ rewrite (w16_id _ Wv). reflexivity.
           ++ auto.
        -- intros i I1. destruct (Z.eqb_spec (FP0 + (i + 2) * 2) (FP0 - (n - 9) * 2)); [lia|]. auto.
        -- intros a A1 A2 A3. destruct (Z.eqb_spec a (FP0 - (n - 9) * 2)) as [->|]; [|auto]. elim (A2 n); [lia|reflexivity].
      * intros o x X. pose proof (noPend_nth _ _ _ _ G X) as Nx.
        destruct (SIM_val _ _ _ _ _ _ _ S1 X) as [u [_ [[Fx _] _]]].
        destruct x; auto; simpl in Nx, Fx.
        -- apply Z.eqb_neq in Nx. lia.
        -- destruct Fx as [i [I1 ->]]. lia.
Qed.

Lemma vmStPrm_SIM : forall n s c s' v rest va m t, WF s -> SIM s (v :: rest) va m t -> vmStPrm true np n s = Some (c, s') ->
  exists t', Ex c t t' /\ SIM s' (v :: rest) va (set_prm M m n v) t'.
Proof.
  unfold vmStPrm. intros n s c s' v rest va m t Wf Sm H. seqi H as c0 s0 G1 d0. inv1 G1. specialize (G eq_refl).
  apply andb_true_iff in G. destruct G as [G1 G2]. apply Z.leb_le in G1. apply Z.ltb_lt in G2.
  seqi H as c1 s1 L d1. seqi H as c2 s2 Np d2. unfold noPend in Np. inv1 Np. inv1 Np. specialize (G eq_refl). apply negb_true_iff in G.
  destruct (loadTop_moves _ _ _ _ _ _ _ _ Wf Sm L) as [t1 [X1 [S1 _]]].
  destruct (loadTop_WF _ _ _ _ _ Wf L) as [W1 [_ [[e [r [E K]]] _]]].
  inv1 H. inv2 H. inv1 H. rewrite E in E0. injection E0 as <-.
  assert (r0 = r) as -> by (destruct K as [-> | ->]; simpl in R; congruence).
  pose proof (top_reg _ _ _ _ _ _ _ _ v S1 E K eq_refl) as Gr.
  pose proof (s_word _ _ _ _ _ Sm) as Wd. inversion Wd as [|? ? Wv _]; subst x l.
  destruct (s_frm _ _ _ _ _ S1) as [Q1 Q2 Q3 Q4 Q5 Q6 Q7].
  exists (setsm M t1 (FP0 + (n + 2) * 2) v). split.
  - apply (Ex_app _ _ _ X1). apply Ex1. unfold exec1. rewrite Gr, Q1. reflexivity.
  - apply (SIM_frame s1 _ _ m); [exact S1|unfold base; lia| |].
    + split; cbn [setsm gr fp sm tg set_prm gs locs prms]; auto; unfold upd.
      * intros i I1. destruct (Z.eqb_spec (FP0 - (i - 9) * 2) (FP0 + (n + 2) * 2)); [lia|]. auto.
      * intros i I1. destruct (Z.eqb_spec (FP0 + (i + 2) * 2) (FP0 + (n + 2) * 2)), (Z.eqb_spec i n); try lia.
        -- rewrite (w16_id _ Wv). reflexivity.
        -- auto.
      * intros a A1 A2 A3. destruct (Z.eqb_spec a (FP0 + (n + 2) * 2)) as [->|]; [|auto]. elim (A3 n); [lia|reflexivity].
    + intros o x X. pose proof (noPend_nth _ _ _ _ G X) as Nx.
      destruct (SIM_val _ _ _ _ _ _ _ S1 X) as [u [_ [[Fx _] _]]].
      destruct x; auto; simpl in Nx, Fx.
      * destruct Fx as [i [I1 ->]]. lia.
      * apply Z.eqb_neq in Nx. lia.
Qed.

(* ---- calls ---- *)
Lemma LY_args : forall mem vs n l a va, LY mem vs a l va -> (n <= length l)%nat -> forallb isArg (firstn n l) = true ->
  map (fun k => mem (a + 2 * Z.of_nat k)) (seq 0 n) = firstn n va /\
  LY mem vs (a + 2 * Z.of_nat n) (skipn n l) (skipn n va).
Proof.
  intros mem vs. induction n as [|n IH]; intros l a va H Ln Fa.
  - simpl (seq 0 0). simpl skipn. split; [reflexivity|]. replace (a + 2 * Z.of_nat 0) with a by lia. exact H.
  - destruct l as [|[i|] l]; simpl in Ln, Fa; [lia|discriminate Fa|]. cbn [LY] in H. destruct va as [|x va]; [contradiction|].
    destruct H as [H1 H2]. destruct (IH l (a + 2) va H2 ltac:(lia) Fa) as [I1 I2]. split.
    + rewrite <- cons_seq, <- seq_shift. cbn [map firstn]. rewrite map_map. f_equal.
      * replace (a + 2 * Z.of_nat 0) with a by lia. exact H1.
      * rewrite <- I1. apply map_ext. intros k. f_equal. rewrite Nat2Z.inj_succ. lia.
    + cbn [skipn]. replace (a + 2 * Z.of_nat (S n)) with (a + 2 + 2 * Z.of_nat n) by (rewrite Nat2Z.inj_succ; lia). exact I2.
Qed.
Lemma filter_args : forall (l : list (option nat)), forallb isArg l = true -> filter (fun x => negb (isArg x)) l = [].
Proof. induction l as [|[i|] l IH]; simpl; intros H; try discriminate H; auto. Qed.

Lemma callF_SIM : forall n f s c s' vs va m t v g, WF s -> SIM s vs va m t -> callF true n f s = Some (c, s') ->
  call M f (firstn n va) (gs m) = Some (v, g) ->
  exists t', Ex c t t' /\ SIM s' vs (skipn n va) (set_g M m g) t' /\ gr t' 0 = w16 v.
Proof.
  unfold callF. intros n f s c s' vs va m t v g Wf Sm H Cl.
  seqi H as c1 s1 Os d1. seqi H as c2 s2 Np d2. unfold noPend in Np. inv1 Np. inv1 Np. specialize (G eq_refl). apply negb_true_iff in G. rename G into Nm.
  seqi H as c3 s3 Gd d3. inv1 Gd. inv1 Gd. specialize (G eq_refl). apply andb_true_iff in G. destruct G as [Ln Fa]. apply Nat.leb_le in Ln.
  seqi H as c4 s4 Em d4. inv1 Em. seqi H as c5 s5 Ad d5. inv1 H.
  destruct (outStkN_moves 4 _ _ _ _ _ _ _ Wf Sm Os) as [t1 [X1 [S1 _]]].
  destruct (outStkN_WF _ _ _ _ _ Wf Os) as [W1 [_ [Ac _]]].
  destruct (LY_args _ _ n _ _ _ (s_lay _ _ _ _ _ S1) Ln Fa) as [Sw Ly].
  pose proof (s_sp _ _ _ _ _ S1) as Sp. pose proof (s_frm _ _ _ _ _ S1) as Fr.
  destruct (hjunk Hw t1) as [[[jr js] z] l] eqn:Hj.
  set (t2 := Mst (fun r => if r =? 0 then w16 v else if (r =? 1) || (r =? 2) then jr r else gr t1 r)
                (fp t1) (sp t1) (fun a => if a <? sp t1 + 2 * Z.of_nat n then js a else sm t1 a) z l g).
  assert (X2 : exec1 M Hw (TCall n f) t1 = Some t2).
  { unfold exec1, docall, stackWords. rewrite Sw, (f_g _ _ Fr), Cl, Hj. reflexivity. }
  set (t3 := setsp M t2 (sp t1 + 2 * Z.of_nat n)).
  assert (X3 : Ex ([TCall n f] ++ c5) t1 t3 /\ s5 = s1).
  { assert (Q0 : Ex c5 t2 t3 /\ s5 = s1); [|split; [exact (Ex_one _ c5 _ _ _ X2 (proj1 Q0))|exact (proj2 Q0)]]. destruct n.
    - inv1 Ad. split; [|reflexivity].
      assert (Q : t3 = t2). { unfold t3, t2, setsp. simpl. f_equal. lia. } rewrite Q. apply Ex_nil.
    - inv1 Ad. split; [|reflexivity]. apply Ex1. unfold exec1, t3. do 2 f_equal. change (sp t2) with (sp t1). lia. }
  destruct X3 as [X3 ->].
  exists t3. split; [|split; [|reflexivity]].
  - apply (Ex_app _ _ _ X1). rewrite app_nil_r. exact X3.
  - assert (Mm : forall a, sp t1 + 2 * Z.of_nat n <= a -> sm t3 a = sm t1 a).
    { intros a Ha. unfold t3, t2. cbn [setsp sm]. destruct (Z.ltb_spec a (sp t1 + 2 * Z.of_nat n)); [lia|reflexivity]. }
    assert (Hb : forall a, base <= a -> sm t3 a = sm t1 a) by (intros a Ha; apply Mm; lia).
    assert (Gg : forall r, 3 <= r -> gr t3 r = gr t1 r).
    { intros r Hr. unfold t3, t2. cbn [setsp gr]. destruct (Z.eqb_spec r 0), (Z.eqb_spec r 1), (Z.eqb_spec r 2); try lia. reflexivity. }
    destruct Fr as [Q1 Q2 Q3 Q4 Q5 Q6 Q7].
    split; cbn [set_fv set_lay vst lay fcc fv flg].
    + split; try assumption; try reflexivity.
      * intros i I1 I2. rewrite Gg by lia. exact (Q3 i I1 I2).
      * intros i I1. rewrite Hb by (unfold base; lia). exact (Q4 i I1).
      * intros i I1. rewrite Hb by (unfold base; lia). exact (Q5 i I1).
      * intros r R1 R2. rewrite Gg by lia. auto.
      * intros a A1 A2 A3. rewrite Hb by assumption. auto.
    + change (sp t1 + 2 * Z.of_nat n = base - 2 * Z.of_nat (length (skipn n (lay s1)))). rewrite skipn_length. rewrite Sp.
      rewrite Nat2Z.inj_sub by exact Ln. lia.
    + apply (Forall2_change (den (fcc s1) t1)); [exact (s_den _ _ _ _ _ S1)|]. intros o e x X Y [D1 D2]. split; [exact D1|].
      pose proof (noPend_nth _ _ _ _ Nm X) as Nx. pose proof (accs_nil_flg _ Ac _ _ X) as Fx.
      pose proof (wf_ent _ W1) as We. rewrite Forall_forall in We. specialize (We e (nth_error_In _ _ X)).
      destruct e; cbn [opdOf opd_val] in *; try discriminate Nx; try discriminate Fx; try exact D2; try (intros Q; discriminate Q).
      * destruct D1 as [i [I1 ->]]. change (fp t3) with (fp t1). rewrite Q1 in *. rewrite Hb by (unfold base; lia). exact D2.
      * simpl in We. rewrite Gg by lia. exact D2.
      * destruct D1 as [i [I1 ->]]. change (fp t3) with (fp t1). rewrite Q1 in *. rewrite Hb by (unfold base; lia). exact D2.
    + change (sp t3) with (sp t1 + 2 * Z.of_nat n).
      apply (LY_ext (sm t1) _ vs vs); [reflexivity| |exact Ly]. intros x X. apply Mm. lia.
    + intros i I. apply (s_wl _ _ _ _ _ S1). rewrite <- (firstn_skipn n (lay s1)). apply in_or_app. right. exact I.
    + pose proof (s_nd _ _ _ _ _ S1) as Nd. rewrite <- (firstn_skipn n (lay s1)) in Nd. rewrite filter_app, (filter_args _ Fa) in Nd. exact Nd.
    + exact (s_word _ _ _ _ _ S1).
    + intros X. discriminate X.
Qed.

Lemma vmCallF_SIM : forall n f s c s' vs va m t v g, WF s -> SIM s vs va m t -> vmCallF true n f s = Some (c, s') ->
  call M f (firstn n va) (gs m) = Some (v, g) ->
  exists t', Ex c t t' /\ SIM s' (w16 v :: vs) (skipn n va) (set_g M m g) t'.
Proof.
  unfold vmCallF. intros n f s c s' vs va m t v g Wf Sm H Cl. seqi H as c1 s1 A d1.
  destruct (callF_SIM _ _ _ _ _ _ _ _ _ _ _ Wf Sm A Cl) as [t1 [X1 [S1 G0]]].
  destruct (callF_WF _ _ _ _ _ _ Wf A) as [W1 _].
  destruct (allocAcc_inv _ _ _ _ H) as [a [FF K]]. seqi K as c2 s2 Bg d2. inv1 Bg.
  apply negb_false_iff in Eb. apply Z.eqb_eq in Eb. subst a. destruct (pushStk_inv _ _ _ _ K) as [-> [-> _]].
  exists t1. rewrite app_nil_r. split; [exact X1|].
  apply (SIM_push (XAcc 0) (w16 v) (set_acc s1 (put (bsy s1) (Z.to_nat 0) true) (acnt s1 + 1)) _ vs); try reflexivity.
  - exact (wf_flg _ W1).
  - apply SIM_acc. exact S1.
  - split; [exact I|exact G0].
  - apply w16_range.
Qed.

(* ---- arguments, result ---- *)
Lemma SIM_popArg : forall s c s' v rest va m t, flgOk s -> SIM s (v :: rest) va m t ->
  (forall i, In (Some i) (lay s) -> i <> idx s 0) -> popRaw 1 s = Some (c, s') -> c = [] /\ SIM s' rest va m t.
Proof.
  intros s c s' v rest va m t Fo Sm Ni H. destruct (popRaw_inv _ _ _ _ H) as [L [-> ->]]. split; [reflexivity|].
  pose proof (SIM_len _ _ _ _ _ Sm) as Le. simpl in Le.
  destruct Sm as [A B C D E F G K]. destruct (vst s) as [|e l] eqn:V; [discriminate Le|].
  assert (Hi : forall i, In (Some i) (lay s) -> (i < length l)%nat).
  { intros i I. pose proof (bot_lt _ _ _ (E i I)) as Lt. specialize (Ni i I). unfold idx in Ni. rewrite V in Ni. simpl in Ni, Lt. lia. }
  simpl in Le. split; cbn [set_vst set_flg vst lay fcc fv flg skipn]; try assumption.
  - inversion C; assumption.
  - apply (LY_ext (sm t) _ (v :: rest)); [|reflexivity|exact D]. intros i I. symmetry. apply bot_cons. specialize (Hi i I). lia.
  - intros i I. rewrite <- (bot_cons l i e) by auto. auto.
  - inversion G; assumption.
  - intros Fv o x y Fi Ee Ne Ev. apply (K Fv (S o) x y); auto. unfold flg_is in *. cbn [set_vst set_flg vst flg length] in Fi. rewrite V.
    destruct (flg s) as [i|]; [|discriminate]. destruct (Nat.ltb_spec (i + 1) (S (length l))); [|discriminate].
    apply Nat.eqb_eq in Fi. apply Nat.eqb_eq. simpl. lia.
Qed.

Lemma vmArg_SIM : forall s c s' v rest va m t, WF s -> SIM s (v :: rest) va m t -> vmArg true s = Some (c, s') ->
  exists t', Ex c t t' /\ SIM s' rest (v :: va) m t'.
Proof.
  unfold vmArg. intros s c s' v rest va m t Wf Sm H. seqi H as c1 s1 A d1. inv1 A.
  assert (D : (loadStk true 0;; outStkAll true;;
        get (fun s => guard true (match lay s with Some i :: _ => Nat.eqb i (idx s 0) | _ => false end)) ;;
           modify (fun s => set_lay s (None :: List.tl (lay s)))) s = Some (c1, s1) -> exists t', Ex (c1 ++ d1) t t' /\ SIM s' rest (v :: va) m t').
  { intros K. seqi K as k1 u1 L d2. seqi K as k2 u2 O d3. seqi K as k3 u3 Gd d4. inv1 Gd. inv1 Gd. inv1 K. specialize (G eq_refl).
    destruct (loadStk_moves _ _ _ _ _ _ _ _ Wf Sm L) as [t1 [X1 [S1 _]]].
    destruct (loadStk_WF _ _ _ _ _ Wf L) as [W1 _].
    destruct (outStkN_moves 4 _ _ _ _ _ _ _ W1 S1 O) as [t2 [X2 [S2 _]]].
    destruct (outStkN_WF _ _ _ _ _ W1 O) as [W2 _].
    destruct (lay u2) as [|[i|] l] eqn:La; try discriminate G. apply Nat.eqb_eq in G. subst i.
    assert (S3 : SIM (set_lay u2 (None :: l)) (v :: rest) (v :: va) m t2).
    { pose proof (SIM_len _ _ _ _ _ S2) as Le. destruct S2 as [Q1 Q2 Q3 Q4 Q5 Q6 Q7 Q8]. rewrite La in *.
      split; cbn [set_lay vst lay fcc fv flg]; try assumption.
      - cbn [LY] in Q4 |- *. destruct Q4 as [Q4 Q4']. split; [|exact Q4']. unfold idx in Q4. rewrite Le in Q4. rewrite bot_idx in Q4 by (simpl; lia).
        simpl in Q4. congruence.
      - intros i I. apply Q5. destruct I as [I|I]; [discriminate I|right; exact I].
      - simpl in Q6 |- *. inversion Q6; assumption. }
    destruct (SIM_popArg (set_lay u2 (None :: l)) d1 s' v rest (v :: va) m t2 (wf_flg _ W2) S3) as [-> S4].
    - intros i I. cbn [set_lay lay] in I. destruct I as [I|I]; [discriminate I|]. intros ->.
      pose proof (s_nd _ _ _ _ _ S2) as Nd. rewrite La in Nd. simpl in Nd. apply NoDup_cons_iff in Nd. destruct Nd as [Nd _].
      apply Nd. apply filter_In. split; [exact I|reflexivity].
    - exact H.
    - exists t2. rewrite !app_nil_r. split; [exact (Ex_app _ _ _ X1 _ _ X2)|exact S4]. }
  destruct e; try exact (D A). clear D.
  seqi A as k1 u1 O d2. seqi A as k2 u2 Em d3. inv1 Em. inv1 A.
  destruct (outStkN_moves 4 _ _ _ _ _ _ _ Wf Sm O) as [t1 [X1 [S1 _]]].
  destruct (outStkN_WF _ _ _ _ _ Wf O) as [W1 [_ [_ [_ [_ [_ [K1 _]]]]]]].
  pose proof (K1 0%nat _ E eq_refl) as E1.
  pose proof (top_reg _ _ _ _ _ _ _ _ v S1 E1 (or_intror eq_refl) eq_refl) as Gr.
  pose proof (s_sp _ _ _ _ _ S1) as Sp.
  assert (Hm : forall x, sp t1 <= x -> upd (sm t1) (sp t1 - 2) v x = sm t1 x).
  { intros x Hx. unfold upd. destruct (Z.eqb_spec x (sp t1 - 2)); [lia|reflexivity]. }
  assert (Hb : forall x, base <= x -> upd (sm t1) (sp t1 - 2) v x = sm t1 x) by (intros; apply Hm; lia).
  assert (S2 : SIM (set_lay u1 (None :: lay u1)) (v :: rest) (v :: va) m (push M t1 v)).
  { destruct (s_frm _ _ _ _ _ S1) as [Q1 Q2 Q3 Q4 Q5 Q6 Q7]. destruct S1 as [P1 P2 P3 P4 P5 P6 P7 P8].
    split; cbn [set_lay vst lay fcc fv flg]; try assumption.
    - split; simpl; try assumption.
      + intros i I1. rewrite Hb by (unfold base; lia). auto.
      + intros i I1. rewrite Hb by (unfold base; lia). auto.
      + intros x I1 I2 I3. rewrite Hb by assumption. auto.
    - cbn [length]. rewrite Nat2Z.inj_succ. change (sp (push M t1 v)) with (sp t1 - 2). lia.
    - apply (Forall2_change (den (fcc u1) t1)); [exact P3|]. intros o x y X Y Dn. apply (den_sm _ t1); try reflexivity; auto.
    - cbn [LY]. change (sp (push M t1 v)) with (sp t1 - 2). change (sm (push M t1 v)) with (upd (sm t1) (sp t1 - 2) v). split.
      + unfold upd. rewrite Z.eqb_refl. reflexivity.
      + replace (sp t1 - 2 + 2) with (sp t1) by lia. apply (LY_ext (sm t1) _ (v :: rest) (v :: rest)); [reflexivity| |exact P4].
        intros x X. apply Hm. lia.
    - intros i I. apply P5. destruct I as [I|I]; [discriminate I|exact I]. }
  destruct (SIM_popArg (set_lay u1 (None :: lay u1)) d1 s' v rest (v :: va) m (push M t1 v) (wf_flg _ W1) S2) as [-> S4].
  - intros i I. cbn [set_lay lay] in I. destruct I as [I|I]; [discriminate I|]. intros ->.
    pose proof (s_wl _ _ _ _ _ S1 _ I) as B. unfold idx in B. cbn [set_lay vst] in B. rewrite bot_idx in B by exact (nth_error_lt _ _ _ E1).
    rewrite E1 in B. discriminate B.
  - exact H.
  - exists (push M t1 v). rewrite !app_nil_r. split; [|exact S4]. apply (Ex_app _ _ _ X1). apply Ex1. simpl. rewrite Gr. reflexivity.
Qed.

Lemma vmMReg_SIM : forall s c s' v rest va m t, WF s -> SIM s (v :: rest) va m t -> vmMReg true s = Some (c, s') ->
  exists t', Ex c t t' /\ SIM s' rest va m t' /\ gr t' 0 = v /\ rest = [].
Proof.
  unfold vmMReg. intros s c s' v rest va m t Wf Sm H. seqi H as c1 s1 A d1. seqi H as c2 s2 Gd d2. inv1 Gd. inv1 Gd. specialize (G eq_refl).
  apply Nat.eqb_eq in G. seqi H as c3 s3 Re d3. destruct (relEnt_inv _ _ _ _ Re) as [e1 [b [k [_ [-> [-> _]]]]]]. inv1 A.
  assert (K : (e = XAcc 0 /\ c1 = [] /\ s1 = s) \/ loadReg true 0 0 s = Some (c1, s1)).
  { destruct e; auto. destruct (Z.eqb_spec r 0) as [->|]; [inv1 A; auto|auto]. }
  clear A.
  assert (V1 : vst s1 = vst s /\ flg s1 = flg s /\ fcc s1 = fcc s).
  { destruct K as [[_ [_ ->]]|K]; [auto|]. destruct (loadReg_same _ _ _ _ _ _ K) as [X1 [_ [_ [X2 [X3 _]]]]]. auto. }
  destruct V1 as [V1 [F1 C1]].
  assert (Rs : rest = []).
  { pose proof (SIM_len _ _ _ _ _ Sm) as Le. rewrite <- V1, G in Le. destruct rest; [reflexivity|discriminate Le]. }
  assert (S1 : exists t1, Ex c1 t t1 /\ SIM (set_vst s1 (put (vst s) 0 (XAcc 0))) (v :: rest) va m t1).
  { destruct K as [[-> [-> ->]]|K].
    - exists t. split; [apply Ex_nil|]. assert (Q : set_vst s (put (vst s) 0 (XAcc 0)) = s).
      { destruct s as [xb xa xv xf xc xt xr xr' xl xw]. simpl in E |- *. destruct xv as [|x l]; [discriminate E|]. injection E as ->. reflexivity. }
      rewrite Q. exact Sm.
    - destruct (load_SIM s (v :: rest) va m t 0%nat 0 c1 s1 (set_vst s1 (put (vst s) 0 (XAcc 0))) Sm (wf_ent _ Wf) ltac:(lia)) as [t1 [X1 [Q1 _]]]; auto.
      + intros j e' Dj Ej. pose proof (nth_error_lt _ _ _ Ej) as Lt. rewrite <- V1, G in Lt. lia.
      + exists t1. auto. }
  destruct S1 as [t1 [X1 S1]].
  assert (E1 : nth_error (put (vst s) 0 (XAcc 0)) 0 = Some (XAcc 0)) by exact (put_same (vst s) 0 (XAcc 0) (nth_error_lt _ _ _ E)).
  exists t1. destruct (popRaw_inv _ _ _ _ H) as [_ [-> ->]]. rewrite !app_nil_r. split; [exact X1|split; [|split; [|exact Rs]]].
  - assert (Fo : flgOk (set_vst (set_acc s1 b k) (put (vst s) 0 (XAcc 0)))).
    { split; cbn [set_vst set_acc vst flg].
      - intros i I. rewrite put_length. apply (proj1 (wf_flg _ Wf)). congruence.
      - intros o r X. exfalso. pose proof (nth_error_lt _ _ _ X) as Lt. rewrite put_length, <- V1, G in Lt.
        destruct o; [|lia]. assert (X' : Some (XAcc 0) = Some (XFlg r)) by (rewrite <- E1; exact X). discriminate X'. }
    assert (Pp : popRaw 1 (set_vst (set_acc s1 b k) (put (vst s) 0 (XAcc 0))) = Some ([],
      set_vst (set_flg (set_acc s1 b k) (match flg s1 with Some i => if Nat.ltb (i + 1) (length (vst s1)) then Some i else None | None => None end))
         (skipn 1 (put (vst s) 0 (XAcc 0))))).
    { unfold popRaw, get, andThen, bug, modify, skip, emit. cbn [set_vst set_acc vst flg]. rewrite put_length. rewrite <- V1, G.
      change (1 <? 1)%nat with false. cbv beta iota. cbn [set_vst set_acc vst flg app]. rewrite put_length, G. reflexivity. }
    assert (Ni : forall i, In (Some i) (lay (set_vst (set_acc s1 b k) (put (vst s) 0 (XAcc 0)))) -> i <> idx (set_vst (set_acc s1 b k) (put (vst s) 0 (XAcc 0))) 0).
    { intros i I ->. pose proof (s_wl _ _ _ _ _ S1 _ I) as B. unfold idx in B. cbn [set_vst set_acc vst] in B.
      rewrite bot_idx in B by (rewrite put_length; exact (nth_error_lt _ _ _ E)). assert (X' : Some (XAcc 0) = Some XStk) by (rewrite <- E1; exact B). discriminate X'. }
    destruct (SIM_popArg _ _ _ v rest va m t1 Fo (SIM_acc _ _ _ _ _ b k S1) Ni Pp) as [_ S2].
    assert (Q : skipn 1 (put (vst s) 0 (XAcc 0)) = skipn 1 (vst s1)) by (rewrite V1; destruct (vst s); reflexivity).
    rewrite Q in S2. exact S2.
  - exact (top_reg _ _ _ _ _ 0%nat _ 0 v S1 E1 (or_introl eq_refl) eq_refl).
Qed.
(* ---- one instruction that does not jump ---- *)
Definition straight (i : instr) : bool :=
  match i with
  | IJmp _ | IJT _ | IJF _ | IEntry _ | IEntryK _ | IEntryI _ | IRet | IRetI => false
  | _ => true
  end.
Lemma straight_SIM : forall i s c s' P k vs va r m vs' va' r' m' k' t,
  straight i = true -> WF s -> SIM s vs va m t -> vm true ord depth np (VI i) s = Some (c, s') ->
  nth_error P k = Some i -> step M P (Cfg k vs va r m) = Some (Cfg k' vs' va' r' m') -> fineI i vs ->
  k' = S k /\ exists t', Ex c t t' /\ SIM s' vs' va' m' t' /\
    ((i <> IMReg /\ r' = r) \/ (i = IMReg /\ r' = Some (gr t' 0))).
Proof.
  intros i s c s' P k vs va r m vs' va' r' m' k' t St Wf Sm H Hk Hs Fi.
  unfold step in Hs. rewrite Hk in Hs. clear Hk.
  assert (Pu : forall e v, den (fcc s) t e v -> is_word v -> pushStk e s = Some (c, s') ->
     exists t', Ex c t t' /\ SIM s' (v :: vs) va m t' /\ (i <> IMReg /\ r = r \/ i = IMReg /\ r = Some (gr t' 0)) \/ i = IMReg).
  { intros e v De Wv Hp. destruct (pushStk_SIM _ _ _ _ _ _ _ _ _ Wf Sm De Wv Hp) as [-> S1].
    exists t. destruct i; try (right; reflexivity); left; (split; [apply Ex_nil|split; [exact S1|left; split; [discriminate|reflexivity]]]). }
  destruct i; try discriminate St; cbn [vm] in H.
  - (* ILab *) injection Hs as <- <- <- <- <-. split; [reflexivity|]. seqi H as c1 s1 A d1. inv1 A. inv1 A. seqi H as c2 s2 B d2. inv1 B. inv1 H.
    exists t. split; [apply Ex1; reflexivity|split; [|left; split; [discriminate|reflexivity]]]. apply SIM_fv. exact Sm.
  - (* ILdCns *) injection Hs as <- <- <- <- <-. split; [reflexivity|].
    destruct (Pu _ _ (den_cns _ _ _) (w16_range _) H) as [t1 [K|K]]; [exists t1; exact K|discriminate K].
  - (* ILdGlb *) injection Hs as <- <- <- <- <-. split; [reflexivity|].
    assert (D : den (fcc s) t (XGlb i) (w16 (ldg M (gs m) i))).
    { split; [exact I|]. simpl. rewrite (f_g _ _ (s_frm _ _ _ _ _ Sm)). reflexivity. }
    destruct (Pu _ _ D (w16_range _) H) as [t1 [K|K]]; [exists t1; exact K|discriminate K].
  - (* ILdLoc *) rewrite (fl_lcl _ Hfl) in Hs. injection Hs as <- <- <- <- <-. split; [reflexivity|]. destruct (vmLdLoc_SIM _ _ _ _ _ _ _ _ Wf Sm H) as [-> S1].
    exists t. split; [apply Ex_nil|split; [exact S1|left; split; [discriminate|reflexivity]]].
  - (* ILdPrm *) rewrite (fl_pcl _ Hfl) in Hs. injection Hs as <- <- <- <- <-. split; [reflexivity|]. destruct (vmLdPrm_SIM _ _ _ _ _ _ _ _ Wf Sm H) as [-> S1].
    exists t. split; [apply Ex_nil|split; [exact S1|left; split; [discriminate|reflexivity]]].
  - (* ILdLab *) injection Hs as <- <- <- <- <-. split; [reflexivity|].
    destruct (Pu (XLab l) (w16 (lab M l)) (conj I eq_refl) (w16_range _) H) as [t1 [K|K]]; [exists t1; exact K|discriminate K].
  - (* ILdNam *) injection Hs as <- <- <- <- <-. split; [reflexivity|].
    destruct (Pu (XNam i) (w16 (adr M i)) (conj I eq_refl) (w16_range _) H) as [t1 [K|K]]; [exists t1; exact K|discriminate K].
  - (* ILdWrd *) destruct vs as [|v0 [|v1 rest]]; try discriminate Hs. injection Hs as <- <- <- <- <-. split; [reflexivity|].
    destruct (vmLdWrd_SIM _ _ _ _ _ _ _ _ _ Wf Sm H) as [t1 [r1 [X1 [S1 _]]]].
    exists t1. split; [exact X1|split; [exact S1|left; split; [discriminate|reflexivity]]].
  - (* ILdByt *) destruct vs as [|v0 [|v1 rest]]; try discriminate Hs. injection Hs as <- <- <- <- <-. split; [reflexivity|].
    destruct (vmLdByt_SIM _ _ _ _ _ _ _ _ _ Wf Sm H) as [t1 [r1 [X1 [S1 _]]]].
    exists t1. split; [exact X1|split; [exact S1|left; split; [discriminate|reflexivity]]].
  - (* IStGlb *) destruct vs as [|v0 rest]; try discriminate Hs. injection Hs as <- <- <- <- <-. split; [reflexivity|].
    destruct (vmStGlb_SIM _ _ _ _ _ _ _ _ _ Wf Sm H) as [t1 [X1 S1]].
    exists t1. split; [exact X1|split; [exact S1|left; split; [discriminate|reflexivity]]].
  - (* IStLoc *) destruct vs as [|v0 rest]; try discriminate Hs. rewrite (fl_lcl _ Hfl) in Hs. injection Hs as <- <- <- <- <-. split; [reflexivity|].
    destruct (vmStLoc_SIM _ _ _ _ _ _ _ _ _ Wf Sm H) as [t1 [X1 S1]].
    exists t1. split; [exact X1|split; [exact S1|left; split; [discriminate|reflexivity]]].
  - (* IStPrm *) destruct vs as [|v0 rest]; try discriminate Hs. rewrite (fl_pcl _ Hfl) in Hs. injection Hs as <- <- <- <- <-. split; [reflexivity|].
    destruct (vmStPrm_SIM _ _ _ _ _ _ _ _ _ Wf Sm H) as [t1 [X1 S1]].
    exists t1. split; [exact X1|split; [exact S1|left; split; [discriminate|reflexivity]]].
  - (* IStWrd *) destruct vs as [|v0 [|v1 [|v2 rest]]]; try discriminate Hs. injection Hs as <- <- <- <- <-. split; [reflexivity|].
    destruct (vmStWrd_SIM _ _ _ _ _ _ _ _ _ _ Wf Sm H) as [t1 [X1 S1]].
    exists t1. split; [exact X1|split; [exact S1|left; split; [discriminate|reflexivity]]].
  - (* IStByt *) destruct vs as [|v0 [|v1 [|v2 rest]]]; try discriminate Hs. injection Hs as <- <- <- <- <-. split; [reflexivity|].
    destruct (vmStByt_SIM _ _ _ _ _ _ _ _ _ _ Wf Sm H) as [t1 [X1 S1]].
    exists t1. split; [exact X1|split; [exact S1|left; split; [discriminate|reflexivity]]].
  - (* IUn *) destruct vs as [|v0 rest]; try discriminate Hs. injection Hs as <- <- <- <- <-. split; [reflexivity|].
    destruct (vmUn_SIM _ _ _ _ _ _ _ _ _ Wf Sm H Fi) as [t1 [X1 S1]].
    exists t1. split; [exact X1|split; [exact S1|left; split; [discriminate|reflexivity]]].
  - (* IBin *) destruct vs as [|v0 [|v1 rest]]; try discriminate Hs. destruct (op2_val o v1 v0) as [w|] eqn:Ow; [|discriminate Hs].
    injection Hs as <- <- <- <- <-. split; [reflexivity|].
    destruct (vmBin_SIM _ _ _ _ _ _ _ _ _ _ _ Wf Sm H Ow Fi) as [t1 [X1 S1]].
    exists t1. split; [exact X1|split; [exact S1|left; split; [discriminate|reflexivity]]].
  - (* IPop *) destruct vs as [|v0 rest]; try discriminate Hs. injection Hs as <- <- <- <- <-. split; [reflexivity|].
    destruct (SIM_relpop _ _ _ _ _ _ _ Wf Sm H) as [-> S1].
    exists t. split; [apply Ex_nil|split; [exact S1|left; split; [discriminate|reflexivity]]].
  - (* IArg *) destruct vs as [|v0 rest]; try discriminate Hs. injection Hs as <- <- <- <- <-. split; [reflexivity|].
    destruct (vmArg_SIM _ _ _ _ _ _ _ _ Wf Sm H) as [t1 [X1 S1]].
    exists t1. split; [exact X1|split; [exact S1|left; split; [discriminate|reflexivity]]].
  - (* ICallF *) destruct (call M f (firstn n va) (gs m)) as [[v g]|] eqn:Ca; [|discriminate Hs]. injection Hs as <- <- <- <- <-. split; [reflexivity|].
    destruct (vmCallF_SIM _ _ _ _ _ _ _ _ _ _ _ Wf Sm H Ca) as [t1 [X1 S1]].
    exists t1. split; [exact X1|split; [exact S1|left; split; [discriminate|reflexivity]]].
  - (* ICallP *) destruct (call M f (firstn n va) (gs m)) as [[v g]|] eqn:Ca; [|discriminate Hs]. injection Hs as <- <- <- <- <-. split; [reflexivity|].
    destruct (callF_SIM _ _ _ _ _ _ _ _ _ _ _ Wf Sm H Ca) as [t1 [X1 [S1 _]]].
    exists t1. split; [exact X1|split; [exact S1|left; split; [discriminate|reflexivity]]].
  - (* IMReg *) destruct vs as [|v0 rest]; try discriminate Hs. injection Hs as <- <- <- <- <-. split; [reflexivity|].
    destruct (vmMReg_SIM _ _ _ _ _ _ _ _ Wf Sm H) as [t1 [X1 [S1 [G1 _]]]].
    exists t1. split; [exact X1|split; [exact S1|right; split; [reflexivity|rewrite G1; reflexivity]]].
Qed.

(* ---- jumps on the top of the stack ---- *)
Lemma holds_neg : forall k z l, holds (negJcc k) z l = negb (holds k z l).
Proof. intros [] [] []; reflexivity. Qed.
Lemma b2w_zero : forall b, (b2w b =? 0) = negb b.
Proof. intros []; reflexivity. Qed.

Lemma boolJmp_SIM : forall tf l s c s' v rest va m t, WF s -> SIM s (v :: rest) va m t ->
  boolJmp true tf l s = Some (c, s') ->
  exists c0 k t', c = c0 ++ [TJcc k (LbL l)] /\ Ex c0 t t' /\ SIM s' rest va m t' /\
    holds k (zf t') (lf t') = (if tf then negb (v =? 0) else (v =? 0)).
Proof.
  unfold boolJmp. intros tf l s c s' v rest va m t Wf Sm H. seqi H as c1 s1 A c2.
  inv1 A. destruct (SIM_val _ _ _ _ _ _ _ Sm E) as [u [Vu [De Wu]]]. injection Vu as <-.
  assert (Nf : (exists q, e = XFlg q) \/ isFlg e = false).
  { destruct e; auto. left. eauto. }
  destruct Nf as [[q ->]|Nf].
  - unfold get in A. cbv beta in A. seqi A as b1 s2 Bu b2. inv1 Bu. inv1 A.
    destruct (SIM_relpop _ _ _ _ _ _ _ Wf Sm H) as [-> S1]. cbn [skipn] in S1.
    eexists [], _, t. split; [reflexivity|split; [apply Ex_nil|split; [exact S1|]]].
    destruct De as [_ De]. simpl in De. specialize (De eq_refl). rewrite De, b2w_zero.
    destruct tf; [rewrite negb_involutive; reflexivity|apply holds_neg].
  - assert (K : exists cc0 sb, (if flg_is s 0 then guard true (fv s) else
        clearFlg ;;
        ent_at 0 (fun e => if isReg e then skip else loadStk true 0) ;;
        ent_at 0 (fun e => regOf e (fun r => emit [TCmp r (OImm 0)]))) s = Some (cc0, sb) /\
        c1 = cc0 ++ [TJcc (if tf then JNZ else JEQ) (LbL l)] /\ s1 = sb).
    { destruct e; try discriminate Nf; (seqi A as b1 s2 Bu b2; inv1 A; exists b1, s2; split; [exact Bu|split; reflexivity]). }
    clear A. destruct K as [cc0 [sb [K [-> ->]]]].
    assert (Hol : forall t1 : mst, zf t1 = (v =? 0) -> holds (if tf then JNZ else JEQ) (zf t1) (lf t1) = (if tf then negb (v =? 0) else (v =? 0))).
    { intros t1 ->. destruct tf; reflexivity. }
    destruct (flg_is s 0) eqn:Fi.
    + inv1 K. specialize (G eq_refl).
      destruct (SIM_relpop _ _ _ _ _ _ _ Wf Sm H) as [-> S1]. cbn [skipn] in S1.
      eexists [], _, t. split; [reflexivity|split; [apply Ex_nil|split; [exact S1|]]].
      apply Hol. exact (proj1 (s_flag _ _ _ _ _ Sm G 0%nat e v Fi E Nf eq_refl)).
    + seqi K as k1 s2 Cl k2. seqi K as k3 s3 Lt k4.
      destruct (clearFlg_SIM _ _ _ _ _ _ _ Wf (SIM_fv _ _ _ _ _ Sm) Cl) as [t1 [X1 [S1 _]]].
      destruct (clearFlg_WF _ _ _ Wf Cl) as [W1 [N1 _]]. destruct (clearFlg_inv _ _ _ Wf Cl) as [F1 _].
      destruct (loadTop_moves 0 _ _ _ _ _ _ _ W1 S1 Lt) as [t2 [X2 [S2 _]]].
      destruct (loadTop_WF _ _ _ _ _ W1 Lt) as [W2 [_ [[e2 [r [E2 Er]]] [N2 [F2 _]]]]].
      inv1 K. inv2 K. inv1 K. rewrite E2 in E0. injection E0 as <-.
      assert (Rr : r0 = r) by (destruct Er as [-> | ->]; injection R as ->; reflexivity). subst r0.
      pose proof (top_reg _ _ _ _ _ 0%nat e2 r v S2 E2 Er eq_refl) as Gr.
      assert (S3 : SIM s3 (v :: rest) va m (setf M t2 (gr t2 r =? 0) (sval (gr t2 r) <? sval 0))).
      { apply SIM_setf; [exact (N2 N1)|congruence|exact S2]. }
      destruct (SIM_relpop _ _ _ _ _ _ _ W2 S3 H) as [-> S4]. cbn [skipn] in S4.
      eexists (k1 ++ k3 ++ [TCmp r (OImm 0)]), _, _. split; [|split; [|split; [exact S4|]]].
      * rewrite app_nil_r. reflexivity.
      * apply (Ex_app _ _ _ X1). apply (Ex_app _ _ _ X2). apply Ex1. reflexivity.
      * apply Hol. cbn [setf zf]. rewrite Gr. reflexivity.
Qed.

(* an accumulator no entry uses takes a constant *)
Lemma SIM_const : forall s s' a x vs va m t, WF s' -> SIM s vs va m t -> noFlg s' ->
  vst s' = XAcc a :: vst s -> lay s' = lay s -> fv s' = false ->
  SIM s' (w16 x :: vs) va m (setr M t a (w16 x)).
Proof.
  intros s s' a x vs va m t Wf Sm Nf V L Fv. pose proof (SIM_len _ _ _ _ _ Sm) as Le.
  assert (Ra : 0 <= a < 3) by (apply (WF_acc_range s' 0 (XAcc a)); [exact Wf|rewrite V; reflexivity|reflexivity]).
  assert (Hi : forall i, In (Some i) (lay s) -> (i < length (vst s))%nat).
  { intros i I. exact (bot_lt _ _ _ (s_wl _ _ _ _ _ Sm i I)). }
  destruct Sm as [A B C D E F G K]. split.
  - apply FRM_acc; assumption.
  - rewrite L. exact B.
  - rewrite V. constructor.
    + split; [exact I|]. simpl. unfold upd. rewrite Z.eqb_refl. reflexivity.
    + apply (Forall2_change (den (fcc s) t)); [exact C|]. intros o e v Oe Ov De.
      assert (Os : nth_error (vst s') (S o) = Some e) by (rewrite V; exact Oe).
      assert (Fe : isFlg e = false) by exact (noFlg_nth s' _ _ Nf Os).
      apply den_acc; [exact Ra| | |exact (den_cc (fcc s) _ _ _ _ Fe De)].
      * apply (excl s' 0 (XAcc a) a Wf) with (k := S o); [rewrite V; reflexivity|reflexivity|discriminate|exact Os].
      * pose proof (wf_ent _ Wf) as W0. rewrite Forall_forall in W0. exact (W0 _ (nth_error_In _ _ Os)).
  - rewrite L. cbn [setr sm sp]. apply (LY_ext (sm t) _ vs); [|reflexivity|exact D]. intros i I. apply bot_cons. rewrite <- Le. auto.
  - intros i I. rewrite L in I. rewrite V. rewrite bot_cons by auto. auto.
  - rewrite L. exact F.
  - constructor; [apply w16_range|exact G].
  - intros X. congruence.
Qed.

(* ---- the macro instructions ---- *)
Lemma treaches_pre : forall p k t t1 c, tstep M Hw p (TCfg k t) = Some (TCfg (S k) t1) ->
  treaches M Hw p (TCfg (S k) t1) c -> treaches M Hw p (TCfg k t) c.
Proof. intros p k t t1 c A B. exact (treaches_step _ _ _ _ A B). Qed.

(* code [mid] standing in a program after [pre] *)
Lemma at_mid : forall (pre mid post : list tin) j i, nth_error mid j = Some i ->
  nth_error (pre ++ mid ++ post) (length pre + j) = Some i.
Proof.
  intros pre mid post j i H. rewrite nth_error_app2 by lia. replace (length pre + j - length pre)%nat with j by lia.
  rewrite nth_error_app1 by exact (nth_error_lt _ _ _ H). exact H.
Qed.
Lemma find_mid : forall (pre mid post : list tin) j l, nth_error mid j = Some (TLab l) ->
  NoDup (tdefs (pre ++ mid ++ post)) -> tfind l (pre ++ mid ++ post) = Some (length pre + j)%nat.
Proof.
  intros pre mid post j l H N. pose proof (nth_error_split _ _ H) as [a [b [-> Lj]]]. subst j.
  assert (Q : pre ++ (a ++ TLab l :: b) ++ post = (pre ++ a) ++ TLab l :: (b ++ post)) by (rewrite <- !app_assoc; reflexivity).
  rewrite Q in *. rewrite tfind_unique by exact N. rewrite app_length. reflexivity.
Qed.
Lemma run_ld : forall pre mid post j r c t, nth_error mid j = Some (TLd r (OImm c)) ->
  tstep M Hw (pre ++ mid ++ post) (TCfg (length pre + j) t) = Some (TCfg (length pre + S j) (setr M t r (w16 c))).
Proof. intros. unfold tstep. simpl tpc. rewrite (at_mid _ _ _ _ _ H). simpl. f_equal. f_equal. lia. Qed.
Lemma run_lab : forall pre mid post j l t, nth_error mid j = Some (TLab l) ->
  tstep M Hw (pre ++ mid ++ post) (TCfg (length pre + j) t) = Some (TCfg (length pre + S j) t).
Proof. intros. unfold tstep. simpl tpc. rewrite (at_mid _ _ _ _ _ H). simpl. f_equal. f_equal. lia. Qed.
Lemma run_jmp : forall pre mid post j l k t, nth_error mid j = Some (TJmp l) -> nth_error mid k = Some (TLab l) ->
  NoDup (tdefs (pre ++ mid ++ post)) ->
  tstep M Hw (pre ++ mid ++ post) (TCfg (length pre + j) t) = Some (TCfg (length pre + k) t).
Proof. intros. unfold tstep. simpl tpc. rewrite (at_mid _ _ _ _ _ H). simpl. unfold tgoto. rewrite (find_mid _ _ _ _ _ H0 H1). reflexivity. Qed.
Lemma run_jcc : forall pre mid post j q l k t, nth_error mid j = Some (TJcc q l) -> nth_error mid k = Some (TLab l) ->
  NoDup (tdefs (pre ++ mid ++ post)) ->
  tstep M Hw (pre ++ mid ++ post) (TCfg (length pre + j) t) =
    Some (TCfg (length pre + (if holds q (zf t) (lf t) then k else S j)) t).
Proof.
  intros. unfold tstep. simpl tpc. rewrite (at_mid _ _ _ _ _ H). simpl. destruct (holds q (zf t) (lf t)).
  - unfold tgoto. rewrite (find_mid _ _ _ _ _ H0 H1). reflexivity.
  - f_equal. f_equal. lia.
Qed.

(* the three forms of the code; [c0] loads the operand *)
Definition macroA (c0 : list tin) (a x l1 l2 l3 : Z) : list tin :=
  c0 ++ [TJmp (LbL l3); TLab (LbL l1); TLd a (OImm x)]
     ++ (if l2 =? -1 then [] else [TJmp (LbL l3); TLab (LbL l2); TLd a (OImm (1 - x))])
     ++ [TLab (LbL l3)].
Definition macroB (q : cc) (a x l1 l2 l3 : Z) : list tin :=
  if l2 =? -1 then
    [TLd a (OImm (1 - x)); TJcc q (LbL l3); TLab (LbL l1); TLd a (OImm x); TLab (LbL l3)]
  else
    [TJcc q (LbL l2); TLab (LbL l1); TLd a (OImm x); TJmp (LbL l3);
     TLab (LbL l2); TLd a (OImm (1 - x)); TLab (LbL l3)].

Lemma vmBool_inv : forall x l1 l2 l3 s c s', WF s -> vmBool true x l1 l2 l3 s = Some (c, s') ->
  fv s' = false /\ noFlg s' /\ exists a,
  nth_error (vst s') 0 = Some (XAcc a) /\
  ((exists c0 s0, loadStk true 0 s = Some (c0, s0) /\ s' = set_fv s0 false /\ c = macroA c0 a x l1 l2 l3)
   \/ (nth_error (vst s) 0 = Some (XFlg a) /\ flg_is s 0 = true /\ s' = set_fv (set_vst s (put (vst s) 0 (XAcc a))) false /\
       c = macroB (if x =? 1 then negJcc (fcc s) else fcc s) a x l1 l2 l3)).
Proof.
  unfold vmBool. intros x l1 l2 l3 s c s' Wf H. seqi H as c1 s1 A c2. seqi H as c3 s3 Gd c4. inv1 Gd. inv1 Gd. inv1 H.
  specialize (G eq_refl). apply negb_true_iff in G. apply noFlg_exists in G.
  split; [reflexivity|]. split; [exact G|]. rewrite !app_nil_r. cbn [set_fv vst]. inv1 A.
  assert (Nf : (exists q, e = XFlg q) \/ isFlg e = false).
  { destruct e; auto. left. eauto. }
  destruct Nf as [[q ->]|Nf].
  - exists q. unfold get in A. cbv beta zeta in A. seqi A as b1 s2 Em b2. inv1 Em. seqi A as b3 s3 Gd b4. inv1 Gd. inv1 A. specialize (G0 eq_refl).
    cbn [set_vst vst]. split; [exact (put_same (vst s) 0 (XAcc q) (nth_error_lt _ _ _ E))|]. right.
    split; [exact E|split; [exact G0|split; [reflexivity|]]]. rewrite !app_nil_r. unfold macroB. reflexivity.
  - assert (K : exists c0 s0 a, loadStk true 0 s = Some (c0, s0) /\ s1 = s0 /\ nth_error (vst s0) 0 = Some (XAcc a) /\ c1 = macroA c0 a x l1 l2 l3).
    { destruct e; try discriminate Nf; (seqi A as b1 s2 Ls b2; inv1 A; inv2 A; inv1 A;
        destruct (loadStk_WF _ _ _ _ _ Wf Ls) as [_ [_ [[a Ea] _]]]; rewrite Ea in E0; injection E0 as <-; injection R as <-;
        exists b1, s2, a; split; [exact Ls|split; [reflexivity|split; [exact Ea|reflexivity]]]). }
    destruct K as [c0 [s0 [a [Ls [-> [Ea ->]]]]]]. exists a. split; [exact Ea|]. left. exists c0, s0. auto.
Qed.

Definition macTail (a x l1 l2 l3 : Z) : list tin :=
  [TJmp (LbL l3); TLab (LbL l1); TLd a (OImm x)]
   ++ (if l2 =? -1 then [] else [TJmp (LbL l3); TLab (LbL l2); TLd a (OImm (1 - x))])
   ++ [TLab (LbL l3)].

Ltac stp X := match goal with
  | |- treaches _ _ ?p (TCfg ?k ?t) _ =>
      let e := fresh "e" in
      eapply (treaches_step p (TCfg k t)); [exact X|]
  end.
Ltac done_at := match goal with
  | |- treaches _ _ _ (TCfg ?k ?t) (TCfg ?k' ?t') => replace k with k' by (rewrite ?app_length; simpl; lia); apply treaches_refl
  end.

Lemma macTail_l1 : forall a x l1 l2 l3 pre post t, NoDup (tdefs (pre ++ macTail a x l1 l2 l3 ++ post)) ->
  tfind (LbL l1) (pre ++ macTail a x l1 l2 l3 ++ post) = Some (length pre + 1)%nat /\
  treaches M Hw (pre ++ macTail a x l1 l2 l3 ++ post) (TCfg (length pre + 1) t)
    (TCfg (length pre + length (macTail a x l1 l2 l3)) (setr M t a (w16 x))).
Proof.
  unfold macTail. intros a x l1 l2 l3 pre post t N. split; [apply find_mid; [reflexivity|exact N]|].
  destruct (l2 =? -1).
  - set (mid := [TJmp (LbL l3); TLab (LbL l1); TLd a (OImm x)] ++ [] ++ [TLab (LbL l3)]) in *.
    stp (run_lab pre mid post 1 (LbL l1) t eq_refl). stp (run_ld pre mid post 2 a x t eq_refl).
    stp (run_lab pre mid post 3 (LbL l3) (setr M t a (w16 x)) eq_refl). done_at.
  - set (mid := [TJmp (LbL l3); TLab (LbL l1); TLd a (OImm x)] ++ [TJmp (LbL l3); TLab (LbL l2); TLd a (OImm (1 - x))] ++ [TLab (LbL l3)]) in *.
    stp (run_lab pre mid post 1 (LbL l1) t eq_refl). stp (run_ld pre mid post 2 a x t eq_refl).
    stp (run_jmp pre mid post 3 (LbL l3) 6 (setr M t a (w16 x)) eq_refl eq_refl N).
    stp (run_lab pre mid post 6 (LbL l3) (setr M t a (w16 x)) eq_refl). done_at.
Qed.
Lemma macTail_l2 : forall a x l1 l2 l3 pre post t, l2 <> -1 -> NoDup (tdefs (pre ++ macTail a x l1 l2 l3 ++ post)) ->
  tfind (LbL l2) (pre ++ macTail a x l1 l2 l3 ++ post) = Some (length pre + 4)%nat /\
  treaches M Hw (pre ++ macTail a x l1 l2 l3 ++ post) (TCfg (length pre + 4) t)
    (TCfg (length pre + length (macTail a x l1 l2 l3)) (setr M t a (w16 (1 - x)))).
Proof.
  unfold macTail. intros a x l1 l2 l3 pre post t D N. destruct (Z.eqb_spec l2 (-1)); [contradiction|].
  split; [apply find_mid; [reflexivity|exact N]|].
    set (mid := [TJmp (LbL l3); TLab (LbL l1); TLd a (OImm x)] ++ [TJmp (LbL l3); TLab (LbL l2); TLd a (OImm (1 - x))] ++ [TLab (LbL l3)]) in *.
    stp (run_lab pre mid post 4 (LbL l2) t eq_refl). stp (run_ld pre mid post 5 a (1 - x) t eq_refl).
    stp (run_lab pre mid post 6 (LbL l3) (setr M t a (w16 (1 - x))) eq_refl). done_at.
Qed.
Lemma macTail_fall : forall a x l1 l2 l3 pre post t, NoDup (tdefs (pre ++ macTail a x l1 l2 l3 ++ post)) ->
  treaches M Hw (pre ++ macTail a x l1 l2 l3 ++ post) (TCfg (length pre) t)
    (TCfg (length pre + length (macTail a x l1 l2 l3)) t).
Proof.
  unfold macTail. intros a x l1 l2 l3 pre post t N. replace (TCfg (length pre) t) with (TCfg (length pre + 0) t) by (rewrite Nat.add_0_r; reflexivity).
  destruct (l2 =? -1).
  - set (mid := [TJmp (LbL l3); TLab (LbL l1); TLd a (OImm x)] ++ [] ++ [TLab (LbL l3)]) in *.
    stp (run_jmp pre mid post 0 (LbL l3) 3 t eq_refl eq_refl N). stp (run_lab pre mid post 3 (LbL l3) t eq_refl). done_at.
  - set (mid := [TJmp (LbL l3); TLab (LbL l1); TLd a (OImm x)] ++ [TJmp (LbL l3); TLab (LbL l2); TLd a (OImm (1 - x))] ++ [TLab (LbL l3)]) in *.
    stp (run_jmp pre mid post 0 (LbL l3) 6 t eq_refl eq_refl N). stp (run_lab pre mid post 6 (LbL l3) t eq_refl). done_at.
Qed.

Lemma macroB_l1 : forall q a x l1 l2 l3 pre post t, NoDup (tdefs (pre ++ macroB q a x l1 l2 l3 ++ post)) ->
  exists j, tfind (LbL l1) (pre ++ macroB q a x l1 l2 l3 ++ post) = Some j /\
  treaches M Hw (pre ++ macroB q a x l1 l2 l3 ++ post) (TCfg j t)
    (TCfg (length pre + length (macroB q a x l1 l2 l3)) (setr M t a (w16 x))).
Proof.
  unfold macroB. intros q a x l1 l2 l3 pre post t N. destruct (l2 =? -1).
  - set (mid := [TLd a (OImm (1 - x)); TJcc q (LbL l3); TLab (LbL l1); TLd a (OImm x); TLab (LbL l3)]) in *.
    exists (length pre + 2)%nat. split; [apply find_mid; [reflexivity|exact N]|].
    stp (run_lab pre mid post 2 (LbL l1) t eq_refl). stp (run_ld pre mid post 3 a x t eq_refl).
    stp (run_lab pre mid post 4 (LbL l3) (setr M t a (w16 x)) eq_refl). done_at.
  - set (mid := [TJcc q (LbL l2); TLab (LbL l1); TLd a (OImm x); TJmp (LbL l3); TLab (LbL l2); TLd a (OImm (1 - x)); TLab (LbL l3)]) in *.
    exists (length pre + 1)%nat. split; [apply find_mid; [reflexivity|exact N]|].
    stp (run_lab pre mid post 1 (LbL l1) t eq_refl). stp (run_ld pre mid post 2 a x t eq_refl).
    stp (run_jmp pre mid post 3 (LbL l3) 6 (setr M t a (w16 x)) eq_refl eq_refl N).
    stp (run_lab pre mid post 6 (LbL l3) (setr M t a (w16 x)) eq_refl). done_at.
Qed.
Lemma macroB_l2 : forall q a x l1 l2 l3 pre post t, l2 <> -1 -> NoDup (tdefs (pre ++ macroB q a x l1 l2 l3 ++ post)) ->
  exists j, tfind (LbL l2) (pre ++ macroB q a x l1 l2 l3 ++ post) = Some j /\
  treaches M Hw (pre ++ macroB q a x l1 l2 l3 ++ post) (TCfg j t)
    (TCfg (length pre + length (macroB q a x l1 l2 l3)) (setr M t a (w16 (1 - x)))).
Proof.
  unfold macroB. intros q a x l1 l2 l3 pre post t D N. destruct (Z.eqb_spec l2 (-1)); [contradiction|].
  set (mid := [TJcc q (LbL l2); TLab (LbL l1); TLd a (OImm x); TJmp (LbL l3); TLab (LbL l2); TLd a (OImm (1 - x)); TLab (LbL l3)]) in *.
    exists (length pre + 4)%nat. split; [apply find_mid; [reflexivity|exact N]|].
    stp (run_lab pre mid post 4 (LbL l2) t eq_refl). stp (run_ld pre mid post 5 a (1 - x) t eq_refl).
    stp (run_lab pre mid post 6 (LbL l3) (setr M t a (w16 (1 - x))) eq_refl). done_at.
Qed.
(* falling into it: the accumulator takes the truth value; x is 0 or 1 *)
Lemma macroB_fall : forall k a x l1 l2 l3 pre post t, (x = 0 \/ x = 1) ->
  NoDup (tdefs (pre ++ macroB (if x =? 1 then negJcc k else k) a x l1 l2 l3 ++ post)) ->
  exists t0, (t0 = t \/ exists y, t0 = setr M t a (w16 y)) /\
  treaches M Hw (pre ++ macroB (if x =? 1 then negJcc k else k) a x l1 l2 l3 ++ post) (TCfg (length pre) t)
    (TCfg (length pre + length (macroB (if x =? 1 then negJcc k else k) a x l1 l2 l3)) (setr M t0 a (w16 (b2w (holds k (zf t) (lf t)))))).
Proof.
  unfold macroB. intros k a x l1 l2 l3 pre post t Hx N. replace (TCfg (length pre) t) with (TCfg (length pre + 0) t) by (rewrite Nat.add_0_r; reflexivity).
  set (q := if x =? 1 then negJcc k else k) in *.
  assert (Hq : holds q (zf t) (lf t) = true -> b2w (holds k (zf t) (lf t)) = 1 - x).
  { subst q. destruct Hx as [-> | ->]; simpl; [intros ->; reflexivity|]. rewrite holds_neg. destruct (holds k (zf t) (lf t)); [discriminate|reflexivity]. }
  assert (Hn : holds q (zf t) (lf t) = false -> b2w (holds k (zf t) (lf t)) = x).
  { subst q. destruct Hx as [-> | ->]; simpl; [intros ->; reflexivity|]. rewrite holds_neg. destruct (holds k (zf t) (lf t)); [reflexivity|discriminate]. }
  destruct (l2 =? -1).
  - set (mid := [TLd a (OImm (1 - x)); TJcc q (LbL l3); TLab (LbL l1); TLd a (OImm x); TLab (LbL l3)]) in *.
    destruct (holds q (zf t) (lf t)) eqn:Hh.
    + rewrite (Hq eq_refl). exists t. split; [left; reflexivity|].
      stp (run_ld pre mid post 0 a (1 - x) t eq_refl).
      pose proof (run_jcc pre mid post 1 q (LbL l3) 4 (setr M t a (w16 (1 - x))) eq_refl eq_refl N) as R. cbn [setr zf lf] in R. rewrite Hh in R.
      stp R. stp (run_lab pre mid post 4 (LbL l3) (setr M t a (w16 (1 - x))) eq_refl). done_at.
    + rewrite (Hn eq_refl). exists (setr M t a (w16 (1 - x))). split; [right; exists (1 - x); reflexivity|].
      stp (run_ld pre mid post 0 a (1 - x) t eq_refl).
      pose proof (run_jcc pre mid post 1 q (LbL l3) 4 (setr M t a (w16 (1 - x))) eq_refl eq_refl N) as R. cbn [setr zf lf] in R. rewrite Hh in R.
      stp R. stp (run_lab pre mid post 2 (LbL l1) (setr M t a (w16 (1 - x))) eq_refl).
      stp (run_ld pre mid post 3 a x (setr M t a (w16 (1 - x))) eq_refl).
      stp (run_lab pre mid post 4 (LbL l3) (setr M (setr M t a (w16 (1 - x))) a (w16 x)) eq_refl). done_at.
  - set (mid := [TJcc q (LbL l2); TLab (LbL l1); TLd a (OImm x); TJmp (LbL l3); TLab (LbL l2); TLd a (OImm (1 - x)); TLab (LbL l3)]) in *.
    exists t. split; [left; reflexivity|].
    pose proof (run_jcc pre mid post 0 q (LbL l2) 4 t eq_refl eq_refl N) as R.
    destruct (holds q (zf t) (lf t)) eqn:Hh.
    + rewrite (Hq eq_refl). stp R. stp (run_lab pre mid post 4 (LbL l2) t eq_refl). stp (run_ld pre mid post 5 a (1 - x) t eq_refl).
      stp (run_lab pre mid post 6 (LbL l3) (setr M t a (w16 (1 - x))) eq_refl). done_at.
    + rewrite (Hn eq_refl). stp R. stp (run_lab pre mid post 1 (LbL l1) t eq_refl). stp (run_ld pre mid post 2 a x t eq_refl).
      stp (run_jmp pre mid post 3 (LbL l3) 6 (setr M t a (w16 x)) eq_refl eq_refl N).
      stp (run_lab pre mid post 6 (LbL l3) (setr M t a (w16 x)) eq_refl). done_at.
Qed.

(* the top entry replaced by an accumulator holding a constant *)
Lemma SIM_top : forall s s' e V a x v rest va m t, WF s -> WF s' -> SIM s (v :: rest) va m t -> vst s = e :: V -> e <> XStk ->
  noFlg s' -> vst s' = XAcc a :: V -> lay s' = lay s -> fv s' = false ->
  SIM s' (w16 x :: rest) va m (setr M t a (w16 x)).
Proof.
  intros s s' e V a x v rest va m t Wf Wf' Sm V0 Ne Nf V1 L Fv.
  assert (Pp : popRaw 1 s = Some ([], set_vst (set_flg s (match flg s with
                        | Some i => if Nat.ltb (i + 1) (length (vst s)) then Some i else None
                        | None => None end)) V)).
  { clear - V0. destruct s. simpl in V0. subst. reflexivity. }
  assert (Is : existsb isStk (firstn 1 (vst s)) = false) by (rewrite V0; destruct e; try reflexivity; contradiction).
  destruct (SIM_pop 1 s _ _ _ _ _ _ (wf_flg _ Wf) Sm Is Pp) as [_ S1]. cbn [skipn] in S1.
  exact (SIM_const _ s' a x rest va m t Wf' S1 Nf V1 L Fv).
Qed.

Lemma macro_fall : forall x l1 l2 l3 s c s' v rest va m t pre post, (x = 0 \/ x = 1) -> WF s -> WF s' ->
  SIM s (v :: rest) va m t -> vmBool true x l1 l2 l3 s = Some (c, s') -> NoDup (tdefs (pre ++ c ++ post)) ->
  exists t', treaches M Hw (pre ++ c ++ post) (TCfg (length pre) t) (TCfg (length pre + length c) t') /\
    SIM s' (v :: rest) va m t'.
Proof.
  intros x l1 l2 l3 s c s' v rest va m t pre post Hx Wf Wf' Sm H N.
  destruct (vmBool_inv _ _ _ _ _ _ _ Wf H) as [Fv [Nf [a [Ea [[c0 [s0 [Ls [-> ->]]]]|[E [Fi [-> ->]]]]]]]].
  - destruct (loadStk_moves 0 _ _ _ _ _ _ _ Wf Sm Ls) as [t1 [X1 [S1 _]]]. exists t1. split; [|apply SIM_fv; exact S1].
    change (macroA c0 a x l1 l2 l3) with (c0 ++ macTail a x l1 l2 l3) in *. set (T := macTail a x l1 l2 l3) in *.
    assert (Q : pre ++ (c0 ++ T) ++ post = pre ++ c0 ++ (T ++ post)) by (rewrite <- !app_assoc; reflexivity).
    assert (Q2 : pre ++ (c0 ++ T) ++ post = (pre ++ c0) ++ T ++ post) by (rewrite <- !app_assoc; reflexivity).
    apply (treaches_trans _ _ (TCfg (length pre + length c0) t1)).
    + rewrite Q in *. exact (Ex_run _ _ _ X1 pre (T ++ post) N).
    + rewrite Q2 in *. replace (length pre + length c0)%nat with (length (pre ++ c0)) by (rewrite app_length; reflexivity).
      replace (length pre + length (c0 ++ T))%nat with (length (pre ++ c0) + length T)%nat by (rewrite !app_length; lia).
      apply macTail_fall. exact N.
  - destruct (SIM_val _ _ _ _ _ _ _ Sm E) as [u [Vu [[_ De] Wu]]]. injection Vu as <-. simpl in De. specialize (De eq_refl).
    destruct (macroB_fall (fcc s) a x l1 l2 l3 pre post t Hx N) as [t0 [T0 R]].
    rewrite <- De in R. eexists. split; [exact R|].
    destruct (vst s) as [|e V] eqn:V0; [discriminate E|]. injection E as ->.
    set (s' := set_fv (set_vst s (put (XFlg a :: V) 0 (XAcc a))) false) in *.
    assert (V1 : vst s' = XAcc a :: V) by reflexivity.
    assert (D0 : XFlg a <> XStk) by discriminate.
    assert (Wv : w16 v = v) by (apply w16_id; exact Wu).
    destruct T0 as [->|[y ->]].
    + rewrite <- Wv at 1. exact (SIM_top s s' (XFlg a) V a v v rest va m t Wf Wf' Sm V0 D0 Nf V1 eq_refl eq_refl).
    + pose proof (SIM_top s s' (XFlg a) V a y v rest va m t Wf Wf' Sm V0 D0 Nf V1 eq_refl eq_refl) as S1.
      assert (D1 : XAcc a <> XStk) by discriminate.
      rewrite <- Wv at 1. exact (SIM_top s' s' (XAcc a) V a v _ rest va m _ Wf' Wf' S1 V1 D1 Nf V1 eq_refl eq_refl).
Qed.

Lemma macro_l1 : forall x l1 l2 l3 s c s' sj vs va m t pre post, WF s -> WF s' ->
  vmBool true x l1 l2 l3 s = Some (c, s') -> NoDup (tdefs (pre ++ c ++ post)) ->
  SIM sj vs va m t -> vst sj = List.tl (vst s') -> lay sj = lay s' ->
  exists j t', tfind (LbL l1) (pre ++ c ++ post) = Some j /\
    treaches M Hw (pre ++ c ++ post) (TCfg j t) (TCfg (length pre + length c) t') /\
    SIM s' (w16 x :: vs) va m t'.
Proof.
  intros x l1 l2 l3 s c s' sj vs va m t pre post Wf Wf' H N Sm V L.
  destruct (vmBool_inv _ _ _ _ _ _ _ Wf H) as [Fv [Nf [a [Ea K]]]].
  assert (S1 : SIM s' (w16 x :: vs) va m (setr M t a (w16 x))).
  { apply (SIM_const sj); auto. rewrite V. destruct (vst s'); [discriminate Ea|]. injection Ea as ->. reflexivity. }
  destruct K as [[c0 [s0 [Ls [-> ->]]]]|[E [Fi [-> ->]]]].
  - change (macroA c0 a x l1 l2 l3) with (c0 ++ macTail a x l1 l2 l3) in *. set (T := macTail a x l1 l2 l3) in *.
    assert (Q2 : pre ++ (c0 ++ T) ++ post = (pre ++ c0) ++ T ++ post) by (rewrite <- !app_assoc; reflexivity).
    rewrite Q2 in *. destruct (macTail_l1 a x l1 l2 l3 (pre ++ c0) post t N) as [F R]. fold T in F, R.
    eexists _, _. split; [exact F|split; [|exact S1]].
    replace (length pre + length (c0 ++ T))%nat with (length (pre ++ c0) + length T)%nat by (rewrite !app_length; lia). exact R.
  - destruct (macroB_l1 _ _ _ _ _ _ _ _ t N) as [j [F R]]. exists j, (setr M t a (w16 x)). auto.
Qed.
Lemma macro_l2 : forall x l1 l2 l3 s c s' sj vs va m t pre post, l2 <> -1 -> WF s -> WF s' ->
  vmBool true x l1 l2 l3 s = Some (c, s') -> NoDup (tdefs (pre ++ c ++ post)) ->
  SIM sj vs va m t -> vst sj = List.tl (vst s') -> lay sj = lay s' ->
  exists j t', tfind (LbL l2) (pre ++ c ++ post) = Some j /\
    treaches M Hw (pre ++ c ++ post) (TCfg j t) (TCfg (length pre + length c) t') /\
    SIM s' (w16 (1 - x) :: vs) va m t'.
Proof.
  intros x l1 l2 l3 s c s' sj vs va m t pre post D Wf Wf' H N Sm V L.
  destruct (vmBool_inv _ _ _ _ _ _ _ Wf H) as [Fv [Nf [a [Ea K]]]].
  assert (S1 : SIM s' (w16 (1 - x) :: vs) va m (setr M t a (w16 (1 - x)))).
  { apply (SIM_const sj); auto. rewrite V. destruct (vst s'); [discriminate Ea|]. injection Ea as ->. reflexivity. }
  destruct K as [[c0 [s0 [Ls [-> ->]]]]|[E [Fi [-> ->]]]].
  - change (macroA c0 a x l1 l2 l3) with (c0 ++ macTail a x l1 l2 l3) in *. set (T := macTail a x l1 l2 l3) in *.
    assert (Q2 : pre ++ (c0 ++ T) ++ post = (pre ++ c0) ++ T ++ post) by (rewrite <- !app_assoc; reflexivity).
    rewrite Q2 in *. destruct (macTail_l2 a x l1 l2 l3 (pre ++ c0) post t D N) as [F R]. fold T in F, R.
    eexists _, _. split; [exact F|split; [|exact S1]].
    replace (length pre + length (c0 ++ T))%nat with (length (pre ++ c0) + length T)%nat by (rewrite !app_length; lia). exact R.
  - destruct (macroB_l2 _ _ _ _ _ _ _ _ t D N) as [j [F R]]. eexists j, _. split; [exact F|split; [exact R|exact S1]].
Qed.

End Sim.
