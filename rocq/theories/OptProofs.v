(* Proofs about the expression optimiser. *)
From Coq Require Import ZArith Bool List Lia.
From Verif Require Import Word WordProofs SyTree ExprSem OpTree OptSpec.
Import ListNotations.
Open Scope Z_scope.

Ltac inv H := inversion H; subst; clear H.
Ltac bdestr H :=
  repeat (match type of H with
  | context [match ?x with _ => _ end] =>
      match x with
      | context [match _ with _ => _ end] => fail 1
      | _ => destruct x eqn:?; try discriminate H
      end end).

Lemma expr_null_dec : forall e : expr, e = ENull \/ e <> ENull.
Proof. intros []; auto; right; discriminate. Qed.

Section P.
Variable M : machine.
Variable N : names.
Notation state := (state M).
Notation ev := (ev M N ltr).

(* ---- unfolding lemmas ---- *)
Definition strict (o : op2) : bool :=
  match o with
  | ADD | SUB | SHL | SHR | BAND | BXOR | BOR | MUL | DIV | MOD
  | GT | GE | LT | LE | EQU | NEQ => true
  | _ => false
  end.

Lemma ev_strict : forall o l r st, strict o = true ->
  ev (E2 o l r) st =
  match one M (ev l st) with
  | Some (a, s) => match one M (ev r s) with
                   | Some (b, s') => ret1 M (op2_val o a b) s'
                   | None => None end
  | None => None end.
Proof. intros o l r st H; destruct o; try discriminate H; reflexivity. Qed.

Definition stor (l : expr) (v : Z) (s : state) : option state :=
  match l with
  | ELeaf (LLoc i) => Some (set_loc M s (lcl M i) v)
  | ELeaf (LPrm i) => Some (set_prm M s (pcl M i) v)
  | ELeaf (LGlb i) => Some (set_g M s (stg M (gs s) i v))
  | E2 DOT b (Cnst f) =>
      match one M (ev b s) with
      | Some (a, s') => Some (set_g M s' (stw M (gs s') a (w16 (slot N f)) v))
      | None => None
      end
  | E2 o b i =>
      match one M (ev b s) with
      | Some (a, s1) =>
          match one M (ev i s1) with
          | Some (k, s2) =>
              match o with
              | IDXR | IDXI => Some (set_g M s2 (stw M (gs s2) a k v))
              | IDXC | IDXB => Some (set_g M s2 (stb M (gs s2) a k v))
              | _ => None
              end
          | None => None
          end
      | None => None
      end
  | _ => None
  end.

Lemma ev_ass : forall l r st,
  ev (E2 ASS l r) st =
  match one M (ev r st) with
  | Some (v, s) => match stor l v s with Some s' => Some ([v], s') | None => None end
  | None => None
  end.
Proof.
  intros. simpl. destruct (one M (ev r st)) as [[v s]|]; auto.
  destruct l as [|k|o x|o x y|f x]; auto.
  - destruct k; auto.
  - simpl. destruct o; try (destruct y as [|[]| | |]);
      repeat (match goal with |- context [match ?x with _ => _ end] =>
        match x with context [match _ with _ => _ end] => fail 1 | _ => destruct x end end);
      reflexivity.
Qed.

(* ---- range of values ---- *)
Lemma chk_some : forall b v w, chk b v = Some w -> w = v /\ (b = true -> w = 0 \/ w = 1).
Proof.
  unfold chk; intros b v w H. destruct b; [|inv H; split; auto; discriminate].
  destruct ((v =? 0) || (v =? 1)) eqn:E; inv H. split; auto. intros _.
  apply orb_true_iff in E; rewrite !Z.eqb_eq in E; auto.
Qed.

Lemma one_some : forall x v (s : state), one M x = Some (v, s) -> x = Some ([v], s).
Proof.
  intros x v s H. destruct x as [[[|a [|b l]] s']|]; simpl in H; inv H; reflexivity.
Qed.

Lemma ret1_some : forall o (s : state) vs s', ret1 M o s = Some (vs, s') ->
  s' = s /\ exists v, o = Some v /\ vs = [v].
Proof. intros [v|] s vs s' H; simpl in H; inv H; eauto. Qed.

Lemma op1_word : forall o v, is_word v -> is_word (op1_val o v).
Proof.
  intros o v [H1 H2]; destruct o; simpl.
  - apply w16_range.
  - apply b2w_word.
  - unfold w_bnot, is_word; lia.
  - unfold w_chr, is_word. pose proof (Z.mod_pos_bound v 256); lia.
  - unfold w_bool, is_word. pose proof (Z.mod_pos_bound v 2); lia.
Qed.

Lemma op2_word : forall o a b v, is_word a -> is_word b -> op2_val o a b = Some v -> is_word v.
Proof.
  intros o a b v Ha Hb H; destruct o; simpl in H; try discriminate;
    try (inv H; first [apply w16_range | apply b2w_word | apply land_word; assumption
                      | apply lor_word; assumption | apply lxor_word; assumption]).
  - unfold w_shl in H. destruct (b <? 16); inv H; apply w16_range.
  - unfold w_shr in H. destruct (b <? 16); inv H; apply w16_range.
  - unfold w_div in H. destruct (b =? 0); inv H; apply w16_range.
  - unfold w_mod in H. destruct (b =? 0); inv H; apply w16_range.
Qed.

Lemma chr_word : forall z, is_word (w_chr z).
Proof. intros; unfold is_word, w_chr; pose proof (Z.mod_pos_bound z 256); lia. Qed.

Lemma leaf_word : forall k st v, leaf_val M N k st = Some v -> is_word v.
Proof.
  intros k st v H; destruct k; simpl in H;
    try (apply chk_some in H; destruct H as [-> _]); try (inv H); apply w16_range.
Qed.

Lemma ev_word : forall e st vs s, ev e st = Some (vs, s) -> Forall is_word vs.
Proof.
  induction e as [|k|o e IH|o l IHl r IHr|f a IHa]; intros st vs s H.
  - discriminate.
  - simpl in H. apply ret1_some in H. destruct H as [-> (v & Hv & ->)].
    constructor; auto. eapply leaf_word; eauto.
  - simpl in H. destruct (one M (ev e st)) as [[v s1]|] eqn:E; inv H.
    apply one_some in E. apply IH in E. inv E. constructor; auto. apply op1_word; auto.
  - destruct (strict o) eqn:So.
    + rewrite ev_strict in H by auto.
      destruct (one M (ev l st)) as [[a s1]|] eqn:E1; try discriminate.
      destruct (one M (ev r s1)) as [[b s2]|] eqn:E2; try discriminate.
      apply ret1_some in H. destruct H as [-> (v & Hv & ->)].
      apply one_some in E1, E2. apply IHl in E1; apply IHr in E2. inv E1; inv E2.
      constructor; auto. apply (op2_word o a b); auto.
    + destruct o; try discriminate So.
      * simpl in H. destruct r as [|[v0| | | | |]| | |]; try discriminate.
        destruct (one M (ev l st)) as [[a s1]|] eqn:E1; try discriminate.
        apply ret1_some in H. destruct H as [-> (v & Hv & ->)].
        apply chk_some in Hv; destruct Hv as [-> _]. constructor; auto; apply w16_range.
      * simpl in H. destruct (one M (ev l st)) as [[a s1]|]; try discriminate.
        destruct (one M (ev r s1)) as [[b s2]|]; try discriminate. inv H.
        constructor; auto; apply w16_range.
      * simpl in H. destruct (one M (ev l st)) as [[a s1]|]; try discriminate.
        destruct (one M (ev r s1)) as [[b s2]|]; try discriminate. inv H.
        constructor; auto; apply w16_range.
      * simpl in H. destruct (one M (ev l st)) as [[a s1]|]; try discriminate.
        destruct (one M (ev r s1)) as [[b s2]|]; try discriminate. inv H.
        constructor; auto; apply chr_word.
      * cbn [ExprSem.ev either_order andb] in H.
        destruct (one M (ev l st)) as [[a s1]|]; try discriminate.
        destruct (one M (ev r s1)) as [[b s2]|]; try discriminate.
        apply ret1_some in H. destruct H as [-> (v & Hv & ->)].
        apply chk_some in Hv; destruct Hv as [-> _].
        constructor; auto; apply chr_word.
      * rewrite ev_ass in H. destruct (one M (ev r st)) as [[v s1]|] eqn:E; try discriminate.
        destruct (stor l v s1); inv H. apply one_some in E. apply IHr in E. auto.
      * simpl in H. destruct (one M (ev l st)) as [[a s1]|]; try discriminate.
        destruct (one M (ev r s1)) as [[b s2]|] eqn:E; try discriminate. inv H.
        apply one_some in E; apply IHr in E; auto.
      * simpl in H. destruct (one M (ev l st)) as [[a s1]|]; try discriminate.
        destruct (a =? 0).
        -- destruct (one M (ev r s1)) as [[b s2]|] eqn:E; try discriminate. inv H.
           apply one_some in E; apply IHr in E; auto.
        -- inv H. constructor; auto; unfold is_word; lia.
      * simpl in H. destruct (one M (ev l st)) as [[a s1]|]; try discriminate.
        destruct (a =? 0).
        -- inv H. constructor; auto; unfold is_word; lia.
        -- destruct (one M (ev r s1)) as [[b s2]|] eqn:E; try discriminate. inv H.
           apply one_some in E; apply IHr in E; auto.
      * simpl in H. destruct (one M (ev r st)) as [[v s1]|] eqn:E; try discriminate.
        destruct (ev l s1) as [[vl s2]|] eqn:E2; inv H.
        apply one_some in E; apply IHr in E. apply IHl in E2.
        apply Forall_app; split; auto.
  - cbn [ExprSem.ev] in H.
    destruct (match a with ENull => Some ([], st) | _ => ev a st end) as [[vs1 s1]|]; try discriminate.
    destruct (call M f vs1 (gs s1)) as [[v g]|]; try discriminate.
    apply ret1_some in H. destruct H as [-> (w & Hw & ->)].
    apply chk_some in Hw; destruct Hw as [-> _]. constructor; auto; apply w16_range.
Qed.

Lemma eval1_word : forall e st v s, one M (ev e st) = Some (v, s) -> is_word v.
Proof. intros e st v s H. apply one_some in H. apply ev_word in H. inv H; auto. Qed.

(* boolean expressions have boolean values *)
Lemma bexp_val : forall e st v s, bexp N e = true -> one M (ev e st) = Some (v, s) -> v = 0 \/ v = 1.
Proof.
  induction e as [|k|o e IH|o l IHl r IHr|f a IHa]; intros st v s Hb H; try discriminate Hb.
  - apply one_some in H; simpl in H. apply ret1_some in H. destruct H as [_ (w & Hw & E)]. inv E.
    destruct k; simpl in Hb, Hw; try discriminate.
    + inv Hw. apply orb_true_iff in Hb; rewrite !Z.eqb_eq in Hb. destruct Hb; subst; auto.
    + apply chk_some in Hw; destruct Hw; auto.
    + apply chk_some in Hw; destruct Hw; auto.
    + apply chk_some in Hw; destruct Hw; auto.
  - apply one_some in H; simpl in H. destruct (one M (ev e st)) as [[w s1]|]; inv H.
    destruct o; simpl in Hb; try discriminate; simpl.
    + apply b2w_01.
    + apply mod2_01.
  - destruct o; simpl in Hb; try discriminate.
    (* DOT *)
    + apply one_some in H; simpl in H. destruct r as [|[f| | | | |]| | |]; try discriminate.
      destruct (one M (ev l st)) as [[a s1]|]; try discriminate.
      apply ret1_some in H. destruct H as [_ (w & Hw & E)]. inv E.
      apply chk_some in Hw; destruct Hw; auto.
    + apply one_some in H; cbn [ExprSem.ev either_order andb] in H.
      destruct (one M (ev l st)) as [[a s1]|]; try discriminate.
      destruct (one M (ev r s1)) as [[b s2]|]; try discriminate.
      apply ret1_some in H. destruct H as [_ (w & Hw & E)]. inv E.
      apply chk_some in Hw; destruct Hw; auto.
    + apply one_some in H; rewrite ev_strict in H by auto; bdestr H; inv H; apply b2w_01.
    + apply one_some in H; rewrite ev_strict in H by auto; bdestr H; inv H; apply b2w_01.
    + apply one_some in H; rewrite ev_strict in H by auto; bdestr H; inv H; apply b2w_01.
    + apply one_some in H; rewrite ev_strict in H by auto; bdestr H; inv H; apply b2w_01.
    + apply one_some in H; rewrite ev_strict in H by auto; bdestr H; inv H; apply b2w_01.
    + apply one_some in H; rewrite ev_strict in H by auto; bdestr H; inv H; apply b2w_01.
    + apply one_some in H; rewrite ev_ass in H.
      destruct (one M (ev r st)) as [[w s1]|] eqn:E; try discriminate.
      destruct (stor l w s1); inv H. eauto.
    + apply one_some in H; simpl in H. destruct (one M (ev l st)) as [[a s1]|]; try discriminate.
      destruct (one M (ev r s1)) as [[b s2]|] eqn:E; inv H. eauto.
    + apply andb_true_iff in Hb; destruct Hb as [Hl Hr].
      apply one_some in H; simpl in H. destruct (one M (ev l st)) as [[a s1]|]; try discriminate.
      destruct (a =? 0); [|inv H; auto].
      destruct (one M (ev r s1)) as [[b s2]|] eqn:E; inv H. eauto.
    + apply andb_true_iff in Hb; destruct Hb as [Hl Hr].
      apply one_some in H; simpl in H. destruct (one M (ev l st)) as [[a s1]|]; try discriminate.
      destruct (a =? 0); [inv H; auto|].
      destruct (one M (ev r s1)) as [[b s2]|] eqn:E; inv H. eauto.
  - apply one_some in H; cbn [ExprSem.ev] in H. simpl in Hb.
    destruct (match a with ENull => Some ([], st) | _ => ev a st end) as [[vs1 s1]|]; try discriminate.
    destruct (call M f vs1 (gs s1)) as [[w g]|]; try discriminate.
    apply ret1_some in H. destruct H as [_ (x & Hx & E)]. inv E.
    apply chk_some in Hx; destruct Hx; auto.
Qed.

(* without calls and assignments the state is unchanged *)
Lemma ev_pure : forall e st vs s, has_effect e = false -> ev e st = Some (vs, s) -> s = st.
Proof.
  induction e as [|k|o e IH|o l IHl r IHr|f a IHa]; intros st vs s He H.
  - discriminate.
  - simpl in H. apply ret1_some in H; tauto.
  - simpl in H, He. destruct (one M (ev e st)) as [[v s1]|] eqn:E; inv H.
    apply one_some in E; eauto.
  - assert (Hlr : o <> ASS -> has_effect l = false /\ has_effect r = false).
    { intros Ho. destruct o; simpl in He; try discriminate; apply orb_false_iff in He; auto. }
    destruct o; try discriminate He; destruct (Hlr ltac:(discriminate)) as [Hl Hr]; clear Hlr;
    try (rewrite ev_strict in H by reflexivity;
      destruct (one M (ev l st)) as [[a s1]|] eqn:E1; try discriminate;
      destruct (one M (ev r s1)) as [[b s2]|] eqn:E2; try discriminate;
      apply ret1_some in H; destruct H as [-> _];
      apply one_some in E1, E2; apply IHl in E1; auto; apply IHr in E2; auto; congruence).
    + simpl in H. destruct r as [|[v0| | | | |]| | |]; try discriminate.
      destruct (one M (ev l st)) as [[a s1]|] eqn:E1; try discriminate.
      apply ret1_some in H. destruct H as [-> _]. apply one_some in E1; eauto.
    + simpl in H. destruct (one M (ev l st)) as [[a s1]|] eqn:E1; try discriminate.
      destruct (one M (ev r s1)) as [[b s2]|] eqn:E2; try discriminate. inv H.
      apply one_some in E1, E2; apply IHl in E1; auto; apply IHr in E2; auto; congruence.
    + simpl in H. destruct (one M (ev l st)) as [[a s1]|] eqn:E1; try discriminate.
      destruct (one M (ev r s1)) as [[b s2]|] eqn:E2; try discriminate. inv H.
      apply one_some in E1, E2; apply IHl in E1; auto; apply IHr in E2; auto; congruence.
    + simpl in H. destruct (one M (ev l st)) as [[a s1]|] eqn:E1; try discriminate.
      destruct (one M (ev r s1)) as [[b s2]|] eqn:E2; try discriminate. inv H.
      apply one_some in E1, E2; apply IHl in E1; auto; apply IHr in E2; auto; congruence.
    + cbn [ExprSem.ev either_order andb] in H.
      destruct (one M (ev l st)) as [[a s1]|] eqn:E1; try discriminate.
      destruct (one M (ev r s1)) as [[b s2]|] eqn:E2; try discriminate.
      apply ret1_some in H. destruct H as [-> _].
      apply one_some in E1, E2; apply IHl in E1; auto; apply IHr in E2; auto; congruence.
    + simpl in H. destruct (one M (ev l st)) as [[a s1]|] eqn:E1; try discriminate.
      destruct (one M (ev r s1)) as [[b s2]|] eqn:E2; try discriminate. inv H.
      apply one_some in E1, E2; apply IHl in E1; auto; apply IHr in E2; auto; congruence.
    + simpl in H. destruct (one M (ev l st)) as [[a s1]|] eqn:E1; try discriminate.
      apply one_some in E1; apply IHl in E1; auto; subst.
      destruct (a =? 0); [|inv H; auto].
      destruct (one M (ev r st)) as [[b s2]|] eqn:E2; try discriminate. inv H.
      apply one_some in E2; eauto.
    + simpl in H. destruct (one M (ev l st)) as [[a s1]|] eqn:E1; try discriminate.
      apply one_some in E1; apply IHl in E1; auto; subst.
      destruct (a =? 0); [inv H; auto|].
      destruct (one M (ev r st)) as [[b s2]|] eqn:E2; try discriminate. inv H.
      apply one_some in E2; eauto.
    + simpl in H. destruct (one M (ev r st)) as [[v s1]|] eqn:E; try discriminate.
      destruct (ev l s1) as [[vl s2]|] eqn:E2; inv H.
      apply one_some in E; apply IHr in E; auto; subst. eauto.
  - discriminate.
Qed.


(* ---- refinement of expressions ---- *)
Definition R (e e' : expr) : Prop :=
  (forall st vs s, ev e st = Some (vs, s) -> ev e' st = Some (vs, s)) /\
  (forall v st s, stor e v st = Some s -> stor e' v st = Some s).

Definition le (a b : bool) : Prop := a = true -> b = true.

Definition mono (e e' : expr) : Prop :=
  le (has_effect e') (has_effect e) /\ le (may_const e') (may_const e) /\
  le (has_div e') (has_div e) /\ le (bexp N e) (bexp N e').

Definition ok (e e' : expr) : Prop :=
  opt_safe N e = true -> R e e' /\ opt_safe N e' = true /\ mono e e'.

Lemma R_refl : forall e, R e e.
Proof. split; auto. Qed.
Lemma R_trans : forall a b c, R a b -> R b c -> R a c.
Proof. intros a b c [H1 H2] [H3 H4]; split; auto. Qed.
Lemma mono_refl : forall e, mono e e.
Proof. unfold mono, le; auto. Qed.
Lemma mono_trans : forall a b c, mono a b -> mono b c -> mono a c.
Proof. unfold mono, le; intuition. Qed.
Lemma ok_refl : forall e, ok e e.
Proof. intros e H; auto using R_refl, mono_refl. Qed.
Lemma ok_trans : forall a b c, ok a b -> ok b c -> ok a c.
Proof.
  intros a b c H1 H2 H. destruct (H1 H) as (A & B & C). destruct (H2 B) as (D & E & F).
  eauto using R_trans, mono_trans.
Qed.

Lemma one_R : forall e e' st p, R e e' -> one M (ev e st) = Some p -> one M (ev e' st) = Some p.
Proof.
  intros e e' st [v s] [HR _] H. apply one_some in H. apply HR in H. rewrite H. reflexivity.
Qed.

Ltac use_R :=
  repeat match goal with
  | HR : R ?a ?b, H : one M (ev ?a ?s) = Some ?p |- _ =>
      lazymatch goal with
      | _ : one M (ev b s) = Some p |- _ => fail
      | _ => let X := fresh in pose proof (one_R a b s p HR H) as X; try rewrite X
      end
  end.

Lemma R_cong2 : forall o l l' r r', R l l' -> R r r' -> (o = DOT -> r' = r) ->
  R (E2 o l r) (E2 o l' r').
Proof.
  intros o l l' r r' Hl Hr Hd. split.
  - intros st vs s H. destruct (strict o) eqn:So.
    + rewrite ev_strict in * by auto.
      destruct (one M (ev l st)) as [[a s1]|] eqn:A; try discriminate.
      rewrite (one_R _ _ _ _ Hl A).
      destruct (one M (ev r s1)) as [[b s2]|] eqn:B; try discriminate.
      rewrite (one_R _ _ _ _ Hr B). auto.
    + destruct o; try discriminate So.
      * rewrite (Hd eq_refl). simpl in *. destruct r as [|[v0| | | | |]| | |]; try discriminate.
        destruct (one M (ev l st)) as [[a s1]|] eqn:A; try discriminate.
        rewrite (one_R _ _ _ _ Hl A). auto.
      * cbn [ExprSem.ev either_order andb] in *.
        destruct (one M (ev l st)) as [[a s1]|] eqn:A; try discriminate.
        rewrite (one_R _ _ _ _ Hl A).
        destruct (one M (ev r s1)) as [[b s2]|] eqn:B; try discriminate.
        rewrite (one_R _ _ _ _ Hr B). auto.
      * cbn [ExprSem.ev either_order andb] in *.
        destruct (one M (ev l st)) as [[a s1]|] eqn:A; try discriminate.
        rewrite (one_R _ _ _ _ Hl A).
        destruct (one M (ev r s1)) as [[b s2]|] eqn:B; try discriminate.
        rewrite (one_R _ _ _ _ Hr B). auto.
      * cbn [ExprSem.ev either_order andb] in *.
        destruct (one M (ev l st)) as [[a s1]|] eqn:A; try discriminate.
        rewrite (one_R _ _ _ _ Hl A).
        destruct (one M (ev r s1)) as [[b s2]|] eqn:B; try discriminate.
        rewrite (one_R _ _ _ _ Hr B). auto.
      * cbn [ExprSem.ev either_order andb] in *.
        destruct (one M (ev l st)) as [[a s1]|] eqn:A; try discriminate.
        rewrite (one_R _ _ _ _ Hl A).
        destruct (one M (ev r s1)) as [[b s2]|] eqn:B; try discriminate.
        rewrite (one_R _ _ _ _ Hr B). auto.
      * rewrite ev_ass in *.
        destruct (one M (ev r st)) as [[v s1]|] eqn:B; try discriminate.
        rewrite (one_R _ _ _ _ Hr B).
        destruct (stor l v s1) as [s2|] eqn:S; try discriminate.
        destruct Hl as [_ Hl]. rewrite (Hl _ _ _ S). auto.
      * simpl in *.
        destruct (one M (ev l st)) as [[a s1]|] eqn:A; try discriminate.
        rewrite (one_R _ _ _ _ Hl A).
        destruct (one M (ev r s1)) as [[b s2]|] eqn:B; try discriminate.
        rewrite (one_R _ _ _ _ Hr B). auto.
      * simpl in *.
        destruct (one M (ev l st)) as [[a s1]|] eqn:A; try discriminate.
        rewrite (one_R _ _ _ _ Hl A). destruct (a =? 0); auto.
        destruct (one M (ev r s1)) as [[b s2]|] eqn:B; try discriminate.
        rewrite (one_R _ _ _ _ Hr B). auto.
      * simpl in *.
        destruct (one M (ev l st)) as [[a s1]|] eqn:A; try discriminate.
        rewrite (one_R _ _ _ _ Hl A). destruct (a =? 0); auto.
        destruct (one M (ev r s1)) as [[b s2]|] eqn:B; try discriminate.
        rewrite (one_R _ _ _ _ Hr B). auto.
      * simpl in *.
        destruct (one M (ev r st)) as [[a s1]|] eqn:A; try discriminate.
        rewrite (one_R _ _ _ _ Hr A).
        destruct (ev l s1) as [[b s2]|] eqn:B; try discriminate.
        destruct Hl as [Hl _]. rewrite (Hl _ _ _ B). auto.
  - intros v st s H. destruct o; simpl in H; simpl;
      try (destruct (one M (ev l st)) as [[a s1]|] eqn:A; try discriminate;
           destruct (one M (ev r s1)) as [[b s2]|] eqn:B; try discriminate;
           rewrite (one_R _ _ _ _ Hl A), (one_R _ _ _ _ Hr B); auto).
    rewrite (Hd eq_refl).
    destruct r as [|[f| | | | |]|o1 x|o1 x y|f x];
      try (destruct (one M (ev l st)) as [[a s1]|] eqn:A; try discriminate;
           rewrite (one_R _ _ _ _ Hl A); auto; fail);
      try (destruct (one M (ev l st)) as [[a s1]|]; try discriminate;
           match goal with Hx : context [match one M (ev ?q ?z) with _ => _ end] |- _ =>
             destruct (one M (ev q z)) as [[? ?]|]; discriminate end).
Qed.

Lemma R_cong1 : forall o a a', R a a' -> R (E1 o a) (E1 o a').
Proof.
  intros o a a' H; split; [|discriminate]. intros st vs s E. simpl in *.
  destruct (one M (ev a st)) as [[v s1]|] eqn:A; try discriminate.
  rewrite (one_R _ _ _ _ H A). auto.
Qed.

Lemma R_func : forall f a a', R a a' -> (a' = ENull -> a = ENull) -> (a = ENull -> a' = ENull) ->
  R (EFunc f a) (EFunc f a').
Proof.
  intros f a a' H Hn Hn'; split; [|discriminate]. intros st vs s E. cbn [ExprSem.ev] in *.
  destruct a as [|k|o x|o x y|g x].
  - rewrite (Hn' eq_refl). auto.
  - destruct (ev (ELeaf k) st) as [[vs1 s1]|] eqn:A; try discriminate.
    apply H in A. destruct a'; try rewrite A; auto. discriminate Hn; auto.
  - destruct (ev (E1 o x) st) as [[vs1 s1]|] eqn:A; try discriminate.
    apply H in A. destruct a'; try rewrite A; auto. discriminate Hn; auto.
  - destruct (ev (E2 o x y) st) as [[vs1 s1]|] eqn:A; try discriminate.
    apply H in A. destruct a'; try rewrite A; auto. discriminate Hn; auto.
  - destruct (ev (EFunc g x) st) as [[vs1 s1]|] eqn:A; try discriminate.
    apply H in A. destruct a'; try rewrite A; auto. discriminate Hn; auto.
Qed.

Lemma le_or : forall a a' b b', le a' a -> le b' b -> le (a' || b') (a || b).
Proof. unfold le; intros [] [] [] []; simpl; auto. Qed.
Lemma le_and : forall a a' b b', le a' a -> le b' b -> le (a' && b') (a && b).
Proof. unfold le; intros [] [] [] []; simpl; auto. Qed.
Lemma le_neg : forall a a', le a' a -> le (negb a) (negb a').
Proof. unfold le; intros [] []; simpl; auto. Qed.
Lemma le_refl : forall a, le a a.
Proof. unfold le; auto. Qed.

Lemma mono_cong2 : forall o l l' r r', mono l l' -> mono r r' -> (o = DOT -> r' = r) ->
  mono (E2 o l r) (E2 o l' r').
Proof.
  intros o l l' r r' (A1 & A2 & A3 & A4) (B1 & B2 & B3 & B4) Hd.
  unfold mono. destruct o; try rewrite (Hd eq_refl);
    simpl; repeat split; auto using le_or, le_and, le_refl.
Qed.

Lemma node2_mono : forall o l l' r r', mono l l' -> mono r r' -> (o = DOT -> r' = r) ->
  node2_ok N o l r = true -> node2_ok N o l' r' = true.
Proof.
  intros o l l' r r' (A1 & A2 & A3 & A4) (B1 & B2 & B3 & B4) Hd.
  change (le (node2_ok N o l r) (node2_ok N o l' r')).
  destruct o; try rewrite (Hd eq_refl); simpl;
    auto 7 using le_or, le_and, le_refl, le_neg.
Qed.

Lemma ok_cong2 : forall o l l' r r', ok l l' -> ok r r' ->
  (o = DOT -> node2_ok N o l r = true -> r' = r) ->
  ok (E2 o l r) (E2 o l' r').
Proof.
  intros o l l' r r' Hl Hr Hd0 H. simpl in H. rewrite !andb_true_iff in H.
  destruct H as [[H0 H1] H2]. destruct (Hl H1) as (A & B & C). destruct (Hr H2) as (D & E & F).
  assert (Hd : o = DOT -> r' = r) by (intros; apply Hd0; auto).
  split; [apply (R_cong2 o l l' r r'); auto|]. split.
  - simpl. rewrite B, E, (node2_mono o l l' r r'); auto.
  - apply mono_cong2; auto.
Qed.

Lemma ok_cong1 : forall o a a', ok a a' -> ok (E1 o a) (E1 o a').
Proof.
  intros o a a' H H0. simpl in H0. apply andb_true_iff in H0; destruct H0 as [H1 H2].
  destruct (H H2) as (A & B & (C1 & C2 & C3 & C4)). split; [apply R_cong1; auto|]. split.
  - simpl. rewrite B, andb_true_r. destruct o; simpl in *; auto.
  - repeat split; simpl; auto. destruct o; simpl; auto using le_refl.
Qed.

Lemma ok_func : forall f a a', ok a a' -> (a' = ENull <-> a = ENull) -> ok (EFunc f a) (EFunc f a').
Proof.
  intros f a a' H Hn H0. simpl in H0. destruct (H H0) as (A & B & (C1 & C2 & C3 & C4)).
  split; [apply R_func; tauto|]. split; [simpl; auto|].
  repeat split; simpl; auto using le_refl.
Qed.

End P.
