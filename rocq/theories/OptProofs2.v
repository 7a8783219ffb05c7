(* Proofs about the expression optimiser, part 2: rotations and folding. *)
From Coq Require Import ZArith Bool List Lia.
From Verif Require Import Word WordProofs SyTree ExprSem OpTree OptSpec OptProofs.
Import ListNotations.
Open Scope Z_scope.

Section P.
Variable M : machine.
Variable N : names.
Notation state := (state M).
Notation ev := (ev M N ltr).
Notation R := (R M N).
Notation ok := (ok M N).
Notation mono := (mono N).
Notation stor := (stor M N).

Definition lval_op (o : op2) : bool :=
  match o with DOT | IDXR | IDXI | IDXC | IDXB => true | _ => false end.

Lemma stor_none : forall o l r v st, lval_op o = false -> stor (E2 o l r) v st = None.
Proof.
  intros o l r v st H. destruct o; try discriminate H; simpl;
    destruct (one M (ev l st)) as [[a s1]|]; auto;
    destruct (one M (ev r s1)) as [[b s2]|]; auto.
Qed.

Lemma R_nostor : forall o l r e', lval_op o = false ->
  (forall st vs s, ev (E2 o l r) st = Some (vs, s) -> ev e' st = Some (vs, s)) ->
  R (E2 o l r) e'.
Proof.
  intros o l r e' Ho H; split; auto. intros v st s E. rewrite stor_none in E by auto. discriminate.
Qed.

Lemma R_assoc : forall o ob o' a c d,
  strict o = true -> strict ob = true -> strict o' = true ->
  (forall x y z w v, is_word x -> is_word y -> is_word z ->
     op2_val ob y z = Some w -> op2_val o x w = Some v ->
     exists u, op2_val o x y = Some u /\ op2_val o' u z = Some v) ->
  R (E2 o a (E2 ob c d)) (E2 o' (E2 o a c) d).
Proof.
  intros o ob o' a c d S1 S2 S3 H. apply R_nostor; [destruct o; try discriminate S1; reflexivity|].
  intros st vs s E.
  rewrite ev_strict in E by auto. rewrite ev_strict by auto.
  destruct (one M (ev a st)) as [[x s1]|] eqn:A; try discriminate.
  rewrite ev_strict in E by auto. rewrite ev_strict by auto. rewrite A.
  destruct (one M (ev c s1)) as [[y s2]|] eqn:C; try discriminate.
  destruct (one M (ev d s2)) as [[z s3]|] eqn:D; try discriminate.
  destruct (op2_val ob y z) as [w|] eqn:W; try discriminate. simpl in E.
  destruct (op2_val o x w) as [v|] eqn:V; try discriminate. simpl in E. inv E.
  destruct (H x y z w v) as (u & U1 & U2); eauto using eval1_word.
  rewrite U1. simpl. rewrite D, U2. reflexivity.
Qed.

Ltac word_ring :=
  unfold w_add, w_sub, w_mul; rewrite ?w16_add_l, ?w16_add_r, ?w16_sub_l, ?w16_sub_r,
    ?w16_mul_l, ?w16_mul_r, ?w16_add_l, ?w16_add_r, ?w16_sub_l, ?w16_sub_r; f_equal; try lia.

Lemma bool2 : forall v : Z, v = 0 \/ v = 1 -> v =? 0 = false -> v = 1.
Proof. intros v [->| ->]; auto; discriminate. Qed.

Lemma assoc_ok : forall o ob a c d, canPull o ob = true ->
  ok (E2 o a (E2 ob c d)) (E2 (pulledOp o ob) (E2 o a c) d).
Proof.
  intros o ob a c d Hp Hs.
  assert (HR : R (E2 o a (E2 ob c d)) (E2 (pulledOp o ob) (E2 o a c) d)).
  { destruct o; simpl in Hp; try discriminate Hp; destruct ob; try discriminate Hp; simpl.
    - apply R_assoc; auto; simpl; intros x y z w v _ _ _ W V; inv W; inv V. eexists; split; [reflexivity|]. f_equal. word_ring.
    - apply R_assoc; auto; simpl; intros x y z w v _ _ _ W V; inv W; inv V. eexists; split; [reflexivity|]. f_equal. word_ring.
    - apply R_assoc; auto; simpl; intros x y z w v _ _ _ W V; inv W; inv V. eexists; split; [reflexivity|]. f_equal. word_ring.
    - apply R_assoc; auto; simpl; intros x y z w v _ _ _ W V; inv W; inv V. eexists; split; [reflexivity|]. f_equal. word_ring.
    - apply R_assoc; auto; simpl; intros x y z w v _ _ _ W V; inv W; inv V. eexists; split; [reflexivity|]. f_equal. unfold w_and. rewrite Z.land_assoc; auto.
    - apply R_assoc; auto; simpl; intros x y z w v _ _ _ W V; inv W; inv V. eexists; split; [reflexivity|]. f_equal. unfold w_xor. rewrite Z.lxor_assoc; auto.
    - apply R_assoc; auto; simpl; intros x y z w v _ _ _ W V; inv W; inv V. eexists; split; [reflexivity|]. f_equal. unfold w_or. rewrite Z.lor_assoc; auto.
    - apply R_assoc; auto; simpl; intros x y z w v _ _ _ W V; inv W; inv V. eexists; split; [reflexivity|]. f_equal. unfold w_mul. rewrite w16_mul_l, w16_mul_r. f_equal; lia.
    - (* OR *)
      apply R_nostor; auto. intros st vs s E. simpl in E; simpl.
      destruct (one M (ev a st)) as [[x s1]|] eqn:A; try discriminate.
      destruct (x =? 0) eqn:X; simpl.
      + destruct (one M (ev c s1)) as [[y s2]|] eqn:C; try discriminate. simpl.
        destruct (y =? 0) eqn:Y; simpl in E.
        * destruct (one M (ev d s2)) as [[z s3]|] eqn:D; try discriminate. simpl in E; auto.
        * auto.
      + auto.
    - (* AND *)
      apply R_nostor; auto. intros st vs s E. simpl in E; simpl.
      destruct (one M (ev a st)) as [[x s1]|] eqn:A; try discriminate.
      destruct (x =? 0) eqn:X; simpl.
      + auto.
      + destruct (one M (ev c s1)) as [[y s2]|] eqn:C; try discriminate. simpl.
        destruct (y =? 0) eqn:Y; simpl in E; auto.
        destruct (one M (ev d s2)) as [[z s3]|] eqn:D; try discriminate. simpl in E; auto. }
  split; [exact HR|]. clear HR.
  split.
  - destruct o; simpl in Hp; try discriminate Hp; destruct ob; try discriminate Hp; simpl in *; rewrite ?andb_true_iff, ?negb_true_iff in *;
      try (intuition; fail);
      repeat match goal with
      | |- context [has_effect ?x] => destruct (has_effect x)
      | |- context [may_const ?x] => destruct (may_const x)
      | |- context [bexp N ?x] => destruct (bexp N x) end; simpl in *; intuition.
  - destruct o; simpl in Hp; try discriminate Hp; destruct ob; try discriminate Hp;
      unfold OptProofs.mono, le; simpl;
      rewrite <- ?andb_assoc, <- ?orb_assoc; intuition.
Qed.

Lemma moveLeft_null : forall e, moveLeft e = ENull <-> e = ENull.
Proof.
  assert (Hp : forall r o a, pull o a r <> ENull).
  { induction r as [|k|o1 x IH|ob c IHc d IHd|f x IH]; intros o a; simpl; try discriminate.
    destruct (canPull o ob); [apply IHd|discriminate]. }
  destruct e; simpl; split; intros H; try discriminate; auto.
  exfalso; eapply Hp; eauto.
Qed.

Lemma dot_leaf : forall l r, node2_ok N DOT l r = true -> exists f, r = Cnst f /\ is_word f.
Proof.
  intros l r H. simpl in H. destruct r as [|[f| | | | |]| | |]; try discriminate H.
  exists f; split; auto. apply andb_true_iff in H; rewrite Z.leb_le, Z.ltb_lt in H. exact H.
Qed.

Lemma pull_ok : forall r,
  ok r (moveLeft r) /\ (forall o a, ok (E2 o a r) (pull o a r)).
Proof.
  induction r as [|k|o1 x [IH _]|ob c [IHc IHc'] d [IHd IHd']|f x [IH _]]; split; intros.
  - apply ok_refl.
  - apply ok_refl.
  - apply ok_refl.
  - apply ok_refl.
  - apply ok_cong1; auto.
  - simpl. apply ok_cong2; [apply ok_refl|apply ok_cong1; auto|].
    intros -> H. apply dot_leaf in H. destruct H as (f & H & _); discriminate.
  - simpl. eapply ok_trans; [|apply IHd'].
    apply ok_cong2; [exact IHc|apply ok_refl|auto].
  - simpl. destruct (canPull o ob) eqn:P.
    + eapply ok_trans; [apply assoc_ok; exact P|].
      eapply ok_trans; [|apply IHd'].
      apply ok_cong2; [apply IHc'|apply ok_refl|auto].
    + apply ok_cong2; [apply ok_refl| |].
      * eapply ok_trans; [|apply IHd']. apply ok_cong2; [exact IHc|apply ok_refl|auto].
      * intros -> H. apply dot_leaf in H. destruct H as (f & H & _); discriminate.
  - simpl. apply ok_func; auto. apply moveLeft_null.
  - simpl. apply ok_cong2; [apply ok_refl| |].
    + apply ok_func; auto. apply moveLeft_null.
    + intros -> H. apply dot_leaf in H. destruct H as (g & H & _); discriminate.
Qed.

Lemma moveLeft_ok : forall e, ok e (moveLeft e).
Proof. intros e; apply pull_ok. Qed.

(* ---- moving a constant towards the leaves ---- *)
Lemma one_cnst : forall c s, one M (ev (Cnst c) s) = Some (w16 c, s).
Proof. reflexivity. Qed.

Lemma R_rot : forall o lop x a c,
  strict o = true -> strict lop = true ->
  (forall u y w v k, is_word u -> is_word y ->
     op2_val lop u y = Some w -> op2_val o w k = Some v ->
     exists t, op2_val o u k = Some t /\ op2_val lop t y = Some v) ->
  R (E2 o (E2 lop x a) (Cnst c)) (E2 lop (E2 o x (Cnst c)) a).
Proof.
  intros o lop x a c S1 S2 H. apply R_nostor; [destruct o; try discriminate S1; reflexivity|].
  intros st vs s E.
  rewrite ev_strict in E by auto. rewrite ev_strict in E by auto.
  rewrite ev_strict by auto. rewrite ev_strict by auto.
  destruct (one M (ev x st)) as [[u s1]|] eqn:A; try discriminate.
  rewrite one_cnst.
  destruct (one M (ev a s1)) as [[y s2]|] eqn:C; try discriminate.
  destruct (op2_val lop u y) as [w|] eqn:W; try discriminate. simpl in E.
  destruct (op2_val o w (w16 c)) as [v|] eqn:V; try discriminate. simpl in E. inv E.
  destruct (H u y w v (w16 c)) as (t & U1 & U2); eauto using eval1_word.
  rewrite U1. simpl. rewrite C, U2. reflexivity.
Qed.

Definition rotop (op lop : op2) : bool :=
  op2_eqb lop op || (op2_eqb op ADD && op2_eqb lop SUB).

Lemma rot_ok : forall op lop x a c, movable op = true -> op <> DIV -> rotop op lop = true ->
  ok (E2 op (E2 lop x a) (Cnst c)) (E2 lop (E2 op x (Cnst c)) a).
Proof.
  intros op lop x a c Hm Hnd Hr Hs.
  split.
  { destruct op; try discriminate Hm; destruct lop; try discriminate Hr; try congruence.
    - apply R_rot; auto; simpl; intros u y w v k _ _ W V; inv W; inv V. eexists; split; [reflexivity|]. f_equal. word_ring.
    - apply R_rot; auto; simpl; intros u y w v k _ _ W V; inv W; inv V. eexists; split; [reflexivity|]. f_equal. word_ring.
    - apply R_rot; auto; simpl; intros u y w v k _ _ W V; inv W; inv V. eexists; split; [reflexivity|]. f_equal. unfold w_and. rewrite <- !Z.land_assoc. f_equal. apply Z.land_comm.
    - apply R_rot; auto; simpl; intros u y w v k _ _ W V; inv W; inv V. eexists; split; [reflexivity|]. f_equal. unfold w_xor. rewrite !Z.lxor_assoc. f_equal. apply Z.lxor_comm.
    - apply R_rot; auto; simpl; intros u y w v k _ _ W V; inv W; inv V. eexists; split; [reflexivity|]. f_equal. unfold w_or. rewrite <- !Z.lor_assoc. f_equal. apply Z.lor_comm.
    - apply R_rot; auto; simpl; intros u y w v k _ _ W V; inv W; inv V. eexists; split; [reflexivity|]. f_equal. unfold w_mul. rewrite !w16_mul_l. f_equal; lia.
    - (* OR *)
      simpl in Hs. rewrite !andb_true_iff in Hs.
      destruct Hs as [[[[[Bx Ba] Bc] E0] [[_ Sx] Sa]] _].
      rewrite andb_true_r, negb_true_iff, orb_false_iff in E0. destruct E0 as [Ex Ea].
      apply R_nostor; auto. intros st vs s E. simpl in E; simpl.
      destruct (one M (ev x st)) as [[u s1]|] eqn:A; try discriminate.
      assert (s1 = st) by (apply one_some in A; eapply ev_pure; [|exact A]; auto); subst s1.
      assert (Cc : w16 c = 0 \/ w16 c = 1).
      { rewrite orb_true_iff, !Z.eqb_eq in Bc. destruct Bc; subst; auto. }
      destruct (u =? 0) eqn:U; simpl.
      + destruct (one M (ev a st)) as [[y s2]|] eqn:C; try discriminate.
        assert (s2 = st) by (apply one_some in C; eapply ev_pure; [|exact C]; auto); subst s2.
        destruct Cc as [Cc|Cc]; rewrite Cc in *; simpl in *.
        * destruct (y =? 0) eqn:Y; simpl in *; [|rewrite (bool2 y); auto; eapply bexp_val; eauto].
          apply Z.eqb_eq in Y; subst; auto.
        * destruct (y =? 0) eqn:Y; simpl in *; auto.
      + auto.
    - simpl in Hs. rewrite !andb_true_iff in Hs.
      destruct Hs as [[[[[Bx Ba] Bc] E0] [[_ Sx] Sa]] _].
      rewrite andb_true_r, negb_true_iff, orb_false_iff in E0. destruct E0 as [Ex Ea].
      apply R_nostor; auto. intros st vs s E. simpl in E; simpl.
      destruct (one M (ev x st)) as [[u s1]|] eqn:A; try discriminate.
      assert (s1 = st) by (apply one_some in A; eapply ev_pure; [|exact A]; auto); subst s1.
      assert (Cc : w16 c = 0 \/ w16 c = 1).
      { rewrite orb_true_iff, !Z.eqb_eq in Bc. destruct Bc; subst; auto. }
      destruct (u =? 0) eqn:U; simpl; auto.
      destruct (one M (ev a st)) as [[y s2]|] eqn:C; try discriminate.
      assert (s2 = st) by (apply one_some in C; eapply ev_pure; [|exact C]; auto); subst s2.
      destruct Cc as [Cc|Cc]; rewrite Cc in *; simpl in *.
      + destruct (y =? 0) eqn:Y; simpl in *; auto.
      + destruct (y =? 0) eqn:Y; simpl in *; [apply Z.eqb_eq in Y; subst; auto|].
        rewrite (bool2 y); auto. eapply bexp_val; eauto. }
  split.
  - destruct op; try discriminate Hm; destruct lop; try discriminate Hr; try congruence;
    simpl in *; rewrite ?andb_true_iff, ?negb_true_iff, ?orb_false_r, ?orb_true_r, ?andb_true_r in *;
      try (intuition; fail);
      repeat match goal with
      | |- context [has_effect ?x] => destruct (has_effect x)
      | |- context [may_const ?x] => destruct (may_const x)
      | |- context [bexp N ?x] => destruct (bexp N x) end; simpl in *; intuition; try discriminate.
  - destruct op; try discriminate Hm; destruct lop; try discriminate Hr; try congruence;
      unfold OptProofs.mono, le; simpl; rewrite ?orb_false_r, ?andb_true_r, ?orb_true_r; intuition;
      rewrite ?andb_true_iff in *; intuition.
Qed.


Lemma merge_ok : forall op y c1 c, movable op = true -> op <> DIV ->
  ok (E2 op (E2 op y (Cnst c1)) (Cnst c)) (E2 op y (E2 op (Cnst c1) (Cnst c))).
Proof.
  intros op y c1 c Hm Hnd Hs. split.
  { apply R_nostor; [destruct op; try discriminate Hm; reflexivity|]. intros st vs s E.
    destruct op; try discriminate Hm; try congruence;
      try (rewrite ev_strict in E by reflexivity; rewrite ev_strict in E by reflexivity;
           rewrite ev_strict by reflexivity;
           destruct (one M (ev y st)) as [[u s1]|] eqn:A; try discriminate;
           rewrite ev_strict by reflexivity; simpl in *; rewrite <- E; generalize (w16 c1) (w16 c); intros; f_equal; f_equal; f_equal).
    - word_ring.
    - unfold w_and; apply Z.land_assoc.
    - unfold w_xor; symmetry; apply Z.lxor_assoc.
    - unfold w_or; apply Z.lor_assoc.
    - unfold w_mul. rewrite w16_mul_l, w16_mul_r. f_equal; lia.
    - simpl in *. destruct (one M (ev y st)) as [[u s1]|] eqn:A; try discriminate.
      destruct (u =? 0); simpl in *; auto. destruct (w16 c1 =? 0) eqn:C1; simpl in *; auto.
    - simpl in *. destruct (one M (ev y st)) as [[u s1]|] eqn:A; try discriminate.
      destruct (u =? 0); simpl in *; auto. destruct (w16 c1 =? 0) eqn:C1; simpl in *; auto. }
  split.
  - destruct op; try discriminate Hm; try congruence; simpl in *;
    rewrite ?andb_true_iff, ?negb_true_iff, ?orb_false_r, ?orb_true_r, ?andb_true_r in *;
      try (intuition; fail).
  - destruct op; try discriminate Hm; try congruence;
      unfold OptProofs.mono, le; simpl; rewrite ?orb_false_r, ?andb_true_r, ?orb_true_r, <- ?andb_assoc; intuition.
Qed.

Lemma is_cnst_inv : forall e, is_cnst e = true -> exists c, e = Cnst c.
Proof. intros [|[]| | |] H; try discriminate H; eauto. Qed.

Lemma pushC_ok : forall op l c, movable op = true -> op <> DIV ->
  ok (E2 op l (Cnst c)) (pushC op l (Cnst c)).
Proof.
  intros op l c Hm Hnd. induction l as [|k|o1 x IH|lop x IHx a IHa|f x IH]; simpl; try apply ok_refl.
  destruct ((op2_eqb lop op || op2_eqb op ADD && op2_eqb lop SUB) && negb (is_cnst a)) eqn:E.
  - apply andb_true_iff in E; destruct E as [E1 _].
    eapply ok_trans; [apply rot_ok; auto|].
    apply ok_cong2; [exact IHx|apply ok_refl|auto].
  - destruct (op2_eqb lop op) eqn:E2; [|apply ok_refl].
    simpl in E. apply negb_false_iff in E. apply is_cnst_inv in E. destruct E as [c1 ->].
    apply op2_eqb_eq in E2; subst lop.
    replace (if op2_eqb op DIV then MUL else op) with op by (destruct op; auto; congruence).
    apply merge_ok; auto.
Qed.

Lemma getSInt_cong : forall v, w16 (getSInt v) = w16 v.
Proof.
  intros v; unfold getSInt. destruct (Z.testbit v 15) eqn:B; auto.
  rewrite <- !land_65535. change (Z.lxor (-1) WMSK) with (Z.shiftl (-1) 16).
  apply Z.bits_inj'; intros i Hi. rewrite !Z.land_spec, Z.lor_spec.
  change 65535 with (Z.ones 16).
  destruct (Z_lt_le_dec i 16).
  - rewrite Z.shiftl_spec_low by lia. rewrite orb_false_r; auto.
  - rewrite (Z.ones_spec_high 16 i) by lia. rewrite !andb_false_r; auto.
Qed.

Lemma testbit15 : forall v, is_word v -> Z.testbit v 15 = negb (v <? 32768).
Proof.
  intros v [H1 H2]. rewrite Z.testbit_eqb by lia. change (2 ^ 15) with 32768.
  destruct (v <? 32768) eqn:E; simpl.
  - apply Z.ltb_lt in E. rewrite Z.div_small by lia. reflexivity.
  - apply Z.ltb_ge in E. replace (v / 32768) with 1; [reflexivity|].
    apply Z.div_unique with (r := v - 32768); lia.
Qed.

Lemma getSInt_sval : forall v, is_word v -> getSInt v = sval v.
Proof.
  intros v H. unfold getSInt, sval. rewrite testbit15 by auto.
  destruct (v <? 32768) eqn:E; simpl; auto.
  change (Z.lxor (-1) WMSK) with (Z.shiftl (-1) 16).
  assert (L : Z.land v (Z.shiftl (-1) 16) = 0).
  { apply Z.bits_inj'; intros i Hi. rewrite Z.land_spec, Z.bits_0.
    destruct (Z_lt_le_dec i 16).
    - rewrite Z.shiftl_spec_low by lia. apply andb_false_r.
    - apply word_bits in H. rewrite (proj2 H) by lia. reflexivity. }
  rewrite <- Z.lxor_lor by auto. rewrite <- Z.add_nocarry_lxor by auto.
  change (Z.shiftl (-1) 16) with (-65536). lia.
Qed.

Lemma normSub_ok : forall l v, ok (E2 SUB l (Cnst v)) (E2 ADD l (Cnst (- getSInt v))).
Proof.
  intros l v Hs. split; [|split].
  - apply R_nostor; auto. intros st vs s E.
    rewrite ev_strict in E by auto. rewrite ev_strict by auto.
    destruct (one M (ev l st)) as [[u s1]|] eqn:A; try discriminate.
    simpl in *. rewrite <- E. f_equal; f_equal; f_equal.
    unfold w_add, w_sub. rewrite w16_add_r, w16_sub_r.
    rewrite <- (w16_add_r u (- getSInt v)).
    rewrite <- (w16_opp (getSInt v)), getSInt_cong, w16_opp, w16_add_r. f_equal; lia.
  - simpl in *. auto.
  - unfold OptProofs.mono, le; simpl; auto.
Qed.

Lemma moveCnst_ok : forall o l r, ok (E2 o l r) (moveCnst o l r).
Proof.
  intros o l r. unfold moveCnst.
  destruct (normSub o r) as [o' r'] eqn:Nm.
  assert (H : ok (E2 o l r) (E2 o' l r')).
  { destruct o; simpl in Nm; try (inv Nm; apply ok_refl).
    destruct r as [|[]| | |]; inv Nm; try apply ok_refl. apply normSub_ok. }
  eapply ok_trans; [exact H|]. clear H.
  destruct (movable o' && is_cnst r') eqn:E; [|apply ok_refl].
  apply andb_true_iff in E; destruct E as [Hm Hc]. apply is_cnst_inv in Hc. destruct Hc as [c ->].
  destruct (op2_eqb o' DIV) eqn:D.
  - apply op2_eqb_eq in D; subst o'. intros Hs.
    destruct l as [|k|o1 x|lop x a|f x]; simpl; try (apply ok_refl; auto; fail).
    destruct lop; simpl; try (apply ok_refl; auto; fail).
    simpl in Hs. discriminate.
  - apply pushC_ok; auto. intros ->. discriminate.
Qed.

End P.
