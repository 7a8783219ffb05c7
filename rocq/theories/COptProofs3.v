(* Proofs about constant folding and the whole expression optimiser of the 32-bit build. *)
From Coq Require Import ZArith Bool List Lia.
From Verif Require Import CWord CWordProofs SyTree ExprSem CExprSem OpTree COpTree OptSpec COptProofs COptProofs2.
Import ListNotations.
Open Scope Z_scope.

Section P.
Variable M : machine.
Variable N : names.
Notation state := (state M).
Notation ev := (cev M N ltr).
Notation ok := (ok M N).
Notation stor := (stor M N).
Notation mono := (mono N).
Notation R := (R M N).

(* ---- folding ---- *)
Lemma mask_ok : forall e, ok e (maskI e).
Proof.
  intros [|[]| | |] Hs; try (apply ok_refl; exact Hs). split; [|split]; auto.
  - split; [|discriminate]. intros st vs s E. simpl in *. rewrite <- E. rewrite w32_i32. auto.
  - unfold COptProofs.mono, le; simpl; repeat split; auto.
    rewrite !orb_true_iff, !Z.eqb_eq. intros [->| ->]; auto.
Qed.

Definition croot (e : expr) : Prop := forall v, e = Cnst v -> isInt v = true.

Lemma mask_croot : forall e, croot (maskI e).
Proof.
  intros e w H. destruct e as [|[v| | | | |]| | |]; simpl in H; try discriminate; inv H.
  apply i32_int.
Qed.

Lemma getBool_word : forall v, getBool v = negb (v mod 2 =? 0).
Proof.
  intros v; unfold getBool. rewrite Z.bit0_odd. rewrite Zmod_odd. destruct (Z.odd v); reflexivity.
Qed.

Lemma w32_mod : forall v m k, 0 < m -> 4294967296 = m * k -> w32 v mod m = v mod m.
Proof.
  intros v m k Hm Hk. unfold w32. rewrite Hk. rewrite Z.rem_mul_r by lia.
  rewrite Z.mul_comm, Z.mod_add by lia. apply Z.mod_mod; lia.
Qed.

Lemma cInt_inv : forall v e, cInt v = Ok e -> e = Cnst v /\ isInt v = true.
Proof. unfold cInt; intros v e H. destruct (isInt v) eqn:E; inv H; auto. Qed.

Lemma opt1_ok : forall o l e', croot l -> cOpt1 o l = Ok e' -> ok (E1 o l) e'.
Proof.
  intros o l e' Hc He. destruct l as [|[v| | | | |]| | |]; simpl in He; try (inv He; apply ok_refl).
  assert (Hv : isInt v = true) by (apply Hc; auto). intros Hs. simpl in Hs.
  assert (K : exists c, e' = Cnst c /\ c1_val o (w32 v) = w32 c /\
    (o = NOT \/ o = BOOL -> c = 0 \/ c = 1)).
  { destruct o.
    - apply cInt_inv in He as [-> _]. eexists; repeat split; [apply w32_opp|intros [|]; discriminate].
    - inv He. eexists; repeat split.
      + simpl in Hs. rewrite ?andb_true_r, orb_true_iff, !Z.eqb_eq in Hs.
        destruct Hs; subst; reflexivity.
      + intros _. destruct (getBool v); simpl; auto.
    - inv He. eexists; repeat split; [|intros [|]; discriminate]. simpl. unfold w_bnot, Z.lnot.
      pose proof (w32_range v) as [R1 R2].
      rewrite <- (w32_id (4294967295 - w32 v)) by (unfold is_word; lia).
      destruct (w32_eq_ex v) as [k Hk].
      apply w32_cong with (k := 1 - k). lia.
    - inv He. eexists; repeat split; [|intros [|]; discriminate]. simpl. unfold BMSK, w_chr.
      rewrite land_255. rewrite (w32_mod v 256 16777216) by lia. symmetry. apply w32_id.
      pose proof (Z.mod_pos_bound v 256); unfold is_word; lia.
    - inv He. eexists; repeat split.
      + simpl. unfold w_bool. rewrite (w32_mod v 2 2147483648) by lia. rewrite getBool_word.
        destruct (mod2_01 v) as [->| ->]; reflexivity.
      + intros _. destruct (getBool v); simpl; auto. }
  clear He. destruct K as (c & -> & Hval & Hb).
  split; [|split; [reflexivity|]].
  - split; [|intros; discriminate]. intros st vs s E. simpl in E. inv E. simpl. rewrite Hval. reflexivity.
  - unfold COptProofs.mono, le; destruct o; simpl; repeat split; auto; try discriminate;
      intros _; destruct Hb as [-> | ->]; auto.
Qed.

Definition is_cmp (o : op2) : bool :=
  match o with GT | GE | LT | LE | EQU | NEQ => true | _ => false end.

(* constants on both sides *)
Lemma fold_ok : forall o a b v, strict o = true ->
  c2_val o (w32 a) (w32 b) = Some (w32 v) ->
  (is_cmp o = true -> v = 0 \/ v = 1) ->
  ok (E2 o (Cnst a) (Cnst b)) (Cnst v).
Proof.
  intros o a b v So H Hb Hs. split; [|split]; auto.
  - apply R_nostor; [destruct o; try discriminate So; reflexivity|].
    intros st vs s E. rewrite ev_strict in E by auto. simpl in E. rewrite H in E. exact E.
  - unfold COptProofs.mono, le; destruct o; try discriminate So; simpl; repeat split; auto; try discriminate;
      intros _; destruct (Hb eq_refl); subst; auto.
Qed.

Definition arith (o : op2) : bool :=
  match o with ADD | SUB | SHL | SHR | BAND | BXOR | BOR | MUL | DIV | MOD => true | _ => false end.

Lemma idl_ok : forall o k r, arith o = true ->
  (forall b, is_word b -> c2_val o (w32 k) b = Some b) -> ok (E2 o (Cnst k) r) r.
Proof.
  intros o k r So H Hs. split; [|split].
  - apply R_nostor; [destruct o; try discriminate So; reflexivity|].
    intros st vs s E. rewrite ev_strict in E by (destruct o; auto; discriminate). simpl in E.
    destruct (one M (ev r st)) as [[b s1]|] eqn:B; try discriminate.
    rewrite H in E by (eapply eval1_word; eauto). simpl in E; inv E. apply one_some; auto.
  - simpl in Hs. rewrite !andb_true_iff in Hs; tauto.
  - unfold COptProofs.mono, le; destruct o; try discriminate So; simpl; repeat split; auto; discriminate.
Qed.

Lemma idr_ok : forall o k l, arith o = true ->
  (forall a, is_word a -> c2_val o a (w32 k) = Some a) -> ok (E2 o l (Cnst k)) l.
Proof.
  intros o k l So H Hs. split; [|split].
  - apply R_nostor; [destruct o; try discriminate So; reflexivity|].
    intros st vs s E. rewrite ev_strict in E by (destruct o; auto; discriminate).
    destruct (one M (ev l st)) as [[b s1]|] eqn:B; try discriminate. simpl in E.
    rewrite H in E by (eapply eval1_word; eauto). simpl in E; inv E. apply one_some; auto.
  - simpl in Hs. rewrite !andb_true_iff in Hs; tauto.
  - unfold COptProofs.mono, le; destruct o; try discriminate So; simpl;
      rewrite ?orb_true_r, ?orb_false_r, ?andb_true_r; repeat split; auto; discriminate.
Qed.

Lemma un_l_ok : forall o k r u, arith o = true -> u <> NOT -> u <> BOOL ->
  (forall b, is_word b -> c2_val o (w32 k) b = Some (c1_val u b)) -> ok (E2 o (Cnst k) r) (E1 u r).
Proof.
  intros o k r u So Hu1 Hu2 H Hs. split; [|split].
  - apply R_nostor; [destruct o; try discriminate So; reflexivity|].
    intros st vs s E. rewrite ev_strict in E by (destruct o; auto; discriminate). simpl in E.
    simpl. destruct (one M (ev r st)) as [[b s1]|] eqn:B; try discriminate.
    rewrite H in E by (eapply eval1_word; eauto). simpl in E; inv E. auto.
  - simpl in *. rewrite !andb_true_iff in *. destruct u; simpl; try congruence; tauto.
  - unfold COptProofs.mono, le; destruct o; try discriminate So; simpl; repeat split; auto; discriminate.
Qed.

Lemma un_r_ok : forall o k l u, arith o = true -> u <> NOT -> u <> BOOL ->
  (forall a, is_word a -> c2_val o a (w32 k) = Some (c1_val u a)) -> ok (E2 o l (Cnst k)) (E1 u l).
Proof.
  intros o k l u So Hu1 Hu2 H Hs. split; [|split].
  - apply R_nostor; [destruct o; try discriminate So; reflexivity|].
    intros st vs s E. rewrite ev_strict in E by (destruct o; auto; discriminate).
    simpl. destruct (one M (ev l st)) as [[b s1]|] eqn:B; try discriminate. simpl in E.
    rewrite H in E by (eapply eval1_word; eauto). simpl in E; inv E. auto.
  - simpl in *. rewrite !andb_true_iff in *. destruct u; simpl; try congruence; tauto.
  - unfold COptProofs.mono, le; destruct o; try discriminate So; simpl;
      rewrite ?orb_true_r, ?orb_false_r, ?andb_true_r; repeat split; auto; discriminate.
Qed.

(* absorbing constants: the other operand has no side effect *)
Lemma absl_ok : forall o k r v, (o = MUL \/ o = BAND \/ o = BOR) ->
  (forall b, is_word b -> c2_val o (w32 k) b = Some (w32 v)) -> ok (E2 o (Cnst k) r) (Cnst v).
Proof.
  intros o k r v Ho H Hs.
  assert (So : arith o = true) by (destruct Ho as [->|[->| ->]]; auto).
  split; [|split]; auto.
  - assert (He : has_effect r = false).
    { destruct Ho as [->|[->| ->]]; simpl in Hs; rewrite andb_true_r in Hs;
      destruct (has_effect r); simpl in Hs; auto; discriminate. }
    apply R_nostor; [destruct o; try discriminate So; reflexivity|].
    intros st vs s E. rewrite ev_strict in E by (destruct o; auto; discriminate). simpl in E.
    destruct (one M (ev r st)) as [[b s1]|] eqn:B; try discriminate.
    rewrite H in E by (eapply eval1_word; eauto). simpl in E; inv E.
    apply one_some in B. apply ev_pure in B; auto. subst; reflexivity.
  - unfold COptProofs.mono, le; destruct Ho as [->|[->| ->]]; simpl; repeat split; auto; discriminate.
Qed.

Lemma absr_ok : forall o k l v, (o = MUL \/ o = BAND \/ o = BOR \/ o = MOD) ->
  (forall a, is_word a -> c2_val o a (w32 k) = Some (w32 v)) -> ok (E2 o l (Cnst k)) (Cnst v).
Proof.
  intros o k l v Ho H Hs.
  assert (So : arith o = true) by (destruct Ho as [->|[->|[->| ->]]]; auto).
  split; [|split]; auto.
  - assert (He : has_effect l = false).
    { destruct Ho as [->|[->|[->| ->]]]; simpl in Hs;
      rewrite ?orb_true_r, ?orb_false_r, ?andb_true_r in Hs;
      destruct (has_effect l); simpl in Hs; auto; discriminate. }
    apply R_nostor; [destruct o; try discriminate So; reflexivity|].
    intros st vs s E. rewrite ev_strict in E by (destruct o; auto; discriminate). simpl in E.
    destruct (one M (ev l st)) as [[b s1]|] eqn:B; try discriminate.
    rewrite H in E by (eapply eval1_word; eauto). simpl in E; inv E.
    apply one_some in B. apply ev_pure in B; auto. subst; reflexivity.
  - unfold COptProofs.mono, le; destruct Ho as [->|[->|[->| ->]]]; simpl; rewrite ?orb_true_r; repeat split; auto; discriminate.
Qed.

Lemma cIsN_inv : forall e n, cIsN e n = true -> e = Cnst n.
Proof.
  intros [|[v| | | | |]| | |] n H; try discriminate H. simpl in H. apply Z.eqb_eq in H. congruence.
Qed.

Lemma two_cnst : forall l r, (exists a b, l = Cnst a /\ r = Cnst b) \/
  (forall a b, ~ (l = Cnst a /\ r = Cnst b)).
Proof.
  intros l r. destruct l as [|[a| | | | |]| | |]; try (right; intros x y [? ?]; discriminate).
  destruct r as [|[b| | | | |]| | |]; try (right; intros x y [? ?]; discriminate). eauto.
Qed.

Ltac isc := repeat match goal with
  | |- context [if cIsN ?e ?n || cIsN ?e' ?n' then _ else _] =>
      let E := fresh "E" in destruct (cIsN e n) eqn:E;
      [apply cIsN_inv in E; subst e; cbn [orb]
      | destruct (cIsN e' n') eqn:?; cbn [orb]]
  | |- context [if cIsN ?e ?n then _ else _] =>
      let E := fresh "E" in destruct (cIsN e n) eqn:E; [apply cIsN_inv in E; subst e|]
  | E : cIsN ?e ?n = true |- _ => apply cIsN_inv in E; subst e
  end; cbn [orb].

Ltac nocnst H l r :=
  destruct l as [|[?| | | | |]| | |]; try reflexivity;
  destruct r as [|[?| | | | |]| | |]; try reflexivity; exfalso; eapply H; split; reflexivity.

Lemma w32_0 : w32 0 = 0. Proof. reflexivity. Qed.
Lemma wmsk_m1 : forall x, is_word x -> w_neg x = w32 (4294967295 * x).
Proof. intros x H. unfold w_neg. apply w32_cong with (k := -x). lia. Qed.

Lemma land_all : forall x, is_word x -> Z.land x 4294967295 = x.
Proof. intros x H. rewrite land_4294967295. apply w32_id; auto. Qed.
Lemma lor_all : forall x, is_word x -> Z.lor x 4294967295 = 4294967295.
Proof.
  intros x H. apply Z.bits_inj'; intros i Hi. rewrite Z.lor_spec. change 4294967295 with (Z.ones 32).
  destruct (Z_lt_le_dec i 32).
  - rewrite Z.ones_spec_low by lia. apply orb_true_r.
  - rewrite Z.ones_spec_high by lia. rewrite orb_false_r. apply word_bits in H. apply H; lia.
Qed.
Lemma lxor_all : forall x, is_word x -> Z.lxor x 4294967295 = w_bnot x.
Proof.
  intros x H. unfold w_bnot.
  assert (E : Z.land (Z.lxor x 4294967295) x = 0).
  { apply Z.bits_inj'; intros i Hi. rewrite Z.land_spec, Z.lxor_spec, Z.bits_0.
    change 4294967295 with (Z.ones 32). destruct (Z_lt_le_dec i 32).
    - rewrite Z.ones_spec_low by lia. destruct (Z.testbit x i); reflexivity.
    - apply word_bits in H. rewrite (proj2 H) by lia. apply andb_false_r. }
  assert (S : Z.lxor x 4294967295 + x = 4294967295).
  { rewrite Z.add_nocarry_lxor by auto. rewrite (Z.lxor_comm x 4294967295), Z.lxor_assoc, Z.lxor_nilpotent.
    apply Z.lxor_0_r. }
  lia.
Qed.

Ltac W := intros; cbn [c2_val c1_val]; change (w32 0) with 0; change (w32 1) with 1;
  change (w32 (-1)) with 4294967295.

Lemma add_sound : forall l r e', cAdd l r = Ok e' -> ok (E2 ADD l r) e'.
Proof.
  intros l r e' He. destruct (two_cnst l r) as [(a & b & -> & ->)|H].
  - cbn [cAdd] in He. apply cInt_inv in He as [-> _].
    apply fold_ok; auto; [|discriminate].
    simpl. f_equal. unfold w_add. rewrite w32_add_l, w32_add_r. auto.
  - replace (cAdd l r) with (Ok (if cIsN l 0 then r else if cIsN r 0 then l else E2 ADD l r)) in He
      by (destruct (cIsN l 0) eqn:?, (cIsN r 0) eqn:?; unfold cAdd; rewrite ?Heqb, ?Heqb0; nocnst H l r).
    injection He as <-.
    isc; [apply idl_ok | apply idr_ok | apply ok_refl]; auto; W; f_equal; unfold w_add;
      rewrite ?Z.add_0_r; apply w32_id; auto.
Qed.

Lemma sub_sound : forall l r e', cSub l r = Ok e' -> ok (E2 SUB l r) e'.
Proof.
  intros l r e' He. destruct (two_cnst l r) as [(a & b & -> & ->)|H].
  - cbn [cSub] in He. apply cInt_inv in He as [-> _].
    apply fold_ok; auto; [|discriminate].
    simpl. f_equal. unfold w_sub. rewrite w32_sub_l, w32_sub_r. auto.
  - replace (cSub l r) with (Ok (if cIsN l 0 then E1 NEG r else if cIsN r 0 then l else E2 SUB l r)) in He
      by (destruct (cIsN l 0) eqn:?, (cIsN r 0) eqn:?; unfold cSub; rewrite ?Heqb, ?Heqb0; nocnst H l r).
    injection He as <-.
    isc; [apply un_l_ok | apply idr_ok | apply ok_refl]; auto; try discriminate; W; f_equal; unfold w_sub;
      rewrite ?Z.sub_0_r; try apply w32_id; auto.
Qed.

Lemma mul_sound : forall l r e', cMul l r = Ok e' -> ok (E2 MUL l r) e'.
Proof.
  intros l r e' He. destruct (two_cnst l r) as [(a & b & -> & ->)|H].
  - cbn [cMul] in He. apply cInt_inv in He as [-> _].
    apply fold_ok; auto; [|discriminate].
    simpl. f_equal. unfold w_mul. rewrite w32_mul_l, w32_mul_r. auto.
  - replace (cMul l r) with
      (Ok (if cIsN l 0 || cIsN r 0 then Cnst 0
      else if cIsN l 1 then r
      else if cIsN r 1 then l
      else if cIsN l (-1) then E1 NEG r
      else if cIsN r (-1) then E1 NEG l
      else E2 MUL l r)) in He
      by (transitivity (if cIsN l 0 || cIsN r 0 then Ok (Cnst 0)
      else if cIsN l 1 then Ok r
      else if cIsN r 1 then Ok l
      else if cIsN l (-1) then Ok (E1 NEG r)
      else if cIsN r (-1) then Ok (E1 NEG l)
      else Ok (E2 MUL l r));
      [repeat match goal with |- context [if ?x then _ else _] => destruct x end; reflexivity
      |nocnst H l r]).
    injection He as <-.
    isc; [apply absl_ok | apply absr_ok | apply idl_ok | apply idr_ok | apply un_l_ok
         | apply un_r_ok | apply ok_refl]; auto; try discriminate; W; f_equal; unfold w_mul;
      rewrite ?Z.mul_1_l, ?Z.mul_1_r, ?Z.mul_0_r; try apply w32_id; auto; try (unfold is_word; lia).
    + rewrite wmsk_m1; auto.
    + rewrite wmsk_m1, Z.mul_comm; auto.
Qed.

Lemma w32_bits : forall v i, 0 <= i -> Z.testbit (w32 v) i = (i <? 32) && Z.testbit v i.
Proof.
  intros v i Hi. unfold w32. change 4294967296 with (2 ^ 32). destruct (i <? 32) eqn:E.
  - apply Z.ltb_lt in E. rewrite Z.mod_pow2_bits_low by lia. reflexivity.
  - apply Z.ltb_ge in E. rewrite Z.mod_pow2_bits_high by lia. reflexivity.
Qed.
Lemma w32_land : forall a b, Z.land (w32 a) (w32 b) = w32 (Z.land a b).
Proof.
  intros. apply Z.bits_inj'; intros i Hi. rewrite Z.land_spec, !w32_bits, Z.land_spec by lia.
  destruct (i <? 32); reflexivity.
Qed.
Lemma w32_lor : forall a b, Z.lor (w32 a) (w32 b) = w32 (Z.lor a b).
Proof.
  intros. apply Z.bits_inj'; intros i Hi. rewrite Z.lor_spec, !w32_bits, Z.lor_spec by lia.
  destruct (i <? 32); reflexivity.
Qed.
Lemma w32_lxor : forall a b, Z.lxor (w32 a) (w32 b) = w32 (Z.lxor a b).
Proof.
  intros. apply Z.bits_inj'; intros i Hi. rewrite Z.lxor_spec, !w32_bits, Z.lxor_spec by lia.
  destruct (i <? 32); reflexivity.
Qed.

Lemma band_sound : forall l r, ok (E2 BAND l r) (cBAnd l r).
Proof.
  intros l r. destruct (two_cnst l r) as [(a & b & -> & ->)|H].
  - apply fold_ok; auto; [|discriminate].
    simpl. f_equal. apply w32_land.
  - replace (cBAnd l r) with
      (if cIsN l 0 || cIsN r 0 then Cnst 0
      else if cIsN l (-1) then r
      else if cIsN r (-1) then l
      else E2 BAND l r) by nocnst H l r.
    isc; [apply absl_ok | apply absr_ok | apply idl_ok | apply idr_ok | apply ok_refl];
      auto; try discriminate; W; f_equal; unfold w_and;
      rewrite ?Z.land_0_r, ?(Z.land_comm 4294967295), ?land_all; auto.
Qed.

Lemma bor_sound : forall l r, ok (E2 BOR l r) (cBOr l r).
Proof.
  intros l r. destruct (two_cnst l r) as [(a & b & -> & ->)|H].
  - apply fold_ok; auto; [|discriminate].
    simpl. f_equal. apply w32_lor.
  - replace (cBOr l r) with
      (if cIsN l (-1) || cIsN r (-1) then Cnst (-1)
      else if cIsN l 0 then r
      else if cIsN r 0 then l
      else E2 BOR l r) by nocnst H l r.
    isc; [apply absl_ok | apply absr_ok | apply idl_ok | apply idr_ok | apply ok_refl];
      auto; try discriminate; W; f_equal; unfold w_or;
      rewrite ?Z.lor_0_r, ?(Z.lor_comm 4294967295), ?lor_all; auto.
Qed.

Lemma bxor_sound : forall l r, ok (E2 BXOR l r) (cBXor l r).
Proof.
  intros l r. destruct (two_cnst l r) as [(a & b & -> & ->)|H].
  - apply fold_ok; auto; [|discriminate].
    simpl. f_equal. apply w32_lxor.
  - replace (cBXor l r) with
      (if cIsN l (-1) then E1 BNOT r
      else if cIsN l 0 then r
      else if cIsN r (-1) then E1 BNOT l
      else if cIsN r 0 then l
      else E2 BXOR l r) by nocnst H l r.
    isc; [apply un_l_ok | apply idl_ok | apply un_r_ok | apply idr_ok | apply ok_refl];
      auto; try discriminate; W; f_equal; unfold w_xor;
      rewrite ?Z.lxor_0_r, ?(Z.lxor_comm 4294967295), ?lxor_all; auto.
Qed.

Lemma cmp_sound : forall o l r, is_cmp o = true -> croot l -> croot r -> ok (E2 o l r) (cCmp o l r).
Proof.
  intros o l r Ho Hl Hr. destruct (two_cnst l r) as [(a & b & -> & ->)|H].
  - assert (Ha : isInt a = true) by auto. assert (Hb : isInt b = true) by auto.
    apply fold_ok.
    + destruct o; auto; discriminate.
    + assert (EQ : (w32 a =? w32 b) = (a =? b)).
      { apply eq_iff_eq_true. rewrite !Z.eqb_eq. split; [|intros ->; auto].
        intros E. rewrite <- (sval_int a), <- (sval_int b) by auto. congruence. }
      destruct o; try discriminate Ho; simpl; unfold w_gt, w_ge, w_lt, w_le, w_eq, w_ne, b2w;
        rewrite ?EQ, ?(sval_int a), ?(sval_int b) by auto;
        match goal with |- context [if ?x then _ else _] => destruct x end; reflexivity.
    + intros _. match goal with |- context [if ?x then _ else _] => destruct x end; auto.
  - replace (cCmp o l r) with (E2 o l r) by nocnst H l r. apply ok_refl.
Qed.

Lemma sval_1 : sval 1 = 1. Proof. reflexivity. Qed.

Lemma w32_0_iff : forall b, isInt b = true -> (w32 b =? 0) = (b =? 0).
Proof.
  intros b H. apply eq_iff_eq_true. rewrite !Z.eqb_eq. split; [|intros ->; auto].
  intros E. rewrite <- (sval_int b) by auto. rewrite E. reflexivity.
Qed.

Lemma div_sound : forall l r e', croot l -> croot r -> cDiv l r = Ok e' -> ok (E2 DIV l r) e'.
Proof.
  intros l r e' Hl Hr E. unfold cDiv in E.
  destruct (cIsN r 0) eqn:Z0; try discriminate.
  destruct (two_cnst l r) as [(a & b & -> & ->)|H].
  - apply cInt_inv in E as [-> _].
    assert (Ha : isInt a = true) by auto. assert (Hb : isInt b = true) by auto.
    apply fold_ok; auto; [|discriminate].
    cbn [c2_val]. unfold w_div. cbn [cIsN] in Z0. rewrite w32_0_iff, Z0, !sval_int by auto. auto.
  - assert (E1 : (if cIsN r 1 then Ok l else Ok (E2 DIV l r)) = Ok e') by (rewrite <- E; nocnst H l r).
    destruct (cIsN r 1) eqn:R1; inv E1; [|apply ok_refl]. apply cIsN_inv in R1; subst r.
    apply idr_ok; auto. W. unfold w_div. simpl. rewrite sval_1, Z.quot_1_r, sval_w32; auto.
Qed.

Lemma mod_sound : forall l r e', croot l -> croot r -> cMod l r = Ok e' -> ok (E2 MOD l r) e'.
Proof.
  intros l r e' Hl Hr E. unfold cMod in E.
  destruct (cIsN r 0) eqn:Z0; try discriminate.
  destruct (two_cnst l r) as [(a & b & -> & ->)|H].
  - destruct (isInt (Z.quot a b)); inv E.
    assert (Ha : isInt a = true) by auto. assert (Hb : isInt b = true) by auto.
    apply fold_ok; auto; [|discriminate].
    cbn [c2_val]. unfold w_mod. cbn [cIsN] in Z0. rewrite w32_0_iff, Z0, !sval_int by auto. auto.
  - assert (E1 : (if cIsN r 1 then Ok (Cnst 0) else Ok (E2 MOD l r)) = Ok e') by (rewrite <- E; nocnst H l r).
    destruct (cIsN r 1) eqn:R1; inv E1; [|apply ok_refl]. apply cIsN_inv in R1; subst r.
    apply absr_ok; auto. W. unfold w_mod. simpl. rewrite sval_1, Z.rem_1_r; auto.
Qed.

Lemma shl_sound : forall l r e', cShl l r = Ok e' -> ok (E2 SHL l r) e'.
Proof.
  intros l r e' E. unfold cShl in E.
  destruct r as [|[n| | | | |]| | |]; try (inv E; apply ok_refl).
  destruct ((n <? 0) || (32 <=? n)) eqn:B; try discriminate.
  apply orb_false_iff in B. destruct B as [B1 B2]. apply Z.ltb_ge in B1. apply Z.leb_gt in B2.
  assert (Wn : w32 n = n) by (apply w32_id; unfold is_word; lia).
  destruct (cIsN (Cnst n) 0) eqn:Z0.
  - inv E. apply cIsN_inv in Z0. inv Z0. apply idr_ok; auto. W. unfold w_shl. simpl.
    rewrite Z.mul_1_r, w32_id; auto.
  - destruct l as [|[a| | | | |]| | |]; inv E; try apply ok_refl.
    apply fold_ok; auto; [|discriminate]. cbn [c2_val]. rewrite Wn. unfold w_shl.
    rewrite (proj2 (Z.ltb_lt n 32)) by lia. f_equal. rewrite Z.shiftl_mul_pow2 by lia.
    rewrite w32_mul_l. reflexivity.
Qed.

Lemma shr_sound : forall l r e', croot l -> cShr l r = Ok e' -> ok (E2 SHR l r) e'.
Proof.
  intros l r e' Hl E. unfold cShr in E.
  destruct r as [|[n| | | | |]| | |]; try (inv E; apply ok_refl).
  destruct ((n <? 0) || (32 <=? n)) eqn:B; try discriminate.
  apply orb_false_iff in B. destruct B as [B1 B2]. apply Z.ltb_ge in B1. apply Z.leb_gt in B2.
  assert (Wn : w32 n = n) by (apply w32_id; unfold is_word; lia).
  destruct (cIsN (Cnst n) 0) eqn:Z0.
  - inv E. apply cIsN_inv in Z0. inv Z0. apply idr_ok; auto. W. unfold w_shr. simpl.
    rewrite Z.div_1_r, sval_w32; auto.
  - destruct l as [|[a| | | | |]| | |]; inv E; try apply ok_refl.
    apply fold_ok; auto; [|discriminate]. cbn [c2_val]. rewrite Wn. unfold w_shr.
    rewrite (proj2 (Z.ltb_lt n 32)) by lia. f_equal. rewrite Z.shiftr_div_pow2 by lia.
    rewrite sval_int by auto. reflexivity.
Qed.

Lemma or_sound : forall l r, ok (E2 OR l r) (cOr l r).
Proof.
  intros l r. unfold cOr. destruct (cIsN l 1) eqn:L1.
  { apply cIsN_inv in L1; subst. intros Hs. split; [|split; [reflexivity|]].
    - apply R_nostor; auto.
    - unfold COptProofs.mono, le; simpl; repeat split; auto; discriminate. }
  destruct (cIsN r 1) eqn:R1.
  { apply cIsN_inv in R1; subst. intros Hs. split; [|split; auto].
    - simpl in Hs. rewrite !andb_true_r, !andb_true_iff, negb_true_iff in Hs.
      apply R_nostor; auto; intros st vs s E; simpl in E.
      destruct (one M (ev l st)) as [[v s1]|] eqn:A; try discriminate.
      apply one_some in A; apply ev_pure in A; [subst s1|tauto].
      destruct (v =? 0); inv E; reflexivity.
    - unfold COptProofs.mono, le; simpl; rewrite ?orb_true_r; repeat split; auto; discriminate. }
  simpl. destruct (cIsN l 0) eqn:L0.
  { apply cIsN_inv in L0; subst. intros Hs. split; [|split].
    - apply R_nostor; auto. intros st vs s E. simpl in E.
      destruct (one M (ev r st)) as [[v s1]|] eqn:A; inv E. apply one_some; auto.
    - simpl in Hs. rewrite !andb_true_iff in Hs. tauto.
    - unfold COptProofs.mono, le; simpl; repeat split; auto; discriminate. }
  destruct (cIsN r 0) eqn:R0; [|apply ok_refl].
  apply cIsN_inv in R0; subst. intros Hs. split; [|split].
  - apply R_nostor; auto. intros st vs s E. simpl in E.
    destruct (one M (ev l st)) as [[v s1]|] eqn:A; try discriminate.
    assert (v = 0 \/ v = 1).
    { eapply bexp_val; [|exact A]. simpl in Hs. rewrite !andb_true_iff in Hs. tauto. }
    apply one_some in A. destruct H; subst; simpl in E; inv E; auto.
  - simpl in Hs. rewrite !andb_true_iff in Hs. tauto.
  - unfold COptProofs.mono, le; simpl; rewrite ?orb_true_r, ?orb_false_r, ?andb_true_r; auto.
Qed.

Lemma and_sound : forall l r, ok (E2 AND l r) (cAnd l r).
Proof.
  intros l r. unfold cAnd. destruct (cIsN l 0) eqn:L1.
  { apply cIsN_inv in L1; subst. intros Hs. split; [|split; [reflexivity|]].
    - apply R_nostor; auto.
    - unfold COptProofs.mono, le; simpl; repeat split; auto; discriminate. }
  destruct (cIsN r 0) eqn:R1.
  { apply cIsN_inv in R1; subst. intros Hs. split; [|split; auto].
    - simpl in Hs. rewrite !andb_true_r, !andb_true_iff, negb_true_iff in Hs.
      apply R_nostor; auto; intros st vs s E; simpl in E.
      destruct (one M (ev l st)) as [[v s1]|] eqn:A; try discriminate.
      apply one_some in A; apply ev_pure in A; [subst s1|tauto].
      destruct (v =? 0); inv E; reflexivity.
    - unfold COptProofs.mono, le; simpl; rewrite ?orb_true_r; repeat split; auto; discriminate. }
  simpl. destruct (cIsN l 1) eqn:L0.
  { apply cIsN_inv in L0; subst. intros Hs. split; [|split].
    - apply R_nostor; auto. intros st vs s E. simpl in E.
      destruct (one M (ev r st)) as [[v s1]|] eqn:A; inv E. apply one_some; auto.
    - simpl in Hs. rewrite !andb_true_iff in Hs. tauto.
    - unfold COptProofs.mono, le; simpl; repeat split; auto; discriminate. }
  destruct (cIsN r 1) eqn:R0; [|apply ok_refl].
  apply cIsN_inv in R0; subst. intros Hs. split; [|split].
  - apply R_nostor; auto. intros st vs s E. simpl in E.
    destruct (one M (ev l st)) as [[v s1]|] eqn:A; try discriminate.
    assert (v = 0 \/ v = 1).
    { eapply bexp_val; [|exact A]. simpl in Hs. rewrite !andb_true_iff in Hs. tauto. }
    apply one_some in A. destruct H; subst; simpl in E; inv E; auto.
  - simpl in Hs. rewrite !andb_true_iff in Hs. tauto.
  - unfold COptProofs.mono, le; simpl; rewrite ?orb_true_r, ?orb_false_r, ?andb_true_r; auto.
Qed.

Lemma opt2_ok : forall o l r e', croot l -> croot r -> cOpt2 o l r = Ok e' -> ok (E2 o l r) e'.
Proof.
  intros o l r e' Hl Hr E.
  destruct o; simpl in E; try (inv E; first [apply ok_refl | apply band_sound | apply bor_sound
    | apply bxor_sound | apply or_sound | apply and_sound | apply cmp_sound]; auto; fail).
  - apply add_sound; auto.
  - apply sub_sound; auto.
  - apply shl_sound; auto.
  - apply shr_sound; auto.
  - apply mul_sound; auto.
  - apply div_sound; auto.
  - apply mod_sound; auto.
Qed.

Lemma bind_ok : forall A B (x : res A) (f : A -> res B) b,
  bind x f = Ok b -> exists a, x = Ok a /\ f a = Ok b.
Proof. intros A B [a|e] f b H; simpl in H; [eauto|discriminate]. Qed.

Lemma opt1_nn : forall o l e', cOpt1 o l = Ok e' -> e' <> ENull.
Proof.
  intros o l e' H ->. destruct l as [|[]| | |], o; simpl in H; try discriminate H.
  apply cInt_inv in H as [H _]. discriminate H.
Qed.

Lemma opt2_nn : forall o l r e', l <> ENull -> r <> ENull -> cOpt2 o l r = Ok e' -> e' <> ENull.
Proof.
  intros o l r e' Hl Hr H He. subst e'. unfold cOpt2 in H.
  destruct o; try discriminate H;
  unfold cAdd, cSub, cMul, cBAnd, cBOr, cBXor, cCmp, cOr, cAnd, cDiv, cMod,
    cShl, cShr, setBool, cInt in H;
  repeat (match type of H with
  | context [cIsN ?x ?n] => destruct (cIsN x n)
  | context [match ?x with _ => _ end] => is_var x; destruct x
  | context [if ?x then _ else _] => destruct x
  end; cbn [orb] in H; try discriminate H; try congruence).
Qed.

Lemma mask_nn : forall e, e <> ENull -> maskI e <> ENull.
Proof. intros [|[]| | |] H; simpl; congruence. Qed.

Lemma cal_func : forall f a e', cCal (EFunc f a) = Ok e' ->
  a = ENull /\ e' = EFunc f a \/ exists a', cCal a = Ok a' /\ e' = EFunc f a'.
Proof.
  intros f a e' H. destruct a; [left; inv H; auto| | | |];
    (right; cbn [cCal] in H; apply bind_ok in H; destruct H as (a' & A & H); inv H; eauto).
Qed.

Lemma arr_func : forall f a e', cArr (EFunc f a) = Ok e' ->
  a = ENull /\ e' = EFunc f a \/ exists a', cArr a = Ok a' /\ cCal (EFunc f a') = Ok e'.
Proof.
  intros f a e' H. destruct a; [left; inv H; auto| | | |];
    (right; cbn [cArr] in H; apply bind_ok in H; destruct H as (a' & A & H); eauto).
Qed.

Lemma cCal_nn : forall e e', cCal e = Ok e' -> e' <> ENull.
Proof.
  induction e as [|k|o e IH|o l IHl r IHr|f a IHa]; intros e' H; simpl in H.
  - discriminate.
  - injection H as <-. apply (mask_nn (ELeaf k)); discriminate.
  - apply bind_ok in H. destruct H as (l' & A & H). apply bind_ok in H. destruct H as (x & B & H). inv H. apply mask_nn, (opt1_nn _ _ _ B).
  - apply bind_ok in H. destruct H as (l' & A & H). apply bind_ok in H. destruct H as (r' & B & H).
    apply bind_ok in H. destruct H as (x & C & H). inv H. apply mask_nn. apply (opt2_nn o l' r'); auto.
  - destruct a; try (inv H; discriminate); apply bind_ok in H; destruct H as (a' & A & H);
      inv H; discriminate.
Qed.

Lemma cCal_croot : forall e e', cCal e = Ok e' -> croot e'.
Proof.
  intros e e' H; destruct e as [|k|o l|o l r|f a]; simpl in H.
  - discriminate.
  - injection H as <-. apply (mask_croot (ELeaf k)).
  - apply bind_ok in H. destruct H as (l' & A & H). apply bind_ok in H. destruct H as (x & B & H). inv H. apply mask_croot.
  - apply bind_ok in H. destruct H as (l' & A & H). apply bind_ok in H. destruct H as (r' & B & H).
    apply bind_ok in H. destruct H as (x & C & H). inv H. apply mask_croot.
  - destruct a; try (inv H; intros v E; discriminate E); apply bind_ok in H;
      destruct H as (a' & A & H); inv H; intros v E; discriminate E.
Qed.

Lemma cal_cnst : forall f, 0 <= f < 65536 -> cCal (Cnst f) = Ok (Cnst f).
Proof. intros f H. simpl. rewrite i32_id by (apply isInt_iff; lia). reflexivity. Qed.

Lemma cCal_ok : forall e e', cCal e = Ok e' -> ok e e'.
Proof.
  induction e as [|k|o e IH|o l IHl r IHr|f a IHa]; intros e' H.
  - discriminate.
  - simpl in H. injection H as <-. apply (mask_ok (ELeaf k)).
  - simpl in H. apply bind_ok in H. destruct H as (l' & A & H). apply bind_ok in H. destruct H as (x & B & H). injection H as <-.
    eapply ok_trans; [|apply mask_ok]. eapply ok_trans; [apply ok_cong1; apply IH; eauto|].
    apply opt1_ok; auto. eapply cCal_croot; eauto.
  - simpl in H. apply bind_ok in H. destruct H as (l' & A & H). apply bind_ok in H. destruct H as (r' & B & H).
    apply bind_ok in H. destruct H as (x & C & H). injection H as <-.
    eapply ok_trans; [|apply mask_ok]. eapply ok_trans; [|apply (opt2_ok o l' r'); eauto using cCal_croot].
    apply ok_cong2; auto. intros -> Hd. apply dot_leaf in Hd. destruct Hd as (f & -> & Hf).
    rewrite cal_cnst in B by auto. inv B; auto.
  - assert (G : a = ENull /\ e' = EFunc f a \/ exists a', cCal a = Ok a' /\ e' = EFunc f a').
    { apply cal_func; auto. }
    destruct G as [[-> ->]|(a' & A & ->)]; [apply ok_refl|].
    apply ok_func; auto. split; intros; subst; [|discriminate A].
    exfalso; apply (cCal_nn _ _ A); auto.
Qed.

Lemma cArr_nn : forall e e', cArr e = Ok e' -> e' <> ENull.
Proof.
  intros e e' H. destruct e as [|k|o l|o l r|f a]; [discriminate| | | |]; cbn [cArr] in H.
  - exact (cCal_nn _ _ H).
  - apply bind_ok in H. destruct H as (l' & A & H). exact (cCal_nn _ _ H).
  - apply bind_ok in H. destruct H as (r' & A & H). apply bind_ok in H. destruct H as (l' & B & H).
    apply bind_ok in H. destruct H as (m & Em & H). exact (cCal_nn _ _ H).
  - apply arr_func in H. destruct H as [[-> ->]|(a' & A & H)]; [discriminate|].
    exact (cCal_nn _ _ H).
Qed.

Lemma cArr_ok : forall e e', cArr e = Ok e' -> ok e e'.
Proof.
  induction e as [|k|o e IH|o l IHl r IHr|f a IHa]; intros e' H.
  - discriminate.
  - apply cCal_ok; auto.
  - cbn [cArr] in H. apply bind_ok in H. destruct H as (l' & A & H).
    eapply ok_trans; [|apply cCal_ok; eauto]. apply ok_cong1; auto.
  - cbn [cArr] in H. apply bind_ok in H. destruct H as (r' & A & H).
    apply bind_ok in H. destruct H as (l' & B & H). apply bind_ok in H. destruct H as (m & Em & H).
    eapply ok_trans; [|apply cCal_ok; eauto].
    eapply ok_trans; [|apply (moveCnst_ok _ _ _ _ _ _ Em)].
    apply ok_cong2; auto. intros -> Hd. apply dot_leaf in Hd. destruct Hd as (f & -> & Hf).
    cbn [cArr] in A. rewrite cal_cnst in A by auto. inv A; auto.
  - assert (G : a = ENull /\ e' = EFunc f a \/
                exists a', cArr a = Ok a' /\ cCal (EFunc f a') = Ok e').
    { apply arr_func; auto. }
    destruct G as [[-> ->]|(a' & A & H')]; [apply ok_refl|].
    eapply ok_trans; [|apply cCal_ok; eauto].
    apply ok_func; auto. split; intros; subst; [|discriminate A].
    exfalso; apply (cArr_nn _ _ A); auto.
Qed.

Lemma cOptExp_ok : forall e e', cOptExp e = Ok e' -> ok e e'.
Proof.
  intros e e' H. unfold cOptExp in H. destruct e; try (inv H; apply ok_refl);
    (eapply ok_trans; [apply moveLeft_ok|apply cArr_ok; auto]).
Qed.

Lemma cOptExp_eval : forall e e', opt_safe N e = true -> cOptExp e = Ok e' ->
  forall st r, ceval M N ltr e st = Some r -> ceval M N ltr e' st = Some r.
Proof.
  intros e e' Hs H st r E. destruct (cOptExp_ok e e' H Hs) as (HR & _).
  unfold ceval in *. eapply one_R; eauto.
Qed.

End P.
