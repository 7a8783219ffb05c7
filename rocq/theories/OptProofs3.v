(* Proofs about constant folding (calExp) and the whole expression optimiser. *)
From Coq Require Import ZArith Bool List Lia.
From Verif Require Import Word WordProofs SyTree ExprSem OpTree OptSpec OptProofs OptProofs2.
Import ListNotations.
Open Scope Z_scope.

Section P.
Variable M : machine.
Variable N : names.
Notation state := (state M).
Notation ev := (ev M N ltr).
Notation ok := (ok M N).
Notation stor := (stor M N).
Notation mono := (mono N).
Notation R := (R M N).

(* ---- folding ---- *)
Lemma mask_ok : forall e, ok e (maskC e).
Proof.
  intros [|[]| | |] Hs; try (apply ok_refl; exact Hs). split; [|split]; auto.
  - split; [|discriminate]. intros st vs s E. simpl in *. rewrite <- E. unfold WMSK.
    rewrite land_65535, w16_w16. auto.
  - unfold OptProofs.mono, le; simpl; repeat split; auto.
    rewrite !orb_true_iff, !Z.eqb_eq. intros [->| ->]; auto.
Qed.

Definition croot (e : expr) : Prop := forall v, e = Cnst v -> is_word v.

Lemma mask_croot : forall e, croot (maskC e).
Proof.
  intros e w H. destruct e as [|[v| | | | |]| | |]; simpl in H; try discriminate; inv H.
  unfold WMSK. rewrite land_65535. apply w16_range.
Qed.

Lemma getBool_word : forall v, getBool v = negb (v mod 2 =? 0).
Proof.
  intros v; unfold getBool. rewrite Z.bit0_odd. rewrite Zmod_odd. destruct (Z.odd v); reflexivity.
Qed.

Lemma opt1_ok : forall o l, croot l -> ok (E1 o l) (opt1 o l).
Proof.
  intros o l Hc. destruct l as [|[v| | | | |]| | |]; simpl; try apply ok_refl.
  assert (Hv : is_word v) by (apply Hc; auto). intros Hs. simpl in Hs.
  split.
  - split; [|intros; discriminate]. intros st vs s E. simpl in E. inv E.
    rewrite w16_id by auto.
    destruct o; simpl; unfold setBool; simpl;
      match goal with |- Some ([?a],_) = Some ([?b],_) =>
        cut (a = b); [intros ->; reflexivity|] end.
    + unfold w_neg. rewrite <- w16_opp, getSInt_cong, w16_opp. auto.
    + simpl in Hs. rewrite ?andb_true_r, orb_true_iff, !Z.eqb_eq in Hs.
      destruct Hs; subst; reflexivity.
    + unfold w_bnot, Z.lnot.
      symmetry. rewrite <- (w16_id (65535 - v)) by (destruct Hv; unfold is_word; lia).
      apply w16_cong with (k := 1). lia.
    + unfold BMSK, w_chr. rewrite land_255. apply w16_id.
      pose proof (Z.mod_pos_bound v 256); unfold is_word; lia.
    + unfold w_bool. rewrite getBool_word.
      destruct (mod2_01 v) as [->| ->]; reflexivity.
  - split.
    + destruct o; reflexivity.
    + unfold OptProofs.mono, le; destruct o; simpl; auto; repeat split; auto;
        destruct (getBool v); simpl; auto; discriminate.
Qed.

Definition is_cmp (o : op2) : bool :=
  match o with GT | GE | LT | LE | EQU | NEQ => true | _ => false end.

(* constants on both sides *)
Lemma fold_ok : forall o a b v, strict o = true ->
  op2_val o (w16 a) (w16 b) = Some (w16 v) ->
  (is_cmp o = true -> v = 0 \/ v = 1) ->
  ok (E2 o (Cnst a) (Cnst b)) (Cnst v).
Proof.
  intros o a b v So H Hb Hs. split; [|split]; auto.
  - apply R_nostor; [destruct o; try discriminate So; reflexivity|].
    intros st vs s E. rewrite ev_strict in E by auto. simpl in E. rewrite H in E. exact E.
  - unfold OptProofs.mono, le; destruct o; try discriminate So; simpl; repeat split; auto; try discriminate;
      intros _; destruct (Hb eq_refl); subst; auto.
Qed.

Definition arith (o : op2) : bool :=
  match o with ADD | SUB | SHL | SHR | BAND | BXOR | BOR | MUL | DIV | MOD => true | _ => false end.

Lemma idl_ok : forall o k r, arith o = true ->
  (forall b, is_word b -> op2_val o (w16 k) b = Some b) -> ok (E2 o (Cnst k) r) r.
Proof.
  intros o k r So H Hs. split; [|split].
  - apply R_nostor; [destruct o; try discriminate So; reflexivity|].
    intros st vs s E. rewrite ev_strict in E by (destruct o; auto; discriminate). simpl in E.
    destruct (one M (ev r st)) as [[b s1]|] eqn:B; try discriminate.
    rewrite H in E by (eapply eval1_word; eauto). simpl in E; inv E. apply one_some; auto.
  - simpl in Hs. rewrite !andb_true_iff in Hs; tauto.
  - unfold OptProofs.mono, le; destruct o; try discriminate So; simpl; repeat split; auto; discriminate.
Qed.

Lemma idr_ok : forall o k l, arith o = true ->
  (forall a, is_word a -> op2_val o a (w16 k) = Some a) -> ok (E2 o l (Cnst k)) l.
Proof.
  intros o k l So H Hs. split; [|split].
  - apply R_nostor; [destruct o; try discriminate So; reflexivity|].
    intros st vs s E. rewrite ev_strict in E by (destruct o; auto; discriminate).
    destruct (one M (ev l st)) as [[b s1]|] eqn:B; try discriminate. simpl in E.
    rewrite H in E by (eapply eval1_word; eauto). simpl in E; inv E. apply one_some; auto.
  - simpl in Hs. rewrite !andb_true_iff in Hs; tauto.
  - unfold OptProofs.mono, le; destruct o; try discriminate So; simpl;
      rewrite ?orb_true_r, ?orb_false_r, ?andb_true_r; repeat split; auto; discriminate.
Qed.

Lemma un_l_ok : forall o k r u, arith o = true -> u <> NOT -> u <> BOOL ->
  (forall b, is_word b -> op2_val o (w16 k) b = Some (op1_val u b)) -> ok (E2 o (Cnst k) r) (E1 u r).
Proof.
  intros o k r u So Hu1 Hu2 H Hs. split; [|split].
  - apply R_nostor; [destruct o; try discriminate So; reflexivity|].
    intros st vs s E. rewrite ev_strict in E by (destruct o; auto; discriminate). simpl in E.
    simpl. destruct (one M (ev r st)) as [[b s1]|] eqn:B; try discriminate.
    rewrite H in E by (eapply eval1_word; eauto). simpl in E; inv E. auto.
  - simpl in *. rewrite !andb_true_iff in *. destruct u; simpl; try congruence; tauto.
  - unfold OptProofs.mono, le; destruct o; try discriminate So; simpl; repeat split; auto; discriminate.
Qed.

Lemma un_r_ok : forall o k l u, arith o = true -> u <> NOT -> u <> BOOL ->
  (forall a, is_word a -> op2_val o a (w16 k) = Some (op1_val u a)) -> ok (E2 o l (Cnst k)) (E1 u l).
Proof.
  intros o k l u So Hu1 Hu2 H Hs. split; [|split].
  - apply R_nostor; [destruct o; try discriminate So; reflexivity|].
    intros st vs s E. rewrite ev_strict in E by (destruct o; auto; discriminate).
    simpl. destruct (one M (ev l st)) as [[b s1]|] eqn:B; try discriminate. simpl in E.
    rewrite H in E by (eapply eval1_word; eauto). simpl in E; inv E. auto.
  - simpl in *. rewrite !andb_true_iff in *. destruct u; simpl; try congruence; tauto.
  - unfold OptProofs.mono, le; destruct o; try discriminate So; simpl;
      rewrite ?orb_true_r, ?orb_false_r, ?andb_true_r; repeat split; auto; discriminate.
Qed.

(* absorbing constants: the other operand has no side effect *)
Lemma absl_ok : forall o k r v, (o = MUL \/ o = BAND \/ o = BOR) ->
  (forall b, is_word b -> op2_val o (w16 k) b = Some (w16 v)) -> ok (E2 o (Cnst k) r) (Cnst v).
Proof.
  intros o k r v Ho H Hs.
  assert (So : arith o = true) by (destruct Ho as [->|[->| ->]]; auto).
  split; [|split]; auto.
  - assert (He : has_effect r = false).
    { destruct Ho as [->|[->| ->]]; simpl in Hs; rewrite andb_true_r in Hs;
      destruct (has_effect r); simpl in Hs; auto; discriminate. }
    apply R_nostor; [destruct o; try discriminate So; reflexivity|].
    intros st vs s E. rewrite ev_strict in E by (destruct o; auto; discriminate). simpl in E.
    destruct (one M (ev r st)) as [[b s1]|] eqn:B; try discriminate.
    rewrite H in E by (eapply eval1_word; eauto). simpl in E; inv E.
    apply one_some in B. apply ev_pure in B; auto. subst; reflexivity.
  - unfold OptProofs.mono, le; destruct Ho as [->|[->| ->]]; simpl; repeat split; auto; discriminate.
Qed.

Lemma absr_ok : forall o k l v, (o = MUL \/ o = BAND \/ o = BOR \/ o = MOD) ->
  (forall a, is_word a -> op2_val o a (w16 k) = Some (w16 v)) -> ok (E2 o l (Cnst k)) (Cnst v).
Proof.
  intros o k l v Ho H Hs.
  assert (So : arith o = true) by (destruct Ho as [->|[->|[->| ->]]]; auto).
  split; [|split]; auto.
  - assert (He : has_effect l = false).
    { destruct Ho as [->|[->|[->| ->]]]; simpl in Hs;
      rewrite ?orb_true_r, ?orb_false_r, ?andb_true_r in Hs;
      destruct (has_effect l); simpl in Hs; auto; discriminate. }
    apply R_nostor; [destruct o; try discriminate So; reflexivity|].
    intros st vs s E. rewrite ev_strict in E by (destruct o; auto; discriminate). simpl in E.
    destruct (one M (ev l st)) as [[b s1]|] eqn:B; try discriminate.
    rewrite H in E by (eapply eval1_word; eauto). simpl in E; inv E.
    apply one_some in B. apply ev_pure in B; auto. subst; reflexivity.
  - unfold OptProofs.mono, le; destruct Ho as [->|[->|[->| ->]]]; simpl; rewrite ?orb_true_r; repeat split; auto; discriminate.
Qed.

Lemma isCnstN_inv : forall e n, isCnstN e n = true -> e = Cnst (Z.land n WMSK).
Proof.
  intros [|[v| | | | |]| | |] n H; try discriminate H. simpl in H. apply Z.eqb_eq in H. congruence.
Qed.

Lemma two_cnst : forall l r, (exists a b, l = Cnst a /\ r = Cnst b) \/
  (forall a b, ~ (l = Cnst a /\ r = Cnst b)).
Proof.
  intros l r. destruct l as [|[a| | | | |]| | |]; try (right; intros x y [? ?]; discriminate).
  destruct r as [|[b| | | | |]| | |]; try (right; intros x y [? ?]; discriminate). eauto.
Qed.

Ltac isc := repeat match goal with
  | |- context [if isCnstN ?e ?n || isCnstN ?e' ?n' then _ else _] =>
      let E := fresh "E" in destruct (isCnstN e n) eqn:E;
      [apply isCnstN_inv in E; subst e; cbn [orb]
      | destruct (isCnstN e' n') eqn:?; cbn [orb]]
  | |- context [if isCnstN ?e ?n then _ else _] =>
      let E := fresh "E" in destruct (isCnstN e n) eqn:E; [apply isCnstN_inv in E; subst e|]
  | E : isCnstN ?e ?n = true |- _ => apply isCnstN_inv in E; subst e
  end; cbn [orb].

Ltac nocnst H l r :=
  destruct l as [|[?| | | | |]| | |]; try reflexivity;
  destruct r as [|[?| | | | |]| | |]; try reflexivity; exfalso; eapply H; split; reflexivity.

Lemma w16_0 : w16 0 = 0. Proof. reflexivity. Qed.
Lemma wmsk_m1 : forall x, is_word x -> w_neg x = w16 (65535 * x).
Proof. intros x H. unfold w_neg. apply w16_cong with (k := -x). lia. Qed.

Lemma land_all : forall x, is_word x -> Z.land x 65535 = x.
Proof. intros x H. rewrite land_65535. apply w16_id; auto. Qed.
Lemma lor_all : forall x, is_word x -> Z.lor x 65535 = 65535.
Proof.
  intros x H. apply Z.bits_inj'; intros i Hi. rewrite Z.lor_spec. change 65535 with (Z.ones 16).
  destruct (Z_lt_le_dec i 16).
  - rewrite Z.ones_spec_low by lia. apply orb_true_r.
  - rewrite Z.ones_spec_high by lia. rewrite orb_false_r. apply word_bits in H. apply H; lia.
Qed.
Lemma lxor_all : forall x, is_word x -> Z.lxor x 65535 = w_bnot x.
Proof.
  intros x H. unfold w_bnot.
  assert (E : Z.land (Z.lxor x 65535) x = 0).
  { apply Z.bits_inj'; intros i Hi. rewrite Z.land_spec, Z.lxor_spec, Z.bits_0.
    change 65535 with (Z.ones 16). destruct (Z_lt_le_dec i 16).
    - rewrite Z.ones_spec_low by lia. destruct (Z.testbit x i); reflexivity.
    - apply word_bits in H. rewrite (proj2 H) by lia. apply andb_false_r. }
  assert (S : Z.lxor x 65535 + x = 65535).
  { rewrite Z.add_nocarry_lxor by auto. rewrite (Z.lxor_comm x 65535), Z.lxor_assoc, Z.lxor_nilpotent.
    apply Z.lxor_0_r. }
  lia.
Qed.

Ltac W := intros; cbn [op2_val op1_val]; change (Z.land 0 WMSK) with 0; change (Z.land 1 WMSK) with 1;
  change (Z.land WMSK WMSK) with 65535; change (w16 0) with 0; change (w16 1) with 1;
  change (w16 65535) with 65535.

Lemma add_sound : forall l r, croot l -> croot r -> ok (E2 ADD l r) (optAdd l r).
Proof.
  intros l r Hl Hr. destruct (two_cnst l r) as [(a & b & -> & ->)|H].
  - apply fold_ok; auto; [|discriminate].
    simpl. f_equal. unfold w_add. rewrite w16_add_l, w16_add_r.
    rewrite <- (w16_add_l (getSInt a)), <- (w16_add_r _ (getSInt b)), !getSInt_cong.
    rewrite w16_add_l, w16_add_r; auto.
  - replace (optAdd l r) with (if isCnstN l 0 then r else if isCnstN r 0 then l else E2 ADD l r)
      by nocnst H l r.
    isc; [apply idl_ok | apply idr_ok | apply ok_refl]; auto; W; f_equal; unfold w_add;
      rewrite ?Z.add_0_r; apply w16_id; auto.
Qed.

Lemma sub_sound : forall l r, croot l -> croot r -> ok (E2 SUB l r) (optSub l r).
Proof.
  intros l r Hl Hr. destruct (two_cnst l r) as [(a & b & -> & ->)|H].
  - apply fold_ok; auto; [|discriminate].
    simpl. f_equal. unfold w_sub. rewrite w16_sub_l, w16_sub_r.
    rewrite <- (w16_sub_l (getSInt a)), <- (w16_sub_r _ (getSInt b)), !getSInt_cong.
    rewrite w16_sub_l, w16_sub_r; auto.
  - replace (optSub l r) with (if isCnstN l 0 then E1 NEG r else if isCnstN r 0 then l else E2 SUB l r)
      by nocnst H l r.
    isc; [apply un_l_ok | apply idr_ok | apply ok_refl]; auto; try discriminate; W; f_equal; unfold w_sub;
      rewrite ?Z.sub_0_r; try apply w16_id; auto.
Qed.

Lemma mul_sound : forall l r, croot l -> croot r -> ok (E2 MUL l r) (optMul l r).
Proof.
  intros l r Hl Hr. destruct (two_cnst l r) as [(a & b & -> & ->)|H].
  - apply fold_ok; auto; [|discriminate].
    simpl. f_equal. unfold w_mul. rewrite w16_mul_l, w16_mul_r.
    rewrite <- (w16_mul_l (getSInt a)), <- (w16_mul_r _ (getSInt b)), !getSInt_cong.
    rewrite w16_mul_l, w16_mul_r; auto.
  - replace (optMul l r) with
      (if isCnstN l 0 || isCnstN r 0 then Cnst 0
      else if isCnstN l 1 then r
      else if isCnstN r 1 then l
      else if isCnstN l WMSK then E1 NEG r
      else if isCnstN r WMSK then E1 NEG l
      else E2 MUL l r) by nocnst H l r.
    isc; [apply absl_ok | apply absr_ok | apply idl_ok | apply idr_ok | apply un_l_ok
         | apply un_r_ok | apply ok_refl]; auto; try discriminate; W; f_equal; unfold w_mul;
      rewrite ?Z.mul_1_l, ?Z.mul_1_r, ?Z.mul_0_r; try apply w16_id; auto.
    + rewrite wmsk_m1; auto.
    + rewrite wmsk_m1, Z.mul_comm; auto.
Qed.

Lemma band_sound : forall l r, croot l -> croot r -> ok (E2 BAND l r) (optBAnd l r).
Proof.
  intros l r Hl Hr. destruct (two_cnst l r) as [(a & b & -> & ->)|H].
  - apply fold_ok; auto; [|discriminate].
    simpl. f_equal. rewrite !w16_id; auto. apply land_word; auto.
  - replace (optBAnd l r) with
      (if isCnstN l 0 || isCnstN r 0 then Cnst 0
      else if isCnstN l WMSK then r
      else if isCnstN r WMSK then l
      else E2 BAND l r) by nocnst H l r.
    isc; [apply absl_ok | apply absr_ok | apply idl_ok | apply idr_ok | apply ok_refl];
      auto; try discriminate; W; f_equal; unfold w_and;
      rewrite ?Z.land_0_r, ?(Z.land_comm 65535), ?land_all; auto.
Qed.

Lemma bor_sound : forall l r, croot l -> croot r -> ok (E2 BOR l r) (optBOr l r).
Proof.
  intros l r Hl Hr. destruct (two_cnst l r) as [(a & b & -> & ->)|H].
  - apply fold_ok; auto; [|discriminate].
    simpl. f_equal. rewrite !w16_id; auto. apply lor_word; auto.
  - replace (optBOr l r) with
      (if isCnstN l WMSK || isCnstN r WMSK then Cnst WMSK
      else if isCnstN l 0 then r
      else if isCnstN r 0 then l
      else E2 BOR l r) by nocnst H l r.
    isc; [apply absl_ok | apply absr_ok | apply idl_ok | apply idr_ok | apply ok_refl];
      auto; try discriminate; W; f_equal; unfold w_or;
      rewrite ?Z.lor_0_r, ?(Z.lor_comm 65535), ?lor_all; auto.
Qed.

Lemma bxor_sound : forall l r, croot l -> croot r -> ok (E2 BXOR l r) (optBXor l r).
Proof.
  intros l r Hl Hr. destruct (two_cnst l r) as [(a & b & -> & ->)|H].
  - apply fold_ok; auto; [|discriminate].
    simpl. f_equal. rewrite !w16_id; auto. apply lxor_word; auto.
  - replace (optBXor l r) with
      (if isCnstN l WMSK then E1 BNOT r
      else if isCnstN l 0 then r
      else if isCnstN r WMSK then E1 BNOT l
      else if isCnstN r 0 then l
      else E2 BXOR l r) by nocnst H l r.
    isc; [apply un_l_ok | apply idl_ok | apply un_r_ok | apply idr_ok | apply ok_refl];
      auto; try discriminate; W; f_equal; unfold w_xor;
      rewrite ?Z.lxor_0_r, ?(Z.lxor_comm 65535), ?lxor_all; auto.
Qed.

Lemma cmp_sound : forall o l r, is_cmp o = true -> croot l -> croot r -> ok (E2 o l r) (optCmp o l r).
Proof.
  intros o l r Ho Hl Hr. destruct (two_cnst l r) as [(a & b & -> & ->)|H].
  - assert (Ha : is_word a) by auto. assert (Hb : is_word b) by auto.
    apply fold_ok.
    + destruct o; auto; discriminate.
    + rewrite !(w16_id a), !(w16_id b), !getSInt_sval by auto.
      destruct o; try discriminate Ho; simpl; unfold w_gt, w_ge, w_lt, w_le, w_eq, w_ne, b2w;
        match goal with |- context [if ?x then _ else _] => destruct x end; reflexivity.
    + intros _. match goal with |- context [if ?x then _ else _] => destruct x end; auto.
  - replace (optCmp o l r) with (E2 o l r) by nocnst H l r. apply ok_refl.
Qed.

Lemma sval_1 : sval 1 = 1. Proof. reflexivity. Qed.

Lemma div_sound : forall l r e', croot l -> croot r -> optDiv l r = Ok e' -> ok (E2 DIV l r) e'.
Proof.
  intros l r e' Hl Hr E. unfold optDiv in E.
  destruct (isCnstN r 0) eqn:Z0; try discriminate.
  destruct (two_cnst l r) as [(a & b & -> & ->)|H].
  - inv E. assert (Ha : is_word a) by auto. assert (Hb : is_word b) by auto.
    apply fold_ok; auto; [|discriminate].
    simpl in *. rewrite !w16_id by auto. unfold w_div.
    change (Z.land 0 WMSK) with 0 in Z0. rewrite Z0, !getSInt_sval by auto. auto.
  - assert (E1 : (if isCnstN r 1 then Ok l else Ok (E2 DIV l r)) = Ok e') by (rewrite <- E; nocnst H l r).
    destruct (isCnstN r 1) eqn:R1; inv E1; [|apply ok_refl]. apply isCnstN_inv in R1; subst r.
    apply idr_ok; auto. W. unfold w_div. simpl. rewrite sval_1, Z.quot_1_r, sval_w16; auto.
Qed.

Lemma mod_sound : forall l r e', croot l -> croot r -> optMod l r = Ok e' -> ok (E2 MOD l r) e'.
Proof.
  intros l r e' Hl Hr E. unfold optMod in E.
  destruct (isCnstN r 0) eqn:Z0; try discriminate.
  destruct (two_cnst l r) as [(a & b & -> & ->)|H].
  - inv E. assert (Ha : is_word a) by auto. assert (Hb : is_word b) by auto.
    apply fold_ok; auto; [|discriminate].
    simpl in *. rewrite !w16_id by auto. unfold w_mod.
    change (Z.land 0 WMSK) with 0 in Z0. rewrite Z0, !getSInt_sval by auto. auto.
  - assert (E1 : (if isCnstN r 1 then Ok (Cnst 0) else Ok (E2 MOD l r)) = Ok e') by (rewrite <- E; nocnst H l r).
    destruct (isCnstN r 1) eqn:R1; inv E1; [|apply ok_refl]. apply isCnstN_inv in R1; subst r.
    apply absr_ok; auto. W. unfold w_mod. simpl. rewrite sval_1, Z.rem_1_r; auto.
Qed.

Lemma shl_sound : forall l r e', croot l -> croot r -> optShl l r = Ok e' -> ok (E2 SHL l r) e'.
Proof.
  intros l r e' Hl Hr E. unfold optShl in E.
  destruct r as [|[n| | | | |]| | |]; try (inv E; apply ok_refl).
  assert (Hn : is_word n) by auto.
  destruct ((n <? 0) || (16 <=? n)) eqn:B; try discriminate.
  apply orb_false_iff in B. destruct B as [B1 B2]. apply Z.ltb_ge in B1. apply Z.leb_gt in B2.
  destruct (isCnstN (Cnst n) 0) eqn:Z0.
  - inv E. apply isCnstN_inv in Z0. inv Z0. apply idr_ok; auto. W. unfold w_shl. simpl.
    rewrite Z.mul_1_r, w16_id; auto.
  - destruct l as [|[a| | | | |]| | |]; inv E; try apply ok_refl.
    apply fold_ok; auto; [|discriminate]. simpl. rewrite (w16_id n) by auto. unfold w_shl.
    rewrite (proj2 (Z.ltb_lt n 16)) by lia. f_equal. rewrite Z.shiftl_mul_pow2 by lia.
    rewrite <- (w16_mul_l (getSInt a)), getSInt_cong, w16_mul_l. reflexivity || (rewrite !w16_mul_l; auto).
Qed.

Lemma shr_sound : forall l r e', croot l -> croot r -> optShr l r = Ok e' -> ok (E2 SHR l r) e'.
Proof.
  intros l r e' Hl Hr E. unfold optShr in E.
  destruct r as [|[n| | | | |]| | |]; try (inv E; apply ok_refl).
  assert (Hn : is_word n) by auto.
  destruct ((n <? 0) || (16 <=? n)) eqn:B; try discriminate.
  apply orb_false_iff in B. destruct B as [B1 B2]. apply Z.ltb_ge in B1. apply Z.leb_gt in B2.
  destruct (isCnstN (Cnst n) 0) eqn:Z0.
  - inv E. apply isCnstN_inv in Z0. inv Z0. apply idr_ok; auto. W. unfold w_shr. simpl.
    rewrite Z.div_1_r, sval_w16; auto.
  - destruct l as [|[a| | | | |]| | |]; inv E; try apply ok_refl.
    apply fold_ok; auto; [|discriminate]. simpl. rewrite (w16_id n), (w16_id a) by auto. unfold w_shr.
    rewrite (proj2 (Z.ltb_lt n 16)) by lia. f_equal. rewrite Z.shiftr_div_pow2 by lia.
    rewrite getSInt_sval by auto. reflexivity.
Qed.

Lemma or_sound : forall l r, ok (E2 OR l r) (optOr l r).
Proof.
  intros l r. unfold optOr. destruct (isCnstN l 1) eqn:L1.
  { apply isCnstN_inv in L1; subst. intros Hs. split; [|split; [reflexivity|]].
    - apply R_nostor; auto.
    - unfold OptProofs.mono, le; simpl; repeat split; auto; discriminate. }
  destruct (isCnstN r 1) eqn:R1.
  { apply isCnstN_inv in R1; subst. intros Hs. split; [|split; auto].
    - simpl in Hs. rewrite !andb_true_r, !andb_true_iff, negb_true_iff in Hs.
      apply R_nostor; auto; intros st vs s E; simpl in E.
      destruct (one M (ev l st)) as [[v s1]|] eqn:A; try discriminate.
      apply one_some in A; apply ev_pure in A; [subst s1|tauto].
      destruct (v =? 0); inv E; reflexivity.
    - unfold OptProofs.mono, le; simpl; rewrite ?orb_true_r; repeat split; auto; discriminate. }
  simpl. destruct (isCnstN l 0) eqn:L0.
  { apply isCnstN_inv in L0; subst. intros Hs. split; [|split].
    - apply R_nostor; auto. intros st vs s E. simpl in E.
      destruct (one M (ev r st)) as [[v s1]|] eqn:A; inv E. apply one_some; auto.
    - simpl in Hs. rewrite !andb_true_iff in Hs. tauto.
    - unfold OptProofs.mono, le; simpl; repeat split; auto; discriminate. }
  destruct (isCnstN r 0) eqn:R0; [|apply ok_refl].
  apply isCnstN_inv in R0; subst. intros Hs. split; [|split].
  - apply R_nostor; auto. intros st vs s E. simpl in E.
    destruct (one M (ev l st)) as [[v s1]|] eqn:A; try discriminate.
    assert (v = 0 \/ v = 1).
    { eapply bexp_val; [|exact A]. simpl in Hs. rewrite !andb_true_iff in Hs. tauto. }
    apply one_some in A. destruct H; subst; simpl in E; inv E; auto.
  - simpl in Hs. rewrite !andb_true_iff in Hs. tauto.
  - unfold OptProofs.mono, le; simpl; rewrite ?orb_true_r, ?orb_false_r, ?andb_true_r; auto.
Qed.

Lemma and_sound : forall l r, ok (E2 AND l r) (optAnd l r).
Proof.
  intros l r. unfold optAnd. destruct (isCnstN l 0) eqn:L1.
  { apply isCnstN_inv in L1; subst. intros Hs. split; [|split; [reflexivity|]].
    - apply R_nostor; auto.
    - unfold OptProofs.mono, le; simpl; repeat split; auto; discriminate. }
  destruct (isCnstN r 0) eqn:R1.
  { apply isCnstN_inv in R1; subst. intros Hs. split; [|split; auto].
    - simpl in Hs. rewrite !andb_true_r, !andb_true_iff, negb_true_iff in Hs.
      apply R_nostor; auto; intros st vs s E; simpl in E.
      destruct (one M (ev l st)) as [[v s1]|] eqn:A; try discriminate.
      apply one_some in A; apply ev_pure in A; [subst s1|tauto].
      destruct (v =? 0); inv E; reflexivity.
    - unfold OptProofs.mono, le; simpl; rewrite ?orb_true_r; repeat split; auto; discriminate. }
  simpl. destruct (isCnstN l 1) eqn:L0.
  { apply isCnstN_inv in L0; subst. intros Hs. split; [|split].
    - apply R_nostor; auto. intros st vs s E. simpl in E.
      destruct (one M (ev r st)) as [[v s1]|] eqn:A; inv E. apply one_some; auto.
    - simpl in Hs. rewrite !andb_true_iff in Hs. tauto.
    - unfold OptProofs.mono, le; simpl; repeat split; auto; discriminate. }
  destruct (isCnstN r 1) eqn:R0; [|apply ok_refl].
  apply isCnstN_inv in R0; subst. intros Hs. split; [|split].
  - apply R_nostor; auto. intros st vs s E. simpl in E.
    destruct (one M (ev l st)) as [[v s1]|] eqn:A; try discriminate.
    assert (v = 0 \/ v = 1).
    { eapply bexp_val; [|exact A]. simpl in Hs. rewrite !andb_true_iff in Hs. tauto. }
    apply one_some in A. destruct H; subst; simpl in E; inv E; auto.
  - simpl in Hs. rewrite !andb_true_iff in Hs. tauto.
  - unfold OptProofs.mono, le; simpl; rewrite ?orb_true_r, ?orb_false_r, ?andb_true_r; auto.
Qed.

Lemma opt2_ok : forall o l r e', croot l -> croot r -> opt2 o l r = Ok e' -> ok (E2 o l r) e'.
Proof.
  intros o l r e' Hl Hr E.
  destruct o; simpl in E; try (inv E; first [apply ok_refl | apply add_sound | apply sub_sound
    | apply mul_sound | apply band_sound | apply bor_sound | apply bxor_sound
    | apply or_sound | apply and_sound | apply cmp_sound]; auto; fail).
  - apply shl_sound; auto.
  - apply shr_sound; auto.
  - apply div_sound; auto.
  - apply mod_sound; auto.
Qed.

Lemma bind_ok : forall A B (x : res A) (f : A -> res B) b,
  bind x f = Ok b -> exists a, x = Ok a /\ f a = Ok b.
Proof. intros A B [a|e] f b H; simpl in H; [eauto|discriminate]. Qed.

Lemma opt1_nn : forall o l, opt1 o l <> ENull.
Proof. intros o [|[]| | |]; destruct o; simpl; discriminate. Qed.

Lemma opt2_nn : forall o l r e', l <> ENull -> r <> ENull -> opt2 o l r = Ok e' -> e' <> ENull.
Proof.
  intros o l r e' Hl Hr H He. subst e'. unfold opt2 in H.
  destruct o; try discriminate H;
  unfold optAdd, optSub, optMul, optBAnd, optBOr, optBXor, optCmp, optOr, optAnd, optDiv, optMod,
    optShl, optShr, setBool in H;
  repeat (match type of H with
  | context [isCnstN ?x ?n] => destruct (isCnstN x n)
  | context [match ?x with _ => _ end] => is_var x; destruct x
  | context [if ?x then _ else _] => destruct x
  end; cbn [orb] in H; try discriminate H; try congruence).
Qed.

Lemma mask_nn : forall e, e <> ENull -> maskC e <> ENull.
Proof. intros [|[]| | |] H; simpl; congruence. Qed.

Lemma cal_func : forall f a e', calExp (EFunc f a) = Ok e' ->
  a = ENull /\ e' = EFunc f a \/ exists a', calExp a = Ok a' /\ e' = EFunc f a'.
Proof.
  intros f a e' H. destruct a; [left; inv H; auto| | | |];
    (right; cbn [calExp] in H; apply bind_ok in H; destruct H as (a' & A & H); inv H; eauto).
Qed.

Lemma arr_func : forall f a e', arrExp (EFunc f a) = Ok e' ->
  a = ENull /\ e' = EFunc f a \/ exists a', arrExp a = Ok a' /\ calExp (EFunc f a') = Ok e'.
Proof.
  intros f a e' H. destruct a; [left; inv H; auto| | | |];
    (right; cbn [arrExp] in H; apply bind_ok in H; destruct H as (a' & A & H); eauto).
Qed.

Lemma calExp_nn : forall e e', calExp e = Ok e' -> e' <> ENull.
Proof.
  induction e as [|k|o e IH|o l IHl r IHr|f a IHa]; intros e' H; simpl in H.
  - discriminate.
  - injection H as <-. apply (mask_nn (ELeaf k)); discriminate.
  - apply bind_ok in H. destruct H as (l' & A & H). inv H. apply mask_nn, opt1_nn.
  - apply bind_ok in H. destruct H as (l' & A & H). apply bind_ok in H. destruct H as (r' & B & H).
    apply bind_ok in H. destruct H as (x & C & H). inv H. apply mask_nn. apply (opt2_nn o l' r'); auto.
  - destruct a; try (inv H; discriminate); apply bind_ok in H; destruct H as (a' & A & H);
      inv H; discriminate.
Qed.

Lemma calExp_croot : forall e e', calExp e = Ok e' -> croot e'.
Proof.
  intros e e' H; destruct e as [|k|o l|o l r|f a]; simpl in H.
  - discriminate.
  - injection H as <-. apply (mask_croot (ELeaf k)).
  - apply bind_ok in H. destruct H as (l' & A & H). inv H. apply mask_croot.
  - apply bind_ok in H. destruct H as (l' & A & H). apply bind_ok in H. destruct H as (r' & B & H).
    apply bind_ok in H. destruct H as (x & C & H). inv H. apply mask_croot.
  - destruct a; try (inv H; intros v E; discriminate E); apply bind_ok in H;
      destruct H as (a' & A & H); inv H; intros v E; discriminate E.
Qed.

Lemma cal_cnst : forall f, is_word f -> calExp (Cnst f) = Ok (Cnst f).
Proof. intros f H. simpl. rewrite land_all by auto. reflexivity. Qed.

Lemma calExp_ok : forall e e', calExp e = Ok e' -> ok e e'.
Proof.
  induction e as [|k|o e IH|o l IHl r IHr|f a IHa]; intros e' H.
  - discriminate.
  - simpl in H. injection H as <-. apply (mask_ok (ELeaf k)).
  - simpl in H. apply bind_ok in H. destruct H as (l' & A & H). injection H as <-.
    eapply ok_trans; [|apply mask_ok]. eapply ok_trans; [apply ok_cong1; apply IH; eauto|].
    apply opt1_ok. eapply calExp_croot; eauto.
  - simpl in H. apply bind_ok in H. destruct H as (l' & A & H). apply bind_ok in H. destruct H as (r' & B & H).
    apply bind_ok in H. destruct H as (x & C & H). injection H as <-.
    eapply ok_trans; [|apply mask_ok]. eapply ok_trans; [|apply (opt2_ok o l' r'); eauto using calExp_croot].
    apply ok_cong2; auto. intros -> Hd. apply dot_leaf in Hd. destruct Hd as (f & -> & Hf).
    rewrite cal_cnst in B by auto. inv B; auto.
  - assert (G : a = ENull /\ e' = EFunc f a \/ exists a', calExp a = Ok a' /\ e' = EFunc f a').
    { apply cal_func; auto. }
    destruct G as [[-> ->]|(a' & A & ->)]; [apply ok_refl|].
    apply ok_func; auto. split; intros; subst; [|discriminate A].
    exfalso; apply (calExp_nn _ _ A); auto.
Qed.

Lemma arrExp_nn : forall e e', arrExp e = Ok e' -> e' <> ENull.
Proof.
  intros e e' H. destruct e as [|k|o l|o l r|f a]; [discriminate| | | |]; cbn [arrExp] in H.
  - exact (calExp_nn _ _ H).
  - apply bind_ok in H. destruct H as (l' & A & H). exact (calExp_nn _ _ H).
  - apply bind_ok in H. destruct H as (r' & A & H). apply bind_ok in H. destruct H as (l' & B & H).
    exact (calExp_nn _ _ H).
  - apply arr_func in H. destruct H as [[-> ->]|(a' & A & H)]; [discriminate|].
    exact (calExp_nn _ _ H).
Qed.

Lemma arrExp_ok : forall e e', arrExp e = Ok e' -> ok e e'.
Proof.
  induction e as [|k|o e IH|o l IHl r IHr|f a IHa]; intros e' H.
  - discriminate.
  - apply calExp_ok; auto.
  - cbn [arrExp] in H. apply bind_ok in H. destruct H as (l' & A & H).
    eapply ok_trans; [|apply calExp_ok; eauto]. apply ok_cong1; auto.
  - cbn [arrExp] in H. apply bind_ok in H. destruct H as (r' & A & H).
    apply bind_ok in H. destruct H as (l' & B & H).
    eapply ok_trans; [|apply calExp_ok; eauto].
    eapply ok_trans; [|apply moveCnst_ok].
    apply ok_cong2; auto. intros -> Hd. apply dot_leaf in Hd. destruct Hd as (f & -> & Hf).
    cbn [arrExp] in A. rewrite cal_cnst in A by auto. inv A; auto.
  - assert (G : a = ENull /\ e' = EFunc f a \/
                exists a', arrExp a = Ok a' /\ calExp (EFunc f a') = Ok e').
    { apply arr_func; auto. }
    destruct G as [[-> ->]|(a' & A & H')]; [apply ok_refl|].
    eapply ok_trans; [|apply calExp_ok; eauto].
    apply ok_func; auto. split; intros; subst; [|discriminate A].
    exfalso; apply (arrExp_nn _ _ A); auto.
Qed.

Lemma optExp_ok : forall e e', optExp e = Ok e' -> ok e e'.
Proof.
  intros e e' H. unfold optExp in H. destruct e; try (inv H; apply ok_refl);
    (eapply ok_trans; [apply moveLeft_ok|apply arrExp_ok; auto]).
Qed.

Lemma optExp_eval : forall e e', opt_safe N e = true -> optExp e = Ok e' ->
  forall st r, eval M N ltr e st = Some r -> eval M N ltr e' st = Some r.
Proof.
  intros e e' Hs H st r E. destruct (optExp_ok e e' H Hs) as (HR & _).
  unfold eval in *. eapply one_R; eauto.
Qed.

End P.
