(* Folding of operators on constants, division chains, counterexamples. *)
From Coq Require Import ZArith Bool List Lia.
From Verif Require Import Word WordProofs SyTree ExprSem StmtSem OpTree OptSpec OptProofs OptProofs2 OptProofs3.
Import ListNotations.
Open Scope Z_scope.

Lemma cal_c2 : forall o a b, is_word a -> is_word b ->
  calExp (E2 o (Cnst a) (Cnst b)) = (e' <- opt2 o (Cnst a) (Cnst b) ;; Ok (maskC e')).
Proof.
  intros o a b Ha Hb. cbn [calExp bind maskC]. unfold WMSK.
  rewrite !land_all by auto. reflexivity.
Qed.

(* the diagnostic expected when the operator is undefined at run time *)
Definition fold_err (o : op2) : operr :=
  match o with SHL => EShl | SHR => EShr | DIV => EDiv0 | _ => EMod0 end.

Lemma mask_w : forall v, maskC (Cnst v) = Cnst (w16 v).
Proof. intros. cbn [maskC]. unfold WMSK. rewrite land_65535. reflexivity. Qed.

Lemma fold2_exact : forall o a b, strict o = true -> is_word a -> is_word b ->
  calExp (E2 o (Cnst a) (Cnst b)) =
  match op2_val o a b with Some v => Ok (Cnst v) | None => Err (fold_err o) end.
Proof.
  intros o a b So Ha Hb. rewrite cal_c2 by auto.
  assert (S16 : forall v, is_word v -> getSInt v = sval v) by apply getSInt_sval.
  assert (C16 : forall v, is_word v -> w16 (sval v) = v) by apply sval_w16.
  destruct o; try discriminate So; cbn [opt2 bind op2_val].
  - unfold optAdd. rewrite mask_w, !S16 by auto. unfold w_add.
    rewrite <- (w16_add_l (sval a)), <- (w16_add_r _ (sval b)), !C16; auto.
  - unfold optSub. rewrite mask_w, !S16 by auto. unfold w_sub.
    rewrite <- (w16_sub_l (sval a)), <- (w16_sub_r _ (sval b)), !C16; auto.
  - unfold optShl, w_shl. destruct Hb as [Hb1 Hb2].
    rewrite (proj2 (Z.ltb_ge b 0)) by lia. cbn [orb].
    destruct (b <? 16) eqn:E.
    + apply Z.ltb_lt in E. rewrite (proj2 (Z.leb_gt 16 b)) by lia.
      destruct (isCnstN (Cnst b) 0) eqn:Z0.
      * apply isCnstN_inv in Z0. inv Z0. cbn [bind]. rewrite mask_w, Z.mul_1_r. auto.
      * cbn [bind]. rewrite mask_w, S16, Z.shiftl_mul_pow2 by (auto; lia).
        rewrite <- w16_mul_l, C16 by auto. auto.
    + apply Z.ltb_ge in E. rewrite (proj2 (Z.leb_le 16 b)) by lia. auto.
  - unfold optShr, w_shr. destruct Hb as [Hb1 Hb2].
    rewrite (proj2 (Z.ltb_ge b 0)) by lia. cbn [orb].
    destruct (b <? 16) eqn:E.
    + apply Z.ltb_lt in E. rewrite (proj2 (Z.leb_gt 16 b)) by lia.
      destruct (isCnstN (Cnst b) 0) eqn:Z0.
      * apply isCnstN_inv in Z0. inv Z0. cbn [bind]. rewrite mask_w, Z.div_1_r, C16, w16_id by auto. auto.
      * cbn [bind]. rewrite mask_w, S16, Z.shiftr_div_pow2 by (auto; lia). auto.
    + apply Z.ltb_ge in E. rewrite (proj2 (Z.leb_le 16 b)) by lia. auto.
  - unfold optBAnd. rewrite mask_w, w16_id by (apply land_word; auto). auto.
  - unfold optBXor. rewrite mask_w, w16_id by (apply lxor_word; auto). auto.
  - unfold optBOr. rewrite mask_w, w16_id by (apply lor_word; auto). auto.
  - unfold optMul. rewrite mask_w, !S16 by auto. unfold w_mul.
    rewrite <- (w16_mul_l (sval a)), <- (w16_mul_r _ (sval b)), !C16; auto.
  - unfold optDiv, w_div. cbn [isCnstN]. change (Z.land 0 WMSK) with 0.
    destruct (b =? 0) eqn:E; [reflexivity|]. cbn [bind]. rewrite mask_w, !S16 by auto. auto.
  - unfold optMod, w_mod. cbn [isCnstN]. change (Z.land 0 WMSK) with 0.
    destruct (b =? 0) eqn:E; [reflexivity|]. cbn [bind]. rewrite mask_w, !S16 by auto. auto.
  - unfold optCmp, setBool. rewrite mask_w, !S16 by auto. unfold w_gt, b2w.
    destruct (sval b <? sval a); reflexivity.
  - unfold optCmp, setBool. rewrite mask_w, !S16 by auto. unfold w_ge, b2w.
    destruct (sval b <=? sval a); reflexivity.
  - unfold optCmp, setBool. rewrite mask_w, !S16 by auto. unfold w_lt, b2w.
    destruct (sval a <? sval b); reflexivity.
  - unfold optCmp, setBool. rewrite mask_w, !S16 by auto. unfold w_le, b2w.
    destruct (sval a <=? sval b); reflexivity.
  - unfold optCmp, setBool. rewrite mask_w by auto. unfold w_eq, b2w. destruct (a =? b); reflexivity.
  - unfold optCmp, setBool. rewrite mask_w by auto. unfold w_ne, b2w. destruct (a =? b); reflexivity.
Qed.

Lemma fold1_exact : forall o a, is_word a -> (o = NOT -> a = 0 \/ a = 1) ->
  calExp (E1 o (Cnst a)) = Ok (Cnst (op1_val o a)).
Proof.
  intros o a Ha Hn. cbn [calExp bind maskC]. unfold WMSK. rewrite land_all by auto.
  destruct o; cbn [opt1 op1_val].
  - rewrite mask_w, getSInt_sval by auto. unfold w_neg.
    rewrite <- (w16_opp (sval a)), sval_w16 by auto. auto.
  - destruct (Hn eq_refl); subst; reflexivity.
  - rewrite mask_w. unfold w_bnot, Z.lnot. f_equal.
    rewrite <- (w16_id (65535 - a)) by (destruct Ha; unfold is_word; lia).
    do 2 f_equal. apply w16_cong with (k := -1). lia.
  - unfold BMSK. rewrite land_255, mask_w, w16_id; auto. apply chr_word.
  - unfold setBool. rewrite getBool_word. unfold w_bool. destruct (mod2_01 a) as [->| ->]; reflexivity.
Qed.

Lemma foldlog_exact : forall a b, (a = 0 \/ a = 1) -> (b = 0 \/ b = 1) ->
  calExp (E2 AND (Cnst a) (Cnst b)) = Ok (Cnst (b2w (negb (a =? 0) && negb (b =? 0)))) /\
  calExp (E2 OR (Cnst a) (Cnst b)) = Ok (Cnst (b2w (negb (a =? 0) || negb (b =? 0)))).
Proof. intros a b [->| ->] [->| ->]; split; reflexivity. Qed.

(* ---- division chains ---- *)
Lemma sval_small : forall c, 0 <= c < 32768 -> sval c = c.
Proof. intros c H. unfold sval. rewrite (proj2 (Z.ltb_lt c 32768)); lia. Qed.

Lemma sval_w16_small : forall z, -32768 <= z < 32768 -> sval (w16 z) = z.
Proof.
  intros z H. destruct (Z_lt_le_dec z 0).
  - replace (w16 z) with (z + 65536).
    + unfold sval. rewrite (proj2 (Z.ltb_ge (z + 65536) 32768)); lia.
    + rewrite <- (w16_id (z + 65536)) by (unfold is_word; lia). apply w16_cong with (k := 1); lia.
  - rewrite w16_id by (unfold is_word; lia). apply sval_small; lia.
Qed.

Lemma quot_bound : forall x c, -32768 <= x < 32768 -> 0 < c -> -32768 <= Z.quot x c < 32768.
Proof.
  intros x c Hx Hc.
  assert (Z.abs (Z.quot x c) <= Z.abs x).
  { rewrite <- Z.quot_abs by lia. apply Z.quot_le_upper_bound; try lia.
    rewrite (Z.abs_eq c) by lia. nia. }
  destruct (Z_lt_le_dec x 0); [|assert (0 <= Z.quot x c) by (apply Z.quot_pos; lia); lia].
  assert (Z.quot x c <= 0).
  { replace x with (- - x) by lia. rewrite Z.quot_opp_l by lia.
    assert (0 <= Z.quot (- x) c) by (apply Z.quot_pos; lia). lia. }
  lia.
Qed.

Lemma div_chain : forall x c1 c2 v w, is_word x ->
  0 < c1 -> 0 < c2 -> c1 * c2 < 32768 ->
  w_div x c1 = Some v -> w_div v c2 = Some w -> w_div x (c1 * c2) = Some w.
Proof.
  intros x c1 c2 v w Hx H1 H2 H12 A B. unfold w_div in *.
  assert (c1 < 32768) by nia. assert (c2 < 32768) by nia.
  rewrite (proj2 (Z.eqb_neq c1 0)) in A by lia. rewrite (proj2 (Z.eqb_neq c2 0)) in B by lia.
  rewrite (proj2 (Z.eqb_neq (c1 * c2) 0)) by nia. inv A. inv B.
  pose proof (sval_range x Hx).
  rewrite (sval_small c1), (sval_small c2), (sval_small (c1 * c2)) by lia.
  rewrite sval_w16_small by (apply quot_bound; lia). rewrite Z.quot_quot by lia. reflexivity.
Qed.

Lemma div_chain_opt : forall M N i c1 c2, 1 < c1 -> 1 < c2 -> c1 * c2 < 32768 ->
  exists e', optExp (E2 DIV (E2 DIV (ELeaf (LLoc i)) (Cnst c1)) (Cnst c2)) = Ok e' /\
  forall st r, eval M N ltr (E2 DIV (E2 DIV (ELeaf (LLoc i)) (Cnst c1)) (Cnst c2)) st = Some r ->
               eval M N ltr e' st = Some r.
Proof.
  intros M N i c1 c2 H1 H2 H12.
  assert (W1 : is_word c1) by (unfold is_word; nia). assert (W2 : is_word c2) by (unfold is_word; nia).
  assert (W12 : is_word (c1 * c2)) by (unfold is_word; nia).
  assert (B1 : (c1 =? 0) = false /\ (c1 =? 1) = false) by (rewrite !Z.eqb_neq; lia).
  assert (B2 : (c2 =? 0) = false /\ (c2 =? 1) = false) by (rewrite !Z.eqb_neq; lia).
  assert (B3 : (c1 * c2 =? 0) = false /\ (c1 * c2 =? 1) = false) by (rewrite !Z.eqb_neq; nia).
  destruct B1, B2, B3.
  assert (S1 : getSInt c1 = c1) by (rewrite getSInt_sval by auto; apply sval_small; nia).
  assert (S2 : getSInt c2 = c2) by (rewrite getSInt_sval by auto; apply sval_small; nia).
  exists (E2 DIV (ELeaf (LLoc i)) (Cnst (c1 * c2))). split.
  - unfold optExp. cbn [moveLeft pull canPull arrExp calExp bind maskC].
    unfold WMSK at 1 2. rewrite !land_all by auto. cbn [bind].
    unfold moveCnst at 1. cbn [normSub movable is_cnst andb pushC].
    cbn [calExp bind maskC opt2]. unfold WMSK. rewrite !land_all by auto.
    unfold optDiv at 1. cbn [isCnstN]. change (Z.land 0 WMSK) with 0. change (Z.land 1 WMSK) with 1.
    rewrite H, H0. cbn [bind maskC]. unfold moveCnst. cbn [normSub movable is_cnst andb pushC negb op2_eqb orb].
    cbn [calExp bind maskC opt2]. unfold WMSK. rewrite !land_all by auto. cbn [bind].
    unfold optMul. rewrite S1, S2. cbn [bind maskC]. unfold WMSK. rewrite land_all by auto.
    unfold optDiv. cbn [isCnstN]. change (Z.land 0 WMSK) with 0. change (Z.land 1 WMSK) with 1.
    rewrite H5, H6. reflexivity.
  - intros st [w s] E. unfold eval in *. apply one_some in E.
    rewrite ev_strict in E by auto. rewrite ev_strict in E by auto. rewrite ev_strict by auto.
    destruct (one M (ev M N ltr (ELeaf (LLoc i)) st)) as [[u s1]|] eqn:A; try discriminate.
    assert (Hu : is_word u) by (eapply eval1_word; eauto).
    rewrite one_cnst in *. rewrite w16_id in * by auto. cbn [op2_val] in *.
    destruct (w_div u c1) as [v1|] eqn:D1; try discriminate. cbn [ret1 one] in E.
    rewrite one_cnst, w16_id in E by auto.
    destruct (w_div v1 c2) as [w1|] eqn:D2; try discriminate. cbn [ret1] in E. inv E.
    rewrite (div_chain u c1 c2 v1 w); auto; lia.
Qed.

(* ---- a concrete machine for examples and counterexamples: the global state
   counts the calls made; a call returns its counter value ---- *)
Definition demoM : machine :=
  {| G := Z; ldg := fun g _ => g; stg := fun _ _ v => v;
     ldw := fun _ _ i => i; stw := fun g _ _ _ => g;
     ldb := fun _ _ i => i; stb := fun g _ _ _ => g;
     call := fun f vs g => Some (g + 1, g + 1); adr := fun i => i; lab := fun l => l; lcl := fun i => i; pcl := fun i => i |}.
Definition demoN : names := {| is_bool := fun i => 100 <=? i; is_void := fun _ => false; slot := fun i => i |}.
Definition demoS (x : Z) : state demoM := @State demoM 0 (fun _ => x) (fun _ => x).
