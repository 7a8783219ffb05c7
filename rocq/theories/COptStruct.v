(* Structural facts about the optimiser of the 32-bit build: exact folding of constants, range of
   constants, order of side effects. *)
From Coq Require Import ZArith Zquot Bool List Lia.
From Verif Require Import CWord CWordProofs SyTree OpTree COpTree OptSpec OptStruct CIntSpec COptProofs COptProofs2 COptProofs3.
Import ListNotations.
Open Scope Z_scope.

Ltac bnd H := apply bind_ok in H; let x := fresh "x" in let A := fresh "A" in destruct H as (x & A & H).

(* ---- exact folding ---- *)
Definition cerr (o : op2) (c : cval) : res expr :=
  match c with
  | CVal v => Ok (Cnst v)
  | COver => Err EUndef
  | CShift => Err (match o with SHL => EShl | _ => EShr end)
  | CDiv0 => Err (match o with DIV => EDiv0 | _ => EMod0 end)
  end.

Lemma i32_low32 v : i32 v = low32 v.
Proof.
  unfold i32, low32. cbv zeta. pose proof (Z.mod_pos_bound v 4294967296 ltac:(lia)) as B.
  pose proof (Z.div_mod v 4294967296 ltac:(lia)) as D.
  destruct (v mod 4294967296 <? 2147483648) eqn:E; [apply Z.ltb_lt in E|apply Z.ltb_ge in E].
  - assert ((v + 2147483648) mod 4294967296 = v mod 4294967296 + 2147483648) as ->; [|lia].
    symmetry. apply Z.mod_unique with (q := v / 4294967296); lia.
  - assert ((v + 2147483648) mod 4294967296 = v mod 4294967296 - 2147483648) as ->; [|lia].
    symmetry. apply Z.mod_unique with (q := v / 4294967296 + 1); lia.
Qed.
Lemma fits_int v : fits v = isInt v.
Proof. reflexivity. Qed.
Lemma cal2 o a b : isInt a = true -> isInt b = true ->
  cCal (E2 o (Cnst a) (Cnst b)) = (e' <- cOpt2 o (Cnst a) (Cnst b) ;; Ok (maskI e')).
Proof. intros Ha Hb. cbn [cCal bind maskI]. rewrite !i32_id by assumption. reflexivity. Qed.
Lemma bits_int v : isInt v = true <-> forall i, 31 <= i -> Z.testbit v i = (v <? 0).
Proof.
  rewrite isInt_iff. split.
  - intros H i Hi. destruct (v <? 0) eqn:E.
    + apply Z.ltb_lt in E. replace v with (Z.lnot (- v - 1)) by (unfold Z.lnot; lia).
      rewrite Z.lnot_spec by lia. rewrite Z.bits_above_log2; [reflexivity|lia|].
      destruct (Z.eq_dec (- v - 1) 0) as [->|N0]; [cbn; lia|].
      apply Z.log2_lt_pow2; [lia|]. assert (2 ^ 31 <= 2 ^ i) by (apply Z.pow_le_mono_r; lia).
      change (2 ^ 31) with 2147483648 in *. lia.
    + apply Z.ltb_ge in E. destruct (Z.eq_dec v 0) as [->|N0]; [apply Z.bits_0|].
      rewrite Z.bits_above_log2; [reflexivity|lia|].
      apply Z.log2_lt_pow2; [lia|]. assert (2 ^ 31 <= 2 ^ i) by (apply Z.pow_le_mono_r; lia).
      change (2 ^ 31) with 2147483648 in *. lia.
  - intros H. destruct (v <? 0) eqn:E.
    + apply Z.ltb_lt in E. assert (0 <= - v - 1 < 2147483648) as G; [|lia].
      split; [lia|]. change 2147483648 with (2 ^ 31).
      destruct (Z.eq_dec (- v - 1) 0) as [->|N0]; [reflexivity|].
      apply Z.log2_lt_pow2; [lia|]. destruct (Z_lt_le_dec (Z.log2 (- v - 1)) 31) as [|L]; [assumption|exfalso].
      pose proof (Z.bit_log2 (- v - 1) ltac:(lia)) as B.
      specialize (H _ L). replace v with (Z.lnot (- v - 1)) in H by (unfold Z.lnot; lia).
      assert (Z.lnot (- v - 1) = v) as X by (unfold Z.lnot; lia). rewrite X in H.
      rewrite <- X in H at 1. rewrite Z.lnot_spec, B in H by lia. discriminate H.
    + apply Z.ltb_ge in E. assert (v < 2147483648) as G; [|lia]. change 2147483648 with (2 ^ 31).
      destruct (Z.eq_dec v 0) as [->|N0]; [reflexivity|].
      apply Z.log2_lt_pow2; [lia|]. destruct (Z_lt_le_dec (Z.log2 v) 31) as [|L]; [assumption|exfalso].
      pose proof (Z.bit_log2 v ltac:(lia)) as B. rewrite (H _ L) in B. discriminate B.
Qed.
Lemma bitop_int (f : Z -> Z -> Z) (g : bool -> bool -> bool) a b :
  (forall x y i, Z.testbit (f x y) i = g (Z.testbit x i) (Z.testbit y i)) ->
  (f a b <? 0) = g (a <? 0) (b <? 0) ->
  isInt a = true -> isInt b = true -> isInt (f a b) = true.
Proof.
  intros F S Ha Hb. apply bits_int. intros i Hi. rewrite F, S.
  rewrite (proj1 (bits_int a) Ha i Hi), (proj1 (bits_int b) Hb i Hi). reflexivity.
Qed.
Lemma land_int a b : isInt a = true -> isInt b = true -> isInt (Z.land a b) = true.
Proof.
  apply (bitop_int Z.land andb); [intros; apply Z.land_spec|].
  apply eq_iff_eq_true. rewrite andb_true_iff, !Z.ltb_lt. apply Z.land_neg.
Qed.
Lemma lor_int a b : isInt a = true -> isInt b = true -> isInt (Z.lor a b) = true.
Proof.
  apply (bitop_int Z.lor orb); [intros; apply Z.lor_spec|].
  apply eq_iff_eq_true. rewrite orb_true_iff, !Z.ltb_lt. apply Z.lor_neg.
Qed.
Lemma lxor_int a b : isInt a = true -> isInt b = true -> isInt (Z.lxor a b) = true.
Proof.
  apply (bitop_int Z.lxor xorb); [intros; apply Z.lxor_spec|].
  pose proof (Z.lxor_nonneg a b) as L.
  destruct (a <? 0) eqn:A, (b <? 0) eqn:B; cbn [xorb];
    repeat match goal with H : (_ <? 0) = true |- _ => apply Z.ltb_lt in H
                      | H : (_ <? 0) = false |- _ => apply Z.ltb_ge in H end;
    [apply Z.ltb_ge|apply Z.ltb_lt|apply Z.ltb_lt|apply Z.ltb_ge]; lia.
Qed.
Lemma quot_rem_int a b : isInt a = true -> isInt b = true -> isInt (Z.rem a b) = true.
Proof.
  rewrite !isInt_iff. intros Ha Hb. destruct (Z.eq_dec b 0) as [->|N0].
  - rewrite Zquot.Zrem_0_r. lia.
  - destruct (Z_lt_le_dec a 0) as [L|L].
    + pose proof (Zquot.Zrem_lt_neg a b ltac:(lia) N0). lia.
    + pose proof (Zquot.Zrem_lt_pos a b ltac:(lia) N0). lia.
Qed.
Lemma shr_int a n : 0 <= n -> isInt a = true -> isInt (a / 2 ^ n) = true.
Proof.
  rewrite !isInt_iff. intros Hn Ha. assert (1 <= 2 ^ n) by (assert (0 < 2 ^ n) by (apply Z.pow_pos_nonneg; lia); lia).
  split.
  - apply Z.div_le_lower_bound; [lia|]. nia.
  - apply Z.div_le_upper_bound; [lia|]. nia.
Qed.
Lemma mask_int v : isInt v = true -> Ok (maskI (Cnst v)) = Ok (Cnst v).
Proof. intros H. cbn [maskI]. rewrite (i32_id v H). reflexivity. Qed.
Lemma mask_cInt v : (e' <- cInt v ;; Ok (maskI e')) = cerr ADD (cres v).
Proof.
  unfold cInt, cres. change (fits v) with (isInt v). destruct (isInt v) eqn:E; [|reflexivity].
  cbn [bind cerr]. apply mask_int, E.
Qed.
Lemma mask_bool b : Ok (maskI (setBool b)) = cerr ADD (cbool b).
Proof. destruct b; reflexivity. Qed.
Lemma cerr_val o o' v : cerr o (cres v) = cerr o' (cres v).
Proof. unfold cres. destruct (fits v); reflexivity. Qed.

Lemma cfold2_exact o a b : strict o = true -> isInt a = true -> isInt b = true ->
  cCal (E2 o (Cnst a) (Cnst b)) = cerr o (cop2 o a b).
Proof.
  intros So Ha Hb. rewrite cal2 by assumption.
  destruct o; try discriminate So; cbn [cOpt2 bind cop2].
  - apply mask_cInt.
  - rewrite (cerr_val SUB ADD). apply mask_cInt.
  - unfold cShl. destruct (Z_lt_le_dec b 0) as [L|L].
    { rewrite (proj2 (Z.ltb_lt b 0)), (proj2 (Z.leb_gt 0 b)) by lia. reflexivity. }
    rewrite (proj2 (Z.ltb_ge b 0)), (proj2 (Z.leb_le 0 b)) by lia. cbn [orb andb].
    destruct (b <? 32) eqn:B; [apply Z.ltb_lt in B|apply Z.ltb_ge in B].
    + rewrite (proj2 (Z.leb_gt 32 b)) by lia. cbn [cerr].
      destruct (cIsN (Cnst b) 0) eqn:Z0.
      * apply cIsN_inv in Z0. injection Z0 as ->. cbn [bind maskI]. rewrite Z.mul_1_r, i32_low32. reflexivity.
      * cbn [bind maskI]. rewrite Z.shiftl_mul_pow2 by lia. rewrite i32_low32. reflexivity.
    + rewrite (proj2 (Z.leb_le 32 b)) by lia. reflexivity.
  - unfold cShr. destruct (Z_lt_le_dec b 0) as [L|L].
    { rewrite (proj2 (Z.ltb_lt b 0)), (proj2 (Z.leb_gt 0 b)) by lia. reflexivity. }
    rewrite (proj2 (Z.ltb_ge b 0)), (proj2 (Z.leb_le 0 b)) by lia. cbn [orb andb].
    destruct (b <? 32) eqn:B; [apply Z.ltb_lt in B|apply Z.ltb_ge in B].
    + rewrite (proj2 (Z.leb_gt 32 b)) by lia. cbn [cerr].
      destruct (cIsN (Cnst b) 0) eqn:Z0.
      * apply cIsN_inv in Z0. injection Z0 as ->. cbn [bind]. change (2 ^ 0) with 1.
        rewrite Z.div_1_r. apply mask_int, Ha.
      * cbn [bind]. rewrite Z.shiftr_div_pow2 by lia. apply mask_int, shr_int; [lia|exact Ha].
    + rewrite (proj2 (Z.leb_le 32 b)) by lia. reflexivity.
  - unfold cBAnd. cbn [bind cerr]. apply mask_int, land_int; assumption.
  - unfold cBXor. cbn [bind cerr]. apply mask_int, lxor_int; assumption.
  - unfold cBOr. cbn [bind cerr]. apply mask_int, lor_int; assumption.
  - rewrite (cerr_val MUL ADD). apply mask_cInt.
  - unfold cDiv. cbn [cIsN]. destruct (b =? 0); [reflexivity|]. rewrite (cerr_val DIV ADD). apply mask_cInt.
  - unfold cMod. cbn [cIsN]. destruct (b =? 0); [reflexivity|]. change (fits (Z.quot a b)) with (isInt (Z.quot a b)).
    destruct (isInt (Z.quot a b)); [|reflexivity]. cbn [bind cerr]. apply mask_int, quot_rem_int; assumption.
  - apply mask_bool.
  - apply mask_bool.
  - apply mask_bool.
  - apply mask_bool.
  - apply mask_bool.
  - apply mask_bool.
Qed.
Lemma cfold1_exact o a : isInt a = true -> (o = NOT -> a = 0 \/ a = 1) ->
  cCal (E1 o (Cnst a)) = cerr ADD (cop1 o a).
Proof.
  intros Ha Hn. cbn [cCal bind maskI]. rewrite i32_id by assumption.
  destruct o; cbn [cOpt1 cop1].
  - apply mask_cInt.
  - destruct (Hn eq_refl) as [-> | ->]; reflexivity.
  - cbn [bind cerr]. replace (- a - 1) with (Z.lnot a) by (unfold Z.lnot; lia).
    apply mask_int. rewrite isInt_iff in *. unfold Z.lnot. lia.
  - cbn [bind cerr]. unfold BMSK. rewrite land_255. apply mask_int. rewrite isInt_iff.
    pose proof (Z.mod_pos_bound a 256 ltac:(lia)). lia.
  - cbn [bind]. rewrite getBool_word. destruct (mod2_01 a) as [-> | ->]; reflexivity.
Qed.

(* ---- range of constants ---- *)
Definition ci (e : expr) : Prop := consts_int (maskI e).
Lemma ci_cnst v : ci (Cnst v).
Proof. unfold ci. cbn [maskI consts_int]. apply i32_int. Qed.
Lemma ci_of e : consts_int e -> ci e.
Proof. unfold ci. destruct e as [|[v| | | | |]| | |]; cbn; auto. intros _. apply i32_int. Qed.

Ltac cOpt2_cases H :=
  unfold cAdd, cSub, cMul, cBAnd, cBOr, cBXor, cCmp, cOr, cAnd, cDiv, cMod, cShl, cShr, cInt, setBool in H;
  repeat (match type of H with
  | context [cIsN ?x ?n] => let E := fresh "E" in destruct (cIsN x n) eqn:E
  | context [match ?x with _ => _ end] => is_var x; destruct x
  | context [if ?x then _ else _] =>
      lazymatch x with context [orb true _] => fail | context [orb false _] => fail
      | _ => destruct x eqn:? end
  end; cbn [orb] in H; try discriminate H).

Lemma cOpt2_ci o l r e' : consts_int l -> consts_int r -> cOpt2 o l r = Ok e' -> ci e'.
Proof.
  intros Hl Hr H. unfold cOpt2 in H. destruct o; cOpt2_cases H; injection H as <-;
    first [apply ci_cnst | apply ci_of; simpl in *; tauto].
Qed.
Lemma cOpt1_ci o l e' : consts_int l -> cOpt1 o l = Ok e' -> ci e'.
Proof.
  intros Hl H. unfold cOpt1, cInt, setBool in H. destruct l as [|[v| | | | |]| | |];
    try (injection H as <-; apply ci_of; exact Hl).
  destruct o; try (injection H as <-; apply ci_cnst).
  destruct (isInt (- v)); [injection H as <-; apply ci_cnst|discriminate H].
Qed.
Lemma cCal_int e : forall e', cCal e = Ok e' -> consts_int e'.
Proof.
  induction e as [|k|o e IH|o l IHl r IHr|f a IHa]; intros e' H.
  - discriminate.
  - cbn [cCal] in H. assert (e' = maskI (ELeaf k)) as -> by congruence.
    destruct k as [v| | | | |]; cbn; auto. apply (i32_int v).
  - cbn [cCal] in H. bnd H. bnd H. assert (e' = maskI x0) as -> by congruence.
    exact (cOpt1_ci _ _ _ (IH _ A) A0).
  - cbn [cCal] in H. bnd H. bnd H. bnd H. assert (e' = maskI x1) as -> by congruence.
    exact (cOpt2_ci _ _ _ _ (IHl _ A) (IHr _ A0) A1).
  - apply cal_func in H. destruct H as [[-> ->]|(a' & A & ->)]; cbn [consts_int]; auto.
Qed.
Lemma cOptExp_int e e' : cOptExp e = Ok e' -> consts_int e'.
Proof.
  intros H. unfold cOptExp in H.
  assert (G : e = ENull /\ e' = ENull \/ cArr (moveLeft e) = Ok e').
  { destruct e; auto. injection H as <-; auto. }
  destruct G as [[-> ->]|G]; [exact I|]. clear H.
  destruct (moveLeft e) as [|k|o x|o x y|f x]; [discriminate G| | | |].
  - exact (cCal_int _ _ G).
  - cbn [cArr] in G. bnd G. exact (cCal_int _ _ G).
  - cbn [cArr] in G. bnd G. bnd G. bnd G. exact (cCal_int _ _ G).
  - apply arr_func in G. destruct G as [[-> ->]|(a' & A & G)]; cbn [consts_int]; auto.
    exact (cCal_int _ _ G).
Qed.

(* ---- side effects ---- *)
Lemma maskI_effs e : effs (maskI e) = effs e.
Proof. destruct e as [|[]| | |]; reflexivity. Qed.
Lemma cOpt1_effs o l e' : cOpt1 o l = Ok e' -> subseq (effs e') (effs l).
Proof.
  intros H. unfold cOpt1, cInt, setBool in H. destruct l as [|[v| | | | |]| | |];
    try (injection H as <-; apply sub_refl).
  destruct o; try (injection H as <-; apply sub_empty).
  destruct (isInt (- v)); [injection H as <-; apply sub_empty|discriminate H].
Qed.
Lemma cOpt2_effs o l r e' : cOpt2 o l r = Ok e' -> subseq (effs e') (effs (E2 o l r)).
Proof.
  intros H. unfold cOpt2 in H. destruct o; cOpt2_cases H; injection H as <-;
    first [apply sub_refl | apply sub_empty | apply sub_l | apply sub_r].
Qed.
Lemma cCal_effs e : forall e', cCal e = Ok e' -> subseq (effs e') (effs e).
Proof.
  induction e as [|k|o e IH|o l IHl r IHr|f a IHa]; intros e' H.
  - discriminate.
  - cbn [cCal] in H. assert (e' = maskI (ELeaf k)) as -> by congruence. rewrite maskI_effs. apply sub_refl.
  - cbn [cCal] in H. bnd H. bnd H. assert (e' = maskI x0) as -> by congruence. rewrite maskI_effs.
    cbn [effs]. eapply sub_trans; [apply IH; eassumption|exact (cOpt1_effs _ _ _ A0)].
  - cbn [cCal] in H. bnd H. bnd H. bnd H. assert (e' = maskI x1) as -> by congruence. rewrite maskI_effs.
    apply cOpt2_effs in A1. eapply sub_trans; [|exact A1]. apply effs_cong; auto.
  - apply cal_func in H. destruct H as [[-> ->]|(a' & A & ->)]; cbn [effs]; [apply sub_refl|].
    apply sub_keep; auto.
Qed.
Lemma cMoveCnst_effs o l r e' : cMoveCnst o l r = Ok e' -> effs e' = effs (E2 o l r).
Proof.
  unfold cMoveCnst. intros H. bnd H. destruct x as [o' r'].
  assert (Hr : effs (E2 o' l r') = effs (E2 o l r)).
  { unfold cNormSub in A. destruct o; try (injection A as <- <-; reflexivity).
    destruct r as [|[]| | |]; try (injection A as <- <-; reflexivity).
    destruct (isInt _); [injection A as <- <-; reflexivity|discriminate A]. }
  assert (e' = if movable o' && is_cnst r' then pushC o' l r' else E2 o' l r') as -> by congruence.
  rewrite <- Hr. destruct (movable o' && is_cnst r') eqn:B; [|reflexivity].
  apply andb_true_iff in B. destruct B as [B1 B2]. apply is_cnst_inv in B2. destruct B2 as [c ->].
  rewrite pushC_effs by auto. rewrite effs_mid by (destruct o'; discriminate). simpl.
  rewrite app_nil_r; auto.
Qed.
Lemma cArr_effs e : forall e', cArr e = Ok e' -> subseq (effs e') (effs e).
Proof.
  induction e as [|k|o e IH|o l IHl r IHr|f a IHa]; intros e' H.
  - discriminate.
  - exact (cCal_effs _ _ H).
  - cbn [cArr] in H. bnd H. apply cCal_effs in H. apply IH in A. cbn [effs] in *.
    eapply sub_trans; eauto.
  - cbn [cArr] in H. bnd H. bnd H. bnd H. apply cCal_effs in H. rewrite (cMoveCnst_effs _ _ _ _ A1) in H.
    eapply sub_trans; [|exact H]. apply effs_cong; auto.
  - apply arr_func in H. destruct H as [[-> ->]|(a' & A & H)]; cbn [effs]; [apply sub_refl|].
    apply IHa in A. apply cCal_effs in H. cbn [effs] in H. eapply sub_trans; [|exact H].
    apply sub_keep; auto.
Qed.
Lemma cOptExp_effs e e' : cOptExp e = Ok e' -> subseq (effs e') (effs e).
Proof.
  intros H. unfold cOptExp in H. destruct e; try (injection H as <-; apply sub_refl);
    apply cArr_effs in H; rewrite (proj1 (pull_effs _)) in H; exact H.
Qed.
