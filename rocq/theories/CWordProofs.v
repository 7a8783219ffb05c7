(* Lemmas about 32-bit words. *)
From Coq Require Import ZArith Bool Lia.
From Verif Require Import CWord.
Open Scope Z_scope.

Lemma w32_range : forall z, is_word (w32 z).
Proof. intros; unfold is_word, w32; apply Z.mod_pos_bound; lia. Qed.

Lemma w32_id : forall z, is_word z -> w32 z = z.
Proof. intros z H; unfold w32; apply Z.mod_small; exact H. Qed.

Lemma w32_w32 : forall z, w32 (w32 z) = w32 z.
Proof. intros; apply w32_id, w32_range. Qed.

Lemma w32_cong : forall a b k, a = b + k * 4294967296 -> w32 a = w32 b.
Proof. intros; subst; unfold w32; apply Z.mod_add; lia. Qed.

Lemma w32_eq_ex : forall a, exists k, w32 a = a + k * 4294967296.
Proof.
  intros a; exists (- (a / 4294967296)); unfold w32.
  pose proof (Z.div_mod a 4294967296); lia.
Qed.

Lemma w32_add_l : forall a b, w32 (w32 a + b) = w32 (a + b).
Proof. intros; unfold w32; apply Zplus_mod_idemp_l. Qed.
Lemma w32_add_r : forall a b, w32 (a + w32 b) = w32 (a + b).
Proof. intros; unfold w32; apply Zplus_mod_idemp_r. Qed.
Lemma w32_sub_l : forall a b, w32 (w32 a - b) = w32 (a - b).
Proof. intros; unfold w32; apply Zminus_mod_idemp_l. Qed.
Lemma w32_sub_r : forall a b, w32 (a - w32 b) = w32 (a - b).
Proof. intros; unfold w32; apply Zminus_mod_idemp_r. Qed.
Lemma w32_mul_l : forall a b, w32 (w32 a * b) = w32 (a * b).
Proof. intros; unfold w32; apply Zmult_mod_idemp_l. Qed.
Lemma w32_mul_r : forall a b, w32 (a * w32 b) = w32 (a * b).
Proof. intros; unfold w32; apply Zmult_mod_idemp_r. Qed.
Lemma w32_opp : forall a, w32 (- w32 a) = w32 (- a).
Proof.
  intros. replace (- w32 a) with (0 - w32 a) by lia.
  rewrite w32_sub_r; f_equal; lia.
Qed.

Lemma land_4294967295 : forall z, Z.land z 4294967295 = w32 z.
Proof. intros; unfold w32; change 4294967295 with (Z.ones 32); apply Z.land_ones; lia. Qed.

Lemma land_255 : forall z, Z.land z 255 = z mod 256.
Proof. intros; change 255 with (Z.ones 8); apply Z.land_ones; lia. Qed.

Lemma word_bits : forall z, is_word z <-> (0 <= z /\ forall i, 32 <= i -> Z.testbit z i = false).
Proof.
  intros z; split.
  - intros H; split; [apply H|]. intros i Hi.
    rewrite <- (w32_id z H). unfold w32.
    change 4294967296 with (2 ^ 32). apply Z.mod_pow2_bits_high; lia.
  - intros [H0 H]. split; auto.
    assert (E : z = w32 z).
    { unfold w32; change 4294967296 with (2 ^ 32). apply Z.bits_inj'; intros i Hi.
      destruct (Z_lt_le_dec i 32).
      - rewrite Z.mod_pow2_bits_low by lia; reflexivity.
      - rewrite Z.mod_pow2_bits_high by lia. apply H; lia. }
    rewrite E; apply w32_range.
Qed.

Lemma land_word : forall a b, is_word a -> is_word b -> is_word (Z.land a b).
Proof.
  intros a b Ha Hb; apply word_bits in Ha; apply word_bits in Hb; apply word_bits.
  split; [apply Z.land_nonneg; tauto|].
  intros i Hi; rewrite Z.land_spec, (proj2 Ha) by lia; reflexivity.
Qed.
Lemma lor_word : forall a b, is_word a -> is_word b -> is_word (Z.lor a b).
Proof.
  intros a b Ha Hb; apply word_bits in Ha; apply word_bits in Hb; apply word_bits.
  split; [apply Z.lor_nonneg; tauto|].
  intros i Hi; rewrite Z.lor_spec, (proj2 Ha), (proj2 Hb) by lia; reflexivity.
Qed.
Lemma lxor_word : forall a b, is_word a -> is_word b -> is_word (Z.lxor a b).
Proof.
  intros a b Ha Hb; apply word_bits in Ha; apply word_bits in Hb; apply word_bits.
  split; [apply Z.lxor_nonneg; tauto|].
  intros i Hi; rewrite Z.lxor_spec, (proj2 Ha), (proj2 Hb) by lia; reflexivity.
Qed.

Lemma b2w_word : forall b, is_word (b2w b).
Proof. intros []; unfold is_word, b2w; lia. Qed.
Lemma b2w_01 : forall b, b2w b = 0 \/ b2w b = 1.
Proof. intros []; auto. Qed.

Lemma sval_w32 : forall a, is_word a -> w32 (sval a) = a.
Proof.
  intros a H; unfold sval. destruct (a <? 2147483648) eqn:E.
  - apply w32_id; auto.
  - rewrite <- (w32_id a H) at 2. apply w32_cong with (k := -1). lia.
Qed.

Lemma sval_range : forall a, is_word a -> -2147483648 <= sval a <= 2147483647.
Proof.
  intros a [H1 H2]; unfold sval. destruct (a <? 2147483648) eqn:E;
    [apply Z.ltb_lt in E | apply Z.ltb_ge in E]; lia.
Qed.

Lemma sval_inj : forall a b, is_word a -> is_word b -> sval a = sval b -> a = b.
Proof. intros; rewrite <- (sval_w32 a), <- (sval_w32 b) by auto; congruence. Qed.

Lemma sval_mod : forall a, is_word a -> exists k, sval a = a + k * 4294967296.
Proof.
  intros a H; unfold sval. destruct (a <? 2147483648); [exists 0 | exists (-1)]; lia.
Qed.

Lemma mod2_01 : forall a, a mod 2 = 0 \/ a mod 2 = 1.
Proof. intros; pose proof (Z.mod_pos_bound a 2); lia. Qed.
