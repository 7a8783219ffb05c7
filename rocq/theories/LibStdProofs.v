(* Proofs about LibStd.v *)
From Coq Require Import ZArith Bool List Lia.
From Verif Require Import LibMem LibString LibSpec LibStrProofs LibStd.
Import ListNotations.
Open Scope Z_scope.

(* ---- words in memory ---- *)
Lemma ldw_range m a : 0 <= ldw m a < 65536.
Proof. unfold ldw. pose proof (ldb_range m a). pose proof (ldb_range m (a + 1)). lia. Qed.

Lemma ldw_cong m a b : a mod 65536 = b mod 65536 -> ldw m a = ldw m b.
Proof.
  intros E. unfold ldw. f_equal; [f_equal|]; apply ldb_cong; auto.
  rewrite <- (Z.add_mod_idemp_l a), E, Z.add_mod_idemp_l by lia. auto.
Qed.

Lemma ldw_stw_same m a v : ldw (stw m a v) a = v mod 65536.
Proof.
  unfold ldw, stw. rewrite !ldb_stb, !Z.eqb_refl.
  replace (a mod 65536 =? (a + 1) mod 65536) with false
    by (symmetry; apply Z.eqb_neq, mod_neq_small; lia).
  change 65536 with (256 * 256). rewrite Z.rem_mul_r by lia. lia.
Qed.

Lemma ldw_stw_other m a v b : apart a 2 b 2 -> ldw (stw m a v) b = ldw m b.
Proof.
  intros A. unfold ldw, stw. rewrite !ldb_stb.
  assert (E : forall i j, 0 <= i < 2 -> 0 <= j < 2 -> ((b + j) mod 65536 =? (a + i) mod 65536) = false).
  { intros i j Hi Hj. apply Z.eqb_neq. intros E. exact (A i j Hi Hj (eq_sym E)). }
  pose proof (E 0 0 ltac:(lia) ltac:(lia)) as E00. pose proof (E 1 0 ltac:(lia) ltac:(lia)) as E10.
  pose proof (E 0 1 ltac:(lia) ltac:(lia)) as E01. pose proof (E 1 1 ltac:(lia) ltac:(lia)) as E11.
  rewrite !Z.add_0_r in E00. rewrite Z.add_0_r in E01. rewrite Z.add_0_r in E10.
  rewrite E00, E01, E10, E11. reflexivity.
Qed.

Lemma ldb_stw_other m a v b : apart a 2 b 1 -> ldb (stw m a v) b = ldb m b.
Proof.
  intros A. unfold stw. rewrite !ldb_stb.
  assert (E : forall i, 0 <= i < 2 -> (b mod 65536 =? (a + i) mod 65536) = false).
  { intros i Hi. apply Z.eqb_neq. intros E. apply (A i 0 Hi ltac:(lia)). now rewrite Z.add_0_r. }
  rewrite (E 1) by lia. pose proof (E 0 ltac:(lia)) as E0. rewrite Z.add_0_r in E0.
  now rewrite E0.
Qed.

Lemma apart_small a n b k : 0 <= n -> 0 <= k ->
  (n <= b - a /\ b - a + k <= 65536) \/ (k <= a - b /\ a - b + n <= 65536) -> apart a n b k.
Proof. intros Hn Hk H i j Hi Hj. apply mod_neq_small. lia. Qed.

Lemma apart_sym a n b k : apart a n b k -> apart b k a n.
Proof. intros A i j Hi Hj E. exact (A j i Hj Hi (eq_sym E)). Qed.

(* ---- the 32-bit value at an address ---- *)
Definition val32 (m : mem) (a : Z) : Z := ldw m a * 65536 + ldw m (a + 2).

Lemma val32_range m a : 0 <= val32 m a < 2 ^ 32.
Proof. unfold val32. pose proof (ldw_range m a). pose proof (ldw_range m (a + 2)). change (2^32) with (65536*65536). lia. Qed.

Lemma stw2_val m a hi lo : 0 <= hi < 65536 -> 0 <= lo < 65536 ->
  val32 (stw (stw m a hi) (a + 2) lo) a = hi * 65536 + lo /\
  val32 (stw (stw m (a + 2) lo) a hi) a = hi * 65536 + lo.
Proof.
  intros Hi Lo. unfold val32. split.
  - rewrite ldw_stw_same, ldw_stw_other, ldw_stw_same by (apply apart_small; lia).
    rewrite !Z.mod_small by lia. reflexivity.
  - rewrite ldw_stw_same, ldw_stw_other, ldw_stw_same by (apply apart_small; lia).
    rewrite !Z.mod_small by lia. reflexivity.
Qed.

Lemma stw2_frame m a b hi lo x : apart a 4 x 1 -> b = a + 2 ->
  ldb (stw (stw m a hi) b lo) x = ldb m x /\ ldb (stw (stw m b lo) a hi) x = ldb m x.
Proof.
  intros A ->.
  assert (A1 : apart a 2 x 1) by (intros i j Hi Hj; apply A; lia).
  assert (A2 : apart (a + 2) 2 x 1).
  { intros i j Hi Hj. replace (a + 2 + i) with (a + (2 + i)) by lia. apply A; lia. }
  split; rewrite !ldb_stw_other by auto; reflexivity.
Qed.

Lemma addsub32 (hi lo hi' lo' : Z) :
  0 <= hi < 65536 -> 0 <= lo < 65536 -> 0 <= hi' < 65536 -> 0 <= lo' < 65536 ->
  addw (if addC lo lo' then addw hi 1 else hi) hi' * 65536 + addw lo lo'
    = ((hi * 65536 + lo) + (hi' * 65536 + lo')) mod 2 ^ 32 /\
  subw (if subC lo lo' then subw hi 1 else hi) hi' * 65536 + subw lo lo'
    = ((hi * 65536 + lo) - (hi' * 65536 + lo')) mod 2 ^ 32.
Proof.
  intros H1 H2 H3 H4. change (2 ^ 32) with (65536 * 65536).
  unfold addw, subw, addC, subC. split.
  - destruct (65536 <=? lo + lo') eqn:C.
    + apply Z.leb_le in C. rewrite Z.add_mod_idemp_l by lia.
      assert (E : (lo + lo') mod 65536 = lo + lo' - 65536)
        by (symmetry; apply (Z.mod_unique_pos _ _ 1); lia).
      rewrite E.
      apply (Z.mod_unique_pos _ _ ((hi + 1 + hi') / 65536)).
      * pose proof (Z.mod_pos_bound (hi + 1 + hi') 65536 ltac:(lia)). lia.
      * pose proof (Z.div_mod (hi + 1 + hi') 65536 ltac:(lia)). lia.
    + apply Z.leb_gt in C. rewrite (Z.mod_small (lo + lo')) by lia.
      apply (Z.mod_unique_pos _ _ ((hi + hi') / 65536)).
      * pose proof (Z.mod_pos_bound (hi + hi') 65536 ltac:(lia)). lia.
      * pose proof (Z.div_mod (hi + hi') 65536 ltac:(lia)). lia.
  - destruct (lo <? lo') eqn:C.
    + apply Z.ltb_lt in C. rewrite Zminus_mod_idemp_l.
      assert (E : (lo - lo') mod 65536 = lo - lo' + 65536)
        by (symmetry; apply (Z.mod_unique_pos _ _ (-1)); lia).
      rewrite E.
      apply (Z.mod_unique_pos _ _ ((hi - 1 - hi') / 65536)).
      * pose proof (Z.mod_pos_bound (hi - 1 - hi') 65536 ltac:(lia)). lia.
      * pose proof (Z.div_mod (hi - 1 - hi') 65536 ltac:(lia)). lia.
    + apply Z.ltb_ge in C. rewrite (Z.mod_small (lo - lo')) by lia.
      apply (Z.mod_unique_pos _ _ ((hi - hi') / 65536)).
      * pose proof (Z.mod_pos_bound (hi - hi') 65536 ltac:(lia)). lia.
      * pose proof (Z.div_mod (hi - hi') 65536 ltac:(lia)). lia.
Qed.

(* same array, or two arrays with no byte in common *)
Definition same_or_apart (d s : Z) : Prop := d = s \/ apart d 4 s 4.

Lemma src_hi m d s v : same_or_apart d s -> ldw (stw m (d + 2) v) s = ldw m s.
Proof.
  intros [->|A].
  - apply ldw_stw_other, apart_small; lia.
  - apply ldw_stw_other. intros i j Hi Hj.
    replace (d + 2 + i) with (d + (2 + i)) by lia. apply A; lia.
Qed.

Lemma mod16_range z : 0 <= z mod 65536 < 65536.
Proof. apply Z.mod_pos_bound. lia. Qed.
Lemma addw_range a b : 0 <= addw a b < 65536. Proof. apply mod16_range. Qed.
Lemma subw_range a b : 0 <= subw a b < 65536. Proof. apply mod16_range. Qed.

Lemma add32_ok m d s : same_or_apart d s ->
  exists m', add32 m d s = (m', d) /\
    val32 m' d = (val32 m d + val32 m s) mod 2 ^ 32 /\
    forall x, apart d 4 x 1 -> ldb m' x = ldb m x.
Proof.
  intros A. unfold add32. eexists. split; [reflexivity|].
  rewrite (src_hi m d s) by auto.
  rewrite (ldw_stw_other m (d + 2) _ d) by (apply apart_small; lia).
  split.
  - rewrite (proj2 (stw2_val m d _ _ (addw_range _ _) (addw_range _ _))).
    unfold val32.
    exact (proj1 (addsub32 _ _ _ _ (ldw_range m d) (ldw_range m (d + 2)) (ldw_range m s) (ldw_range m (s + 2)))).
  - intros x X. apply stw2_frame; auto.
Qed.

Lemma sub32_ok m d s : same_or_apart d s ->
  exists m', sub32 m d s = (m', d) /\
    val32 m' d = (val32 m d - val32 m s) mod 2 ^ 32 /\
    forall x, apart d 4 x 1 -> ldb m' x = ldb m x.
Proof.
  intros A. unfold sub32. eexists. split; [reflexivity|].
  rewrite (src_hi m d s) by auto.
  rewrite (ldw_stw_other m (d + 2) _ d) by (apply apart_small; lia).
  split.
  - rewrite (proj2 (stw2_val m d _ _ (subw_range _ _) (subw_range _ _))).
    unfold val32.
    exact (proj2 (addsub32 _ _ _ _ (ldw_range m d) (ldw_range m (d + 2)) (ldw_range m s) (ldw_range m (s + 2)))).
  - intros x X. apply stw2_frame; auto.
Qed.

(* ---- mul32 ---- *)
Lemma shl_split a : 0 <= a < 65536 -> a * 2 = (if shlC a then 65536 else 0) + shl1 a /\ 0 <= shl1 a < 65536 /\ shl1 a mod 2 = 0.
Proof.
  intros H. unfold shl1, shlC. destruct (32768 <=? a) eqn:E.
  - apply Z.leb_le in E. replace ((a * 2) mod 65536) with (a * 2 - 65536)
      by (apply (Z.mod_unique_pos _ _ 1); lia).
    repeat split; try lia. replace (a * 2 - 65536) with ((a - 32768) * 2) by lia. apply Z_mod_mult.
  - apply Z.leb_gt in E. rewrite Z.mod_small by lia. repeat split; try lia. apply Z_mod_mult.
Qed.

Lemma mulRound_ok src g1 g2 : 0 <= src < 65536 -> 0 <= g1 < 65536 -> 0 <= g2 < 65536 ->
  let '(g1', g2') := mulRound src (g1, g2) in
  (2 * (g1 * 65536 + g2)) mod 2 ^ 32 + (if shlC g1 then src else 0) < 2 ^ 32 ->
  0 <= g1' < 65536 /\ 0 <= g2' < 65536 /\
  g1' * 65536 + g2' = (2 * (g1 * 65536 + g2)) mod 2 ^ 32 + (if shlC g1 then src else 0).
Proof.
  intros Hs H1 H2. unfold mulRound. change (2 ^ 32) with 4294967296. intros L.
  destruct (shl_split g1 H1) as (A1 & A2 & A3). destruct (shl_split g2 H2) as (B1 & B2 & B3).
  set (x := shl1 g1) in *. set (y := shl1 g2) in *. set (g0 := if shlC g1 then src else 0) in *.
  assert (G0 : 0 <= g0 < 65536) by (unfold g0; destruct (shlC g1); lia).
  assert (EV : forall z, 0 <= z < 65536 -> z mod 2 = 0 -> z <= 65534).
  { intros z Hz E. apply Z.mod_divide in E; [|lia]. destruct E. lia. }
  pose proof (EV x A2 A3) as X.
  assert (E : (2 * (g1 * 65536 + g2)) mod 4294967296 = x * 65536 + (if shlC g2 then 65536 else 0) + y).
  { symmetry. apply (Z.mod_unique_pos _ _ (if shlC g1 then 1 else 0)).
    - destruct (shlC g2); lia.
    - destruct (shlC g1), (shlC g2); lia. }
  rewrite E in *. clear E A1 B1 EV A3 B3.
  unfold addw, addC.
  destruct (shlC g2) eqn:C2.
  - rewrite (Z.mod_small (x + 1)) by lia. destruct (65536 <=? y + g0) eqn:C3.
    + apply Z.leb_le in C3. rewrite (Z.mod_small (x + 1 + 1)) by lia.
      replace ((y + g0) mod 65536) with (y + g0 - 65536) by (apply (Z.mod_unique_pos _ _ 1); lia). lia.
    + apply Z.leb_gt in C3. rewrite (Z.mod_small (y + g0)) by lia. lia.
  - destruct (65536 <=? y + g0) eqn:C3.
    + apply Z.leb_le in C3. rewrite (Z.mod_small (x + 1)) by lia.
      replace ((y + g0) mod 65536) with (y + g0 - 65536) by (apply (Z.mod_unique_pos _ _ 1); lia). lia.
    + apply Z.leb_gt in C3. rewrite (Z.mod_small (y + g0)) by lia. lia.
Qed.

(* after the first 16 - j rounds, T = (B mod 2^j) * 2^(32-j) + (B / 2^j) * src *)
Lemma mulRounds_ok src B : 0 <= src < 65536 -> 0 <= B < 65536 ->
  forall j g1 g2, (j <= 16)%nat -> 0 <= g1 < 65536 -> 0 <= g2 < 65536 ->
  g1 * 65536 + g2 = (B mod 2 ^ Z.of_nat j) * 2 ^ (32 - Z.of_nat j) + (B / 2 ^ Z.of_nat j) * src ->
  let '(r1, r2) := rounds j (mulRound src) (g1, g2) in
  0 <= r1 < 65536 /\ 0 <= r2 < 65536 /\ r1 * 65536 + r2 = B * src.
Proof.
  intros Hs HB. induction j as [|j IH]; intros g1 g2 J H1 H2 E.
  - cbn [rounds]. change (2 ^ Z.of_nat 0) with 1 in E. rewrite Z.mod_1_r, Z.div_1_r in E.
    repeat split; lia.
  - cbn [rounds]. pose proof (mulRound_ok src g1 g2 Hs H1 H2) as M.
    destruct (mulRound src (g1, g2)) as (x, y) eqn:Q.
    set (P := 2 ^ Z.of_nat j) in *.
    assert (P0 : 0 < P) by (apply Z.pow_pos_nonneg; lia).
    replace (Z.of_nat (S j)) with (1 + Z.of_nat j) in E by lia.
    rewrite Z.pow_add_r in E by lia. change (2 ^ 1) with 2 in E. fold P in E.
    replace (32 - (1 + Z.of_nat j)) with (31 - Z.of_nat j) in E by lia.
    set (R := 2 ^ (31 - Z.of_nat j)) in *.
    assert (PR : 2 * (P * R) = 2 ^ 32).
    { unfold P, R. rewrite <- Z.pow_add_r by lia. replace (Z.of_nat j + (31 - Z.of_nat j)) with 31 by lia. reflexivity. }
    assert (R0 : 65536 <= R).
    { unfold R. change 65536 with (2 ^ 16). apply Z.pow_le_mono_r; lia. }
    assert (R32 : 2 ^ (32 - Z.of_nat j) = 2 * R).
    { unfold R. rewrite <- Z.pow_succ_r by lia. f_equal. lia. }
    assert (P16 : P <= 32768).
    { unfold P. change 32768 with (2 ^ 15). apply Z.pow_le_mono_r; lia. }
    pose proof (Z.mod_pos_bound B P P0) as MB.
    pose proof (Z.div_mod B P ltac:(lia)) as DB.
    set (q := B / P) in *. set (r := B mod P) in *.
    (* q = 2 * (B / 2P) + bit *)
    pose proof (Z.div_mod q 2 ltac:(lia)) as D2. pose proof (Z.mod_pos_bound q 2 ltac:(lia)) as M2.
    set (q2 := q / 2) in *. set (b := q mod 2) in *.
    assert (E1 : B / (2 * P) = q2).
    { symmetry. apply (Z.div_unique_pos B (2 * P) q2 (b * P + r)); [split; nia|nia]. }
    assert (E2 : B mod (2 * P) = b * P + r).
    { symmetry. apply (Z.mod_unique_pos B (2 * P) q2 (b * P + r)); [split; nia|nia]. }
    rewrite E1, E2 in E.
    assert (Q0 : 0 <= q) by (apply Z.div_pos; lia).
    assert (Q20 : 0 <= q2) by lia.
    assert (QR : (2 * q2 + 1) * 65535 < 2 * R).
    { (* 2 q2 <= q <= 65535 / P *) assert (q * P <= 65535) by lia.
      assert (RP : R * P = 2147483648) by (change (2 ^ 32) with 4294967296 in PR; lia).
      assert (2 * q2 + 1 <= q + 1) by lia.
      assert (q + 1 <= 2 * 32768) by nia.
      assert ((q + 1) * P <= 65535 + P) by lia.
      assert ((q + 1) * P <= 65536).
      { (* P divides 65536 *)
        assert (DV : exists t, 65536 = t * P).
        { exists (2 ^ (16 - Z.of_nat j)). unfold P. rewrite <- Z.pow_add_r by lia.
          replace (16 - Z.of_nat j + Z.of_nat j) with 16 by lia. reflexivity. }
        destruct DV as (t & DV). assert (q < t) by nia. nia. }
      nia. }
    assert (SC : shlC g1 = (b =? 1)).
    { unfold shlC. assert (B01 : b = 0 \/ b = 1) by lia.
      assert (TT : g1 * 65536 + g2 = b * (P * R) + (r * R + q2 * src)) by lia.
      assert (SM : 0 <= r * R + q2 * src < P * R) by nia.
      change (2 ^ 32) with 4294967296 in PR.
      destruct B01 as [B0|B1].
      - rewrite B0 in *. change (0 =? 1) with false. apply Z.leb_gt. lia.
      - rewrite B1 in *. change (1 =? 1) with true. apply Z.leb_le. lia. }
    assert (TM : (2 * (g1 * 65536 + g2)) mod 2 ^ 32 = 2 * (r * R + q2 * src)).
    { symmetry. apply (Z.mod_unique_pos _ _ b).
      - rewrite <- PR. nia.
      - rewrite <- PR. lia. }
    rewrite TM, SC in M.
    assert (NEW : 2 * (r * R + q2 * src) + (if b =? 1 then src else 0) = r * (2 * R) + q * src).
    { assert (B01 : b = 0 \/ b = 1) by lia. destruct B01 as [B0|B1].
      - rewrite B0 in *. change (0 =? 1) with false. cbv iota. nia.
      - rewrite B1 in *. change (1 =? 1) with true. cbv iota. nia. }
    rewrite NEW in M.
    destruct M as (X & Y & XY).
    { rewrite <- PR. assert (q * src <= q * 65535) by nia. assert (q * 65535 < 2 * R) by nia. nia. }
    specialize (IH x y ltac:(lia) X Y). rewrite R32 in IH. apply IH. exact XY.
Qed.

Lemma mul32_ok m d src : 0 <= src < 65536 ->
  exists m', mul32 m d src = (m', d) /\
    val32 m' d = ldw m (d + 2) * src /\
    forall x, apart d 4 x 1 -> ldb m' x = ldb m x.
Proof.
  intros Hs. unfold mul32.
  pose proof (ldw_range m (d + 2)) as HB.
  pose proof (mulRounds_ok src (ldw m (d + 2)) Hs HB 16 (ldw m (d + 2)) 0 (le_n _) HB ltac:(lia)) as R.
  destruct (rounds 16 (mulRound src) (ldw m (d + 2), 0)) as (r1, r2).
  destruct R as (R1 & R2 & R3).
  { change (2 ^ Z.of_nat 16) with 65536. change (2 ^ (32 - Z.of_nat 16)) with 65536.
    rewrite Z.mod_small, Z.div_small by lia. lia. }
  eexists. split; [reflexivity|]. split.
  - rewrite (proj1 (stw2_val m d r1 r2 R1 R2)). exact R3.
  - intros x X. apply (stw2_frame m d (d + 2) r1 r2 x X eq_refl).
Qed.

(* ---- div32, mod32 ---- *)
(* V * 2^i = q * s * 2^16 + g1 * 2^16 + g2, q = the quotient so far *)
Definition divInv (s V i : Z) (r : Z * Z * Z) : Prop :=
  let '(g1, g2, g3) := r in
  exists q, V * 2 ^ i = q * s * 65536 + g1 * 65536 + g2 /\
    0 <= g1 < s /\ 0 <= g2 < 65536 /\ g2 mod 2 ^ i = 0 /\ g3 = q mod 65536.

Lemma divSub_ok s g1 g2 g3 : 0 < s <= 32768 -> 0 <= g1 < 2 * s ->
  divSub s (g1, g2, g3) =
  if g1 <? s then (g1, g2, g3) else (g1 - s, g2, (g3 + 1) mod 65536).
Proof.
  intros Hs H. unfold divSub, subC, subw, addw. destruct (g1 <? s) eqn:E; [reflexivity|].
  apply Z.ltb_ge in E. rewrite (Z.mod_small (g1 - s)) by lia. reflexivity.
Qed.

Lemma divStep s V i r : 0 < s <= 32768 -> 0 <= i <= 15 -> divInv s V i r ->
  divInv s V (i + 1) (divSub s (divShift r)).
Proof.
  destruct r as ((g1, g2), g3). intros Hs Hi (q & E & H1 & H2 & H3 & H4).
  unfold divShift. destruct (shl_split g2 H2) as (B1 & B2 & B3).
  assert (S1 : shl1 g1 = g1 * 2) by (unfold shl1; apply Z.mod_small; lia).
  rewrite S1.
  set (bit := if shlC g2 then 1 else 0).
  assert (G1 : (if shlC g2 then addw (g1 * 2) 1 else g1 * 2) = g1 * 2 + bit).
  { unfold bit, addw. destruct (shlC g2); [apply Z.mod_small; lia|lia]. }
  rewrite G1. assert (BB : 0 <= bit <= 1) by (unfold bit; destruct (shlC g2); lia).
  assert (B1' : g2 * 2 = bit * 65536 + shl1 g2) by (unfold bit; destruct (shlC g2); lia).
  rewrite divSub_ok by lia.
  assert (P : 2 ^ (i + 1) = 2 ^ i * 2) by (rewrite Z.pow_add_r by lia; reflexivity).
  assert (P0 : 0 < 2 ^ i) by (apply Z.pow_pos_nonneg; lia).
  assert (M : shl1 g2 mod 2 ^ (i + 1) = 0).
  { apply Z.mod_divide; [lia|]. apply Z.mod_divide in H3; [|lia]. destruct H3 as (t & ->).
    rewrite P. unfold shl1.
    exists (t mod 2 ^ (15 - i)).
    replace (t * 2 ^ i * 2) with (t * (2 ^ i * 2)) by lia. rewrite <- P.
    replace 65536 with (2 ^ (15 - i) * 2 ^ (i + 1))
      by (rewrite <- Z.pow_add_r by lia; replace (15 - i + (i + 1)) with 16 by lia; reflexivity).
    apply Zmult_mod_distr_r. }
  assert (G3 : shl1 g3 = (2 * q) mod 65536).
  { unfold shl1. rewrite H4, Z.mul_mod_idemp_l by lia. f_equal. lia. }
  destruct (g1 * 2 + bit <? s) eqn:C.
  - apply Z.ltb_lt in C. exists (2 * q). split; [rewrite P; lia|].
    repeat split; try lia; auto.
  - apply Z.ltb_ge in C. exists (2 * q + 1). split; [rewrite P; lia|].
    repeat split; try lia; auto. rewrite G3, Z.add_mod_idemp_l by lia. reflexivity.
Qed.

Lemma divRounds s V : 0 < s <= 32768 -> forall j i r, i + Z.of_nat j <= 16 -> 0 <= i ->
  divInv s V i r -> divInv s V (i + Z.of_nat j) (rounds j (fun r => divSub s (divShift r)) r).
Proof.
  intros Hs. induction j as [|j IH]; intros i r L I D.
  - cbn [rounds]. now rewrite Z.add_0_r.
  - cbn [rounds]. replace (i + Z.of_nat (S j)) with (i + 1 + Z.of_nat j) by lia.
    apply IH; try lia. apply divStep; auto. lia.
Qed.

Lemma divLoop_ok s hi lo : 0 < s <= 32768 -> 0 <= hi < 2 * s -> 0 <= lo < 65536 ->
  let '(g1, g2, g3) := divLoop s hi lo in
  g1 = (hi * 65536 + lo) mod s /\ g3 = ((hi * 65536 + lo) / s) mod 65536.
Proof.
  intros Hs Hh Hl. unfold divLoop. set (V := hi * 65536 + lo).
  assert (D0 : divInv s V 0 (divSub s (hi, lo, 0))).
  { rewrite divSub_ok by lia. destruct (hi <? s) eqn:C.
    - apply Z.ltb_lt in C. exists 0. unfold V. change (2 ^ 0) with 1. rewrite Z.mod_1_r.
      repeat split; lia.
    - apply Z.ltb_ge in C. exists 1. unfold V. change (2 ^ 0) with 1. rewrite Z.mod_1_r.
      repeat split; lia. }
  pose proof (divRounds s V Hs 16 0 _ ltac:(lia) ltac:(lia) D0) as D.
  destruct (rounds 16 _ _) as ((g1, g2), g3). cbn in D.
  destruct D as (q & E & H1 & H2 & H3 & ->).
  change (Z.pow_pos 2 16) with 65536 in *. rewrite Z.mod_small in H3 by lia. subst g2.
  assert (EV : V = s * q + g1) by lia.
  split.
  - apply (Z.mod_unique_pos V s q); lia.
  - f_equal. apply (Z.div_unique_pos V s q g1); lia.
Qed.

Lemma div32_ok m d s : 0 < s <= 32768 -> ldw m d < 2 * s ->
  exists m', div32 m d s = (m', d) /\
    ldw m' d = val32 m d mod s /\ ldw m' (d + 2) = (val32 m d / s) mod 65536 /\
    forall x, apart d 4 x 1 -> ldb m' x = ldb m x.
Proof.
  intros Hs Hh. unfold div32.
  pose proof (divLoop_ok s (ldw m d) (ldw m (d + 2)) Hs
    (conj (proj1 (ldw_range m d)) Hh) (ldw_range m (d + 2))) as D.
  destruct (divLoop s (ldw m d) (ldw m (d + 2))) as ((g1, g2), g3). destruct D as (D1 & D2).
  eexists. split; [reflexivity|]. unfold val32. split; [|split].
  - rewrite ldw_stw_other, ldw_stw_same by (apply apart_small; lia).
    rewrite <- D1. apply Z.mod_small.
    pose proof (Z.mod_pos_bound (ldw m d * 65536 + ldw m (d + 2)) s ltac:(lia)). lia.
  - rewrite ldw_stw_same, <- D2. apply Z.mod_small.
    rewrite D2. apply mod16_range.
  - intros x X. apply (stw2_frame m d (d + 2) g1 g3 x X eq_refl).
Qed.

Lemma mod32_ok m d s : 0 < s <= 32768 -> ldw m d < 2 * s -> mod32 m d s = val32 m d mod s.
Proof.
  intros Hs Hh. unfold mod32.
  pose proof (divLoop_ok s (ldw m d) (ldw m (d + 2)) Hs
    (conj (proj1 (ldw_range m d)) Hh) (ldw_range m (d + 2))) as D.
  destruct (divLoop s (ldw m d) (ldw m (d + 2))) as ((g1, g2), g3). apply D.
Qed.

(* ---- atoi, htoi ---- *)
Lemma atoi_from m s l : forall k v, Forall char_ok l -> bytes_at m (s + k) (l ++ [0]) ->
  returns (loop (fun '(i, v) =>
    if negb (ldb m (s + i) =? 0)
    then inl (i16 (i + 1),
              if isDigit (ldb m (s + i))
              then i16 (i16 (i16 (v * 10) + ldb m (s + i)) - 48) else v)
    else inr v) (i16 k, i16 v))
  (i16 (fold_left (fun v c => v * 10 + (c - 48)) (filter isDigit l) v)).
Proof.
  induction l as [|c l IH]; intros k v F B; cbn [app bytes_at] in B; destruct B as (B1 & B2).
  - apply returns_done. cbv beta. rewrite (ldb_cong m (s + i16 k) (s + k)) by apply add_i16.
    rewrite B1. reflexivity.
  - inversion F; subst. eapply returns_step.
    + cbv beta. rewrite (ldb_cong m (s + i16 k) (s + k)) by apply add_i16.
      rewrite char_nz by auto. cbn [negb]. rewrite i16_add. reflexivity.
    + cbn [filter]. destruct (isDigit (ldb m (s + k))).
      * cbn [fold_left].
        replace (i16 (i16 (i16 (i16 v * 10) + ldb m (s + k)) - 48))
          with (i16 (v * 10 + (ldb m (s + k) - 48))).
        -- apply IH; auto. replace (s + (k + 1)) with (s + k + 1) by lia. auto.
        -- unfold Z.sub. rewrite i16_add, <- Z.add_assoc, i16_add.
           apply i16_eq. rewrite <- (Z.add_mod_idemp_l (v * 10)), <- (Z.add_mod_idemp_l (i16 v * 10)) by lia.
           rewrite <- (Z.mul_mod_idemp_l (i16 v)), i16_cong, Z.mul_mod_idemp_l by lia. reflexivity.
      * apply IH; auto. replace (s + (k + 1)) with (s + k + 1) by lia. auto.
Qed.

Definition hexval (c : Z) : Z := if c <=? 57 then c - 48 else if c <=? 70 then c - 55 else c - 87.

Lemma htoi_from m s l z : isXdigit z = false -> forall k v,
  Forall (fun c => isXdigit c = true) l -> bytes_at m (s + k) (l ++ [z]) ->
  returns (loop (fun '(i, v) =>
    if isXdigit (ldb m (s + i))
    then let c := ldb m (s + i) in
         inl (i16 (i + 1),
              if isDigit c then i16 (i16 (v * 16) + i16 (c - 48))
              else i16 (i16 (v * 16) + i16 (i16 (10 + toUpper c) - 65)))
    else inr v) (i16 k, i16 v))
  (i16 (fold_left (fun v c => v * 16 + hexval c) l v)).
Proof.
  intros Hz. induction l as [|c l IH]; intros k v F B; cbn [app bytes_at] in B; destruct B as (B1 & B2).
  - apply returns_done. cbv beta. rewrite (ldb_cong m (s + i16 k) (s + k)) by apply add_i16.
    rewrite B1, Hz. reflexivity.
  - inversion F; subst. eapply returns_step.
    + cbv beta zeta. rewrite (ldb_cong m (s + i16 k) (s + k)) by apply add_i16.
      rewrite H1. rewrite i16_add. reflexivity.
    + cbn [fold_left]. pose proof (ldb_range m (s + k)) as R. set (c := ldb m (s + k)) in *.
      assert (V : i16 v * 16 mod 65536 = v * 16 mod 65536)
        by (rewrite <- Z.mul_mod_idemp_l, i16_cong, Z.mul_mod_idemp_l by lia; reflexivity).
      match goal with |- returns (loop _ (_, ?x)) _ => replace x with (i16 (v * 16 + hexval c)) end.
      * apply IH; auto. replace (s + (k + 1)) with (s + k + 1) by lia. auto.
      * unfold hexval. unfold isXdigit in H1. destruct (isDigit c) eqn:D.
        -- unfold isDigit in D. apply andb_true_iff in D. destruct D as (D1 & D2). rewrite D2.
           apply i16_eq. rewrite <- Z.add_mod_idemp_l, <- V by lia.
           rewrite Z.add_mod_idemp_l, add_i16 by lia.
           rewrite <- (Z.add_mod_idemp_l (i16 (i16 v * 16))), i16_cong, Z.add_mod_idemp_l by lia. reflexivity.
        -- apply i16_eq. rewrite <- Z.add_mod_idemp_l, <- V by lia.
           rewrite Z.add_mod_idemp_l, add_i16 by lia.
           rewrite <- (Z.add_mod_idemp_l (i16 (i16 v * 16))), i16_cong, Z.add_mod_idemp_l by lia.
           cbn [orb] in H1. apply orb_true_iff in H1.
           assert (T : toUpper c = (if c <=? 70 then c else c - 32) /\ 57 < c).
           { unfold toUpper, isLower.
             destruct H1 as [H1|H1]; apply andb_true_iff in H1; destruct H1 as (H1 & H2');
               apply Z.leb_le in H1, H2'.
             - replace (97 <=? c) with false by (symmetry; apply Z.leb_gt; lia).
               replace (c <=? 70) with true by (symmetry; apply Z.leb_le; lia). cbn [andb]. lia.
             - replace (97 <=? c) with true by (symmetry; apply Z.leb_le; lia).
               replace (c <=? 122) with true by (symmetry; apply Z.leb_le; lia).
               replace (c <=? 70) with false by (symmetry; apply Z.leb_gt; lia). cbn [andb].
               rewrite Z.mod_small by lia. lia. }
           destruct T as (-> & T). replace (c <=? 57) with false by (symmetry; apply Z.leb_gt; lia).
           f_equal. f_equal. rewrite i16_id; destruct (c <=? 70); lia.
Qed.

(* ---- rand ---- *)
(* on 16-bit ints: halve, and flip the bits of 0xb400 when the lowest bit was 1 *)
Definition is_int (z : Z) : Prop := -32768 <= z < 32768.
Lemma rand_word s : is_int s ->
  (rand s) mod 65536 = Z.lxor ((s mod 65536) / 2) (if Z.odd s then 46080 else 0).
Proof.
  intros H. unfold rand.
  assert (A : Z.land (Z.shiftr s 1) 32767 = (s mod 65536) / 2).
  { change 32767 with (Z.ones 15). rewrite Z.land_ones by lia.
    rewrite Z.shiftr_div_pow2 by lia. change (2 ^ 1) with 2. change (2 ^ 15) with 32768.
    change 65536 with (2 * 32768). rewrite Z.rem_mul_r by lia.
    symmetry. rewrite (Z.mul_comm 2), Z.div_add by lia.
    rewrite (Z.div_small (s mod 2)) by (apply Z.mod_pos_bound; lia).
    apply Z.add_0_l. }
  rewrite A.
  assert (Bd : Z.land s 1 = if Z.odd s then 1 else 0).
  { change 1 with (Z.ones 1) at 1. rewrite Z.land_ones by lia. change (2 ^ 1) with 2.
    rewrite Zmod_odd. reflexivity. }
  rewrite Bd. pose proof (mod16_range s).
  assert (Q : 0 <= (s mod 65536) / 2 < 32768).
  { split; [apply Z.div_pos; lia|]. apply Z.div_lt_upper_bound; lia. }
  destruct (Z.odd s).
  - change (Z.land (i16 (- 1)) (i16 46080)) with (-19456).
    rewrite <- (Z.land_ones _ 16) by lia. change (Z.ones 16) with 65535.
    apply Z.bits_inj'. intros n Hn. rewrite Z.land_spec, !Z.lxor_spec.
    change 65535 with (Z.ones 16).
    destruct (Z_lt_ge_dec n 16).
    + rewrite Z.ones_spec_low, andb_true_r by lia. f_equal.
      assert (forall n, 0 <= n < 16 -> Z.testbit (-19456) n = Z.testbit 46080 n).
      { intros k Hk. rewrite <- (Z.mod_pow2_bits_low (-19456) 16 k) by lia.
        change (-19456 mod 2 ^ 16) with 46080. reflexivity. }
      auto with zarith.
    + rewrite Z.ones_spec_high, andb_false_r by lia. symmetry.
      rewrite (Z.bits_above_log2 46080) by (cbn; lia).
      rewrite xorb_false_r. destruct (Z.eq_dec ((s mod 65536) / 2) 0) as [->|].
      * apply Z.bits_0.
      * apply Z.bits_above_log2; [lia|]. apply Z.log2_lt_pow2; [lia|].
        apply Z.lt_le_trans with (2 ^ 15); [change (2 ^ 15) with 32768; lia|].
        apply Z.pow_le_mono_r; lia.
  - change (i16 (- 0)) with 0. rewrite Z.land_0_l, Z.lxor_0_r. apply Z.mod_small. lia.
Qed.

Lemma rand_int s : is_int s -> is_int (rand s).
Proof.
  intros H. unfold rand.
  assert (A : 0 <= Z.land (Z.shiftr s 1) 32767 < 32768).
  { change 32767 with (Z.ones 15). rewrite Z.land_ones by lia. apply Z.mod_pos_bound. reflexivity. }
  assert (Bd : Z.land s 1 = 0 \/ Z.land s 1 = 1).
  { assert (E : Z.land s 1 = s mod 2) by exact (Z.land_ones s 1 ltac:(lia)).
    rewrite E. pose proof (Z.mod_pos_bound s 2 ltac:(lia)). lia. }
  destruct Bd as [->| ->].
  - change (i16 (- 0)) with 0. rewrite Z.land_0_l, Z.lxor_0_r. unfold is_int; lia.
  - replace (Z.land (i16 (- (1))) (i16 46080)) with (-19456) by reflexivity.
    set (x := Z.land (Z.shiftr s 1) 32767) in *.
    (* lxor of a 15-bit number with a negative 16-bit int *)
    assert (N : Z.lnot (Z.lxor x (-19456)) = Z.lxor x 19455).
    { rewrite Z.lnot_lxor_r. reflexivity. }
    assert (U : 0 <= Z.lxor x 19455 < 32768).
    { split; [apply Z.lxor_nonneg; lia|].
      assert (Z.lxor x 19455 = (Z.lxor x 19455) mod 2 ^ 15).
      { rewrite <- Z.land_ones by lia. apply Z.bits_inj'. intros n Hn.
        rewrite Z.land_spec, Z.lxor_spec. destruct (Z_lt_ge_dec n 15).
        - now rewrite Z.ones_spec_low, andb_true_r by lia.
        - rewrite Z.ones_spec_high, andb_false_r by lia.
          rewrite <- (Z.mod_small x (2 ^ 15)), Z.mod_pow2_bits_high by (change (2 ^ 15) with 32768; lia).
          rewrite <- (Z.mod_small 19455 (2 ^ 15)), Z.mod_pow2_bits_high by (change (2 ^ 15) with 32768; lia).
          reflexivity. }
      rewrite H0. apply Z.mod_pos_bound. reflexivity. }
    rewrite <- N in U. unfold Z.lnot in U. unfold is_int.
    set (y := Z.lxor x (-19456)) in *. lia.
Qed.

Lemma int_mod_inj a b : is_int a -> is_int b -> a mod 65536 = b mod 65536 -> a = b.
Proof.
  unfold is_int. intros A B E. rewrite <- (i16_id a A), <- (i16_id b B). now apply i16_eq.
Qed.

Lemma rand_inj a b : is_int a -> is_int b -> rand a = rand b -> a = b.
Proof.
  intros A B E. apply int_mod_inj; auto.
  pose proof (rand_word a A) as WA. pose proof (rand_word b B) as WB. rewrite E in WA.
  rewrite WA in WB. clear WA E.
  pose proof (mod16_range a) as RA. pose proof (mod16_range b) as RB.
  assert (HI : forall x, 0 <= x < 65536 -> Z.testbit (x / 2) 15 = false).
  { intros x Hx. assert (0 <= x / 2 < 32768).
    { split; [apply Z.div_pos; lia|apply Z.div_lt_upper_bound; lia]. }
    rewrite <- (Z.mod_small (x / 2) (2 ^ 15)) by (change (2 ^ 15) with 32768; lia).
    apply Z.mod_pow2_bits_high. lia. }
  assert (O : Z.odd a = Z.odd b).
  { apply (f_equal (fun x => Z.testbit x 15)) in WB. rewrite !Z.lxor_spec, !HI in WB by auto.
    rewrite !xorb_false_l in WB.
    destruct (Z.odd a), (Z.odd b); auto; vm_compute in WB; discriminate. }
  rewrite O in WB.
  apply (f_equal (fun x => Z.lxor x (if Z.odd b then 46080 else 0))) in WB.
  rewrite !Z.lxor_assoc, Z.lxor_nilpotent, !Z.lxor_0_r in WB.
  rewrite (Z.div_mod (a mod 65536) 2), (Z.div_mod (b mod 65536) 2) by lia. rewrite WB. f_equal.
  change 65536 with (2 * 32768). rewrite !Zmod_odd.
  assert (P : forall x, Z.odd (x mod (2 * 32768)) = Z.odd x).
  { intros x. rewrite (Z.mod_eq x (2 * 32768)) by lia.
    replace (x - 2 * 32768 * (x / (2 * 32768))) with (x + 2 * (- (32768 * (x / (2 * 32768))))) by ring.
    apply Z.odd_add_mul_2. }
  now rewrite !P, O.
Qed.

Lemma rand_nonzero s : is_int s -> s <> 0 -> rand s <> 0.
Proof.
  intros H N E. apply N. apply (rand_inj s 0 H); [unfold is_int; lia|].
  rewrite E. reflexivity.
Qed.

(* the state after n calls *)
Definition randN (n : nat) (s : Z) : Z := Nat.iter n rand s.

Lemma randN_int n s : is_int s -> is_int (randN n s).
Proof. intros H. induction n; cbn; auto using rand_int. Qed.
Lemma randN_nonzero n s : is_int s -> s <> 0 -> randN n s <> 0.
Proof. intros H N. induction n; cbn; auto. apply rand_nonzero; auto. now apply randN_int. Qed.
Lemma randN_plus a b s : randN (a + b) s = randN a (randN b s).
Proof.
  induction a as [|a IH]; [reflexivity|].
  change (randN (S a + b) s) with (rand (randN (a + b) s)). now rewrite IH.
Qed.
Lemma randN_inj n a b : is_int a -> is_int b -> randN n a = randN n b -> a = b.
Proof.
  intros A B. induction n as [|n IH]; cbn; auto. intros E. apply IH.
  apply rand_inj; auto; now apply randN_int.
Qed.

(* from seed 1, 1 comes back after 65535 calls and not before: checked by
   running the generator once round its whole cycle *)
Fixpoint noReturn (n : nat) (s : Z) : bool :=
  match n with O => true | S n => if s =? 1 then false else noReturn n (rand s) end.
Lemma noReturn_ok n : forall s, noReturn n s = true -> forall k, (k < n)%nat -> randN k s <> 1.
Proof.
  induction n as [|n IH]; intros s H k K; [lia|]. cbn [noReturn] in H.
  destruct (s =? 1) eqn:E; [discriminate|]. apply Z.eqb_neq in E.
  destruct k as [|k]; [exact E|]. replace (S k) with (k + 1)%nat by lia.
  rewrite randN_plus. apply (IH _ H). lia.
Qed.
Lemma cycle_first : noReturn (Z.to_nat 65534) (rand 1) = true.
Proof. vm_compute. reflexivity. Qed.
Lemma cycle_back : randN (Z.to_nat 65535) 1 = 1.
Proof. vm_compute. reflexivity. Qed.

Definition orbit : list Z := map (fun k => randN k 1) (seq 0 (Z.to_nat 65535)).
Lemma orbit_nodup : NoDup orbit.
Proof.
  unfold orbit.
  assert (H : forall n, (n <= Z.to_nat 65535)%nat -> forall a b, (a < b < n)%nat -> randN a 1 <> randN b 1).
  { intros n Hn a b Hab E. replace b with (a + (b - a))%nat in E by lia.
    rewrite randN_plus in E. apply randN_inj in E.
    - replace (b - a)%nat with (b - a - 1 + 1)%nat in E by lia. rewrite randN_plus in E.
      symmetry in E. revert E. apply (noReturn_ok _ _ cycle_first). lia.
    - unfold is_int; lia.
    - apply randN_int. unfold is_int; lia. }
  assert (G : forall n k, (k + n <= Z.to_nat 65535)%nat -> NoDup (map (fun k => randN k 1) (seq k n))).
  { induction n as [|n IH]; intros k L; [constructor|]. cbn [seq map]. constructor; [|apply IH; lia].
    intros I. apply in_map_iff in I. destruct I as (b & E & I). apply in_seq in I.
    apply (H (k + S n)%nat L k b); [lia|]. auto. }
  apply G. lia.
Qed.

Lemma orbit_all s : is_int s -> s <> 0 -> exists k, (k < Z.to_nat 65535)%nat /\ s = randN k 1.
Proof.
  intros Hs N.
  set (nz := map (fun k => i16 (Z.of_nat k + 1)) (seq 0 (Z.to_nat 65535))).
  assert (NZ : forall x, is_int x -> x <> 0 -> In x nz).
  { intros x Hx X. unfold nz. apply in_map_iff. unfold is_int in Hx.
    exists (Z.to_nat ((x - 1) mod 65536)). pose proof (mod16_range (x - 1)) as R. split.
    - rewrite Z2Nat.id by lia. rewrite <- (i16_id x) at 2 by lia. apply i16_eq.
      rewrite Z.add_mod_idemp_l by lia. f_equal. lia.
    - apply in_seq. split; [lia|].
      assert ((x - 1) mod 65536 <> 65535).
      { intros E. apply X. destruct (Z_le_gt_dec 1 x).
        - rewrite Z.mod_small in E by lia. lia.
        - assert (F : (x - 1) mod 65536 = x - 1 + 65536) by (symmetry; apply (Z.mod_unique_pos _ _ (-1)); lia).
          lia. }
      cbn [Nat.add]. lia. }
  assert (I : incl orbit nz).
  { intros x Hx. unfold orbit in Hx. apply in_map_iff in Hx. destruct Hx as (k & <- & _).
    apply NZ; [apply randN_int|apply randN_nonzero; [|lia]]; unfold is_int; lia. }
  assert (L : (length nz <= length orbit)%nat)
    by (unfold nz, orbit; rewrite !map_length, !seq_length; lia).
  pose proof (NoDup_length_incl orbit_nodup L I) as J.
  specialize (J s (NZ s Hs N)). unfold orbit in J. apply in_map_iff in J.
  destruct J as (k & E & K). apply in_seq in K. exists k. split; [lia|auto].
Qed.

(* every non-zero state comes back after exactly 65535 calls *)
Lemma rand_period s : is_int s -> s <> 0 ->
  randN (Z.to_nat 65535) s = s /\
  forall k, (0 < k < Z.to_nat 65535)%nat -> randN k s <> s.
Proof.
  intros Hs N. destruct (orbit_all s Hs N) as (j & J & ->).
  assert (I1 : is_int 1) by (unfold is_int; lia). split.
  - rewrite <- randN_plus, Nat.add_comm, randN_plus, cycle_back. reflexivity.
  - intros k K E. rewrite <- randN_plus, Nat.add_comm, randN_plus in E.
    apply randN_inj in E; [|now apply randN_int|auto].
    replace k with (k - 1 + 1)%nat in E by lia. rewrite randN_plus in E.
    revert E. apply (noReturn_ok _ _ cycle_first). lia.
Qed.
