From Coq Require Import ZArith Bool Lia List String Ascii.
From Verif Require Import Lexer RtcHeap RtcProofs CWrapper CWrapperSpec.
Import ListNotations.
Open Scope Z_scope.

Lemma hex_facts : forall c d, In (c, d) hex_digits -> isxdig c = true /\ (if isdig c then c - 48 else 10 + toup c - 65) = d /\ 0 <= d < 16.
Proof.
  intros c d I. cbn [hex_digits In] in I.
  repeat (destruct I as [E|I]; [injection E as <- <-; split; [reflexivity|split; [reflexivity|lia]]|]). contradiction.
Qed.
Lemma isxdig_in : forall c, isxdig c = true -> exists d, In (c, d) hex_digits.
Proof.
  intros c H. unfold isxdig, isdig in H.
  assert (R : 48 <= c <= 57 \/ 97 <= c <= 102 \/ 65 <= c <= 70) by lia.
  destruct R as [R|[R|R]].
  - exists (c - 48). assert (Q : c = 48 \/ c = 49 \/ c = 50 \/ c = 51 \/ c = 52 \/ c = 53 \/ c = 54 \/ c = 55 \/ c = 56 \/ c = 57) by lia.
    repeat (destruct Q as [->|Q]; [cbn; tauto|]). subst. cbn. tauto.
  - exists (c - 87). assert (Q : c = 97 \/ c = 98 \/ c = 99 \/ c = 100 \/ c = 101 \/ c = 102) by lia.
    repeat (destruct Q as [->|Q]; [cbn; tauto|]). subst. cbn. tauto.
  - exists (c - 55). assert (Q : c = 65 \/ c = 66 \/ c = 67 \/ c = 68 \/ c = 69 \/ c = 70) by lia.
    repeat (destruct Q as [->|Q]; [cbn; tauto|]). subst. cbn. tauto.
Qed.
Lemma numeral_pos : forall s v, numeral s v -> 0 <= v.
Proof. induction 1 as [|s v c d N IH I]; [lia|]. destruct (hex_facts _ _ I) as (_ & _ & B). lia. Qed.
Lemma inInt_ok : forall v, - 2 ^ 31 <= v < 2 ^ 31 -> inInt v = Some v.
Proof. intros v B. unfold inInt. replace ((- 2 ^ 31 <=? v) && (v <? 2 ^ 31)) with true; [reflexivity|]. symmetry. apply andb_true_intro. lia. Qed.

(* the loop, from the left *)
Lemma htoi_snoc : forall s v a r, numeral s v -> v < 2 ^ 31 -> a = 0 -> htoiLoop a (s ++ r) = htoiLoop v r.
Proof.
  intros s v a r N. revert r. induction N as [|s v c d N IH I]; intros r B ->; [reflexivity|].
  destruct (hex_facts _ _ I) as (X & Y & D). pose proof (numeral_pos _ _ N) as P.
  rewrite <- app_assoc. cbn [app]. rewrite IH by (try reflexivity; lia). cbn [htoiLoop]. rewrite X, Y, inInt_ok by lia.
  rewrite inInt_ok by lia. f_equal. lia.
Qed.
Lemma htoi_fits : forall s v r, numeral s v -> v < 2 ^ 31 -> no_digit_next r -> htoi (s ++ r) = Some v.
Proof.
  intros s v r N B E. unfold htoi. rewrite (htoi_snoc s v 0 r N B eq_refl). destruct r as [|c r]; [reflexivity|].
  cbn [htoiLoop]. destruct (isxdig c) eqn:X; [|reflexivity]. destruct (isxdig_in _ X) as (d & I). now elim (E d).
Qed.
Lemma htoi_over : forall s v r, numeral s v -> 2 ^ 31 <= v -> htoi (s ++ r) = None.
Proof.
  intros s v r N. revert r. induction N as [|s v c d N IH I]; intros r B; [lia|].
  destruct (hex_facts _ _ I) as (X & Y & D). pose proof (numeral_pos _ _ N) as P. rewrite <- app_assoc. cbn [app].
  destruct (Z_lt_ge_dec v (2 ^ 31)) as [L|G]; [|apply IH; lia].
  unfold htoi. rewrite (htoi_snoc s v 0 _ N L eq_refl). cbn [htoiLoop]. rewrite X, Y.
  assert (v * 16 >= 2 ^ 31) by lia. replace (inInt (v * 16)) with (@None Z); [reflexivity|].
  unfold inInt. replace (v * 16 <? 2 ^ 31) with false by (symmetry; apply Z.ltb_ge; lia). now rewrite andb_false_r.
Qed.
Lemma numeral_app : forall s w r, isxdig w = true -> (exists v, numeral s v) -> exists v, numeral (s ++ [w]) v /\ (s ++ [w]) ++ r = s ++ w :: r.
Proof.
  intros s w r X [v N]. destruct (isxdig_in _ X) as (d & I). exists (16 * v + d). split; [now constructor|]. now rewrite <- app_assoc.
Qed.

(* streams *)
Definition content (f : stream) : list Z := match pushed f with Some c => c :: coming f | None => coming f end.
Lemma feof_ok : forall f, fst (feof f) = match content f with [] => true | _ => false end /\ content (snd (feof f)) = content f.
Proof. intros [[c|] [|x r]]; split; reflexivity. Qed.
Lemma fgetc_ok : forall f, match content f with [] => fgetc f = (None, f) | c :: r => exists f', fgetc f = (Some c, f') /\ content f' = r end.
Proof. intros [[c|] [|x r]]; cbn; try reflexivity; eexists; split; reflexivity. Qed.
Lemma readAll_ok : forall l f n, content f = l -> (List.length l < n)%nat -> readAll n f = Some l.
Proof.
  induction l as [|c l IH]; intros f n E L; (destruct n as [|n]; [inversion L|]); cbn [readAll]; destruct (feof_ok f) as [A B]; rewrite E in A, B.
  - destruct (feof f) as [b f']. cbn [fst] in A. now rewrite A.
  - destruct (feof f) as [b f']. cbn [fst snd] in A, B. rewrite A. pose proof (fgetc_ok f') as G. rewrite B in G. destruct G as (f'' & -> & C).
    rewrite (IH f'' n C); [reflexivity|]. cbn [List.length] in L. lia.
Qed.

(* sizes *)
Lemma bits_int32 : forall v, 0 <= v < 4294967296 -> bits32 (int32 v) = v.
Proof.
  intros v B. unfold bits32. destruct (Z_lt_ge_dec v (2 ^ 31)) as [L|G].
  - rewrite int32_id by lia. destruct (v <? 0) eqn:E; lia.
  - unfold int32. replace ((v + 2 ^ 31) mod 2 ^ 32) with (v + 2 ^ 31 - 2 ^ 32); [destruct (v + 2 ^ 31 - 2 ^ 32 - 2 ^ 31 <? 0) eqn:E; lia|].
    apply Z.mod_unique with 1; lia.
Qed.
Lemma fsize_halves : forall n, 0 <= n < 2 ^ 63 -> fsize n = (int32 (n / 4294967296), int32 (n mod 4294967296)).
Proof.
  intros n B. unfold fsize. change 4294967295 with (Z.ones 32). rewrite !Z.land_ones, Z.shiftr_div_pow2 by lia.
  change (2 ^ 32) with 4294967296. rewrite (Z.mod_small (n / 4294967296)); [reflexivity|]. 
  split; [apply Z.div_pos; lia|apply Z.div_lt_upper_bound; lia].
Qed.
Lemma fsize_pair : forall n, 0 <= n < 2 ^ 63 -> pair64 (fst (fsize n)) (snd (fsize n)) = n.
Proof.
  intros n B. rewrite fsize_halves by exact B. cbn [fst snd]. unfold pair64.
  assert (0 <= n / 4294967296 < 2 ^ 31) by (split; [apply Z.div_pos; lia|apply Z.div_lt_upper_bound; lia]).
  pose proof (Z.mod_pos_bound n 4294967296 ltac:(lia)). rewrite !bits_int32 by lia. pose proof (Z.div_mod n 4294967296 ltac:(lia)). lia.
Qed.
Lemma seek_low : forall hi lo, - 2 ^ 31 <= hi < 2 ^ 31 -> 0 <= lo < 2 ^ 31 -> seekTo hi lo = hi * 4294967296 + lo.
Proof.
  intros hi lo H L. unfold seekTo.
  assert (E : Z.lor (Z.shiftl hi 32) lo = hi * 4294967296 + lo).
  { rewrite Z.shiftl_mul_pow2 by lia. change (2 ^ 32) with 4294967296. assert (D : Z.land (hi * 4294967296) lo = 0); [|now rewrite Z.add_nocarry_lxor, Z.lxor_lor by exact D].
    apply Z.bits_inj'. intros n Hn. rewrite Z.land_spec, Z.bits_0.
    change 4294967296 with (2 ^ 32). destruct (Z_lt_ge_dec n 32) as [N|N].
    - now rewrite Z.mul_pow2_bits_low by lia.
    - replace (Z.testbit lo n) with false; [apply andb_false_r|]. symmetry.
      destruct (Z.eq_dec lo 0) as [->|Z0]; [apply Z.bits_0|]. apply Z.bits_above_log2; [lia|]. apply Z.log2_lt_pow2; [lia|].
      apply Z.lt_le_trans with (2 ^ 31); [lia|]. apply Z.pow_le_mono_r; lia. }
  cbv zeta. rewrite E, Z.mod_small by lia. lia.
Qed.
Lemma seek_neg : forall hi lo, - 2 ^ 31 <= lo < 0 -> seekTo hi lo = lo.
Proof.
  intros hi lo L. unfold seekTo.
  assert (E : Z.lor (Z.shiftl hi 32) lo = lo).
  { apply Z.bits_inj'. intros n Hn. rewrite Z.lor_spec. destruct (Z_lt_ge_dec n 32) as [N|N].
    - now rewrite Z.shiftl_spec_low by lia.
    - replace (Z.testbit lo n) with true; [apply orb_true_r|]. symmetry. apply Z.bits_above_log2_neg; [lia|].
      destruct (Z.eq_dec (Z.pred (- lo)) 0) as [->|Z0]; [cbn; lia|]. apply Z.log2_lt_pow2; [lia|].
      apply Z.lt_le_trans with (2 ^ 31); [lia|]. apply Z.pow_le_mono_r; lia. }
  cbv zeta. rewrite E, Z.mod_small by lia. lia.
Qed.
