(* C70: the functions of the C translator's library that adapt C's to C-- (lib/SrcC/wrapper.c). *)
From Coq Require Import ZArith Bool Lia List String Ascii.
From Verif Require Import Lexer CPrintf RtcHeap CWrapper CWrapperSpec CWrapperProofs.
Import ListNotations.
Open Scope Z_scope.

(* htoi gives the number its hexadecimal digits denote, up to the first other character.
   Missing: numerals of 2^31 and more, for which it is undefined *)
Theorem C70_htoi_partial : forall s v r, numeral s v -> v < 2 ^ 31 -> no_digit_next r -> htoi (s ++ r) = Some v.
Proof. exact htoi_fits. Qed.
Print Assumptions C70_htoi_partial.
Theorem C70_htoi_refuted : exists s v r, numeral s v /\ v < 2 ^ 32 /\ no_digit_next r /\ htoi (s ++ r) = None.
Proof.
  exists (codes "8000ffff"), 2147549183, []. split; [|split; [reflexivity|split; [exact I|vm_compute; reflexivity]]].
  replace 2147549183 with (16 * 134221823 + 15) by reflexivity. apply (num_digit (codes "8000fff") _ 102 15); [|cbn; tauto].
  replace 134221823 with (16 * 8388863 + 15) by reflexivity. apply (num_digit (codes "8000ff") _ 102 15); [|cbn; tauto].
  replace 8388863 with (16 * 524303 + 15) by reflexivity. apply (num_digit (codes "8000f") _ 102 15); [|cbn; tauto].
  replace 524303 with (16 * 32768 + 15) by reflexivity. apply (num_digit (codes "8000") _ 102 15); [|cbn; tauto].
  replace 32768 with (16 * 2048 + 0) by reflexivity. apply (num_digit (codes "800") _ 48 0); [|cbn; tauto].
  replace 2048 with (16 * 128 + 0) by reflexivity. apply (num_digit (codes "80") _ 48 0); [|cbn; tauto].
  replace 128 with (16 * 8 + 0) by reflexivity. apply (num_digit (codes "8") _ 48 0); [|cbn; tauto].
  replace 8 with (16 * 0 + 8) by reflexivity. apply (num_digit [] _ 56 8); [|cbn; tauto]. constructor.
Qed.
Print Assumptions C70_htoi_refuted.
(* for all of them *)
Theorem C70_htoi_overflow : forall s v r, numeral s v -> 2 ^ 31 <= v -> htoi (s ++ r) = None.
Proof. exact htoi_over. Qed.
Print Assumptions C70_htoi_overflow.
Example C70_htoi_ex : numeral (codes "7F") 127 /\ no_digit_next (codes "gh") /\ htoi (codes "7F" ++ codes "gh") = Some 127.
Proof.
  split; [|split; [|vm_compute; reflexivity]].
  - replace 127 with (16 * 7 + 15) by reflexivity. apply (num_digit (codes "7") _ 70 15); [|cbn; tauto].
    replace 7 with (16 * 0 + 7) by reflexivity. apply (num_digit [] _ 55 7); [|cbn; tauto]. constructor.
  - intros d I. change (In (103, d) hex_digits) in I. destruct (hex_facts _ _ I) as (X & _). discriminate X.
Qed.

(* what a stream still has to give *)
Definition to_read (f : stream) : list Z := match pushed f with Some c => c :: coming f | None => coming f end.
(* feof is true exactly when the next fgetc finds the end, and takes nothing from the stream *)
Theorem C70_feof : forall f, (fst (feof f) = true <-> to_read f = []) /\ to_read (snd (feof f)) = to_read f /\
  (fst (feof f) = true <-> fst (fgetc f) = None) /\ fst (fgetc (snd (feof f))) = fst (fgetc f).
Proof. intros [[c|] [|x r]]; cbn; repeat split; intros; try reflexivity; discriminate. Qed.
Print Assumptions C70_feof.
(* the loop of the manual reads every character once, in order *)
Theorem C70_read_all : forall f, exists n, readAll n f = Some (to_read f).
Proof. intro f. exists (S (List.length (to_read f))). apply readAll_ok; [reflexivity|]. lia. Qed.
Print Assumptions C70_read_all.
Example C70_feof_ex : feof (Stream None (codes "ab")) = (false, Stream (Some 97) (codes "b")) /\ readAll 3 (Stream (Some 120) (codes "y")) = Some (codes "xy").
Proof. split; reflexivity. Qed.

(* fsize puts the size into the two ints, high and low *)
Theorem C70_fsize : forall n, 0 <= n < 2 ^ 63 -> - 2 ^ 31 <= fst (fsize n) < 2 ^ 31 /\ - 2 ^ 31 <= snd (fsize n) < 2 ^ 31 /\ pair64 (fst (fsize n)) (snd (fsize n)) = n.
Proof.
  intros n B. split; [unfold fsize; cbn [fst]; apply RtcProofs.int32_bound|]. split; [unfold fsize; cbn [snd]; apply RtcProofs.int32_bound|].
  now apply fsize_pair.
Qed.
Print Assumptions C70_fsize.
(* and printf's %ld reads them as that size *)
Theorem C70_fsize_printed : forall n, 0 <= n < 2 ^ 63 -> lToL (fst (fsize n)) (snd (fsize n)) = n.
Proof.
  intros n B. rewrite <- (fsize_pair n B) at 3. unfold lToL, pair64.
  assert (Q : forall v, - 2 ^ 31 <= v < 2 ^ 31 -> v mod 4294967296 = bits32 v).
  { intros v V. unfold bits32. destruct (v <? 0) eqn:E; [|apply Z.mod_small; lia]. symmetry. apply Z.mod_unique with (-1); lia. }
  destruct (C70_fsize n B) as (B1 & B2 & _). rewrite !Q by assumption. reflexivity.
Qed.
Print Assumptions C70_fsize_printed.
Example C70_fsize_ex : fsize 7516192768 = (1, -1073741824).
Proof. reflexivity. Qed.

(* fseek goes to the position the two ints mean. Missing: a low int with its top bit set *)
Theorem C70_fseek_partial : forall hi lo, 0 <= hi < 2 ^ 31 -> 0 <= lo < 2 ^ 31 -> seekTo hi lo = pair64 hi lo.
Proof.
  intros hi lo H L. rewrite seek_low by lia. unfold pair64, bits32. 
  replace (hi <? 0) with false by (symmetry; apply Z.ltb_ge; lia). replace (lo <? 0) with false by (symmetry; apply Z.ltb_ge; lia). reflexivity.
Qed.
Print Assumptions C70_fseek_partial.
Example C70_fseek_ex : seekTo 1 5 = 4294967301.
Proof. reflexivity. Qed.
(* the sign of the low int overwrites the high int: the position asked for is negative *)
Theorem C70_fseek_negative : forall hi lo, - 2 ^ 31 <= lo < 0 -> seekTo hi lo = lo.
Proof. exact seek_neg. Qed.
Print Assumptions C70_fseek_negative.
(* so that the end of a file of 2 GB cannot be sought *)
Theorem C70_fseek_refuted : exists n, 0 <= n < 2 ^ 63 /\ seekTo (fst (fsize n)) (snd (fsize n)) <> n.
Proof. exists 2147483648. split; [lia|]. vm_compute. discriminate. Qed.
Print Assumptions C70_fseek_refuted.
