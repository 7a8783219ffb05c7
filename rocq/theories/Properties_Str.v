(* C30-C34: string.cmm and ctype.cmm.
   returns c r: the call finishes with result r (for every large enough fuel).
   str_at m a l: the NUL-terminated string l is in memory m at address a.
   wrote m a l m': m' is m with exactly the bytes l written from a on. *)
From Coq Require Import String Ascii ZArith Bool List Lia.
From Verif Require Import LibMem LibString LibSpec LibStrProofs LibStrProofs2.
Import ListNotations.
Open Scope Z_scope.

(* ---- concrete memories for the examples ---- *)
Fixpoint codes (s : string) : list Z :=
  match s with
  | EmptyString => []
  | String c r => Z.of_nat (nat_of_ascii c) :: codes r
  end.
Fixpoint put (m : mem) (a : Z) (l : list Z) : mem :=
  match l with [] => m | c :: r => put (stb m a c) (a + 1) r end.
Definition m0 : mem :=
  put (put (fun _ => 77) 100 (codes "hello" ++ [0])) 200 (codes "help" ++ [0]).

Lemma m0_hello : str_at m0 100 (codes "hello").
Proof. split; [repeat constructor; unfold char_ok; cbn; lia|vm_compute; repeat split]. Qed.
Lemma m0_help : str_at m0 200 (codes "help").
Proof. split; [repeat constructor; unfold char_ok; cbn; lia|vm_compute; repeat split]. Qed.

(* ---- C30 ---- *)
Theorem C30_strLen : forall m s l, str_at m s l -> len l <= 32767 ->
  returns (strLen m s) (len l).
Proof.
  intros m s l S L. pose proof (len_nonneg l). rewrite <- (i16_id (len l)) by lia.
  exact (strLen_ok m s l S).
Qed.
Print Assumptions C30_strLen.
Example C30_strLen_ex : strLen m0 100 10%nat = Some 5. Proof. reflexivity. Qed.

(* d may be s itself, or any place whose first byte is not inside the source
   string after its first byte *)
Theorem C30_strCpy : forall m d s l, str_at m s l ->
  (d - s) mod 65536 = 0 \/ len l < (d - s) mod 65536 ->
  exists m', returns (strCpy m d s) (m', d) /\ wrote m d (l ++ [0]) m' /\ str_at m' d l.
Proof.
  intros m d s l S D. destruct (strCpy_ok m d s l S D) as (m' & R & W).
  exists m'. split; [exact R|]. split; [exact W|]. split; [exact (proj1 S)|exact (proj1 W)].
Qed.
Print Assumptions C30_strCpy.
Example C30_strCpy_ex : exists m', returns (strCpy m0 300 100) (m', 300) /\
  str_at m' 300 (codes "hello") /\ str_at m' 200 (codes "help").
Proof.
  destruct (C30_strCpy m0 300 100 (codes "hello") m0_hello) as (m' & R & W & S).
  - right. vm_compute. reflexivity.
  - exists m'. split; [exact R|]. split; [exact S|]. split; [exact (proj1 m0_help)|].
    apply (bytes_at_wrote m0 m' 200 (codes "help" ++ [0]) 300 (codes "hello" ++ [0]));
      [|exact W|exact (proj2 m0_help)].
    intros i j Hi Hj. change (len (codes "help" ++ [0])) with 5 in Hi.
    change (len (codes "hello" ++ [0])) with 6 in Hj. rewrite !Z.mod_small by lia. lia.
Qed.

Theorem C30_strCat : forall m d s l1 l2, str_at m d l1 -> str_at m s l2 ->
  (d + len l1 - s) mod 65536 = 0 \/ len l2 < (d + len l1 - s) mod 65536 ->
  len l1 + len l2 < 65536 ->
  exists m', returns (strCat m d s) (m', d) /\
    wrote m (d + len l1) (l2 ++ [0]) m' /\ str_at m' d (l1 ++ l2).
Proof.
  intros m d s l1 l2 S1 S2 D L. destruct (strCat_ok m d s l1 l2 S1 S2 D) as (m' & R & W).
  exists m'. split; [exact R|]. split; [exact W|]. exact (strCat_str m d s l1 l2 m' S1 S2 L W).
Qed.
Print Assumptions C30_strCat.
Example C30_strCat_ex : exists m', returns (strCat m0 200 100) (m', 200) /\
  str_at m' 200 (codes "helphello").
Proof.
  destruct (C30_strCat m0 200 100 (codes "help") (codes "hello") m0_help m0_hello) as (m' & R & _ & S).
  - right. vm_compute. reflexivity.
  - vm_compute. reflexivity.
  - exists m'. split; [exact R|exact S].
Qed.

(* ---- C31 ---- *)
(* strNcpy writes exactly n bytes: at most n-1 characters of the source, the
   rest NUL (string.cmm:41 "copies fewer than n characters") *)
Theorem C31_strNcpy : forall m d s n l, 0 <= n <= 32767 -> str_upto m s (n - 1) l ->
  (d - s) mod 65536 = 0 \/ n < (d - s) mod 65536 ->
  exists m', let p := firstn (Z.to_nat (n - 1)) l in
    returns (strNcpy m d s n) (m', d) /\
    wrote m d (p ++ repeat 0 (Z.to_nat n - length p)) m'.
Proof. exact strNcpy_ok. Qed.
Print Assumptions C31_strNcpy.
Example C31_strNcpy_ex : exists m', returns (strNcpy m0 300 100 4) (m', 300) /\
  wrote m0 300 (codes "hel" ++ [0]) m'.
Proof.
  destruct (C31_strNcpy m0 300 100 4 (codes "hello")) as (m' & R & W).
  - lia.
  - exact (str_upto_of m0 100 3 _ m0_hello).
  - right. vm_compute. reflexivity.
  - exists m'. split; [exact R|exact W].
Qed.

Theorem C31_strNcat : forall m d s n l1 l2, -32767 <= n <= 32767 ->
  str_at m d l1 -> str_upto m s (n - 1) l2 ->
  (d + len l1 - s) mod 65536 = 0 \/ Z.max 0 n < (d + len l1 - s) mod 65536 ->
  exists m', returns (strNcat m d s n) (m', d) /\
    wrote m (d + len l1) (firstn (Z.to_nat (n - 1)) l2 ++ [0]) m'.
Proof. exact strNcat_ok. Qed.
Print Assumptions C31_strNcat.
Example C31_strNcat_ex : exists m', returns (strNcat m0 200 100 3) (m', 200) /\
  wrote m0 204 (codes "he" ++ [0]) m'.
Proof.
  destruct (C31_strNcat m0 200 100 3 (codes "help") (codes "hello")) as (m' & R & W).
  - lia.
  - exact m0_help.
  - exact (str_upto_of m0 100 2 _ m0_hello).
  - right. vm_compute. reflexivity.
  - exists m'. split; [exact R|exact W].
Qed.

(* the manual (chap4.tex, strNcpy) promises up to n characters and no NUL when
   the source has n or more; the code always stops one character earlier *)
Theorem C31_strNcpy_manual_refuted : exists m d s n l m',
  str_at m s l /\ len l >= n /\ n > 0 /\ returns (strNcpy m d s n) (m', d) /\
  ~ bytes_at m' d (firstn (Z.to_nat n) l).
Proof.
  destruct (C31_strNcpy m0 300 100 4 (codes "hello")) as (m' & R & W).
  - lia.
  - exact (str_upto_of m0 100 3 _ m0_hello).
  - right. vm_compute. reflexivity.
  - exists m0, 300, 100, 4, (codes "hello"), m'. split; [exact m0_hello|].
    split; [discriminate|]. split; [reflexivity|]. split; [exact R|].
    destruct W as ((_ & _ & _ & W & _) & _). intros (_ & _ & _ & V & _).
    rewrite W in V. discriminate V.
Qed.
Print Assumptions C31_strNcpy_manual_refuted.

(* ---- C32 ---- *)
Theorem C32_strCmp : forall m s1 s2 l1 l2, str_at m s1 l1 -> str_at m s2 l2 ->
  exists r, returns (strCmp m s1 s2) r /\ -255 <= r <= 255 /\
    (r = 0 <-> l1 = l2) /\ (r < 0 <-> lex_lt l1 l2) /\ (0 < r <-> lex_lt l2 l1).
Proof.
  intros m s1 s2 l1 l2 S1 S2. exists (cmpval l1 l2).
  destruct S1 as (F1 & B1) eqn:Q1, S2 as (F2 & B2) eqn:Q2.
  split; [exact (strCmp_ok m s1 s2 l1 l2 S1 S2)|].
  split; [exact (cmpval_range l1 l2 F1 F2)|].
  split; [exact (cmpval_eq l1 l2 F1 F2)|].
  split; [exact (cmpval_lt l1 l2 F1 F2)|].
  rewrite <- (cmpval_lt l2 l1 F2 F1), (cmpval_sym l1 l2). lia.
Qed.
Print Assumptions C32_strCmp.
Example C32_strCmp_ex : strCmp m0 100 200 10%nat = Some (-4). Proof. reflexivity. Qed.

(* only the first n bytes matter, and no more are read *)
Theorem C32_strNcmp : forall m s1 s2 n l1 l2, n <= 32767 ->
  str_upto m s1 n l1 -> str_upto m s2 n l2 ->
  let p1 := firstn (Z.to_nat n) l1 in let p2 := firstn (Z.to_nat n) l2 in
  exists r, returns (strNcmp m s1 s2 n) r /\ -255 <= r <= 255 /\
    (r = 0 <-> p1 = p2) /\ (r < 0 <-> lex_lt p1 p2) /\ (0 < r <-> lex_lt p2 p1).
Proof.
  intros m s1 s2 n l1 l2 N S1 S2 p1 p2. exists (cmpval p1 p2).
  assert (P : forall l, Forall char_ok l -> Forall char_ok (firstn (Z.to_nat n) l)).
  { intros l F. rewrite <- (firstn_skipn (Z.to_nat n) l) in F. apply Forall_app in F. tauto. }
  pose proof (P _ (proj1 S1)) as F1. pose proof (P _ (proj1 S2)) as F2.
  fold p1 in F1. fold p2 in F2.
  split; [exact (strNcmp_ok m s1 s2 n l1 l2 N S1 S2)|].
  split; [exact (cmpval_range p1 p2 F1 F2)|].
  split; [exact (cmpval_eq p1 p2 F1 F2)|].
  split; [exact (cmpval_lt p1 p2 F1 F2)|].
  rewrite <- (cmpval_lt p2 p1 F2 F1), (cmpval_sym p1 p2). lia.
Qed.
Print Assumptions C32_strNcmp.
Example C32_strNcmp_ex : strNcmp m0 100 200 3 10%nat = Some 0 /\ strNcmp m0 100 200 4 10%nat = Some (-4).
Proof. split; reflexivity. Qed.

(* the order strCmp decides is a strict total order *)
Theorem C32_total_order : forall a b c : list Z,
  ~ lex_lt a a /\ (lex_lt a b -> lex_lt b c -> lex_lt a c) /\
  (a = b \/ lex_lt a b \/ lex_lt b a).
Proof.
  intros a b c. split; [|split].
  - induction a as [|x a IH]; [apply lex_nil_r|].
    intros L. apply lex_cons_inv in L. destruct L as [L|(_ & L)]; [lia|auto].
  - revert b c. induction a as [|x a IH]; intros b c L1 L2.
    + destruct c as [|z c]; [now apply lex_nil_r in L2|]. exists []. left. exists z, c. auto.
    + destruct b as [|y b]; [now apply lex_nil_r in L1|].
      destruct c as [|z c]; [now apply lex_nil_r in L2|].
      apply lex_cons_inv in L1. apply lex_cons_inv in L2.
      destruct L1 as [L1|(-> & L1)], L2 as [L2|(-> & L2)];
        try (exists []; right; eexists _, _, _, _; repeat split; lia).
      apply lex_cons. eauto.
  - revert b. induction a as [|x a IH]; intros [|y b]; auto.
    + right; left. exists []. left. exists y, b. auto.
    + right; right. exists []. left. exists x, a. auto.
    + destruct (Z.lt_trichotomy x y) as [L|[->|L]].
      * right; left. exists []. right. exists x, y, a, b. auto.
      * destruct (IH b) as [->|[L|L]]; auto using lex_cons.
      * right; right. exists []. right. exists y, x, b, a. auto.
Qed.
Print Assumptions C32_total_order.

(* ---- C33 ---- *)
Theorem C33_strChr : forall m s c l, str_at m s l -> len l <= 32767 ->
  exists r, returns (strChr m s c) r /\
    ((r = -1 /\ ~ In c l) \/ exists p q, l = p ++ c :: q /\ ~ In c p /\ r = len p).
Proof.
  intros m s c l (F & B) L. apply (strChr_from m s c l 0); auto; [lia|]. now rewrite Z.add_0_r.
Qed.
Print Assumptions C33_strChr.
Example C33_strChr_ex : strChr m0 100 108 10%nat = Some 2 /\ strChr m0 100 122 10%nat = Some (-1).
Proof. split; reflexivity. Qed.

Theorem C33_strRchr : forall m s c l, str_at m s l -> len l <= 32767 ->
  exists r, returns (strRchr m s c) r /\
    ((r = -1 /\ ~ In c l) \/ exists p q, l = p ++ c :: q /\ ~ In c q /\ r = len p).
Proof.
  intros m s c l (F & B) L. apply (strRchr_from m s c l 0 (-1)); auto; [lia|]. now rewrite Z.add_0_r.
Qed.
Print Assumptions C33_strRchr.
Example C33_strRchr_ex : strRchr m0 100 108 10%nat = Some 3. Proof. reflexivity. Qed.

(* Full statement: strStr returns the first position where l2 occurs in l1, and
   -1 exactly when it does not occur.  Proved: true for the positions before
   len l1 - len l2.  Missing: the last position, which the code never tries. *)
Theorem C33_strStr_partial : forall m s1 s2 l1 l2,
  str_at m s1 l1 -> str_at m s2 l2 -> len l1 <= 32767 -> len l2 <= 32767 ->
  exists r, returns (strStr m s1 s2) r /\
  ((r = -1 /\ forall i, 0 <= i < len l1 - len l2 -> ~ occurs_at l2 l1 i) \/
   (0 <= r < len l1 - len l2 /\ occurs_at l2 l1 r /\
    forall i, 0 <= i < r -> ~ occurs_at l2 l1 i)).
Proof. intros m s1 s2 l1 l2 S1 S2 L1 L2. exact (strStr_ok m s1 s2 l1 l2 L1 L2 S1 S2). Qed.
Print Assumptions C33_strStr_partial.
Definition m1 : mem := put m0 400 (codes "ell" ++ [0]).
Example C33_strStr_ex : strStr m1 100 400 20%nat = Some 1. Proof. reflexivity. Qed.

(* no string is found in itself *)
Theorem C33_strStr_self_refuted : forall m s1 s2 l, str_at m s1 l -> str_at m s2 l ->
  len l <= 32767 -> occurs_at l l 0 /\ returns (strStr m s1 s2) (-1).
Proof.
  intros m s1 s2 l S1 S2 L. split; [exists [], []; rewrite app_nil_r; auto|].
  destruct (strStr_ok m s1 s2 l l L L S1 S2) as (r & R & [(-> & _)|(H & _)]); [exact R|lia].
Qed.
Print Assumptions C33_strStr_self_refuted.
Definition m2 : mem := put m0 400 (codes "llo" ++ [0]).
Example C33_strStr_refuted_ex : occurs_at (codes "llo") (codes "hello") 2 /\
  strStr m2 100 400 20%nat = Some (-1).
Proof. split; [exists (codes "he"), []; auto|reflexivity]. Qed.

(* ---- C34: the character classes of chap4.tex, a char being 0..255 ---- *)
Definition digits := codes "0123456789".
Definition uppers := codes "ABCDEFGHIJKLMNOPQRSTUVWXYZ".
Definition lowers := codes "abcdefghijklmnopqrstuvwxyz".
Definition inb (c : Z) (l : list Z) : bool := existsb (Z.eqb c) l.
Lemma inb_In c l : inb c l = true <-> In c l.
Proof.
  unfold inb. rewrite existsb_exists. split.
  - intros (x & I & E). apply Z.eqb_eq in E. now subst.
  - intros I. exists c. split; auto. apply Z.eqb_refl.
Qed.

Definition chars : list Z := map Z.of_nat (seq 0 256).
Lemma chars_all c : 0 <= c <= 255 -> In c chars.
Proof.
  intros H. unfold chars. replace c with (Z.of_nat (Z.to_nat c)) by lia.
  apply in_map. apply in_seq. lia.
Qed.
Lemma all_chars (P : Z -> bool) : forallb P chars = true -> forall c, 0 <= c <= 255 -> P c = true.
Proof. intros H c C. rewrite forallb_forall in H. apply H, chars_all, C. Qed.
Lemma class_by_table (f : Z -> bool) t :
  forallb (fun c => Bool.eqb (f c) (inb c t)) chars = true ->
  forall c, 0 <= c <= 255 -> (f c = true <-> In c t).
Proof.
  intros H c C. apply (all_chars (fun c => Bool.eqb (f c) (inb c t)) H) in C. apply eqb_prop in C.
  rewrite C. apply inb_In.
Qed.

Theorem C34_classes : forall c, 0 <= c <= 255 ->
  (isDigit c = true <-> In c digits) /\
  (isUpper c = true <-> In c uppers) /\
  (isLower c = true <-> In c lowers) /\
  (isAlpha c = true <-> In c (uppers ++ lowers)) /\
  (isAlnum c = true <-> In c (digits ++ uppers ++ lowers)) /\
  (isXdigit c = true <-> In c (codes "0123456789ABCDEFabcdef")) /\
  (isSpace c = true <-> In c [9; 10; 11; 12; 13; 32]) /\
  (isPrint c = true <-> c >= 32).
Proof.
  intros c C. repeat match goal with |- _ /\ _ => split end;
    try (apply class_by_table; [vm_compute; reflexivity|exact C]).
  unfold isPrint. rewrite Z.leb_le. lia.
Qed.
Print Assumptions C34_classes.

Theorem C34_case_letters : forall i, (i < 26)%nat ->
  toLower (nth i uppers 0) = nth i lowers 0 /\ toUpper (nth i lowers 0) = nth i uppers 0.
Proof. intros i H. do 26 (destruct i as [|i]; [vm_compute; split; reflexivity|]). lia. Qed.
Print Assumptions C34_case_letters.

Theorem C34_case_others : forall c, 0 <= c <= 255 ->
  (~ In c uppers -> toLower c = c) /\ (~ In c lowers -> toUpper c = c).
Proof.
  intros c C. split; intros N.
  - unfold toLower. destruct (isUpper c) eqn:E; auto.
    exfalso. apply N. apply (class_by_table isUpper uppers); auto.
  - unfold toUpper. destruct (isLower c) eqn:E; auto.
    exfalso. apply N. apply (class_by_table isLower lowers); auto.
Qed.
Print Assumptions C34_case_others.
Example C34_ex : toLower 65 = 97 /\ toUpper 122 = 90 /\ toUpper 233 = 233.
Proof. repeat split. Qed.
