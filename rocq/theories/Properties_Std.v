(* C38 (32-bit helpers), C43 (rand), C44 (atoi, htoi) *)
From Coq Require Import String Ascii ZArith Bool List Lia.
From Verif Require Import LibMem LibString LibSpec LibStrProofs LibStd LibStdProofs Properties_Str.
Import ListNotations.
Open Scope Z_scope.

(* ---- C38: val32 m a is the 32-bit number at a (upper word first) ---- *)
Theorem C38_add32 : forall m d s, same_or_apart d s ->
  exists m', add32 m d s = (m', d) /\
    val32 m' d = (val32 m d + val32 m s) mod 2 ^ 32 /\
    forall x, apart d 4 x 1 -> ldb m' x = ldb m x.
Proof. exact add32_ok. Qed.
Print Assumptions C38_add32.

Theorem C38_sub32 : forall m d s, same_or_apart d s ->
  exists m', sub32 m d s = (m', d) /\
    val32 m' d = (val32 m d - val32 m s) mod 2 ^ 32 /\
    forall x, apart d 4 x 1 -> ldb m' x = ldb m x.
Proof. exact sub32_ok. Qed.
Print Assumptions C38_sub32.
Definition m32 : mem := put (put (fun _ => 0) 1000 [0; 1; 255; 255]) 2000 [0; 2; 0; 3].
Example C38_add32_ex : same_or_apart 1000 2000 /\ val32 m32 1000 = 131071 /\ val32 m32 2000 = 131075 /\
  val32 (fst (add32 m32 1000 2000)) 1000 = 262146 /\
  val32 (fst (sub32 m32 1000 2000)) 1000 = 2 ^ 32 - 4.
Proof. split; [right; apply apart_small; lia|]. vm_compute. repeat split; reflexivity. Qed.

(* mul32 multiplies the low word; exact when the number is below 2^16 *)
Theorem C38_mul32_partial : forall m d src, 0 <= src < 65536 -> val32 m d < 65536 ->
  exists m', mul32 m d src = (m', d) /\ val32 m' d = val32 m d * src /\
    forall x, apart d 4 x 1 -> ldb m' x = ldb m x.
Proof.
  intros m d src S V. destruct (mul32_ok m d src S) as (m' & E & V' & F).
  exists m'. split; [exact E|]. split; [|exact F]. rewrite V'.
  unfold val32 in *. pose proof (ldw_range m d). pose proof (ldw_range m (d + 2)).
  replace (ldw m d) with 0 by lia. reflexivity.
Qed.
Print Assumptions C38_mul32_partial.
(* the upper word is ignored: (2^16) * 1 gives 0 *)
Theorem C38_mul32_refuted : exists m d src m', 0 <= src < 65536 /\ mul32 m d src = (m', d) /\
  val32 m' d <> (val32 m d * src) mod 2 ^ 32.
Proof.
  destruct (mul32_ok (put (fun _ => 0) 1000 [0; 1; 0; 0]) 1000 1 ltac:(lia)) as (m' & E & V & _).
  exists (put (fun _ => 0) 1000 [0; 1; 0; 0]), 1000, 1, m'. split; [lia|].
  split; [exact E|]. rewrite V. vm_compute. discriminate.
Qed.
Print Assumptions C38_mul32_refuted.

(* Full statement: dst := dst / src.  Proved: for 0 < src <= 2^15 and
   dst < src * 2^16 the lower word is the quotient, the upper word the remainder
   (so dst is dst / src only when the division is exact). *)
Theorem C38_div32_partial : forall m d s, 0 < s <= 32768 -> val32 m d < s * 65536 ->
  exists m', div32 m d s = (m', d) /\
    ldw m' (d + 2) = val32 m d / s /\ ldw m' d = val32 m d mod s /\
    (val32 m d mod s = 0 -> val32 m' d = val32 m d / s) /\
    forall x, apart d 4 x 1 -> ldb m' x = ldb m x.
Proof.
  intros m d s S V. pose proof (val32_range m d) as R.
  pose proof (ldw_range m d). pose proof (ldw_range m (d + 2)).
  assert (H1 : ldw m d < 2 * s) by (unfold val32 in V; lia).
  destruct (div32_ok m d s S H1) as (m' & E & M & Q & F).
  rewrite (Z.mod_small (val32 m d / s)) in Q
    by (split; [apply Z.div_pos; lia|apply Z.div_lt_upper_bound; lia]).
  exists m'. split; [exact E|]. split; [exact Q|]. split; [exact M|]. split; [|exact F].
  intros Z0. unfold val32 at 1. rewrite M, Q, Z0. reflexivity.
Qed.
Print Assumptions C38_div32_partial.
(* 7 / 2: the result array holds 2^16 + 3 *)
Theorem C38_div32_refuted : exists m d m', val32 m d = 7 /\ div32 m d 2 = (m', d) /\
  val32 m' d = 65539.
Proof.
  destruct (div32_ok (put (fun _ => 0) 1000 [0; 0; 0; 7]) 1000 2 ltac:(lia) ltac:(vm_compute; reflexivity))
    as (m' & E & V & W & _).
  exists (put (fun _ => 0) 1000 [0; 0; 0; 7]), 1000, m'.
  split; [vm_compute; reflexivity|]. split; [exact E|].
  unfold val32. rewrite V, W. vm_compute. reflexivity.
Qed.
Print Assumptions C38_div32_refuted.

Theorem C38_mod32_partial : forall m d s, 0 < s <= 32768 -> val32 m d < 2 * s * 65536 ->
  mod32 m d s = val32 m d mod s.
Proof.
  intros m d s S V. apply mod32_ok; [exact S|].
  pose proof (ldw_range m (d + 2)). unfold val32 in V. lia.
Qed.
Print Assumptions C38_mod32_partial.
(* 2^31 mod 10000 is 3648, the helper returns something else; likewise a divisor above 2^15 *)
Theorem C38_mod32_refuted : exists m d m2,
  val32 m d = 2 ^ 31 /\ mod32 m d 10000 <> val32 m d mod 10000 /\
  val32 m2 d < 40000 * 65536 /\ mod32 m2 d 40000 <> val32 m2 d mod 40000.
Proof.
  exists (put (fun _ => 0) 1000 [128; 0; 0; 0]), 1000, (put (fun _ => 0) 1000 [150; 0; 0; 0]).
  vm_compute. repeat split; discriminate.
Qed.
Print Assumptions C38_mod32_refuted.
Example C38_div32_ex : val32 m32 1000 = 131071 /\ ldw (fst (div32 m32 1000 1000)) 1002 = 131 /\
  ldw (fst (div32 m32 1000 1000)) 1000 = 71 /\ mod32 m32 1000 1000 = 71.
Proof. vm_compute. repeat split; reflexivity. Qed.

(* ---- C43 ---- *)
Inductive rop := Srand (seed : Z) | Rand.
(* the generator's state after a history of calls; it starts at 1 (stdlib.cmm:188) *)
Fixpoint rstate (h : list rop) (s : Z) : Z :=
  match h with
  | [] => s
  | Srand x :: r => rstate r (srand x)
  | Rand :: r => rstate r (rand s)
  end.
Theorem C43_never_zero : forall h, (forall x, In (Srand x) h -> is_int x) ->
  is_int (rstate h 1) /\ rstate h 1 <> 0.
Proof.
  intros h H. assert (I : is_int 1 /\ 1 <> 0) by (split; [unfold is_int; lia|lia]).
  revert I. generalize 1. induction h as [|o h IH]; intros s I; [exact I|].
  destruct o as [x|]; cbn [rstate]; apply IH; try (intros; apply H; now right).
  - unfold srand. destruct (x =? 0) eqn:E.
    + split; [unfold is_int; lia|lia].
    + split; [apply H; now left|now apply Z.eqb_neq].
  - split; [now apply rand_int|now apply rand_nonzero].
Qed.
Print Assumptions C43_never_zero.

Theorem C43_injective : forall a b, is_int a -> is_int b -> rand a = rand b -> a = b.
Proof. exact rand_inj. Qed.
Print Assumptions C43_injective.

Lemma randN_eq n s : randN n s = Nat.iter n rand s.
Proof. reflexivity. Qed.
(* from every non-zero state the generator visits all 65535 non-zero ints before repeating *)
Theorem C43_full_period : forall s, is_int s -> s <> 0 ->
  Nat.iter (Z.to_nat 65535) rand s = s /\
  forall k, (0 < k < Z.to_nat 65535)%nat -> Nat.iter k rand s <> s.
Proof.
  intros s H N. destruct (rand_period s H N) as (P & Q). rewrite randN_eq in P.
  split; [exact P|]. intros k K. rewrite <- randN_eq. now apply Q.
Qed.
Print Assumptions C43_full_period.
Theorem C43_visits_all : forall s t, is_int s -> s <> 0 -> is_int t -> t <> 0 ->
  exists k, Nat.iter k rand s = t.
Proof.
  intros s t Hs Ns Ht Nt. destruct (orbit_all s Hs Ns) as (j & J & ->).
  destruct (orbit_all t Ht Nt) as (k & K & ->).
  exists (Z.to_nat 65535 + k - j)%nat. rewrite <- randN_eq.
  rewrite <- randN_plus. replace (Z.to_nat 65535 + k - j + j)%nat with (k + Z.to_nat 65535)%nat by lia.
  rewrite randN_plus, cycle_back. reflexivity.
Qed.
Print Assumptions C43_visits_all.
Example C43_ex : rand 1 = -19456 /\ rand (-19456) = 23040.
Proof. split; reflexivity. Qed.

(* ---- C44 ---- *)
(* position of a character in a table *)
Fixpoint pos_in (c : Z) (l : list Z) : Z :=
  match l with [] => 0 | x :: r => if c =? x then 0 else 1 + pos_in c r end.
(* value of a numeral: each digit times a power of the base *)
Fixpoint radix_value (b : Z) (dig : Z -> Z) (l : list Z) : Z :=
  match l with [] => 0 | c :: r => dig c * b ^ len r + radix_value b dig r end.
Definition dec_digit (c : Z) : Z := pos_in c digits.
Definition hex_digit (c : Z) : Z :=
  if inb c (codes "abcdef") then pos_in c (codes "0123456789abcdef")
  else pos_in c (codes "0123456789ABCDEF").

Lemma fold_radix b dig l : forall v,
  fold_left (fun v c => v * b + dig c) l v = v * b ^ len l + radix_value b dig l.
Proof.
  induction l as [|c l IH]; intros v; cbn [fold_left radix_value].
  - rewrite len_nil. change (b ^ 0) with 1. lia.
  - rewrite IH, len_cons, Z.pow_add_r by (pose proof (len_nonneg l); lia). ring.
Qed.
Lemma fold_ext (f g : Z -> Z -> Z) l : (forall c v, In c l -> f v c = g v c) ->
  forall v, fold_left f l v = fold_left g l v.
Proof.
  induction l as [|c l IH]; intros H v; [reflexivity|]. cbn [fold_left].
  rewrite H by now left. apply IH. intros; apply H. now right.
Qed.

(* digits count, everything else in the string is skipped *)
Theorem C44_atoi_any : forall m s l, str_at m s l ->
  returns (atoi m s) (i16 (radix_value 10 dec_digit (filter (fun c => inb c digits) l))).
Proof.
  intros m s l (F & B).
  assert (EF : filter (fun c => inb c digits) l = filter isDigit l).
  { apply filter_ext_in. intros c I. rewrite Forall_forall in F. apply F in I. unfold char_ok in I.
    symmetry. apply eqb_prop.
    apply (all_chars (fun c => Bool.eqb (isDigit c) (inb c digits))); [vm_compute; reflexivity|lia]. }
  pose proof (atoi_from m s l 0 0 F ltac:(now rewrite Z.add_0_r)) as R.
  rewrite EF. unfold atoi.
  replace (radix_value 10 dec_digit (filter isDigit l))
    with (fold_left (fun v c => v * 10 + (c - 48)) (filter isDigit l) 0); [exact R|].
  rewrite <- (Z.add_0_l (radix_value _ _ _)). rewrite <- (Z.mul_0_l (10 ^ len (filter isDigit l))).
  rewrite <- fold_radix. apply fold_ext. intros c v I. apply filter_In in I. destruct I as (I & D).
  f_equal. rewrite Forall_forall in F. apply F in I. unfold char_ok in I.
  apply Z.eqb_eq. revert D.
  pose proof (all_chars (fun c => implb (isDigit c) (c - 48 =? dec_digit c)) ltac:(vm_compute; reflexivity) c ltac:(lia)) as T.
  cbv beta in T. intros D. now rewrite D in T.
Qed.
Print Assumptions C44_atoi_any.

Theorem C44_atoi : forall m s l, str_at m s l -> Forall (fun c => In c digits) l ->
  returns (atoi m s) (i16 (radix_value 10 dec_digit l)).
Proof.
  intros m s l S D. pose proof (C44_atoi_any m s l S) as R.
  replace (filter (fun c => inb c digits) l) with l in R; [exact R|].
  clear -D. induction D as [|c l H D IH]; [reflexivity|]. cbn [filter].
  apply inb_In in H. rewrite H. now rewrite <- IH.
Qed.
Print Assumptions C44_atoi.
Definition mnum : mem := put (put (fun _ => 0) 100 (codes "70000" ++ [0])) 200 (codes "1aFg" ++ [0]).
Example C44_atoi_ex : str_at mnum 100 (codes "70000") /\ radix_value 10 dec_digit (codes "70000") = 70000 /\
  atoi mnum 100 10%nat = Some 4464.
Proof.
  split; [split; [repeat constructor; unfold char_ok; cbn; lia|vm_compute; repeat split]|].
  split; reflexivity.
Qed.
(* consequence: a minus sign is not part of the numeral atoi reads *)
Theorem C44_atoi_sign : forall m s l, str_at m s (45 :: l) -> Forall (fun c => In c digits) l ->
  returns (atoi m s) (i16 (radix_value 10 dec_digit l)).
Proof.
  intros m s l S D. pose proof (C44_atoi_any m s _ S) as R. cbn [filter] in R.
  replace (inb 45 digits) with false in R by reflexivity.
  replace (filter (fun c => inb c digits) l) with l in R; [exact R|].
  clear -D. induction D as [|c l H D IH]; [reflexivity|]. cbn [filter].
  apply inb_In in H. rewrite H. now rewrite <- IH.
Qed.
Print Assumptions C44_atoi_sign.

(* htoi stops at the first character z that is not a hexadecimal digit *)
Theorem C44_htoi : forall m s l z,
  Forall (fun c => In c (codes "0123456789ABCDEFabcdef")) l ->
  0 <= z <= 255 -> ~ In z (codes "0123456789ABCDEFabcdef") ->
  bytes_at m s (l ++ [z]) ->
  returns (htoi m s) (i16 (radix_value 16 hex_digit l)).
Proof.
  intros m s l z F Z N B.
  assert (X : forall c, In c (codes "0123456789ABCDEFabcdef") ->
    isXdigit c = true /\ hexval c = hex_digit c).
  { intros c I. cbn in I. repeat (destruct I as [<-|I]; [split; reflexivity|]). destruct I. }
  assert (HZ : isXdigit z = false).
  { destruct (isXdigit z) eqn:E; auto. exfalso. apply N. apply (C34_classes z Z). exact E. }
  assert (FX : Forall (fun c => isXdigit c = true) l).
  { eapply Forall_impl; [|exact F]. intros c I. apply X, I. }
  pose proof (htoi_from m s l z HZ 0 0 FX ltac:(now rewrite Z.add_0_r)) as R.
  replace (radix_value 16 hex_digit l) with (fold_left (fun v c => v * 16 + hexval c) l 0); [exact R|].
  rewrite <- (Z.add_0_l (radix_value _ _ _)), <- (Z.mul_0_l (16 ^ len l)), <- fold_radix.
  apply fold_ext. intros c v I. f_equal. rewrite Forall_forall in F. apply X, F, I.
Qed.
Print Assumptions C44_htoi.
Example C44_htoi_ex : bytes_at mnum 200 (codes "1aF" ++ [103]) /\
  radix_value 16 hex_digit (codes "1aF") = 431 /\ htoi mnum 200 10%nat = Some 431.
Proof. split; [vm_compute; repeat split|]. split; reflexivity. Qed.

(* ---- C50: comparison of words as unsigned numbers ---- *)
Theorem C50_unsigned_compare : forall a b, 0 <= a < 65536 -> 0 <= b < 65536 ->
  (uCmp a b = 1 <-> b < a) /\ (uCmp a b = 0 <-> a = b) /\ (uCmp a b = -1 <-> a < b).
Proof.
  intros a b _ _. unfold uCmp. destruct (Z.ltb_spec b a); destruct (Z.eqb_spec a b); lia.
Qed.
Print Assumptions C50_unsigned_compare.
(* 40000 is negative as a signed word and still greater than 5 *)
Example C50_ex : (0 <= 40000 < 65536) /\ (0 <= 5 < 65536) /\ uCmp 40000 5 = 1 /\ uCmp 5 40000 = -1.
Proof. repeat split; reflexivity || lia. Qed.
