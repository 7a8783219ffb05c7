(* Model of the small functions of lib/SrcTac/stdlib.cmm (atoi, htoi, srand,
   rand) and of the 32-bit helpers of lib/SrcTac/crt0.s. *)
From Coq Require Import ZArith Bool List Lia.
From Verif Require Import LibMem LibString.
Import ListNotations.
Open Scope Z_scope.

(* stdlib.cmm:159-165 *)
Definition atoi (m : mem) (s : Z) : comp Z :=
  loop (fun '(i, v) =>
    if negb (ldb m (s + i) =? 0)
    then inl (i16 (i + 1),
              if isDigit (ldb m (s + i))
              then i16 (i16 (i16 (v * 10) + ldb m (s + i)) - 48) else v)
    else inr v) (0, 0).

(* stdlib.cmm:168-179 *)
Definition htoi (m : mem) (s : Z) : comp Z :=
  loop (fun '(i, v) =>
    if isXdigit (ldb m (s + i))
    then let c := ldb m (s + i) in
         inl (i16 (i + 1),
              if isDigit c then i16 (i16 (v * 16) + i16 (c - 48))
              else i16 (i16 (v * 16) + i16 (i16 (10 + toUpper c) - 65)))
    else inr v) (0, 0).

(* stdlib.cmm:189-192 *)
Definition srand (seed : Z) : Z := if seed =? 0 then 1 else seed.
(* stdlib.cmm:195-198; the operands are 16-bit signed ints, 0xb400 included *)
Definition rand (lfsr : Z) : Z :=
  Z.lxor (Z.land (Z.shiftr lfsr 1) 32767)
         (Z.land (i16 (- Z.land lfsr 1)) (i16 46080)).

(* ---- crt0.s: TaC instructions used by the 32-bit helpers.  Registers hold
   words 0..65535; add sets C on unsigned overflow, sub/cmp set C on borrow,
   shll sets C to the bit shifted out; ld/st leave the flags alone ---- *)
Definition addw (a b : Z) : Z := (a + b) mod 65536.
Definition subw (a b : Z) : Z := (a - b) mod 65536.
Definition addC (a b : Z) : bool := 65536 <=? a + b.
Definition subC (a b : Z) : bool := a <? b.
Definition shl1 (a : Z) : Z := (a * 2) mod 65536.
Definition shlC (a : Z) : bool := 32768 <=? a.

(* crt0.s:104-116 *)
Definition add32 (m : mem) (dst src : Z) : mem * Z :=
  let g2 := ldw m (dst + 2) in
  let b := ldw m (src + 2) in
  let c := addC g2 b in
  let m1 := stw m (dst + 2) (addw g2 b) in
  let g2 := ldw m1 dst in
  let g2 := if c then addw g2 1 else g2 in
  (stw m1 dst (addw g2 (ldw m1 src)), dst).

(* crt0.s:119-131 *)
Definition sub32 (m : mem) (dst src : Z) : mem * Z :=
  let g2 := ldw m (dst + 2) in
  let b := ldw m (src + 2) in
  let c := subC g2 b in
  let m1 := stw m (dst + 2) (subw g2 b) in
  let g2 := ldw m1 dst in
  let g2 := if c then subw g2 1 else g2 in
  (stw m1 dst (subw g2 (ldw m1 src)), dst).

(* crt0.s:140-150 (.A1 - .A4): one round of the multiplication loop *)
Definition mulRound (src : Z) (r : Z * Z) : Z * Z :=
  let '(g1, g2) := r in
  let g0 := if shlC g1 then src else 0 in
  let g1 := shl1 g1 in
  let g1 := if shlC g2 then addw g1 1 else g1 in
  let g2 := shl1 g2 in
  let g1 := if addC g2 g0 then addw g1 1 else g1 in
  let g2 := addw g2 g0 in
  (g1, g2).

Fixpoint rounds {A} (n : nat) (f : A -> A) (a : A) : A :=
  match n with O => a | S n => rounds n f (f a) end.

(* crt0.s:134-156; src is the int argument as a word *)
Definition mul32 (m : mem) (dst src : Z) : mem * Z :=
  let '(g1, g2) := rounds 16 (mulRound src) (ldw m (dst + 2), 0) in
  (stw (stw m dst g1) (dst + 2) g2, dst).

(* crt0.s:166-169 (.D1): compare and subtract *)
Definition divSub (src : Z) (r : Z * Z * Z) : Z * Z * Z :=
  let '(g1, g2, g3) := r in
  if subC g1 src then (g1, g2, g3) else (subw g1 src, g2, addw g3 1).
(* crt0.s:172-176: shift dividend and quotient *)
Definition divShift (r : Z * Z * Z) : Z * Z * Z :=
  let '(g1, g2, g3) := r in
  let g1 := shl1 g1 in
  let g1 := if shlC g2 then addw g1 1 else g1 in
  (g1, shl1 g2, shl1 g3).
(* crt0.s:164-177: 17 compares, 16 shifts *)
Definition divLoop (src hi lo : Z) : Z * Z * Z :=
  rounds 16 (fun r => divSub src (divShift r)) (divSub src (hi, lo, 0)).

(* crt0.s:159-182: remainder to the upper word, quotient to the lower word *)
Definition div32 (m : mem) (dst src : Z) : mem * Z :=
  let '(g1, g2, g3) := divLoop src (ldw m dst) (ldw m (dst + 2)) in
  (stw (stw m dst g1) (dst + 2) g3, dst).

(* crt0.s:185-206 *)
Definition mod32 (m : mem) (dst src : Z) : Z :=
  let '(g1, g2, g3) := divLoop src (ldw m dst) (ldw m (dst + 2)) in g1.

(* crt0.s:85-95: unsigned comparison *)
Definition uCmp (a b : Z) : Z :=
  if b <? a then 1 else if a =? b then 0 else -1.
