(* 32-bit machine words: the arithmetic of the C program that the translator writes, and of
   C-- in that build (GNUmakefile:98-112: NWORD=32).  The specification side, as Word.v for the
   16-bit machines; signed overflow wraps around.  A word is a Z in [0, 2^32). *)
From Coq Require Import ZArith Bool Lia.
Open Scope Z_scope.

(* the word congruent to z *)
Definition w32 (z : Z) : Z := z mod 4294967296.
Definition is_word (z : Z) : Prop := 0 <= z < 4294967296.

(* two's complement reading of a word *)
Definition sval (w : Z) : Z := if w <? 2147483648 then w else w - 4294967296.

Definition b2w (b : bool) : Z := if b then 1 else 0.

(* unary operations *)
Definition w_neg (a : Z) : Z := w32 (- a).
Definition w_bnot (a : Z) : Z := 4294967295 - a.
Definition w_not (a : Z) : Z := b2w (a =? 0).
Definition w_chr (a : Z) : Z := a mod 256.
Definition w_bool (a : Z) : Z := a mod 2.

(* binary operations; None = undefined at run time *)
Definition w_add a b := w32 (a + b).
Definition w_sub a b := w32 (a - b).
Definition w_mul a b := w32 (a * b).
Definition w_and a b := Z.land a b.
Definition w_or a b := Z.lor a b.
Definition w_xor a b := Z.lxor a b.
Definition w_div a b : option Z :=
  if b =? 0 then None else Some (w32 (Z.quot (sval a) (sval b))).
Definition w_mod a b : option Z :=
  if b =? 0 then None else Some (w32 (Z.rem (sval a) (sval b))).
Definition w_shl a n : option Z :=
  if n <? 32 then Some (w32 (a * 2 ^ n)) else None.
Definition w_shr a n : option Z :=
  if n <? 32 then Some (w32 (sval a / 2 ^ n)) else None.
Definition w_gt a b := b2w (sval b <? sval a).
Definition w_ge a b := b2w (sval b <=? sval a).
Definition w_lt a b := b2w (sval a <? sval b).
Definition w_le a b := b2w (sval a <=? sval b).
Definition w_eq a b := b2w (a =? b).
Definition w_ne a b := b2w (negb (a =? b)).
