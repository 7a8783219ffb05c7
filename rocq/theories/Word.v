(* 16-bit machine words: the arithmetic a C-- program relies on at run time.
   Independent of the compiler: this is the specification side.
   Source of the meaning: doc (chap3) "int = 16-bit two's complement",
   util.h:49-50 (WMSK = 0xffff, BMSK = 0xff for NWORD=16, NBYTE=8).
   A word is a Z in [0, 65536). *)
From Coq Require Import ZArith Bool Lia.
Open Scope Z_scope.

(* the word congruent to z *)
Definition w16 (z : Z) : Z := z mod 65536.
Definition is_word (z : Z) : Prop := 0 <= z < 65536.

(* two's complement reading of a word *)
Definition sval (w : Z) : Z := if w <? 32768 then w else w - 65536.

Definition b2w (b : bool) : Z := if b then 1 else 0.

(* unary operations *)
Definition w_neg (a : Z) : Z := w16 (- a).
Definition w_bnot (a : Z) : Z := 65535 - a.
Definition w_not (a : Z) : Z := b2w (a =? 0).
Definition w_chr (a : Z) : Z := a mod 256.
Definition w_bool (a : Z) : Z := a mod 2.

(* binary operations; None = undefined at run time *)
Definition w_add a b := w16 (a + b).
Definition w_sub a b := w16 (a - b).
Definition w_mul a b := w16 (a * b).
Definition w_and a b := Z.land a b.
Definition w_or a b := Z.lor a b.
Definition w_xor a b := Z.lxor a b.
Definition w_div a b : option Z :=
  if b =? 0 then None else Some (w16 (Z.quot (sval a) (sval b))).
Definition w_mod a b : option Z :=
  if b =? 0 then None else Some (w16 (Z.rem (sval a) (sval b))).
Definition w_shl a n : option Z :=
  if n <? 16 then Some (w16 (a * 2 ^ n)) else None.
Definition w_shr a n : option Z :=
  if n <? 16 then Some (w16 (sval a / 2 ^ n)) else None.
Definition w_gt a b := b2w (sval b <? sval a).
Definition w_ge a b := b2w (sval b <=? sval a).
Definition w_lt a b := b2w (sval a <? sval b).
Definition w_le a b := b2w (sval a <=? sval b).
Definition w_eq a b := b2w (a =? b).
Definition w_ne a b := b2w (negb (a =? b)).
