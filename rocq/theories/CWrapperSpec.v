(* Specifications of C70: hexadecimal numerals, the content of a stream, a 64-bit number in two ints. *)
From Coq Require Import ZArith Bool List String Ascii.
Import ListNotations.
Open Scope Z_scope.

(* the value of a hexadecimal digit, by listing them *)
Definition hex_digits : list (Z * Z) :=
  [(48,0);(49,1);(50,2);(51,3);(52,4);(53,5);(54,6);(55,7);(56,8);(57,9);
   (97,10);(98,11);(99,12);(100,13);(101,14);(102,15);(65,10);(66,11);(67,12);(68,13);(69,14);(70,15)].
Inductive numeral : list Z -> Z -> Prop :=
| num_nil : numeral [] 0
| num_digit s v c d : numeral s v -> In (c, d) hex_digits -> numeral (s ++ [c]) (16 * v + d).
Definition no_digit_next (r : list Z) : Prop := match r with [] => True | c :: _ => forall d, ~ In (c, d) hex_digits end.

(* the unsigned 32 bits of an int *)
Definition bits32 (v : Z) : Z := if v <? 0 then v + 4294967296 else v.
(* the number a C-- program means by two ints, high and low *)
Definition pair64 (hi lo : Z) : Z := bits32 hi * 4294967296 + bits32 lo.
