(* Specification side for C68, with the numerals, fields and formats of LibPrintfSpec:
   what the manual (doc/chap4.tex, printf) says a conversion prints. *)
From Coq Require Import String Ascii ZArith Bool List Lia.
From Verif Require Import LibSpec LibPrintfSpec CPrintf Properties_Str Properties_Std.
Import ListNotations.
Open Scope Z_scope.

Definition two32 : Z := 4294967296.
Definition is_int32 (x : Z) : Prop := -2147483648 <= x <= 2147483647.
(* the 64-bit number without sign in an array of two ints, the upper half first *)
Definition val64 (hi lo : Z) : Z := (hi mod two32) * two32 + lo mod two32.

(* what a conversion prints, and the arguments it leaves.  The conditions are those
   under which the library does print it; beyond them see the refutations *)
Inductive conv_text (lf zero : bool) (w : Z) : kind -> list carg -> list Z -> list carg -> Prop :=
| Td x va l : is_int32 x -> x <> -2147483648 -> signed_text x l ->
    conv_text lf zero w Kd (AInt x :: va) (field lf zero w l) va
| Tx x va l : is_int32 x -> 0 <= x \/ w <= 1 -> numeral 16 (x mod two32) l ->
    conv_text lf zero w Kx (AInt x :: va) (field lf zero w l) va
| To x va l : is_int32 x -> 0 <= x \/ w <= 1 -> numeral 8 (x mod two32) l ->
    conv_text lf zero w Ko (AInt x :: va) (field lf zero w l) va
| Tc x va : conv_text lf zero w Kc (AInt x :: va) (field lf false w [x mod 256]) va
| Ts s va : Forall char_ok s -> len s <= 2147483647 ->
    conv_text lf zero w Ks (AStr s :: va) (field lf false w s) va
| Tpct va : conv_text lf zero w Kpct va (codes "%") va
| Tld hi lo va l : lf = false \/ val64 hi lo < 100000000 -> numeral 10 (val64 hi lo) l ->
    conv_text lf zero w Kld (ALong hi lo :: va) (field lf zero w l) va.

(* the text of a format's items *)
Inductive text_of : list item -> list carg -> list Z -> list carg -> Prop :=
| Xnil va : text_of [] va [] va
| Xlit c f va t va' : text_of f va t va' -> text_of (Lit c :: f) va (c :: t) va'
| Xconv lf ws k f va t1 va1 t2 va2 :
    conv_text lf (zero_flag ws) (width_of ws) k va t1 va1 -> text_of f va1 t2 va2 ->
    text_of (Conv lf ws k :: f) va (t1 ++ t2) va2.

Definition item_fits (i : item) : Prop :=
  match i with
  | Lit c => char_ok c /\ c <> 37
  | Conv _ ws _ => Forall (fun c => In c digits) ws /\ width_of ws <= 2147483647
  end.

(* the number of characters of code 0 in a text *)
Definition nuls (t : list Z) : Z := len (filter (fun c => c =? 0) t).
