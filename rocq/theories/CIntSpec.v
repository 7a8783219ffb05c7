(* The int of a 32-bit C implementation, stated on mathematical integers: the specification of
   constant folding in the translator (C66).  Nothing here refers to the optimiser. *)
From Coq Require Import ZArith Bool List.
From Verif Require Import SyTree.
Import ListNotations.
Open Scope Z_scope.

(* what an operator on two ints gives: a value, undefined behaviour (an overflow), a shift by
   less than 0 or more than 31 places, a division by zero *)
Inductive cval := CVal (v : Z) | COver | CShift | CDiv0.

Definition fits (v : Z) : bool := (-2147483648 <=? v) && (v <=? 2147483647).
Definition cres (v : Z) : cval := if fits v then CVal v else COver.
Definition cbool (b : bool) : cval := CVal (if b then 1 else 0).
(* the int that the usual implementations make of the low 32 bits *)
Definition low32 (v : Z) : Z :=
  let r := v mod 4294967296 in if r <? 2147483648 then r else r - 4294967296.

(* ISO C 6.5.5-6.5.12; the left shift keeps the low 32 bits, the right shift keeps the sign *)
Definition cop2 (o : op2) (a b : Z) : cval :=
  match o with
  | ADD => cres (a + b)
  | SUB => cres (a - b)
  | MUL => cres (a * b)
  | DIV => if b =? 0 then CDiv0 else cres (Z.quot a b)
  | MOD => if b =? 0 then CDiv0 else if fits (Z.quot a b) then CVal (Z.rem a b) else COver
  | SHL => if (0 <=? b) && (b <? 32) then CVal (low32 (a * 2 ^ b)) else CShift
  | SHR => if (0 <=? b) && (b <? 32) then CVal (a / 2 ^ b) else CShift
  | BAND => CVal (Z.land a b)
  | BOR => CVal (Z.lor a b)
  | BXOR => CVal (Z.lxor a b)
  | GT => cbool (b <? a)
  | GE => cbool (b <=? a)
  | LT => cbool (a <? b)
  | LE => cbool (a <=? b)
  | EQU => cbool (a =? b)
  | NEQ => cbool (negb (a =? b))
  | _ => COver
  end.
(* -a, ~a, chr(a) (the low byte), bool(a) (the low bit); !a on booleans *)
Definition cop1 (o : op1) (a : Z) : cval :=
  match o with
  | NEG => cres (- a)
  | BNOT => CVal (- a - 1)
  | CHR => CVal (a mod 256)
  | BOOL => CVal (a mod 2)
  | NOT => CVal (1 - a)
  end.

(* every constant of the tree is an int *)
Fixpoint consts_int (e : expr) : Prop :=
  match e with
  | Cnst v => fits v = true
  | ENull | ELeaf _ => True
  | E1 _ a => consts_int a
  | E2 _ l r => consts_int l /\ consts_int r
  | EFunc _ a => consts_int a
  end.

(* strict C evaluation of the arithmetic of local variables: an overflow is undefined *)
Fixpoint seval (rho : Z -> Z) (e : expr) : option Z :=
  match e with
  | Cnst v => Some v
  | ELeaf (LLoc i) => Some (rho i)
  | E1 o a =>
      match seval rho a with
      | Some x => match cop1 o x with CVal v => Some v | _ => None end
      | None => None
      end
  | E2 o a b =>
      match seval rho a, seval rho b with
      | Some x, Some y => match cop2 o x y with CVal v => Some v | _ => None end
      | _, _ => None
      end
  | _ => None
  end.
