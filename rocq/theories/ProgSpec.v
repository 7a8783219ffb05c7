(* Specification: labels in the compiler's output, and static properties of function bodies. *)
From Coq Require Import ZArith Bool List.
From Verif Require Import Lexer NameTable SyTree VM Parser.
Import ListNotations.
Open Scope Z_scope.

(* the labels a line of the output defines, and those it refers to *)
Definition asmDefs (a : asm) : list Z :=
  match a with
  | ALab l => [l]
  | ACode c => flat_map (fun i => match i with ILab l => [l] | _ => [] end) c
  | _ => []
  end.
Definition asmUses (a : asm) : list Z :=
  match a with
  | ADwLab l => [l]
  | ACode c => flat_map (fun i => match i with IJmp l | IJT l | IJF l | ILdLab l => [l] | _ => [] end) c
  | _ => []
  end.
Definition outDefs (l : list asm) : list Z := flat_map asmDefs l.
Definition outUses (l : list asm) : list Z := flat_map asmUses l.

(* function fi of the table returns a value: it is neither void nor interrupt *)
Definition hasValue (t : table) (fi : Z) : bool :=
  negb (typeAt t fi =? TyINTR) && (negb (typeAt t fi =? TyVOID) || negb (dimAt t fi =? 0)).
