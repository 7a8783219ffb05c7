(* What can be asked of the pieces of text that the C translator prints for a file: the names
   it makes up for string constants and for temporary variables, and what they stand for.
   Nothing here refers to how the pieces are produced. *)
From Coq Require Import ZArith Bool List Permutation.
From Verif Require Import Lexer NameTable SyTree OpTree COpTree Parser ParserStmt ParseLabs DataSpec CFile CDataSpec.
Import ListNotations.
Open Scope Z_scope.

(* 0, 1, .. n-1 *)
Definition upto (n : nat) : list Z := map Z.of_nat (seq 0 n).

(* the strings and the temporaries that a piece defines, in order *)
Definition definesStr (p : cpiece) : list Z := match p with PStr k _ => [k] | _ => [] end.
Definition definesTmp (p : cpiece) : list Z := match p with PDat _ _ ds _ => labels ds | _ => [] end.

(* the strings in a function body and in data *)
Definition bodyStrs (s : stmt) : list Z := flat_map (fun r => match r with RStr l => [l] | _ => [] end) (refsS s).
Definition itemStrs (x : citem) : list Z := match x with IcStr l => [l] | _ => [] end.
Definition defStrs (d : cdef) : list Z := match d with CSpace _ _ _ => [] | CArr _ _ xs | CObj _ _ xs => flat_map itemStrs xs end.
Definition usesStr (p : cpiece) : list Z :=
  match p with
  | PFun _ _ root => bodyStrs root
  | PDat _ _ ds x => flat_map defStrs ds ++ itemStrs x
  | _ => []
  end.
(* the temporaries in data *)
Definition itemTmps (x : citem) : list Z := match x with IcTmp _ l => [l] | _ => [] end.

(* the strings of an initialiser; an initialiser with other numbers for its strings *)
Fixpoint initStrs (i : init) : list Z :=
  match i with
  | IStr l => [l]
  | IList _ xs => flat_map initStrs xs
  | _ => []
  end.
Fixpoint renumber (f : Z -> Z) (i : init) : init :=
  match i with
  | IStr l => IStr (f l)
  | IList b xs => IList b (map (renumber f) xs)
  | _ => i
  end.

(* the parser in state g has given the number l to the string constant s *)
Definition given (g : gs) (l : Z) (s : list Z) : Prop := exists a b, outp (ge g) = a ++ ALab l :: AStr s :: b.
(* under the numbers f, the string constants ls have been printed in the pieces a *)
Definition printed (g : gs) (f : Z -> Z) (ls : list Z) (a : list cpiece) : Prop :=
  forall l, In l ls -> exists s, given g l s /\ In (PStr (f l) s) a.
(* reading the initialiser of a variable of the current type and dimension *)
Definition readInit (g : gs) : pres (dat * gs) :=
  if 0 <? curDim g then getGArrayInit (W := W32) (curDim g) g
  else if (curType g =? TyINT) || (curType g =? TyCHAR) || (curType g =? TyBOOL) then getCnst (W := W32) (curType g) g
  else if curType g <=? 0 then getStructInit (W := W32) g
  else PErr XBug.

(* The piece p, which comes after the pieces a, is right.  A function: its body b was read from
   the source, optimised if that is asked for, and printed with the numbers of its strings.
   Data: the initialiser i was read for the type and the dimension of the variable, and the
   definitions describe i, with the numbers of its strings, if its scalars are numbers; an
   address alone is printed as such *)
Definition right (opt krn : bool) (a : list cpiece) (p : cpiece) : Prop :=
  match p with
  | PFun t idx root => exists g g' b r f,
      getBlock krn (getStat krn) g = POk (b, g') /\ gnt g' = t /\ funcIdx g = idx /\
      (if opt then cOptTree b = Ok r else r = b) /\
      root = renS f r /\ printed g' f (bodyStrs r) a
  | PDat t idx ds x => exists g g' d i f,
      readInit g = POk (d, g') /\ inits d = [i] /\ gnt g' = t /\ curType g = typeAt t idx /\ curDim g = dimAt t idx /\
      typed (curType g) (Z.to_nat (curDim g)) i /\ printed g' f (initStrs i) a /\
      (plain (curType g) (Z.to_nat (curDim g)) i ->
       exists ls, holds (curType g) ds (depth (curType g) (Z.to_nat (curDim g))) x (renumber f i) ls /\ Permutation ls (labels ds)) /\
      (forall j, i = IName j -> ds = [] /\ x = IcAddr j)
  | _ => True
  end.
