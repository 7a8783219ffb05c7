(* How the C definitions of initialised data are read, line by line.  Specification; nothing
   here refers to how they are printed.  A line is one of
        static type ***_cmm_1T[5];
        static type ***_cmm_1T[]={ value, value, .. };
        static type ***_cmm_1T={ value, value, .. };
        [static] type ***name=value;
   A value is a decimal number, a string _cmm_1S, a temporary _cmm_1T or its address. *)
From Coq Require Import ZArith Bool List String.
From Verif Require Import Lexer AsmSpec CFile.
Import ListNotations.
Open Scope Z_scope.

(* s without the prefix p *)
Fixpoint strip (p s : list Z) : option (list Z) :=
  match p, s with
  | [], _ => Some s
  | a :: p, b :: s => if a =? b then strip p s else None
  | _, [] => None
  end.
(* s without its last character c *)
Definition chop (c : Z) (s : list Z) : option (list Z) := if last s 0 =? c then Some (removelast s) else None.
Definition option_bind {A B} (a : option A) (f : A -> option B) : option B := match a with Some x => f x | None => None end.
Local Notation "'let?' x ':=' a 'in' b" := (option_bind a (fun x => b)) (at level 200, x name, right associativity).

(* _cmm_nT, _cmm_nS *)
Definition readNumbered (c : Z) (w : list Z) : option Z :=
  let? r := strip (codes "_cmm_") w in let? r := chop c r in decimal r.
Definition readItem (w : list Z) : option citem :=
  match strip (codes "&") w with
  | Some r => option_map (IcTmp true) (readNumbered 84 r)
  | None =>
    match readNumbered 84 w, readNumbered 83 w with
    | Some l, _ => Some (IcTmp false l)
    | None, Some l => Some (IcStr l)
    | None, None => option_map IcNum (decimal w)
    end
  end.
Fixpoint readAll {A B} (f : A -> option B) (l : list A) : option (list B) :=
  match l with
  | [] => Some []
  | a :: r => let? x := f a in let? y := readAll f r in Some (x :: y)
  end.
(* { value, value, .. } *)
Definition readVals (w : list Z) : option (list citem) :=
  let? r := strip (codes "{") w in let? r := chop 125 r in readAll readItem (cut 44 r).
Fixpoint nStars (w : list Z) : nat := match w with 42 :: r => S (nStars r) | _ => O end.

(* the declared type, its asterisks, what follows them *)
Definition readType (w : list Z) : option (list Z * nat * list Z) :=
  let (ty, r) := upto 32 w in
  let? r := r in Some (ty, nStars r, skipn (nStars r) r).
Definition readDef (line : list Z) : option (list Z * cdef) :=
  let? r := strip (codes "static ") line in
  let? r := chop 59 r in
  let (dcl, vals) := upto 61 r in
  let? x := readType dcl in
  let '(ty, s, nm) := x in
  let (nm, dims) := upto 91 nm in
  let? l := readNumbered 84 nm in
  match vals with
  | None => let? d := dims in let? d := chop 93 d in let? n := decimal d in Some (ty, CSpace l s n)
  | Some v =>
    let? xs := readVals v in
    match dims with
    | None => Some (ty, CObj l s xs)
    | Some d => let? d := chop 93 d in match d with [] => Some (ty, CArr l s xs) | _ => None end
    end
  end.
(* the variable: static or not, type, asterisks, name, value *)
Definition readVar (line : list Z) : option (bool * list Z * nat * list Z * citem) :=
  let (sta, r) := match strip (codes "static ") line with Some r => (true, r) | None => (false, line) end in
  let? r := chop 59 r in
  let (dcl, v) := upto 61 r in
  let? v := v in
  let? x := readType dcl in
  let '(ty, s, nm) := x in
  let? v := readItem v in Some (sta, ty, s, nm, v).
(* the definitions for one variable: its temporaries, then the variable *)
Definition readData (text : list Z) : option (list (list Z * cdef) * (bool * list Z * nat * list Z * citem)) :=
  match rev (cut 10 text) with
  | [] :: v :: ds => let? x := readAll readDef (rev ds) in let? y := readVar v in Some (x, y)
  | _ => None
  end.
