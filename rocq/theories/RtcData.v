(* Model of the code generator of the C translator with run-time checks (src/cCode.c, the build
   with _RTC) for declarations, initialised data and strings: the text that is printed.
   Names, types and numbers are as in CFile.v; the trees of the initialisers are those of
   ParserStmt.v. *)
From Coq Require Import ZArith Bool List String Ascii.
From Verif Require Import Lexer NameTable SyTree Parser ParserStmt CCode AsmText CFile.
Import ListNotations.
Open Scope Z_scope.

Local Notation "a +++ b" := (CCode.cat a b) (right associativity, at level 60).
Local Notation lit s := (Some (codes s%string)).

(* cCode.c:95-105 *)
Definition wordText (t : table) (typ dim : Z) : option (list Z) :=
  if dim =? 0 then typeText t typ
  else if (dim =? 1) && (0 <? typ) then
    if typ =? TyINT then lit "_IA " else if typ =? TyVOID then lit "void " else lit "_CA "
  else lit "_RA ".
(* cCode.c:93-107 *)
Definition typeDclR (t : table) (sta : bool) (typ dim : Z) (inst : bool) : option (list Z) :=
  Some (if sta then codes "static " else []) +++ wordText t typ dim +++
  Some (if negb inst && ((0 <? dim) || (typ <=? 0)) then codes "*" else []).
(* cCode.c:121-127 *)
Definition globDclR (t : table) (idx : Z) : option (list Z) :=
  typeDclR t (negb (pubAt t idx)) (typeAt t idx) (dimAt t idx) false +++ Some (nameAt t idx).

Section Data.
Variable t : table.
(* the type of the variable, cCode.c: vType *)
Variable vt : Z.
Definition instR (dim l : Z) : option (list Z) := typeDclR t true vt dim true +++ Some (tmpLab l).
(* cCode.c:421-424: the elements after the first *)
Fixpoint ptrsR (n : nat) (lab : Z) : list Z :=
  match n with O => [] | S k => codes ",&" ++ tmpLab lab ++ ptrsR k (lab + 1) end.
(* cCode.c:417-426 *)
Definition ptrArrayR (dim n lab l : Z) : option (list Z) :=
  instR dim l +++ Some (codes "={" ++ dec n ++ codes ",{&" ++ tmpLab lab ++ ptrsR (Z.to_nat (n - 1)) (lab + 1) ++ codes "}};" ++ eol).
(* cCode.c:461-464 *)
Fixpoint ptrArraysR (cnt : nat) (dim size ln l : Z) : option (list Z) :=
  match cnt with O => Some [] | S k => ptrArrayR dim size ln l +++ ptrArraysR k dim size (ln + size) (l + 1) end.
(* cCode.c:466-470 *)
Fixpoint spacesR (cnt : nat) (dim n l : Z) : option (list Z) :=
  match cnt with
  | O => Some []
  | S k => instR dim l +++ Some (codes "={" ++ dec n ++ codes ",{[" ++ dec (n - 1) ++ codes "]=0}};" ++ eol) +++ spacesR k dim n (l + 1)
  end.
(* cCode.c:447-478: the text, the first temporary of this dimension, the counter tmpLab *)
Fixpoint array0R (dim : Z) (d : dat) (cnt l : Z) : option (list Z * Z * Z) :=
  match d with
  | DSemi lv (DCnst size) =>
    match array0R (dim - 1) lv (cnt * size) l with
    | Some (c, ln, l1) =>
      match ptrArraysR (Z.to_nat cnt) dim size ln l1 with
      | Some c2 => Some (c ++ c2, l1, l1 + Z.max 0 cnt)
      | None => None
      end
    | None => None
    end
  | DCnst n => match spacesR (Z.to_nat cnt) dim n l with Some c => Some (c, l, l + Z.max 0 cnt) | None => None end
  | _ => None
  end.
(* cCode.c:505-520 *)
Definition itemR (d : dat) : option (list Z) :=
  match d with
  | DList _ r | DArry _ r => Some (codes "&" ++ tmpLab r)
  | DCnst v => Some (dec v)
  | DStr l => Some (codes "&" ++ strLab l)
  | _ => None
  end.
(* cCode.c:503, 523: the elements are counted unless they are members of a structure *)
Definition counted (dim : Z) : bool := negb ((vt <=? 0) && (dim <=? 0)).
(* cCode.c:493-525 *)
Fixpoint list2R (dim : Z) (d : dat) (cnt : Z) : option (list Z) :=
  (match d with
   | DSemi a b => list2R dim a (cnt + 1) +++ lit "," +++ list2R dim b 0
   | _ => Some (if (0 <? cnt) && counted dim then dec cnt ++ codes ",{" else []) +++ itemR d
   end) +++ Some (if (cnt =? 1) && counted dim then codes "}" else []).
(* cCode.c:529-545 printList1 and 548-562 printList0 (the case of a list): the text, the tree
   with the numbers, the counter *)
Fixpoint list1R (dim : Z) (d : dat) (l : Z) : option (list Z * dat * Z) :=
  match d with
  | DSemi a b =>
    match list1R dim a l with
    | Some (c1, a, l) => match list1R dim b l with Some (c2, b, l) => Some (c1 ++ c2, DSemi a b, l) | None => None end
    | None => None
    end
  | DList x _ =>
    match list1R (dim - 1) x l with
    | Some (c, x, l) =>
      match Some c +++ instR dim l +++ lit "={" +++ list2R dim x 1 +++ Some (codes "};" ++ eol) with
      | Some c => Some (c, DList x l, l + 1)
      | None => None
      end
    | None => None
    end
  | DArry x _ => match array0R dim x 1 l with Some (c, ln, l) => Some (c, DArry x ln, l) | None => None end
  | DCnst _ | DStr _ => Some ([], d, l)
  | _ => None
  end.
(* cCode.c:481-494 printArray, 565-577 printList, 580-596 genData: the temporaries, the
   value of the variable, the counter *)
Definition dataR (dim : Z) (root : dat) (l : Z) : option (list Z * list Z * Z) :=
  match root with
  | DArry x _ => match array0R dim x 1 l with Some (c, ln, l) => Some (c, codes "&" ++ tmpLab ln, l) | None => None end
  | DList _ _ =>
    match list1R dim root l with
    | Some (c, DList _ r, l) => Some (c, codes "&" ++ tmpLab r, l)
    | _ => None
    end
  | DCnst v => Some ([], dec v, l)
  | DStr s => Some ([], codes "&" ++ strLab s, l)
  | DAddr i => Some ([], codes "((int)&" ++ nameAt t i ++ codes ")", l)
  | _ => None
  end.
End Data.
(* cCode.c:580-596: the text for the variable idx, the counter *)
Definition genDataR (t : table) (idx : Z) (root : dat) (l : Z) : option (list Z * Z) :=
  match dataR t (typeAt t idx) (dimAt t idx) root l with
  | Some (c, v, l) =>
    match Some c +++ globDclR t idx +++ Some (codes "=" ++ v ++ codes ";" ++ eol) with Some w => Some (w, l) | None => None end
  | None => None
  end.
(* cCode.c:610-615; len is the value of the token of the string (parser.c:512, lexer.c:333) *)
Definition strTextR (lab len : Z) (s : list Z) : list Z :=
  codes "static _CA " ++ strLab lab ++ codes "={" ++ dec len ++ codes ",{" ++ 34 :: s ++ 34 :: codes "}};" ++ eol.

(* ==== declarations without values ==== *)
(* cCode.c:378-385: parameters i .. i+n-1 *)
Fixpoint paramsTextR (t : table) (i : Z) (n : nat) : option (list Z) :=
  match n with
  | O => Some []
  | S k =>
    typeDclR t false (typeAt t i) (dimAt t i) false +++
    Some (if typeAt t i =? TyDOTDOTDOT then [] else nameAt t i) +++
    Some (match k with O => [] | _ => codes "," end) +++ paramsTextR t (i + 1) k
  end.
(* cCode.c:374-387 *)
Definition funcDclR (t : table) (idx : Z) : option (list Z) :=
  globDclR t idx +++ lit "(" +++ paramsTextR t (idx + 1) (Z.to_nat (cntAt t idx)) +++ lit ")".
(* cCode.c:390-394 *)
Definition protoTextR (t : table) (idx : Z) : option (list Z) := funcDclR t idx +++ Some (codes ";" ++ eol).
(* cCode.c:626-641 *)
Fixpoint membersTextR (t : table) (i : Z) (n : nat) : option (list Z) :=
  match n with
  | O => Some []
  | S k => typeDclR t false (typeAt t i) (dimAt t i) false +++ Some (nameAt t i ++ codes ";" ++ eol) +++ membersTextR t (i + 1) k
  end.
Definition strucTextR (t : table) (idx : Z) : option (list Z) :=
  Some (codes "typedef struct _" ++ nameAt t idx ++ codes " " ++ nameAt t idx ++ codes ";" ++ eol ++
        codes "struct _" ++ nameAt t idx ++ codes " {" ++ eol) +++
  membersTextR t (idx + 1) (Z.to_nat (cntAt t idx)) +++ Some (codes "};" ++ eol).
(* cCode.c:583-587 *)
Definition bssTextR (t : table) (idx : Z) : option (list Z) := globDclR t idx +++ Some (codes ";" ++ eol).
