(* What the C definitions written for the initialiser of a global variable should describe.
   The initialisers are those of DataSpec.v; the definitions are C definitions of temporary
   variables of a base type with s asterisks.  Nothing here refers to how they are
   produced. *)
From Coq Require Import ZArith Bool List.
From Verif Require Import NameTable DataSpec CFile.
Import ListNotations.
Open Scope Z_scope.

(* the temporaries defined, in order *)
Definition labelOf (d : cdef) : Z := match d with CSpace l _ _ | CArr l _ _ | CObj l _ _ => l end.
Definition labels (ds : list cdef) : list Z := map labelOf ds.

(* the value of a member of a structure *)
Inductive member : citem -> init -> Prop :=
| M_num v : member (IcNum v) (IWord v)
| M_str l : member (IcStr l) (IStr l).

(* After the definitions ds, the C expression x, in a place of the base type t with s
   asterisks, has that type and is the value i.  A temporary is defined before it is used;
   an array of elements with s asterisks is used as a pointer to them, in a place with s+1;
   a structure is used by its address.  The elements are single bytes if the base type is
   char (also used for boolean) and has no asterisk.  ls lists the temporaries that belong
   to i *)
Inductive holds (t : Z) : list cdef -> nat -> citem -> init -> list Z -> Prop :=
| H_num ds v : 0 < t -> holds t ds 0 (IcNum v) (IWord v) []
| H_null ds s : holds t ds s (IcNum 0) (IWord 0) []
| H_str ds l : t = TyCHAR -> holds t ds 1 (IcStr l) (IStr l) []
| H_obj pre post l xs is : t <= 0 -> Forall2 member xs is ->
    holds t (pre ++ CObj l 0 xs :: post) 1 (IcTmp true l) (IList false is) [l]
| H_list pre post l s xs is ls : xs <> [] -> holdsAll t pre s xs is ls ->
    holds t (pre ++ CArr l s xs :: post) (S s) (IcTmp false l) (IList (byteType t && (s =? 0)%nat) is) (l :: ls)
| H_space pre post l s n :
    holds t (pre ++ CSpace l s n :: post) (S s) (IcTmp false l) (IArray (byteType t && (s =? 0)%nat) [n]) [l]
| H_rows pre post l s xs bytes n rest ls : rest <> [] -> holdsAll t pre s xs (repeat (IArray bytes rest) (Z.to_nat n)) ls ->
    holds t (pre ++ CArr l s xs :: post) (S s) (IcTmp false l) (IArray bytes (n :: rest)) (l :: ls)
(* elements of an array, in order *)
with holdsAll (t : Z) : list cdef -> nat -> list citem -> list init -> list Z -> Prop :=
| H_nil ds s : holdsAll t ds s [] [] []
| H_cons ds s x xs i is l1 l2 : holds t ds s x i l1 -> holdsAll t ds s xs is l2 -> holdsAll t ds s (x :: xs) (i :: is) (l1 ++ l2).

(* the asterisks of a variable of type t and dimension d: a structure is reached through a
   pointer *)
Definition depth (t : Z) (d : nat) : nat := if t <=? 0 then S d else d.

(* the initialisers of type t and dimension d (typed, DataSpec.v) whose scalars are numbers;
   strings only as char[] *)
Inductive fieldValue : init -> Prop :=
| F_word v : fieldValue (IWord v)
| F_str l : fieldValue (IStr l).
Inductive plain (t : Z) : nat -> init -> Prop :=
| P_word v : 0 < t -> plain t O (IWord v)
| P_null d : plain t d (IWord 0)
| P_struct xs : t <= 0 -> Forall fieldValue xs -> plain t O (IList false xs)
| P_string l : t = TyCHAR -> plain t 1 (IStr l)
| P_list d xs : xs <> [] -> Forall (plain t d) xs -> plain t (S d) (IList (byteType t && (S d =? 1)%nat) xs)
| P_array d dims : dims <> [] -> (length dims <= S d)%nat -> Forall (fun n => 0 < n) dims ->
    plain t (S d) (IArray (byteType t && (length dims =? S d)%nat) dims).
