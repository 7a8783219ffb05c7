(* What the C definitions written for the initialiser of a global variable should describe
   in a program with run-time checks.  An array is an object of the type _IA, _CA or _RA
   (wrapper.h): its number of elements, then its elements.  The initialisers are those of
   DataSpec.v.  Nothing here refers to how the definitions are produced. *)
From Coq Require Import ZArith Bool List String Ascii.
From Verif Require Import Lexer NameTable Parser AsmText DataSpec CDataSpec CSourceSpec CCode RtcHeap RtcSpec.
Import ListNotations.
Open Scope Z_scope.

(* an initial value: a number; the address of a string, of a temporary variable, of a
   function or variable *)
Inductive rval := RvNum (v : Z) | RvStr (l : Z) | RvTmp (l : Z) | RvAddr (i : Z).
(* the temporary variables: an array of d dimensions of n elements without values; one with
   the number c and the elements xs; a structure *)
Inductive rdef :=
| RdSpace (l : Z) (d : nat) (n : Z)
| RdArr (l : Z) (d : nat) (c : Z) (xs : list rval)
| RdObj (l : Z) (xs : list rval).
Definition labelR (x : rdef) : Z := match x with RdSpace l _ _ | RdArr l _ _ _ | RdObj l _ => l end.
Definition labelsR (ds : list rdef) : list Z := map labelR ds.

(* ---- what they describe ---- *)
Inductive memberR : rval -> init -> Prop :=
| MR_num v : memberR (RvNum v) (IWord v)
| MR_str l : memberR (RvStr l) (IStr l).
(* After the definitions ds, x is, in a place of type t with d dimensions, the value i.  A
   temporary is defined before it is used; the number in an array is that of its elements;
   ls lists the temporaries that belong to i *)
Inductive holdsR (t : Z) : list rdef -> nat -> rval -> init -> list Z -> Prop :=
| HR_num ds v : 0 < t -> holdsR t ds 0 (RvNum v) (IWord v) []
| HR_null ds d : holdsR t ds d (RvNum 0) (IWord 0) []
| HR_str ds l : t = TyCHAR -> holdsR t ds 1 (RvStr l) (IStr l) []
| HR_obj pre post l xs is : t <= 0 -> Forall2 memberR xs is ->
    holdsR t (pre ++ RdObj l xs :: post) 0 (RvTmp l) (IList false is) [l]
| HR_list pre post l d xs is ls : xs <> [] -> holdsAllR t pre d xs is ls ->
    holdsR t (pre ++ RdArr l (S d) (Z.of_nat (List.length xs)) xs :: post) (S d) (RvTmp l) (IList (byteType t && (d =? 0)%nat) is) (l :: ls)
| HR_space pre post l d n : 0 < n ->
    holdsR t (pre ++ RdSpace l (S d) n :: post) (S d) (RvTmp l) (IArray (byteType t && (d =? 0)%nat) [n]) [l]
| HR_rows pre post l d xs bytes n rest ls : rest <> [] -> 0 < n -> holdsAllR t pre d xs (repeat (IArray bytes rest) (Z.to_nat n)) ls ->
    holdsR t (pre ++ RdArr l (S d) (Z.of_nat (List.length xs)) xs :: post) (S d) (RvTmp l) (IArray bytes (n :: rest)) (l :: ls)
with holdsAllR (t : Z) : list rdef -> nat -> list rval -> list init -> list Z -> Prop :=
| HR_nil ds d : holdsAllR t ds d [] [] []
| HR_cons ds d x xs i is l1 l2 : holdsR t ds d x i l1 -> holdsAllR t ds d xs is l2 -> holdsAllR t ds d (x :: xs) (i :: is) (l1 ++ l2).

(* ---- their text ---- *)
(* an array of d dimensions of elements of type t: references unless it has one dimension and
   t is not a structure; boolean is char *)
Definition kindOf (t : Z) (d : nat) : kind :=
  if (d =? 1)%nat && (0 <? t) then if t =? TyINT then KInt else KChar else KRef.
Definition kindWord (k : kind) : list Z := match k with KInt => codes "_IA" | KChar => codes "_CA" | KRef => codes "_RA" end.
(* the word of a type without dimensions *)
Definition baseWord (nm : Z -> list Z) (t : Z) : list Z :=
  if t <=? 0 then nm (- t) else if t =? TyINT then codes "int" else codes "char".
Definition rvText (nm : Z -> list Z) (x : rval) : list Z :=
  match x with
  | RvNum v => dec v
  | RvStr l => codes "&_cmm_" ++ dec l ++ codes "S"
  | RvTmp l => codes "&" ++ cTmp l
  | RvAddr i => codes "((int)&" ++ nm i ++ codes ")"
  end.
Definition rdText (nm : Z -> list Z) (t : Z) (x : rdef) : list Z :=
  let vals xs := between (codes ",") (map (rvText nm) xs) in
  match x with
  | RdSpace l d n => codes "static " ++ kindWord (kindOf t d) ++ codes " " ++ cTmp l ++ codes "={" ++ dec n ++ codes ",{[" ++ dec (n - 1) ++ codes "]=0}};" ++ nl
  | RdArr l d c xs => codes "static " ++ kindWord (kindOf t d) ++ codes " " ++ cTmp l ++ codes "={" ++ dec c ++ codes ",{" ++ vals xs ++ codes "}};" ++ nl
  | RdObj l xs => codes "static " ++ baseWord nm t ++ codes " " ++ cTmp l ++ codes "={" ++ vals xs ++ codes "};" ++ nl
  end.
(* the variable: a reference unless it is a number *)
Definition rVar (nm : Z -> list Z) (pub : bool) (t : Z) (d : nat) (name : list Z) (x : rval) : list Z :=
  (if pub then [] else codes "static ") ++
  match d with O => baseWord nm t | S _ => kindWord (kindOf t d) end ++ codes " " ++
  (if (0 <? t) && (d =? 0)%nat then [] else codes "*") ++ name ++ codes "=" ++ rvText nm x ++ codes ";" ++ nl.

(* ---- their memory ---- *)
(* the C compiler puts the strings, temporaries and names somewhere *)
Definition valueAt (addr : rval -> Z) (x : rval) : Z := match x with RvNum v => v | _ => addr x end.
(* the array that a definition is meant to be *)
Definition arrayOf (addr : rval -> Z) (t : Z) (x : rdef) : option array :=
  match x with
  | RdSpace _ d n => Some (Arr (kindOf t d) (repeat 0 (Z.to_nat n)))
  | RdArr _ d _ xs => Some (Arr (kindOf t d) (map (fun v => kept (kindOf t d) (valueAt addr v)) xs))
  | RdObj _ _ => None
  end.
(* the bytes of the object: the number, the alignment of the elements, the elements; the
   elements that are not given up to the last are 0 *)
Definition object (k : kind) (c : Z) (es : list Z) : list Z :=
  enc 4 c ++ repeat 0 (Z.to_nat (hdr k - 4)) ++ flat_map (enc (width k)) es.
Definition bytesOf (addr : rval -> Z) (t : Z) (x : rdef) : option (list Z) :=
  match x with
  | RdSpace _ d n => Some (object (kindOf t d) n (repeat 0 (Z.to_nat (n - 1)) ++ [0]))
  | RdArr _ d c xs => Some (object (kindOf t d) c (map (fun v => kept (kindOf t d) (valueAt addr v)) xs))
  | RdObj _ _ => None
  end.

(* ---- declarations without values ---- *)
(* the C type of a declared thing of type t with d dimensions.  The language's own words:
   boolean is char; a structure and an array are used by reference, an array by that of its
   object, void[] by one to anything *)
Inductive ctype (nm : Z -> list Z) : Z -> nat -> list Z -> Prop :=
| ct_void : ctype nm TyVOID 0 (codes "void ")
| ct_int : ctype nm TyINT 0 (codes "int ")
| ct_char : ctype nm TyCHAR 0 (codes "char ")
| ct_bool : ctype nm TyBOOL 0 (codes "char ")
| ct_struct t : t <= 0 -> ctype nm t 0 (nm (- t) ++ codes " *")
| ct_any : ctype nm TyVOID 1 (codes "void *")
| ct_array t d : t <> TyVOID \/ d <> O -> ctype nm t (S d) (kindWord (kindOf t (S d)) ++ codes " *").
(* a declaration: type and name; the parameter list of a function may end with dots, which
   the name table has as a parameter of its own type *)
Inductive cdecl (nm : Z -> list Z) : Z * nat * list Z -> list Z -> Prop :=
| cd_named t d n w : ctype nm t d w -> t <> TyDOTDOTDOT -> cdecl nm (t, d, n) (w ++ n)
| cd_dots n : cdecl nm (TyDOTDOTDOT, O, n) (codes "...").
Definition cStatic (pub : bool) : list Z := if pub then [] else codes "static ".
(* what the name table says of the n entries from i on *)
Definition entries (t : table) (i : Z) (n : nat) : list (Z * nat * list Z) :=
  map (fun k => let j := i + Z.of_nat k in (typeAt t j, Z.to_nat (dimAt t j), nameAt t j)) (seq 0 n).
