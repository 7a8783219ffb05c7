(* Model of src/namtbl.c, function by function.  The arrays ntName .. ntPub
   (namtbl.h:70-77) with ntNextIdx are one list of entries.
   Simplification: spellings are values (the C code copies them with ealloc and frees
   them in ntUndefName); the arrays keep stale data above ntNextIdx, here an index
   outside the list is an error outcome of the reader (ent returns None). *)
From Coq Require Import ZArith Bool Lia List.
From Verif Require Import Lexer.
Import ListNotations.
Open Scope Z_scope.

(* namtbl.h:41-49 *)
Definition ScVOID := -2. Definition ScSTRC := -1. Definition ScPROT := 0. Definition ScFUNC := 1.
Definition ScCOMM := 2. Definition ScGVAR := 3. Definition ScLVAR := 4. Definition ScFLD := 5. Definition ScPRM := 6.
(* namtbl.h:54-62 *)
Definition TyVOID := 1. Definition TyINT := 2. Definition TyCHAR := 3. Definition TyBOOL := 4.
Definition TySTRUC := 5. Definition TyINTR := 6. Definition TyDOTDOTDOT := 7. Definition TyREF := 8. Definition TyNON := 9.
(* namtbl.h:65 *)
Definition NtMAX := 500.

Record entry := Ent { nName : list Z; nScope : Z; nType : Z; nDim : Z; nCnt : Z; nPub : bool }.
Definition table := list entry.
Definition ntGetSize (t : table) : Z := Z.of_nat (List.length t).
(* entry at an index *)
Definition ent (t : table) (i : Z) : option entry :=
  if i <? 0 then None else nth_error t (Z.to_nat i).

(* namtbl.c:46-52: from the end; i = index of the first element of the list *)
Fixpoint srcName (str : list Z) (t : table) (i : Z) : option Z :=
  match t with
  | [] => None
  | e :: t =>
    match srcName str t (i + 1) with
    | Some k => Some k
    | None => if (ScPROT <=? nScope e) && zeqb_list (nName e) str then Some i else None
    end
  end.
Definition ntSrcName (t : table) (str : list Z) : option Z := srcName str t 0.

(* a loop for (i=a; i<b; i++) if (p(entry i)) return i; over the elements of a list whose
   first index is i *)
Fixpoint scan (p : entry -> bool) (t : table) (i : Z) : option Z :=
  match t with
  | [] => None
  | e :: t => if p e then Some i else scan p t (i + 1)
  end.

(* namtbl.c:55-60 *)
Definition ntSrcStruct (t : table) (str : list Z) : Z :=
  match scan (fun e => (nScope e =? ScSTRC) && zeqb_list (nName e) str) t 0 with
  | Some i => - i
  | None => TyNON
  end.

(* namtbl.c:63-68; n = -index of the struct.  The loop runs over the nCnt entries after it.
   FOut: it reads names beyond the end of the table (possible for typedef names, whose
   count is left over from an earlier declaration) *)
Inductive fres := FFound (i : Z) | FNone | FOut.
Definition ntSrcField (t : table) (n : Z) (str : list Z) : fres :=
  match ent t (- n) with
  | Some s =>
    let rest := skipn (S (Z.to_nat (- n))) t in
    match scan (fun e => zeqb_list (nName e) str) (firstn (Z.to_nat (nCnt s)) rest) (- n + 1) with
    | Some i => FFound i
    | None => if nCnt s <=? Z.of_nat (List.length rest) then FNone else FOut
    end
  | None => FOut
  end.

(* namtbl.c:71-78 *)
Definition isGlob (s : Z) : bool :=
  (s =? ScPROT) || (s =? ScFUNC) || (s =? ScCOMM) || (s =? ScGVAR).
Definition ntSrcGlob (t : table) (n : Z) : Z :=
  match ent t n with
  | Some e =>
    match scan (fun e' => isGlob (nScope e') && zeqb_list (nName e') (nName e)) (firstn (Z.to_nat n) t) 0 with
    | Some i => i
    | None => -1
    end
  | None => -1
  end.

(* namtbl.c:81-93 *)
Definition clashes (str : list Z) (scope : Z) (e : entry) : bool :=
  negb (nScope e =? ScVOID) && zeqb_list (nName e) str &&
  ((scope =? ScSTRC) || (nScope e =? ScSTRC) ||
   ((ScLVAR <=? scope) && (nScope e =? scope)) ||
   ((nScope e =? ScPRM) && (scope =? ScLVAR))).
Definition ntChkName (t : table) (str : list Z) (scope : Z) : Z :=
  match scan (clashes str scope) t 0 with Some i => i | None => -1 end.

Inductive nerr := EFull | EDouble.
Inductive nres (A : Type) := NOk (a : A) | NErr (e : nerr).
Arguments NOk {A} a. Arguments NErr {A} e.
(* namtbl.c:100-113: the table and the new entry's index *)
Definition ntDefName (t : table) (name : list Z) (scope type dim cnt : Z) (pub : bool) : nres (table * Z) :=
  if NtMAX <=? ntGetSize t then NErr EFull
  else if 0 <=? ntChkName t name scope then NErr EDouble
  else NOk (t ++ [Ent name scope type dim cnt pub], ntGetSize t).

(* namtbl.c:131-136 *)
Definition ntUndefName (t : table) (idx : Z) : table := firstn (Z.to_nat idx) t.

(* namtbl.c:139-143 *)
Definition voided (e : entry) : entry := Ent (nName e) ScVOID (nType e) (nDim e) (nCnt e) (nPub e).
Definition ntSetVoid (t : table) (idx : Z) : table :=
  firstn (Z.to_nat idx) t ++ map voided (skipn (Z.to_nat idx) t).

(* namtbl.h:98-103 *)
Fixpoint upd (f : entry -> entry) (t : table) (n : nat) : table :=
  match t, n with
  | [], _ => []
  | e :: t, O => f e :: t
  | e :: t, S n => e :: upd f t n
  end.
Definition ntSetScope (t : table) (i s : Z) : table :=
  upd (fun e => Ent (nName e) s (nType e) (nDim e) (nCnt e) (nPub e)) t (Z.to_nat i).
Definition ntSetCnt (t : table) (i c : Z) : table :=
  upd (fun e => Ent (nName e) (nScope e) (nType e) (nDim e) c (nPub e)) t (Z.to_nat i).
