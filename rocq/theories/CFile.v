(* The C translator above the level of function bodies: the declarations, initialisers,
   strings, structures and include lines that src/cCode.c prints (the build without _RTC),
   and the translator from the source text to that text.
   The parser is that of ParserStmt.v; the functions of parser.c that print are repeated here
   with the text they add, as in AsmText.v.
   Simplification: sizeof is evaluated by the parser as in the compiler (parser.c:409-418
   keeps the type and prints "sizeof(..)").  Constants are folded as in the build with NWORD=32
   (COpTree.v). *)
From Coq Require Import ZArith Bool Lia String Ascii List.
From Verif Require Import Lexer NameTable SyTree OpTree COpTree VmCode Parser ParserStmt CCode AsmText.
Import ListNotations.
Open Scope Z_scope.

Local Notation "a +++ b" := (CCode.cat a b) (right associativity, at level 60).
Local Notation lit s := (Some (codes s%string)).

(* ==== declarations ==== *)
(* cCode.c:71-84 with the check of the name table *)
Definition typeText (t : table) (typ : Z) : option (list Z) :=
  if typ =? TyVOID then lit "void " else if typ =? TyINT then lit "int "
  else if typ =? TyBOOL then lit "char " else if typ =? TyCHAR then lit "char "
  else if typ =? TyINTR then None
  else if typ =? TyDOTDOTDOT then lit "..."
  else if (typ <=? 0) && ((typeAt t (- typ) =? TySTRUC) || (typeAt t (- typ) =? TyREF)) then Some (nameAt t (- typ) ++ codes " ")
  else None.
(* cCode.c:110-111: the number of asterisks *)
Definition stars (typ dim : Z) (inst : bool) : nat :=
  Z.to_nat (dim + (if typ <=? 0 then 1 else 0) - (if inst then 1 else 0)).
(* cCode.c:109-117 *)
Definition typeDcl (t : table) (sta : bool) (typ dim : Z) (inst : bool) : option (list Z) :=
  Some (if sta then codes "static " else []) +++ typeText t typ +++ Some (repeat 42 (stars typ dim inst)).
(* cCode.c:121-127 *)
Definition globDcl (t : table) (idx : Z) : option (list Z) :=
  typeDcl t (negb (pubAt t idx)) (typeAt t idx) (dimAt t idx) false +++ Some (nameAt t idx).
(* cCode.c:378-385: parameters i .. i+n-1 *)
Fixpoint paramsText (t : table) (i : Z) (n : nat) : option (list Z) :=
  match n with
  | O => Some []
  | S k =>
    typeDcl t false (typeAt t i) (dimAt t i) false +++
    Some (if typeAt t i =? TyDOTDOTDOT then [] else nameAt t i) +++
    Some (match k with O => [] | _ => codes "," end) +++ paramsText t (i + 1) k
  end.
(* cCode.c:374-387 *)
Definition funcDcl (t : table) (idx : Z) : option (list Z) :=
  globDcl t idx +++ lit "(" +++ paramsText t (idx + 1) (Z.to_nat (cntAt t idx)) +++ lit ")".
(* cCode.c:390-394 *)
Definition protoText (t : table) (idx : Z) : option (list Z) := funcDcl t idx +++ Some (codes ";" ++ eol).
(* the type and dimension of a local variable: parser.c:733 takes them from the name table *)
Definition localType (t : table) (i : Z) : Z * nat := (typeAt t i, Z.to_nat (dimAt t i)).
(* cCode.c:397-406 *)
Definition funcText (t : table) (idx : Z) (root : stmt) : option (list Z) :=
  funcDcl t idx +++ printBody (nameAt t) (localType t) root.
(* cCode.c:626-641: the members idx+1 .. *)
Fixpoint membersText (t : table) (i : Z) (n : nat) : option (list Z) :=
  match n with
  | O => Some []
  | S k => typeDcl t false (typeAt t i) (dimAt t i) false +++ Some (nameAt t i ++ codes ";" ++ eol) +++ membersText t (i + 1) k
  end.
Definition strucText (t : table) (idx : Z) : option (list Z) :=
  Some (codes "typedef struct _" ++ nameAt t idx ++ codes " " ++ nameAt t idx ++ codes ";" ++ eol ++
        codes "struct _" ++ nameAt t idx ++ codes " {" ++ eol) +++
  membersText t (idx + 1) (Z.to_nat (cntAt t idx)) +++ Some (codes "};" ++ eol).
(* cCode.c:583-587 *)
Definition bssText (t : table) (idx : Z) : option (list Z) := globDcl t idx +++ Some (codes ";" ++ eol).
(* cCode.c:616-620 *)
Definition strText (lab : Z) (s : list Z) : list Z := codes "#define " ++ strLab lab ++ codes " " ++ quote s ++ eol.

(* ==== initialised data ==== *)
(* an initial value: a number, a string, a temporary variable or its address, the address
   of a function or variable *)
Inductive citem := IcNum (v : Z) | IcStr (l : Z) | IcTmp (amp : bool) (l : Z) | IcAddr (i : Z).
(* the temporary variables: arrays of n elements without values, arrays with their elements,
   structures; s is the number of asterisks of the type of the elements *)
Inductive cdef :=
| CSpace (l : Z) (s : nat) (n : Z)
| CArr (l : Z) (s : nat) (xs : list citem)
| CObj (l : Z) (s : nat) (xs : list citem).

Section Data.
(* the type of the variable, cCode.c: vType *)
Variable vt : Z.
(* cCode.c:428-438: the elements lab .. lab+n-1; the first one is printed in any case *)
Fixpoint ptrs (n : nat) (lab : Z) : list citem :=
  match n with O => [] | S k => IcTmp false lab :: ptrs k (lab + 1) end.
Definition ptrArray (dim n lab l : Z) : cdef := CArr l (stars vt dim true) (ptrs (Nat.max 1 (Z.to_nat n)) lab).
(* cCode.c:461-464 *)
Fixpoint ptrArrays (cnt : nat) (dim size ln l : Z) : list cdef :=
  match cnt with O => [] | S k => ptrArray dim size ln l :: ptrArrays k dim size (ln + size) (l + 1) end.
(* cCode.c:466-475 *)
Fixpoint spaces (cnt : nat) (dim n l : Z) : list cdef :=
  match cnt with O => [] | S k => CSpace l (stars vt dim true) n :: spaces k dim n (l + 1) end.
(* cCode.c:447-478: the definitions, the first temporary of this dimension, the counter.
   l is the next number (tmpLab); cnt > 0 except when a size is 0 *)
Fixpoint array0 (dim : Z) (d : dat) (cnt l : Z) : option (list cdef * Z * Z) :=
  match d with
  | DSemi lv (DCnst size) =>
    match array0 (dim - 1) lv (cnt * size) l with
    | Some (c, ln, l1) =>
      Some (c ++ ptrArrays (Z.to_nat cnt) dim size ln l1, l1, l1 + Z.max 0 cnt)
    | None => None
    end
  | DCnst n => Some (spaces (Z.to_nat cnt) dim n l, l, l + Z.max 0 cnt)
  | _ => None
  end.
(* cCode.c:497-525: the elements of a list of dimension dim, whose sublists have been given
   their numbers *)
Fixpoint list2 (dim : Z) (d : dat) : option (list citem) :=
  match d with
  | DSemi a b => match list2 dim a, list2 dim b with Some x, Some y => Some (x ++ y) | _, _ => None end
  | DList _ r | DArry _ r => Some [IcTmp ((vt <=? 0) && (dim <=? 1)) r]
  | DCnst v => Some [IcNum v]
  | DStr l => Some [IcStr l]
  | _ => None
  end.
(* cCode.c:529-545 printList1 and 548-562 printList0 (the case of a list) *)
Fixpoint list1 (dim : Z) (d : dat) (l : Z) : option (list cdef * dat * Z) :=
  match d with
  | DSemi a b =>
    match list1 dim a l with
    | Some (c1, a, l) => match list1 dim b l with Some (c2, b, l) => Some (c1 ++ c2, DSemi a b, l) | None => None end
    | None => None
    end
  | DList x _ =>
    match list1 (dim - 1) x l with
    | Some (c, x, l) =>
      match list2 dim x with
      | Some xs =>
        Some (c ++ [if 0 <? dim then CArr l (stars vt dim true) xs else CObj l (stars vt dim true) xs], DList x l, l + 1)
      | None => None
      end
    | None => None
    end
  | DArry x _ => match array0 dim x 1 l with Some (c, ln, l) => Some (c, DArry x ln, l) | None => None end
  | DCnst _ | DStr _ => Some ([], d, l)
  | _ => None
  end.
(* cCode.c:481-494 printArray, 565-577 printList, 580-596 genData: the temporaries, the
   value of the variable, the counter *)
Definition dataC (dim : Z) (root : dat) (l : Z) : option (list cdef * citem * Z) :=
  match root with
  | DArry x _ => match array0 dim x 1 l with Some (c, ln, l) => Some (c, IcTmp false ln, l) | None => None end
  | DList _ _ =>
    match list1 dim root l with
    | Some (c, DList _ r, l) => Some (c, IcTmp (dim <=? 0) r, l)
    | _ => None
    end
  | DCnst v => Some ([], IcNum v, l)
  | DStr s => Some ([], IcStr s, l)
  | DAddr i => Some ([], IcAddr i, l)
  | _ => None
  end.
End Data.

(* cCode.c:50-53 *)
Definition tmpLab (l : Z) : list Z := codes "_cmm_" ++ dec l ++ codes "T".
Definition itemText (nm : Z -> list Z) (x : citem) : list Z :=
  match x with
  | IcNum v => dec v
  | IcStr l => strLab l
  | IcTmp amp l => (if amp then codes "&" else []) ++ tmpLab l
  | IcAddr i => codes "((int)&" ++ nm i ++ codes ")"
  end.
Fixpoint commas (l : list (list Z)) : list Z :=
  match l with [] => [] | [a] => a | a :: r => a ++ codes "," ++ commas r end.
Definition defText (t : table) (vt : Z) (d : cdef) : option (list Z) :=
  let dcl s := lit "static " +++ typeText t vt +++ Some (repeat 42 s) in
  let vals xs := codes "={" ++ commas (map (itemText (nameAt t)) xs) ++ codes "};" ++ eol in
  match d with
  | CSpace l s n => dcl s +++ Some (tmpLab l ++ codes "[" ++ dec n ++ codes "];" ++ eol)
  | CArr l s xs => dcl s +++ Some (tmpLab l ++ codes "[]" ++ vals xs)
  | CObj l s xs => dcl s +++ Some (tmpLab l ++ vals xs)
  end.
Fixpoint defsText (t : table) (vt : Z) (ds : list cdef) : option (list Z) :=
  match ds with [] => Some [] | d :: r => defText t vt d +++ defsText t vt r end.
Definition dataText (t : table) (idx : Z) (ds : list cdef) (x : citem) : option (list Z) :=
  defsText t (typeAt t idx) ds +++ globDcl t idx +++ Some (codes "=" ++ itemText (nameAt t) x ++ codes ";" ++ eol).

(* ==== the numbers of the strings ==== *)
(* genStr, cCode.c:623-629, numbers the strings from 0; in the compiler, whose parser is used
   here, they share the labels of the code *)
Fixpoint strsOf (l : list asm) : list (Z * list Z) :=
  match l with
  | ALab n :: r => match r with AStr s :: _ => (n, s) :: strsOf r | _ => strsOf r end
  | _ :: r => strsOf r
  | [] => []
  end.
Fixpoint rank (l : list (Z * list Z)) (k n : Z) : Z :=
  match l with [] => 0 | (m, _) :: r => if m =? n then k else rank r (k + 1) n end.
Section Rename.
Variable f : Z -> Z.
Fixpoint renE (e : expr) : expr :=
  match e with
  | ELeaf (LStr l) => ELeaf (LStr (f l))
  | EFunc g a => EFunc g (renE a)
  | E1 o a => E1 o (renE a)
  | E2 o a b => E2 o (renE a) (renE b)
  | _ => e
  end.
Fixpoint renS (s : stmt) : stmt :=
  match s with
  | SExpr e => SExpr (renE e)
  | SIf c b => SIf (renE c) (renS b)
  | SEls c a b => SEls (renE c) (renS a) (renS b)
  | SWhl c b r => SWhl (renE c) (renS b) (renE r)
  | SDo b c => SDo (renS b) (renE c)
  | SRet e => SRet (renE e)
  | SSemi a b => SSemi (renS a) (renS b)
  | SBlk a b => SBlk (renS a) (renS b)
  | _ => s
  end.
Fixpoint renD (d : dat) : dat :=
  match d with
  | DStr l => DStr (f l)
  | DSemi a b => DSemi (renD a) (renD b)
  | DList x r => DList (renD x) r
  | DArry x r => DArry (renD x) r
  | _ => d
  end.
End Rename.

(* ==== the translator ==== *)
(* what the translator prints, one piece after the other: an include line (genDirect), a string
   (genStr), a structure (genStrc), a prototype (genProto), a function (genFunc), a variable
   with its initial value (genData) and one without (genBss); with the name table it is
   printed with *)
Inductive cpiece :=
  | PInc (name : list Z)
  | PStr (k : Z) (s : list Z)
  | PStrc (t : table) (idx : Z)
  | PProto (t : table) (idx : Z)
  | PFun (t : table) (idx : Z) (root : stmt)
  | PDat (t : table) (idx : Z) (ds : list cdef) (x : citem)
  | PBss (t : table) (idx : Z).
Definition pieceText (p : cpiece) : option (list Z) :=
  match p with
  | PInc s => Some (codes "#include <" ++ s ++ codes ">" ++ eol)
  | PStr k s => Some (strText k s)
  | PStrc t i => strucText t i
  | PProto t i => protoText t i
  | PFun t i root => funcText t i root
  | PDat t i ds x => dataText t i ds x
  | PBss t i => bssText t i
  end.
Fixpoint textOf (ps : list cpiece) : option (list Z) :=
  match ps with [] => Some [] | p :: r => pieceText p +++ textOf r end.
(* the text so far, inhibitOut (cCode.c:48), strLab, tmpLab *)
Record cst := CSt { cps : list cpiece; inhib : bool; nstr : Z; ntmp : Z }.
Definition put (c : cst) (p : cpiece) : pres cst :=
  if inhib c then POk c
  else match pieceText p with Some _ => POk (CSt (cps c ++ [p]) (inhib c) (nstr c) (ntmp c)) | None => PErr XGen end.
(* the strings read between g0 and g: printed, and their numbers *)
Fixpoint defines (l : list (Z * list Z)) (k : Z) : list cpiece :=
  match l with [] => [] | (_, s) :: r => PStr k s :: defines r (k + 1) end.
Definition putStrs (g0 g : gs) (c : cst) : cst * (Z -> Z) :=
  let l := strsOf (skipn (List.length (outp (ge g0))) (outp (ge g))) in
  if inhib c then (c, fun _ => 0)
  else (CSt (cps c ++ defines l (nstr c)) (inhib c) (nstr c + Z.of_nat (List.length l)) (ntmp c), rank l (nstr c)).

(* cCode.c:644-658 *)
Fixpoint prefix (p s : list Z) : bool :=
  match p, s with
  | [], _ => true
  | a :: p, b :: s => (a =? b) && prefix p s
  | _, [] => false
  end.
Fixpoint contains (p s : list Z) : bool := prefix p s || match s with [] => false | _ :: r => contains p r end.
Definition endsWith (s x : list Z) : bool := prefix (rev x) (rev s).
Fixpoint upTo (c : Z) (s : list Z) : list Z :=
  match s with [] => [] | a :: r => if a =? c then [] else a :: upTo c r end.
Definition baseName (s : list Z) : list Z := rev (upTo 47 (rev s)).
Definition genDirect (i : item) (c : cst) : cst :=
  let '(_, ln, fname, _) := i in
  if contains (codes "/cmmInclude/") fname && endsWith fname (codes ".hmm") then
    CSt (cps c ++ (if ln =? 1 then [PInc (baseName (firstn (List.length fname - 2) fname))] else [])) true (nstr c) (ntmp c)
  else CSt (cps c) false (nstr c) (ntmp c).

Section Translator.
Variables optFlag krnFlag : bool.

(* parser.c:967-1026; getFunc of ParserStmt.v *)
Definition getFuncC (g0 : gs) (x : cst) : pres (gs * cst) :=
  let fi := ntGetSize (gnt g0) - 1 in
  let g := wFunc g0 fi in
  let idx := ntSrcGlob (gnt g) fi in
  let+ _ := perr_if ((0 <=? idx) && ((scopeAt (gnt g) idx =? ScCOMM) || (scopeAt (gnt g) idx =? ScGVAR))) XVarBefore in
  let+ _ := perr_if ((0 <=? idx) &&
                     (negb (typeAt (gnt g) idx =? curType g) || negb (dimAt (gnt g) idx =? curDim g) ||
                      negb (Bool.eqb (pubAt (gnt g) idx) (pubFlag g)))) XFuncType in
  let+ _ := perr_if ((curType g =? TyINTR) && negb (curDim g =? 0)) XIntrArray in
  let g := wScope (wLast (gGetTok g) LxNONTOK) ScPRM in
  let prmIdx := ntGetSize (gnt g) in
  let+ g := getParams krnFlag (idx + 1) g in
  let prmCnt := ntGetSize (gnt g) - prmIdx in
  let+ _ := perr_if ((typeAt (gnt g) fi =? TyINTR) && negb (prmCnt =? 0)) XIntrParam in
  let g := wNt g (ntSetCnt (gnt g) fi prmCnt) in
  let+ _ := perr_if ((0 <=? idx) && negb (cntAt (gnt g) idx =? cntAt (gnt g) fi)) XParamCnt in
  let locIdx := ntGetSize (gnt g) in
  let+ (g, x) :=
    (match gIsTok cLC g with
     | Some g =>
       let g := wScope g ScLVAR in
       let+ _ := perr_if ((0 <=? idx) && negb (scopeAt (gnt g) idx =? ScPROT)) XFuncTwice in
       let g := if 0 <=? idx then wNt g (ntSetScope (gnt g) idx ScFUNC) else g in
       let g := wNt g (ntSetScope (gnt g) fi ScFUNC) in
       let g := wCnt (wMax g 0) 0 in
       let+ (root, g) := getBlock krnFlag (getStat krnFlag) g in
       let+ _ := perr_if ((negb (typeAt (gnt g) fi =? TyVOID) || negb (dimAt (gnt g) fi =? 0)) &&
                          negb (typeAt (gnt g) fi =? TyINTR) && negb (lastStat g =? LxRETURN)) XNoReturn in
       let+ root := (if optFlag then lift_opt (cOptTree root) else POk root) in
       let (x, f) := putStrs g0 g x in
       let+ x := put x (PFun (gnt g) fi (renS f root)) in
       POk (g, x)
     | None =>
       let+ g := gChkTok cSEMI g in
       let+ x := put x (PProto (gnt g) fi) in
       POk (g, x)
     end) in
  POk (if 0 <=? idx then wNt g (ntUndefName (gnt g) fi)
       else wNt g (ntSetVoid (ntUndefName (gnt g) locIdx) prmIdx), x).

(* parser.c:1171-1210; getGVar of ParserStmt.v *)
Definition getGVarC (g0 : gs) (x : cst) : pres (gs * cst) :=
  let ci := ntGetSize (gnt g0) - 1 in
  let idx := ntSrcGlob (gnt g0) ci in
  let+ (g, x) :=
    (match gIsTok cEQ g0 with
     | Some g =>
       let g := wNt g (ntSetScope (gnt g) ci ScGVAR) in
       let+ (d, g) :=
         (if 0 <? curDim g then getGArrayInit (W := W32) (curDim g) g
          else if (curType g =? TyINT) || (curType g =? TyCHAR) || (curType g =? TyBOOL) then getCnst (W := W32) (curType g) g
          else if curType g <=? 0 then getStructInit (W := W32) g
          else PErr XBug) in
       let (x, f) := putStrs g0 g x in
       let+ x :=
         (if inhib x then POk x
          else match dataC (typeAt (gnt g) ci) (dimAt (gnt g) ci) (renD f d) (ntmp x) with
               | Some (ds, v, l) =>
                 let+ x := put x (PDat (gnt g) ci ds v) in
                 POk (CSt (cps x) (inhib x) (nstr x) l)
               | None => PErr XGen
               end) in
       if 0 <=? idx then
         if negb (scopeAt (gnt g) idx =? ScCOMM) then PErr XTwice
         else POk (wNt g (ntUndefName (ntSetScope (gnt g) idx ScGVAR) ci), x)
       else POk (g, x)
     | None =>
       if 0 <=? idx then
         if (scopeAt (gnt g0) idx =? ScCOMM) || (scopeAt (gnt g0) idx =? ScGVAR)
         then POk (wNt g0 (ntUndefName (gnt g0) ci), x)
         else PErr XFuncBefore
       else let+ x := put x (PBss (gnt g0) ci) in POk (g0, x)
     end) in
  let+ _ := perr_if ((0 <=? idx) &&
                     (negb (typeAt (gnt g) idx =? curType g) || negb (dimAt (gnt g) idx =? curDim g) ||
                      negb (Bool.eqb (pubAt (gnt g) idx) (pubFlag g)))) XVarType in
  POk (g, x).
Fixpoint gvarsLoopC (fuel : nat) (g : gs) (x : cst) : pres (gs * cst) :=
  match fuel with
  | O => PFuel
  | S f =>
    match gIsTok cCOMMA g with
    | Some g =>
      let+ (_, g) := getName krnFlag (pubFlag g) g in
      let+ (g, x) := getGVarC g x in
      gvarsLoopC f g x
    | None => POk (g, x)
    end
  end.
(* parser.c:1213-1220 *)
Definition getGVarsC (g : gs) (x : cst) : pres (gs * cst) :=
  let+ (g, x) := getGVarC g x in
  let+ (g, x) := gvarsLoopC (gfuel g) g x in
  let+ g := gChkTok cSEMI g in POk (g, x).
(* parser.c:1223-1258; a structure is printed (parser.c:242-244), a typedef is not *)
Definition getProgC (g : gs) (x : cst) : pres (gs * cst) :=
  let g0 := g in
  let g := wPub g false in
  let g := match gIsTok LxPUBLIC g with Some g => wPub g true | None => g end in
  match gIsTok LxSTRUCT g with
  | Some _ =>
    let+ g := getProg optFlag krnFlag g0 in
    let+ x := put x (PStrc (gnt g) (ntGetSize (gnt g0))) in
    POk (g, x)
  | None =>
  match gIsTok LxTYPEDEF g with
  | Some _ => let+ g := getProg optFlag krnFlag g0 in POk (g, x)
  | None =>
    let g := wScope g ScPROT in
    let+ g := gGetType g in
    let+ (_, g) := getName krnFlag (pubFlag g) g in
    if gtok g =? cLP then getFuncC g x
    else
      let g := wScope (wNt g (ntSetScope (gnt g) (ntGetSize (gnt g) - 1) ScCOMM)) ScCOMM in
      if (curType g =? TyVOID) && (curDim g =? 0) then PErr XVoidVar
      else if curType g =? TyINTR then PErr XIntrVar
      else getGVarsC g x
  end end.
(* the line markers just before the token at which the parser stands: those that psGetSrc
   sees (the others are skipped inside a declaration, parser.c:146-155).
   all: the tokens of the file; rest: those not yet read *)
Fixpoint takeFile (l : list item) : list item :=
  match l with i :: r => if tokOf i =? LxFILE then i :: takeFile r else [] | [] => [] end.
Definition marks (all rest : list item) : list item :=
  rev (takeFile (rev (firstn (List.length all - List.length rest) all))).
(* parser.c:1278-1290 *)
Fixpoint transLoop (all : list item) (fuel : nat) (g : gs) (x : cst) : pres (gs * cst) :=
  match fuel with
  | O => PFuel
  | S f =>
    let x := fold_left (fun x i => genDirect i x) (marks all (its (ge g))) x in
    if gtok g =? EOFtok then POk (g, x) else let+ (g, x) := getProgC g x in transLoop all f g x
  end.
(* main.c: the C text for a source text; None: the file is rejected, or the translator does
   something undefined *)
Definition pieces (file : list Z) : option (list cpiece) :=
  match lexAll file with
  | LOk l =>
    match transLoop l (S (List.length l)) (gInit l) (CSt [] false 0 0) with
    | POk (_, x) => Some (cps x)
    | _ => None
    end
  | _ => None
  end.
Definition translate (file : list Z) : option (list Z) :=
  match pieces file with Some ps => textOf ps | None => None end.
End Translator.
