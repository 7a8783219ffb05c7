(* What the language manual says about expressions (doc/syntax.tex, doc/chap2.tex), stated
   without the parser: tokens, syntax trees, the grammar with its precedence levels, and
   the typing rules with the tree each form is translated to. *)
From Coq Require Import ZArith Bool Lia List.
From Verif Require Import Lexer NameTable SyTree Parser.
Import ListNotations.
Open Scope Z_scope.

(* ==== tokens ==== *)
Inductive stok :=
| TName (n : list Z) | TInt (v : Z) | TChr (v : Z) | TLog (v : Z) | TStr (s : list Z) | TSym (k : Z).

(* the token an item of the lexer stands for *)
Definition own (i : item) : stok :=
  let '(t, v, s, _) := i in
  if t =? LxNAME then TName s
  else if t =? LxINTEGER then TInt v
  else if t =? LxCHARACTER then TChr v
  else if t =? LxLOGICAL then TLog v
  else if t =? LxSTRING then TStr s
  else TSym t.
(* the text as a sequence of tokens: line markers are no tokens *)
Fixpoint view (l : list item) : list stok :=
  match l with
  | [] => []
  | i :: r => if tokOf i =? LxFILE then view r else own i :: view r
  end.

(* ==== trees ==== *)
Inductive unop := UPlus | UMinus | UNot | UBnot.
Inductive tyname := TnInt | TnChar | TnVoid | TnBool | TnIntr | TnUser (n : list Z).
Inductive ast :=
| AName (n : list Z)
| AInt (v : Z) | AChar (v : Z) | ABool (v : Z) | AText (s : list Z) | ANull
| ASizeof (t : tyname) (d : nat)
| AAddrof (n : list Z)
| AOrd (e : ast) | AChr (e : ast) | ABoolOf (e : ast)
| AUn (u : unop) (e : ast)
| ABin (o : op2) (a b : ast)
| AAssign (a b : ast)
| AComma (a b : ast)
| AIndex (a i : ast)
| ADot (a : ast) (f : list Z)
| ACall (f : list Z) (args : list ast).

(* ==== grammar ==== *)
(* binary operators by level: 2 is the loosest, 11 the tightest; all associate to the left *)
Definition levelOps (k : nat) : list (Z * op2) :=
  match k with
  | 2 => [(LxOR, OR)]
  | 3 => [(LxAND, AND)]
  | 4 => [(cBAR, BOR)]
  | 5 => [(cHAT, BXOR)]
  | 6 => [(cAMP, BAND)]
  | 7 => [(LxEQU, EQU); (LxNEQ, NEQ)]
  | 8 => [(cLT, LT); (LxLTE, LE); (cGT, GT); (LxGTE, GE)]
  | 9 => [(LxSHL, SHL); (LxSHR, SHR)]
  | 10 => [(cPLUS, ADD); (cMINUS, SUB)]
  | 11 => [(cSTAR, MUL); (cSLASH, DIV); (cPERCENT, MOD)]
  | _ => []
  end%nat.
Definition unTok (u : unop) : Z :=
  match u with UPlus => cPLUS | UMinus => cMINUS | UNot => cBANG | UBnot => cTILDE end.
Definition tyTok (t : tyname) : stok :=
  match t with
  | TnInt => TSym LxINT | TnChar => TSym LxCHAR | TnVoid => TSym LxVOID | TnBool => TSym LxBOOL
  | TnIntr => TSym LxINTR | TnUser n => TName n
  end.
Fixpoint brackets (d : nat) : list stok :=
  match d with O => [] | S k => TSym cLB :: TSym cRB :: brackets k end.

(* derives k e ts: the tokens ts are an expression of level k (0 comma, 1 assignment, 2..11
   binary operators, 12 unary, 13 postfix) and mean the tree e *)
Inductive derives : nat -> ast -> list stok -> Prop :=
| d_up k e ts : (k < 13)%nat -> derives (S k) e ts -> derives k e ts
| d_comma a b ta tb : derives 0 a ta -> derives 1 b tb -> derives 0 (AComma a b) (ta ++ TSym cCOMMA :: tb)
| d_assign a b ta tb : derives 2 a ta -> derives 1 b tb -> derives 1 (AAssign a b) (ta ++ TSym cEQ :: tb)
| d_bin k t o a b ta tb :
    In (t, o) (levelOps k) -> derives k a ta -> derives (S k) b tb ->
    derives k (ABin o a b) (ta ++ TSym t :: tb)
| d_un u e ts : derives 12 e ts -> derives 12 (AUn u e) (TSym (unTok u) :: ts)
| d_index a i ta ti :
    derives 13 a ta -> derives 1 i ti -> derives 13 (AIndex a i) (ta ++ TSym cLB :: ti ++ [TSym cRB])
| d_dot a f ta : derives 13 a ta -> derives 13 (ADot a f) (ta ++ [TSym cDOT; TName f])
| d_paren e ts : derives 0 e ts -> derives 13 e (TSym cLP :: ts ++ [TSym cRP])
| d_name n : derives 13 (AName n) [TName n]
| d_call0 f : derives 13 (ACall f []) [TName f; TSym cLP; TSym cRP]
| d_call f args ts : derives_args args ts -> derives 13 (ACall f args) (TName f :: TSym cLP :: ts ++ [TSym cRP])
| d_int v : derives 13 (AInt v) [TInt v]
| d_char v : derives 13 (AChar v) [TChr v]
| d_bool v : derives 13 (ABool v) [TLog v]
| d_str s : derives 13 (AText s) [TStr s]
| d_null : derives 13 ANull [TSym LxNUL]
| d_sizeof t d : derives 13 (ASizeof t d) (TSym LxSIZEOF :: TSym cLP :: tyTok t :: brackets d ++ [TSym cRP])
| d_addrof n : derives 13 (AAddrof n) [TSym LxADDROF; TSym cLP; TName n; TSym cRP]
| d_ord e ts : derives 0 e ts -> derives 13 (AOrd e) (TSym LxORD :: TSym cLP :: ts ++ [TSym cRP])
| d_chr e ts : derives 0 e ts -> derives 13 (AChr e) (TSym LxCHR :: TSym cLP :: ts ++ [TSym cRP])
| d_boolof e ts : derives 0 e ts -> derives 13 (ABoolOf e) (TSym LxBOL :: TSym cLP :: ts ++ [TSym cRP])
(* one or more arguments separated by commas *)
with derives_args : list ast -> list stok -> Prop :=
| da_one e ts : derives 1 e ts -> derives_args [e] ts
| da_more e r te tr : derives 1 e te -> derives_args r tr -> derives_args (e :: r) (te ++ TSym cCOMMA :: tr).

(* ==== types ==== *)
(* a type is a basic type code or minus the index of a struct, with a number of dimensions *)
Definition intLike (t d : Z) : Prop := (t = TyINT \/ t = TyCHAR) /\ d = 0.
(* a value of type (t, d) may be given to a variable of type (t0, d0): the same type; a
   char to an int; void[] to and from any array; void[] to and from a struct reference *)
Definition fits (t d t0 d0 : Z) : Prop :=
  (t = t0 /\ d = d0) \/
  (t = TyCHAR /\ d = 0 /\ t0 = TyINT /\ d0 = 0) \/
  (t = TyVOID /\ 0 < d /\ 0 < d0) \/ (t0 = TyVOID /\ 0 < d0 /\ 0 < d) \/
  (t = TyVOID /\ d = 1 /\ t0 <= 0) \/ (t0 = TyVOID /\ d0 = 1 /\ t <= 0).
(* what == and != accept: as above, but with char read as int on both sides *)
Definition asInt (t : Z) : Z := if t =? TyCHAR then TyINT else t.
Definition comparable (t1 d1 t2 d2 : Z) : Prop := fits (asInt t2) d2 (asInt t1) d1.

(* which tree operator an index expression becomes *)
Definition indexOp (t d : Z) (o : op2) : Prop :=
  (0 < d \/ t <= 0) /\ o = IDXR \/
  d = 0 /\ (t = TyINT /\ o = IDXI \/ t = TyCHAR /\ o = IDXC \/ t = TyBOOL /\ o = IDXB).

(* the strings of an expression, in order of appearance; each gets one label *)
Fixpoint strings (e : ast) : list (list Z) :=
  match e with
  | AText s => [s]
  | AOrd e | AChr e | ABoolOf e | AUn _ e | ADot e _ => strings e
  | ABin _ a b | AAssign a b | AComma a b | AIndex a b => strings a ++ strings b
  | ACall _ args => flat_map strings args
  | _ => []
  end.
Definition nstr (e : ast) : Z := Z.of_nat (List.length (strings e)).
Fixpoint strOut (l : Z) (ss : list (list Z)) : list asm :=
  match ss with [] => [] | s :: r => ALab (l + 1) :: AStr s :: strOut (l + 1) r end.

Definition arith (o : op2) : Prop := In o [MUL; DIV; MOD; ADD; SUB; SHL; SHR; BAND; BXOR; BOR].
Definition order (o : op2) : Prop := In o [LT; LE; GT; GE].

Definition tyCode (nt : table) (t : tyname) : Z :=
  match t with
  | TnInt => TyINT | TnChar => TyCHAR | TnVoid => TyVOID | TnBool => TyBOOL | TnIntr => TyINTR
  | TnUser n => ntSrcStruct nt n
  end.
(* sizes in bytes, with 16-bit words *)
Definition sizeOf (nt : table) (t : Z) (d : nat) : Z :=
  match d with
  | O => if t <=? 0 then 2 * cntAt nt (- t) else if (t =? TyCHAR) || (t =? TyBOOL) then 1 else 2
  | S _ => 2
  end.

Section Types.
Variable nt : table.
(* has l e t d lv x: with l labels used before, the expression e has type (t, d), is
   assignable iff lv, and is translated to the tree x *)
Inductive has : Z -> ast -> Z -> Z -> bool -> expr -> Prop :=
| h_var l n i k :
    ntSrcName nt n = Some i ->
    ((scopeAt nt i = ScCOMM \/ scopeAt nt i = ScGVAR) /\ k = LGlb i \/
     scopeAt nt i = ScLVAR /\ k = LLoc i \/ scopeAt nt i = ScPRM /\ k = LPrm i) ->
    has l (AName n) (typeAt nt i) (dimAt nt i) true (ELeaf k)
| h_int l v : has l (AInt v) TyINT 0 false (Cnst v)
| h_char l v : has l (AChar v) TyCHAR 0 false (Cnst v)
| h_bool l v : has l (ABool v) TyBOOL 0 false (Cnst v)
| h_str l s : has l (AText s) TyCHAR 1 false (ELeaf (LStr (l + 1)))
| h_null l : has l ANull TyVOID 1 false (Cnst 0)
| h_sizeof l t d :
    tyCode nt t <> TyNON ->
    ~ (tyCode nt t <= 0 /\ typeAt nt (- tyCode nt t) = TyREF) ->
    has l (ASizeof t d) TyINT 0 false (Cnst (sizeOf nt (tyCode nt t) d))
| h_addrof l n i : ntSrcName nt n = Some i -> isGlob (scopeAt nt i) = true ->
    has l (AAddrof n) TyINT 0 false (ELeaf (LAddr i))
| h_ord l e t lv x : has l e t 0 lv x -> t = TyCHAR \/ t = TyBOOL -> has l (AOrd e) TyINT 0 false x
| h_chr l e lv x : has l e TyINT 0 lv x -> has l (AChr e) TyCHAR 0 false (E1 CHR x)
| h_boolof l e lv x : has l e TyINT 0 lv x -> has l (ABoolOf e) TyBOOL 0 false (E1 BOOL x)
| h_plus l e t d lv x : has l e t d lv x -> intLike t d -> has l (AUn UPlus e) TyINT 0 false x
| h_minus l e t d lv x : has l e t d lv x -> intLike t d -> has l (AUn UMinus e) TyINT 0 false (E1 NEG x)
| h_bnot l e t d lv x : has l e t d lv x -> intLike t d -> has l (AUn UBnot e) TyINT 0 false (E1 BNOT x)
| h_not l e lv x : has l e TyBOOL 0 lv x -> has l (AUn UNot e) TyBOOL 0 false (E1 NOT x)
| h_arith l o a b t1 d1 l1 x1 t2 d2 l2 x2 :
    arith o -> has l a t1 d1 l1 x1 -> intLike t1 d1 -> has (l + nstr a) b t2 d2 l2 x2 -> intLike t2 d2 ->
    has l (ABin o a b) TyINT 0 false (E2 o x1 x2)
| h_order l o a b t1 d1 l1 x1 t2 d2 l2 x2 :
    order o -> has l a t1 d1 l1 x1 -> intLike t1 d1 -> has (l + nstr a) b t2 d2 l2 x2 -> intLike t2 d2 ->
    has l (ABin o a b) TyBOOL 0 false (E2 o x1 x2)
| h_equ l o a b t1 d1 l1 x1 t2 d2 l2 x2 :
    o = EQU \/ o = NEQ -> has l a t1 d1 l1 x1 -> has (l + nstr a) b t2 d2 l2 x2 -> comparable t1 d1 t2 d2 ->
    has l (ABin o a b) TyBOOL 0 false (E2 o x1 x2)
| h_logic l o a b l1 x1 l2 x2 :
    o = AND \/ o = OR -> has l a TyBOOL 0 l1 x1 -> has (l + nstr a) b TyBOOL 0 l2 x2 ->
    has l (ABin o a b) TyBOOL 0 false (E2 o x1 x2)
| h_assign l a b t d x1 t2 d2 l2 x2 :
    has l a t d true x1 -> has (l + nstr a) b t2 d2 l2 x2 -> fits t2 d2 t d ->
    has l (AAssign a b) t d false (E2 ASS x1 x2)
| h_comma l a b t1 d1 l1 x1 t2 d2 l2 x2 :
    has l a t1 d1 l1 x1 -> has (l + nstr a) b t2 d2 l2 x2 ->
    has l (AComma a b) t2 d2 false (E2 COMM x1 x2)
| h_index l a i t d l1 x1 l2 x2 o :
    has l a t (d + 1) l1 x1 -> 0 <= d -> has (l + nstr a) i TyINT 0 l2 x2 -> indexOp t d o ->
    has l (AIndex a i) t d true (E2 o x1 x2)
| h_dot l a f t d l1 x1 i :
    has l a t d l1 x1 -> t <= 0 -> d <= 0 -> ntSrcField nt t f = FFound i ->
    has l (ADot a f) (typeAt nt i) (dimAt nt i) true (E2 DOT x1 (Cnst i))
| h_call l f args i x :
    ntSrcName nt f = Some i -> scopeAt nt i = ScPROT \/ scopeAt nt i = ScFUNC -> typeAt nt i <> TyINTR ->
    passes l args (i + 1) (i + cntAt nt i) ENull x ->
    has l (ACall f args) (typeAt nt i) (dimAt nt i) false (EFunc i x)
(* passes l args p last acc x: the arguments fit the parameters p .. last; acc is the tree
   of the arguments before, x the tree of all.  A last parameter of type TyDOTDOTDOT takes
   any number of non-void arguments. *)
with passes : Z -> list ast -> Z -> Z -> expr -> expr -> Prop :=
| p_done l p last acc : last < p \/ typeAt nt p = TyDOTDOTDOT -> passes l [] p last acc acc
| p_arg l e r p last acc t d lv x y :
    p <= last -> typeAt nt p <> TyDOTDOTDOT -> has l e t d lv x -> fits t d (typeAt nt p) (dimAt nt p) ->
    passes (l + nstr e) r (p + 1) last (catE acc x) y ->
    passes l (e :: r) p last acc y
| p_more l e r p last acc t d lv x y :
    p <= last -> typeAt nt p = TyDOTDOTDOT -> has l e t d lv x -> ~ (t = TyVOID /\ d = 0) ->
    passes (l + nstr e) r p last (catE acc x) y ->
    passes l (e :: r) p last acc y.
End Types.

(* ==== the lexer's side ==== *)
(* tokens whose spelling or value the parser asks for after it has read one token more *)
Definition valued (t : Z) : bool :=
  (t =? LxNAME) || (t =? LxSTRING) || (t =? LxINTEGER) || (t =? LxCHARACTER) || (t =? LxLOGICAL).
(* signs and the end of the file: tokens that come without a spelling or value *)
Definition sign (t : Z) : bool :=
  negb ((1 <=? t) && (t <=? LxTYPEDEF)) && negb (valued t) && negb (t =? LxFILE).
Definition strOf (i : item) : list Z := let '(_, _, s, _) := i in s.
Definition valOf (i : item) : Z := let '(_, v, _, _) := i in v.
(* after a name or literal comes no line marker, and a sign leaves spelling and value alone *)
Fixpoint steady (l : list item) : Prop :=
  match l with
  | i :: r =>
    match r with
    | j :: _ => (valued (tokOf i) = true ->
                 tokOf j <> LxFILE /\ (sign (tokOf j) = true -> strOf j = strOf i /\ valOf j = valOf i))
    | [] => valued (tokOf i) = false
    end /\ steady r
  | [] => True
  end.
