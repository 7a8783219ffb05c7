(* What the language manual says about source files (doc/syntax.tex, doc/chap3.tex), stated
   without the parser: structs, type names, functions, global variables with initial values.
   Statements: StmtSpec.v, expressions: ParseSpec.v.  The code of a function and the data of
   an initial value are those of the tree (VmCode.v, genData; their meaning: C20, C23). *)
From Coq Require Import ZArith Bool Lia List.
From Verif Require Import Lexer NameTable SyTree OpTree VM VmCode Parser ParserStmt ParseSpec StmtSpec.
Import ListNotations.
Open Scope Z_scope.

(* ==== trees ==== *)
(* a parameter: type, dimension, name *)
Definition param : Type := (tyname * nat * list Z)%type.
(* how a parameter list ends: with the last parameter, with a comma after it, with ... *)
Inductive ptail := PEnd | PComma | PDots.
(* the initial value of a global variable *)
Inductive gini :=
| GExp (e : ast)
| GNull
| GStr (s : list Z)
| GArray (ns : list ast)
| GBraces (xs : list gini).
(* fields of one type *)
Record fline := FLine { flT : tyname; flD : nat; flN : list (list Z) }.
Inductive top :=
| PStruct (nm : list Z) (fs : list fline)
| PTypedef (nm : list Z)
| PFunc (pub : bool) (t : tyname) (d : nat) (nm : list Z) (ps : list param) (k : ptail) (body : option sseq)
| PVars (pub : bool) (t : tyname) (d : nat) (vs : list (list Z * option gini)).

(* ==== grammar ==== *)
(* x , x , .. , x *)
Inductive commas {A} (der : A -> list stok -> Prop) : list A -> list stok -> Prop :=
| cm_one x ts : der x ts -> commas der [x] ts
| cm_more x r tx tr : der x tx -> commas der r tr -> commas der (x :: r) (tx ++ TSym cCOMMA :: tr).
Definition paramToks (p : param) : list stok := let '(t, d, n) := p in tyTok t :: brackets d ++ [TName n].
Inductive derives_params : list param -> ptail -> list stok -> Prop :=
| dp_none : derives_params [] PEnd []
| dp_dots : derives_params [] PDots [TSym LxDOTDOTDOT]
| dp_last p : derives_params [p] PEnd (paramToks p)
| dp_comma p : derives_params [p] PComma (paramToks p ++ [TSym cCOMMA])
| dp_more p ps k ts : ps <> [] \/ k = PDots -> derives_params ps k ts ->
    derives_params (p :: ps) k (paramToks p ++ TSym cCOMMA :: ts).
Inductive derives_gini : gini -> list stok -> Prop :=
| dg_exp e ts : derives 1 e ts -> derives_gini (GExp e) ts
| dg_null : derives_gini GNull [TSym LxNUL]
| dg_str s : derives_gini (GStr s) [TStr s]
| dg_array ns ts : commas (derives 1) ns ts -> derives_gini (GArray ns) (TSym LxARRAY :: TSym cLP :: ts ++ [TSym cRP])
| dg_braces xs ts : derives_ginis xs ts -> derives_gini (GBraces xs) (TSym cLC :: ts ++ [TSym cRC])
with derives_ginis : list gini -> list stok -> Prop :=
| dgs_one x ts : derives_gini x ts -> derives_ginis [x] ts
| dgs_more x r tx tr : derives_gini x tx -> derives_ginis r tr -> derives_ginis (x :: r) (tx ++ TSym cCOMMA :: tr).
Inductive derives_gvar : list Z * option gini -> list stok -> Prop :=
| dgv_plain n : derives_gvar (n, None) [TName n]
| dgv_init n x ts : derives_gini x ts -> derives_gvar (n, Some x) (TName n :: TSym cEQ :: ts).
Definition derives_name (n : list Z) (ts : list stok) : Prop := ts = [TName n].
Inductive derives_fline : fline -> list stok -> Prop :=
| df t d ns ts : commas derives_name ns ts -> derives_fline (FLine t d ns) (tyTok t :: brackets d ++ ts ++ [TSym cSEMI]).
Inductive derives_flines : list fline -> list stok -> Prop :=
| dfs_one f ts : derives_fline f ts -> derives_flines [f] ts
| dfs_more f r tf tr : derives_fline f tf -> derives_flines r tr -> derives_flines (f :: r) (tf ++ tr).
Definition pubToks (pub : bool) : list stok := if pub then [TSym LxPUBLIC] else [].
Inductive derives_body : option sseq -> list stok -> Prop :=
| db_none : derives_body None [TSym cSEMI]
| db_some q ts : qder q ts -> derives_body (Some q) (TSym cLC :: ts ++ [TSym cRC]).
Inductive derives_top : top -> list stok -> Prop :=
| dt_struct n fs ts : derives_flines fs ts ->
    derives_top (PStruct n fs) (TSym LxSTRUCT :: TName n :: TSym cLC :: ts ++ [TSym cRC; TSym cSEMI])
| dt_typedef n : derives_top (PTypedef n) [TSym LxTYPEDEF; TName n; TSym cSEMI]
| dt_func pub t d n ps k b tp tb : derives_params ps k tp -> derives_body b tb ->
    derives_top (PFunc pub t d n ps k b) (pubToks pub ++ tyTok t :: brackets d ++ TName n :: TSym cLP :: tp ++ TSym cRP :: tb)
| dt_vars pub t d vs ts : commas derives_gvar vs ts ->
    derives_top (PVars pub t d vs) (pubToks pub ++ tyTok t :: brackets d ++ ts ++ [TSym cSEMI]).
Inductive derives_prog : list top -> list stok -> Prop :=
| dpr_nil : derives_prog [] []
| dpr_cons x p tx tp : derives_top x tx -> derives_prog p tp -> derives_prog (x :: p) (tx ++ tp).

(* ==== strings, in order of appearance ==== *)
Fixpoint stringsG (x : gini) : list (list Z) :=
  match x with
  | GExp e => strings e
  | GNull => []
  | GStr s => [s]
  | GArray ns => flat_map strings ns
  | GBraces xs => flat_map stringsG xs
  end.

(* ==== rules ==== *)
(* the state between declarations: names, labels used, count and dimension left by the last
   declaration (they are copied into the entry of the next struct, type name, function or
   global variable), the labels of the loop compiled last, the output *)
Record tenv := TEnv { tN : table; tL : Z; tC : Z; tD : Z; tB : Z; tK : Z; tO : list asm }.
Definition tenv0 : tenv := TEnv [] 0 0 0 0 0 [].

(* the earlier global declaration of a name *)
Definition prior (n : table) (nm : list Z) : option Z :=
  scan (fun e => isGlob (nScope e) && zeqb_list (nName e) nm) n 0.
Definition agrees (n : table) (i t d : Z) (pub : bool) : Prop := typeAt n i = t /\ dimAt n i = d /\ pubAt n i = pub.

(* ---- structs ---- *)
Inductive okNames (t d : Z) : table -> Z -> list (list Z) -> table -> Z -> Prop :=
| on_nil n c : okNames t d n c [] n c
| on_cons n c nm r n1 i n' c' : ntDefName n nm ScFLD t d c false = NOk (n1, i) -> okNames t d n1 (c + 1) r n' c' ->
    okNames t d n c (nm :: r) n' c'.
Inductive okFlines : table -> Z -> Z -> list fline -> table -> Z -> Z -> Prop :=
| ofl_nil n c d : okFlines n c d [] n c d
| ofl_cons n c d0 t d ns r n1 c1 n' c' d' :
    varType (tyCode n t) (Z.of_nat d) -> okNames (tyCode n t) (Z.of_nat d) n c ns n1 c1 ->
    okFlines n1 c1 (Z.of_nat d) r n' c' d' -> okFlines n c d0 (FLine t d ns :: r) n' c' d'.

(* ---- parameters ---- *)
(* when the function was declared before (at prev), its parameters are the same *)
Definition likePrev (n : table) (prev : option Z) (c t d : Z) : Prop :=
  match prev with Some i => typeAt n (i + 1 + c) = t /\ dimAt n (i + 1 + c) = d | None => True end.
(* okParams prev n c d0 ps k n' c' d': c parameters precede; c' and d' the count and the
   dimension left over *)
Inductive okParams (prev : option Z) : table -> Z -> Z -> list param -> ptail -> table -> Z -> Z -> Prop :=
| op_none n c d0 : okParams prev n c d0 [] PEnd n c d0
| op_dots n c d0 n' i : likePrev n prev c TyDOTDOTDOT 0 -> ntDefName n [] ScPRM TyDOTDOTDOT 0 c false = NOk (n', i) ->
    okParams prev n c d0 [] PDots n' c 0
| op_last n c d0 t d nm n' i : varType (tyCode n t) (Z.of_nat d) -> likePrev n prev c (tyCode n t) (Z.of_nat d) ->
    ntDefName n nm ScPRM (tyCode n t) (Z.of_nat d) c false = NOk (n', i) ->
    okParams prev n c d0 [(t, d, nm)] PEnd n' c (Z.of_nat d)
| op_comma n c d0 t d nm n' i : varType (tyCode n t) (Z.of_nat d) -> likePrev n prev c (tyCode n t) (Z.of_nat d) ->
    ntDefName n nm ScPRM (tyCode n t) (Z.of_nat d) c false = NOk (n', i) ->
    okParams prev n c d0 [(t, d, nm)] PComma n' (c + 1) (Z.of_nat d)
| op_more n c d0 t d nm ps k n1 i n' c' d' : varType (tyCode n t) (Z.of_nat d) -> likePrev n prev c (tyCode n t) (Z.of_nat d) ->
    ntDefName n nm ScPRM (tyCode n t) (Z.of_nat d) c false = NOk (n1, i) ->
    ps <> [] \/ k = PDots -> okParams prev n1 (c + 1) (Z.of_nat d) ps k n' c' d' ->
    okParams prev n c d0 ((t, d, nm) :: ps) k n' c' d'.

(* ---- initial values ---- *)
(* a constant: a number, the address of a name, a string *)
Inductive okConst {W : word} (n : table) (t l : Z) (e : ast) : dat -> Prop :=
| ok_num t2 d2 lv x v : has n l e t2 d2 lv x -> fits t2 d2 t 0 -> wOptExp x = Ok (Cnst v) -> okConst n t l e (DCnst v)
| ok_adr t2 d2 lv x i : has n l e t2 d2 lv x -> fits t2 d2 t 0 -> wOptExp x = Ok (ELeaf (LAddr i)) -> okConst n t l e (DAddr i)
| ok_str t2 d2 lv x s : has n l e t2 d2 lv x -> fits t2 d2 t 0 -> wOptExp x = Ok (ELeaf (LStr s)) -> okConst n t l e (DStr s).
(* the sizes of array(..): at most as many as dimensions *)
Inductive okSizes {W : word} (n : table) : Z -> Z -> list ast -> dat -> Z -> Prop :=
| oz_one d l e a : 0 < d -> okConst n TyINT l e a -> 0 < dLVal a -> okSizes n d l [e] a (l + nstr e)
| oz_more d l e r a b l' : 0 < d -> okConst n TyINT l e a -> 0 < dLVal a -> r <> [] -> okSizes n (d - 1) (l + nstr e) r b l' ->
    okSizes n d l (e :: r) (catD b a) l'.
Definition base (t : Z) : Prop := t = TyINT \/ t = TyCHAR \/ t = TyBOOL.
(* the value of the field whose entry is i *)
Inductive okField {W : word} (n : table) (i : Z) : Z -> gini -> dat -> Z -> Prop :=
| of_ref l : typeAt n i <= 0 -> okField n i l GNull (DCnst 0) l
| of_null l : 0 < typeAt n i -> 0 < dimAt n i -> okField n i l GNull (DCnst 0) l
| of_str l s : typeAt n i = TyCHAR -> dimAt n i = 1 -> okField n i l (GStr s) (DStr (l + 1)) (l + 1)
| of_const l e a : base (typeAt n i) -> dimAt n i <= 0 -> okConst n (typeAt n i) l e a -> okField n i l (GExp e) a (l + nstr e).
(* the entry i is a field (of the struct whose entry precedes) *)
Definition isField (n : table) (i : Z) : Prop := i < ntGetSize n /\ scopeAt n i = ScVOID.
(* one value for each field from i on *)
Inductive okFields {W : word} (n : table) : Z -> Z -> dat -> list gini -> dat -> Z -> Prop :=
| ofs_last i l acc x a l' : isField n i -> okField n i l x a l' -> ~ isField n (i + 1) ->
    okFields n i l acc [x] (catD acc a) l'
| ofs_more i l acc x a l1 r y l' : isField n i -> okField n i l x a l1 -> r <> [] ->
    okFields n (i + 1) l1 (catD acc a) r y l' -> okFields n i l acc (x :: r) y l'.
(* the value of a variable (or element) of type (t, d) *)
Inductive okIn {W : word} (n : table) (t : Z) : Z -> Z -> gini -> dat -> Z -> Prop :=
| in_const l e a : base t -> okConst n t l e a -> okIn n t 0 l (GExp e) a (l + nstr e)
| in_ref l : t <= 0 -> okIn n t 0 l GNull (DCnst 0) l
| in_struct l xs y l' : t <= 0 -> okFields n (- t + 1) l DNull xs y l' -> okIn n t 0 l (GBraces xs) (DList y 0) l'
| in_null d l : 0 < d -> okIn n t d l GNull (DCnst 0) l
| in_str l s : t = TyCHAR -> okIn n t 1 l (GStr s) (DStr (l + 1)) (l + 1)
| in_array d l ns a l' : 0 < d -> okSizes n d l ns a l' -> okIn n t d l (GArray ns) (DArry a (byteDim t d)) l'
| in_list d l xs y l' : 0 < d -> okIns n t (d - 1) l DNull xs y l' -> okIn n t d l (GBraces xs) (DList y (byteDim t d)) l'
with okIns {W : word} (n : table) (t : Z) : Z -> Z -> dat -> list gini -> dat -> Z -> Prop :=
| ins_nil d l acc : okIns n t d l acc [] acc l
| ins_cons d l acc x a l1 r y l' : okIn n t d l x a l1 -> okIns n t d l1 (catD acc a) r y l' ->
    okIns n t d l acc (x :: r) y l'.

Section Flags.
Variables opt krn : bool.      (* the options -O and -K *)

(* ---- global variables ---- *)
Inductive okGVar (t d : Z) (pub : bool) : tenv -> list Z * option gini -> tenv -> Prop :=
(* a first declaration reserves storage *)
| ogv_new n l c k b kk o nm n1 ci :
    ntDefName n nm ScCOMM t d c pub = NOk (n1, ci) -> prior n nm = None ->
    okGVar t d pub (TEnv n l c k b kk o) (nm, None) (TEnv n1 l c k b kk (o ++ [ANam ci; AWs 1]))
(* a repeated one changes nothing *)
| ogv_again n l c k b kk o nm n1 ci i :
    ntDefName n nm ScCOMM t d c pub = NOk (n1, ci) -> prior n nm = Some i ->
    scopeAt n i = ScCOMM \/ scopeAt n i = ScGVAR -> agrees n i t d pub ->
    okGVar t d pub (TEnv n l c k b kk o) (nm, None) (TEnv n l c k b kk o)
| ogv_init n l c k b kk o nm n1 ci x a l1 code l2 :
    ntDefName n nm ScGVAR t d c pub = NOk (n1, ci) -> prior n nm = None ->
    okIn n1 t d l x a l1 -> genData ci d a l1 = Some (code, l2) ->
    okGVar t d pub (TEnv n l c k b kk o) (nm, Some x) (TEnv n1 l2 c k b kk (o ++ strOut l (stringsG x) ++ code))
(* after a declaration without value *)
| ogv_late n l c k b kk o nm n1 ci i x a l1 code l2 :
    ntDefName n nm ScGVAR t d c pub = NOk (n1, ci) -> prior n nm = Some i -> scopeAt n i = ScCOMM -> agrees n i t d pub ->
    okIn n1 t d l x a l1 -> genData ci d a l1 = Some (code, l2) ->
    okGVar t d pub (TEnv n l c k b kk o) (nm, Some x)
      (TEnv (ntSetScope n i ScGVAR) l2 c k b kk (o ++ strOut l (stringsG x) ++ code)).
Inductive okGVars (t d : Z) (pub : bool) : tenv -> list (list Z * option gini) -> tenv -> Prop :=
| ogs_nil T : okGVars t d pub T [] T
| ogs_cons T v T1 r T2 : okGVar t d pub T v T1 -> okGVars t d pub T1 r T2 -> okGVars t d pub T (v :: r) T2.

(* ---- functions ---- *)
(* the table after a function: a repeated declaration is forgotten, the locals are gone and
   the parameters invisible *)
Definition settle (prev : option Z) (fi prm loc : Z) (n : table) : table :=
  match prev with
  | Some _ => ntUndefName n fi
  | None => ntSetVoid (ntUndefName n loc) prm
  end.
(* the table inside the body: the function counts as defined *)
Definition enter (prev : option Z) (fi : Z) (n : table) : table :=
  ntSetScope (match prev with Some i => ntSetScope n i ScFUNC | None => n end) fi ScFUNC.
(* okHead .. n2: the header obeys the rules, n2 the names with the parameters *)
Record okHead (n : table) (c0 : Z) (pub : bool) (t d : Z) (nm : list Z) (ps : list param) (k : ptail)
              (prev : option Z) (fi : Z) (n2 : table) (c d2 prm : Z) : Prop := OkHead {
  h_type : t <> TyNON /\ (t = TyINTR -> krn = true /\ d = 0 /\ prm = 0);
  h_prev : prev = prior n nm;
  h_same : forall i, prev = Some i -> scopeAt n i <> ScCOMM /\ scopeAt n i <> ScGVAR /\ agrees n i t d pub;
  h_prms : exists n1, ntDefName n nm ScPROT t d c0 pub = NOk (n1, fi) /\ okParams prev n1 0 d ps k n2 c d2;
  h_cnt : prm = ntGetSize n2 - fi - 1;
  h_many : forall i, prev = Some i -> cntAt n i = prm }.
Inductive okTop : tenv -> top -> tenv -> Prop :=
| ot_struct n l c d b k o nm fs n1 i n2 c2 d2 :
    ntDefName n nm ScSTRC TySTRUC d c false = NOk (n1, i) -> okFlines n1 0 d fs n2 c2 d2 ->
    okTop (TEnv n l c d b k o) (PStruct nm fs)
      (TEnv (ntSetCnt (ntSetVoid n2 (i + 1)) i (ntGetSize n2 - i - 1)) l c2 d2 b k o)
| ot_typedef n l c d b k o nm n1 i :
    ntDefName n nm ScSTRC TyREF d c false = NOk (n1, i) ->
    okTop (TEnv n l c d b k o) (PTypedef nm) (TEnv n1 l c d b k o)
| ot_vars n l c d0 b k o pub t d vs T' :
    varType (tyCode n t) (Z.of_nat d) ->
    okGVars (tyCode n t) (Z.of_nat d) pub (TEnv n l c (Z.of_nat d) b k o) vs T' ->
    okTop (TEnv n l c d0 b k o) (PVars pub t d vs) T'
| ot_proto n l c0 d0 b k o pub t d nm ps e prev fi n2 c d2 prm :
    okHead n c0 pub (tyCode n t) (Z.of_nat d) nm ps e prev fi n2 c d2 prm ->
    okTop (TEnv n l c0 d0 b k o) (PFunc pub t d nm ps e None)
      (TEnv (settle prev fi (fi + 1) (ntGetSize n2) (ntSetCnt n2 fi prm)) l c d2 b k o)
| ot_func n l c0 d0 b k o pub t d nm ps e prev fi n2 c d2 prm q x E E' root code lb :
    okHead n c0 pub (tyCode n t) (Z.of_nat d) nm ps e prev fi n2 c d2 prm ->
    (forall i, prev = Some i -> scopeAt n i = ScPROT) ->
    E = Env (enter prev fi (ntSetCnt n2 fi prm)) l 0 0 d2 ->
    okQ (tyCode n t) (Z.of_nat d) false E SNull q x E' ->
    (valued_fn (tyCode n t) (Z.of_nat d) -> endsReturn q false = true) ->
    (if opt then optTree (block x) = Ok root else root = block x) ->
    genFunc (namesOf (eN (leave E E'))) root (eM E') krn (tyCode n t =? TyINTR) (Labs (eL E') b k (-1)) = Some (code, lb) ->
    okTop (TEnv n l c0 d0 b k o) (PFunc pub t d nm ps e (Some q))
      (TEnv (settle prev fi (fi + 1) (ntGetSize n2) (eN (leave E E'))) (cur lb) 0 (eD E') (brk lb) (cnt lb)
            (o ++ strOut l (stringsQ q) ++ [ANam fi; ACode (map (printed (eN (leave E E'))) code)])).
Inductive okProg : tenv -> list top -> tenv -> Prop :=
| opr_nil T : okProg T [] T
| opr_cons T x T1 p T2 : okTop T x T1 -> okProg T1 p T2 -> okProg T (x :: p) T2.
End Flags.
