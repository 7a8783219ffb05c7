(* What the language manual says about statements (doc/syntax.tex, doc/chap3.tex), stated
   without the parser: syntax trees of statements, their grammar, and the rules of scopes,
   types and loops with the tree each form is translated to.  Expressions: ParseSpec.v. *)
From Coq Require Import ZArith Bool Lia List.
From Verif Require Import Lexer NameTable SyTree Parser ParseSpec.
Import ListNotations.
Open Scope Z_scope.

(* ==== trees ==== *)
(* a declaration: type, dimensions, names with optional initial values *)
Record decl := Decl { dclT : tyname; dclD : nat; dclV : list (list Z * option ast) }.
Inductive ini := INo | IExp (e : ast) | IDecl (d : decl).
Inductive sast :=
| BEmpty
| BExpr (e : ast)
| BIf (c : ast) (s : sast)
| BIfElse (c : ast) (s1 s2 : sast)
| BWhile (c : ast) (b : sast)
| BDo (b : sast) (c : ast)
| BFor (i : ini) (c r : option ast) (b : sast)
| BBreak
| BContinue
| BReturn (e : option ast)
| BBlock (l : sseq)
with sseq :=
| QNil
| QStat (s : sast) (l : sseq)
| QDecl (d : decl) (l : sseq).

(* ==== grammar ==== *)
Inductive derives_var : list Z * option ast -> list stok -> Prop :=
| dv_plain n : derives_var (n, None) [TName n]
| dv_init n e ts : derives 1 e ts -> derives_var (n, Some e) (TName n :: TSym cEQ :: ts).
Inductive derives_vars : list (list Z * option ast) -> list stok -> Prop :=
| dvs_one v ts : derives_var v ts -> derives_vars [v] ts
| dvs_more v r tv tr : derives_var v tv -> derives_vars r tr -> derives_vars (v :: r) (tv ++ TSym cCOMMA :: tr).
(* type [] .. [] name = value , name , .. (without the semicolon) *)
Inductive derives_decl : decl -> list stok -> Prop :=
| dd t d vs ts : derives_vars vs ts -> derives_decl (Decl t d vs) (tyTok t :: brackets d ++ ts).
Inductive derives_opt : option ast -> list stok -> Prop :=
| do_none : derives_opt None []
| do_some e ts : derives 0 e ts -> derives_opt (Some e) ts.
Inductive derives_ini : ini -> list stok -> Prop :=
| di_none : derives_ini INo []
| di_exp e ts : derives 0 e ts -> derives_ini (IExp e) ts
| di_decl d ts : derives_decl d ts -> derives_ini (IDecl d) ts.

(* sder true s ts: the tokens ts are the statement s, which does not end with an if that
   lacks its else; sder false s ts: any statement.  An else belongs to the nearest if. *)
Inductive sder : bool -> sast -> list stok -> Prop :=
| sd_any s ts : sder true s ts -> sder false s ts
| sd_empty : sder true BEmpty [TSym cSEMI]
| sd_expr e ts : derives 0 e ts -> sder true (BExpr e) (ts ++ [TSym cSEMI])
| sd_if c s tc ts : derives 0 c tc -> sder false s ts ->
    sder false (BIf c s) (TSym LxIF :: TSym cLP :: tc ++ TSym cRP :: ts)
| sd_else k c s1 s2 tc t1 t2 : derives 0 c tc -> sder true s1 t1 -> sder k s2 t2 ->
    sder k (BIfElse c s1 s2) (TSym LxIF :: TSym cLP :: tc ++ TSym cRP :: t1 ++ TSym LxELSE :: t2)
| sd_while k c b tc tb : derives 0 c tc -> sder k b tb ->
    sder k (BWhile c b) (TSym LxWHILE :: TSym cLP :: tc ++ TSym cRP :: tb)
| sd_do b c tb tc : sder false b tb -> derives 0 c tc ->
    sder true (BDo b c) (TSym LxDO :: tb ++ TSym LxWHILE :: TSym cLP :: tc ++ [TSym cRP; TSym cSEMI])
| sd_for k i c r b ti tc tr tb : derives_ini i ti -> derives_opt c tc -> derives_opt r tr -> sder k b tb ->
    sder k (BFor i c r b)
      (TSym LxFOR :: TSym cLP :: ti ++ TSym cSEMI :: tc ++ TSym cSEMI :: tr ++ TSym cRP :: tb)
| sd_break : sder true BBreak [TSym LxBREAK; TSym cSEMI]
| sd_continue : sder true BContinue [TSym LxCONTINUE; TSym cSEMI]
| sd_return e ts : derives_opt e ts -> sder true (BReturn e) (TSym LxRETURN :: ts ++ [TSym cSEMI])
| sd_block l ts : qder l ts -> sder true (BBlock l) (TSym cLC :: ts ++ [TSym cRC])
(* what stands between { and } *)
with qder : sseq -> list stok -> Prop :=
| qd_nil : qder QNil []
| qd_stat s l ts tl : sder false s ts -> qder l tl -> qder (QStat s l) (ts ++ tl)
| qd_decl d l ts tl : derives_decl d ts -> qder l tl -> qder (QDecl d l) (ts ++ TSym cSEMI :: tl).

(* ==== scopes, types, loops ==== *)
(* what a statement is read in and leaves: the names, the number of labels used, the number
   of local variables now and the largest number so far, the dimension of the variables
   declared last *)
Record env := Env { eN : table; eL : Z; eC : Z; eM : Z; eD : Z }.
(* empty statements leave no trace in a sequence *)
Definition chain (a b : stmt) : stmt :=
  match a, b with
  | SNull, _ => b
  | _, SNull => a
  | _, _ => SSemi a b
  end.
(* the tree of a block: the sequence, marked as a block when it has more than one part *)
Definition block (s : stmt) : stmt := match s with SSemi l r => SBlk l r | _ => s end.
(* types variables may have *)
Definition varType (t d : Z) : Prop := t <> TyNON /\ t <> TyINTR /\ ~ (t = TyVOID /\ d = 0).
(* functions that return a value *)
Definition valued_fn (t d : Z) : Prop := t <> TyINTR /\ ~ (t = TyVOID /\ d = 0).

(* one variable of type (t, d): it gets the next number and is visible at once, in its own
   initial value too *)
Inductive okVar (t d : Z) : env -> list Z * option ast -> stmt -> env -> Prop :=
| ov_plain n l c m k nm n' i :
    ntDefName n nm ScLVAR t d (c + 1) false = NOk (n', i) ->
    okVar t d (Env n l c m k) (nm, None) (SVar i) (Env n' l (c + 1) m k)
| ov_init n l c m k nm n' i e t2 d2 lv x :
    ntDefName n nm ScLVAR t d (c + 1) false = NOk (n', i) ->
    has n' l e t2 d2 lv x -> fits t2 d2 t d ->
    okVar t d (Env n l c m k) (nm, Some e) (SSemi (SVar i) (SExpr (E2 ASS (ELeaf (LLoc i)) x))) (Env n' (l + nstr e) (c + 1) m k).
Inductive okVars (t d : Z) : env -> stmt -> list (list Z * option ast) -> stmt -> env -> Prop :=
| ovs_nil E a : okVars t d E a [] a E
| ovs_cons E a v r x E1 y E2 : okVar t d E v x E1 -> okVars t d E1 (chain a x) r y E2 -> okVars t d E a (v :: r) y E2.
Inductive okDecl : env -> decl -> stmt -> env -> Prop :=
| od E t d vs x n l c m k :
    varType (tyCode (eN E) t) (Z.of_nat d) ->
    okVars (tyCode (eN E) t) (Z.of_nat d) (Env (eN E) (eL E) (eC E) (eM E) (Z.of_nat d)) SNull vs x (Env n l c m k) ->
    okDecl E (Decl t d vs) x (Env n l c (Z.max m c) k).

Inductive okCond : env -> option ast -> expr -> env -> Prop :=
| oc_none E : okCond E None ENull E
| oc_some n l c m k e lv x : has n l e TyBOOL 0 lv x -> okCond (Env n l c m k) (Some e) x (Env n (l + nstr e) c m k).
Inductive okOpt : env -> option ast -> expr -> env -> Prop :=
| oo_none E : okOpt E None ENull E
| oo_some n l c m k e t d lv x : has n l e t d lv x -> okOpt (Env n l c m k) (Some e) x (Env n (l + nstr e) c m k).
Inductive okIni : env -> ini -> stmt -> env -> Prop :=
| oi_none E : okIni E INo SNull E
| oi_exp n l c m k e t d lv x : has n l e t d lv x -> okIni (Env n l c m k) (IExp e) (SExpr x) (Env n (l + nstr e) c m k)
| oi_decl E d x E' : okDecl E d x E' -> okIni E (IDecl d) x E'.
(* the variables declared since E are out of scope; their numbers are free again *)
Definition leave (E E' : env) : env := Env (ntSetVoid (eN E') (ntGetSize (eN E))) (eL E') (eC E) (eM E') (eD E').

Section Function.
Variables rt rd : Z.     (* type of the function's value *)
(* okS inl E s x E': inside a loop iff inl, the statement s obeys the rules and is
   translated to x *)
Inductive okS : bool -> env -> sast -> stmt -> env -> Prop :=
| os_empty b E : okS b E BEmpty SNull E
| os_expr b n l c m k e t d lv x : has n l e t d lv x ->
    okS b (Env n l c m k) (BExpr e) (SExpr x) (Env n (l + nstr e) c m k)
| os_if b E c s x E1 y E2 : okCond E (Some c) x E1 -> okS b E1 s y E2 -> okS b E (BIf c s) (SIf x y) E2
| os_else b E c s1 s2 x E1 y1 E2 y2 E3 : okCond E (Some c) x E1 -> okS b E1 s1 y1 E2 -> okS b E2 s2 y2 E3 ->
    okS b E (BIfElse c s1 s2) (SEls x y1 y2) E3
| os_while b E c s x E1 y E2 : okCond E (Some c) x E1 -> okS true E1 s y E2 -> okS b E (BWhile c s) (SWhl x y ENull) E2
| os_do b E c s y E1 x E2 : okS true E s y E1 -> okCond E1 (Some c) x E2 -> okS b E (BDo s c) (SDo y x) E2
| os_for b E i c r s xi E1 xc E2 xr E3 y E4 :
    okIni E i xi E1 -> okCond E1 c xc E2 -> okOpt E2 r xr E3 -> okS true E3 s y E4 ->
    okS b E (BFor i c r s) (SBlk xi (SWhl xc y xr)) (leave E E4)
| os_break E : okS true E BBreak SBrk E
| os_continue E : okS true E BContinue SCnt E
| os_return b E : ~ valued_fn rt rd -> okS b E (BReturn None) (SRet ENull) E
| os_value b n l c m k e t d lv x : valued_fn rt rd -> has n l e t d lv x -> fits t d rt rd ->
    okS b (Env n l c m k) (BReturn (Some e)) (SRet x) (Env n (l + nstr e) c m k)
| os_block b E q x E' : okQ b E SNull q x E' -> okS b E (BBlock q) (block x) (leave E E')
(* okQ inl E a q x E': the same for a sequence, a the tree of what stands before it *)
with okQ : bool -> env -> stmt -> sseq -> stmt -> env -> Prop :=
| oq_nil b E a : okQ b E a QNil a E
| oq_stat b E a s x E1 r y E2 : okS b E s x E1 -> okQ b E1 (chain a x) r y E2 -> okQ b E a (QStat s r) y E2
| oq_decl b E a d x E1 r y E2 : okDecl E d x E1 -> okQ b E1 (chain a x) r y E2 -> okQ b E a (QDecl d r) y E2.
End Function.

(* ==== strings, in order of appearance ==== *)
Definition stringsO (e : option ast) : list (list Z) := match e with Some e => strings e | None => [] end.
Definition stringsD (d : decl) : list (list Z) := flat_map (fun v => stringsO (snd v)) (dclV d).
Definition stringsI (i : ini) : list (list Z) :=
  match i with INo => [] | IExp e => strings e | IDecl d => stringsD d end.
Fixpoint stringsS (s : sast) : list (list Z) :=
  match s with
  | BEmpty | BBreak | BContinue => []
  | BExpr e => strings e
  | BIf c s => strings c ++ stringsS s
  | BIfElse c s1 s2 => strings c ++ stringsS s1 ++ stringsS s2
  | BWhile c b => strings c ++ stringsS b
  | BDo b c => stringsS b ++ strings c
  | BFor i c r b => stringsI i ++ stringsO c ++ stringsO r ++ stringsS b
  | BReturn e => stringsO e
  | BBlock q => stringsQ q
  end
with stringsQ (q : sseq) : list (list Z) :=
  match q with
  | QNil => []
  | QStat s r => stringsS s ++ stringsQ r
  | QDecl d r => stringsD d ++ stringsQ r
  end.

(* ==== where break and continue stand ==== *)
(* a break or continue of s that belongs to no loop of s *)
Fixpoint stray (s : sast) : bool :=
  match s with
  | BBreak | BContinue => true
  | BIf _ s => stray s
  | BIfElse _ s1 s2 => stray s1 || stray s2
  | BBlock q => strayQ q
  | _ => false
  end
with strayQ (q : sseq) : bool :=
  match q with
  | QNil => false
  | QStat s r => stray s || strayQ r
  | QDecl _ r => strayQ r
  end.
(* the last statement of a sequence, declarations aside, is a return *)
Fixpoint endsReturn (q : sseq) (last : bool) : bool :=
  match q with
  | QNil => last
  | QStat s r => endsReturn r (match s with BReturn _ => true | _ => false end)
  | QDecl _ r => endsReturn r last
  end.
