(* Model of src/parser.c (compiler build: _C not defined), function by function, together
   with the entry points of src/vmCode.c it calls for data (genStr, genData, genBss).
   The tokens are those of Lexer.lexAll: each item holds the token and the value, spelling
   and line the lexer has after reading it.
   Simplifications:
   - Trees are inductive values (SyTree.v), not slots of the node table; the root the code
     generator fetches with syGetRoot (the last node made) is the tree getBlock returns.
     The limit of 3000 nodes is not modelled here.
   - The whole file is read by the lexer first: a lexical error anywhere rejects the file,
     where the program may report an earlier syntax error instead.
   - newWatch/freeWatch/ealloc are memory management and have no counterpart.
   - Every error() call is PErr; the message is an enumeration value. *)
From Coq Require Import ZArith Bool Lia List.
From Verif Require Import Lexer NameTable SyTree OpTree ExprSem VM VmCode.
Import ListNotations.
Open Scope Z_scope.

Inductive perr :=
| XTok (expected : Z)      (* chkTok: the expected token is missing *)
| XType | XVoidVar | XIntrVar | XIntrKernel | XName (e : nerr) | XNoName
| XDim | XVoid | XNeedBool | XNeedInt | XNeedChar | XBug | XCompat
| XManyIdx | XIdxInt | XNotStruct | XNoField | XManyArgs | XVoidArg | XFewArgs | XCallIntr
| XSizeof | XAddrof | XOrd | XChr | XBool | XFactor | XLhs
| XBreak | XCont | XParam | XVarBefore | XFuncType | XIntrArray | XIntrParam | XParamCnt | XFuncTwice
| XNoReturn | XCnst | XArrDim | XArrSize | XManyInit | XStrInit | XFieldInit | XFewInit | XArrInit
| XTwice | XFuncBefore | XVarType | XPubStruct | XPubTypedef | XOpt (e : operr) | XGen.

Inductive pres (A : Type) := POk (a : A) | PErr (e : perr) | PUndef | PFuel.
Arguments POk {A} a. Arguments PErr {A} e. Arguments PUndef {A}. Arguments PFuel {A}.
Definition pbind {A B} (x : pres A) (f : A -> pres B) : pres B :=
  match x with POk a => f a | PErr e => PErr e | PUndef => PUndef | PFuel => PFuel end.
Notation "'let+' x ':=' c 'in' k" := (pbind c (fun x => k))
  (at level 200, x pattern, c at level 100, k at level 200).
Definition perr_if (b : bool) (e : perr) : pres unit := if b then PErr e else POk tt.

(* the output: labels, data directives, code (vm.h) *)
Inductive asm :=
| ALab (l : Z) | AStr (s : list Z) | ANam (i : Z) | ADwLab (l : Z) | ADwName (i : Z) | ADwCns (v : Z)
| ADbCns (v : Z) | AWs (n : Z) | ABs (n : Z) | ACode (c : code).

(* ==== tokens, parser.c:127-136 ==== *)
(* what expressions change: tokens to come (the first is tok), label counter, output *)
Record es := ES { its : list item; clab : Z; outp : list asm }.
Definition tokOf (i : item) : Z := let '(t, _, _, _) := i in t.
Definition tok (s : es) : Z := match its s with i :: _ => tokOf i | [] => EOFtok end.
(* lxGetStr(), lxGetVal(): of the token read last, which is tok *)
Definition lxGetStr (s : es) : list Z := match its s with (_, _, st, _) :: _ => st | [] => [] end.
Definition lxGetVal (s : es) : Z := match its s with (_, v, _, _) :: _ => v | [] => 0 end.
(* line markers are skipped; at the end of the file the lexer returns EOF again *)
Fixpoint skipFile (l : list item) : list item :=
  match l with
  | i :: r => if tokOf i =? LxFILE then skipFile r else l
  | [] => []
  end.
Definition getTok (s : es) : es :=
  match its s with
  | [] => s
  | i :: r => if tokOf i =? EOFtok then s else ES (skipFile r) (clab s) (outp s)
  end.
(* parser.c:164-171: Some s when the token was there *)
Definition isTok (k : Z) (s : es) : option es := if tok s =? k then Some (getTok s) else None.
(* parser.c:174-176 *)
Definition chkTok (k : Z) (s : es) : pres es := if tok s =? k then POk (getTok s) else PErr (XTok k).

(* ASCII of the one-character tokens *)
Definition cLP := 40. Definition cRP := 41. Definition cSTAR := 42. Definition cPLUS := 43. Definition cCOMMA := 44.
Definition cMINUS := 45. Definition cDOT := 46. Definition cSLASH := 47. Definition cSEMI := 59. Definition cLT := 60.
Definition cEQ := 61. Definition cGT := 62. Definition cLB := 91. Definition cRB := 93. Definition cHAT := 94.
Definition cLC := 123. Definition cBAR := 124. Definition cRC := 125. Definition cTILDE := 126. Definition cBANG := 33.
Definition cPERCENT := 37. Definition cAMP := 38.

(* ==== types ==== *)
(* parser.c:179-190: the type the current token names *)
Definition typeOf (nt : table) (s : es) : Z :=
  let t := tok s in
  if t =? LxINT then TyINT else if t =? LxCHAR then TyCHAR else if t =? LxVOID then TyVOID
  else if t =? LxBOOL then TyBOOL else if t =? LxINTR then TyINTR
  else if t =? LxNAME then ntSrcStruct nt (lxGetStr s)
  else TyNON.
Definition isType (nt : table) (s : es) : bool := negb (typeOf nt s =? TyNON).
(* parser.c:196-197: for (curDim=0; isTok('['); curDim++) chkTok(']') *)
Fixpoint dimLoop (fuel : nat) (d : Z) (s : es) : pres (Z * es) :=
  match fuel with
  | O => PFuel
  | S f =>
    match isTok cLB s with
    | Some s => let+ s := chkTok cRB s in dimLoop f (d + 1) s
    | None => POk (d, s)
    end
  end.
Definition fuelOf (s : es) : nat := S (List.length (its s)).
(* parser.c:193-198: type, dimension *)
Definition getType (nt : table) (s : es) : pres (Z * Z * es) :=
  let t := typeOf nt s in
  if t =? TyNON then PErr XType else
  let s := getTok s in
  let+ (d, s) := dimLoop (fuelOf s) 0 s in
  POk (t, d, s).

(* ==== expressions ==== *)
(* parser.c:251-256 *)
Record watch := W { wt : Z; wd : Z; lhs : bool; tr : expr }.
Definition setT (w : watch) (t : Z) : watch := W t (wd w) (lhs w) (tr w).

(* parser.c:278-291 *)
Definition autoCast (w : watch) (t d : Z) : watch :=
  if negb (wd w =? 0) || negb (d =? 0) then w
  else if (wt w =? TyCHAR) && (t =? TyINT) then W TyINT (wd w) false (tr w)
  else w.

(* parser.c:294-302 *)
Definition chkType (w : watch) (t : Z) : pres watch :=
  if 0 <? wd w then PErr XDim else
  let w := autoCast w t 0 in
  if wt w =? TyVOID then PErr XVoid
  else if (t =? TyBOOL) && negb (wt w =? TyBOOL) then PErr XNeedBool
  else if (t =? TyINT) && negb (wt w =? TyINT) then PErr XNeedInt
  else if (t =? TyCHAR) && negb (wt w =? TyCHAR) then PErr XNeedChar
  else if negb (t =? TyBOOL) && negb (t =? TyINT) && negb (t =? TyCHAR) then PErr XBug
  else POk w.

(* parser.c:305-313 *)
Definition chkCmpat (w : watch) (t d : Z) : pres watch :=
  let w := autoCast w t d in
  if negb ((wt w =? TyVOID) && (0 <? wd w) && (0 <? d)) &&
     negb ((t =? TyVOID) && (0 <? d) && (0 <? wd w)) &&
     negb ((wt w =? TyVOID) && (wd w =? 1) && (t <=? 0)) &&
     negb ((t =? TyVOID) && (d =? 1) && (wt w <=? 0)) &&
     (negb (wt w =? t) || negb (wd w =? d))
  then PErr XCompat else POk w.

Definition parser := es -> pres (watch * es).
Definition mk1 (o : op1) (w : watch) : expr := E1 o (tr w).
Definition mk2 (o : op2) (w w2 : watch) : expr := E2 o (tr w) (tr w2).
(* syCatNode, sytree.c:84-90, on argument lists *)
Definition catE (a b : expr) : expr :=
  match a, b with
  | ENull, _ => b
  | _, ENull => a
  | _, _ => E2 SEMI a b
  end.

(* entries read by index; an index past the end (parser.c:388 after the last parameter of
   the last function) is harmless there: the value is not used *)
Definition typeAt (nt : table) (i : Z) : Z := match ent nt i with Some e => nType e | None => TyNON end.
Definition dimAt (nt : table) (i : Z) : Z := match ent nt i with Some e => nDim e | None => 0 end.
Definition cntAt (nt : table) (i : Z) : Z := match ent nt i with Some e => nCnt e | None => 0 end.
Definition scopeAt (nt : table) (i : Z) : Z := match ent nt i with Some e => nScope e | None => ScVOID end.
Definition pubAt (nt : table) (i : Z) : bool := match ent nt i with Some e => nPub e | None => false end.

Section Expr.
Variable nt : table.

(* parser.c:319-346, after '[' *)
Definition getIdxOP (asExpr : parser) (w : watch) (s : es) : pres (watch * es) :=
  if wd w <=? 0 then PErr XManyIdx else
  let+ (w2, s) := asExpr s in
  let+ s := chkTok cRB s in
  if negb (wt w2 =? TyINT) || negb (wd w2 =? 0) then PErr XIdxInt else
  let d := wd w - 1 in
  let+ op :=
    (if (0 <? d) || (wt w <=? 0) then POk IDXR
     else if wt w =? TyINT then POk IDXI
     else if wt w =? TyCHAR then POk IDXC
     else if wt w =? TyBOOL then POk IDXB
     else if wt w =? TyVOID then PErr XVoid
     else PErr XBug) in
  POk (W (wt w) d true (mk2 op w w2), s).

(* parser.c:349-359, after '.' *)
Definition getDotOP (w : watch) (s : es) : pres (watch * es) :=
  if (0 <? wt w) || (0 <? wd w) then PErr XNotStruct else
  let+ s := chkTok LxNAME s in
  match ntSrcField nt (wt w) (lxGetStr s) with
  | FFound n => POk (W (typeAt nt n) (dimAt nt n) true (E2 DOT (tr w) (Cnst n)), s)
  | FNone => PErr XNoField
  | FOut => PUndef
  end.

(* parser.c:362-368 *)
Fixpoint postLoop (asExpr : parser) (fuel : nat) (w : watch) (s : es) : pres (watch * es) :=
  match fuel with
  | O => PFuel
  | S f =>
    match isTok cLB s with
    | Some s => let+ (w, s) := getIdxOP asExpr w s in postLoop asExpr f w s
    | None =>
      match isTok cDOT s with
      | Some s => let+ (w, s) := getDotOP w s in postLoop asExpr f w s
      | None => POk (w, s)
      end
    end
  end.

(* parser.c:376-387: the arguments from parameter idx on; at least one *)
Fixpoint argsLoop (asExpr : parser) (fuel : nat) (idx lastIdx : Z) (lst : expr) (s : es) : pres (Z * expr * es) :=
  match fuel with
  | O => PFuel
  | S f =>
    let+ (w, s) := asExpr s in
    if lastIdx <? idx then PErr XManyArgs else
    let+ (w, idx) :=
      (if negb (typeAt nt idx =? TyDOTDOTDOT)
       then let+ w := chkCmpat w (typeAt nt idx) (dimAt nt idx) in POk (w, idx + 1)
       else if (wt w =? TyVOID) && (wd w =? 0) then PErr XVoidArg
       else POk (w, idx)) in
    let lst := catE lst (tr w) in
    match isTok cCOMMA s with
    | Some s => argsLoop asExpr f idx lastIdx lst s
    | None => POk (idx, lst, s)
    end
  end.
(* parser.c:371-392 *)
Definition getArgs (asExpr : parser) (func : Z) (s : es) : pres (expr * es) :=
  let idx := func + 1 in
  let lastIdx := func + cntAt nt func in
  let+ (idx, lst, s) :=
    (if negb (tok s =? cRP) then argsLoop asExpr (fuelOf s) idx lastIdx ENull s
     else POk (idx, ENull, s)) in
  let+ s := chkTok cRP s in
  if negb (typeAt nt idx =? TyDOTDOTDOT) && (idx <=? lastIdx) then PErr XFewArgs
  else POk (lst, s).

(* parser.c:395-402 *)
Definition getCall (asExpr : parser) (n : Z) (s : es) : pres (watch * es) :=
  let+ s := chkTok cLP s in
  if typeAt nt n =? TyINTR then PErr XCallIntr else
  let+ (a, s) := getArgs asExpr n s in
  POk (W (typeAt nt n) (dimAt nt n) false (EFunc n a), s).

(* parser.c:405-426 *)
Definition getSizeof (s : es) : pres (watch * es) :=
  let+ s := chkTok cLP s in
  let+ (t, d, s) := getType nt s in
  if (t <=? 0) && (typeAt nt (- t) =? TyREF) then PErr XSizeof else
  let sz := if d =? 0 then
              if t <=? 0 then 2 * cntAt nt (- t)
              else if (t =? TyCHAR) || (t =? TyBOOL) then 1 else 2
            else 2 in
  let+ s := chkTok cRP s in
  POk (W TyINT 0 false (Cnst sz), s).

(* parser.c:429-440 *)
Definition getAddrof (s : es) : pres (watch * es) :=
  let+ s := chkTok cLP s in
  let+ s := chkTok LxNAME s in
  match ntSrcName nt (lxGetStr s) with
  | None => PErr XNoName
  | Some n =>
    if isGlob (scopeAt nt n) then
      let+ s := chkTok cRP s in
      POk (W TyINT 0 false (ELeaf (LAddr n)), s)
    else PErr XAddrof
  end.

(* the common part of ord, chr and bool: '(' expression ')' *)
Definition inParens (expr : parser) (s : es) : pres (watch * es) :=
  let+ s := chkTok cLP s in
  let+ (w, s) := expr s in
  let+ s := chkTok cRP s in
  POk (w, s).
(* parser.c:443-451 *)
Definition getOrd (expr : parser) (s : es) : pres (watch * es) :=
  let+ (w, s) := inParens expr s in
  if (negb (wt w =? TyBOOL) && negb (wt w =? TyCHAR)) || negb (wd w =? 0) then PErr XOrd
  else POk (W TyINT (wd w) false (tr w), s).
(* parser.c:454-462 *)
Definition getChr (expr : parser) (s : es) : pres (watch * es) :=
  let+ (w, s) := inParens expr s in
  if negb (wd w =? 0) || negb (wt w =? TyINT) then PErr XChr
  else POk (W TyCHAR (wd w) false (mk1 CHR w), s).
(* parser.c:465-473 *)
Definition getBool (expr : parser) (s : es) : pres (watch * es) :=
  let+ (w, s) := inParens expr s in
  if negb (wd w =? 0) || negb (wt w =? TyINT) then PErr XBool
  else POk (W TyBOOL (wd w) false (mk1 BOOL w), s).

(* parser.c:476-493, after the name *)
Definition getIdent (asExpr : parser) (s : es) : pres (watch * es) :=
  match ntSrcName nt (lxGetStr s) with
  | None => PErr XNoName
  | Some n =>
    let sc := scopeAt nt n in
    let var k := POk (W (typeAt nt n) (dimAt nt n) true (ELeaf k), s) in
    if (sc =? ScPROT) || (sc =? ScFUNC) then getCall asExpr n s
    else if (sc =? ScCOMM) || (sc =? ScGVAR) then var (LGlb n)
    else if sc =? ScLVAR then var (LLoc n)
    else if sc =? ScPRM then var (LPrm n)
    else PErr XBug
  end.

(* vmCode.c:805-810 *)
Definition genStr (str : list Z) (s : es) : Z * es :=
  let l := clab s + 1 in
  (l, ES (its s) l (outp s ++ [ALab l; AStr str])).

(* parser.c:496-534 *)
Definition getFactor (asExpr expr : parser) (s : es) : pres (watch * es) :=
  let t := tok s in let s1 := getTok s in
  let+ (w, s) :=
    (if t =? cLP then
       let+ (w, s) := expr s1 in
       let+ s := chkTok cRP s in POk (w, s)
     else if t =? LxNAME then getIdent asExpr s1
     else if t =? LxINTEGER then POk (W TyINT 0 false (Cnst (lxGetVal s1)), s1)
     else if t =? LxCHARACTER then POk (W TyCHAR 0 false (Cnst (lxGetVal s1)), s1)
     else if t =? LxLOGICAL then POk (W TyBOOL 0 false (Cnst (lxGetVal s1)), s1)
     else if t =? LxSTRING then
       let '(l, s) := genStr (lxGetStr s1) s1 in
       POk (W TyCHAR 1 false (ELeaf (LStr l)), s)
     else if t =? LxNUL then POk (W TyVOID 1 false (Cnst 0), s1)
     else if t =? LxSIZEOF then getSizeof s1
     else if t =? LxADDROF then getAddrof s1
     else if t =? LxORD then getOrd expr s1
     else if t =? LxCHR then getChr expr s1
     else if t =? LxBOL then getBool expr s1
     else PErr XFactor) in
  postLoop asExpr (fuelOf s) w s.

(* parser.c:537-557 *)
Fixpoint getUniExpr (asExpr expr : parser) (fuel : nat) (s : es) : pres (watch * es) :=
  match fuel with
  | O => PFuel
  | S f =>
    let t := tok s in
    if t =? cPLUS then
      let+ (w, s) := getUniExpr asExpr expr f (getTok s) in
      let+ w := chkType w TyINT in POk (W (wt w) (wd w) false (tr w), s)
    else if t =? cMINUS then
      let+ (w, s) := getUniExpr asExpr expr f (getTok s) in
      let+ w := chkType w TyINT in POk (W (wt w) (wd w) false (mk1 NEG w), s)
    else if t =? cBANG then
      let+ (w, s) := getUniExpr asExpr expr f (getTok s) in
      let+ w := chkType w TyBOOL in POk (W (wt w) (wd w) false (mk1 NOT w), s)
    else if t =? cTILDE then
      let+ (w, s) := getUniExpr asExpr expr f (getTok s) in
      let+ w := chkType w TyINT in POk (W (wt w) (wd w) false (mk1 BNOT w), s)
    else getFactor asExpr expr s
  end.

(* parser.c:560-567 *)
Definition cal2 (t : Z) (op : op2) (w1 w2 : watch) : pres watch :=
  let+ w1 := chkType w1 t in
  let+ w2 := chkType w2 t in
  POk (W (wt w1) (wd w1) false (mk2 op w1 w2)).
(* parser.c:621-622: cal2, then the result is boolean *)
Definition calCmp (op : op2) (w1 w2 : watch) : pres watch :=
  let+ w := cal2 TyINT op w1 w2 in POk (W TyBOOL (wd w) (lhs w) (tr w)).
(* parser.c:636-641 *)
Definition calEqu (op : op2) (w w2 : watch) : pres watch :=
  let w := if wt w =? TyCHAR then setT w TyINT else w in
  let w2 := if wt w2 =? TyCHAR then setT w2 TyINT else w2 in
  let+ w2 := chkCmpat w2 (wt w) (wd w) in
  POk (W TyBOOL 0 false (mk2 op w w2)).

Definition opTable := list (Z * op2).
Fixpoint opOf (l : opTable) (t : Z) : option op2 :=
  match l with
  | [] => None
  | (k, o) :: l => if t =? k then Some o else opOf l t
  end.
(* the loop of the getXxxExpr functions below: while one of the operators follows, read the
   right operand with next and combine *)
Fixpoint binLoop (ops : opTable) (act : op2 -> watch -> watch -> pres watch) (next : parser)
    (fuel : nat) (w : watch) (s : es) : pres (watch * es) :=
  match fuel with
  | O => PFuel
  | S f =>
    match opOf ops (tok s) with
    | None => POk (w, s)
    | Some op =>
      let+ (w2, s) := next (getTok s) in
      let+ w := act op w w2 in
      binLoop ops act next f w s
    end
  end.
Definition binExpr (ops : opTable) (act : op2 -> watch -> watch -> pres watch) (next : parser) : parser := fun s =>
  let+ (w, s) := next s in
  binLoop ops act next (fuelOf s) w s.

Section Levels.
Variables asExpr expr : parser.
Definition uni : parser := fun s => getUniExpr asExpr expr (fuelOf s) s.
Definition opsMul : opTable := [(cSTAR, MUL); (cSLASH, DIV); (cPERCENT, MOD)].
Definition opsAdd : opTable := [(cPLUS, ADD); (cMINUS, SUB)].
Definition opsSft : opTable := [(LxSHL, SHL); (LxSHR, SHR)].
Definition opsCmp : opTable := [(cLT, LT); (LxLTE, LE); (cGT, GT); (LxGTE, GE)].
Definition opsEqu : opTable := [(LxEQU, EQU); (LxNEQ, NEQ)].
Definition opsAnd : opTable := [(cAMP, BAND)].
Definition opsXor : opTable := [(cHAT, BXOR)].
Definition opsOr : opTable := [(cBAR, BOR)].
Definition opsLogAnd : opTable := [(LxAND, AND)].
Definition opsLogOr : opTable := [(LxOR, OR)].
(* parser.c:570-582 *)
Definition getMulExpr : parser := binExpr opsMul (cal2 TyINT) uni.
(* parser.c:585-596 *)
Definition getAddExpr : parser := binExpr opsAdd (cal2 TyINT) getMulExpr.
(* parser.c:599-610 *)
Definition getSftExpr : parser := binExpr opsSft (cal2 TyINT) getAddExpr.
(* parser.c:613-627 *)
Definition getCmpExpr : parser := binExpr opsCmp calCmp getSftExpr.
(* parser.c:630-646 *)
Definition getEquExpr : parser := binExpr opsEqu calEqu getCmpExpr.
(* parser.c:649-656 *)
Definition getAndExpr : parser := binExpr opsAnd (cal2 TyINT) getEquExpr.
(* parser.c:659-666 *)
Definition getXorExpr : parser := binExpr opsXor (cal2 TyINT) getAndExpr.
(* parser.c:669-676 *)
Definition getOrExpr : parser := binExpr opsOr (cal2 TyINT) getXorExpr.
(* parser.c:679-686 *)
Definition getLogAndExpr : parser := binExpr opsLogAnd (cal2 TyBOOL) getOrExpr.
(* parser.c:689-696 *)
Definition getLogOrExpr : parser := binExpr opsLogOr (cal2 TyBOOL) getLogAndExpr.
End Levels.

(* parser.c:713-722 *)
Fixpoint commaLoop (asExpr : parser) (fuel : nat) (w : watch) (s : es) : pres (watch * es) :=
  match fuel with
  | O => PFuel
  | S f =>
    match isTok cCOMMA s with
    | Some s =>
      let+ (w2, s) := asExpr s in
      commaLoop asExpr f (W (wt w2) (wd w2) false (mk2 COMM w w2)) s
    | None => POk (w, s)
    end
  end.
Definition commaExpr (asExpr : parser) : parser := fun s =>
  let+ (w, s) := asExpr s in commaLoop asExpr (fuelOf s) w s.

(* parser.c:699-710; fuel: nesting depth *)
Fixpoint getAsExprF (fuel : nat) (s : es) : pres (watch * es) :=
  match fuel with
  | O => PFuel
  | S f =>
    let asExpr := getAsExprF f in
    let+ (w, s) := getLogOrExpr asExpr (commaExpr asExpr) s in
    match isTok cEQ s with
    | Some s =>
      let+ (w2, s) := asExpr s in
      let+ w2 := chkCmpat w2 (wt w) (wd w) in
      if negb (lhs w) then PErr XLhs
      else POk (W (wt w) (wd w) false (mk2 ASS w w2), s)
    | None => POk (w, s)
    end
  end.
Definition getAsExpr : parser := fun s => getAsExprF (fuelOf s) s.
Definition getExpr : parser := commaExpr getAsExpr.
End Expr.
