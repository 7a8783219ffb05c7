(* Model of src/parser.c, second part: declarations, statements, functions, global data
   and the whole source, with vmCode.c's data generation.  See Parser.v. *)
From Coq Require Import ZArith Bool Lia List.
From Verif Require Import Lexer NameTable SyTree OpTree COpTree ExprSem VM VmCode Parser.
Import ListNotations.
Open Scope Z_scope.

(* lexer.h:90 *)
Definition LxNONTOK := 256.

(* parser.c:108-121, 724, 757, 889 and vmCode.c:87-89: the global variables *)
Record gs := GS { ge : es; gnt : table; curScope : Z; curType : Z; curDim : Z; curCnt : Z; pubFlag : bool;
                  funcIdx : Z; maxCnt : Z; depth : Z; lastStat : Z; brkLab : Z; cntLab : Z }.
Definition wE (g : gs) e := GS e (gnt g) (curScope g) (curType g) (curDim g) (curCnt g) (pubFlag g) (funcIdx g) (maxCnt g) (depth g) (lastStat g) (brkLab g) (cntLab g).
Definition wNt (g : gs) t := GS (ge g) t (curScope g) (curType g) (curDim g) (curCnt g) (pubFlag g) (funcIdx g) (maxCnt g) (depth g) (lastStat g) (brkLab g) (cntLab g).
Definition wScope (g : gs) x := GS (ge g) (gnt g) x (curType g) (curDim g) (curCnt g) (pubFlag g) (funcIdx g) (maxCnt g) (depth g) (lastStat g) (brkLab g) (cntLab g).
Definition wType (g : gs) x := GS (ge g) (gnt g) (curScope g) x (curDim g) (curCnt g) (pubFlag g) (funcIdx g) (maxCnt g) (depth g) (lastStat g) (brkLab g) (cntLab g).
Definition wDim (g : gs) x := GS (ge g) (gnt g) (curScope g) (curType g) x (curCnt g) (pubFlag g) (funcIdx g) (maxCnt g) (depth g) (lastStat g) (brkLab g) (cntLab g).
Definition wCnt (g : gs) x := GS (ge g) (gnt g) (curScope g) (curType g) (curDim g) x (pubFlag g) (funcIdx g) (maxCnt g) (depth g) (lastStat g) (brkLab g) (cntLab g).
Definition wPub (g : gs) x := GS (ge g) (gnt g) (curScope g) (curType g) (curDim g) (curCnt g) x (funcIdx g) (maxCnt g) (depth g) (lastStat g) (brkLab g) (cntLab g).
Definition wFunc (g : gs) x := GS (ge g) (gnt g) (curScope g) (curType g) (curDim g) (curCnt g) (pubFlag g) x (maxCnt g) (depth g) (lastStat g) (brkLab g) (cntLab g).
Definition wMax (g : gs) x := GS (ge g) (gnt g) (curScope g) (curType g) (curDim g) (curCnt g) (pubFlag g) (funcIdx g) x (depth g) (lastStat g) (brkLab g) (cntLab g).
Definition wDepth (g : gs) x := GS (ge g) (gnt g) (curScope g) (curType g) (curDim g) (curCnt g) (pubFlag g) (funcIdx g) (maxCnt g) x (lastStat g) (brkLab g) (cntLab g).
Definition wLast (g : gs) x := GS (ge g) (gnt g) (curScope g) (curType g) (curDim g) (curCnt g) (pubFlag g) (funcIdx g) (maxCnt g) (depth g) x (brkLab g) (cntLab g).
Definition wLabs (g : gs) b c := GS (ge g) (gnt g) (curScope g) (curType g) (curDim g) (curCnt g) (pubFlag g) (funcIdx g) (maxCnt g) (depth g) (lastStat g) b c.

(* lifting of the token functions and of expressions *)
Definition gtok (g : gs) : Z := tok (ge g).
Definition gGetTok (g : gs) : gs := wE g (getTok (ge g)).
Definition gIsTok (k : Z) (g : gs) : option gs := match isTok k (ge g) with Some e => Some (wE g e) | None => None end.
Definition gChkTok (k : Z) (g : gs) : pres gs := let+ e := chkTok k (ge g) in POk (wE g e).
Definition gExpr (g : gs) : pres (watch * gs) := let+ (w, e) := getExpr (gnt g) (ge g) in POk (w, wE g e).
Definition gAsExpr (g : gs) : pres (watch * gs) := let+ (w, e) := getAsExpr (gnt g) (ge g) in POk (w, wE g e).
Definition emit (g : gs) (l : list asm) : gs := wE g (ES (its (ge g)) (clab (ge g)) (outp (ge g) ++ l)).

(* parser.c:179-190: isType() leaves the type found (TyNON when none) in curType *)
Definition gIsType (g : gs) : bool * gs := (isType (gnt g) (ge g), wType g (typeOf (gnt g) (ge g))).
(* parser.c:193-198 *)
Definition gGetType (g : gs) : pres gs :=
  let+ (t, d, e) := getType (gnt g) (ge g) in POk (wDim (wType (wE g e) t) d).

(* the word size of the build, NWORD: 16 in the compilers, 32 in the C translator (GNUmakefile:74-112).
   Only the value of constants depends on it. *)
Inductive word := W16 | W32.
Existing Class word.
#[global] Existing Instance W16.
Definition wOptExp {W : word} : expr -> res expr := match W with W16 => optExp | W32 => cOptExp end.

Section Source.
Variables optFlag krnFlag : bool.

(* parser.c:201-212: the index of the new entry (curIdx) *)
Definition getName (pub : bool) (g : gs) : pres (Z * gs) :=
  let+ g := gChkTok LxNAME g in
  if negb (curScope g =? ScPROT) && (curType g =? TyVOID) && (curDim g =? 0) then PErr XVoidVar
  else if negb (curScope g =? ScPROT) && (curType g =? TyINTR) then PErr XIntrVar
  else if (curType g =? TyINTR) && negb krnFlag then PErr XIntrKernel
  else match ntDefName (gnt g) (lxGetStr (ge g)) (curScope g) (curType g) (curDim g) (curCnt g) pub with
       | NOk (t, i) => POk (i, wNt g t)
       | NErr e => PErr (XName e)
       end.

(* ==== structs ==== *)
Definition nameCnt (g : gs) : pres gs := let+ (_, g) := getName false g in POk (wCnt g (curCnt g + 1)).
Fixpoint fieldNames (fuel : nat) (g : gs) : pres gs :=
  match fuel with
  | O => PFuel
  | S f => match gIsTok cCOMMA g with
           | Some g => let+ g := nameCnt g in fieldNames f g
           | None => POk g
           end
  end.
Definition gfuel (g : gs) : nat := fuelOf (ge g).
(* parser.c:218-227 *)
Definition getFieldLine (g : gs) : pres gs :=
  let+ g := gGetType g in
  let+ g := nameCnt g in
  let+ g := fieldNames (gfuel g) g in
  gChkTok cSEMI g.
Fixpoint fieldLines (fuel : nat) (g : gs) : pres gs :=
  match fuel with
  | O => PFuel
  | S f => match gIsTok cRC g with
           | Some g => POk g
           | None => let+ g := getFieldLine g in fieldLines f g
           end
  end.
(* parser.c:230-244 *)
Definition getStruct (g : gs) : pres gs :=
  let+ g := gChkTok cLC g in
  let structIdx := ntGetSize (gnt g) in
  let g := wCnt (wScope g ScFLD) 0 in
  let+ g := getFieldLine g in
  let+ g := fieldLines (gfuel g) g in
  let+ g := gChkTok cSEMI g in
  let t := ntSetVoid (gnt g) structIdx in
  POk (wNt g (ntSetCnt t (structIdx - 1) (ntGetSize t - structIdx))).

(* ==== local variables ==== *)
(* syCatNode, sytree.c:77-83, on statements *)
Definition catS (a b : stmt) : stmt :=
  match a, b with
  | SNull, _ => b
  | _, SNull => a
  | _, _ => SSemi a b
  end.
(* parser.c:727-742 *)
Definition getLVar (g : gs) : pres (stmt * gs) :=
  let g := wCnt g (curCnt g + 1) in
  let+ (i, g) := getName false g in
  match gIsTok cEQ g with
  | Some g =>
    let+ (w, g) := gAsExpr g in
    let+ w := chkCmpat w (curType g) (curDim g) in
    POk (catS (SVar i) (SExpr (E2 ASS (ELeaf (LLoc i)) (tr w))), g)
  | None => POk (SVar i, g)
  end.
Fixpoint lvarsLoop (fuel : nat) (sta : stmt) (g : gs) : pres (stmt * gs) :=
  match fuel with
  | O => PFuel
  | S f => match gIsTok cCOMMA g with
           | Some g => let+ (s, g) := getLVar g in lvarsLoop f (catS sta s) g
           | None => POk (sta, g)
           end
  end.
(* parser.c:745-752 *)
Definition getLVars (g : gs) : pres (stmt * gs) :=
  let+ g := gGetType g in
  let+ (sta, g) := getLVar g in
  let+ (sta, g) := lvarsLoop (gfuel g) sta g in
  POk (sta, if maxCnt g <? curCnt g then wMax g (curCnt g) else g).

(* ==== statements ==== *)
Definition sparser := gs -> pres (stmt * gs).
(* '(' condition ')' *)
Definition getCond (g : gs) : pres (expr * gs) :=
  let+ g := gChkTok cLP g in
  let+ (w, g) := gExpr g in
  let+ w := chkType w TyBOOL in
  let+ g := gChkTok cRP g in
  POk (tr w, g).
(* depth++; getStat(); depth-- *)
Definition body (stat : sparser) (g : gs) : pres (stmt * gs) :=
  let+ (b, g) := stat (wDepth g (depth g + 1)) in
  POk (b, wDepth g (depth g - 1)).
(* parser.c:762-774 *)
Definition getIf (stat : sparser) (g : gs) : pres (stmt * gs) :=
  let+ (c, g) := getCond g in
  let+ (b, g) := stat g in
  match gIsTok LxELSE g with
  | Some g => let+ (b2, g) := stat g in POk (SEls c b b2, g)
  | None => POk (SIf c b, g)
  end.
(* parser.c:777-789 *)
Definition getWhile (stat : sparser) (g : gs) : pres (stmt * gs) :=
  let+ (c, g) := getCond g in
  let+ (b, g) := body stat g in
  POk (SWhl c b ENull, g).
(* parser.c:792-806 *)
Definition getDoWhile (stat : sparser) (g : gs) : pres (stmt * gs) :=
  let+ (b, g) := body stat g in
  let+ g := gChkTok LxWHILE g in
  let+ (c, g) := getCond g in
  let+ g := gChkTok cSEMI g in
  POk (SDo b c, g).
(* parser.c:809-864; ini is a declaration or an expression *)
Definition getFor (stat : sparser) (g : gs) : pres (stmt * gs) :=
  let tmpIdx := ntGetSize (gnt g) in
  let tmpCnt := curCnt g in
  let+ g := gChkTok cLP g in
  let+ (ini, g) :=
    (if gtok g =? cSEMI then POk (SNull, g)
     else let '(ty, g) := gIsType g in
          if (ty : bool) then getLVars g
          else let+ (w, g) := gExpr g in POk (SExpr (tr w), g)) in
  let+ g := gChkTok cSEMI g in
  let+ (cnd, g) :=
    (if gtok g =? cSEMI then POk (ENull, g)
     else let+ (w, g) := gExpr g in
          let+ w := chkType w TyBOOL in POk (tr w, g)) in
  let+ g := gChkTok cSEMI g in
  let+ (rini, g) :=
    (if gtok g =? cRP then POk (ENull, g)
     else let+ (w, g) := gExpr g in POk (tr w, g)) in
  let+ g := gChkTok cRP g in
  let+ (b, g) := body stat g in
  POk (SBlk ini (SWhl cnd b rini), wCnt (wNt g (ntSetVoid (gnt g) tmpIdx)) tmpCnt).
(* parser.c:867-871, 874-878 *)
Definition getBreak (g : gs) : pres (stmt * gs) :=
  if depth g <=? 0 then PErr XBreak else
  let+ g := gChkTok cSEMI g in POk (SBrk, g).
Definition getCont (g : gs) : pres (stmt * gs) :=
  if depth g <=? 0 then PErr XCont else
  let+ g := gChkTok cSEMI g in POk (SCnt, g).
(* parser.c:881-895 *)
Definition getReturn (g : gs) : pres (stmt * gs) :=
  let t := typeAt (gnt g) (funcIdx g) in
  let d := dimAt (gnt g) (funcIdx g) in
  let+ (e, g) :=
    (if negb (t =? TyINTR) && (negb (t =? TyVOID) || negb (d =? 0)) then
       let+ (w, g) := gExpr g in
       let+ w := chkCmpat w t d in POk (tr w, g)
     else POk (ENull, g)) in
  let+ g := gChkTok cSEMI g in
  POk (SRet e, g).

(* parser.c:929-930 *)
Definition toBlk (s : stmt) : stmt := match s with SSemi l r => SBlk l r | _ => s end.
(* parser.c:923-931, the loop *)
Fixpoint blockLoop (stat : sparser) (fuel : nat) (lval : stmt) (g : gs) : pres (stmt * gs) :=
  match fuel with
  | O => PFuel
  | S f =>
    if (gtok g =? cRC) || (gtok g =? EOFtok) then POk (lval, g)
    else
      let+ (r, g) :=
        (let '(ty, g) := gIsType g in
         if (ty : bool) then
           let+ (r, g) := getLVars g in
           let+ g := gChkTok cSEMI g in POk (r, g)
         else stat g) in
      blockLoop stat f (catS lval r) g
  end.
(* parser.c:919-937, after '{' *)
Definition getBlock (stat : sparser) (g : gs) : pres (stmt * gs) :=
  let tmpIdx := ntGetSize (gnt g) in
  let tmpCnt := curCnt g in
  let+ (lval, g) := blockLoop stat (gfuel g) SNull g in
  let+ g := gChkTok cRC g in
  POk (toBlk lval, wCnt (wNt g (ntSetVoid (gnt g) tmpIdx)) tmpCnt).

(* parser.c:900-920; fuel: nesting depth *)
Fixpoint getStatF (fuel : nat) (g : gs) : pres (stmt * gs) :=
  match fuel with
  | O => PFuel
  | S f =>
    let stat := getStatF f in
    let ltok := gtok g in
    let g1 := gGetTok g in
    let+ (s, g) :=
      (if ltok =? LxIF then getIf stat g1
       else if ltok =? LxWHILE then getWhile stat g1
       else if ltok =? LxDO then getDoWhile stat g1
       else if ltok =? LxFOR then getFor stat g1
       else if ltok =? LxRETURN then getReturn g1
       else if ltok =? LxBREAK then getBreak g1
       else if ltok =? LxCONTINUE then getCont g1
       else if ltok =? cLC then getBlock stat g1
       else if ltok =? cSEMI then POk (SNull, g1)
       else let+ (w, g) := gExpr g in
            let+ g := gChkTok cSEMI g in POk (SExpr (tr w), g)) in
    POk (s, wLast g ltok)
  end.
Definition getStat : sparser := fun g => getStatF (gfuel g) g.

(* ==== functions ==== *)
(* parser.c:940-943 *)
Definition chkParam (g : gs) (idx : Z) : pres unit :=
  perr_if (negb (typeAt (gnt g) idx =? curType g) || negb (dimAt (gnt g) idx =? curDim g)) XParam.
(* parser.c:948-954: the loop over the parameters; the flag is lastTok==',' *)
Fixpoint paramsLoop (fuel : nat) (idx : Z) (last : bool) (g : gs) : pres (bool * gs) :=
  match fuel with
  | O => PFuel
  | S f =>
    let '(ty, g) := gIsType g in
    if (ty : bool) then
      let+ g := gGetType g in
      let+ _ := (if 1 <=? idx then chkParam g (idx + curCnt g) else POk tt) in
      let+ (_, g) := getName false g in
      match gIsTok cCOMMA g with
      | Some g => paramsLoop f idx true (wCnt g (curCnt g + 1))
      | None => POk (false, g)
      end
    else POk (last, g)
  end.
(* parser.c:946-963 *)
Definition getParams (idx : Z) (g : gs) : pres gs :=
  let+ (last, g) := paramsLoop (gfuel g) idx true (wCnt g 0) in
  let+ g :=
    (match (if last then gIsTok LxDOTDOTDOT g else None) with
     | Some g =>
       let g := wDim (wType g TyDOTDOTDOT) 0 in
       let+ _ := (if 1 <=? idx then chkParam g (idx + curCnt g) else POk tt) in
       match ntDefName (gnt g) [] (curScope g) TyDOTDOTDOT 0 (curCnt g) false with
       | NOk (t, _) => POk (wNt g t)
       | NErr e => PErr (XName e)
       end
     | None => POk g
     end) in
  gChkTok cRP g.

Definition lift_opt {A} (r : res A) : pres A := match r with Ok a => POk a | Err e => PErr (XOpt e) end.

(* what vmCode.c asks of the name table: vmCode.c:183-186 (void functions), 322-334 (field
   numbers); boolean names only matter to the semantics *)
Definition namesOf (t : table) : names :=
  Names (fun i => (typeAt t i =? TyBOOL) && (dimAt t i =? 0))
        (fun i => (typeAt t i =? TyVOID) && (dimAt t i =? 0))
        (fun i => cntAt t i).
(* the operands printed for locals and parameters are their numbers: vm2ic.c:122-131,
   165-174 (and the same in vm2vm.c, vm2tac.c) *)
Definition printed (t : table) (i : instr) : instr :=
  match i with
  | ILdLoc k => ILdLoc (cntAt t k)
  | IStLoc k => IStLoc (cntAt t k)
  | ILdPrm k => ILdPrm (cntAt t k + 1)
  | IStPrm k => IStPrm (cntAt t k + 1)
  | _ => i
  end.

(* vmCode.c:661-682 and the optimiser call, parser.c:1008-1011 *)
Definition compileBody (root : stmt) (g : gs) : pres gs :=
  let+ root := (if optFlag then lift_opt (optTree root) else POk root) in
  let intr := typeAt (gnt g) (funcIdx g) =? TyINTR in
  match VmCode.genFunc (namesOf (gnt g)) root (maxCnt g) krnFlag intr
          (Labs (clab (ge g)) (brkLab g) (cntLab g) (-1)) with
  | Some (c, l) =>
    let g := wE g (ES (its (ge g)) (cur l)
                      (outp (ge g) ++ [ANam (funcIdx g); ACode (map (printed (gnt g)) c)])) in
    POk (wLabs g (brk l) (cnt l))
  | None => PErr XGen
  end.

(* parser.c:967-1026 *)
Definition getFunc (g : gs) : pres gs :=
  let fi := ntGetSize (gnt g) - 1 in
  let g := wFunc g fi in
  let idx := ntSrcGlob (gnt g) fi in
  let+ _ := perr_if ((0 <=? idx) && ((scopeAt (gnt g) idx =? ScCOMM) || (scopeAt (gnt g) idx =? ScGVAR))) XVarBefore in
  let+ _ := perr_if ((0 <=? idx) &&
                     (negb (typeAt (gnt g) idx =? curType g) || negb (dimAt (gnt g) idx =? curDim g) ||
                      negb (Bool.eqb (pubAt (gnt g) idx) (pubFlag g)))) XFuncType in
  let+ _ := perr_if ((curType g =? TyINTR) && negb (curDim g =? 0)) XIntrArray in
  let g := wScope (wLast (gGetTok g) LxNONTOK) ScPRM in
  let prmIdx := ntGetSize (gnt g) in
  let+ g := getParams (idx + 1) g in
  let prmCnt := ntGetSize (gnt g) - prmIdx in
  let+ _ := perr_if ((typeAt (gnt g) fi =? TyINTR) && negb (prmCnt =? 0)) XIntrParam in
  let g := wNt g (ntSetCnt (gnt g) fi prmCnt) in
  let+ _ := perr_if ((0 <=? idx) && negb (cntAt (gnt g) idx =? cntAt (gnt g) fi)) XParamCnt in
  let locIdx := ntGetSize (gnt g) in
  let+ g :=
    (match gIsTok cLC g with
     | Some g =>
       let g := wScope g ScLVAR in
       let+ _ := perr_if ((0 <=? idx) && negb (scopeAt (gnt g) idx =? ScPROT)) XFuncTwice in
       let g := if 0 <=? idx then wNt g (ntSetScope (gnt g) idx ScFUNC) else g in
       let g := wNt g (ntSetScope (gnt g) fi ScFUNC) in
       let g := wCnt (wMax g 0) 0 in
       let+ (root, g) := getBlock getStat g in
       let+ _ := perr_if ((negb (typeAt (gnt g) fi =? TyVOID) || negb (dimAt (gnt g) fi =? 0)) &&
                          negb (typeAt (gnt g) fi =? TyINTR) && negb (lastStat g =? LxRETURN)) XNoReturn in
       compileBody root g
     | None => gChkTok cSEMI g
     end) in
  POk (if 0 <=? idx then wNt g (ntUndefName (gnt g) fi)
       else wNt g (ntSetVoid (ntUndefName (gnt g) locIdx) prmIdx)).

(* ==== initialised data ==== *)
(* the trees built by the initialiser functions: constants, addresses, strings, SEMI, LIST
   and ARRY nodes (the latter two with their rVal) *)
Inductive dat :=
| DNull | DCnst (v : Z) | DAddr (i : Z) | DStr (l : Z) | DSemi (l r : dat) | DList (d : dat) (r : Z) | DArry (d : dat) (r : Z).
Definition catD (a b : dat) : dat :=
  match a, b with
  | DNull, _ => b
  | _, DNull => a
  | _, _ => DSemi a b
  end.

(* parser.c:1034-1045 *)
Definition getCnst {W : word} (typ : Z) (g : gs) : pres (dat * gs) :=
  let+ (w, g) := gAsExpr g in
  let+ w := chkCmpat w typ 0 in
  let+ e := lift_opt (wOptExp (tr w)) in
  match e with
  | Cnst v => POk (DCnst v, g)
  | ELeaf (LAddr i) => POk (DAddr i, g)
  | ELeaf (LStr l) => POk (DStr l, g)
  | _ => PErr XCnst
  end.
(* syGetLVal of a constant node *)
Definition dLVal (d : dat) : Z := match d with DCnst v => v | DAddr i => i | DStr l => l | _ => 0 end.

(* parser.c:1048-1058 *)
Fixpoint getArray0 {W : word} (fuel : nat) (dim : Z) (g : gs) : pres (dat * gs) :=
  match fuel with
  | O => PFuel
  | S f =>
    if dim <=? 0 then PErr XArrDim else
    let+ (n, g) := getCnst TyINT g in
    if dLVal n <=? 0 then PErr XArrSize else
    match gIsTok cCOMMA g with
    | Some g => let+ (l, g) := getArray0 f (dim - 1) g in POk (catD l n, g)
    | None => POk (n, g)
    end
  end.
Definition byteDim (t dim : Z) : Z := if (t =? TyCHAR) || (t =? TyBOOL) then dim else 0.
(* parser.c:1060-1068 *)
Definition getArray {W : word} (dim : Z) (g : gs) : pres (dat * gs) :=
  let+ g := gChkTok cLP g in
  let+ (n, g) := getArray0 (gfuel g) dim g in
  let+ g := gChkTok cRP g in
  POk (DArry n (byteDim (curType g) dim), g).

Definition gStr (g : gs) : Z * gs := let '(l, e) := genStr (lxGetStr (ge g)) (ge g) in (l, wE g e).

(* parser.c:1078-1097: one field *)
Definition fieldInit {W : word} (i : Z) (g : gs) : pres (dat * gs) :=
  let t := typeAt (gnt g) i in
  if t <=? 0 then let+ g := gChkTok LxNUL g in POk (DCnst 0, g)
  else if 0 <? dimAt (gnt g) i then
    match gIsTok LxSTRING g with
    | Some g =>
      if negb (dimAt (gnt g) i =? 1) || negb (t =? TyCHAR) then PErr XStrInit
      else let '(l, g) := gStr g in POk (DStr l, g)
    | None => match gIsTok LxNUL g with
              | Some g => POk (DCnst 0, g)
              | None => PErr XFieldInit
              end
    end
  else if t =? TyINT then getCnst TyINT g
  else if t =? TyBOOL then getCnst TyBOOL g
  else if t =? TyCHAR then getCnst TyCHAR g
  else PErr XBug.
(* parser.c:1074-1103 *)
Fixpoint structLoop {W : word} (fuel : nat) (i : Z) (node : dat) (g : gs) : pres (dat * gs) :=
  match fuel with
  | O => PFuel
  | S f =>
    if (ntGetSize (gnt g) <=? i) || negb (scopeAt (gnt g) i =? ScVOID) then PErr XManyInit else
    let+ (n, g) := fieldInit i g in
    let node := catD node n in
    let i := i + 1 in
    match gIsTok cCOMMA g with
    | Some g => structLoop f i node g
    | None => if (i <? ntGetSize (gnt g)) && (scopeAt (gnt g) i =? ScVOID) then PErr XFewInit
              else POk (node, g)
    end
  end.
Definition getStructInit0 {W : word} (g : gs) : pres (dat * gs) := structLoop (gfuel g) (- curType g + 1) DNull g.
(* parser.c:1106-1117 *)
Definition getStructInit {W : word} (g : gs) : pres (dat * gs) :=
  match gIsTok LxNUL g with
  | Some g => POk (DCnst 0, g)
  | None =>
    let+ g := gChkTok cLC g in
    let+ (n, g) := getStructInit0 g in
    let+ g := gChkTok cRC g in
    POk (DList n 0, g)
  end.

(* the do .. while (isTok(',')) loops of getGArrayInit0 *)
Fixpoint itemLoop (item : gs -> pres (dat * gs)) (fuel : nat) (node : dat) (g : gs) : pres (dat * gs) :=
  match fuel with
  | O => PFuel
  | S f =>
    let+ (n, g) := item g in
    let node := catD node n in
    match gIsTok cCOMMA g with
    | Some g => itemLoop item f node g
    | None => POk (node, g)
    end
  end.
(* parser.c:1120-1149 *)
Definition getGArrayInit0 {W : word} (init : Z -> gs -> pres (dat * gs)) (dim : Z) (g : gs) : pres (dat * gs) :=
  let+ (node, g) :=
    (if dim <=? 1 then
       if curType g <=? 0 then itemLoop getStructInit (gfuel g) DNull g
       else if (curType g =? TyINT) || (curType g =? TyCHAR) || (curType g =? TyBOOL)
            then itemLoop (getCnst (curType g)) (gfuel g) DNull g
       else PErr XBug
     else itemLoop (init (dim - 1)) (gfuel g) DNull g) in
  POk (DList node (byteDim (curType g) dim), g).
(* parser.c:1152-1168; fuel: nesting depth *)
Fixpoint getGArrayInitF {W : word} (fuel : nat) (dim : Z) (g : gs) : pres (dat * gs) :=
  match fuel with
  | O => PFuel
  | S f =>
    match gIsTok cLC g with
    | Some g =>
      let+ (n, g) := getGArrayInit0 (getGArrayInitF f) dim g in
      let+ g := gChkTok cRC g in
      POk (n, g)
    | None =>
    match gIsTok LxSTRING g with
    | Some g =>
      if negb (curType g =? TyCHAR) || negb (dim =? 1) then PErr XStrInit
      else let '(l, g) := gStr g in POk (DStr l, g)
    | None =>
    match gIsTok LxARRAY g with
    | Some g => getArray dim g
    | None =>
    match gIsTok LxNUL g with
    | Some g => POk (DCnst 0, g)
    | None => PErr XArrInit
    end end end end
  end.
Definition getGArrayInit {W : word} (dim : Z) (g : gs) : pres (dat * gs) := getGArrayInitF (gfuel g) dim g.

(* ---- vmCode.c: data; None is a call of error() ---- *)
(* vmCode.c:690-708 *)
Definition genDW (d : dat) : option (list asm) :=
  match d with
  | DList _ r | DArry _ r => Some [ADwLab r]
  | DStr l => Some [ADwLab l]
  | DAddr i => Some [ADwName i]
  | DCnst v => Some [ADwCns v]
  | _ => None
  end.
(* the inner loop, vmCode.c:727-730 *)
Fixpoint dwLabs (cnt : nat) (ln : Z) : list asm :=
  match cnt with O => [] | S k => ADwLab ln :: dwLabs k (ln + 1) end.
(* the outer loop, vmCode.c:723-731; l = the last label used *)
Fixpoint ptrRows (n cnt : nat) (ln l : Z) : list asm :=
  match n with
  | O => []
  | S k => ALab (l + 1) :: dwLabs cnt ln ++ ptrRows k cnt (ln + Z.of_nat cnt) (l + 1)
  end.
(* vmCode.c:733-741 *)
Fixpoint endRows (n : nat) (dir : asm) (l : Z) : list asm :=
  match n with
  | O => []
  | S k => ALab (l + 1) :: dir :: endRows k dir (l + 1)
  end.
(* vmCode.c:711-744: first label, code, label counter; d the byte dimension.
   The C ints n*cnt do not overflow here *)
Fixpoint genArray0 (node : dat) (n d l : Z) : option (Z * list asm * Z) :=
  let first l := if n <=? 0 then -1 else l + 1 in
  match node with
  | DSemi lv (DCnst cnt) =>
    do (ln, c, l1) <- genArray0 lv (n * cnt) (d - 1) l;
    Some (first l1, c ++ ptrRows (Z.to_nat n) (Z.to_nat cnt) ln l1, l1 + Z.max 0 n)
  | DCnst v =>
    Some (first l, endRows (Z.to_nat n) (if d =? 1 then ABs v else AWs v) l, l + Z.max 0 n)
  | _ => None
  end.
(* vmCode.c:754-779: the tree with its labels filled in, the code, the label counter *)
Fixpoint genList0 (node : dat) (dim : Z) (byt : bool) (l : Z) : option (dat * list asm * Z) :=
  match node with
  | DSemi a b =>
    do (a', c1, l1) <- genList0 a dim byt l;
    do (b', c2, l2) <- genList0 b dim byt l1;
    Some (DSemi a' b', c1 ++ c2, l2)
  | _ =>
    if dim =? 0 then
      (if byt then match node with DCnst v => Some (node, [ADbCns v], l) | _ => None end
       else do c <- genDW node; Some (node, c, l))
    else
      match node with
      | DList d r =>
        if dim =? 1 then
          do (d', c, l1) <- genList0 d (dim - 1) (r =? 1) (l + 1);
          Some (DList d' (l + 1), ALab (l + 1) :: c, l1)
        else
          do (d', c, l1) <- genList0 d (dim - 1) (r =? 1) l;
          Some (DList d' r, c, l1)
      | DArry d r =>
        if dim =? 1 then
          do (lab, c, l1) <- genArray0 d 1 r l;
          Some (DArry d lab, c, l1)
        else Some (node, [], l)
      | _ => Some (node, [], l)
      end
  end.
(* vmCode.c:781-787: the passes dim, dim-1, ..., 1 *)
Fixpoint genList (k : nat) (node : dat) (l : Z) : option (dat * list asm * Z) :=
  match k with
  | O => Some (node, [], l)
  | S k' =>
    do (n1, c1, l1) <- genList0 node (Z.of_nat k) false l;
    do (n2, c2, l2) <- genList k' n1 l1;
    Some (n2, c1 ++ c2, l2)
  end.
(* vmCode.c:790-800; dim the dimension of the variable *)
Definition genData (idx dim : Z) (root : dat) (l : Z) : option (list asm * Z) :=
  do (root, c, l) <-
    (match root with
     | DList _ _ => genList (Z.to_nat (dim + 1)) root l
     | DArry d r => do (lab, c, l1) <- genArray0 d 1 r l; Some (DArry d lab, c, l1)
     | _ => Some (root, [], l)
     end);
  do dw <- genDW root;
  Some (c ++ [ANam idx] ++ dw, l).
(* vmCode.c:803-806 *)
Definition genBss (idx : Z) : list asm := [ANam idx; AWs 1].

(* ==== global variables ==== *)
(* parser.c:1171-1210 *)
Definition getGVar (g : gs) : pres gs :=
  let ci := ntGetSize (gnt g) - 1 in
  let idx := ntSrcGlob (gnt g) ci in
  let+ g :=
    (match gIsTok cEQ g with
     | Some g =>
       let g := wNt g (ntSetScope (gnt g) ci ScGVAR) in
       let+ (d, g) :=
         (if 0 <? curDim g then getGArrayInit (curDim g) g
          else if (curType g =? TyINT) || (curType g =? TyCHAR) || (curType g =? TyBOOL) then getCnst (curType g) g
          else if curType g <=? 0 then getStructInit g
          else PErr XBug) in
       match genData ci (dimAt (gnt g) ci) d (clab (ge g)) with
       | None => PErr XGen
       | Some (c, l) =>
         let g := wE g (ES (its (ge g)) l (outp (ge g) ++ c)) in
         if 0 <=? idx then
           if negb (scopeAt (gnt g) idx =? ScCOMM) then PErr XTwice
           else POk (wNt g (ntUndefName (ntSetScope (gnt g) idx ScGVAR) ci))
         else POk g
       end
     | None =>
       if 0 <=? idx then
         if (scopeAt (gnt g) idx =? ScCOMM) || (scopeAt (gnt g) idx =? ScGVAR)
         then POk (wNt g (ntUndefName (gnt g) ci))
         else PErr XFuncBefore
       else POk (emit g (genBss ci))
     end) in
  let+ _ := perr_if ((0 <=? idx) &&
                     (negb (typeAt (gnt g) idx =? curType g) || negb (dimAt (gnt g) idx =? curDim g) ||
                      negb (Bool.eqb (pubAt (gnt g) idx) (pubFlag g)))) XVarType in
  POk g.
Fixpoint gvarsLoop (fuel : nat) (g : gs) : pres gs :=
  match fuel with
  | O => PFuel
  | S f =>
    match gIsTok cCOMMA g with
    | Some g =>
      let+ (_, g) := getName (pubFlag g) g in
      let+ g := getGVar g in
      gvarsLoop f g
    | None => POk g
    end
  end.
(* parser.c:1213-1220 *)
Definition getGVars (g : gs) : pres gs :=
  let+ g := getGVar g in
  let+ g := gvarsLoop (gfuel g) g in
  gChkTok cSEMI g.

(* ==== the source ==== *)
(* parser.c:1223-1258 *)
Definition getProg (g : gs) : pres gs :=
  let g := wPub g false in
  let g := match gIsTok LxPUBLIC g with Some g => wPub g true | None => g end in
  match gIsTok LxSTRUCT g with
  | Some g =>
    let g := wType (wScope g ScSTRC) TySTRUC in
    if pubFlag g then PErr XPubStruct else
    let+ (_, g) := getName false g in
    getStruct g
  | None =>
  match gIsTok LxTYPEDEF g with
  | Some g =>
    let g := wType (wScope g ScSTRC) TyREF in
    if pubFlag g then PErr XPubTypedef else
    let+ (_, g) := getName false g in
    gChkTok cSEMI g
  | None =>
    let g := wScope g ScPROT in
    let+ g := gGetType g in
    let+ (_, g) := getName (pubFlag g) g in
    if gtok g =? cLP then getFunc g
    else
      let g := wScope (wNt g (ntSetScope (gnt g) (ntGetSize (gnt g) - 1) ScCOMM)) ScCOMM in
      if (curType g =? TyVOID) && (curDim g =? 0) then PErr XVoidVar
      else if curType g =? TyINTR then PErr XIntrVar
      else getGVars g
  end end.
Fixpoint progLoop (fuel : nat) (g : gs) : pres gs :=
  match fuel with
  | O => PFuel
  | S f => if gtok g =? EOFtok then POk g else let+ g := getProg g in progLoop f g
  end.
(* parser.c:1270-1274 with the initial values of the globals *)
Definition gInit (l : list item) : gs :=
  GS (ES (skipFile l) 0 []) [] 0 0 0 0 false 0 0 0 LxNONTOK 0 0.
Definition psGetSrc (l : list item) : pres gs := progLoop (S (List.length l)) (gInit l).
End Source.

(* main.c: the compiler from the characters of the source to the output *)
Inductive cres := COut (l : list asm) | CReject | CUndef | CStuck.
Definition compile (opt krn : bool) (file : list Z) : cres :=
  match lexAll file with
  | LOk l =>
    match psGetSrc opt krn l with
    | POk g => COut (outp (ge g))
    | PErr _ => CReject
    | PUndef => CUndef
    | PFuel => CStuck
    end
  | LErr _ => CReject
  | LUndef _ => CUndef
  end.
