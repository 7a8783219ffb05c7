(* The text written by the three back ends that print the virtual machine code:
   src/vm2vm.c (assembly of the virtual machine), src/vm2ic.c (intermediate code) and
   src/vm2tac.c (TaC assembly), and the compiler up to that text.
   Names are printed from the name table as it is at the moment of printing
   (vm2vm.c:60-64, vm2tac.c:106-113).  The table changes while a file is compiled: an index
   given back by ntUndefName is used again for the next name.  Therefore the functions of
   parser.c that print are repeated here with the text they add; that they are the functions
   of ParserStmt.v otherwise is Theorem pieces_compile of TextGrow.v. *)
From Coq Require Import ZArith Bool Lia String Ascii List.
From Verif Require Import Lexer NameTable SyTree OpTree VM VmCode Parser ParserStmt CCode TacSpec Tac TacFrom.
Import ListNotations.
Open Scope Z_scope.

Definition eol : list Z := [10].
Definition tab : list Z := [9].
(* ntGetName, namtbl.c *)
Definition nameAt (t : table) (i : Z) : list Z := match NameTable.ent t i with Some e => nName e | None => [] end.
(* vm2vm.c:60-64, vm2tac.c:106-113: '_' before public names, '.' before others *)
Definition symText (t : table) (i : Z) : list Z := codes (if pubAt t i then "_" else ".") ++ nameAt t i.
(* vm2vm.c:67-69, vm2tac.c *)
Definition labText (l : Z) : list Z := codes ".L" ++ dec l.

(* ==== vm2vm.c ==== *)
Definition ins0 (m : string) : list Z := tab ++ codes m ++ eol.
Definition ins1 (m : string) (a : list Z) : list Z := tab ++ codes m ++ tab ++ a ++ eol.
(* vm2vm.c:222-343: unary operators, binary operators; other operators never reach the
   back end (C53) *)
Definition mnem1 (o : op1) : string :=
  match o with NEG => "NEG" | NOT => "NOT" | BNOT => "BNOT" | CHR => "CHR" | BOOL => "BOOL" end.
Definition mnem2 (o : op2) : string :=
  match o with
  | ADD => "ADD" | SUB => "SUB" | SHL => "SHL" | SHR => "SHR" | BAND => "BAND" | BXOR => "BXOR" | BOR => "BOR"
  | MUL => "MUL" | DIV => "DIV" | MOD => "MOD" | GT => "GT" | GE => "GE" | LT => "LT" | LE => "LE"
  | EQU => "EQ" | NEQ => "NE" | _ => "?"
  end.
(* one call of the interface vm.h; locals and parameters by ntGetCnt (TacFrom.v) *)
Definition vmOp (t : table) (i : instr) : list Z :=
  match i with
  | ILab l => labText l ++ eol                                       (* 67-69 *)
  | IEntry d => ins1 "ENTRY" (dec d)                                 (* 72-74 *)
  | IEntryK d => ins1 "ENTRYK" (dec d)                               (* 77-79 *)
  | IRet => ins0 "RET"                                               (* 82-84 *)
  | IEntryI d => ins1 "ENTRYI" (dec d)                               (* 87-89 *)
  | IRetI => ins0 "RETI"                                             (* 92-94 *)
  | IMReg => ins0 "MREG"                                             (* 97-99 *)
  | IArg => ins0 "ARG"                                               (* 102-104 *)
  | ICallP n f => ins1 "CALLP" (dec (Z.of_nat n) ++ codes "," ++ symText t f)   (* 107-110 *)
  | ICallF n f => ins1 "CALLF" (dec (Z.of_nat n) ++ codes "," ++ symText t f)   (* 113-116 *)
  | IJmp l => ins1 "JMP" (labText l)                                 (* 119-122 *)
  | IJT l => ins1 "JT" (labText l)                                   (* 125-128 *)
  | IJF l => ins1 "JF" (labText l)                                   (* 131-134 *)
  | ILdCns c => ins1 "LDC" (dec c)                                   (* 137-139 *)
  | ILdGlb i => ins1 "LDG" (symText t i)                             (* 142-145 *)
  | ILdLoc n => ins1 "LDL" (dec n)                                   (* 148-151 *)
  | ILdPrm n => ins1 "LDP" (dec (n + 1))                             (* 154-157 *)
  | ILdLab l => ins1 "LDC" (labText l)                               (* 160-163 *)
  | ILdWrd => ins0 "LDW"                                             (* 167-169 *)
  | ILdByt => ins0 "LDB"                                             (* 173-175 *)
  | ILdNam i => ins1 "LDC" (symText t i)                             (* 178-181 *)
  | IStGlb i => ins1 "STG" (symText t i)                             (* 184-187 *)
  | IStLoc n => ins1 "STL" (dec n)                                   (* 190-193 *)
  | IStPrm n => ins1 "STP" (dec (n + 1))                             (* 196-199 *)
  | IStWrd => ins0 "STW"                                             (* 204-206 *)
  | IStByt => ins0 "STB"                                             (* 211-213 *)
  | IUn o => ins0 (mnem1 o)
  | IBin o => ins0 (mnem2 o)
  | IPop => ins0 "POP"                                               (* 346-348 *)
  end.
(* vm2vm.c:354-385: vmBoolOR (x = 1) and vmBoolAND (x = 0) *)
Definition vmBool (t : table) (x l1 l2 l3 : Z) : list Z :=
  codes (if x =? 1 then "; BOOLOR " else "; BOOLAND ") ++ labText l1 ++ codes "," ++ labText l2 ++ codes "," ++ labText l3 ++ eol ++
  vmOp t (IJmp l3) ++ vmOp t (ILab l1) ++ vmOp t (ILdCns x) ++
  (if l2 =? -1 then [] else vmOp t (IJmp l3) ++ vmOp t (ILab l2) ++ vmOp t (ILdCns (1 - x))) ++
  vmOp t (ILab l3) ++ codes "; ----" ++ eol.
Definition vmVop (t : table) (v : vop) : list Z :=
  match v with VI i => vmOp t i | VBool x l1 l2 l3 => vmBool t x l1 l2 l3 end.
Definition quote (s : list Z) : list Z := [34] ++ s ++ [34].
(* the calls that print data: vm2vm.c:60-69, 391-427 *)
Definition vmItem (t : table) (a : asm) : list Z :=
  match a with
  | ALab l => labText l ++ eol
  | ANam i => symText t i ++ eol
  | ADwName i => ins1 "DW" (symText t i)
  | ADwLab l => ins1 "DW" (labText l)
  | ADwCns n => ins1 "DW" (dec n)
  | ADbCns n => ins1 "DB" (dec n)
  | AWs n => ins1 "WS" (dec n)
  | ABs n => ins1 "BS" (dec n)
  | AStr s => ins1 "STRING" (quote s)
  | ACode c => flat_map (vmVop t) (vops c)
  end.
(* a back end: the name table, the calls, its counter of labels before; None: error() or an
   access outside its arrays *)
Definition backend : Type := table -> list asm -> Z -> option (list Z * Z).
Definition vm2vm : backend := fun t l n => Some (flat_map (vmItem t) l, n).

(* ==== vm2ic.c ==== *)
Definition call (f : string) (args : list Z) : list Z := codes f ++ codes "(" ++ args ++ codes ")" ++ eol.
Definition call0 (f : string) : list Z := call f [].
Definition call1 (f : string) (n : Z) : list Z := call f (dec n).
(* vm2ic.c:185-300 *)
Definition ic1 (o : op1) : string :=
  match o with NEG => "vmNeg" | NOT => "vmNot" | BNOT => "vmBNot" | CHR => "vmChr" | BOOL => "vmBool" end.
Definition ic2 (o : op2) : string :=
  match o with
  | ADD => "vmAdd" | SUB => "vmSub" | SHL => "vmShl" | SHR => "vmShr" | BAND => "vmBAnd" | BXOR => "vmBXor" | BOR => "vmBOr"
  | MUL => "vmMul" | DIV => "vmDiv" | MOD => "vmMod" | GT => "vmGt" | GE => "vmGe" | LT => "vmLt" | LE => "vmLe"
  | EQU => "vmEq" | NEQ => "vmNe" | _ => "?"
  end.
(* vm2ic.c:46-316 *)
Definition icOp (i : instr) : list Z :=
  match i with
  | ILab l => call1 "vmLab" l
  | IEntry d => call1 "vmEntry" d
  | IEntryK d => call1 "vmEntryK" d
  | IRet => call0 "vmRet"
  | IEntryI d => call1 "vmEntryI" d
  | IRetI => call0 "vmRetI"
  | IMReg => call0 "vmMReg"
  | IArg => call0 "vmArg"
  | ICallP n f => call "vmCallP" (dec (Z.of_nat n) ++ codes ", " ++ dec f)
  | ICallF n f => call "vmCallF" (dec (Z.of_nat n) ++ codes ", " ++ dec f)
  | IJmp l => call1 "vmJmp" l
  | IJT l => call1 "vmJT" l
  | IJF l => call1 "vmJF" l
  | ILdCns c => call1 "vmLdCns" c
  | ILdGlb i => call1 "vmLdGlb" i
  | ILdLoc n => call1 "vmLdLoc" n
  | ILdPrm n => call1 "vmLdPrm" (n + 1)
  | ILdLab l => call1 "vmLdLab" l
  | ILdWrd => call0 "vmLdWrd"
  | ILdByt => call0 "vmLdByt"
  | ILdNam i => call1 "vmLdNam" i
  | IStGlb i => call1 "vmStGlb" i
  | IStLoc n => call1 "vmStLoc" n
  | IStPrm n => call1 "vmStPrm" (n + 1)
  | IStWrd => call0 "vmStWrd"
  | IStByt => call0 "vmStByt"
  | IUn o => call0 (ic1 o)
  | IBin o => call0 (ic2 o)
  | IPop => call0 "vmPop"
  end.
(* vm2ic.c:322-331 *)
Definition icVop (v : vop) : list Z :=
  match v with
  | VI i => icOp i
  | VBool x l1 l2 l3 => call (if x =? 1 then "vmBoolOR" else "vmBoolAND") (dec l1 ++ codes ", " ++ dec l2 ++ codes ", " ++ dec l3)
  end.
(* vm2ic.c:41-48, 337-370 *)
Definition icItem (a : asm) : list Z :=
  match a with
  | ALab l => call1 "vmLab" l
  | ANam i => call1 "vmNam" i
  | ADwName i => call1 "vmDwName" i
  | ADwLab l => call1 "vmDwLab" l
  | ADwCns n => call1 "vmDwCns" n
  | ADbCns n => call1 "vmDbCns" n
  | AWs n => call1 "vmWs" n
  | ABs n => call1 "vmBs" n
  | AStr s => call "vmStr" (quote s)
  | ACode c => flat_map icVop (vops c)
  end.
Definition vm2ic : backend := fun t l n => Some (flat_map icItem l, n).

(* ==== vm2tac.c ==== *)
(* vm2tac.c:64-67 *)
Definition regText (r : Z) : list Z := codes "G" ++ dec r.
Definition tlabText (l : tlabel) : list Z := match l with LbL n => labText n | LbT n => codes ".T" ++ dec n end.
(* vm2tac.c:175-212.  Simplification: the mask 0x00ff of vmChr (vm2tac.c:672) is printed as
   the number 255 *)
Definition opdText (t : table) (o : opd) : list Z :=
  match o with
  | OImm c => codes "#" ++ dec c
  | OGlb i => symText t i
  | OReg r => regText r
  | OFp d => dec d ++ codes ",FP"
  | OLab l => codes "#" ++ labText l
  | ONam i => codes "#" ++ symText t i
  | OWnd r => codes "0," ++ regText r
  | OByt r => codes "@" ++ regText r
  end.
Definition aluText (a : alu) : string :=
  match a with
  | AAdd => "ADD" | AAdds => "ADDS" | ASub => "SUB" | AAnd => "AND" | AOr => "OR" | AXor => "XOR"
  | AShl => "SHLA" | AShr => "SHRA" | AMul => "MUL" | ADiv => "DIV" | AMod => "MOD"
  end.
(* vm2tac.c:118 *)
Definition ccText (c : cc) : string :=
  match c with JLT => "JLT" | JLE => "JLE" | JEQ => "JZ" | JGE => "JGE" | JGT => "JGT" | JNZ => "JNZ" end.
Definition tinText (t : table) (i : tin) : list Z :=
  match i with
  | TLd r o => ins1 "LD" (regText r ++ codes "," ++ opdText t o)
  | TAlu a r o => ins1 (aluText a) (regText r ++ codes "," ++ opdText t o)
  | TCmp r o => ins1 "CMP" (regText r ++ codes "," ++ opdText t o)
  | TStG r i => ins1 "ST" (regText r ++ codes "," ++ symText t i)
  | TStF r d => ins1 "ST" (regText r ++ codes "," ++ dec d ++ codes ",FP")
  | TStW r b => ins1 "ST" (regText r ++ codes ",0," ++ regText b)
  | TStB r b => ins1 "ST" (regText r ++ codes ",@" ++ regText b)
  | TPush r => ins1 "PUSH" (regText r)
  | TPop r => ins1 "POP" (regText r)
  | TPushFP => ins1 "PUSH" (codes "FP")
  | TPopFP => ins1 "POP" (codes "FP")
  | TLdFPSP => ins1 "LD" (codes "FP,SP")
  | TLdSPFP => ins1 "LD" (codes "SP,FP")
  | TSubSP n => ins1 "SUB" (codes "SP,#" ++ dec n)
  | TAddSP n => ins1 "ADD" (codes "SP,#" ++ dec n)
  | TCall _ f => ins1 "CALL" (symText t f)
  | TStkChk => ins1 "CALL" (codes "__stkChk")
  | TJmp l => ins1 "JMP" (tlabText l)
  | TJcc c l => ins1 (ccText c) (tlabText l)
  | TLab l => tlabText l ++ eol
  | TRet => ins0 "RET"
  | TRetI => ins0 "RETI"
  end.
(* outside of functions a label is followed by its directive on the same line
   (vm2tac.c:296-305); vmDwName reads below its stack there (C27) *)
Definition tacItem (t : table) (a : asm) (n : Z) : option (list Z * Z) :=
  match a with
  | ALab l => Some (labText l, n)
  | ANam i => Some (symText t i, n)
  | ADwName _ => None
  | ADwLab l => Some (ins1 "DW" (labText l), n)
  | ADwCns v => Some (ins1 "DW" (dec v), n)
  | ADbCns v => Some (ins1 "DB" (dec v), n)
  | AWs v => Some (ins1 "WS" (dec v), n)
  | ABs v => Some (ins1 "BS" (dec v), n)
  | AStr s => Some (ins1 "STRING" (quote s), n)
  | ACode c =>
    match tac false false 0 0 (vops c) (tinit n) with
    | Some (C, s) => Some (flat_map (tinText t) C, Tac.tl s)
    | None => None
    end
  end.
Fixpoint vm2tac (t : table) (l : list asm) (n : Z) : option (list Z * Z) :=
  match l with
  | [] => Some ([], n)
  | a :: r =>
    match tacItem t a n with
    | Some (x, n1) => match vm2tac t r n1 with Some (y, n2) => Some (x ++ y, n2) | None => None end
    | None => None
    end
  end.

(* ==== the compiler with the text ==== *)
Section Text.
Variables optFlag krnFlag : bool.

(* calls of the back end, with the name table of their moment *)
Definition piece : Type := (table * list asm)%type.
(* what was put out between g and g1 is printed with the names of g1 *)
Definition printNew (g g1 : gs) (x : list piece) : list piece :=
  x ++ [(gnt g1, skipn (List.length (outp (ge g))) (outp (ge g1)))].

(* parser.c:967-1026; getFunc of ParserStmt.v *)
Definition getFuncT (g0 : gs) (x : list piece) : pres (gs * list piece) :=
  let fi := ntGetSize (gnt g0) - 1 in
  let g := wFunc g0 fi in
  let idx := ntSrcGlob (gnt g) fi in
  let+ _ := perr_if ((0 <=? idx) && ((scopeAt (gnt g) idx =? ScCOMM) || (scopeAt (gnt g) idx =? ScGVAR))) XVarBefore in
  let+ _ := perr_if ((0 <=? idx) &&
                     (negb (typeAt (gnt g) idx =? curType g) || negb (dimAt (gnt g) idx =? curDim g) ||
                      negb (Bool.eqb (pubAt (gnt g) idx) (pubFlag g)))) XFuncType in
  let+ _ := perr_if ((curType g =? TyINTR) && negb (curDim g =? 0)) XIntrArray in
  let g := wScope (wLast (gGetTok g) LxNONTOK) ScPRM in
  let prmIdx := ntGetSize (gnt g) in
  let+ g := getParams krnFlag (idx + 1) g in
  let prmCnt := ntGetSize (gnt g) - prmIdx in
  let+ _ := perr_if ((typeAt (gnt g) fi =? TyINTR) && negb (prmCnt =? 0)) XIntrParam in
  let g := wNt g (ntSetCnt (gnt g) fi prmCnt) in
  let+ _ := perr_if ((0 <=? idx) && negb (cntAt (gnt g) idx =? cntAt (gnt g) fi)) XParamCnt in
  let locIdx := ntGetSize (gnt g) in
  let+ g :=
    (match gIsTok cLC g with
     | Some g =>
       let g := wScope g ScLVAR in
       let+ _ := perr_if ((0 <=? idx) && negb (scopeAt (gnt g) idx =? ScPROT)) XFuncTwice in
       let g := if 0 <=? idx then wNt g (ntSetScope (gnt g) idx ScFUNC) else g in
       let g := wNt g (ntSetScope (gnt g) fi ScFUNC) in
       let g := wCnt (wMax g 0) 0 in
       let+ (root, g) := getBlock krnFlag (getStat krnFlag) g in
       let+ _ := perr_if ((negb (typeAt (gnt g) fi =? TyVOID) || negb (dimAt (gnt g) fi =? 0)) &&
                          negb (typeAt (gnt g) fi =? TyINTR) && negb (lastStat g =? LxRETURN)) XNoReturn in
       compileBody optFlag krnFlag root g
     | None => gChkTok cSEMI g
     end) in
  let x := printNew g0 g x in
  POk (if 0 <=? idx then wNt g (ntUndefName (gnt g) fi)
       else wNt g (ntSetVoid (ntUndefName (gnt g) locIdx) prmIdx), x).

(* parser.c:1171-1210; getGVar of ParserStmt.v *)
Definition getGVarT (g0 : gs) (x : list piece) : pres (gs * list piece) :=
  let ci := ntGetSize (gnt g0) - 1 in
  let idx := ntSrcGlob (gnt g0) ci in
  let+ (g, x) :=
    (match gIsTok cEQ g0 with
     | Some g =>
       let g := wNt g (ntSetScope (gnt g) ci ScGVAR) in
       let+ (d, g) :=
         (if 0 <? curDim g then getGArrayInit (curDim g) g
          else if (curType g =? TyINT) || (curType g =? TyCHAR) || (curType g =? TyBOOL) then getCnst (curType g) g
          else if curType g <=? 0 then getStructInit g
          else PErr XBug) in
       match genData ci (dimAt (gnt g) ci) d (clab (ge g)) with
       | None => PErr XGen
       | Some (c, l) =>
         let g := wE g (ES (its (ge g)) l (outp (ge g) ++ c)) in
         let x := printNew g0 g x in
         if 0 <=? idx then
           if negb (scopeAt (gnt g) idx =? ScCOMM) then PErr XTwice
           else POk (wNt g (ntUndefName (ntSetScope (gnt g) idx ScGVAR) ci), x)
         else POk (g, x)
       end
     | None =>
       if 0 <=? idx then
         if (scopeAt (gnt g0) idx =? ScCOMM) || (scopeAt (gnt g0) idx =? ScGVAR)
         then POk (wNt g0 (ntUndefName (gnt g0) ci), x)
         else PErr XFuncBefore
       else let g := ParserStmt.emit g0 (genBss ci) in POk (g, printNew g0 g x)
     end) in
  let+ _ := perr_if ((0 <=? idx) &&
                     (negb (typeAt (gnt g) idx =? curType g) || negb (dimAt (gnt g) idx =? curDim g) ||
                      negb (Bool.eqb (pubAt (gnt g) idx) (pubFlag g)))) XVarType in
  POk (g, x).
Fixpoint gvarsLoopT (fuel : nat) (g : gs) (x : list piece) : pres (gs * list piece) :=
  match fuel with
  | O => PFuel
  | S f =>
    match gIsTok cCOMMA g with
    | Some g =>
      let+ (_, g) := getName krnFlag (pubFlag g) g in
      let+ (g, x) := getGVarT g x in
      gvarsLoopT f g x
    | None => POk (g, x)
    end
  end.
(* parser.c:1213-1220 *)
Definition getGVarsT (g : gs) (x : list piece) : pres (gs * list piece) :=
  let+ (g, x) := getGVarT g x in
  let+ (g, x) := gvarsLoopT (gfuel g) g x in
  let+ g := gChkTok cSEMI g in POk (g, x).
(* parser.c:1223-1258; structs and type names print nothing *)
Definition getProgT (g : gs) (x : list piece) : pres (gs * list piece) :=
  let g0 := g in
  let g := wPub g false in
  let g := match gIsTok LxPUBLIC g with Some g => wPub g true | None => g end in
  match gIsTok LxSTRUCT g with
  | Some _ => let+ g := getProg optFlag krnFlag g0 in POk (g, x)
  | None =>
  match gIsTok LxTYPEDEF g with
  | Some _ => let+ g := getProg optFlag krnFlag g0 in POk (g, x)
  | None =>
    let g := wScope g ScPROT in
    let+ g := gGetType g in
    let+ (_, g) := getName krnFlag (pubFlag g) g in
    if gtok g =? cLP then getFuncT g x
    else
      let g := wScope (wNt g (ntSetScope (gnt g) (ntGetSize (gnt g) - 1) ScCOMM)) ScCOMM in
      if (curType g =? TyVOID) && (curDim g =? 0) then PErr XVoidVar
      else if curType g =? TyINTR then PErr XIntrVar
      else getGVarsT g x
  end end.
Fixpoint textLoop (fuel : nat) (g : gs) (x : list piece) : pres (gs * list piece) :=
  match fuel with
  | O => PFuel
  | S f => if gtok g =? EOFtok then POk (g, x) else let+ (g, x) := getProgT g x in textLoop f g x
  end.
(* main.c: the calls made for a source text; None: the file is rejected, or the compiler does
   something undefined *)
Definition piecesOf (file : list Z) : option (list piece) :=
  match lexAll file with
  | LOk l => match textLoop (S (List.length l)) (gInit l) [] with POk (_, x) => Some x | _ => None end
  | _ => None
  end.
End Text.
(* the pieces printed one after the other *)
Fixpoint render (ren : backend) (l : list piece) (n : Z) : option (list Z * Z) :=
  match l with
  | [] => Some ([], n)
  | (t, a) :: r =>
    match ren t a n with
    | Some (x, n1) => match render ren r n1 with Some (y, n2) => Some (x ++ y, n2) | None => None end
    | None => None
    end
  end.
(* from the characters of the source to the characters of the output *)
Definition compileText (optFlag krnFlag : bool) (ren : backend) (file : list Z) : option (list Z) :=
  match piecesOf optFlag krnFlag file with
  | Some ps => option_map fst (render ren ps 0)
  | None => None
  end.
