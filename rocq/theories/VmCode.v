(* Model of src/vmCode.c: from syntax trees to virtual machine code.
   The static counter curLab (vmCode.c:86) is threaded as [n]; an error() call
   ends the compilation and is None. *)
From Coq Require Import ZArith Bool List.
From Verif Require Import Word SyTree ExprSem VM.
Import ListNotations.
Open Scope Z_scope.

Notation "'do' p <- a ; b" := (match a with Some p => b | None => None end)
  (at level 200, p pattern, a at level 100, b at level 200).

(* struct Expr, vmCode.c:98-117: place and value together *)
Inductive place : Type :=
| INVAL | CNST (v : Z) | GVAR (i : Z) | LVAR (i : Z) | PRM (i : Z) | STR (l : Z)
| STKD | STKW | STKB | LABL (i : Z).

(* printLab, vmCode.c:126-128 *)
Definition printLab (l : Z) : code := if l =? -1 then [] else [ILab l].

(* load, vmCode.c:131-146 *)
Definition load (p : place) : option code :=
  match p with
  | STKD => Some []
  | CNST v => Some [ILdCns v]
  | GVAR i => Some [ILdGlb i]
  | LVAR i => Some [ILdLoc i]
  | PRM i => Some [ILdPrm i]
  | STR l => Some [ILdLab l]
  | LABL i => Some [ILdNam i]
  | STKW => Some [ILdWrd]
  | STKB => Some [ILdByt]
  | INVAL => None
  end.

(* store, vmCode.c:149-158 *)
Definition store (p : place) : option code :=
  match p with
  | GVAR i => Some [IStGlb i]
  | LVAR i => Some [IStLoc i]
  | PRM i => Some [IStPrm i]
  | STKW => Some [IStWrd]
  | STKB => Some [IStByt]
  | _ => None
  end.

(* pop, vmCode.c:161-167 *)
Definition pop (p : place) : code :=
  match p with
  | STKD => [IPop]
  | STKW | STKB => [IPop; IPop]
  | _ => []
  end.

(* factors other than calls, vmCode.c:197-214 *)
Definition leaf_place (k : leaf) : place :=
  match k with
  | LCnst v => CNST v | LGlb i => GVAR i | LAddr i => LABL i
  | LLoc i => LVAR i | LPrm i => PRM i | LStr l => STR l
  end.

(* isCommutativeOp, vmCode.c:241-247 *)
Definition isCommutativeOp (o : op2) : bool :=
  match o with
  | ADD | BAND | BXOR | BOR | MUL | GT | GE | LT | LE | EQU | NEQ => true
  | _ => false
  end.

(* evalDepth, vmCode.c:250-278. Only called on expression nodes; ENull (which
   would read past the table) is given 0. *)
Fixpoint evalDepth (e : expr) : Z :=
  match e with
  | ENull => 0
  | EFunc _ _ => 100
  | ELeaf _ => 1
  | E1 _ a => evalDepth a
  | E2 o l r =>
      let dl := evalDepth l in
      let dr := evalDepth r in
      match o with
      | AND | OR => if dr <? dl then dl else dr
      | _ => if isCommutativeOp o then
               if dl =? dr then dl + 1 else if dr <? dl then dl else dr
             else if dr <? dl then dl else dr + 1
      end
  end.

(* genCmpExpr's choice of instruction when the sides were exchanged,
   vmCode.c:354-361 *)
Definition mirror (o : op2) : op2 :=
  match o with GT => LT | GE => LE | LT => GT | LE => GE | _ => o end.

(* vm2vm.c:352-364 and 367-379: the macro instructions BOOLOR and BOOLAND *)
Definition vmBoolOR (l1 l2 l3 : Z) : code :=
  [IJmp l3; ILab l1; ILdCns 1]
  ++ (if l2 =? -1 then [] else [IJmp l3; ILab l2; ILdCns 0])
  ++ [ILab l3].
Definition vmBoolAND (l1 l2 l3 : Z) : code :=
  [IJmp l3; ILab l1; ILdCns 0]
  ++ (if l2 =? -1 then [] else [IJmp l3; ILab l2; ILdCns 1])
  ++ [ILab l3].

(* struct Label, vmCode.c:376-387 *)
Record label : Type := Label { no : Z; left : Z }.
Definition newLabel (lf : Z) : label := Label (-1) lf.

(* boolJmp, vmCode.c:390-394 *)
Definition boolJmp (tf : bool) (l : label) (n : Z) : code * label * Z :=
  let '(l', n') := if no l =? -1 then (Label (n + 1) (left l), n + 1) else (l, n) in
  ([if tf then IJT (no l') else IJF (no l')], l', n').

Definition is_log (e : expr) : bool :=
  match e with E2 OR _ _ | E2 AND _ _ => true | _ => false end.
Definition is_or (o : op2) : bool := op2_eqb o OR.
Definition log_op (e : expr) : op2 := match e with E2 o _ _ => o | _ => COMM end.

(* generators: code, and the label counter afterwards *)
Definition genE_t := Z -> option (code * Z).
Definition genL_t := Z -> label -> label -> Z -> option (code * label * label * Z).

(* genLogExpr, vmCode.c:397-434, for the node [l cur r].
   El, Er are genExpr, and Ll, Lr are genLogExpr, of the two operands.
   The labels the C code updates through pointers are passed in and returned.
   Simplification: the rightmost term of an expression evaluated for its value
   (left = 1) is generated by the caller, right after genLogExpr returns
   (genLOpExpr, vmCode.c:443-444); here it is generated in place, the calls in
   between being tail calls. *)
Definition logBody (cur : op2) (l r : expr) (El Er : genE_t) (Ll Lr : genL_t) : genL_t :=
  fun lf lab1 lab2 n =>
  do (cl, lab1, n) <-
    (if is_log l then
       if op2_eqb (log_op l) cur then
         do (c, lab1', labN, n') <- Ll (lf + 1) lab1 (newLabel (lf + 1)) n;
         Some (c ++ printLab (no labN), lab1', n')
       else
         do (c, labN, lab1', n') <- Ll (lf + 1) (newLabel (lf + 1)) lab1 n;
         Some (c ++ printLab (no labN), lab1', n')
     else
       do (c, n1) <- El n;
       let '(j, lab1', n2) := boolJmp (is_or cur) lab1 n1 in
       Some (c ++ j, lab1', n2));
  if is_log r then
    if op2_eqb (log_op r) cur then
      do (c, lab1', lab2', n') <- Lr lf lab1 lab2 n;
      Some (cl ++ c, lab1', lab2', n')
    else
      do (c, lab2', lab1', n') <- Lr lf lab2 lab1 n;
      Some (cl ++ c, lab1', lab2', n')
  else
    do (c, n1) <- Er n;
    if 2 <=? lf then
      if left lab1 =? lf then
        let '(j, lab2', n2) := boolJmp (negb (is_or cur)) lab2 n1 in
        Some (cl ++ c ++ j, lab1, lab2', n2)
      else
        let '(j, lab1', n2) := boolJmp (is_or cur) lab1 n1 in
        Some (cl ++ c ++ j, lab1', lab2, n2)
    else Some (cl ++ c, lab1, lab2, n1).

Section Gen.
Variable N : names.
Definition genB_t := Z -> option (code * place * Z).

(* genExpr, vmCode.c:489-492: genBoolExpr then load *)
Definition toE (g : genB_t) : genE_t :=
  fun n => do (c, p, n1) <- g n; do ld <- load p; Some (c ++ ld, n1).

(* genArgs, vmCode.c:174-191: last argument first; returns the count *)
Definition genArgs (gB : expr -> genB_t) : expr -> Z -> option (code * nat * Z) :=
  fix ga (a : expr) (n : Z) {struct a} :=
    match a with
    | ENull => Some ([], O, n)
    | E2 SEMI l r =>
        do (c, n1) <- toE (gB r) n;
        do (c', k, n2) <- ga l n1;
        Some (c ++ [IArg] ++ c', S k, n2)
    | _ => do (c, n1) <- toE (gB a) n; Some (c ++ [IArg], 1%nat, n1)
    end.

(* genBoolExpr, vmCode.c:471-486, with genFactor 194-225, gen1OpExpr 228-238,
   gen2OpExpr 281-308, genIdxExpr 311-319, genDotExpr 322-334,
   genCmpExpr 337-371, genLOpExpr 437-453, genAsExpr 456-461, genCommExpr 464-468;
   and genLogExpr for operand trees. [void f] abstracts
   ntGetType(f)==TyVOID && ntGetDim(f)==0; slot f is ntGetCnt(f). *)
Fixpoint genB (e : expr) (n : Z) {struct e} : option (code * place * Z) :=
  match e with
  | ENull => None
  | ELeaf k => Some ([], leaf_place k, n)
  | EFunc f a =>
      do (c, k, n1) <- genArgs genB a n;
      if is_void N f then Some (c ++ [ICallP k f], INVAL, n1)
      else Some (c ++ [ICallF k f], STKD, n1)
  | E1 o a =>
      do (c, n1) <- toE (genB a) n;
      Some (c ++ [IUn o], STKD, n1)
  | E2 o l r =>
      match o with
      | ASS =>
          do (cr, n1) <- toE (genB r) n;
          do (cl, p, n2) <- genB l n1;
          do s <- store p;
          Some (cr ++ cl ++ s, STKD, n2)
      | COMM =>
          do (cl, p, n1) <- genB l n;
          do (cr, q, n2) <- genB r n1;
          Some (cl ++ pop p ++ cr, q, n2)
      | IDXR | IDXI =>
          do (cl, n1) <- toE (genB l) n;
          do (cr, n2) <- toE (genB r) n1;
          Some (cl ++ cr, STKW, n2)
      | IDXC | IDXB =>
          do (cl, n1) <- toE (genB l) n;
          do (cr, n2) <- toE (genB r) n1;
          Some (cl ++ cr, STKB, n2)
      | DOT =>
          match r with
          | Cnst f =>
              do (cl, n1) <- toE (genB l) n;
              Some (cl ++ [ILdCns (slot N f)], STKW, n1)
          | _ => None
          end
      | ADD | SUB | SHL | SHR | BAND | BXOR | BOR | MUL | DIV | MOD =>
          if isCommutativeOp o && (evalDepth l <? evalDepth r) then
            do (cr, n1) <- toE (genB r) n;
            do (cl, n2) <- toE (genB l) n1;
            Some (cr ++ cl ++ [IBin o], STKD, n2)
          else
            do (cl, n1) <- toE (genB l) n;
            do (cr, n2) <- toE (genB r) n1;
            Some (cl ++ cr ++ [IBin o], STKD, n2)
      | GT | GE | LT | LE | EQU | NEQ =>
          if evalDepth l <? evalDepth r then
            do (cr, n1) <- toE (genB r) n;
            do (cl, n2) <- toE (genB l) n1;
            Some (cr ++ cl ++ [IBin (mirror o)], STKD, n2)
          else
            do (cl, n1) <- toE (genB l) n;
            do (cr, n2) <- toE (genB r) n1;
            Some (cl ++ cr ++ [IBin o], STKD, n2)
      | AND | OR =>
          let lab0 := n + 1 in
          do (c, lab2, lab1, n1) <-
            logBody o l r (toE (genB l)) (toE (genB r)) (genL l) (genL r)
                    1 (newLabel 1) (newLabel 0) (n + 1);
          Some (c ++ (if is_or o then vmBoolOR else vmBoolAND) (no lab2) (no lab1) lab0,
                STKD, n1)
      | SEMI => None
      end
  end
with genL (e : expr) (lf : Z) (lab1 lab2 : label) (n : Z) {struct e}
    : option (code * label * label * Z) :=
  match e with
  | E2 o l r =>
      match o with
      | AND | OR =>
          logBody o l r (toE (genB l)) (toE (genB r)) (genL l) (genL r) lf lab1 lab2 n
      | _ => None
      end
  | _ => None
  end.

Definition genE (e : expr) : genE_t := toE (genB e).

(* genCnd, vmCode.c:498-521: jump to jmpLab if the condition is tf *)
Definition genCnd (e : expr) (tf : bool) (jmp : label) (n : Z) : option (code * label * Z) :=
  let nxt := newLabel 2 in
  do (c, jmp', nxt', n') <-
    (if is_log e then
       if Bool.eqb (is_or (log_op e)) tf then
         do (c, jmp', nxt', n') <- genL e 2 jmp nxt n; Some (c, jmp', nxt', n')
       else
         do (c, nxt', jmp', n') <- genL e 2 nxt jmp n; Some (c, jmp', nxt', n')
     else
       do (c, n1) <- genE e n;
       let '(j, jmp', n2) := boolJmp tf jmp n1 in
       Some (c ++ j, jmp', nxt, n2));
  Some (c ++ printLab (no nxt'), jmp', n').

(* expression statement, vmCode.c:653-657 *)
Definition genX (e : expr) (n : Z) : option (code * Z) :=
  do (c, p, n1) <- genB e n; Some (c ++ pop p, n1).

(* jmpBlock, vmCode.c:533-541 *)
Fixpoint jmpBlock (s : stmt) : bool :=
  match s with
  | SCnt | SRet _ | SBrk => true
  | SBlk _ r => jmpBlock r
  | _ => false
  end.

(* curLab, brkLab, cntLab, retLab, vmCode.c:86-89 *)
Record labs : Type := Labs { cur : Z; brk : Z; cnt : Z; ret : Z }.
Definition set_cur (g : labs) n := Labs n (brk g) (cnt g) (ret g).

(* where a node stands with respect to the root of the function (genRet,
   vmCode.c:629-630, compares node numbers) *)
Inductive pos : Type := PRoot | PRootR | PInner.
Definition right_of (p : pos) : pos := match p with PRoot => PRootR | _ => PInner end.

(* traceTree, vmCode.c:637-658, with genIf 524-530, genEls 544-558,
   genWhl 561-588, genDo 591-607, genBrk 610-613, genCnt 616-619, genRet 622-634 *)
Fixpoint genS (s : stmt) (p : pos) (g : labs) {struct s} : option (code * labs) :=
  match s with
  | SNull => Some ([], g)
  | SVar _ => Some ([], g)
  | SExpr e => do (c, n) <- genX e (cur g); Some (c, set_cur g n)
  | SIf e b =>
      do (c, ifLab, n) <- genCnd e false (newLabel 0) (cur g);
      do (cb, g1) <- genS b (right_of p) (set_cur g n);
      Some (c ++ cb ++ printLab (no ifLab), g1)
  | SEls e b1 b2 =>
      do (c, elsLab, n) <- genCnd e false (newLabel 0) (cur g);
      do (cb1, g1) <- genS b1 PInner (set_cur g n);
      let ifLab := if jmpBlock b1 then -1 else cur g1 + 1 in
      let g2 := if jmpBlock b1 then g1 else set_cur g1 (cur g1 + 1) in
      let jmp := if jmpBlock b1 then [] else [IJmp ifLab] in
      do (cb2, g3) <- genS b2 (right_of p) g2;
      Some (c ++ cb1 ++ jmp ++ printLab (no elsLab) ++ cb2 ++ printLab ifLab, g3)
  | SWhl e b re =>
      let loopLab := cur g + 1 in
      let n0 := cur g + 1 in
      let cntLab := match re with ENull => loopLab | _ => -1 end in
      do (c, brkLab, n1) <-
        (match e with
         | ENull => Some ([], -1, n0)
         | _ => do (c, bLab, n1) <- genCnd e false (newLabel 0) n0; Some (c, no bLab, n1)
         end);
      do (cb, g1) <- genS b PInner (Labs n1 brkLab cntLab (ret g));
      do (cre, jb, n2) <-
        (match re with
         | ENull => Some ([], jmpBlock b, cur g1)
         | _ => if negb (jmpBlock b) || negb (cnt g1 =? -1) then
                  do (cr, n2) <- genX re (cur g1);
                  Some (printLab (cnt g1) ++ cr, false, n2)
                else Some ([], jmpBlock b, cur g1)
         end);
      Some ([ILab loopLab] ++ c ++ cb ++ cre
            ++ (if (jb : bool) then [] else [IJmp loopLab]) ++ printLab (brk g1),
            Labs n2 (brk g) (cnt g) (ret g1))
  | SDo b e =>
      let loopLab := cur g + 1 in
      do (cb, g1) <- genS b PInner (Labs loopLab (-1) (-1) (ret g));
      do (c, _, n1) <- genCnd e true (Label loopLab 0) (cur g1);
      Some ([ILab loopLab] ++ cb ++ printLab (cnt g1) ++ c ++ printLab (brk g1),
            Labs n1 (brk g) (cnt g) (ret g1))
  | SBrk =>
      let l := if brk g =? -1 then cur g + 1 else brk g in
      let n := if brk g =? -1 then cur g + 1 else cur g in
      Some ([IJmp l], Labs n l (cnt g) (ret g))
  | SCnt =>
      let l := if cnt g =? -1 then cur g + 1 else cnt g in
      let n := if cnt g =? -1 then cur g + 1 else cur g in
      Some ([IJmp l], Labs n (brk g) l (ret g))
  | SRet e =>
      do (c, n) <-
        (match e with
         | ENull => Some ([], cur g)
         | _ => do (c, n) <- genE e (cur g); Some (c ++ [IMReg], n)
         end);
      match p with
      | PInner =>
          let l := if ret g =? -1 then n + 1 else ret g in
          let n' := if ret g =? -1 then n + 1 else n in
          Some (c ++ [IJmp l], Labs n' (brk g) (cnt g) l)
      | _ => Some (c, set_cur g n)
      end
  | SSemi l r | SBlk l r =>
      do (cl, g1) <- genS l PInner g;
      do (cr, g2) <- genS r (right_of p) g1;
      Some (cl ++ cr, g2)
  end.

(* genFunc, vmCode.c:661-682. brkLab and cntLab are whatever the previous
   function left; at the outermost level they are never used (C10). krn and intr:
   kernel option and interrupt function. Returns the code after the name and the
   label counter. *)
Definition genFunc (s : stmt) (depth : Z) (krn intr : bool) (g : labs) : option (code * labs) :=
  do (c, g1) <- genS s PRoot (Labs (cur g) (brk g) (cnt g) (-1));
  Some ([if intr then IEntryI depth else if krn then IEntryK depth else IEntry depth]
        ++ c ++ printLab (ret g1) ++ [if intr then IRetI else IRet], g1).
End Gen.
