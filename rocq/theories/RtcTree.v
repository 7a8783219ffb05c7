(* The C program with run-time checks a C-- expression stands for. a[i] becomes
   *check(a, i, file, line) with the check of the kind of array, s.f becomes
   ((Struct* )_CP(s, file, line))->f, a string its address. Everything else is as
   without checks (CTree.v), but that arrays are structs with a length. *)
From Coq Require Import ZArith Bool List String Ascii.
From Verif Require Import Lexer SyTree NameTable CSpec CTree RtcCode.
Import ListNotations.
Open Scope Z_scope.

(* which check belongs to an array of references, of ints, of characters or booleans *)
Definition checkOf (o : op2) : option (list Z) :=
  match o with IDXR => Some (codes "_RCA") | IDXI => Some (codes "_ICA") | IDXC | IDXB => Some (codes "_CCA") | _ => None end.

Section Names.
Variable nm : Z -> list Z.
Variable lab : Z -> list Z.
Variable own : Z -> list Z.
Variable file : list Z.
Variable ln : path -> Z.
Fixpoint argsR (p : path) (e : expr) : list cexp :=
  match e with
  | ENull => []
  | E2 SEMI l r => argsR (false :: p) l ++ argsR (true :: p) r
  | ELeaf (LCnst v) => [numC v]
  | ELeaf (LStr l) => [CUn (codes "&") (CId (lab l))]
  | ELeaf (LLoc i) | ELeaf (LPrm i) | ELeaf (LGlb i) => [CId (nm i)]
  | ELeaf (LAddr i) => [CCast (codes "int") (CUn (codes "&") (CId (nm i)))]
  | EFunc f a => [CCall (CId (nm f)) (argsR (true :: p) a)]
  | E1 NEG e => [CUn (codes "-") (one (argsR (false :: p) e))]
  | E1 NOT e => [CUn (codes "!") (one (argsR (false :: p) e))]
  | E1 BNOT e => [CUn (codes "~") (one (argsR (false :: p) e))]
  | E1 CHR e => [CBin (codes "&") (CNum 255) (one (argsR (false :: p) e))]
  | E1 BOOL e => [CBin (codes "&") (CNum 1) (one (argsR (false :: p) e))]
  | E2 DOT l r =>
    let f := match r with ELeaf (LCnst f) => f | _ => 0 end in
    [CArrow (CCast (own f ++ codes "*") (CCall (CId (codes "_CP")) [one (argsR (false :: p) l); CStr file; CNum (ln p)])) (nm f)]
  | E2 o l r =>
    let a := one (argsR (false :: p) l) in
    let b := one (argsR (true :: p) r) in
    match checkOf o with
    | Some c => [CUn (codes "*") (CCall (CId c) [a; b; CStr file; CNum (ln p)])]
    | None => [CBin (op2C o) a b]
    end
  end.
Definition expR (e : expr) : cexp := one (argsR [] e).

(* ---- what the translation needs ---- *)
Variable isType : list Z -> bool.
Definition isStr (e : expr) : bool := match e with ELeaf (LStr _) => true | _ => false end.
(* names are good, numbers are 32 bit ints, no negative number is the operand of a
   minus sign, no string the right operand of a bitwise and, lines are numbers *)
Fixpoint fairR (p : path) (e : expr) : Prop :=
  match e with
  | ENull => True
  | ELeaf (LCnst v) => small v
  | ELeaf (LStr l) => 0 <= l /\ small l /\ isType (lab l) = false
  | ELeaf (LLoc i) | ELeaf (LPrm i) | ELeaf (LGlb i) | ELeaf (LAddr i) => nameOk isType (nm i)
  | EFunc f a => nameOk isType (nm f) /\ fairR (true :: p) a
  | E1 NEG e => fairR (false :: p) e /\ negative e = false
  | E1 CHR e | E1 BOOL e => fairR (false :: p) e /\ isStr e = false
  | E1 _ e => fairR (false :: p) e
  | E2 DOT l r => fairR (false :: p) l /\ 0 <= ln p < 2 ^ 31 /\
      match r with ELeaf (LCnst f) => ident (own f) /\ nameOk isType (nm f) | _ => True end
  | E2 IDXR l r | E2 IDXI l r | E2 IDXC l r | E2 IDXB l r => fairR (false :: p) l /\ fairR (true :: p) r /\ 0 <= ln p < 2 ^ 31
  | E2 SUB l r => fairR (false :: p) l /\ fairR (true :: p) r /\ negative r = false
  | E2 BAND l r => fairR (false :: p) l /\ fairR (true :: p) r /\ isStr r = false
  | E2 _ l r => fairR (false :: p) l /\ fairR (true :: p) r
  end.

(* ---- statements ---- *)
Variable vty : Z -> Z * nat.
Definition oexpR (p : path) (e : expr) : option cexp := match e with ENull => None | _ => Some (one (argsR p e)) end.
(* an array of ints is an _IA, of characters or booleans a _CA, any other a _RA; a
   variable holds a reference to it, as it does to a struct; void[] is any reference *)
Definition wordR (t : Z) (dim : nat) : list Z :=
  match dim with
  | O => wordC nm t
  | 1%nat => if t =? TyINT then codes "_IA" else if t =? TyVOID then codes "void" else if 0 <? t then codes "_CA" else codes "_RA"
  | _ => codes "_RA"
  end.
Definition starsR (t : Z) (dim : nat) : nat := match dim with O => if t <=? 0 then 1%nat else 0%nat | _ => 1%nat end.
Fixpoint manyR (p : path) (s : stmt) : list cstm :=
  let body p b := hd KEmpty (manyR p b) in
  match s with
  | SSemi l r => manyR (false :: p) l ++ manyR (true :: p) r
  | SNull | SExpr (ELeaf (LCnst _)) => [KEmpty]
  | SExpr e => [KExp (one (argsR p e))]
  | SVar i => [KVar (wordR (fst (vty i)) (snd (vty i))) (starsR (fst (vty i)) (snd (vty i))) (nm i)]
  | SIf c b => [KBlk [KIf (one (argsR (false :: p) c)) (body (true :: p) b)]]
  | SEls c b1 b2 => [KElse (one (argsR (false :: false :: p) c)) (body (true :: false :: p) b1) (body (true :: p) b2)]
  | SWhl c b re => [KFor (oexpR (false :: p) c) (oexpR (true :: true :: p) re) (body (false :: true :: p) b)]
  | SDo b c => [KDo (body (false :: p) b) (one (argsR (true :: p) c))]
  | SBrk => [KBreak]
  | SCnt => [KContinue]
  | SRet e => [KRet (oexpR (false :: p) e)]
  | SBlk l r => [KBlk (manyR (false :: p) l ++ manyR (true :: p) r)]
  end.
Definition bodyR (root : stmt) : cstm :=
  KBlk (match root with SBlk l r => manyR [false] l ++ manyR [true] r | s => manyR [] s end).

(* an expression written with a bracket first *)
Definition opensR (e : expr) : bool :=
  match e with E1 _ _ | ELeaf (LAddr _) | E2 _ _ _ => true | _ => false end.
(* the body of a do must not begin with a letter *)
Definition apartR (s : stmt) : bool :=
  match s with
  | SNull | SBlk _ _ | SIf _ _ | SExpr (ELeaf (LCnst _)) => true
  | SExpr e => opensR e
  | _ => false
  end.
Fixpoint fairSR (p : path) (s : stmt) : Prop :=
  match s with
  | SNull | SBrk | SCnt => True
  | SExpr e => fairR p e
  | SVar i => nameOk isType (nm i) /\ typeOk nm isType (fst (vty i))
  | SSemi l r | SBlk l r => fairSR (false :: p) l /\ fairSR (true :: p) r
  | SIf c b => fairR (false :: p) c /\ fairSR (true :: p) b /\ single b = true
  | SEls c b1 b2 => fairR (false :: false :: p) c /\ fairSR (true :: false :: p) b1 /\ fairSR (true :: p) b2 /\ single b1 = true /\ single b2 = true
  | SWhl c b re => fairR (false :: p) c /\ fairR (true :: true :: p) re /\ fairSR (false :: true :: p) b /\ single b = true
  | SDo b c => fairSR (false :: p) b /\ fairR (true :: p) c /\ single b = true /\ apartR b = true
  | SRet e => fairR (false :: p) e
  end.
End Names.

(* ---- the checks taken out again ---- *)
Definition isCheck (w : list Z) : bool := is w "_RCA" || is w "_ICA" || is w "_CCA".
Fixpoint strip (c : cexp) : cexp :=
  match c with
  | CUn op a =>
    if is op "*" then match strip a with CCall (CId w) [x; i; CStr _; CNum _] => if isCheck w then CIdx x i else CUn op (strip a) | _ => CUn op (strip a) end
    else if is op "&" then a else CUn op (strip a)
  | CArrow a f =>
    match strip a with CCast _ (CCall (CId w) [x; CStr _; CNum _]) => if is w "_CP" then CArrow x f else CArrow (strip a) f | _ => CArrow (strip a) f end
  | CBin op a b => CBin op (strip a) (strip b)
  | CCall f l => CCall f (map strip l)
  | CCast t a => if is t "int" then c else CCast t (strip a)   (* (int)&x is addrof *)
  | _ => c
  end.

(* every use of memory goes through a check that names this file and a line: no bare
   subscript, no other use of a pointer *)
Definition checkedUse (file : list Z) (a : cexp) : bool :=
  match a with CCall (CId w) [_; _; CStr f; CNum n] => isCheck w && eqs f file && (0 <=? n) | _ => false end.
Definition checkedRef (file : list Z) (a : cexp) : bool :=
  match a with CCast _ (CCall (CId w) [_; CStr f; CNum n]) => is w "_CP" && eqs f file && (0 <=? n) | _ => false end.
Fixpoint guarded (file : list Z) (c : cexp) : bool :=
  match c with
  | CUn op a => (negb (is op "*") || checkedUse file a) && guarded file a
  | CArrow a _ => checkedRef file a && guarded file a
  | CBin _ a b => guarded file a && guarded file b
  | CCall f l => guarded file f && forallb (guarded file) l
  | CCast _ a => guarded file a
  | CIdx _ _ | CDot _ _ | CPost _ _ => false
  | CId _ | CNum _ | CStr _ => true
  end.

(* statements *)
Definition omap {A B} (f : A -> B) (o : option A) : option B := match o with Some x => Some (f x) | None => None end.
Fixpoint stripS (s : cstm) : cstm :=
  match s with
  | KExp e => KExp (strip e)
  | KIf c b => KIf (strip c) (stripS b)
  | KElse c a b => KElse (strip c) (stripS a) (stripS b)
  | KWhile c b => KWhile (strip c) (stripS b)
  | KFor c e b => KFor (omap strip c) (omap strip e) (stripS b)
  | KDo b c => KDo (stripS b) (strip c)
  | KRet e => KRet (omap strip e)
  | KBlk l => KBlk (map stripS l)
  | KVar _ _ v => KVar [] 0 v             (* the type is another one *)
  | s => s
  end.
Fixpoint untyped (s : cstm) : cstm :=
  match s with
  | KIf c b => KIf c (untyped b)
  | KElse c a b => KElse c (untyped a) (untyped b)
  | KWhile c b => KWhile c (untyped b)
  | KFor c e b => KFor c e (untyped b)
  | KDo b c => KDo (untyped b) c
  | KBlk l => KBlk (map untyped l)
  | KVar _ _ v => KVar [] 0 v
  | s => s
  end.
Definition ogd (file : list Z) (o : option cexp) : bool := match o with Some c => guarded file c | None => true end.
Fixpoint guardedS (file : list Z) (s : cstm) : bool :=
  match s with
  | KExp e => guarded file e
  | KIf c b => guarded file c && guardedS file b
  | KElse c a b => guarded file c && guardedS file a && guardedS file b
  | KWhile c b => guarded file c && guardedS file b
  | KFor c e b => ogd file c && ogd file e && guardedS file b
  | KDo b c => guardedS file b && guarded file c
  | KRet e => ogd file e
  | KBlk l => forallb (guardedS file) l
  | _ => true
  end.
