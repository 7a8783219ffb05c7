(* The C program a C-- syntax tree stands for: one operator of C for each operator
   of C--. chr and bool become masks, addrof a cast of the address. *)
From Coq Require Import ZArith Bool List String Ascii.
From Verif Require Import Lexer SyTree NameTable CSpec.
Import ListNotations.
Open Scope Z_scope.

Definition op2C (o : op2) : list Z :=
  codes match o with
  | ADD => "+" | SUB => "-" | SHL => "<<" | SHR => ">>" | BAND => "&" | BXOR => "^" | BOR => "|" | MUL => "*" | DIV => "/" | MOD => "%"
  | GT => ">" | GE => ">=" | LT => "<" | LE => "<=" | EQU => "==" | NEQ => "!=" | ASS => "=" | COMM => "," | OR => "||" | AND => "&&"
  | _ => ""
  end%string.

Section Names.
Variable nm : Z -> list Z.           (* names of variables, functions and fields *)
Variable lab : Z -> list Z.          (* names of string constants *)
Variable vty : Z -> Z * nat.         (* types of local variables: number and dimension *)

Definition numC (v : Z) : cexp := if v <? 0 then CUn (codes "-") (CNum (- v)) else CNum v.
(* an argument list is the list of its expressions, anything else one expression *)
Definition one (l : list cexp) : cexp := hd (CNum 0) l.
Fixpoint argsC (e : expr) : list cexp :=
  match e with
  | ENull => []
  | E2 SEMI l r => argsC l ++ argsC r
  | ELeaf (LCnst v) => [numC v]
  | ELeaf (LStr l) => [CId (lab l)]
  | ELeaf (LLoc i) | ELeaf (LPrm i) | ELeaf (LGlb i) => [CId (nm i)]
  | ELeaf (LAddr i) => [CCast (codes "int") (CUn (codes "&") (CId (nm i)))]
  | EFunc f a => [CCall (CId (nm f)) (argsC a)]
  | E1 NEG e => [CUn (codes "-") (one (argsC e))]
  | E1 NOT e => [CUn (codes "!") (one (argsC e))]
  | E1 BNOT e => [CUn (codes "~") (one (argsC e))]
  | E1 CHR e => [CBin (codes "&") (CNum 255) (one (argsC e))]
  | E1 BOOL e => [CBin (codes "&") (CNum 1) (one (argsC e))]
  | E2 DOT l r => [CArrow (one (argsC l)) (nm match r with ELeaf (LCnst f) => f | _ => 0 end)]
  | E2 IDXR l r | E2 IDXI l r | E2 IDXC l r | E2 IDXB l r => [CIdx (one (argsC l)) (one (argsC r))]
  | E2 o l r => [CBin (op2C o) (one (argsC l)) (one (argsC r))]
  end.
Definition expC (e : expr) : cexp := one (argsC e).
Definition optC (e : expr) : option cexp := match e with ENull => None | _ => Some (expC e) end.

(* a C-- type and its number of [] as a C type name and its number of stars: a
   struct variable is a reference, boolean is char *)
Definition wordC (t : Z) : list Z :=
  if t =? TyVOID then codes "void" else if t =? TyINT then codes "int"
  else if (t =? TyBOOL) || (t =? TyCHAR) then codes "char" else nm (- t).
Definition starsC (t : Z) (dim : nat) : nat := if t <=? 0 then S dim else dim.

(* statements: oneC where C wants one statement, manyC in a block. An if without
   else is put in braces, so that no else can follow it *)
Fixpoint manyC (s : stmt) : list cstm :=
  let body b := hd KEmpty (manyC b) in
  match s with
  | SSemi l r => manyC l ++ manyC r
  | SNull | SExpr (ELeaf (LCnst _)) => [KEmpty]
  | SExpr e => [KExp (expC e)]
  | SVar i => [KVar (wordC (fst (vty i))) (starsC (fst (vty i)) (snd (vty i))) (nm i)]
  | SIf c b => [KBlk [KIf (expC c) (body b)]]
  | SEls c b1 b2 => [KElse (expC c) (body b1) (body b2)]
  | SWhl c b re => [KFor (optC c) (optC re) (body b)]
  | SDo b c => [KDo (body b) (expC c)]
  | SBrk => [KBreak]
  | SCnt => [KContinue]
  | SRet e => [KRet (optC e)]
  | SBlk l r => [KBlk (manyC l ++ manyC r)]
  end.
Definition oneC (s : stmt) : cstm := hd KEmpty (manyC s).

(* ---- what the translation needs ---- *)
Variable isType : list Z -> bool.    (* the names of types *)
Definition ident (w : list Z) : Prop :=
  match w with c :: r => idStart c = true /\ forallb idChar r = true | [] => False end.
(* a name that C takes as the name of a variable, a function or a field *)
Definition nameOk (w : list Z) : Prop := ident w /\ isKw w = false /\ isType w = false.
Definition negative (e : expr) : bool := match e with ELeaf (LCnst v) => v <? 0 | _ => false end.
Definition small (v : Z) : Prop := - 2 ^ 31 <= v < 2 ^ 31.
(* the trees the parser builds: a list of arguments only below a call, nothing left
   out, a field at the right of a point *)
Fixpoint formed (args : bool) (e : expr) : bool :=
  match e with
  | ENull => false
  | ELeaf _ => true
  | EFunc _ a => match a with ENull => true | _ => formed true a end
  | E1 _ e => formed false e
  | E2 SEMI l r => args && formed true l && formed true r
  | E2 DOT l (ELeaf (LCnst _)) => formed false l
  | E2 DOT _ _ => false
  | E2 _ l r => formed false l && formed false r
  end.
Definition formedO (e : expr) : bool := match e with ENull => true | _ => formed false e end.
Fixpoint formedS (s : stmt) : bool :=
  match s with
  | SNull | SBrk | SCnt => true
  | SVar i => (fst (vty i) <=? 0) || (fst (vty i) =? TyVOID) || (fst (vty i) =? TyINT) || (fst (vty i) =? TyBOOL) || (fst (vty i) =? TyCHAR)
  | SExpr e => formed false e
  | SRet e => formedO e
  | SSemi l r | SBlk l r => formedS l && formedS r
  | SIf c b | SDo b c => formed false c && formedS b
  | SEls c b1 b2 => formed false c && formedS b1 && formedS b2
  | SWhl c b re => formedO c && formedS b && formedO re
  end.
(* names are good, numbers are 32 bit ints, and no negative number is the operand of
   a minus sign or of [] or -> *)
Fixpoint fairE (e : expr) : Prop :=
  match e with
  | ENull => True
  | ELeaf (LCnst v) => small v
  | ELeaf (LStr l) => 0 <= l /\ small l /\ isType (lab l) = false
  | ELeaf (LLoc i) | ELeaf (LPrm i) | ELeaf (LGlb i) | ELeaf (LAddr i) => nameOk (nm i)
  | EFunc f a => nameOk (nm f) /\ fairE a
  | E1 NEG e => fairE e /\ negative e = false
  | E1 _ e => fairE e
  | E2 DOT l r => fairE l /\ negative l = false /\ match r with ELeaf (LCnst f) => nameOk (nm f) | _ => True end
  | E2 IDXR l r | E2 IDXI l r | E2 IDXC l r | E2 IDXB l r => fairE l /\ fairE r /\ negative l = false
  | E2 SUB l r => fairE l /\ fairE r /\ negative r = false
  | E2 _ l r => fairE l /\ fairE r
  end.
(* an expression written with a bracket first *)
Fixpoint opens (e : expr) : bool :=
  match e with
  | E1 _ _ | ELeaf (LAddr _) => true
  | E2 DOT l _ | E2 IDXR l _ | E2 IDXI l _ | E2 IDXC l _ | E2 IDXB l _ => opens l
  | E2 _ _ _ => true
  | _ => false
  end.
Definition single (s : stmt) : bool := match s with SSemi _ _ | SVar _ => false | _ => true end.
(* the body of a do must not begin with a letter *)
Definition apart (s : stmt) : bool :=
  match s with
  | SNull | SBlk _ _ | SIf _ _ | SExpr (ELeaf (LCnst _)) => true
  | SExpr e => opens e
  | _ => false
  end.
Definition typeOk (t : Z) : Prop := t <= 0 -> ident (nm (- t)) /\ isKw (nm (- t)) = false /\ isType (nm (- t)) = true.
Fixpoint fairS (s : stmt) : Prop :=
  match s with
  | SNull | SBrk | SCnt => True
  | SExpr e => fairE e
  | SVar i => nameOk (nm i) /\ typeOk (fst (vty i))
  | SSemi l r | SBlk l r => fairS l /\ fairS r
  | SIf c b => fairE c /\ fairS b /\ single b = true
  | SEls c b1 b2 => fairE c /\ fairS b1 /\ fairS b2 /\ single b1 = true /\ single b2 = true
  | SWhl c b re => fairE c /\ fairE re /\ fairS b /\ single b = true
  | SDo b c => fairS b /\ fairE c /\ single b = true /\ apart b = true
  | SRet e => fairE e
  end.
End Names.
