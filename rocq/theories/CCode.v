(* Model of the code generator of the C translator, src/cCode.c (the build without
   _RTC): the text printed for expressions, statements and function bodies.
   Names are given by nm (ntGetName, namtbl.c). SySIZE is not in the trees of
   SyTree.v and is left out. Declarations at file scope and initialisers
   (cCode.c:376-640) are in CFile.v. None is a call of error() or a tree the parser does not
   build (SyNULL inside an expression). *)
From Coq Require Import ZArith Bool List String Ascii.
From Verif Require Import Lexer SyTree NameTable.
Import ListNotations.
Open Scope Z_scope.

(* printf's %d; 20 digits are more than any int has *)
Fixpoint decF (f : nat) (n : Z) (acc : list Z) : list Z :=
  match f with
  | O => acc
  | S f => let acc := (48 + n mod 10) :: acc in if n / 10 =? 0 then acc else decF f (n / 10) acc
  end.
Definition dec (n : Z) : list Z := if n <? 0 then 45 :: decF 20 (- n) [] else decF 20 n [].

(* cCode.c:55-58 *)
Definition strLab (l : Z) : list Z := codes "_cmm_" ++ dec l ++ codes "S".

(* cCode.c:128-154 *)
Definition opText1 (o : op1) : option (list Z) :=
  match o with
  | NEG => Some (codes "-") | NOT => Some (codes "!") | BNOT => Some (codes "~")
  | _ => None
  end.
Definition opText2 (o : op2) : option (list Z) :=
  match o with
  | ADD => Some (codes "+") | SUB => Some (codes "-") | SHL => Some (codes "<<") | SHR => Some (codes ">>")
  | BAND => Some (codes "&") | BXOR => Some (codes "^") | BOR => Some (codes "|")
  | MUL => Some (codes "*") | DIV => Some (codes "/") | MOD => Some (codes "%")
  | GT => Some (codes ">") | GE => Some (codes ">=") | LT => Some (codes "<") | LE => Some (codes "<=")
  | EQU => Some (codes "==") | NEQ => Some (codes "!=") | ASS => Some (codes "=") | COMM => Some (codes ",")
  | OR => Some (codes "||") | AND => Some (codes "&&")
  | _ => None
  end.

Section Names.
Variable nm : Z -> list Z.
(* type and dimension of a local variable (cCode.c:334-340 takes them from the node) *)
Variable vty : Z -> Z * nat.

Definition cat (a b : option (list Z)) : option (list Z) :=
  match a, b with Some x, Some y => Some (x ++ y) | _, _ => None end.
Notation "a +++ b" := (cat a b) (right associativity, at level 60).
Notation lit s := (Some (codes s)).

(* cCode.c:71-84; a type number <= 0 is a struct or typedef in the name table (the
   check that it is one is left out) *)
Definition printTypeName (t : Z) : option (list Z) :=
  if t =? TyVOID then lit "void " else if t =? TyINT then lit "int "
  else if t =? TyBOOL then lit "char " else if t =? TyCHAR then lit "char "
  else if t <=? 0 then Some (nm (- t) ++ codes " ") else None.
(* cCode.c:109-117, with sta = inst = false *)
Definition printType (t : Z) (dim : nat) : option (list Z) :=
  let n := if t <=? 0 then S dim else dim in printTypeName t +++ Some (repeat 42 n).

(* cCode.c:160-278: printExp; args: printArgs (a SySEMI list is printed with commas) *)
Fixpoint printE (args : bool) (e : expr) : option (list Z) :=
  match e with
  | ENull => None
  | ELeaf (LCnst v) => Some (dec v)
  | ELeaf (LStr l) => Some (strLab l)
  | ELeaf (LLoc i) | ELeaf (LPrm i) | ELeaf (LGlb i) => Some (nm i)
  | ELeaf (LAddr i) => Some (codes "((int)&" ++ nm i ++ codes ")")
  | EFunc f a =>
    Some (nm f ++ codes "(") +++ (match a with ENull => Some [] | _ => printE true a end) +++ lit ")"
  | E1 CHR e => lit "(0xff&" +++ printE false e +++ lit ")"
  | E1 BOOL e => lit "(0x01&" +++ printE false e +++ lit ")"
  | E1 o e => lit "(" +++ opText1 o +++ printE false e +++ lit ")"
  | E2 SEMI l r => if args then printE true l +++ lit "," +++ printE true r else None
  | E2 DOT l r =>
    match r with ELeaf (LCnst f) => printE false l +++ Some (codes "->" ++ nm f) | _ => None end
  | E2 IDXR l r | E2 IDXI l r | E2 IDXC l r | E2 IDXB l r => printE false l +++ lit "[" +++ printE false r +++ lit "]"
  | E2 o l r => lit "(" +++ printE false l +++ opText2 o +++ printE false r +++ lit ")"
  end.
Definition printExp := printE false.

Definition nl : list Z := [10].
Definition optE (e : expr) : option (list Z) := match e with ENull => Some [] | _ => printExp e end.
(* cCode.c:280-372: traceTree *)
Fixpoint traceTree (s : stmt) : option (list Z) :=
  match s with
  | SNull => Some (codes ";" ++ nl)
  | SExpr (ELeaf (LCnst _)) => Some (codes ";" ++ nl)
  | SExpr e => printExp e +++ Some (codes ";" ++ nl)
  | SIf c b => lit "{if(" +++ printExp c +++ lit ")" +++ traceTree b +++ lit "}"
  | SEls c b1 b2 => lit "if(" +++ printExp c +++ lit ")" +++ traceTree b1 +++ lit "else " +++ traceTree b2
  | SWhl c b re => lit "for(;" +++ optE c +++ lit ";" +++ optE re +++ Some (codes ")" ++ nl) +++ traceTree b
  | SDo b c => lit "do" +++ traceTree b +++ lit "while(" +++ printExp c +++ Some (codes ");" ++ nl)
  | SBrk => Some (codes "break;" ++ nl)
  | SCnt => Some (codes "continue;" ++ nl)
  | SRet e => lit "return " +++ optE e +++ Some (codes ";" ++ nl)
  | SVar i => printType (fst (vty i)) (snd (vty i)) +++ Some (nm i ++ codes ";" ++ nl)
  | SBlk l r => Some (codes "{" ++ nl) +++ traceTree l +++ traceTree r +++ Some (codes "}" ++ nl)
  | SSemi l r => traceTree l +++ traceTree r
  end.
(* cCode.c:397-406: the body of a function, from "{" *)
Definition printBody (root : stmt) : option (list Z) :=
  Some (codes "{" ++ nl) +++ traceTree (match root with SBlk l r => SSemi l r | s => s end) +++ Some (codes "}" ++ nl).
End Names.
