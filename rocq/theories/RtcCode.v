(* Model of the code generator of the C translator with run-time checks (src/cCode.c,
   the build with _RTC, the default of cm2c): the text printed for expressions,
   statements and function bodies.
   The position of a node in its tree is a path from the root (false: left or only
   child, true: right child); ln gives the line of the node at a position (syGetLn,
   sytree.c). own gives the name of the struct a field belongs to: the parser puts it
   in the right side of the field's node (parser.c:353), which SyTree.v leaves out.
   Names and text are as in CCode.v. *)
From Coq Require Import ZArith Bool List String Ascii.
From Verif Require Import Lexer SyTree NameTable CCode.
Import ListNotations.
Open Scope Z_scope.

Definition path := list bool.

(* cCode.c:175-179 *)
Definition checkName (o : op2) : option (list Z) :=
  match o with
  | IDXR => Some (codes "_RCA(") | IDXI => Some (codes "_ICA(") | IDXC => Some (codes "_CCA(") | IDXB => Some (codes "_CCA(")
  | _ => None
  end.

Section Names.
Variable nm : Z -> list Z.
Variable own : Z -> list Z.
Variable file : list Z.
Notation "a +++ b" := (cat a b) (right associativity, at level 60).
Notation lit s := (Some (codes s)).

(* cCode.c:183, 201: ,"file",line)) *)
Definition whereText (line : Z) : list Z := codes "," ++ 34 :: file ++ 34 :: codes "," ++ dec line ++ codes "))".

(* cCode.c:160-184, 196-203, 213-265 *)
Fixpoint printR (ln : path -> Z) (p : path) (args : bool) (e : expr) : option (list Z) :=
  match e with
  | ENull => None
  | ELeaf (LCnst v) => Some (dec v)
  | ELeaf (LStr l) => Some (codes "&" ++ strLab l)
  | ELeaf (LLoc i) | ELeaf (LPrm i) | ELeaf (LGlb i) => Some (nm i)
  | ELeaf (LAddr i) => Some (codes "((int)&" ++ nm i ++ codes ")")
  | EFunc f a =>
    Some (nm f ++ codes "(") +++ (match a with ENull => Some [] | _ => printR ln (true :: p) true a end) +++ lit ")"
  | E1 CHR e => lit "(0xff&" +++ printR ln (false :: p) false e +++ lit ")"
  | E1 BOOL e => lit "(0x01&" +++ printR ln (false :: p) false e +++ lit ")"
  | E1 o e => lit "(" +++ opText1 o +++ printR ln (false :: p) false e +++ lit ")"
  | E2 SEMI l r => if args then printR ln (false :: p) true l +++ lit "," +++ printR ln (true :: p) true r else None
  | E2 DOT l r =>
    match r with
    | ELeaf (LCnst f) =>
      Some (codes "(((" ++ own f ++ codes "*)_CP(") +++ printR ln (false :: p) false l +++ Some (whereText (ln p) ++ codes "->" ++ nm f ++ codes ")")
    | _ => None
    end
  | E2 o l r =>
    match checkName o with
    | Some c => Some (codes "(*" ++ c) +++ printR ln (false :: p) false l +++ lit "," +++ printR ln (true :: p) false r +++ Some (whereText (ln p))
    | None => lit "(" +++ printR ln (false :: p) false l +++ opText2 o +++ printR ln (true :: p) false r +++ lit ")"
    end
  end.
Definition printExpR (ln : path -> Z) := printR ln [] false.

(* cCode.c:93-107, with sta = inst = false *)
Definition printTypeR (t : Z) (dim : nat) : option (list Z) :=
  (match dim with
   | O => printTypeName nm t
   | S d => if Nat.eqb d 0 && (0 <? t) then (if t =? TyINT then lit "_IA " else if t =? TyVOID then lit "void " else lit "_CA ") else lit "_RA "
   end) +++ Some (if Nat.ltb 0 dim || (t <=? 0) then codes "*" else []).

Variable vty : Z -> Z * nat.
Variable ln : path -> Z.
Definition optR (p : path) (e : expr) : option (list Z) := match e with ENull => Some [] | _ => printR ln p false e end.
(* cCode.c:267-372: traceTree. A node SyELS has a node SyIF at its left, SyWHL a pair
   of the body and the last expression at its right *)
Fixpoint traceR (p : path) (s : stmt) : option (list Z) :=
  match s with
  | SNull => Some (codes ";" ++ nl)
  | SExpr (ELeaf (LCnst _)) => Some (codes ";" ++ nl)
  | SExpr e => printR ln p false e +++ Some (codes ";" ++ nl)
  | SIf c b => lit "{if(" +++ printR ln (false :: p) false c +++ lit ")" +++ traceR (true :: p) b +++ lit "}"
  | SEls c b1 b2 => lit "if(" +++ printR ln (false :: false :: p) false c +++ lit ")" +++ traceR (true :: false :: p) b1 +++ lit "else " +++ traceR (true :: p) b2
  | SWhl c b re => lit "for(;" +++ optR (false :: p) c +++ lit ";" +++ optR (true :: true :: p) re +++ Some (codes ")" ++ nl) +++ traceR (false :: true :: p) b
  | SDo b c => lit "do" +++ traceR (false :: p) b +++ lit "while(" +++ printR ln (true :: p) false c +++ Some (codes ");" ++ nl)
  | SBrk => Some (codes "break;" ++ nl)
  | SCnt => Some (codes "continue;" ++ nl)
  | SRet e => lit "return " +++ optR (false :: p) e +++ Some (codes ";" ++ nl)
  | SVar i => printTypeR (fst (vty i)) (snd (vty i)) +++ Some (nm i ++ codes ";" ++ nl)
  | SBlk l r => Some (codes "{" ++ nl) +++ traceR (false :: p) l +++ traceR (true :: p) r +++ Some (codes "}" ++ nl)
  | SSemi l r => traceR (false :: p) l +++ traceR (true :: p) r
  end.
(* cCode.c:397-406: the body of a function, from "{" *)
Definition printBodyR (root : stmt) : option (list Z) :=
  Some (codes "{" ++ nl) +++ traceR [] (match root with SBlk l r => SSemi l r | s => s end) +++ Some (codes "}" ++ nl).
End Names.
