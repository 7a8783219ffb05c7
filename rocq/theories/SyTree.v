(* Model of the syntax trees of src/sytree.h (lines 62-128).
   Simplification: a tree is an inductive value, not a set of slots of the
   table syType/syLVal/syRVal (sytree.h:51-54); SyTable.v relates the two.
   SySIZE (0x109) exists only in the C translator build (parser.c:405-414). *)
From Coq Require Import ZArith Bool List.
Import ListNotations.
Open Scope Z_scope.

(* factors, sytree.h:64-71. The argument is LVal: the constant's value, the
   name-table index (LLoc, LPrm, LGlb, LAddr) or the string's label (LStr).
   RVal of SyCNST (its type) is used only by the translator and is dropped. *)
Inductive leaf : Type :=
| LCnst (v : Z) | LLoc (i : Z) | LPrm (i : Z) | LGlb (i : Z)
| LStr (l : Z) | LAddr (i : Z).

(* one-operand operators, sytree.h:74-79 *)
Inductive op1 : Type := NEG | NOT | BNOT | CHR | BOOL.

(* two-operand nodes, sytree.h:81-112, and SySEMI (sytree.h:122) as the
   argument-list node below SyFUNC *)
Inductive op2 : Type :=
| ADD | SUB | SHL | SHR | BAND | BXOR | BOR | MUL | DIV | MOD
| DOT | IDXR | IDXI | IDXC | IDXB
| GT | GE | LT | LE | EQU | NEQ
| ASS | COMM | OR | AND | SEMI.

(* expression nodes. ENull is SyNULL (9999). EFunc is SyFUNC with LVal = name
   index and RVal = argument list (ENull, one expression, or a SEMI chain
   leaning left). DOT has the field in its right child: a constant node holding
   the field's name-table index (parser.c:353-354). *)
Inductive expr : Type :=
| ENull
| ELeaf (k : leaf)
| E1 (o : op1) (e : expr)
| E2 (o : op2) (l r : expr)
| EFunc (f : Z) (a : expr).

Notation Cnst v := (ELeaf (LCnst v)).

(* statement nodes, sytree.h:114-124.
   SWhl c b re is SyWHL with LVal = c (ENull: no condition) and
   RVal = SySEMI(b, re); SDo b c is SyDO with LVal = b, RVal = c;
   SEls c b1 b2 is SyELS(SyIF(c,b1), b2). *)
Inductive stmt : Type :=
| SNull
| SExpr (e : expr)
| SVar (i : Z)
| SIf (c : expr) (b : stmt)
| SEls (c : expr) (b1 b2 : stmt)
| SWhl (c : expr) (b : stmt) (re : expr)
| SDo (b : stmt) (c : expr)
| SBrk | SCnt
| SRet (e : expr)
| SSemi (l r : stmt)
| SBlk (l r : stmt).

Definition op1_eqb (a b : op1) : bool :=
  match a, b with
  | NEG, NEG | NOT, NOT | BNOT, BNOT | CHR, CHR | BOOL, BOOL => true
  | _, _ => false
  end.

Definition op2_eqb (a b : op2) : bool :=
  match a, b with
  | ADD, ADD | SUB, SUB | SHL, SHL | SHR, SHR | BAND, BAND | BXOR, BXOR
  | BOR, BOR | MUL, MUL | DIV, DIV | MOD, MOD | DOT, DOT | IDXR, IDXR
  | IDXI, IDXI | IDXC, IDXC | IDXB, IDXB | GT, GT | GE, GE | LT, LT | LE, LE
  | EQU, EQU | NEQ, NEQ | ASS, ASS | COMM, COMM | OR, OR | AND, AND
  | SEMI, SEMI => true
  | _, _ => false
  end.

Lemma op2_eqb_eq : forall a b, op2_eqb a b = true <-> a = b.
Proof. destruct a, b; simpl; split; congruence. Qed.
