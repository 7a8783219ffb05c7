(* Expressions whose value does not depend on the order in which the operands of
   order-insensitive operators are evaluated. Specification side. *)
From Coq Require Import ZArith Bool List.
From Verif Require Import Word SyTree ExprSem OptSpec.
Import ListNotations.
Open Scope Z_scope.

(* nothing in the expression depends on variables, memory or calls *)
Fixpoint fixed (e : expr) : bool :=
  match e with
  | ELeaf (LCnst _) | ELeaf (LStr _) | ELeaf (LAddr _) => true
  | ENull | ELeaf _ | EFunc _ _ => false
  | E1 _ a => fixed a
  | E2 o l r => match o with
                | DOT | IDXR | IDXI | IDXC | IDXB | ASS | SEMI => false
                | _ => fixed l && fixed r
                end
  end.

(* either no operand has a side effect, or one of them is fixed *)
Definition operands_ok (o : op2) (l r : expr) : bool :=
  if either_order o then
    negb (has_effect l || has_effect r) || fixed l || fixed r
  else true.

Fixpoint order_safe (e : expr) : bool :=
  match e with
  | ENull | ELeaf _ => true
  | E1 _ a => order_safe a
  | E2 o l r => operands_ok o l r && order_safe l && order_safe r
  | EFunc _ a => order_safe a
  end.

(* all expressions of a statement *)
Fixpoint sorder_safe (s : stmt) : bool :=
  match s with
  | SNull | SVar _ | SBrk | SCnt => true
  | SExpr e | SRet e => order_safe e
  | SIf c b => order_safe c && sorder_safe b
  | SEls c b1 b2 => order_safe c && sorder_safe b1 && sorder_safe b2
  | SWhl c b re => order_safe c && sorder_safe b && order_safe re
  | SDo b c => sorder_safe b && order_safe c
  | SSemi l r | SBlk l r => sorder_safe l && sorder_safe r
  end.
