(* Conditions under which the optimiser is claimed to be transparent.
   Stated on source trees only; nothing here refers to the optimiser. *)
From Coq Require Import ZArith Bool List.
From Verif Require Import Word SyTree ExprSem.
Import ListNotations.
Open Scope Z_scope.

(* the expression contains a call or an assignment *)
Fixpoint has_effect (e : expr) : bool :=
  match e with
  | ENull | ELeaf _ => false
  | E1 _ a => has_effect a
  | E2 ASS _ _ => true
  | E2 _ l r => has_effect l || has_effect r
  | EFunc _ _ => true
  end.

(* "constant-like": could be a compile-time constant by the algebra of
   constants (c o c, x*0, x&0, x|-1, x%1, x&&false, x||true) *)
Fixpoint may_const (e : expr) : bool :=
  match e with
  | Cnst _ => true
  | ENull | ELeaf _ | EFunc _ _ => false
  | E1 _ a => may_const a
  | E2 o l r =>
      match o with
      | ADD | SUB | SHL | SHR | BXOR | GT | GE | LT | LE | EQU | NEQ =>
          may_const l && may_const r
      | DIV => may_const l && may_const r
      | MUL | BAND | BOR | MOD | AND | OR => may_const l || may_const r
      | _ => false
      end
  end.

Fixpoint has_div (e : expr) : bool :=
  match e with
  | ENull | ELeaf _ => false
  | E1 _ a => has_div a
  | E2 DIV _ _ => true
  | E2 _ l r => has_div l || has_div r
  | EFunc _ a => has_div a
  end.

Section Typed.
Variable N : names.

(* expressions of type boolean *)
Fixpoint bexp (e : expr) : bool :=
  match e with
  | ENull => false
  | ELeaf k =>
      match k with
      | LCnst v => (v =? 0) || (v =? 1)
      | LLoc i | LPrm i | LGlb i => is_bool N i
      | LStr _ | LAddr _ => false
      end
  | E1 o _ => match o with NOT | BOOL => true | _ => false end
  | EFunc f _ => is_bool N f
  | E2 o l r =>
      match o with
      | GT | GE | LT | LE | EQU | NEQ | IDXB => true
      | AND | OR => bexp l && bexp r
      | ASS | COMM => bexp r
      | DOT => match r with Cnst f => is_bool N f | _ => false end
      | _ => false
      end
  end.

(* Every node satisfies:
   - operands of && || ! are of type boolean;
   - a field selector is a name-table index;
   - no operand with side effects stands next to a constant-like operand under
     an operator with an absorbing element ( * & | % && || );
   - no division inside the dividend of a division. *)
Definition node2_ok (o : op2) (l r : expr) : bool :=
  match o with
  | AND | OR => bexp l && bexp r && negb (has_effect l && may_const r)
  | MUL | BAND | BOR =>
      negb ((has_effect l || has_effect r) && (may_const l || may_const r))
  | MOD => negb (has_effect l && may_const r)
  | DIV => negb (has_div l)
  | DOT => match r with Cnst f => (0 <=? f) && (f <? 65536) | _ => false end
  | _ => true
  end.
Definition node1_ok (o : op1) (a : expr) : bool :=
  match o with NOT => bexp a | _ => true end.

Fixpoint opt_safe (e : expr) : bool :=
  match e with
  | ENull | ELeaf _ => true
  | E1 o a => node1_ok o a && opt_safe a
  | E2 o l r => node2_ok o l r && opt_safe l && opt_safe r
  | EFunc _ a => opt_safe a
  end.

End Typed.

(* every constant of the tree is a machine word *)
Fixpoint consts_in_range (e : expr) : Prop :=
  match e with
  | Cnst v => is_word v
  | ENull | ELeaf _ => True
  | E1 _ a => consts_in_range a
  | E2 _ l r => consts_in_range l /\ consts_in_range r
  | EFunc _ a => consts_in_range a
  end.

(* number of nodes *)
Fixpoint nodes (e : expr) : nat :=
  match e with
  | ENull => 0
  | ELeaf _ => 1
  | E1 _ a => S (nodes a)
  | E2 _ l r => S (nodes l + nodes r)
  | EFunc _ a => S (nodes a)
  end.

(* calls occurring in the tree, left to right *)
Fixpoint calls (e : expr) : list Z :=
  match e with
  | ENull | ELeaf _ => []
  | E1 _ a => calls a
  | E2 _ l r => calls l ++ calls r
  | EFunc f a => f :: calls a
  end.

(* ---- statements ---- *)
(* break or continue that belongs to an enclosing loop *)
Fixpoint escapes (s : stmt) : bool :=
  match s with
  | SBrk | SCnt => true
  | SIf _ b => escapes b
  | SEls _ b1 b2 => escapes b1 || escapes b2
  | SSemi l r | SBlk l r => escapes l || escapes r
  | _ => false
  end.

Section TypedS.
Variable N : names.
Definition cond_ok (c : expr) : bool :=
  match c with ENull => false | _ => bexp N c && opt_safe N c end.

(* every expression is opt_safe, conditions are of type boolean, and the body of
   a do loop whose condition is constant-like has no break/continue of its own *)
Fixpoint sopt_safe (s : stmt) : bool :=
  match s with
  | SExpr e => opt_safe N e
  | SIf c b => cond_ok c && sopt_safe b
  | SEls c b1 b2 => cond_ok c && sopt_safe b1 && sopt_safe b2
  | SWhl c b re =>
      (match c with ENull => true | _ => cond_ok c end) && opt_safe N re && sopt_safe b
  | SDo b c => cond_ok c && sopt_safe b && negb (may_const c && escapes b)
  | SRet e => opt_safe N e
  | SSemi l r | SBlk l r => sopt_safe l && sopt_safe r
  | _ => true
  end.
End TypedS.

(* side effects of an expression in the order of the tree (a call by its name
   index, an assignment as None) *)
Fixpoint effs (e : expr) : list (option Z) :=
  match e with
  | ENull | ELeaf _ => []
  | E1 _ a => effs a
  | E2 ASS l r => effs l ++ None :: effs r
  | E2 _ l r => effs l ++ effs r
  | EFunc f a => Some f :: effs a
  end.

(* [subseq a b]: a is b with some elements deleted *)
Inductive subseq {A} : list A -> list A -> Prop :=
| sub_nil : subseq [] []
| sub_keep x a b : subseq a b -> subseq (x :: a) (x :: b)
| sub_drop x a b : subseq a b -> subseq a (x :: b).

Fixpoint snodes (s : stmt) : nat :=
  match s with
  | SNull => 0
  | SExpr e => nodes e
  | SVar _ | SBrk | SCnt => 1
  | SIf c b => S (nodes c + snodes b)
  | SEls c b1 b2 => S (S (nodes c + snodes b1 + snodes b2))
  | SWhl c b re => S (S (nodes c + snodes b + nodes re))
  | SDo b c => S (snodes b + nodes c)
  | SRet e => S (nodes e)
  | SSemi l r | SBlk l r => S (snodes l + snodes r)
  end.

Fixpoint sconsts_in_range (s : stmt) : Prop :=
  match s with
  | SExpr e | SRet e => consts_in_range e
  | SIf c b => consts_in_range c /\ sconsts_in_range b
  | SEls c b1 b2 => consts_in_range c /\ sconsts_in_range b1 /\ sconsts_in_range b2
  | SWhl c b re => consts_in_range c /\ sconsts_in_range b /\ consts_in_range re
  | SDo b c => sconsts_in_range b /\ consts_in_range c
  | SSemi l r | SBlk l r => sconsts_in_range l /\ sconsts_in_range r
  | _ => True
  end.
