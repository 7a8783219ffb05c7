(* Reference semantics of statements with 32-bit words: StmtSem.v over the expressions of
   CExprSem.v (outcomes, results and fuel as there). *)
From Coq Require Import ZArith Bool List.
From Verif Require Import CWord SyTree ExprSem StmtSem CExprSem.
Import ListNotations.
Open Scope Z_scope.

Section Sem.
Variable M : machine.
Variable N : names.
Variable sw : op2 -> expr -> expr -> bool.
Notation state := (state M).
Notation ceval := (ceval M N sw).

(* conditions: a missing condition (ENull) is true *)
Definition ctest (c : expr) (st : state) : option (bool * state) :=
  match c with
  | ENull => Some (true, st)
  | _ => match ceval c st with
         | Some (v, s) => Some (negb (v =? 0), s)
         | None => None
         end
  end.

(* the re-initialisation of a for; missing: nothing *)
Definition ceffect (e : expr) (st : state) : option state :=
  match e with
  | ENull => Some st
  | _ => match ceval e st with Some (_, s) => Some s | None => None end
  end.

(* while / for: continue goes to the re-initialisation, then the condition *)
Fixpoint cwhl (c re : expr) (body : state -> result M) (k : nat) (st : state) : result M :=
  match k with
  | O => Timeout
  | S k' =>
      match ctest c st with
      | None => Stuck
      | Some (false, s) => Done ONorm s
      | Some (true, s) =>
          match body s with
          | Done ONorm s1 | Done OCnt s1 =>
              match ceffect re s1 with
              | Some s2 => cwhl c re body k' s2
              | None => Stuck
              end
          | Done OBrk s1 => Done ONorm s1
          | r => r
          end
      end
  end.

(* do-while: continue goes to the condition *)
Fixpoint cdowhl (c : expr) (body : state -> result M) (k : nat) (st : state) : result M :=
  match k with
  | O => Timeout
  | S k' =>
      match body st with
      | Done ONorm s1 | Done OCnt s1 =>
          match ctest c s1 with
          | None => Stuck
          | Some (false, s2) => Done ONorm s2
          | Some (true, s2) => cdowhl c body k' s2
          end
      | Done OBrk s1 => Done ONorm s1
      | r => r
      end
  end.

Fixpoint crun (s : stmt) (n : nat) (st : state) {struct s} : result M :=
  match s with
  | SNull => Done ONorm st
  | SVar _ => Done ONorm st
  | SExpr e => match ceval e st with Some (_, s1) => Done ONorm s1 | None => Stuck end
  | SIf c b =>
      match ctest c st with
      | None => Stuck
      | Some (true, s1) => crun b n s1
      | Some (false, s1) => Done ONorm s1
      end
  | SEls c b1 b2 =>
      match ctest c st with
      | None => Stuck
      | Some (true, s1) => crun b1 n s1
      | Some (false, s1) => crun b2 n s1
      end
  | SWhl c b re => cwhl c re (crun b n) n st
  | SDo b c => cdowhl c (crun b n) n st
  | SBrk => Done OBrk st
  | SCnt => Done OCnt st
  | SRet ENull => Done (ORet None) st
  | SRet e => match ceval e st with
              | Some (v, s1) => Done (ORet (Some v)) s1
              | None => Stuck
              end
  | SSemi l r | SBlk l r =>
      match crun l n st with
      | Done ONorm s1 => crun r n s1
      | x => x
      end
  end.

(* the run terminates with this outcome / never terminates *)
Definition cterminates (s : stmt) (st : state) (o : outcome) (st' : state) : Prop :=
  exists n, crun s n st = Done o st'.
Definition cdiverges (s : stmt) (st : state) : Prop :=
  forall n, crun s n st = Timeout.

End Sem.
