(* Reference semantics of C-- statements (specification side).
   Runs are bounded by a fuel [n]: no loop activation makes more than n
   iterations. A run with outcome [Timeout] for every n is a diverging run. *)
From Coq Require Import ZArith Bool List.
From Verif Require Import Word SyTree ExprSem.
Import ListNotations.
Open Scope Z_scope.

(* how control leaves a statement *)
Inductive outcome : Type := ONorm | OBrk | OCnt | ORet (v : option Z).

Section Sem.
Variable M : machine.
Variable N : names.
Variable sw : op2 -> expr -> expr -> bool.
Notation state := (state M).
Notation eval := (eval M N sw).

Inductive result : Type :=
| Done (o : outcome) (s : state)
| Stuck                             (* an expression is undefined *)
| Timeout.                          (* more iterations than the fuel allows *)

(* conditions: a missing condition (ENull) is true *)
Definition test (c : expr) (st : state) : option (bool * state) :=
  match c with
  | ENull => Some (true, st)
  | _ => match eval c st with
         | Some (v, s) => Some (negb (v =? 0), s)
         | None => None
         end
  end.

(* the re-initialisation of a for; missing: nothing *)
Definition effect (e : expr) (st : state) : option state :=
  match e with
  | ENull => Some st
  | _ => match eval e st with Some (_, s) => Some s | None => None end
  end.

(* while / for: continue goes to the re-initialisation, then the condition *)
Fixpoint whl (c re : expr) (body : state -> result) (k : nat) (st : state) : result :=
  match k with
  | O => Timeout
  | S k' =>
      match test c st with
      | None => Stuck
      | Some (false, s) => Done ONorm s
      | Some (true, s) =>
          match body s with
          | Done ONorm s1 | Done OCnt s1 =>
              match effect re s1 with
              | Some s2 => whl c re body k' s2
              | None => Stuck
              end
          | Done OBrk s1 => Done ONorm s1
          | r => r
          end
      end
  end.

(* do-while: continue goes to the condition *)
Fixpoint dowhl (c : expr) (body : state -> result) (k : nat) (st : state) : result :=
  match k with
  | O => Timeout
  | S k' =>
      match body st with
      | Done ONorm s1 | Done OCnt s1 =>
          match test c s1 with
          | None => Stuck
          | Some (false, s2) => Done ONorm s2
          | Some (true, s2) => dowhl c body k' s2
          end
      | Done OBrk s1 => Done ONorm s1
      | r => r
      end
  end.

Fixpoint run (s : stmt) (n : nat) (st : state) {struct s} : result :=
  match s with
  | SNull => Done ONorm st
  | SVar _ => Done ONorm st
  | SExpr e => match eval e st with Some (_, s1) => Done ONorm s1 | None => Stuck end
  | SIf c b =>
      match test c st with
      | None => Stuck
      | Some (true, s1) => run b n s1
      | Some (false, s1) => Done ONorm s1
      end
  | SEls c b1 b2 =>
      match test c st with
      | None => Stuck
      | Some (true, s1) => run b1 n s1
      | Some (false, s1) => run b2 n s1
      end
  | SWhl c b re => whl c re (run b n) n st
  | SDo b c => dowhl c (run b n) n st
  | SBrk => Done OBrk st
  | SCnt => Done OCnt st
  | SRet ENull => Done (ORet None) st
  | SRet e => match eval e st with
              | Some (v, s1) => Done (ORet (Some v)) s1
              | None => Stuck
              end
  | SSemi l r | SBlk l r =>
      match run l n st with
      | Done ONorm s1 => run r n s1
      | x => x
      end
  end.

(* the run terminates with this outcome / never terminates *)
Definition terminates (s : stmt) (st : state) (o : outcome) (st' : state) : Prop :=
  exists n, run s n st = Done o st'.
Definition diverges (s : stmt) (st : state) : Prop :=
  forall n, run s n st = Timeout.

End Sem.

Arguments Done {M}.
Arguments Stuck {M}.
Arguments Timeout {M}.
