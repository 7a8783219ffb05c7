(* What scoping means, written without reference to the table: a stack of scopes, each a
   list of declarations, newest first. *)
From Coq Require Import ZArith Bool Lia List.
Import ListNotations.
Open Scope Z_scope.

Inductive kind := KStruct | KFunc | KGlobal | KLocal | KField | KParam.
(* a declaration: spelling, kind, type, dimension, number, public *)
Record decl := Decl { d_name : list Z; d_kind : kind; d_type : Z; d_dim : Z; d_num : Z; d_pub : bool }.

(* what happens to names while a program is read *)
Inductive event :=
| Declare (d : decl)
| Enter               (* a block, a for statement, a parameter list, a struct body begins *)
| Leave (keep : bool) (* it ends; keep: its entries stay in the table, unreachable *).

Definition scopes := list (list decl).
Definition visible (s : scopes) : list decl := concat s.

(* the declarations that may not share a spelling while both are visible *)
Definition conflict (new old : decl) : Prop :=
  d_name new = d_name old /\
  (d_kind new = KStruct \/ d_kind old = KStruct \/
   (d_kind new = KLocal /\ (d_kind old = KLocal \/ d_kind old = KParam)) \/
   (d_kind new = KParam /\ d_kind old = KParam) \/
   (d_kind new = KField /\ d_kind old = KField)).

(* the innermost, most recent declaration that satisfies p; struct names are looked up
   apart from the others *)
Definition is_struct (d : decl) : bool := match d_kind d with KStruct => true | _ => false end.
Fixpoint same (a b : list Z) : bool :=
  match a, b with
  | [], [] => true
  | x :: a, y :: b => (x =? y) && same a b
  | _, _ => false
  end.
Definition meaning (s : scopes) (n : list Z) : option decl :=
  find (fun d => negb (is_struct d) && same (d_name d) n) (visible s).
Definition struct_of (s : scopes) (n : list Z) : option decl :=
  find (fun d => is_struct d && same (d_name d) n) (visible s).

(* one event; declarations that conflict are no step *)
Inductive step : scopes -> event -> scopes -> Prop :=
| st_decl d sc s : (forall o, In o (visible (sc :: s)) -> ~ conflict d o) -> step (sc :: s) (Declare d) ((d :: sc) :: s)
| st_enter s : step s Enter ([] :: s)
| st_leave k sc sc' s : step (sc :: sc' :: s) (Leave k) (sc' :: s).
Inductive steps : scopes -> list event -> scopes -> Prop :=
| sts_nil s : steps s [] s
| sts_cons s e s1 es s2 : step s e s1 -> steps s1 es s2 -> steps s (e :: es) s2.

(* sequences in which every scope entered is left again *)
Inductive balanced : list event -> Prop :=
| bal_nil : balanced []
| bal_decl d es : balanced es -> balanced (Declare d :: es)
| bal_scope k es fs : balanced es -> balanced fs -> balanced (Enter :: es ++ Leave k :: fs).
