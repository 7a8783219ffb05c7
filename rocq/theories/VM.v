(* The virtual stack machine targeted by the code generator.
   Specification side: instruction set of src/vm.h:53-110 with the meanings of
   doc/vm.tex (see also the comments of src/vm2vm.c:60-379). Nothing here refers
   to the code generator.

   The machine state is the [state] of ExprSem (globals and arrays behind the
   abstract [machine], local variables, parameters) plus program counter,
   operand stack, argument area and result register. A callee is the abstract
   [call] of the machine. Local variables and parameters are addressed by name
   index, as in vm.h; the slot numbers printed by vm2vm.c:145-195 are ntGetCnt of
   that index. *)
From Coq Require Import ZArith Bool List.
From Verif Require Import Word SyTree ExprSem.
Import ListNotations.
Open Scope Z_scope.

Inductive instr : Type :=
| ILab (l : Z)                       (* .Ln   : a position, no operation *)
| IJmp (l : Z) | IJT (l : Z) | IJF (l : Z)
| ILdCns (c : Z)                     (* LDC c *)
| ILdGlb (i : Z) | ILdLoc (i : Z) | ILdPrm (i : Z)
| ILdLab (l : Z)                     (* LDC .Ln  : address of a string *)
| ILdNam (i : Z)                     (* LDC name : address of an object *)
| ILdWrd | ILdByt                    (* pop index, pop base, push element *)
| IStGlb (i : Z) | IStLoc (i : Z) | IStPrm (i : Z)
| IStWrd | IStByt                    (* pop index, pop base, store top, keep it *)
| IUn (o : op1) | IBin (o : op2)     (* top of stack is the right operand *)
| IPop
| IArg                               (* pop, put into the argument area *)
| ICallF (n : nat) (f : Z)           (* call with n arguments, push result *)
| ICallP (n : nat) (f : Z)           (* call with n arguments, no result *)
| IMReg                              (* pop into the result register *)
| IEntry (d : Z) | IEntryK (d : Z) | IEntryI (d : Z)
| IRet | IRetI.

Definition code := list instr.

(* position of label l: that of its first occurrence *)
Fixpoint find (l : Z) (p : code) : option nat :=
  match p with
  | [] => None
  | ILab k :: q => if k =? l then Some O
                   else option_map S (find l q)
  | _ :: q => option_map S (find l q)
  end.

(* labels placed in / jumped to by a piece of code *)
Fixpoint defs (p : code) : list Z :=
  match p with
  | [] => []
  | ILab l :: q => l :: defs q
  | _ :: q => defs q
  end.
Fixpoint uses (p : code) : list Z :=
  match p with
  | [] => []
  | IJmp l :: q | IJT l :: q | IJF l :: q => l :: uses q
  | _ :: q => uses q
  end.

Section Machine.
Variable M : machine.

Record cfg : Type := Cfg {
  pc : nat; stk : list Z; args : list Z; reg : option Z; mem : state M }.

Definition goto (p : code) (l : Z) (stk args : list Z) reg mem : option cfg :=
  match find l p with
  | Some k => Some (Cfg k stk args reg mem)
  | None => None
  end.

(* One step; None: the machine cannot go on (RET, end of code, undefined
   operation, stack underflow, undefined label). *)
Definition step (p : code) (c : cfg) : option cfg :=
  let '(Cfg k s a r m) := c in
  let nxt s' m' := Some (Cfg (S k) s' a r m') in
  match nth_error p k with
  | None => None
  | Some i =>
    match i, s with
    | ILab _, _ => nxt s m
    | IEntry _, _ | IEntryK _, _ | IEntryI _, _ => nxt s m
    | IJmp l, _ => goto p l s a r m
    | IJT l, v :: s' => if v =? 0 then nxt s' m else goto p l s' a r m
    | IJF l, v :: s' => if v =? 0 then goto p l s' a r m else nxt s' m
    | ILdCns v, _ => nxt (w16 v :: s) m
    | ILdGlb i, _ => nxt (w16 (ldg M (gs m) i) :: s) m
    | ILdLoc i, _ => nxt (w16 (locs m (lcl M i)) :: s) m
    | ILdPrm i, _ => nxt (w16 (prms m (pcl M i)) :: s) m
    | ILdLab l, _ => nxt (w16 (lab M l) :: s) m
    | ILdNam i, _ => nxt (w16 (adr M i) :: s) m
    | ILdWrd, i :: b :: s' => nxt (w16 (ldw M (gs m) b i) :: s') m
    | ILdByt, i :: b :: s' => nxt (w_chr (ldb M (gs m) b i) :: s') m
    | IStGlb i, v :: _ => nxt s (set_g M m (stg M (gs m) i v))
    | IStLoc i, v :: _ => nxt s (set_loc M m (lcl M i) v)
    | IStPrm i, v :: _ => nxt s (set_prm M m (pcl M i) v)
    | IStWrd, i :: b :: v :: s' => nxt (v :: s') (set_g M m (stw M (gs m) b i v))
    | IStByt, i :: b :: v :: s' => nxt (v :: s') (set_g M m (stb M (gs m) b i v))
    | IUn o, v :: s' => nxt (op1_val o v :: s') m
    | IBin o, b :: v :: s' =>
        match op2_val o v b with Some w => nxt (w :: s') m | None => None end
    | IPop, _ :: s' => nxt s' m
    | IArg, v :: s' => Some (Cfg (S k) s' (v :: a) r m)
    | ICallF n f, _ =>
        match call M f (firstn n a) (gs m) with
        | Some (v, g) => Some (Cfg (S k) (w16 v :: s) (skipn n a) r (set_g M m g))
        | None => None
        end
    | ICallP n f, _ =>
        match call M f (firstn n a) (gs m) with
        | Some (_, g) => Some (Cfg (S k) s (skipn n a) r (set_g M m g))
        | None => None
        end
    | IMReg, v :: s' => Some (Cfg (S k) s' a (Some v) m)
    | IRet, _ | IRetI, _ => None
    | _, _ => None
    end
  end.

(* [steps p n c c']: n steps lead from c to c' *)
Fixpoint steps (p : code) (n : nat) (c c' : cfg) : Prop :=
  match n with
  | O => c = c'
  | S n' => exists d, step p c = Some d /\ steps p n' d c'
  end.

Definition reaches (p : code) (c c' : cfg) : Prop := exists n, steps p n c c'.

(* the machine never stops *)
Definition runs_forever (p : code) (c : cfg) : Prop :=
  forall n, exists c', steps p n c c'.

(* the machine has executed the function: it stands at RET *)
Definition at_ret (p : code) (c : cfg) : Prop :=
  nth_error p (pc c) = Some IRet \/ nth_error p (pc c) = Some IRetI.

End Machine.

Arguments Cfg {M}.
Arguments pc {M}.
Arguments stk {M}.
Arguments args {M}.
Arguments reg {M}.
Arguments mem {M}.
