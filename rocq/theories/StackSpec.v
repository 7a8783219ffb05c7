(* Specification for C21: static heights of operand stack and argument area.
   A height assignment E gives every label one height; [chk E c x] runs through
   the code once and fails if some instruction would find too few operands, if
   two ways of reaching a label disagree, or if RET is reached with anything left
   over. Heights are relative to those at the start of the function. *)
From Coq Require Import ZArith Bool List.
From Verif Require Import Word SyTree ExprSem VM.
Import ListNotations.
Open Scope Z_scope.

Definition height : Type := nat * nat.            (* stack, arguments *)

(* effect of an instruction that does not jump *)
Definition eff (i : instr) (h : height) : option height :=
  let '(s, a) := h in
  match i with
  | ILdCns _ | ILdGlb _ | ILdLoc _ | ILdPrm _ | ILdLab _ | ILdNam _ => Some (S s, a)
  | ILdWrd | ILdByt => match s with S (S s') => Some (S s', a) | _ => None end
  | IStGlb _ | IStLoc _ | IStPrm _ => match s with S _ => Some (s, a) | _ => None end
  | IStWrd | IStByt => match s with S (S (S s')) => Some (S s', a) | _ => None end
  | IUn _ => match s with S _ => Some (s, a) | _ => None end
  | IBin _ => match s with S (S s') => Some (S s', a) | _ => None end
  | IPop | IMReg => match s with S s' => Some (s', a) | _ => None end
  | IArg => match s with S s' => Some (s', S a) | _ => None end
  | ICallF n _ => if (n <=? a)%nat then Some (S s, (a - n)%nat) else None
  | ICallP n _ => if (n <=? a)%nat then Some (s, (a - n)%nat) else None
  | IEntry _ | IEntryK _ | IEntryI _ => Some (s, a)
  | ILab _ | IJmp _ | IJT _ | IJF _ | IRet | IRetI => None
  end.

Definition heq (x y : height) : bool :=
  (fst x =? fst y)%nat && (snd x =? snd y)%nat.

(* x: height before the instruction, None if it is not reached by falling in *)
Definition chk1 (E : Z -> height) (i : instr) (x : option height) : option (option height) :=
  match i, x with
  | ILab l, None => Some (Some (E l))
  | ILab l, Some h => if heq (E l) h then Some (Some h) else None
  | _, None => Some None
  | IJmp l, Some h => if heq (E l) h then Some None else None
  | IJT l, Some (S s, a) | IJF l, Some (S s, a) =>
      if heq (E l) (s, a) then Some (Some (s, a)) else None
  | IRet, Some h | IRetI, Some h => if heq h (0, 0)%nat then Some None else None
  | _, Some h => match eff i h with Some h' => Some (Some h') | None => None end
  end.

Fixpoint chk (E : Z -> height) (c : code) (x : option height) : option (option height) :=
  match c with
  | [] => Some x
  | i :: c' => match chk1 E i x with Some y => chk E c' y | None => None end
  end.
