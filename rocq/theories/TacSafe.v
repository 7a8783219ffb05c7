(* When the code emitted for a function can be trusted: a decidable check of the
   function's instruction sequence (part [safe]), and the conditions on operands
   under which TaC's instructions compute what the virtual machine's do.

   The check runs the translator with its guards on ([strict] of Tac.v) and asks
   in addition that whenever control can reach a label from two places the
   translator's picture of stack and registers is the same, that a result moved
   to G0 is not disturbed before the return, and that labels are distinct. The
   guards refuse:
   - a store or a call while an operand that reads the changed object is still
     pending (noPend, callF, storeInd, vmStLoc);
   - values popped from the real stack in another order than pushed (loadReg);
   - a value on the real stack that is never popped (popStk);
   - conditional jumps and comparisons that reuse flags which no longer, or (if
     [ord] is false) not surely, describe the operand (boolJmp, cmp);
   - a comparison result kept only in the flags at a label (vm, vmBool). *)
From Coq Require Import ZArith Bool List.
From Verif Require Import Word SyTree ExprSem VM VmCode TacSpec Tac.
Import ListNotations.
Open Scope Z_scope.

(* the virtual machine code a sequence of calls to vm2tac.c stands for *)
Definition expand1 (v : vop) : code :=
  match v with
  | VI i => [i]
  | VBool x l1 l2 l3 => if x =? 1 then vmBoolOR l1 l2 l3 else vmBoolAND l1 l2 l3
  end.
Fixpoint expand (p : list vop) : code :=
  match p with [] => [] | v :: q => expand1 v ++ expand q end.

(* operands for which the translation computes what the instruction does: a truth
   value is 0 or 1, and quotients are taken of non-negative numbers *)
Definition fine1 (o : op1) (v : Z) : Prop := match o with NOT => v = 0 \/ v = 1 | _ => True end.
Definition fine2 (o : op2) (a b : Z) : Prop :=
  match o with DIV | MOD => a < 32768 /\ b < 32768 | _ => True end.
Definition fineI (i : instr) (vs : list Z) : Prop :=
  match i, vs with
  | IUn o, v :: _ => fine1 o v
  | IBin o, b :: a :: _ => fine2 o a b
  | _, _ => True
  end.
(* a run of the virtual machine all of whose operands are so *)
Definition fineAt {M} (p : code) (c : cfg M) : Prop :=
  match nth_error p (pc c) with Some i => fineI i (stk c) | None => True end.
Fixpoint fsteps M (p : code) (n : nat) (c c' : cfg M) : Prop :=
  match n with
  | O => c = c'
  | S n' => fineAt p c /\ exists d, step M p c = Some d /\ fsteps M p n' d c'
  end.

(* labels placed in TaC code *)
Fixpoint tdefs (p : list tin) : list tlabel :=
  match p with [] => [] | TLab l :: q => l :: tdefs q | _ :: q => tdefs q end.

Definition ent_dec (a b : ent) : {a = b} + {a <> b}.
Proof. decide equality; apply Z.eq_dec. Defined.
Definition tlabel_dec (a b : tlabel) : {a = b} + {a <> b}.
Proof. decide equality; apply Z.eq_dec. Defined.
Definition onat_dec (a b : option nat) : {a = b} + {a <> b}.
Proof. decide equality. decide equality. Defined.
(* the translator's picture at a jump or label: entries and real stack *)
Definition shape : Type := (Z * (list ent * list (option nat)))%type.
Definition shape_dec (a b : shape) : {a = b} + {a <> b}.
Proof.
  decide equality; [|apply Z.eq_dec].
  decide equality; apply list_eq_dec; [exact onat_dec|exact ent_dec].
Defined.
Fixpoint nodupb {A} (dec : forall a b : A, {a = b} + {a <> b}) (l : list A) : bool :=
  match l with
  | [] => true
  | x :: q => (if in_dec dec x q then false else true) && nodupb dec q
  end.

Section Safe.
Variables (ord : bool) (depth np : Z).

Fixpoint jumps (p : list vop) (s : tst) : list shape :=
  match p with
  | [] => []
  | v :: q =>
      match vm true ord depth np v s with
      | Some (_, s') =>
          match v with
          | VI (IJmp l) | VI (IJT l) | VI (IJF l) => [(l, (vst s', lay s'))]
          | _ => []
          end ++ jumps q s'
      | None => []
      end
  end.
(* what must hold on arrival at a label; l1 and l2 of a macro instruction are
   reached without the value it leaves *)
Fixpoint targets (p : list vop) (s : tst) : list shape :=
  match p with
  | [] => []
  | v :: q =>
      match vm true ord depth np v s with
      | Some (_, s') =>
          match v with
          | VI (ILab l) => [(l, (vst s, lay s))]
          | VBool _ l1 l2 _ =>
              (l1, (List.tl (vst s'), lay s'))
              :: (if l2 =? -1 then [] else [(l2, (List.tl (vst s'), lay s'))])
          | _ => []
          end ++ targets q s'
      | None => []
      end
  end.
Definition joinOK (p : list vop) (s : tst) : bool :=
  forallb (fun j => if in_dec shape_dec j (targets p s) then true else false) (jumps p s).

(* from q on, only labels and jumps come before the return *)
Fixpoint after (l : Z) (p : list vop) : option (list vop) :=
  match p with
  | [] => None
  | VI (ILab k) :: q => if k =? l then Some q else after l q
  | _ :: q => after l q
  end.
Fixpoint toRet (fuel : nat) (p q : list vop) : bool :=
  match fuel with
  | O => false
  | S n =>
      match q with
      | VI IRet :: _ | VI IRetI :: _ => true
      | VI (ILab _) :: q' => toRet n p q'
      | VI (IJmp l) :: _ => match after l p with Some q' => toRet n p q' | None => false end
      | _ => false
      end
  end.
Fixpoint resOK (p q : list vop) : bool :=
  match q with
  | [] => true
  | v :: q' => (match v with VI IMReg => toRet (S (length p)) p q' | _ => true end) && resOK p q'
  end.

(* inr: an interrupt function *)
Definition opOK (inr : bool) (v : vop) : bool :=
  match v with
  | VI (IEntry _) | VI (IEntryK _) | VI (IEntryI _) => false
  | VI (ILdLoc n) | VI (IStLoc n) => 1 <=? n
  | VI IRet => negb inr
  | VI IRetI => inr
  | VBool x _ _ _ => (x =? 0) || (x =? 1)
  | _ => true
  end.

(* function with entry instruction [e], then p; n is tlab at its beginning *)
Definition entryOK (e : instr) : bool :=
  match e with
  | IEntry d | IEntryK d => (d =? depth) && (0 <=? depth)
  | IEntryI d => (d =? depth) && (0 <=? depth) && (np =? 0)
  | _ => false
  end.
Definition isIntr (e : instr) : bool := match e with IEntryI _ => true | _ => false end.
Definition safe (n : Z) (e : instr) (p : list vop) : bool :=
  entryOK e && forallb (opOK (isIntr e)) p && nodupb Z.eq_dec (defs (expand p)) && resOK p p &&
  match vm true ord depth np (VI e) (tinit n) with
  | Some (c0, s0) =>
      match tac true ord depth np p s0 with
      | Some (c, _) => nodupb tlabel_dec (tdefs (c0 ++ c)) && joinOK p s0
      | None => false
      end
  | None => false
  end.
End Safe.

(* the state in which a function begins: a caller (or the interrupt mechanism)
   has left the parameters above the return address, and local variables hold
   whatever registers and stack happen to hold *)
Definition saved (e : instr) : Z := if isIntr e then 6 else 0.
Record begins M (e : instr) (depth np : Z) (t : mst M) (m : state M) : Prop := {
  b_g : tg t = gs m;
  b_prm : forall n, 0 <= n < np -> sm t (sp t + 2 + 2 * n) = w16 (prms m n);
  b_reg : forall n, 1 <= n <= depth -> n <= 9 -> gr t (n + 2) = w16 (locs m n);
  b_loc : forall n, 9 < n <= depth -> sm t (sp t - saved e - 2 - 2 * (n - 9)) = w16 (locs m n) }.

(* the state in which it returns: globals and arrays as in m, result in G0,
   G3-G11, FP, SP and the caller's stack unchanged except for the parameters; an
   interrupt function leaves G0-G2 unchanged as well *)
Record returned M (e : instr) (np : Z) (r : option Z) (m : state M) (t t' : mst M) : Prop := {
  r_g : tg t' = gs m;
  r_res : isIntr e = false -> forall v, r = Some v -> gr t' 0 = v;
  r_reg : forall n, (if isIntr e then 0 else 3) <= n < 12 -> gr t' n = gr t n;
  r_fp : fp t' = fp t;
  r_sp : sp t' = sp t;
  r_stk : forall a, sp t <= a -> (forall n, 0 <= n < np -> a <> sp t + 2 + 2 * n) ->
    sm t' a = sm t a }.
