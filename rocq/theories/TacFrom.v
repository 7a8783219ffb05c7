(* From the code of a function as the virtual machine back end prints it to the
   calls the TaC back end receives.

   vmCode.c ends a short-circuit expression with one call of vmBoolOR or
   vmBoolAND (vmCode.c:596-605). VmCode.v has the sequence those calls stand for
   in place; [vops] puts the calls back. A constant load followed directly by a
   label or a jump occurs nowhere else in generated code. Parameters, printed
   from 1 (vm2vm.c:188), are counted from 0 by ntGetCnt. *)
From Coq Require Import ZArith Bool Lia List.
From Verif Require Import Word SyTree ExprSem VM VmCode TacSpec Tac TacSafe.
Import ListNotations.
Open Scope Z_scope.

Definition bit (x : Z) : bool := (x =? 0) || (x =? 1).
Definition jmpOf (i : instr) := match i with IJmp l => Some l | _ => None end.
Definition labOf (i : instr) := match i with ILab l => Some l | _ => None end.
Definition cnsOf (i : instr) := match i with ILdCns l => Some l | _ => None end.
Definition macroAt (c : code) : option (vop * code) :=
  match c with
  | i1 :: i2 :: i3 :: i4 :: q =>
    match jmpOf i1, labOf i2, cnsOf i3 with
    | Some a, Some l1, Some x =>
      match labOf i4 with
      | Some b => if (a =? b) && bit x then Some (VBool x l1 (-1) a, q) else None
      | None =>
        match q with
        | i5 :: i6 :: i7 :: q' =>
          match jmpOf i4, labOf i5, cnsOf i6, labOf i7 with
          | Some b, Some l2, Some y, Some d =>
              if (a =? b) && (a =? d) && bit x && (y =? 1 - x) && negb (l2 =? -1)
              then Some (VBool x l1 l2 a, q') else None
          | _, _, _, _ => None
          end
        | _ => None
        end
      end
    | _, _, _ => None
    end
  | _ => None
  end.
Definition from0 (i : instr) : instr :=
  match i with ILdPrm k => ILdPrm (k - 1) | IStPrm k => IStPrm (k - 1) | _ => i end.
Fixpoint vopsN (n : nat) (c : code) : list vop :=
  match n with
  | O => []
  | S n' =>
      match c with
      | [] => []
      | i :: q => match macroAt c with
                  | Some (v, q') => v :: vopsN n' q'
                  | None => VI (from0 i) :: vopsN n' q
                  end
      end
  end.
Definition vops (c : code) : list vop := vopsN (length c) c.

(* the calls stand for the printed code *)
Lemma jmpOf_eq : forall i l, jmpOf i = Some l -> i = IJmp l.
Proof. intros [] k H; try discriminate H. injection H as ->. reflexivity. Qed.
Lemma labOf_eq : forall i l, labOf i = Some l -> i = ILab l.
Proof. intros [] k H; try discriminate H. injection H as ->. reflexivity. Qed.
Lemma cnsOf_eq : forall i l, cnsOf i = Some l -> i = ILdCns l.
Proof. intros [] k H; try discriminate H. injection H as ->. reflexivity. Qed.
Lemma bit_cases : forall x, bit x = true -> x = 0 \/ x = 1.
Proof. intros x H. apply orb_true_iff in H. destruct H as [H|H]; apply Z.eqb_eq in H; auto. Qed.
Lemma macroAt_spec : forall c v q, macroAt c = Some (v, q) -> c = expand1 v ++ q /\ (length q < length c)%nat /\ map from0 (expand1 v) = expand1 v.
Proof.
  intros c v q H. destruct c as [|i1 [|i2 [|i3 [|i4 c]]]]; try discriminate H. cbn [macroAt] in H.
  destruct (jmpOf i1) as [a|] eqn:E1; [|discriminate H]. destruct (labOf i2) as [l1|] eqn:E2; [|discriminate H].
  destruct (cnsOf i3) as [x|] eqn:E3; [|discriminate H]. apply jmpOf_eq in E1. apply labOf_eq in E2. apply cnsOf_eq in E3.
  destruct (labOf i4) as [b|] eqn:E4.
  - apply labOf_eq in E4. destruct (Z.eqb_spec a b) as [->|]; [|discriminate H]. destruct (bit x) eqn:B; [|discriminate H].
    injection H as <- <-. subst. destruct (bit_cases _ B) as [-> | ->]; (split; [reflexivity|split; [cbn [length]; lia|reflexivity]]).
  - destruct c as [|i5 [|i6 [|i7 c]]]; try discriminate H.
    destruct (jmpOf i4) as [b|] eqn:F1; [|discriminate H]. destruct (labOf i5) as [l2|] eqn:F2; [|discriminate H].
    destruct (cnsOf i6) as [y|] eqn:F3; [|discriminate H]. destruct (labOf i7) as [d|] eqn:F4; [|discriminate H].
    apply jmpOf_eq in F1. apply labOf_eq in F2. apply cnsOf_eq in F3. apply labOf_eq in F4.
    destruct ((a =? b) && (a =? d) && bit x && (y =? 1 - x) && negb (l2 =? -1)) eqn:B; [|discriminate H]. injection H as <- <-.
    apply andb_true_iff in B. destruct B as [B B5]. apply andb_true_iff in B. destruct B as [B B4]. apply andb_true_iff in B. destruct B as [B B3].
    apply andb_true_iff in B. destruct B as [B1 B2]. apply Z.eqb_eq in B1. apply Z.eqb_eq in B2. apply Z.eqb_eq in B4. apply negb_true_iff in B5. subst.
    unfold expand1, vmBoolOR, vmBoolAND. rewrite B5.
    destruct (bit_cases _ B3) as [-> | ->]; (split; [reflexivity|split; [cbn [length]; lia|reflexivity]]).
Qed.
Lemma vopsN_spec : forall n c, (length c <= n)%nat -> expand (vopsN n c) = map from0 c.
Proof.
  induction n as [|n IH]; intros c L; [destruct c; [reflexivity|simpl in L; lia]|].
  destruct c as [|i q]; [reflexivity|]. cbn [vopsN]. destruct (macroAt (i :: q)) as [[v q']|] eqn:E.
  - destruct (macroAt_spec _ _ _ E) as [A [B C]]. cbn [expand]. rewrite IH by lia. rewrite A, map_app, C. reflexivity.
  - cbn [expand expand1 map app]. rewrite IH; [reflexivity|]. simpl in L. lia.
Qed.
Lemma vops_spec : forall c, expand (vops c) = map from0 c.
Proof. intros c. apply vopsN_spec. lia. Qed.
