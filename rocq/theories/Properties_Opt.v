(* Properties of the syntax-tree optimiser (src/optree.c): C11 - C16.
   Specification side: Word.v, ExprSem.v, StmtSem.v, OptSpec.v.
   Model side: SyTree.v, OpTree.v. *)
From Coq Require Import ZArith Bool List Lia.
From Verif Require Import Word SyTree ExprSem StmtSem OpTree OptSpec.
From Verif Require Import OptProofs OptProofs3 OptStmt OptStruct OptFold.
Import ListNotations.
Open Scope Z_scope.

(* C11: an arithmetic, shift, bitwise or comparison operator applied to two
   constants is replaced by exactly the constant the machine computes; where the
   machine has no result the compiler reports the error of that operator. *)
Theorem C11_fold_binary : forall o a b, strict o = true -> is_word a -> is_word b ->
  calExp (E2 o (Cnst a) (Cnst b)) =
  match op2_val o a b with Some v => Ok (Cnst v) | None => Err (fold_err o) end.
Proof. exact fold2_exact. Qed.
Print Assumptions C11_fold_binary.
Example C11_fold_binary_ex1 : calExp (E2 SHR (Cnst 65534) (Cnst 1)) = Ok (Cnst 65535).
Proof. reflexivity. Qed.
Example C11_fold_binary_ex2 : calExp (E2 DIV (Cnst 65529) (Cnst 2)) = Ok (Cnst 65533).
Proof. reflexivity. Qed.
Example C11_fold_binary_ex3 : calExp (E2 SHL (Cnst 1) (Cnst 16)) = Err EShl.
Proof. reflexivity. Qed.

Theorem C11_fold_unary : forall o a, is_word a -> (o = NOT -> a = 0 \/ a = 1) ->
  calExp (E1 o (Cnst a)) = Ok (Cnst (op1_val o a)).
Proof. exact fold1_exact. Qed.
Print Assumptions C11_fold_unary.
Example C11_fold_unary_ex : calExp (E1 NEG (Cnst 32768)) = Ok (Cnst 32768).
Proof. reflexivity. Qed.

Theorem C11_fold_logical : forall a b, (a = 0 \/ a = 1) -> (b = 0 \/ b = 1) ->
  calExp (E2 AND (Cnst a) (Cnst b)) = Ok (Cnst (b2w (negb (a =? 0) && negb (b =? 0)))) /\
  calExp (E2 OR (Cnst a) (Cnst b)) = Ok (Cnst (b2w (negb (a =? 0) || negb (b =? 0)))).
Proof. exact foldlog_exact. Qed.
Print Assumptions C11_fold_logical.

(* C12: same value, same final state, on every machine, for every opt_safe
   expression that evaluates. Partial: expressions outside opt_safe (a side
   effect beside a constant-like operand of an absorbing operator; a division in
   a dividend) are not covered, and cannot be: see the refutations. *)
Theorem C12_opt_expr_partial : forall (M : machine) (N : names) e e',
  opt_safe N e = true -> optExp e = Ok e' ->
  forall st r, eval M N ltr e st = Some r -> eval M N ltr e' st = Some r.
Proof. exact optExp_eval. Qed.
Print Assumptions C12_opt_expr_partial.

(* (x + 1) + (f() - 3)  becomes  x + f() + (-2) with the constant moved down *)
Definition ex12 : expr :=
  E2 ADD (E2 ADD (ELeaf (LLoc 1)) (Cnst 1)) (E2 SUB (EFunc 7 ENull) (Cnst 3)).
Example C12_safe : opt_safe demoN ex12 = true. Proof. reflexivity. Qed.
Example C12_result : optExp ex12 =
  Ok (E2 ADD (E2 ADD (ELeaf (LLoc 1)) (Cnst 65534)) (EFunc 7 ENull)).
Proof. reflexivity. Qed.
Example C12_defined :
  exists s, eval demoM demoN ltr ex12 (demoS 10) = Some (9, s) /\ gs s = 1.
Proof. eexists; split; reflexivity. Qed.

(* a quotient chain of positive constants whose product is representable *)
Theorem C12_div_chain_partial : forall (M : machine) (N : names) i c1 c2,
  1 < c1 -> 1 < c2 -> c1 * c2 < 32768 ->
  exists e', optExp (E2 DIV (E2 DIV (ELeaf (LLoc i)) (Cnst c1)) (Cnst c2)) = Ok e' /\
  forall st r, eval M N ltr (E2 DIV (E2 DIV (ELeaf (LLoc i)) (Cnst c1)) (Cnst c2)) st = Some r ->
               eval M N ltr e' st = Some r.
Proof. exact div_chain_opt. Qed.
Print Assumptions C12_div_chain_partial.

(* x/200/200: the product of the divisors overflows, the value changes *)
Theorem C12_div_chain_refuted : exists e e' st v v' s s',
  optExp e = Ok e' /\ eval demoM demoN ltr e st = Some (v, s) /\
  eval demoM demoN ltr e' st = Some (v', s') /\ v <> v'.
Proof.
  exists (E2 DIV (E2 DIV (ELeaf (LLoc 1)) (Cnst 200)) (Cnst 200)).
  eexists. exists (demoS 30000). eexists; eexists; eexists; eexists.
  repeat split; try reflexivity. vm_compute. discriminate.
Qed.
Print Assumptions C12_div_chain_refuted.

(* x/256/256 is rejected as a division by zero although it always evaluates *)
Theorem C12_div_error_refuted : exists e, optExp e = Err EDiv0 /\
  forall x, exists v s, eval demoM demoN ltr e (demoS x) = Some (v, s).
Proof.
  exists (E2 DIV (E2 DIV (ELeaf (LLoc 1)) (Cnst 256)) (Cnst 256)). split; [reflexivity|].
  intros x. eexists; eexists; reflexivity.
Qed.
Print Assumptions C12_div_error_refuted.

(* x / y / 2 becomes x / 2 / y: -32768 / -1 wraps to -32768 before it is halved, -16384 / -1
   does not wrap *)
Definition divS : state demoM := @State demoM 0 (fun i => if i =? 1 then 32768 else 65535) (fun _ => 0).
Theorem C12_div_var_refuted : exists e e' v v' s s', e = E2 DIV (E2 DIV (ELeaf (LLoc 1)) (ELeaf (LLoc 2))) (Cnst 2) /\
  optExp e = Ok e' /\ eval demoM demoN ltr e divS = Some (v, s) /\
  eval demoM demoN ltr e' divS = Some (v', s') /\ v <> v'.
Proof.
  exists (E2 DIV (E2 DIV (ELeaf (LLoc 1)) (ELeaf (LLoc 2))) (Cnst 2)).
  eexists. eexists; eexists; eexists; eexists. repeat split; try reflexivity. vm_compute. discriminate.
Qed.
Print Assumptions C12_div_var_refuted.

(* C13: side effects. *)
(* nothing is invented, duplicated or reordered, for every tree *)
Theorem C13_no_new_effects : forall e e', optExp e = Ok e' -> subseq (effs e') (effs e).
Proof. exact optExp_effs. Qed.
Print Assumptions C13_no_new_effects.
Example C13_ex : effs ex12 = [Some 7]. Proof. reflexivity. Qed.

(* nothing is lost on opt_safe expressions: the final state (hence every call
   made and every store) is the same *)
Theorem C13_effects_kept_partial : forall (M : machine) (N : names) e e',
  opt_safe N e = true -> optExp e = Ok e' ->
  forall st v s, eval M N ltr e st = Some (v, s) -> eval M N ltr e' st = Some (v, s).
Proof. intros M N e e' H H0 st v s. apply optExp_eval; auto. Qed.
Print Assumptions C13_effects_kept_partial.

(* each absorbing operator loses the call: the call counter differs *)
Definition loses_call (o : op2) (f c : Z) : Prop := exists e',
  optExp (E2 o (EFunc f ENull) (Cnst c)) = Ok e' /\
  exists v s v' s',
  eval demoM demoN ltr (E2 o (EFunc f ENull) (Cnst c)) (demoS 0) = Some (v, s) /\
  eval demoM demoN ltr e' (demoS 0) = Some (v', s') /\ gs s = 1 /\ gs s' = 0.
Theorem C13_effects_lost_refuted :
  loses_call MUL 7 0 /\ loses_call BAND 7 0 /\ loses_call BOR 7 65535 /\
  loses_call MOD 7 1 /\ loses_call AND 107 0 /\ loses_call OR 107 1.
Proof.
  repeat split; (eexists; split; [reflexivity|]; do 4 eexists; repeat split; reflexivity).
Qed.
Print Assumptions C13_effects_lost_refuted.

(* C14: statements. For every fuel the optimised statement gives the same result
   (same outcome and state, or the same time-out). *)
Theorem C14_opt_stmt_partial : forall (M : machine) (N : names) s s' n st,
  sopt_safe N s = true -> optTree s = Ok s' ->
  run M N ltr s (S n) st <> Stuck -> run M N ltr s' (S n) st = run M N ltr s (S n) st.
Proof. exact optTree_rr. Qed.
Print Assumptions C14_opt_stmt_partial.

Theorem C14_terminates_partial : forall (M : machine) (N : names) s s' st o st',
  sopt_safe N s = true -> optTree s = Ok s' ->
  terminates M N ltr s st o st' -> terminates M N ltr s' st o st'.
Proof. exact optTree_terminates. Qed.
Print Assumptions C14_terminates_partial.

Theorem C14_diverges_partial : forall (M : machine) (N : names) s s' st,
  sopt_safe N s = true -> optTree s = Ok s' ->
  diverges M N ltr s st -> diverges M N ltr s' st.
Proof. exact optTree_diverges. Qed.
Print Assumptions C14_diverges_partial.

(* for (;true;x = x + (2 - 1)) { if (x == 5) break; }  *)
Definition ex14 : stmt :=
  SWhl (Cnst 1) (SIf (E2 EQU (ELeaf (LLoc 1)) (Cnst 5)) SBrk)
       (E2 ASS (ELeaf (LLoc 1)) (E2 ADD (ELeaf (LLoc 1)) (E2 SUB (Cnst 2) (Cnst 1)))).
Example C14_safe : sopt_safe demoN ex14 = true. Proof. reflexivity. Qed.
Example C14_result : exists s', optTree ex14 = Ok s' /\ s' <> ex14.
Proof. eexists; split; [reflexivity|discriminate]. Qed.
Example C14_defined : exists s, run demoM demoN ltr ex14 10 (demoS 0) = Done ONorm s /\ locs s 1 = 5.
Proof. eexists; split; reflexivity. Qed.
Example C14_div_ex : diverges demoM demoN ltr (SWhl (Cnst 1) SNull ENull) (demoS 0).
Proof.
  intros n. cbn [run]. assert (G : forall k, whl demoM demoN ltr (Cnst 1) ENull
    (run demoM demoN ltr SNull n) k (demoS 0) = Timeout).
  { induction k; [reflexivity|exact IHk]. }
  apply G.
Qed.

(* do { break; } while (false); leaves a break of the enclosing loop *)
Theorem C14_do_false_refuted : exists s s' st, optTree s = Ok s' /\
  run demoM demoN ltr s 1 st = Done ONorm st /\ run demoM demoN ltr s' 1 st = Done OBrk st.
Proof.
  exists (SDo (SSemi SBrk SNull) (Cnst 0)). eexists. exists (demoS 0). repeat split; reflexivity.
Qed.
Print Assumptions C14_do_false_refuted.

(* C15 *)
Theorem C15_expr_constants : forall e e', optExp e = Ok e' -> consts_in_range e'.
Proof. exact optExp_range. Qed.
Print Assumptions C15_expr_constants.
Theorem C15_stmt_constants : forall s s', optTree s = Ok s' -> sconsts_in_range s'.
Proof. exact optTree_range. Qed.
Print Assumptions C15_stmt_constants.
Example C15_ex : optExp (E1 NEG (E2 SUB (ELeaf (LLoc 1)) (Cnst 70000))) =
  Ok (E1 NEG (E2 ADD (ELeaf (LLoc 1)) (Cnst 61072))).
Proof. reflexivity. Qed.

(* C16: optExp and optTree are total functions (termination); no growth *)
Theorem C16_expr_size : forall e e', optExp e = Ok e' -> (nodes e' <= nodes e)%nat.
Proof. exact optExp_nodes. Qed.
Print Assumptions C16_expr_size.
Theorem C16_stmt_size : forall s s', optTree s = Ok s' -> (snodes s' <= snodes s)%nat.
Proof. exact optTree_nodes. Qed.
Print Assumptions C16_stmt_size.
Example C16_ex : nodes ex12 = 7%nat. Proof. reflexivity. Qed.
