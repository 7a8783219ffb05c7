(* C66: the optimiser as the C translator runs it (src/optree.c compiled with NWORD=32; cm2c always
   passes -O).  Specification side: CIntSpec.v (the int of C), CWord.v, CExprSem.v, CStmtSem.v
   (C-- with 32-bit words), OptSpec.v (the conditions, as for C12 - C14).
   Model side: SyTree.v, OpTree.v (what only moves nodes), COpTree.v. *)
From Coq Require Import ZArith Bool List Lia.
From Verif Require Import SyTree ExprSem StmtSem OpTree COpTree OptSpec CIntSpec CExprSem CStmtSem.
From Verif Require Import OptFold COptProofs COptProofs2 COptProofs3 COptStmt COptStruct.
Import ListNotations.
Open Scope Z_scope.

(* an operator on two int constants becomes exactly the constant that C computes; a shift by less
   than 0 or more than 31 places and a division by zero are reported; where C leaves the result
   undefined (an overflow) the translator itself executes that undefined operation *)
Theorem C66_fold_binary : forall o a b, strict o = true -> fits a = true -> fits b = true ->
  cCal (E2 o (Cnst a) (Cnst b)) =
  match cop2 o a b with
  | CVal v => Ok (Cnst v)
  | COver => Err EUndef
  | CShift => Err (match o with SHL => EShl | _ => EShr end)
  | CDiv0 => Err (match o with DIV => EDiv0 | _ => EMod0 end)
  end.
Proof. exact cfold2_exact. Qed.
Print Assumptions C66_fold_binary.
Example C66_fold_binary_ex :
  cCal (E2 SHR (Cnst (-7)) (Cnst 1)) = Ok (Cnst (-4)) /\
  cCal (E2 DIV (Cnst (-7)) (Cnst 2)) = Ok (Cnst (-3)) /\
  cCal (E2 MUL (Cnst 65536) (Cnst 32767)) = Ok (Cnst 2147418112) /\
  cCal (E2 SHL (Cnst 1) (Cnst 31)) = Ok (Cnst (-2147483648)) /\
  cCal (E2 SHL (Cnst 1) (Cnst 32)) = Err EShl /\
  cCal (E2 ADD (Cnst 2147483647) (Cnst 1)) = Err EUndef.
Proof. vm_compute. repeat split; reflexivity. Qed.

Theorem C66_fold_unary : forall o a, fits a = true -> (o = NOT -> a = 0 \/ a = 1) ->
  cCal (E1 o (Cnst a)) = match cop1 o a with CVal v => Ok (Cnst v) | _ => Err EUndef end.
Proof.
  intros o a Ha Hn. rewrite (cfold1_exact o a Ha Hn).
  destruct o; cbn [cop1 cerr]; try reflexivity. unfold cres. destruct (fits (- a)); reflexivity.
Qed.
Print Assumptions C66_fold_unary.
Example C66_fold_unary_ex : cCal (E1 CHR (Cnst (-1))) = Ok (Cnst 255).
Proof. reflexivity. Qed.

(* every constant of the optimised tree is an int, so that its decimal text is a C constant *)
Theorem C66_int_constants : forall e e', cOptExp e = Ok e' -> consts_int e'.
Proof. exact cOptExp_int. Qed.
Print Assumptions C66_int_constants.

(* same value, same final state, for every opt_safe expression that evaluates.  Partial for the
   reasons of C12; the arithmetic wraps around (see C66_overflow_refuted) *)
Theorem C66_opt_expr_partial : forall (M : machine) (N : names) e e',
  opt_safe N e = true -> cOptExp e = Ok e' ->
  forall st r, ceval M N ltr e st = Some r -> ceval M N ltr e' st = Some r.
Proof. exact cOptExp_eval. Qed.
Print Assumptions C66_opt_expr_partial.
(* (x + 70000) + (f() - 3) *)
Definition ex66 : expr :=
  E2 ADD (E2 ADD (ELeaf (LLoc 1)) (Cnst 70000)) (E2 SUB (EFunc 7 ENull) (Cnst 3)).
Example C66_opt_expr_ex :
  opt_safe demoN ex66 = true /\
  cOptExp ex66 = Ok (E2 ADD (E2 ADD (ELeaf (LLoc 1)) (Cnst 69997)) (EFunc 7 ENull)) /\
  exists s, ceval demoM demoN ltr ex66 (demoS 10) = Some (70008, s) /\ ExprSem.gs s = 1.
Proof. repeat split; try reflexivity. eexists; split; reflexivity. Qed.

(* no effect is invented, doubled or reordered, for every tree *)
Theorem C66_no_new_effects : forall e e', cOptExp e = Ok e' -> subseq (effs e') (effs e).
Proof. exact cOptExp_effs. Qed.
Print Assumptions C66_no_new_effects.
Example C66_no_new_effects_ex : effs ex66 = [Some 7]. Proof. reflexivity. Qed.

(* statements: same result for every fuel, hence the same terminating and diverging runs *)
Theorem C66_opt_stmt_partial : forall (M : machine) (N : names) s s' n st,
  sopt_safe N s = true -> cOptTree s = Ok s' ->
  crun M N ltr s (S n) st <> Stuck -> crun M N ltr s' (S n) st = crun M N ltr s (S n) st.
Proof. exact cOptTree_rr. Qed.
Print Assumptions C66_opt_stmt_partial.
Theorem C66_terminates_partial : forall (M : machine) (N : names) s s' st o st',
  sopt_safe N s = true -> cOptTree s = Ok s' ->
  cterminates M N ltr s st o st' -> cterminates M N ltr s' st o st'.
Proof. exact cOptTree_terminates. Qed.
Print Assumptions C66_terminates_partial.
Theorem C66_diverges_partial : forall (M : machine) (N : names) s s' st,
  sopt_safe N s = true -> cOptTree s = Ok s' ->
  cdiverges M N ltr s st -> cdiverges M N ltr s' st.
Proof. exact cOptTree_diverges. Qed.
Print Assumptions C66_diverges_partial.
(* for (; true; x = x + (40000 - 39999)) { if (x == 5) break; } *)
Definition ex66s : stmt :=
  SWhl (Cnst 1) (SIf (E2 EQU (ELeaf (LLoc 1)) (Cnst 5)) SBrk)
       (E2 ASS (ELeaf (LLoc 1)) (E2 ADD (ELeaf (LLoc 1)) (E2 SUB (Cnst 40000) (Cnst 39999)))).
Example C66_opt_stmt_ex : sopt_safe demoN ex66s = true /\
  (exists s', cOptTree ex66s = Ok s' /\ s' <> ex66s) /\
  exists s, crun demoM demoN ltr ex66s 10 (demoS 0) = Done ONorm s /\ locs s 1 = 5.
Proof.
  split; [reflexivity|]. split.
  - eexists; split; [reflexivity|discriminate].
  - eexists; split; reflexivity.
Qed.

(* the two builds do not agree: the same source folds to different constants *)
Theorem C66_builds_differ_refuted : exists e v w,
  optExp e = Ok (Cnst v) /\ cOptExp e = Ok (Cnst w) /\ v <> w.
Proof.
  exists (E2 MUL (Cnst 256) (Cnst 256)), 0, 65536. repeat split; try reflexivity. discriminate.
Qed.
Print Assumptions C66_builds_differ_refuted.

(* x - (y - 5) becomes (x + 5) - y: in C, where an overflow is undefined, the source has a value
   and the text that the translator writes has none *)
Theorem C66_overflow_refuted : exists e e' rho v,
  (forall i, fits (rho i) = true) /\ consts_int e /\ opt_safe demoN e = true /\
  cOptExp e = Ok e' /\ seval rho e = Some v /\ seval rho e' = None.
Proof.
  exists (E2 SUB (ELeaf (LLoc 1)) (E2 SUB (ELeaf (LLoc 2)) (Cnst 5))). eexists.
  exists (fun i => if i =? 1 then 2147483647 else 5), 2147483647.
  split; [intros i; destruct (i =? 1); reflexivity|]. repeat split; reflexivity.
Qed.
Print Assumptions C66_overflow_refuted.

(* x - (-2147483647 - 1), which has a value for every negative x, makes the translator negate
   INT_MIN; x / 65536 / 65536, which has a value for every x, makes it overflow a product *)
Theorem C66_minint_refuted : exists e, consts_int e /\ opt_safe demoN e = true /\
  cOptExp e = Err EUndef /\
  forall rho, (forall i, fits (rho i) = true) -> rho 1 < 0 -> exists v, seval rho e = Some v.
Proof.
  exists (E2 SUB (ELeaf (LLoc 1)) (E2 SUB (Cnst (-2147483647)) (Cnst 1))).
  split; [repeat split|]. split; [reflexivity|]. split; [reflexivity|].
  intros rho H L. specialize (H 1). apply isInt_iff in H.
  exists (rho 1 - -2147483648). cbn [seval].
  change (cop2 SUB (-2147483647) 1) with (CVal (-2147483648)). cbn [cop2]. unfold cres.
  assert (fits (rho 1 - -2147483648) = true) as -> by (apply isInt_iff; lia). reflexivity.
Qed.
Print Assumptions C66_minint_refuted.
Theorem C66_div_chain_refuted : exists e, consts_int e /\ cOptExp e = Err EUndef /\
  forall rho, (forall i, fits (rho i) = true) -> seval rho e <> None.
Proof.
  exists (E2 DIV (E2 DIV (ELeaf (LLoc 1)) (Cnst 65536)) (Cnst 65536)).
  split; [repeat split|]. split; [reflexivity|].
  assert (forall x c, fits x = true -> 1 <= c -> fits (Z.quot x c) = true) as Q.
  { intros x c Hx Hc. apply isInt_iff in Hx. apply isInt_iff.
    destruct (Z_lt_le_dec x 0).
    - pose proof (Z.quot_opp_l x c ltac:(lia)) as E.
      pose proof (Z.quot_pos (- x) c ltac:(lia) ltac:(lia)).
      assert (Z.quot (- x) c <= - x) by (apply Z.quot_le_upper_bound; nia). lia.
    - pose proof (Z.quot_pos x c ltac:(lia) ltac:(lia)).
      assert (Z.quot x c <= x) by (apply Z.quot_le_upper_bound; nia). lia. }
  intros rho H. cbn [seval]. specialize (H 1).
  change (cop2 DIV (rho 1) 65536) with (cres (Z.quot (rho 1) 65536)).
  unfold cres. rewrite (Q _ 65536 H) by lia.
  change (cop2 DIV (Z.quot (rho 1) 65536) 65536) with (cres (Z.quot (Z.quot (rho 1) 65536) 65536)).
  unfold cres. rewrite (Q _ 65536 (Q _ 65536 H ltac:(lia))) by lia. discriminate.
Qed.
Print Assumptions C66_div_chain_refuted.
