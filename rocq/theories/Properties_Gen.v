(* Properties of the code generator: C17-C22, C24. Statements only; proofs are in
   Gen*.v and Order*.v. The machine is VM.v, the source semantics ExprSem.v and
   StmtSem.v, the generator VmCode.v. *)
From Coq Require Import ZArith Bool List Lia.
From Verif Require Import Word SyTree ExprSem StmtSem OptSpec OpTree OptStmt OptFold OrderSpec OrderProofs.
From Verif Require Import VM VmCode VmBase GenLabels GenLabels2 GenExpr GenSim GenStmt GenFunc StackSpec GenStack GenStack2.
Import ListNotations.
Open Scope Z_scope.

(* A program whose labels are placed once and whose jumps have targets. *)
Definition well_linked (p : code) : Prop :=
  NoDup (defs p) /\ forall l, In l (uses p) -> In l (defs p).

(* ---- C22: labels ---- *)
Theorem C22_labels_unique_defined : forall N fs g cs g', 0 <= cur g ->
  Forall (fun f => escapes (fst (fst (fst f))) = false) fs ->
  genFuncs N fs g = Some (cs, g') ->
  (* over all functions no label is placed twice *)
  NoDup (defs (concat cs)) /\
  (* each function places the targets of its own jumps *)
  Forall (fun c => forall l, In l (uses c) -> In l (defs c)) cs /\
  (* and all labels are new *)
  (forall l, In l (defs (concat cs)) -> cur g < l <= cur g').
Proof.
  intros N fs g cs g' P F H. destruct (genFuncs_labels N fs g cs g' P F H) as ((A & B & C) & D).
  split; [exact C|]. split; [|exact B].
  refine (Forall_impl _ _ D). intros c K l U. destruct (K l U) as [X|([] & _)]. exact X.
Qed.
Print Assumptions C22_labels_unique_defined.

(* hence the code of a compilation unit is well linked *)
Theorem C22_unit_well_linked : forall N fs g cs g', 0 <= cur g ->
  Forall (fun f => escapes (fst (fst (fst f))) = false) fs ->
  genFuncs N fs g = Some (cs, g') -> well_linked (concat cs).
Proof.
  intros N fs g cs g' P F H. destruct (C22_labels_unique_defined N fs g cs g' P F H) as (A & B & _).
  split; [exact A|]. clear - B. induction cs as [|c cs IH]; intros l U; [contradiction|].
  inversion B; subst. cbn [concat] in *. rewrite uses_app in U. rewrite defs_app.
  apply in_or_app. apply in_app_or in U. destruct U as [U|U]; [left; auto|right; exact (IH H2 l U)].
Qed.
Print Assumptions C22_unit_well_linked.

(* while (x && (y || z)) { if (x > 3) break; x = x + 1; } return x || y; *)
Definition exS : stmt :=
  SBlk (SWhl (E2 AND (ELeaf (LLoc 101)) (E2 OR (ELeaf (LLoc 102)) (ELeaf (LLoc 103))))
         (SBlk (SIf (E2 GT (ELeaf (LLoc 1)) (Cnst 3)) SBrk)
               (SExpr (E2 ASS (ELeaf (LLoc 1)) (E2 ADD (ELeaf (LLoc 1)) (Cnst 1))))) ENull)
       (SRet (E2 OR (ELeaf (LLoc 101)) (ELeaf (LLoc 102)))).
Definition exC : code := match genFunc demoN exS 3 false false (Labs 10 0 0 0) with Some (c, _) => c | None => [] end.
Example C22_ex : match genFuncs demoN [(exS, 3, false, false); (exS, 2, true, false)] (Labs 10 0 0 0) with
  | Some (cs, g') => defs (concat cs) = [11; 13; 14; 12; 16; 15; 17; 19; 20; 18; 22; 21] /\ cur g' = 22
  | None => False end.
Proof. vm_compute. auto. Qed.
(* a decision procedure, for the examples *)
Definition linkedb (p : code) : bool :=
  (fix nd (l : list Z) := match l with [] => true | x :: l => negb (existsb (Z.eqb x) l) && nd l end) (defs p) &&
  forallb (fun l => existsb (Z.eqb l) (defs p)) (uses p).
Lemma linkedb_ok : forall p, linkedb p = true -> well_linked p.
Proof.
  intros p H. unfold linkedb in H. apply andb_prop in H. destruct H as (A & B). split.
  - revert A. generalize (defs p). induction l as [|x l IH]; intro A; constructor;
      apply andb_prop in A; destruct A as (A & C); [|exact (IH C)].
    intro I. apply negb_true_iff in A. assert (E : existsb (Z.eqb x) l = true).
    { apply existsb_exists. exists x. split; [exact I|apply Z.eqb_refl]. }
    rewrite E in A. discriminate.
  - intros l U. rewrite forallb_forall in B. apply B in U. apply existsb_exists in U.
    destruct U as (y & I & E). apply Z.eqb_eq in E. subst y. exact I.
Qed.
Example C22_ex_linked : well_linked exC.
Proof. apply linkedb_ok. vm_compute. reflexivity. Qed.

(* ---- C17: expressions ---- *)
(* The code of an expression, anywhere in a well-linked program, run on any
   stack, argument area, result register and state, pushes the value and leaves
   the state the expression leaves. Operands of order-insensitive operators are
   evaluated in the generator's order (deeper operand first). *)
Theorem C17_expr_code : forall (M : machine) (N : names) p k e n c n' stk args reg st v st',
  well_linked p -> code_at p k c -> 0 <= n -> genE N e n = Some (c, n') ->
  eval M N cg_order e st = Some (v, st') ->
  reaches M p (Cfg k stk args reg st) (Cfg (k + length c) (v :: stk) args reg st').
Proof.
  intros M N p k e n c n' stk args reg st v st' (ND & CL) C P G E.
  exact (genE_sim M N p ND CL e n c n' k stk args reg st v st' G P C E).
Qed.
Print Assumptions C17_expr_code.

(* for order_safe expressions: the value under plain left-to-right evaluation *)
Theorem C17_expr_code_ltr : forall (M : machine) (N : names) p k e n c n' stk args reg st v st',
  well_linked p -> code_at p k c -> 0 <= n -> genE N e n = Some (c, n') ->
  order_safe e = true -> eval M N ltr e st = Some (v, st') ->
  reaches M p (Cfg k stk args reg st) (Cfg (k + length c) (v :: stk) args reg st').
Proof.
  intros M N p k e n c n' stk args reg st v st' L C P G O E.
  rewrite (eval_order_free M N ltr cg_order e st O) in E.
  exact (C17_expr_code M N p k e n c n' stk args reg st v st' L C P G E).
Qed.
Print Assumptions C17_expr_code_ltr.

(* expression statements leave nothing on the stack *)
Theorem C17_expr_statement : forall (M : machine) (N : names) p k e n c n' stk args reg st v st',
  well_linked p -> code_at p k c -> 0 <= n -> genX N e n = Some (c, n') ->
  eval M N cg_order e st = Some (v, st') ->
  reaches M p (Cfg k stk args reg st) (Cfg (k + length c) stk args reg st').
Proof.
  intros M N p k e n c n' stk args reg st v st' (ND & CL) C P G E.
  exact (genX_sim M N p ND CL e n c n' k stk args reg st v st' G P C E).
Qed.
Print Assumptions C17_expr_statement.

(* f(x - 1, 2) + a[1] * 3 < x  with the right side deeper *)
Definition ex17 : expr :=
  E2 LT (ELeaf (LLoc 1))
     (E2 ADD (EFunc 7 (E2 SEMI (E2 SUB (ELeaf (LLoc 1)) (Cnst 1)) (Cnst 2)))
             (E2 MUL (E2 IDXI (ELeaf (LGlb 5)) (Cnst 1)) (Cnst 3))).
Example C17_ex_code : genE demoN ex17 0 = Some
  ([ILdCns 2; IArg; ILdLoc 1; ILdCns 1; IBin SUB; IArg; ICallF 2 7;
    ILdGlb 5; ILdCns 1; ILdWrd; ILdCns 3; IBin MUL; IBin ADD; ILdLoc 1; IBin GT], 0).
Proof. vm_compute. reflexivity. Qed.
Example C17_ex_run : option_map fst (eval demoM demoN cg_order ex17 (demoS 9)) = Some 0.
Proof. vm_compute. reflexivity. Qed.

(* ---- C18: short circuit ---- *)
(* value context: when the left operand decides, the right one is not evaluated:
   the state is the one the left operand leaves, whatever r is *)
Theorem C18_and_false : forall (M : machine) (N : names) p k l r n c n' stk args reg st st',
  well_linked p -> code_at p k c -> 0 <= n -> genE N (E2 AND l r) n = Some (c, n') ->
  eval M N cg_order l st = Some (0, st') ->
  reaches M p (Cfg k stk args reg st) (Cfg (k + length c) (0 :: stk) args reg st').
Proof.
  intros M N p k l r n c n' stk args reg st st' L C P G E.
  refine (C17_expr_code M N p k _ n c n' stk args reg st _ _ L C P G _).
  rewrite eval_and, E. reflexivity.
Qed.
Print Assumptions C18_and_false.
Theorem C18_or_true : forall (M : machine) (N : names) p k l r n c n' stk args reg st v st',
  well_linked p -> code_at p k c -> 0 <= n -> genE N (E2 OR l r) n = Some (c, n') ->
  eval M N cg_order l st = Some (v, st') -> v <> 0 ->
  reaches M p (Cfg k stk args reg st) (Cfg (k + length c) (1 :: stk) args reg st').
Proof.
  intros M N p k l r n c n' stk args reg st v st' L C P G E NZ.
  refine (C17_expr_code M N p k _ n c n' stk args reg st _ _ L C P G _).
  rewrite eval_or, E. apply Z.eqb_neq in NZ. rewrite NZ. reflexivity.
Qed.
Print Assumptions C18_or_true.
(* otherwise the right operand is evaluated, in the state after the left one *)
Theorem C18_and_true : forall (M : machine) (N : names) p k l r n c n' stk args reg st v st1 w st',
  well_linked p -> code_at p k c -> 0 <= n -> genE N (E2 AND l r) n = Some (c, n') ->
  eval M N cg_order l st = Some (v, st1) -> v <> 0 -> eval M N cg_order r st1 = Some (w, st') ->
  reaches M p (Cfg k stk args reg st) (Cfg (k + length c) (w :: stk) args reg st').
Proof.
  intros M N p k l r n c n' stk args reg st v st1 w st' L C P G E NZ E2.
  refine (C17_expr_code M N p k _ n c n' stk args reg st _ _ L C P G _).
  rewrite eval_and, E. apply Z.eqb_neq in NZ. rewrite NZ. exact E2.
Qed.
Print Assumptions C18_and_true.
Theorem C18_or_false : forall (M : machine) (N : names) p k l r n c n' stk args reg st st1 w st',
  well_linked p -> code_at p k c -> 0 <= n -> genE N (E2 OR l r) n = Some (c, n') ->
  eval M N cg_order l st = Some (0, st1) -> eval M N cg_order r st1 = Some (w, st') ->
  reaches M p (Cfg k stk args reg st) (Cfg (k + length c) (w :: stk) args reg st').
Proof.
  intros M N p k l r n c n' stk args reg st st1 w st' L C P G E E2.
  refine (C17_expr_code M N p k _ n c n' stk args reg st _ _ L C P G _).
  rewrite eval_or, E. exact E2.
Qed.
Print Assumptions C18_or_false.

(* jump context: control goes to the label iff the condition has truth value tf,
   otherwise it falls through; the stack is untouched either way. j is a label
   not yet numbered (if, while, for) or already placed (do-while). *)
Theorem C18_cond_jump : forall (M : machine) (N : names) p k e tf j n c j' n' stk args reg st v st',
  well_linked p -> code_at p k c -> 0 <= n -> no j <= n -> left j = 0 ->
  genCnd N e tf j n = Some (c, j', n') ->
  eval M N cg_order e st = Some (v, st') ->
  if Bool.eqb tf (negb (v =? 0)) then
    exists k', reaches M p (Cfg k stk args reg st) (Cfg k' stk args reg st') /\
               find (no j') p = Some k'
  else reaches M p (Cfg k stk args reg st) (Cfg (k + length c) stk args reg st').
Proof.
  intros M N p k e tf j n c j' n' stk args reg st v st' (ND & CL) C P Q LJ G E.
  assert (H := genCnd_sim M N p ND CL e tf j n c j' n' k stk args reg st v st' G P Q LJ C E).
  destruct (Bool.eqb tf (negb (v =? 0))); [|exact H].
  destruct H as (k' & A & _ & B). exists k'. auto.
Qed.
Print Assumptions C18_cond_jump.

(* a && (b || !c && d) || e, three levels *)
Definition ex18 : expr :=
  E2 OR (E2 AND (ELeaf (LLoc 101))
          (E2 OR (ELeaf (LLoc 102)) (E2 AND (E1 NOT (ELeaf (LLoc 103))) (ELeaf (LLoc 104)))))
        (ELeaf (LLoc 105)).
Example C18_ex : match genE demoN ex18 0 with Some (c, _) => well_linked c | None => False end /\
  option_map fst (eval demoM demoN cg_order ex18 (demoS 1)) = Some 1.
Proof. split; [apply linkedb_ok|]; vm_compute; reflexivity. Qed.

(* ---- C19: operand order ---- *)
(* every two evaluation-order policies agree on order_safe expressions *)
Theorem C19_order_irrelevant : forall (M : machine) (N : names) sw1 sw2 e st,
  order_safe e = true -> eval M N sw1 e st = eval M N sw2 e st.
Proof. intros. apply eval_order_free. assumption. Qed.
Print Assumptions C19_order_irrelevant.
(* in particular on expressions without calls and assignments, which also leave
   the state alone *)
Theorem C19_effect_free : forall (M : machine) (N : names) sw1 sw2 e st,
  has_effect e = false -> eval M N sw1 e st = eval M N sw2 e st /\
  forall v st', eval M N sw1 e st = Some (v, st') -> st' = st.
Proof.
  intros M N sw1 sw2 e st H. split; [apply eval_order_free; apply effect_free_safe; exact H|].
  intros v st' E. apply eval_ev in E. exact (effect_free_state M N sw1 e st _ _ H E).
Qed.
Print Assumptions C19_effect_free.
(* exchanged operands with the mirrored instruction give the same result *)
Theorem C19_mirror : forall o a b, either_order o = true -> op2_val (mirror o) b a = op2_val o a b.
Proof.
  intros o a b H. symmetry. apply op2_comm. destruct o; try discriminate; reflexivity.
Qed.
Print Assumptions C19_mirror.
(* the code pushes the value of the expression under any policy *)
Theorem C19_code_value : forall (M : machine) (N : names) sw p k e n c n' stk args reg st v st',
  well_linked p -> code_at p k c -> 0 <= n -> genE N e n = Some (c, n') ->
  has_effect e = false -> eval M N sw e st = Some (v, st') ->
  reaches M p (Cfg k stk args reg st) (Cfg (k + length c) (v :: stk) args reg st).
Proof.
  intros M N sw p k e n c n' stk args reg st v st' L C P G O E.
  destruct (C19_effect_free M N sw cg_order e st O) as (A & B).
  rewrite (B _ _ E) in E. rewrite A in E.
  exact (C17_expr_code M N p k e n c n' stk args reg st v st L C P G E).
Qed.
Print Assumptions C19_code_value.
(* x < 10 + y*z is generated with the right side first *)
Example C19_ex : genE demoN (E2 LT (ELeaf (LLoc 1)) (E2 ADD (Cnst 10) (E2 MUL (ELeaf (LLoc 2)) (ELeaf (LLoc 3))))) 0 =
  Some ([ILdLoc 2; ILdLoc 3; IBin MUL; ILdCns 10; IBin ADD; ILdLoc 1; IBin GT], 0) /\
  order_safe (E2 LT (ELeaf (LLoc 1)) (E2 ADD (Cnst 10) (E2 MUL (ELeaf (LLoc 2)) (ELeaf (LLoc 3))))) = true.
Proof. split; vm_compute; reflexivity. Qed.
(* the restriction is needed: g + f() where f changes the global g *)
Example C19_order_matters : eval demoM demoN ltr (E2 ADD (ELeaf (LGlb 1)) (EFunc 7 ENull)) (demoS 0) <>
  eval demoM demoN cg_order (E2 ADD (ELeaf (LGlb 1)) (EFunc 7 ENull)) (demoS 0).
Proof. vm_compute. discriminate. Qed.

(* ---- C20: statements and functions ---- *)
(* a statement anywhere in a program: where control goes and in which state *)
Theorem C20_statement : forall (M : machine) (N : names) p k s ps g c g' stk args reg st n,
  well_linked p -> code_at p k c -> wfg g -> genS N s ps g = Some (c, g') ->
  match run M N cg_order s n st with
  | Done ONorm st' => reaches M p (Cfg k stk args reg st) (Cfg (k + length c) stk args reg st')
  | Done OBrk st' => exists k', find (brk g') p = Some k' /\
                       reaches M p (Cfg k stk args reg st) (Cfg k' stk args reg st')
  | Done OCnt st' => exists k', find (cnt g') p = Some k' /\
                       reaches M p (Cfg k stk args reg st) (Cfg k' stk args reg st')
  | Done (ORet v) st' => exists k', (k' = (k + length c)%nat /\ ps <> PInner \/ find (ret g') p = Some k') /\
                       reaches M p (Cfg k stk args reg st)
                         (Cfg k' stk args (match v with Some _ => v | None => reg end) st')
  | Stuck => True
  | Timeout => exists x, steps M p n (Cfg k stk args reg st) x
  end.
Proof.
  intros M N p k s ps g c g' stk args reg st n (ND & CL) C W G.
  assert (F := stmt_sim M N p ND CL s ps g c g' k stk args reg st n G W C).
  destruct (run M N cg_order s n st) as [[| | |v] st'| |]; cbn [fin] in F.
  - exact F.
  - destruct F as (k' & _ & A & B). eauto.
  - destruct F as (k' & _ & A & B). eauto.
  - destruct F as (k' & A & [(B & D)|(_ & B)]); exists k'; auto.
  - exact I.
  - exact F.
Qed.
Print Assumptions C20_statement.

(* a function: if the body terminates, the machine reaches RET in the same state
   with the returned value in the result register *)
Theorem C20_function_terminates : forall (M : machine) (N : names) p k s d krn intr g c g' stk args reg st o st',
  well_linked p -> code_at p k c -> escapes s = false -> 0 <= cur g ->
  genFunc N s d krn intr g = Some (c, g') ->
  terminates M N cg_order s st o st' ->
  exists k', reaches M p (Cfg k stk args reg st)
               (Cfg k' stk args (match o with ORet (Some v) => Some v | _ => reg end) st') /\
             nth_error p k' = Some (if intr then IRetI else IRet).
Proof.
  intros M N p k s d krn intr g c g' stk args reg st o st' (ND & CL) C X P G (n & T).
  assert (F := func_sim M N p s d krn intr g c g' k stk args reg st n ND CL X P G C).
  rewrite T in F. exact F.
Qed.
Print Assumptions C20_function_terminates.
(* if the body runs for ever, so does the machine *)
Theorem C20_function_diverges : forall (M : machine) (N : names) p k s d krn intr g c g' stk args reg st,
  well_linked p -> code_at p k c -> escapes s = false -> 0 <= cur g ->
  genFunc N s d krn intr g = Some (c, g') ->
  diverges M N cg_order s st -> runs_forever M p (Cfg k stk args reg st).
Proof.
  intros M N p k s d krn intr g c g' stk args reg st (ND & CL) C X P G D n.
  assert (F := func_sim M N p s d krn intr g c g' k stk args reg st n ND CL X P G C).
  rewrite (D n) in F. exact F.
Qed.
Print Assumptions C20_function_diverges.
(* conversely: if the machine stops, the body terminates in the state in which
   the machine stopped, with its result; or the body is undefined *)
Theorem C20_function_stops : forall (M : machine) (N : names) p k s d krn intr g c g' stk args reg st c1,
  well_linked p -> code_at p k c -> escapes s = false -> 0 <= cur g ->
  genFunc N s d krn intr g = Some (c, g') ->
  reaches M p (Cfg k stk args reg st) c1 -> step M p c1 = None ->
  (exists n, run M N cg_order s n st = Stuck) \/
  exists o, terminates M N cg_order s st o (mem c1) /\ VM.stk c1 = stk /\
            VM.reg c1 = (match o with ORet (Some v) => Some v | _ => reg end) /\
            nth_error p (pc c1) = Some (if intr then IRetI else IRet).
Proof.
  intros M N p k s d krn intr g c g' stk args reg st c1 (ND & CL) C X P G (n & R) H.
  destruct (func_sim_conv M N p s d krn intr g c g' k stk args reg st n c1 ND CL X P G C R H)
    as [E|(o & m' & E & A & B & D & F)].
  - left. eauto.
  - right. exists o. subst m'. split; [exists (S n); exact E|]. auto.
Qed.
Print Assumptions C20_function_stops.

(* left-to-right reading of the source, for order_safe bodies *)
Theorem C20_function_ltr : forall (M : machine) (N : names) p k s d krn intr g c g' stk args reg st,
  well_linked p -> code_at p k c -> escapes s = false -> 0 <= cur g ->
  genFunc N s d krn intr g = Some (c, g') -> sorder_safe s = true ->
  (forall o st', terminates M N ltr s st o st' ->
     exists k', reaches M p (Cfg k stk args reg st)
               (Cfg k' stk args (match o with ORet (Some v) => Some v | _ => reg end) st') /\
             nth_error p k' = Some (if intr then IRetI else IRet)) /\
  (diverges M N ltr s st -> runs_forever M p (Cfg k stk args reg st)).
Proof.
  intros M N p k s d krn intr g c g' stk args reg st L C X P G O. split.
  - intros o st' (n & T). apply (C20_function_terminates M N p k s d krn intr g c g' stk args reg st o st' L C X P G).
    exists n. rewrite (run_order_free M N cg_order ltr s n st O). exact T.
  - intros D. apply (C20_function_diverges M N p k s d krn intr g c g' stk args reg st L C X P G).
    intro n. rewrite (run_order_free M N cg_order ltr s n st O). apply D.
Qed.
Print Assumptions C20_function_ltr.

(* optimiser and code generator together: the machine code of the optimised body
   does what the source body does *)
Theorem C20_compile_partial : forall (M : machine) (N : names) p k s s' d krn intr g c g' stk args reg st,
  well_linked p -> code_at p k c -> 0 <= cur g ->
  optTree s = Ok s' -> genFunc N s' d krn intr g = Some (c, g') ->
  sopt_safe N s = true -> escapes s' = false -> sorder_safe s' = true ->
  (forall o st', terminates M N ltr s st o st' ->
     exists k', reaches M p (Cfg k stk args reg st)
               (Cfg k' stk args (match o with ORet (Some v) => Some v | _ => reg end) st') /\
             nth_error p k' = Some (if intr then IRetI else IRet)) /\
  (diverges M N ltr s st -> runs_forever M p (Cfg k stk args reg st)).
Proof.
  intros M N p k s s' d krn intr g c g' stk args reg st L C P OP G SO X O.
  destruct (C20_function_ltr M N p k s' d krn intr g c g' stk args reg st L C X P G O) as (A & B).
  split.
  - intros o st' T. apply A. exact (optTree_terminates M N s s' st o st' SO OP T).
  - intro D. apply B. exact (optTree_diverges M N s s' st SO OP D).
Qed.
Print Assumptions C20_compile_partial.

Example C20_ex_wf : escapes exS = false /\ sorder_safe exS = true /\
  genFunc demoN exS 3 false false (Labs 10 0 0 0) <> None.
Proof. repeat split; vm_compute; try reflexivity; discriminate. Qed.
(* the example terminates from one state and runs for ever from another *)
Definition exSt (x : Z) : state demoM := @State demoM 0 (fun i => if i =? 1 then x else 1) (fun _ => 0).
Example C20_ex_term : match run demoM demoN ltr exS 7 (exSt 0) with
  | Done (ORet (Some v)) st' => v = 1 /\ locs st' 1 = 4 | _ => False end.
Proof. vm_compute. auto. Qed.
(* while (true) { continue; } *)
Definition exD : stmt := SWhl ENull (SSemi SCnt SNull) ENull.
Example C20_ex_div : diverges demoM demoN ltr exD (demoS 0).
Proof.
  intro n. cbn [run exD]. assert (H : forall k, whl demoM demoN ltr ENull ENull (run demoM demoN ltr (SSemi SCnt SNull) n) k (demoS 0) = Timeout).
  { induction k as [|k IH]; [reflexivity|]. cbn. exact IH. }
  apply H.
Qed.

(* ---- C21: stack discipline ---- *)
(* Every position of a function's code has one height H (operands, arguments) with
   which it is entered on every path, whatever the data: the caller's operands
   and arguments stay untouched below, nothing is left at RET, and the machine
   never stops for lack of an operand (stops: only RET, an undefined operation
   or a callee that does not return end the run). *)
Theorem C21_function_stack : forall N s d krn intr g c g', escapes s = false -> 0 <= cur g ->
  genFunc N s d krn intr g = Some (c, g') ->
  exists H : nat -> nat * nat,
  forall (M : machine) p k stk args reg st x, well_linked p -> code_at p k c ->
    reaches M p (Cfg k stk args reg st) x ->
    exists j t u, pc x = (k + j)%nat /\ (j < length c)%nat /\
      VM.stk x = t ++ stk /\ VM.args x = u ++ args /\ (length t, length u) = H j /\
      (nth_error c j = Some IRet \/ nth_error c j = Some IRetI -> t = [] /\ u = []) /\
      (step M p x = None -> stops M p x).
Proof. exact function_stack. Qed.
Print Assumptions C21_function_stack.

(* a statement: started with height h it ends with height h, and with height h it
   arrives at every break, continue and return label *)
Theorem C21_statement_heights : forall N s p g c g' h, wfg g -> genS N s p g = Some (c, g') ->
  exists E, (exists y, chk E c (Some h) = Some y /\ (y = Some h \/ y = None)) /\
            E (brk g') = h /\ E (cnt g') = h /\ E (ret g') = h.
Proof.
  intros N s p g c g' h W G. destruct (genS_t N s p g c g' h G W) as (E & _ & A & B & C & y & D & F).
  exists E. split; [exists y; split; [exact D|destruct F; auto]|auto].
Qed.
Print Assumptions C21_statement_heights.
(* an expression leaves one value more, an expression statement nothing *)
Theorem C21_expression_heights : forall N e n c n' s a, 0 <= n -> genE N e n = Some (c, n') ->
  exists E, chk E c (Some (s, a)) = Some (Some (S s, a)).
Proof. exact expression_heights. Qed.
Print Assumptions C21_expression_heights.
Theorem C21_expr_statement_heights : forall N e n c n' h, 0 <= n -> genX N e n = Some (c, n') ->
  exists E, chk E c (Some h) = Some (Some h).
Proof. exact expr_statement_heights. Qed.
Print Assumptions C21_expr_statement_heights.
Example C21_ex : (* the heights of the example function: nowhere more than two operands *)
  chk (fun l => if l =? 15 then (1, 0)%nat else (0, 0)%nat) exC (Some (0, 0)%nat) = Some None /\
  chk (fun l => (0, 0)%nat) exC (Some (0, 0)%nat) = None.
Proof. split; vm_compute; reflexivity. Qed.

(* ---- C24: the macro instructions ---- *)
Theorem C24_boolor : forall (M : machine) p k l1 l2 l3 stk args reg st,
  NoDup (defs p) -> code_at p k (vmBoolOR l1 l2 l3) ->
  let fin := (k + length (vmBoolOR l1 l2 l3))%nat in
  (* falling in: the value stays *)
  (forall v, reaches M p (Cfg k (v :: stk) args reg st) (Cfg fin (v :: stk) args reg st)) /\
  (* jumping to l1: 1 is pushed; to l2, if there is one: 0 is pushed *)
  (exists k1, find l1 p = Some k1 /\ reaches M p (Cfg k1 stk args reg st) (Cfg fin (1 :: stk) args reg st)) /\
  (l2 <> -1 -> exists k2, find l2 p = Some k2 /\ reaches M p (Cfg k2 stk args reg st) (Cfg fin (0 :: stk) args reg st)).
Proof.
  intros M p k l1 l2 l3 stk args reg st ND C fin.
  destruct (mac_sim M p ND 1 0 l1 l2 l3 k stk args reg st C) as (A & B & D).
  split; [exact A|]. split.
  - assert (C1 := code_at_tl _ _ _ _ C). assert (F := code_at_find _ _ _ _ C1 ND).
    eexists. split; [exact F|]. exact (B _ F).
  - intro NZ. unfold vmBoolOR in C. assert (E := NZ). apply Z.eqb_neq in E. rewrite E in C.
    assert (C4 := code_at_tl _ _ _ _ (code_at_tl _ _ _ _ (code_at_tl _ _ _ _ (code_at_tl _ _ _ _ C)))).
    assert (F := code_at_find _ _ _ _ C4 ND).
    eexists. split; [exact F|]. exact (D _ NZ F).
Qed.
Print Assumptions C24_boolor.
Theorem C24_booland : forall (M : machine) p k l1 l2 l3 stk args reg st,
  NoDup (defs p) -> code_at p k (vmBoolAND l1 l2 l3) ->
  let fin := (k + length (vmBoolAND l1 l2 l3))%nat in
  (forall v, reaches M p (Cfg k (v :: stk) args reg st) (Cfg fin (v :: stk) args reg st)) /\
  (exists k1, find l1 p = Some k1 /\ reaches M p (Cfg k1 stk args reg st) (Cfg fin (0 :: stk) args reg st)) /\
  (l2 <> -1 -> exists k2, find l2 p = Some k2 /\ reaches M p (Cfg k2 stk args reg st) (Cfg fin (1 :: stk) args reg st)).
Proof.
  intros M p k l1 l2 l3 stk args reg st ND C fin.
  destruct (mac_sim M p ND 0 1 l1 l2 l3 k stk args reg st C) as (A & B & D).
  split; [exact A|]. split.
  - assert (C1 := code_at_tl _ _ _ _ C). assert (F := code_at_find _ _ _ _ C1 ND).
    eexists. split; [exact F|]. exact (B _ F).
  - intro NZ. unfold vmBoolAND in C. assert (E := NZ). apply Z.eqb_neq in E. rewrite E in C.
    assert (C4 := code_at_tl _ _ _ _ (code_at_tl _ _ _ _ (code_at_tl _ _ _ _ (code_at_tl _ _ _ _ C)))).
    assert (F := code_at_find _ _ _ _ C4 ND).
    eexists. split; [exact F|]. exact (D _ NZ F).
Qed.
Print Assumptions C24_booland.
Example C24_ex : well_linked (vmBoolOR 5 6 7) /\ well_linked (vmBoolAND 5 (-1) 7).
Proof. split; apply linkedb_ok; vm_compute; reflexivity. Qed.
