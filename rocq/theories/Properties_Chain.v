(* C55 from the source text down to the processor: what the TaC code of a function does,
   against the text of the function.  Grammar and rules: ParseSpec.v, StmtSpec.v, ProgGram.v;
   what a tree does: ExprSem.v, StmtSem.v; the processor: TacSpec.v. *)
From Coq Require Import ZArith Bool Lia String Ascii List.
From Verif Require Import Lexer Word WordProofs NameTable SyTree ExprSem StmtSem OptSpec OpTree VM VmBase OptFold VmCode GenLabels GenLabels2 GenExpr GenFunc OrderSpec OrderProofs
  Parser ParserStmt ParseSpec ParseSound ParseShow ParseLabs ProgTop StmtSpec StmtSound ProgGram ProgSound ProgComplete RuleDet RuleDet2
  SourceRun SourceSlots Properties_Parse Properties_Gen Properties_Prog Properties_Source Properties_Run
  TacSpec Tac TacSafe TacToy TacFrom TacFunc Properties_Tac.
Import ListNotations.
Open Scope Z_scope.

(* parameters are numbered from 0 here: the first is in cell 0 *)
Definition MZ (M : machine) (t : table) : machine := celled M (cntAt t) (cntAt t).
Definition asM (M : machine) (t : table) (st : state (MZ M t)) : state M := @State M (ExprSem.gs st) (locs st) (prms st).
Section Cells0.
Variables (M : machine) (t : table).
Hypothesis PM : plainM M.
Definition asC (c : cfg (MZ M t)) : cfg M := let '(Cfg k s a r m) := c in Cfg k s a r (asM M t m).
Definition prt0 (i : instr) : instr := from0 (printed t i).
Lemma find_prt0 l p : find l (map prt0 p) = find l p.
Proof. induction p as [|i p IH]; [reflexivity|]. destruct i; cbn [map prt0 printed from0 find]; rewrite IH; reflexivity. Qed.
Lemma goto_prt0 p l s a r m : goto M (map prt0 p) l s a r (asM M t m) = option_map asC (goto (MZ M t) p l s a r m).
Proof. unfold goto. rewrite find_prt0. destruct (find l p); reflexivity. Qed.
Lemma step_prt0 p c : VM.step M (map prt0 p) (asC c) = option_map asC (VM.step (MZ M t) p c).
Proof.
  destruct PM as [PL PP]. destruct c as [k s a r m]. cbn [asC VM.step]. rewrite nth_error_map. destruct (nth_error p k) as [i|]; [|reflexivity]. cbn [option_map].
  assert (Q : forall k, cntAt t k + 1 - 1 = cntAt t k) by (intros; lia).
  destruct i; unfold prt0; cbn [printed from0]; rewrite ?Q; try reflexivity;
    try (destruct s as [|v s]; [reflexivity|]); try (destruct s as [|v1 s]; [reflexivity|]); try (destruct s as [|v2 s]; [reflexivity|]); try reflexivity; try apply goto_prt0;
    try (destruct (_ =? 0); [reflexivity|apply goto_prt0]); try (destruct (_ =? 0); [apply goto_prt0|reflexivity]);
    try (rewrite ?PL, ?PP; reflexivity).
  all: try (cbn; destruct (op2_val _ _ _); reflexivity).
  all: try (cbn; destruct (call M _ _ _) as [[? ?]|]; reflexivity).
Qed.
Lemma steps_prt0 p n : forall c c', VM.steps (MZ M t) p n c c' -> VM.steps M (map prt0 p) n (asC c) (asC c').
Proof.
  induction n as [|n IH]; intros c c' H; cbn [VM.steps] in *.
  - rewrite H. reflexivity.
  - destruct H as (d & S & H). exists (asC d). rewrite step_prt0, S. split; [reflexivity|]. exact (IH _ _ H).
Qed.
End Cells0.

(* every operand that the run from c meets is one for which TaC's instruction computes what
   the virtual machine's does: ! is applied to 0 or 1, / and % to non-negative numbers *)
Definition fine_run {M} (p : code) (c : cfg M) : Prop := forall n c', VM.steps M p n c c' -> fineAt p c'.
Lemma fsteps_of M p n : forall c c', VM.steps M p n c c' -> fine_run p c -> fsteps M p n c c'.
Proof.
  induction n as [|n IH]; intros c c' S F; cbn [VM.steps fsteps] in *; [exact S|]. destruct S as (d & S & R). split; [exact (F 0%nat c eq_refl)|].
  exists d. split; [exact S|]. apply IH; [exact R|]. intros m c2 S2. apply (F (Datatypes.S m)). exists d. split; assumption.
Qed.
(* it holds of code without these operators *)
Definition no_quot (i : instr) : bool := match i with IUn NOT | IBin DIV | IBin MOD => false | _ => true end.
Lemma fine_plain M p (c : cfg M) : forallb no_quot p = true -> fine_run p c.
Proof.
  intros A n c' _. unfold fineAt. destruct (nth_error p (pc c')) as [i|] eqn:E; [|exact Logic.I]. apply nth_error_In in E. rewrite forallb_forall in A. apply A in E.
  destruct i; cbn [fineI]; try exact Logic.I; destruct (VM.stk c') as [|v [|w r]]; try exact Logic.I; destruct o; try discriminate E; exact Logic.I.
Qed.

Lemma vops_entry i c : (exists d, i = IEntry d \/ i = IEntryK d \/ i = IEntryI d) -> exists q, vops (i :: c) = VI i :: q.
Proof. intros (d & [-> | [-> | ->]]); unfold vops; cbn [List.length vopsN]; destruct c as [|u [|v [|w c]]]; eexists; reflexivity. Qed.

Lemma gen_entry N root d krn intr lb c lb' : genFunc N root d krn intr lb = Some (c, lb') ->
  exists q, c = (if intr then IEntryI d else if krn then IEntryK d else IEntry d) :: q.
Proof. unfold genFunc. destruct (genS _ _ _ _) as [[c1 g1]|]; [|discriminate]. intros H. injection H as <- _. destruct intr; [|destruct krn]; eexists; reflexivity. Qed.

(* what it is for the TaC code C of a function, whose virtual machine code is c (parameters
   numbered from 0), to do what the body x says on the processor Hw: started as a caller
   starts it, it comes to its return with the globals and arrays as the body leaves them and
   the result in G0, the caller's registers and stack as they were *)
Definition tac_does sw M (Hw : hw M) (t : table) (e : instr) (dep np : Z) (x : stmt) (c : code) (C : list tin) : Prop :=
  forall t0 (st : state (MZ M t)) out st', begins M e dep np t0 (asM M t st) -> terminates (MZ M t) (namesOf t) sw x st out st' ->
  fine_run c (Cfg 0 [] [] None (asM M t st)) ->
  exists k t', treaches M Hw C (TCfg 0 t0) (TCfg k t') /\ nth_error C k = Some (if isIntr e then TRetI else TRet) /\
    returned M e np (match out with ORet (Some v) => Some v | _ => None end) (asM M t st') t0 t'.

Lemma flat_plain M : flat M -> plainM M.
Proof. intros F. split; [apply (fl_lcl _ F)|apply (fl_pcl _ F)]. Qed.

Lemma chain_run sw M (Hw : hw M) ord dep np n t N root d krn intr lb c lb' x e q : N = namesOf t ->
  flat M -> hwOk M Hw ord -> genFunc N root d krn intr lb = Some (c, lb') ->
  (forall st out st', terminates (MZ M t) N sw x st out st' -> exists k, reaches (MZ M t) c (Cfg 0 [] [] None st) (Cfg k [] [] (match out with ORet (Some v) => Some v | _ => None end) st') /\ nth_error c k = Some (if intr then IRetI else IRet)) ->
  vops (map (printed t) c) = VI e :: q -> safe ord dep np n e q = true ->
  isIntr e = intr /\ exists C s, tac false ord dep np (vops (map (printed t) c)) (tinit n) = Some (C, s) /\ tac_does sw M Hw t e dep np x (map from0 (map (printed t) c)) C.
Proof.
  intros EN Hfl Hhw GF RUN V SF. subst N. pose proof (flat_plain M Hfl) as PM.
  assert (IE : isIntr e = intr).
  { destruct (gen_entry _ _ _ _ _ _ _ _ GF) as (c' & ->). destruct (vops_entry (printed t (if intr then IEntryI d else if krn then IEntryK d else IEntry d)) (map (printed t) c')) as (q' & V').
    { exists d. destruct intr; [|destruct krn]; cbn [printed]; auto. }
    cbn [map] in V. rewrite V' in V. injection V as <- _. destruct intr; [|destruct krn]; reflexivity. }
  split; [exact IE|]. pose proof (vops_spec (map (printed t) c)) as EX. rewrite V in EX.
  destruct (function_run M Hw ord dep np Hfl Hhw n e q SF) as (C & s & TC & K). exists C, s. split; [rewrite V; exact TC|].
  intros t0 st out st' B T F. destruct (RUN _ _ _ T) as (k & [m S] & NE). apply (steps_prt0 M t PM) in S. cbn [asC] in S.
  assert (MM : map from0 (map (printed t) c) = map (prt0 t) c) by (rewrite map_map; reflexivity). rewrite MM in *.
  pose proof (fsteps_of _ _ _ _ _ S F) as FS. rewrite <- EX in *. rewrite EX in FS.
  destruct (K t0 (asM M t st) m _ B ltac:(rewrite EX; exact FS)) as (kt & t' & A1 & A2 & A3).
  { unfold at_ret. rewrite EX, nth_error_map. cbn [pc]. rewrite NE. destruct intr; [right|left]; reflexivity. }
  exists kt, t'. split; [exact A1|]. split; [exact A2|]. cbn [reg mem] in A3. exact A3.
Qed.

(* The TaC code of every function that passes the check [safe] does what the text of the
   function says; compiled without -O. *)
Theorem C55_source_partial (krn : bool) (file : list Z) (l : list item) (o : list asm) :
  lexAll file = LOk l -> unmarked l -> compile false krn file = COut o ->
  exists p, reads_as l p /\
    forall p1 pub t d nm ps e q p2, p = p1 ++ PFunc pub t d nm ps e (Some q) :: p2 ->
    exists fi rt rd E x E' a c b, body_of false krn p1 (PFunc pub t d nm ps e (Some q)) fi rt rd E q x E' /\
      o = a ++ ANam fi :: ACode c :: b /\
      forall M (Hw : hw M) ord n ent p', flat M -> hwOk M Hw ord -> vops c = VI ent :: p' -> safe ord (eM E') (arity ps e) n ent p' = true ->
      isIntr ent = (rt =? TyINTR) /\
      exists C s, tac false ord (eM E') (arity ps e) (vops c) (tinit n) = Some (C, s) /\
        tac_does cg_order M Hw (table_of E E') ent (eM E') (arity ps e) x (map from0 c) C.
Proof.
  intros LX U H. destruct (func_of _ _ _ _ _ LX U H) as (p & R & K). exists p. split; [exact R|].
  intros p1 pub t d nm ps e q p2 EP. destruct (K _ _ _ _ _ _ _ _ _ EP) as (fi & rt & rd & E & x & E' & root & dep & lbs & lbs' & a & c & b & BO & EO & P & -> & _ & _ & GF).
  exists fi, rt, rd, E, x, E', a, (map (printed (table_of E E')) c), b. split; [exact BO|]. split; [exact EO|]. intros M Hw ord n ent p' Hfl Hhw V SF. set (tb := table_of E E') in *.
  assert (ES : escapes x = false) by (inversion BO; subst; eapply body_noescape; eassumption).
  destruct (genFunc_labels _ _ _ _ _ _ _ _ ES P GF) as [(_ & _ & ND) CL].
  assert (WL : well_linked c) by (split; [exact ND|intros z I; destruct (CL _ I) as [A|(A & _)]; [exact A|destruct A]]).
  assert (CA : code_at c 0 c) by (exists [], []; split; [rewrite app_nil_r; reflexivity|reflexivity]).
  refine (chain_run cg_order M Hw ord _ _ n tb (namesOf tb) _ _ _ _ _ _ _ _ _ _ eq_refl Hfl Hhw GF _ V SF).
  intros st out st' T. exact (C20_function_terminates _ _ _ _ _ _ _ _ _ _ _ [] [] None _ _ _ WL CA ES P GF T).
Qed.
Print Assumptions C55_source_partial.

(* The same with -O, for bodies on which the optimiser is right (see C20_text_partial). *)
Theorem C55_source_optimised_partial (krn : bool) (file : list Z) (l : list item) (o : list asm) :
  lexAll file = LOk l -> unmarked l -> compile true krn file = COut o ->
  exists p, reads_as l p /\
    forall p1 pub t d nm ps e q p2, p = p1 ++ PFunc pub t d nm ps e (Some q) :: p2 ->
    exists fi rt rd E x E' root a c b, body_of true krn p1 (PFunc pub t d nm ps e (Some q)) fi rt rd E q x E' /\
      o = a ++ ANam fi :: ACode c :: b /\ optTree x = Ok root /\
      (sopt_safe (namesOf (table_of E E')) x = true -> escapes root = false -> sorder_safe root = true ->
      forall M (Hw : hw M) ord n ent p', flat M -> hwOk M Hw ord -> vops c = VI ent :: p' -> safe ord (eM E') (arity ps e) n ent p' = true ->
      isIntr ent = (rt =? TyINTR) /\
      exists C s, tac false ord (eM E') (arity ps e) (vops c) (tinit n) = Some (C, s) /\
        tac_does ltr M Hw (table_of E E') ent (eM E') (arity ps e) x (map from0 c) C).
Proof.
  intros LX U H. destruct (func_of _ _ _ _ _ LX U H) as (p & R & K). exists p. split; [exact R|].
  intros p1 pub t d nm ps e q p2 EP. destruct (K _ _ _ _ _ _ _ _ _ EP) as (fi & rt & rd & E & x & E' & root & dep & lbs & lbs' & a & c & b & BO & EO & P & OT & -> & _ & GF).
  exists fi, rt, rd, E, x, E', root, a, (map (printed (table_of E E')) c), b. split; [exact BO|]. split; [exact EO|]. split; [exact OT|]. intros SS ES SO M Hw ord n ent p' Hfl Hhw V SF. set (tb := table_of E E') in *.
  destruct (genFunc_labels _ _ _ _ _ _ _ _ ES P GF) as [(_ & _ & ND) CL].
  assert (WL : well_linked c) by (split; [exact ND|intros z I; destruct (CL _ I) as [A|(A & _)]; [exact A|destruct A]]).
  assert (CA : code_at c 0 c) by (exists [], []; split; [rewrite app_nil_r; reflexivity|reflexivity]).
  refine (chain_run ltr M Hw ord _ _ n tb (namesOf tb) _ _ _ _ _ _ _ _ _ _ eq_refl Hfl Hhw GF _ V SF).
  intros st out st' T. destruct (C20_compile_partial (MZ M tb) _ _ _ _ _ _ _ _ _ _ _ [] [] None st WL CA P OT GF SS ES SO) as [A _]. exact (A _ _ T).
Qed.
Print Assumptions C55_source_optimised_partial.

(* the function of C58_ex on the processor: the conditions hold of its code, and its
   TaC code returns the argument *)
Definition run_code : code := [IEntry 1; ILdPrm 1; IStLoc 1; IPop; ILdPrm 1; IStLoc 1; IPop; ILdPrm 1; IMReg; IRet].
Definition run_ops : list vop := Eval vm_compute in List.tl (vops run_code).
Example C55_source_ex : compile false false run_src = COut [ANam 0; ACode run_code] /\ vops run_code = VI (IEntry 1) :: run_ops /\
  safe false 1 1 0 (IEntry 1) run_ops = true /\ flat toy /\ hwOk toy hwS false /\ forall c : cfg toy, fine_run (map from0 run_code) c.
Proof.
  split; [vm_compute; reflexivity|]. split; [vm_compute; reflexivity|]. split; [vm_compute; reflexivity|]. split; [exact toy_flat|]. split; [exact (hwS_ok false)|].
  intros c. apply fine_plain. vm_compute. reflexivity.
Qed.
Lemma run_tree tb (st : state (MZ toy tb)) v : is_bool (namesOf tb) 1 = false -> w16 (prms st (cntAt tb 1)) = v -> exists st', terminates (MZ toy tb) (namesOf tb) cg_order
  (SBlk (SSemi (SBlk (SVar 2) (SExpr (E2 ASS (ELeaf (LLoc 2)) (ELeaf (LPrm 1))))) (SBlk (SVar 3) (SExpr (E2 ASS (ELeaf (LLoc 3)) (ELeaf (LPrm 1)))))) (SRet (ELeaf (LPrm 1)))) st (ORet (Some v)) st'.
Proof. cbn [namesOf is_bool]. intros B H. eexists. exists 9%nat. cbn -[cntAt w16]. unfold eval. repeat (cbn -[cntAt w16 Z.eqb]; rewrite ?B, ?H). reflexivity. Qed.
Example C55_source_ex_applied : exists C s, tac false false 1 1 (vops run_code) (tinit 0) = Some (C, s) /\
  forall v t0, is_word v -> begins toy (IEntry 1) 1 1 t0 (args2 v 0) ->
  exists k t', treaches toy hwS C (TCfg 0 t0) (TCfg k t') /\ nth_error C k = Some TRet /\ gr t' 0 = v /\ sp t' = sp t0 /\ fp t' = fp t0.
Proof.
  destruct C58_ex as (LX & U & _). destruct C55_source_ex as (CP & V & SF & FL & HO & FN).
  destruct (C55_source_partial _ _ _ _ LX U CP) as (p & R & K).
  pose proof (C57_one_body _ _ _ _ _ _ _ _ _ _ run_reads R (or_introl eq_refl)) as I. pose proof (C57_one_reading _ _ _ run_reads R) as E.
  destruct p as [|f [|g p]]; try discriminate E. destruct I as [->|[]]. destruct (K [] _ _ _ _ _ _ _ [] eq_refl) as (fi & rt & rd & F & x & F' & a & c & b & BO & EO & A).
  destruct run_bodyof as (y & G' & BO2 & Y & C2 & C3 & C1 & NB & EM). destruct (body_one _ _ _ _ _ _ _ _ _ _ _ _ _ _ _ _ _ _ BO2 BO) as (-> & -> & -> & -> & _ & -> & ->).
  assert (c = run_code) as -> by (destruct a as [|a0 [|a1 [|]]]; cbn [app] in EO; inversion EO; subst; reflexivity).
  rewrite EM in A. destruct (A toy hwS false 0 _ _ FL HO V SF) as (_ & C & s & TC & D). exists C, s. split; [exact TC|].
  intros v t0 W B.
  set (tb := table_of run_E G') in *.
  assert (T : exists st', terminates (MZ toy tb) (namesOf tb) cg_order y (@State (MZ toy tb) (fun i => 40 + i) (fun _ => 0) (fun i => if i =? 0 then v else 0)) (ORet (Some v)) st').
  { cbn [MT celled lcl pcl] in C1, C2, C3. fold tb in C1, C2, C3. assert (C0 : cntAt tb 1 = 0) by lia. subst y.
    apply run_tree; [exact NB|]. cbn [prms]. rewrite C0. apply w16_id. exact W. }
  destruct T as (st' & T).
  destruct (D t0 (@State (MZ toy tb) (fun i => 40 + i) (fun _ => 0) (fun i => if i =? 0 then v else 0)) _ _ B T (FN _)) as (k & t' & X1 & X2 & X3). exists k, t'. split; [exact X1|]. split; [exact X2|].
  split; [exact (r_res _ _ _ _ _ _ _ X3 eq_refl v eq_refl)|]. split; [exact (r_sp _ _ _ _ _ _ _ X3)|exact (r_fp _ _ _ _ _ _ _ X3)].
Qed.
