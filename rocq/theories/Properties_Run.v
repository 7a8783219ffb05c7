(* C58, C59: what the code written for a source file does, and where its variables are kept.
   The grammar and the rules of the language: ParseSpec.v, StmtSpec.v, ProgGram.v; what a
   tree does: ExprSem.v, StmtSem.v; the machine: VM.v. *)
From Coq Require Import ZArith Bool Lia String Ascii List.
From Verif Require Import Lexer Word NameTable SyTree ExprSem StmtSem OptSpec OpTree VM VmBase OptFold VmCode GenLabels GenLabels2 GenExpr GenFunc OrderSpec OrderProofs
  Parser ParserStmt ParseSpec ParseSound ParseShow ParseLabs ProgTop StmtSpec StmtSound ProgGram ProgSound ProgComplete RuleDet RuleDet2
  SourceRun SourceSlots Properties_Parse Properties_Gen Properties_Prog Properties_Source.
Import ListNotations.
Open Scope Z_scope.

(* f, a function with the body q, stands after the declarations p1.  Its entry in the table
   of names is fi and its value has type (rt, rd); its body is read in E, is translated to
   the tree x and leaves E'. *)
Inductive body_of (opt krn : bool) (p1 : list top) : top -> Z -> Z -> Z -> env -> sseq -> stmt -> env -> Prop :=
| bo T pub t d nm ps e prev fi n2 c d2 prm q x E' :
    okProg opt krn tenv0 p1 T ->
    okHead krn (tN T) (tC T) pub (tyCode (tN T) t) (Z.of_nat d) nm ps e prev fi n2 c d2 prm ->
    okQ (tyCode (tN T) t) (Z.of_nat d) false (Env (enter prev fi (ntSetCnt n2 fi prm)) (tL T) 0 0 d2) SNull q x E' ->
    body_of opt krn p1 (PFunc pub t d nm ps e (Some q)) fi (tyCode (tN T) t) (Z.of_nat d)
      (Env (enter prev fi (ntSetCnt n2 fi prm)) (tL T) 0 0 d2) q (block x) E'.
(* the rules leave no choice: the tree of a body and its environments are determined *)
Lemma body_one opt krn p1 f fi rt rd E q x E' fi2 rt2 rd2 F q2 y F' : body_of opt krn p1 f fi rt rd E q x E' -> body_of opt krn p1 f fi2 rt2 rd2 F q2 y F' ->
  fi2 = fi /\ rt2 = rt /\ rd2 = rd /\ F = E /\ q2 = q /\ y = x /\ F' = E'.
Proof.
  intros A B. destruct A as [T pub t d nm ps e prev fi n2 c d2 prm q x E' P H Q]. inversion B as [T2 ? ? ? ? ? ? ? ? ? ? ? ? ? ? ? P2 H2 Q2]; subst.
  pose proof (okProg_one _ _ _ _ _ P _ P2). subst T2. destruct (okHead_one _ _ _ _ _ _ _ _ _ _ _ _ _ _ _ _ _ _ _ _ _ H H2) as (-> & -> & -> & -> & -> & ->).
  destruct (proj2 (ok_det _ _) _ _ _ _ _ _ Q _ _ Q2) as [-> ->]. repeat split; reflexivity.
Qed.
(* the names known at the end of the body *)
Definition table_of (E E' : env) : table := eN (leave E E').

(* a run of the body x, with each variable kept in the cell that the code uses for it, and a
   run of the code c, started at its entry with operands stk, arguments args and result
   register reg: they end alike, or both go on for ever *)
Definition alike (sw : op2 -> expr -> expr -> bool) (M : machine) (t : table) (intr : bool) (x : stmt) (c : code) : Prop :=
  forall stk args reg (st : state (MT M t)),
  (forall out st', terminates (MT M t) (namesOf t) sw x st out st' ->
     exists k, reaches M c (Cfg 0 stk args reg (same M t st)) (Cfg k stk args (match out with ORet (Some v) => Some v | _ => reg end) (same M t st')) /\
       nth_error c k = Some (if intr then IRetI else IRet)) /\
  (diverges (MT M t) (namesOf t) sw x st -> runs_forever M c (Cfg 0 stk args reg (same M t st))).
(* the other way: when the code has come to an end, so has the body, or it is undefined *)
Definition alike_back (sw : op2 -> expr -> expr -> bool) (M : machine) (t : table) (intr : bool) (x : stmt) (c : code) : Prop :=
  forall stk args reg (st : state (MT M t)) c1, reaches M c (Cfg 0 stk args reg (same M t st)) c1 -> VM.step M c c1 = None ->
  (exists n, run (MT M t) (namesOf t) sw x n st = Stuck) \/
  exists out st', terminates (MT M t) (namesOf t) sw x st out st' /\ mem c1 = same M t st' /\ VM.stk c1 = stk /\
    VM.reg c1 = (match out with ORet (Some v) => Some v | _ => reg end) /\ nth_error c (pc c1) = Some (if intr then IRetI else IRet).

Lemma func_of opt krn file l o : lexAll file = LOk l -> unmarked l -> compile opt krn file = COut o ->
  exists p, reads_as l p /\ forall p1 pub t d nm ps e q p2, p = p1 ++ PFunc pub t d nm ps e (Some q) :: p2 ->
  exists fi rt rd E x E' root dep lbs lbs' a c b, body_of opt krn p1 (PFunc pub t d nm ps e (Some q)) fi rt rd E q x E' /\
    o = a ++ ANam fi :: ACode (map (printed (table_of E E')) c) :: b /\ 0 <= cur lbs /\
    (if opt then optTree x = Ok root else root = x) /\ dep = eM E' /\ hidden (firstn (Z.to_nat fi) (eN E)) /\
    genFunc (namesOf (table_of E E')) root dep krn (rt =? TyINTR) lbs = Some (c, lbs').
Proof.
  intros LX U H. destruct (proj1 (C57_accepts _ _ _ _ _ LX U) H) as (p & T & R & O & <-). exists p. split; [exact R|].
  intros p1 pub t d nm ps e q p2 ->. destruct (okProg_split _ _ _ _ _ _ _ O) as (T1 & T2 & O1 & OT & O2).
  pose proof (lab_prog _ _ _ _ _ O1 ltac:(cbn; lia)) as L1. destruct (out_prog _ _ _ _ _ O2) as [z Z].
  pose proof (hidden_prog _ _ _ _ _ O1 ltac:(constructor)) as HN.
  inversion OT as [| | | |n l0 c0 d0 b k o0 pub0 t0 d1 nm0 ps0 e0 prev fi n2 c d2 prm q0 x E E' root code lb HD PV EE OQ RT RO GF X1 X2 X3]; subst.
  cbn [tO tL tN] in *. pose proof (proj2 (lab_stmt _ _) _ _ _ _ _ _ OQ) as LS. cbn [eL] in LS.
  exists fi, (tyCode n t), (Z.of_nat d). exists (Env (enter prev fi (ntSetCnt n2 fi prm)) l0 0 0 d2), (block x), E', root, (eM E'), (Labs (eL E') b k (-1)), lb, (o0 ++ strOut l0 (stringsQ q)), code, z.
  assert (BO := bo opt krn p1 _ pub t d nm ps e prev fi n2 c d2 prm q x E' O1 HD OQ).
  split; [exact BO|]. split; [rewrite Z; unfold table_of; repeat rewrite <- app_assoc; reflexivity|]. split; [|split; [exact RO|split; [reflexivity|split; [|exact GF]]]]; [cbn [cur]; lia|].
  cbn [eN]. destruct (enter_shape _ _ _ _ _ _ _ _ _ _ _ _ _ _ _ HD HN) as (m & r & -> & HM & LM & EF & _). rewrite firstn_app. replace (Z.to_nat fi - Datatypes.length m)%nat with 0%nat by (unfold ntGetSize in *; lia).
  rewrite firstn_O, app_nil_r. apply hidden_firstn, HM.
Qed.

(* ==== C58 ==== *)
(* The code of every function of a compiled file does what the function's body says; the
   operands of an operator are taken in the order in which the code takes them. *)
Theorem C58_function (krn : bool) (file : list Z) (l : list item) (o : list asm) :
  lexAll file = LOk l -> unmarked l -> compile false krn file = COut o ->
  exists p, reads_as l p /\
    forall p1 pub t d nm ps e q p2, p = p1 ++ PFunc pub t d nm ps e (Some q) :: p2 ->
    exists fi rt rd E x E' a c b, body_of false krn p1 (PFunc pub t d nm ps e (Some q)) fi rt rd E q x E' /\
      o = a ++ ANam fi :: ACode c :: b /\
      forall M, plainM M -> alike cg_order M (table_of E E') (rt =? TyINTR) x c /\ alike_back cg_order M (table_of E E') (rt =? TyINTR) x c.
Proof.
  intros LX U H. destruct (func_of _ _ _ _ _ LX U H) as (p & R & K). exists p. split; [exact R|].
  intros p1 pub t d nm ps e q p2 EP. destruct (K _ _ _ _ _ _ _ _ _ EP) as (fi & rt & rd & E & x & E' & root & dep & lbs & lbs' & a & c & b & BO & EO & P & -> & _ & _ & GF).
  exists fi, rt, rd, E, x, E', a, (map (printed (table_of E E')) c), b. split; [exact BO|]. split; [exact EO|]. intros M PM. set (tb := table_of E E') in *.
  assert (ES : escapes x = false) by (inversion BO; subst; eapply body_noescape; eassumption).
  destruct (genFunc_labels _ _ _ _ _ _ _ _ ES P GF) as [(_ & _ & ND) CL].
  assert (WL : well_linked c) by (split; [exact ND|intros z I; destruct (CL _ I) as [A|(A & _)]; [exact A|destruct A]]).
  assert (CA : code_at c 0 c) by (exists [], []; split; [rewrite app_nil_r; reflexivity|reflexivity]).
  split; [intros stk args reg st; split|intros stk args reg st c1 [n S] Z].
  - intros out st' T. destruct (C20_function_terminates _ _ _ _ _ _ _ _ _ _ _ stk args reg _ _ _ WL CA ES P GF T) as (k & [n S] & N). exists k. split; [exists n; exact (steps_printed M tb PM _ _ _ _ S)|]. apply (ret_printed tb). exact N.
  - intros D n. destruct (C20_function_diverges _ _ _ _ _ _ _ _ _ _ _ stk args reg _ WL CA ES P GF D n) as [c' S]. exists (sameC M tb c'). exact (steps_printed M tb PM _ _ _ _ S).
  - change (Cfg 0 stk args reg (same M tb st)) with (sameC M tb (Cfg 0 stk args reg st)) in S. destruct (steps_printed_back M tb PM _ _ _ _ S) as (c' & -> & S').
    rewrite (step_printed M tb PM) in Z. destruct (VM.step _ c c') as [|] eqn:Z'; [discriminate Z|].
    destruct (C20_function_stops _ _ _ _ _ _ _ _ _ _ _ stk args reg st c' WL CA ES P GF (ex_intro _ n S') Z') as [A|(out & T & A & B & C)]; [left; exact A|right].
    exists out, (mem c'). destruct c' as [k s a1 r m]. cbn [sameC mem VM.stk VM.reg pc] in *. split; [exact T|]. split; [reflexivity|]. split; [exact A|]. split; [exact B|]. apply (ret_printed tb). exact C.
Qed.
Print Assumptions C58_function.

(* Without -O the operands of an operator may be taken in any order in a body in which the
   order cannot matter: the code of such a function does what the body says from left to
   right. *)
Theorem C58_in_order (krn : bool) (file : list Z) (l : list item) (o : list asm) :
  lexAll file = LOk l -> unmarked l -> compile false krn file = COut o ->
  exists p, reads_as l p /\
    forall p1 pub t d nm ps e q p2, p = p1 ++ PFunc pub t d nm ps e (Some q) :: p2 ->
    exists fi rt rd E x E' a c b, body_of false krn p1 (PFunc pub t d nm ps e (Some q)) fi rt rd E q x E' /\
      o = a ++ ANam fi :: ACode c :: b /\
      (sorder_safe x = true -> forall M, plainM M -> alike ltr M (table_of E E') (rt =? TyINTR) x c).
Proof.
  intros LX U H. destruct (C58_function _ _ _ _ LX U H) as (p & R & K). exists p. split; [exact R|].
  intros p1 pub t d nm ps e q p2 EP. destruct (K _ _ _ _ _ _ _ _ _ EP) as (fi & rt & rd & E & x & E' & a & c & b & BO & EO & A).
  exists fi, rt, rd, E, x, E', a, c, b. split; [exact BO|]. split; [exact EO|]. intros SO M PM stk args reg st. destruct (proj1 (A M PM) stk args reg st) as [A1 A2]. split.
  - intros out st' [n T]. apply A1. exists n. rewrite (run_order_free _ _ cg_order ltr _ _ _ SO). exact T.
  - intros D. apply A2. intros n. rewrite (run_order_free _ _ cg_order ltr _ _ _ SO). apply D.
Qed.
Print Assumptions C58_in_order.

(* With -O, for bodies on which the optimiser is right (sopt_safe, C12) and in whose
   optimised tree root the order of operands cannot matter; what happens to the others is
   in C12, C13, C14 and C10. *)
Theorem C20_text_partial (krn : bool) (file : list Z) (l : list item) (o : list asm) :
  lexAll file = LOk l -> unmarked l -> compile true krn file = COut o ->
  exists p, reads_as l p /\
    forall p1 pub t d nm ps e q p2, p = p1 ++ PFunc pub t d nm ps e (Some q) :: p2 ->
    exists fi rt rd E x E' root a c b, body_of true krn p1 (PFunc pub t d nm ps e (Some q)) fi rt rd E q x E' /\
      o = a ++ ANam fi :: ACode c :: b /\ optTree x = Ok root /\
      (sopt_safe (namesOf (table_of E E')) x = true -> escapes root = false -> sorder_safe root = true ->
       forall M, plainM M -> alike ltr M (table_of E E') (rt =? TyINTR) x c).
Proof.
  intros LX U H. destruct (func_of _ _ _ _ _ LX U H) as (p & R & K). exists p. split; [exact R|].
  intros p1 pub t d nm ps e q p2 EP. destruct (K _ _ _ _ _ _ _ _ _ EP) as (fi & rt & rd & E & x & E' & root & dep & lbs & lbs' & a & c & b & BO & EO & P & OT & _ & _ & GF).
  exists fi, rt, rd, E, x, E', root, a, (map (printed (table_of E E')) c), b. split; [exact BO|]. split; [exact EO|]. split; [exact OT|]. intros SS ES SO M PM. set (tb := table_of E E') in *.
  destruct (genFunc_labels _ _ _ _ _ _ _ _ ES P GF) as [(_ & _ & ND) CL].
  assert (WL : well_linked c) by (split; [exact ND|intros z I; destruct (CL _ I) as [A|(A & _)]; [exact A|destruct A]]).
  assert (CA : code_at c 0 c) by (exists [], []; split; [rewrite app_nil_r; reflexivity|reflexivity]).
  intros stk args reg st. destruct (C20_compile_partial (MT M tb) _ _ _ _ _ _ _ _ _ _ _ stk args reg st WL CA P OT GF SS ES SO) as [A B]. split.
  - intros out st' T. destruct (A _ _ T) as (k & [n S] & N). exists k. split; [exists n; exact (steps_printed M tb PM _ _ _ _ S)|]. apply (ret_printed tb). exact N.
  - intros D n. destruct (B D n) as [c' S]. exists (sameC M tb c'). exact (steps_printed M tb PM _ _ _ _ S).
Qed.
Print Assumptions C20_text_partial.

(* ==== C59 ==== *)
(* the number of parameters of a header, ... included *)
Definition arity (ps : list param) (k : ptail) : Z := Z.of_nat (List.length ps) + (match k with PDots => 1 | _ => 0 end).
(* At every place P of a body the locals in scope have different cells, all inside the frame
   that the function's first instruction makes; so have the parameters, among the arguments. *)
Theorem C59_storage (opt krn : bool) (file : list Z) (l : list item) (o : list asm) :
  lexAll file = LOk l -> unmarked l -> compile opt krn file = COut o ->
  exists p, reads_as l p /\
    forall p1 pub t d nm ps e q p2, p = p1 ++ PFunc pub t d nm ps e (Some q) :: p2 ->
    exists fi rt rd E x E' a c b, body_of opt krn p1 (PFunc pub t d nm ps e (Some q)) fi rt rd E q x E' /\
      o = a ++ ANam fi :: ACode c :: b /\ frame c = Some (eM E') /\
      forall M P, inQ rt rd false E SNull q P ->
      (forall i, scopeAt (eN P) i = ScLVAR -> 1 <= lcl (MT M (table_of E E')) i <= eM E') /\
      (forall i j, scopeAt (eN P) i = ScLVAR -> scopeAt (eN P) j = ScLVAR -> i <> j -> lcl (MT M (table_of E E')) i <> lcl (MT M (table_of E E')) j) /\
      (forall i, scopeAt (eN P) i = ScPRM -> 1 <= pcl (MT M (table_of E E')) i <= arity ps e) /\
      (forall i j, scopeAt (eN P) i = ScPRM -> scopeAt (eN P) j = ScPRM -> i <> j -> pcl (MT M (table_of E E')) i <> pcl (MT M (table_of E E')) j).
Proof.
  intros LX U H. destruct (func_of _ _ _ _ _ LX U H) as (p & R & K). exists p. split; [exact R|].
  intros p1 pub t d nm ps e q p2 EP. destruct (K _ _ _ _ _ _ _ _ _ EP) as (fi & rt & rd & E & x & E' & root & dep & lbs & lbs' & a & c & b & BO & EO & P & OT & -> & _ & GF).
  exists fi, rt, rd, E, x, E', a, (map (printed (table_of E E')) c), b. split; [exact BO|]. split; [exact EO|].
  split. { unfold genFunc in GF. destruct (genS _ _ _ _) as [[c1 g1]|]; [|discriminate GF]. injection GF as <- _. destruct (_ =? _); [reflexivity|]. destruct krn; reflexivity. }
  intros M W IW. inversion BO as [T pub0 t0 d0 nm0 ps0 e0 prev fi0 n2 cc d2 prm q0 x0 E0 OP HD OQ]; subst pub0 t0 d0 nm0 ps0 e0 fi0 q0 E0 rt rd x E. clear BO. set (E := Env _ _ _ _ _) in *. set (tb := table_of E E') in *.
  pose proof (hidden_prog _ _ _ _ _ OP ltac:(constructor)) as HN. destruct (start_tidy _ _ _ _ _ _ _ _ _ _ _ _ _ _ _ (tL T) HD HN) as [T0 SP]. fold E in T0.
  destruct (proj2 (fine_places _ _) _ _ _ _ _ IW T0) as [[ND RG _] PR]. pose proof (proj2 (max_places _ _) _ _ _ _ _ IW _ _ OQ T0 ltac:(cbn; lia)) as MX.
  pose proof (kept_leave E _ _ (proj2 (kept_places _ _) _ _ _ _ _ IW _ _ OQ T0)) as [_ KC]. fold (table_of E E') in KC. fold tb in KC.
  assert (CE : forall i, scopeAt (eN W) i <> ScVOID -> cntAt tb i = cntAt (eN W) i) by (intros i I; apply KC, ProgInv.scope_inside, I).
  assert (AR : prm = arity ps e).
  { destruct HD as [_ _ _ (n1 & D & OPR) -> _]. apply def_app in D. destruct D as [-> ->]. rewrite (params_len _ _ _ _ _ _ _ _ _ OPR). unfold arity, ntGetSize. rewrite app_length. cbn [List.length]. lia. }
  change (eN E) with (enter prev fi (ntSetCnt n2 fi prm)) in PR. rewrite SP in PR. cbn [MT celled lcl pcl].
  assert (PD : NoDup (slots ScPRM (eN W))). { rewrite PR. apply FinFun.Injective_map_NoDup; [intros u v; lia|apply seq_NoDup]. }
  assert (PG : forall v, In v (slots ScPRM (eN W)) -> 0 <= v < prm). { intros v I. rewrite PR in I. apply in_map_iff in I. destruct I as (u & <- & I). apply in_seq in I. lia. }
  split; [|split; [|split]].
  - intros i S. rewrite CE by (rewrite S; discriminate). apply (slots_in ScLVAR) in S; [|discriminate]. apply RG in S. lia.
  - intros i j S1 S2 NE X. rewrite !CE in X by (rewrite ?S1, ?S2; discriminate). apply NE. exact (slots_distinct ScLVAR _ _ _ ltac:(discriminate) ND S1 S2 X).
  - intros i S. rewrite CE by (rewrite S; discriminate). apply (slots_in ScPRM) in S; [|discriminate]. apply PG in S. lia.
  - intros i j S1 S2 NE X. rewrite !CE in X by (rewrite ?S1, ?S2; discriminate). apply NE. apply (slots_distinct ScPRM _ _ _ ltac:(discriminate) PD S1 S2). lia.
Qed.
Print Assumptions C59_storage.

(* int f(int n) { { int a = n; } { int b = n; } return n; } *)
Definition run_src : list Z := codes "int f(int n) { { int a = n; } { int b = n; } return n; } ".
Definition nX : ast := AName (codes "n").
Definition run_body : sseq :=
  QStat (BBlock (QDecl (Decl TnInt 0 [(codes "a", Some nX)]) QNil)) (QStat (BBlock (QDecl (Decl TnInt 0 [(codes "b", Some nX)]) QNil)) (QStat (BReturn (Some nX)) QNil)).
Definition run_fn : top := PFunc false TnInt 0 (codes "f") [(TnInt, O, codes "n")] PEnd (Some run_body).
Definition run_toks : list stok := Eval vm_compute in removelast (view (lexed run_src)).
Lemma nX_der k : (k <= 13)%nat -> derives k nX [TName (codes "n")].
Proof. intros H. apply d13; [exact H|apply d_name]. Qed.
Example run_reads : reads_as (lexed run_src) [run_fn].
Proof.
  exists run_toks. split; [vm_compute; reflexivity|].
  assert (D1 := nX_der 1 ltac:(lia)). assert (D0 := nX_der 0 ltac:(lia)).
  assert (B : forall v, sder true (BBlock (QDecl (Decl TnInt 0 [(v, Some nX)]) QNil)) (TSym cLC :: (((tyTok TnInt :: brackets 0 ++ [TName v; TSym cEQ; TName (codes "n")]) ++ [TSym cSEMI]) ++ []) ++ [TSym cRC])).
  { intros v. apply sd_block. rewrite <- app_assoc. apply (qd_decl _ _ _ [] (dd _ 0 _ _ (dvs_one _ _ (dv_init v _ _ D1))) qd_nil). }
  rewrite <- (app_nil_r run_toks). refine (dpr_cons run_fn [] run_toks [] _ dpr_nil).
  refine (dt_func false TnInt 0 (codes "f") [(TnInt, O, codes "n")] PEnd (Some run_body) _ _ (dp_last _) (db_some _ _ (qd_stat _ _ _ _ (sd_any _ _ (B _)) (qd_stat _ _ _ _ (sd_any _ _ (B _)) (qd_stat _ _ _ _ (sd_any _ _ (sd_return _ _ (do_some _ _ D0))) qd_nil))))).
Qed.

Definition run_E : env := Env (enter None 0 (ntSetCnt [Ent (codes "f") ScPROT TyINT 0 0 false; Ent (codes "n") ScPRM TyINT 0 0 false] 0 1)) 0 0 0 0.
Example run_bodyof : exists x E', body_of false false [] run_fn 0 TyINT 0 run_E run_body x E' /\
  x = SBlk (SSemi (SBlk (SVar 2) (SExpr (E2 ASS (ELeaf (LLoc 2)) (ELeaf (LPrm 1))))) (SBlk (SVar 3) (SExpr (E2 ASS (ELeaf (LLoc 3)) (ELeaf (LPrm 1)))))) (SRet (ELeaf (LPrm 1))) /\
  lcl (MT demoM (table_of run_E E')) 2 = 1 /\ lcl (MT demoM (table_of run_E E')) 3 = 1 /\ pcl (MT demoM (table_of run_E E')) 1 = 1 /\ is_bool (namesOf (table_of run_E E')) 1 = false /\ eM E' = 1.
Proof.
  eexists. eexists. split.
  - refine (bo false false [] tenv0 false TnInt 0 (codes "f") [(TnInt, O, codes "n")] PEnd None 0 [Ent (codes "f") ScPROT TyINT 0 0 false; Ent (codes "n") ScPRM TyINT 0 0 false] 0 0 1 run_body _ _ (opr_nil _ _ _) _ _).
    + split; try reflexivity; try discriminate; [split; discriminate|]. eexists. split; [vm_compute; reflexivity|]. eapply op_last; [repeat split; discriminate || (intros [X _]; discriminate X)|exact Logic.I|vm_compute; reflexivity].
    + eapply oq_stat.
      * eapply os_block. eapply oq_decl; [|eapply oq_nil]. eapply od; [vm_compute; intuition discriminate|]. eapply ovs_cons; [|eapply ovs_nil]. eapply ov_init; [vm_compute; reflexivity|eapply (h_var _ _ _ 1); [vm_compute; reflexivity|right; right; split; [vm_compute; reflexivity|reflexivity]]|left; split; vm_compute; reflexivity].
      * eapply oq_stat.
        { eapply os_block. eapply oq_decl; [|eapply oq_nil]. eapply od; [vm_compute; intuition discriminate|]. eapply ovs_cons; [|eapply ovs_nil]. eapply ov_init; [vm_compute; reflexivity|eapply (h_var _ _ _ 1); [vm_compute; reflexivity|right; right; split; [vm_compute; reflexivity|reflexivity]]|left; split; vm_compute; reflexivity]. }
        eapply oq_stat; [|eapply oq_nil]. eapply os_value; [vm_compute; intuition discriminate|eapply (h_var _ _ _ 1); [vm_compute; reflexivity|right; right; split; [vm_compute; reflexivity|reflexivity]]|left; split; vm_compute; reflexivity].
  - repeat (split; [vm_compute; reflexivity|]). vm_compute; reflexivity.
Qed.

(* the hypotheses of C58 and C59 hold of this text, with and without -O, and of the machine *)
Example C58_ex : lexAll run_src = LOk (lexed run_src) /\ unmarked (lexed run_src) /\
  compile false false run_src = COut [ANam 0; ACode [IEntry 1; ILdPrm 1; IStLoc 1; IPop; ILdPrm 1; IStLoc 1; IPop; ILdPrm 1; IMReg; IRet]] /\
  compile true false run_src = compile false false run_src /\ plainM demoM.
Proof.
  split; [vm_compute; reflexivity|]. split; [apply unmarkedb_ok; vm_compute; reflexivity|]. split; [vm_compute; reflexivity|]. split; [vm_compute; reflexivity|]. split; reflexivity.
Qed.
(* so the theorem speaks of this function: two blocks after each other share a cell *)
Example C58_ex_applied : exists x E' c, body_of false false [] run_fn 0 TyINT 0 run_E run_body x E' /\ sorder_safe x = true /\ sopt_safe (namesOf (table_of run_E E')) x = true /\
  alike cg_order demoM (table_of run_E E') false x c /\ compile false false run_src = COut [ANam 0; ACode c].
Proof.
  destruct C58_ex as (LX & U & C & _ & PM). destruct (C58_function _ _ _ _ LX U C) as (p & R & K).
  pose proof (C57_one_body _ _ _ _ _ _ _ _ _ _ run_reads R (or_introl eq_refl)) as I. pose proof (C57_one_reading _ _ _ run_reads R) as E.
  destruct p as [|f [|g p]]; try discriminate E. destruct I as [->|[]]. destruct (K [] _ _ _ _ _ _ _ [] eq_refl) as (fi & rt & rd & F & x & F' & a & c & b & BO & EO & A).
  destruct run_bodyof as (y & G' & BO2 & Y & _). destruct (body_one _ _ _ _ _ _ _ _ _ _ _ _ _ _ _ _ _ _ BO2 BO) as (-> & -> & -> & -> & _ & -> & ->).
  exists y, G', c. split; [exact BO2|]. subst y. split; [reflexivity|]. split; [reflexivity|]. split; [exact (proj1 (A _ PM))|]. rewrite C. destruct a as [|a0 [|a1 [|]]]; cbn [app] in EO; inversion EO; subst; reflexivity.
Qed.
(* a place inside the second block: b is in scope, a is not *)
Example C59_ex : exists P, inQ TyINT 0 false run_E SNull run_body P /\ scopeAt (eN P) 3 = ScLVAR /\ scopeAt (eN P) 2 = ScVOID /\ scopeAt (eN P) 1 = ScPRM.
Proof.
  eexists. split.
  - eapply iq_more; [|eapply iq_stat].
    + eapply os_block. eapply oq_decl; [|eapply oq_nil]. eapply od; [vm_compute; intuition discriminate|]. eapply ovs_cons; [|eapply ovs_nil]. eapply ov_init; [vm_compute; reflexivity|eapply (h_var _ _ _ 1); [vm_compute; reflexivity|right; right; split; [vm_compute; reflexivity|reflexivity]]|left; split; vm_compute; reflexivity].
    + eapply is_block, iq_next; [|eapply iq_here]. eapply od; [vm_compute; intuition discriminate|]. eapply ovs_cons; [|eapply ovs_nil]. eapply ov_init; [vm_compute; reflexivity|eapply (h_var _ _ _ 1); [vm_compute; reflexivity|right; right; split; [vm_compute; reflexivity|reflexivity]]|left; split; vm_compute; reflexivity].
  - split; [vm_compute; reflexivity|]. split; vm_compute; reflexivity.
Qed.

(* ==== C57: the rules leave no choice ==== *)
Theorem C57_one_outcome (opt krn : bool) (p : list top) (T T' : tenv) : okProg opt krn tenv0 p T -> okProg opt krn tenv0 p T' -> T' = T.
Proof. intros A B. exact (okProg_one _ _ _ _ _ A _ B). Qed.
Print Assumptions C57_one_outcome.
(* an expression has one type and one tree *)
Theorem C57_one_type (n : table) l e t d lv x t' d' lv' x' : has n l e t d lv x -> has n l e t' d' lv' x' -> t' = t /\ d' = d /\ lv' = lv /\ x' = x.
Proof. exact (has_one n l e t d lv x t' d' lv' x'). Qed.
Print Assumptions C57_one_type.
