(* C67: programs.  The functions of a source file, compiled and linked, call each other and do
   together what the source says.  What a program does and the linked machine: LinkSpec.v; the
   grammar and the rules of the language: ParseSpec.v, StmtSpec.v, ProgGram.v. *)
From Coq Require Import ZArith Bool Lia String Ascii List.
From Verif Require Import Lexer Word NameTable SyTree ExprSem StmtSem OptSpec OpTree VM VmBase OptFold VmCode GenLabels GenLabels2 GenExpr GenFunc OrderSpec OrderProofs
  Parser ParserStmt ParseSpec ParseShow StmtSpec ProgGram ProgSound ProgUniq ProgComplete RuleDet RuleDet2 AsmText
  SourceRun Properties_Parse Properties_Gen Properties_Prog Properties_Source LinkSpec LinkProofs LinkNames Properties_Run.
Import ListNotations.
Open Scope Z_scope.

(* fs are the functions that p defines, p standing behind p1: each with its name, its body as
   the rules of the language translate it, and its code, which stands in the output o under
   its name *)
Inductive program (opt krn : bool) (o : list asm) : list top -> list top -> list fn -> Prop :=
| pr_nil p1 : program opt krn o p1 [] []
| pr_other p1 x p fs : (forall pub t d nm ps e q, x <> PFunc pub t d nm ps e (Some q)) ->
    program opt krn o (p1 ++ [x]) p fs -> program opt krn o p1 (x :: p) fs
| pr_fn p1 pub t d nm ps e q p fs fi rt rd E x E' a c b :
    body_of opt krn p1 (PFunc pub t d nm ps e (Some q)) fi rt rd E q x E' ->
    o = a ++ ANam fi :: ACode c :: b -> nameAt (table_of E E') fi = nm ->
    program opt krn o (p1 ++ [PFunc pub t d nm ps e (Some q)]) p fs ->
    program opt krn o p1 (PFunc pub t d nm ps e (Some q) :: p) (Fn nm (table_of E E') x c (rt =? TyINTR) :: fs).

(* each function of the program for itself: what C58 says of it *)
Lemma program_of opt krn o sw (ok : table -> stmt -> Prop) p :
  (forall p1 pub t d nm ps e q p2, p = p1 ++ PFunc pub t d nm ps e (Some q) :: p2 ->
    exists fi rt rd E x E' a c b, body_of opt krn p1 (PFunc pub t d nm ps e (Some q)) fi rt rd E q x E' /\
      o = a ++ ANam fi :: ACode c :: b /\ (ok (table_of E E') x -> forall M, plainM M -> alike sw M (table_of E E') (rt =? TyINTR) x c)) ->
  exists fs, program opt krn o [] p fs /\ ((forall f, In f fs -> ok (fTab f) (fBody f)) -> each_alike fs sw).
Proof.
  intros K. assert (G : forall p2 p1, p = p1 ++ p2 -> exists fs, program opt krn o p1 p2 fs /\ ((forall f, In f fs -> ok (fTab f) (fBody f)) -> each_alike fs sw)).
  2:{ exact (G p [] eq_refl). }
  induction p2 as [|x p2 IH]; intros p1 EP; [exists []; split; [constructor|intros _ f []]|].
  destruct (IH (p1 ++ [x])) as (fs & P & A). { rewrite <- app_assoc. exact EP. }
  assert (X : (forall pub t d nm ps e q, x <> PFunc pub t d nm ps e (Some q)) \/ exists pub t d nm ps e q, x = PFunc pub t d nm ps e (Some q)).
  { destruct x as [| |pub t d nm ps e [q|]|]; try (left; discriminate). right. exists pub, t, d, nm, ps, e, q. reflexivity. }
  destruct X as [X|(pub & t & d & nm & ps & e & q & ->)]; [exists fs; split; [constructor; assumption|exact A]|].
  destruct (K _ _ _ _ _ _ _ _ _ EP) as (fi & rt & rd & E & x & E' & a & c & b & BO & EO & AL).
  exists (Fn nm (table_of E E') x c (rt =? TyINTR) :: fs). split; [eapply pr_fn; [exact BO|exact EO|exact (own_name _ _ _ _ _ _ _ _ _ _ _ _ _ _ _ _ BO)|exact P]|].
  intros OK f [<-|I]; [exact (AL (OK _ (or_introl eq_refl)))|]. exact (A (fun h J => OK h (or_intror J)) f I).
Qed.

(* ==== C67 ==== *)
(* If the call nm(a) comes back with v, as the source has it, all callees included, then the
   linked code of the function nm, called with the arguments a, comes to its return
   instruction with v, and memory is what the source makes of it. *)
Theorem C67_program (krn : bool) (file : list Z) (l : list item) (o : list asm) :
  lexAll file = LOk l -> unmarked l -> compile false krn file = COut o ->
  exists p fs, reads_as l p /\ program false krn o [] p fs /\
    forall W n nm a g v g' f, fn_of fs nm = Some f -> calls W fs cg_order n nm a g = Some (v, g') -> delivers W fs f a g v g'.
Proof.
  intros LX U H. destruct (C58_function _ _ _ _ LX U H) as (p & R & K).
  destruct (program_of false krn o cg_order (fun _ _ => True) p) as (fs & P & A).
  { intros p1 pub t d nm ps e q p2 EP. destruct (K _ _ _ _ _ _ _ _ _ EP) as (fi & rt & rd & E & x & E' & a & c & b & BO & EO & AL). exists fi, rt, rd, E, x, E', a, c, b. split; [exact BO|]. split; [exact EO|]. intros _ M PM. exact (proj1 (AL M PM)). }
  exists p, fs. split; [exact R|]. split; [exact P|]. intros W n nm a g v g' f F C. pose proof (calls_delivered W fs cg_order (A (fun _ _ => Logic.I)) n nm a g v g' C) as D. rewrite F in D. exact D.
Qed.
Print Assumptions C67_program.

(* Programs in whose bodies the order of operands cannot matter: from left to right. *)
Theorem C67_in_order (krn : bool) (file : list Z) (l : list item) (o : list asm) :
  lexAll file = LOk l -> unmarked l -> compile false krn file = COut o ->
  exists p fs, reads_as l p /\ program false krn o [] p fs /\
    ((forall f, In f fs -> sorder_safe (fBody f) = true) ->
     forall W n nm a g v g' f, fn_of fs nm = Some f -> calls W fs ltr n nm a g = Some (v, g') -> delivers W fs f a g v g').
Proof.
  intros LX U H. destruct (C58_in_order _ _ _ _ LX U H) as (p & R & K).
  destruct (program_of false krn o ltr (fun _ x => sorder_safe x = true) p K) as (fs & P & A).
  exists p, fs. split; [exact R|]. split; [exact P|]. intros OK W n nm a g v g' f F C. pose proof (calls_delivered W fs ltr (A OK) n nm a g v g' C) as D. rewrite F in D. exact D.
Qed.
Print Assumptions C67_in_order.

(* With -O, for programs on whose bodies the optimiser is right (C12, C13, C14) and in whose
   optimised bodies the order of operands cannot matter. *)
Theorem C67_optimised_partial (krn : bool) (file : list Z) (l : list item) (o : list asm) :
  lexAll file = LOk l -> unmarked l -> compile true krn file = COut o ->
  exists p fs, reads_as l p /\ program true krn o [] p fs /\
    ((forall f, In f fs -> sopt_safe (namesOf (fTab f)) (fBody f) = true /\ forall root, optTree (fBody f) = Ok root -> escapes root = false /\ sorder_safe root = true) ->
     forall W n nm a g v g' f, fn_of fs nm = Some f -> calls W fs ltr n nm a g = Some (v, g') -> delivers W fs f a g v g').
Proof.
  intros LX U H. destruct (C20_text_partial _ _ _ _ LX U H) as (p & R & K).
  destruct (program_of true krn o ltr (fun t x => sopt_safe (namesOf t) x = true /\ forall root, optTree x = Ok root -> escapes root = false /\ sorder_safe root = true) p) as (fs & P & A).
  { intros p1 pub t d nm ps e q p2 EP. destruct (K _ _ _ _ _ _ _ _ _ EP) as (fi & rt & rd & E & x & E' & root & a & c & b & BO & EO & OT & AL). exists fi, rt, rd, E, x, E', a, c, b. split; [exact BO|]. split; [exact EO|].
    intros [S1 S2]. destruct (S2 _ OT) as [S3 S4]. exact (AL S1 S3 S4). }
  exists p, fs. split; [exact R|]. split; [exact P|]. intros OK W n nm a g v g' f F C. pose proof (calls_delivered W fs ltr (A OK) n nm a g v g' C) as D. rewrite F in D. exact D.
Qed.
Print Assumptions C67_optimised_partial.

(* A call reaches the function of its name: no two functions of a program have the same name. *)
Lemma prog_names opt krn o p1 p2 fs : program opt krn o p1 p2 fs -> forall f, In f fs -> exists a pub t d ps e q b, p2 = a ++ PFunc pub t d (fName f) ps e (Some q) :: b.
Proof.
  induction 1 as [|p1 x p fs N P IH|p1 pub t d nm ps e q p fs fi rt rd E x E' a c b BO EO NM P IH]; intros f I; [destruct I| |].
  - destruct (IH _ I) as (a & pub & t & d & ps & e & q & b & ->). exists (x :: a), pub, t, d, ps, e, q, b. reflexivity.
  - destruct I as [<-|I]; [exists [], pub, t, d, ps, e, q, p; reflexivity|]. destruct (IH _ I) as (a' & pub' & t' & d' & ps' & e' & q' & b' & ->). exists (PFunc pub t d nm ps e (Some q) :: a'), pub', t', d', ps', e', q', b'. reflexivity.
Qed.
Lemma norm_split p x q p' : (forall u v w y, x <> PVars u v w y) -> map normT p' = map normT (p ++ x :: q) -> exists p1 q1, p' = p1 ++ x :: q1 /\ map normT q1 = map normT q.
Proof.
  intros N. revert p'. induction p as [|y p IH]; intros [|z p'] E; cbn [app map] in E; try discriminate E; injection E as E1 E2.
  - exists [], p'. split; [|exact E2]. assert (z = x) as ->; [|reflexivity]. destruct x as [| | |u v w y]; [| | |destruct (N u v w y eq_refl)]; destruct z; try discriminate E1; exact E1.
  - destruct (IH p' E2) as (p1 & q1 & -> & E3). exists (z :: p1), q1. split; [reflexivity|exact E3].
Qed.
Lemma prog_once opt krn o T p0 p' p1 p2 fs : okProg opt krn tenv0 p' T -> map normT p' = map normT p0 -> p0 = p1 ++ p2 -> program opt krn o p1 p2 fs -> NoDup (map fName fs).
Proof.
  intros OK NE E P. revert E. induction P as [|p1 x p fs N P IH|p1 pub t d nm ps e q p fs fi rt rd E1 x E' a c b BO EO NM P IH]; intros E; [constructor| |].
  - apply IH. rewrite <- app_assoc. exact E.
  - cbn [map fName]. constructor; [|apply IH; rewrite <- app_assoc; exact E]. intros I. apply in_map_iff in I. destruct I as (f & EN & I).
    destruct (prog_names _ _ _ _ _ _ P _ I) as (a' & pub' & t' & d' & ps' & e' & q' & b' & ->). rewrite EN in E. subst p0.
    assert (NV : forall (b0 : bool) t0 d0 n0 l0 k0 q0 u v w y, PFunc b0 t0 d0 n0 l0 k0 q0 <> PVars u v w y) by discriminate.
    destruct (norm_split _ _ _ _ (NV _ _ _ _ _ _ _) NE) as (r1 & r2 & -> & NE2). destruct (norm_split _ _ _ _ (NV _ _ _ _ _ _ _) NE2) as (r3 & r4 & -> & _).
    exact (defined_once _ _ _ _ _ _ _ _ _ _ _ _ _ _ _ _ _ _ _ OK).
Qed.
Theorem C67_one_function (opt krn : bool) (file : list Z) (l : list item) (o : list asm) (p : list top) (fs : list fn) :
  lexAll file = LOk l -> unmarked l -> compile opt krn file = COut o -> reads_as l p -> program opt krn o [] p fs ->
  NoDup (map fName fs) /\ forall f, In f fs -> fn_of fs (fName f) = Some f.
Proof.
  intros LX U H R P. destruct (proj1 (C57_accepts _ _ _ _ _ LX U) H) as (p' & T & R' & OK & _).
  assert (ND : NoDup (map fName fs)).
  { exact (prog_once _ _ _ _ _ _ [] p _ OK (C57_one_reading _ _ _ R' R) eq_refl P). }
  split; [exact ND|]. clear P. induction fs as [|h r IH]; intros f I; [destruct I|]. cbn [map] in ND. inversion ND as [|? ? NI ND']; subst. cbn [fn_of].
  destruct I as [->|I]; [destruct (list_eq_dec Z.eq_dec (fName f) (fName f)); congruence|]. destruct (list_eq_dec Z.eq_dec (fName h) (fName f)) as [E|_]; [|exact (IH ND' f I)].
  exfalso. apply NI. rewrite E. apply in_map. exact I.
Qed.
Print Assumptions C67_one_function.

(* The bound n on depth and rounds does not matter: what a call gives is determined. *)
Theorem C67_bound (krn : bool) (file : list Z) (l : list item) (o : list asm) :
  lexAll file = LOk l -> unmarked l -> compile false krn file = COut o ->
  exists p fs, reads_as l p /\ program false krn o [] p fs /\
    forall W n m nm a g r r', calls W fs cg_order n nm a g = Some r -> calls W fs cg_order m nm a g = Some r' -> r' = r.
Proof.
  intros LX U H. destruct (C67_program _ _ _ _ LX U H) as (p & fs & R & P & D). exists p, fs. split; [exact R|]. split; [exact P|].
  intros W n m nm a g [v g1] [v' g1'] A B. destruct (fn_of fs nm) as [f|] eqn:F.
  2:{ assert (X : forall k, calls W fs cg_order k nm a g = w_ext W nm a g) by (intros [|k]; cbn [calls]; rewrite F; reflexivity). rewrite X in A, B. congruence. }
  destruct (D W n nm a g v g1 f F A []) as (r & [k S] & F1 & N1 & _ & _ & V1). destruct (D W m nm a g v' g1' f F B []) as (r' & [k' S'] & F2 & N2 & _ & _ & V2).
  assert (Z : forall g r, rF r = f -> nth_error (fCode f) (rPc r) = Some (if fIntr f then IRetI else IRet) -> lstep W fs (LCfg W g r []) = None).
  { intros g0 r0 E N. unfold lstep. cbn [lTop]. rewrite E, N. destruct (fIntr f); reflexivity. }
  pose proof (lsteps_end W fs _ _ _ _ _ S (Z _ _ F1 N1) S' (Z _ _ F2 N2)) as E. injection E as -> ->. congruence.
Qed.
Print Assumptions C67_bound.

(* ---- an example ---- *)
(* int f(int n) { if (n == 0) return 0; return f(n - 1) + 3; } *)
Definition sum_src : list Z := codes "int f(int n) { if (n == 0) return 0; return f(n - 1) + 3; } ".
Definition nF : list Z := codes "f".
Definition sum_if : sast := BIf (ABin EQU nX (AInt 0)) (BReturn (Some (AInt 0))).
Definition sum_rec : ast := ABin ADD (ACall nF [ABin SUB nX (AInt 1)]) (AInt 3).
Definition sum_body : sseq := QStat sum_if (QStat (BReturn (Some sum_rec)) QNil).
Definition sum_fn : top := PFunc false TnInt 0 nF [(TnInt, O, codes "n")] PEnd (Some sum_body).
Definition sum_toks : list stok := Eval vm_compute in removelast (view (lexed sum_src)).
Lemma der_up j e ts : derives j e ts -> forall k, (k <= j)%nat -> derives k e ts.
Proof.
  intros D k K. pose proof (ParseUniq.derives_le _ _ _ D) as L. remember (j - k)%nat as m eqn:M. revert k K M. induction m as [|m IH]; intros k K M.
  - replace k with j by lia. exact D.
  - apply d_up; [lia|]. apply IH; lia.
Qed.
Example sum_reads : reads_as (lexed sum_src) [sum_fn].
Proof.
  exists sum_toks. split; [vm_compute; reflexivity|].
  assert (DC : derives 0 (ABin EQU nX (AInt 0)) ([TName (codes "n")] ++ TSym LxEQU :: [TInt 0])).
  { apply (der_up 7); [|lia]. apply d_bin; [left; reflexivity|exact (nX_der 7 ltac:(lia))|apply d13; [lia|apply d_int]]. }
  assert (DA : derives_args [ABin SUB nX (AInt 1)] ([TName (codes "n")] ++ TSym cMINUS :: [TInt 1])).
  { apply da_one. apply (der_up 10); [|lia]. apply d_bin; [right; left; reflexivity|exact (nX_der 10 ltac:(lia))|apply d13; [lia|apply d_int]]. }
  assert (DR : derives 0 sum_rec ((TName nF :: TSym cLP :: ([TName (codes "n")] ++ TSym cMINUS :: [TInt 1]) ++ [TSym cRP]) ++ TSym cPLUS :: [TInt 3])).
  { apply (der_up 10); [|lia]. apply d_bin; [left; reflexivity|apply d13; [lia|apply d_call; exact DA]|apply d13; [lia|apply d_int]]. }
  rewrite <- (app_nil_r sum_toks). refine (dpr_cons sum_fn [] sum_toks [] _ dpr_nil).
  refine (dt_func false TnInt 0 nF [(TnInt, O, codes "n")] PEnd (Some sum_body) _ _ (dp_last _) (db_some _ _
    (qd_stat _ _ _ _ (sd_if _ _ _ _ DC (sd_any _ _ (sd_return _ _ (do_some _ _ (d13 0 _ _ ltac:(lia) (d_int 0))))))
      (qd_stat _ _ _ _ (sd_any _ _ (sd_return _ _ (do_some _ _ DR))) qd_nil)))).
Qed.
Definition sum_E : env := Env (enter None 0 (ntSetCnt [Ent nF ScPROT TyINT 0 0 false; Ent (codes "n") ScPRM TyINT 0 0 false] 0 1)) 0 0 0 0.
Definition sum_tree : stmt := SBlk (SIf (E2 EQU (ELeaf (LPrm 1)) (Cnst 0)) (SRet (Cnst 0))) (SRet (E2 ADD (EFunc 0 (E2 SUB (ELeaf (LPrm 1)) (Cnst 1))) (Cnst 3))).
Definition sum_t : table := Eval vm_compute in table_of sum_E sum_E.
Definition sum_code : code := Eval vm_compute in match compile false false sum_src with COut [_; ACode c] => c | _ => [] end.
Example sum_bodyof : body_of false false [] sum_fn 0 TyINT 0 sum_E sum_body sum_tree sum_E.
Proof.
  assert (HN : forall l, has (eN sum_E) l nX TyINT 0 true (ELeaf (LPrm 1))).
  { intros l. change (has (eN sum_E) l nX (typeAt (eN sum_E) 1) (dimAt (eN sum_E) 1) true (ELeaf (LPrm 1))). eapply (h_var _ _ _ 1); [vm_compute; reflexivity|right; right; split; [vm_compute; reflexivity|reflexivity]]. }
  refine (bo false false [] tenv0 false TnInt 0 nF [(TnInt, O, codes "n")] PEnd None 0 [Ent nF ScPROT TyINT 0 0 false; Ent (codes "n") ScPRM TyINT 0 0 false] 0 0 1 sum_body
    (SSemi (SIf (E2 EQU (ELeaf (LPrm 1)) (Cnst 0)) (SRet (Cnst 0))) (SRet (E2 ADD (EFunc 0 (E2 SUB (ELeaf (LPrm 1)) (Cnst 1))) (Cnst 3)))) sum_E (opr_nil _ _ _) _ _).
  - split; try reflexivity; try discriminate; [split; discriminate|]. eexists. split; [vm_compute; reflexivity|]. eapply op_last; [repeat split; discriminate || (intros [X _]; discriminate X)|exact Logic.I|vm_compute; reflexivity].
  - assert (IL : intLike TyINT 0) by (split; [left|]; reflexivity). assert (FT : fits TyINT 0 TyINT 0) by (left; split; reflexivity).
    eapply oq_stat.
    + eapply os_if.
      * refine (oc_some (eN sum_E) 0 0 0 0 _ _ _ _). eapply h_equ; [left; reflexivity|apply HN|apply h_int|left; split; reflexivity].
      * refine (os_value _ _ _ (eN sum_E) 0 0 0 0 _ _ _ _ _ _ (h_int _ _ _) FT). vm_compute; intuition discriminate.
    + eapply (oq_stat _ _ _ _ _ _ (SRet (E2 ADD (EFunc 0 (E2 SUB (ELeaf (LPrm 1)) (Cnst 1))) (Cnst 3)))); [|eapply oq_nil].
      refine (os_value _ _ _ (eN sum_E) 0 0 0 0 sum_rec _ _ _ _ _ _ FT); [vm_compute; intuition discriminate|].
      eapply (h_arith _ _ _ _ _ TyINT 0 false _ TyINT 0 false); [vm_compute; tauto| |exact IL|apply h_int|exact IL].
      change (has (eN sum_E) 0 (ACall nF [ABin SUB nX (AInt 1)]) (typeAt (eN sum_E) 0) (dimAt (eN sum_E) 0) false (EFunc 0 (E2 SUB (ELeaf (LPrm 1)) (Cnst 1)))).
      eapply (h_call _ _ _ _ 0); [vm_compute; reflexivity|right; reflexivity|vm_compute; discriminate|].
      eapply p_arg; [vm_compute; discriminate|vm_compute; discriminate|eapply h_arith; [vm_compute; tauto|apply HN|exact IL|apply h_int|exact IL]|left; split; reflexivity|].
      apply p_done. left. vm_compute. reflexivity.
Qed.
(* a world whose memory never changes and that has no other functions *)
Definition dull : world :=
  World unit (fun _ _ => 0) (fun g _ _ => g) (fun _ _ _ => 0) (fun g _ _ _ => g) (fun _ _ _ => 0) (fun g _ _ _ => g)
    (fun _ => 0) (fun _ => 0) (fun _ _ _ => None) (fun _ _ _ _ => 7) (fun _ _ _ _ => 7).
(* the hypotheses of C67 hold of this text; the program is this function, and f(4) is 12, as
   the source says and as the linked code has it *)
Example C67_ex : exists fs, lexAll sum_src = LOk (lexed sum_src) /\ unmarked (lexed sum_src) /\ compile false false sum_src = COut [ANam 0; ACode sum_code] /\
  program false false [ANam 0; ACode sum_code] [] [sum_fn] fs /\ fs = [Fn nF sum_t sum_tree sum_code false] /\
  calls dull fs cg_order 5 nF [4] tt = Some (12, tt) /\ calls dull fs ltr 5 nF [4] tt = Some (12, tt) /\ calls dull fs cg_order 4 nF [4] tt = None /\
  (forall f, In f fs -> sorder_safe (fBody f) = true /\ sopt_safe (namesOf (fTab f)) (fBody f) = true).
Proof.
  eexists. split; [vm_compute; reflexivity|]. split; [apply unmarkedb_ok; vm_compute; reflexivity|]. split; [vm_compute; reflexivity|].
  split; [refine (pr_fn _ _ _ _ _ _ _ _ _ _ _ _ _ 0 _ _ _ _ _ [] sum_code [] sum_bodyof eq_refl _ (pr_nil _ _ _ _)); vm_compute; reflexivity|].
  split; [reflexivity|]. split; [vm_compute; reflexivity|]. split; [vm_compute; reflexivity|]. split; [vm_compute; reflexivity|].
  intros f [<-|[]]. split; vm_compute; reflexivity.
Qed.
(* the same function with -O: the optimiser is right on it *)
Example C67_opt_ex : exists c, compile true false sum_src = COut [ANam 0; ACode c] /\ c <> sum_code /\
  exists root, optTree sum_tree = Ok root /\ escapes root = false /\ sorder_safe root = true /\ sopt_safe (namesOf sum_t) sum_tree = true.
Proof.
  eexists. split; [vm_compute; reflexivity|]. split; [discriminate|]. eexists. split; [vm_compute; reflexivity|]. repeat split; vm_compute; reflexivity.
Qed.
(* the theorem speaks of this function *)
Example C67_ex_applied : exists f, fCode f = sum_code /\ delivers dull [f] f [4] tt 12 tt.
Proof.
  destruct C67_ex as (fs0 & LX & U & C & _ & _ & CA & _). destruct (C67_program _ _ _ _ LX U C) as (p & fs & R & P & D).
  pose proof (C57_one_body _ _ _ _ _ _ _ _ _ _ sum_reads R (or_introl eq_refl)) as I. pose proof (C57_one_reading _ _ _ sum_reads R) as E.
  destruct p as [|f [|g p]]; try discriminate E. destruct I as [->|[]].
  inversion P as [|p1 x q fs1 N P1|p1 pub t d nm ps e q p fs1 fi rt rd F x F' a c b BO EO NM P1]; subst; [destruct (N _ _ _ _ _ _ _ eq_refl)|].
  inversion P1; subst. destruct (body_one _ _ _ _ _ _ _ _ _ _ _ _ _ _ _ _ _ _ sum_bodyof BO) as (-> & -> & -> & -> & _ & -> & ->).
  assert (c = sum_code) as -> by (destruct a as [|a0 [|a1 [|]]]; cbn [app] in EO; inversion EO; reflexivity).
  eexists. split; [|refine (D dull 5%nat nF [4] tt 12 tt _ _ _)]; [reflexivity|reflexivity|vm_compute; reflexivity].
Qed.
