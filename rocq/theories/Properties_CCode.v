(* C29: the text the C translator prints, read with the grammar of C, is the program.
   The grammar is CSpec.v; the C program a tree stands for is CTree.v. *)
From Coq Require Import ZArith Bool Lia List String Ascii.
From Verif Require Import Lexer SyTree NameTable CSpec CCode CTree CLexProofs CReadProofs CExpProofs CStmProofs CFuel.
Import ListNotations.
Open Scope Z_scope.

(* a text has at most one reading *)
Theorem C29_unique : forall x e1 e2, readsE x e1 -> readsE x e2 -> e1 = e2.
Proof.
  intros x e1 e2 (f1 & t1 & L1 & P1) (f2 & t2 & L2 & P2).
  apply (clex_mono _ (Nat.max f1 f2) _ _ (Nat.le_max_l f1 f2)) in L1. apply (clex_mono _ (Nat.max f1 f2) _ _ (Nat.le_max_r f1 f2)) in L2.
  rewrite L1 in L2. injection L2 as <-.
  apply (upE _ _ _ _ _ (Nat.le_max_l f1 f2)) in P1. apply (upE _ _ _ _ _ (Nat.le_max_r f1 f2)) in P2. congruence.
Qed.
Theorem C29_unique_statement : forall isType x s1 s2, readsS isType x s1 -> readsS isType x s2 -> s1 = s2.
Proof.
  intros T x e1 e2 (f1 & t1 & L1 & P1) (f2 & t2 & L2 & P2).
  apply (clex_mono _ (Nat.max f1 f2) _ _ (Nat.le_max_l f1 f2)) in L1. apply (clex_mono _ (Nat.max f1 f2) _ _ (Nat.le_max_r f1 f2)) in L2.
  rewrite L1 in L2. injection L2 as <-.
  apply (upM _ _ _ _ _ (Nat.le_max_l f1 f2)) in P1. apply (upM _ _ _ _ _ (Nat.le_max_r f1 f2)) in P2. congruence.
Qed.

Lemma printE_total nm : forall e args, formed args e = true -> exists x, printE nm args e = Some x.
Proof.
  induction e as [|l|o e IH|o l IHl r IHr|f a IH]; intros args H; cbn [formed] in H.
  - discriminate.
  - destruct l; eexists; reflexivity.
  - destruct (IH false H) as [x E]. destruct o; cbn [printE]; rewrite E; eexists; reflexivity.
  - destruct o; try (apply andb_prop in H as [A B]; destruct (IHl false A) as [x E]; destruct (IHr false B) as [y K]; cbn [printE]; rewrite E, K; eexists; reflexivity).
    + destruct r as [|[v| | | | |]| | |]; try discriminate H. destruct (IHl false H) as [x E]. cbn [printE]. rewrite E. eexists. reflexivity.
    + apply andb_prop in H as [A C]. apply andb_prop in A as [A B]. destruct (IHl true B) as [x E]. destruct (IHr true C) as [y K].
      cbn [printE]. rewrite A, E, K. eexists. reflexivity.
  - cbn [printE]. destruct a as [|l|o e|o l r|g a]; [eexists; reflexivity| | | |]; destruct (IH true H) as [x ->]; eexists; reflexivity.
Qed.
Lemma optE_total nm e : formedO e = true -> exists x, optE nm e = Some x.
Proof. destruct e as [|l|o e|o l r|g a]; [intros _; eexists; reflexivity| | | |]; intros H; exact (printE_total nm _ false H). Qed.
Lemma traceTree_total nm vty : forall s, formedS vty s = true -> exists x, traceTree nm vty s = Some x.
Proof.
  induction s as [|e|i|c b IHb|c b1 IH1 b2 IH2|c b IHb re|b IHb c| | |e|l IHl r IHr|l IHl r IHr]; cbn [formedS traceTree]; intros H;
    try (eexists; reflexivity).
  - destruct (printE_total nm e false H) as [x E]. destruct e as [|[v| | | | |]| | |]; try (eexists; reflexivity); unfold printExp; rewrite E; eexists; reflexivity.
  - unfold printType, printTypeName. destruct (fst (vty i) =? TyVOID); [eexists; reflexivity|]. destruct (fst (vty i) =? TyINT); [eexists; reflexivity|].
    destruct (fst (vty i) =? TyBOOL); [eexists; reflexivity|]. destruct (fst (vty i) =? TyCHAR); [eexists; reflexivity|].
    rewrite !orb_false_r in H. rewrite H. eexists. reflexivity.
  - apply andb_prop in H as [A B]. unfold printExp. destruct (printE_total nm c false A) as [x ->]. destruct (IHb B) as [y ->]. eexists. reflexivity.
  - apply andb_prop in H as [A B]. apply andb_prop in A as [A C]. unfold printExp. destruct (printE_total nm c false A) as [x ->].
    destruct (IH1 C) as [y ->]. destruct (IH2 B) as [z ->]. eexists. reflexivity.
  - apply andb_prop in H as [A B]. apply andb_prop in A as [A C]. destruct (optE_total nm c A) as [x ->]. destruct (optE_total nm re B) as [y ->].
    destruct (IHb C) as [z ->]. eexists. reflexivity.
  - apply andb_prop in H as [A B]. unfold printExp. destruct (printE_total nm c false A) as [x ->]. destruct (IHb B) as [y ->]. eexists. reflexivity.
  - destruct (optE_total nm e H) as [x ->]. eexists. reflexivity.
  - apply andb_prop in H as [A B]. destruct (IHl A) as [x ->]. destruct (IHr B) as [y ->]. eexists. reflexivity.
  - apply andb_prop in H as [A B]. destruct (IHl A) as [x ->]. destruct (IHr B) as [y ->]. eexists. reflexivity.
Qed.

(* Every expression is printed, and C reads the text as the same tree of operators,
   when the names are names for C and no negative number follows a minus sign *)
Theorem C29_expression_partial : forall nm isType e,
  formed false e = true -> fairE nm strLab isType e ->
  exists x, printExp nm e = Some x /\ readsE x (expC nm strLab e) /\ (forall e', readsE x e' -> e' = expC nm strLab e).
Proof.
  intros nm T e W F. destruct (printE_total nm e false W) as [x H]. exists x. split; [exact H|].
  pose proof (exp_reads nm T e x F H) as R. split; [exact R|]. intros e' R'. exact (C29_unique x e' _ R' R).
Qed.

(* The same for the body of a function, when moreover the body of each if, else, while
   and for is one statement and the body of each do does not begin with a letter *)
Theorem C29_body_partial : forall nm vty isType root, (forall w, isType w = true -> isKw w = false) ->
  formedS vty root = true -> fairS nm strLab vty isType root ->
  exists x, printBody nm vty root = Some x /\ readsS isType x (bodyC nm vty root) /\ (forall s, readsS isType x s -> s = bodyC nm vty root).
Proof.
  intros nm vty T root K W F.
  assert (exists x, printBody nm vty root = Some x) as [x H].
  { unfold printBody. destruct (traceTree_total nm vty (match root with SBlk l r => SSemi l r | s => s end)) as [x E].
    - destruct root; exact W.
    - rewrite E. eexists. reflexivity. }
  exists x. split; [exact H|]. pose proof (body_reads nm vty T K root x F H) as R. split; [exact R|].
  intros s R'. exact (C29_unique_statement T x s _ R' R).
Qed.

(* ---- a program that meets the hypotheses ---- *)
Definition exNames (i : Z) : list Z :=
  if i =? 1 then codes "a" else if i =? 2 then codes "b" else if i =? 3 then codes "putn" else if i =? 4 then codes "next" else if i =? 5 then codes "List" else codes "x".
Definition exTypes (w : list Z) : bool := eqs w (codes "List").
Definition exVars (i : Z) : Z * nat := if i =? 2 then (-5, 1%nat) else (TyINT, 0%nat).
Definition exE : expr := E2 ASS (ELeaf (LLoc 1)) (E2 MUL (E2 ADD (ELeaf (LLoc 1)) (Cnst (-5))) (EFunc 3 (E2 SEMI (E2 IDXI (E2 DOT (ELeaf (LPrm 2)) (Cnst 4)) (Cnst 7)) (E1 NEG (ELeaf (LStr 12)))))).
Definition exS : stmt :=
  SBlk (SSemi (SVar 2) (SDo (SIf (E2 LT (ELeaf (LLoc 1)) (Cnst 9)) SBrk) (Cnst 1)))
       (SSemi (SEls (ELeaf (LLoc 1)) (SExpr exE) (SWhl ENull (SBlk SCnt SNull) exE)) (SRet ENull)).
Example C29_expression_example :
  printExp exNames exE = Some (codes "(a=((a+-5)*putn(b->next[7],(-_cmm_12S))))") /\ fairE exNames strLab exTypes exE /\ formed false exE = true.
Proof. repeat split; try (vm_compute; reflexivity); unfold small; lia. Qed.
Example C29_body_example : fairS exNames strLab exVars exTypes exS /\ formedS exVars exS = true /\
  (forall w, exTypes w = true -> isKw w = false) /\
  bodyC exNames exVars exS = KBlk [KVar (codes "List") 2 (codes "b"); KDo (KBlk [KIf (CBin (codes "<") (CId (codes "a")) (CNum 9)) KBreak]) (CNum 1);
    KElse (CId (codes "a")) (KExp (expC exNames strLab exE)) (KFor None (Some (expC exNames strLab exE)) (KBlk [KContinue; KEmpty])); KRet None].
Proof.
  repeat split; try (vm_compute; reflexivity); try (unfold small; lia).
  intros w H. apply eqs_true in H. subst w. reflexivity.
Qed.

(* ---- what goes wrong outside of the hypotheses ---- *)
(* a - (-5), which the optimiser makes of a - (0 - 5), is printed (a--5), which is not C *)
Theorem C29_minus_refuted : exists nm e x,
  (forall i, nameOk exTypes (nm i)) /\ formed false e = true /\ printExp nm e = Some x /\ ~ exists c, readsE x c.
Proof.
  exists (fun _ => codes "a"), (E2 SUB (ELeaf (LLoc 1)) (Cnst (-5))), (codes "(a--5)").
  split; [intros i; repeat split|]. split; [reflexivity|]. split; [reflexivity|]. eapply (unreadE 100); [vm_compute; reflexivity|]. vm_compute. reflexivity.
Qed.

(* do a(); while (b); is printed without a blank after do: C reads the call of a
   function doa and then an endless loop *)
Theorem C29_do_refuted : exists nm vty root x s,
  (forall i, nameOk exTypes (nm i)) /\ formedS vty root = true /\ printBody nm vty root = Some x /\
  readsS exTypes x s /\ s <> bodyC nm vty root /\
  s = KBlk [KExp (CCall (CId (codes "doa")) []); KWhile (CId (codes "a")) KEmpty].
Proof.
  exists (fun _ => codes "a"), exVars, (SDo (SExpr (EFunc 1 ENull)) (ELeaf (LLoc 2))).
  eexists. exists (KBlk [KExp (CCall (CId (codes "doa")) []); KWhile (CId (codes "a")) KEmpty]).
  split; [intros i; repeat split|]. split; [reflexivity|]. split; [reflexivity|]. split; [|split; [discriminate|reflexivity]].
  eexists 100%nat, _. split; [vm_compute; reflexivity|]. vm_compute. reflexivity.
Qed.

(* the same with a break: the loop is not left *)
Theorem C29_do_break_refuted : exists nm vty root x s,
  (forall i, nameOk exTypes (nm i)) /\ formedS vty root = true /\ printBody nm vty root = Some x /\
  readsS exTypes x s /\ s = KBlk [KExp (CId (codes "dobreak")); KWhile (CId (codes "a")) KEmpty].
Proof.
  exists (fun _ => codes "a"), exVars, (SDo SBrk (ELeaf (LLoc 2))).
  eexists. eexists. split; [intros i; repeat split|]. split; [reflexivity|]. split; [reflexivity|]. split; [|reflexivity].
  eexists 100%nat, _. split; [vm_compute; reflexivity|]. vm_compute. reflexivity.
Qed.

(* two statements before an else, which the optimiser leaves of
   if (a) { if (false) ; ; } else ;   the text is not C *)
Theorem C29_else_refuted : exists nm vty root x,
  (forall i, nameOk exTypes (nm i)) /\ formedS vty root = true /\ printBody nm vty root = Some x /\ ~ exists s, readsS exTypes x s.
Proof.
  exists (fun _ => codes "a"), exVars, (SEls (ELeaf (LLoc 1)) (SSemi SNull SNull) SNull).
  eexists. split; [intros i; repeat split|]. split; [reflexivity|]. split; [reflexivity|]. eapply (unreadS exTypes 100); [vm_compute; reflexivity|]. vm_compute. reflexivity.
Qed.

(* if (a) { int a; } is printed without the braces: not C *)
Theorem C29_declaration_refuted : exists nm vty root x,
  (forall i, nameOk exTypes (nm i)) /\ formedS vty root = true /\ printBody nm vty root = Some x /\ ~ exists s, readsS exTypes x s.
Proof.
  exists (fun _ => codes "a"), exVars, (SIf (ELeaf (LLoc 1)) (SVar 1)).
  eexists. split; [intros i; repeat split|]. split; [reflexivity|]. split; [reflexivity|]. eapply (unreadS exTypes 100); [vm_compute; reflexivity|]. vm_compute. reflexivity.
Qed.

(* a variable of C-- may have the name of a keyword of C: not C *)
Theorem C29_keyword_refuted : exists nm e x, (forall i, ident (nm i)) /\
  formed false e = true /\ printExp nm e = Some x /\ ~ exists c, readsE x c.
Proof.
  exists (fun _ => codes "double"), (E2 ADD (ELeaf (LLoc 1)) (Cnst 1)).
  eexists. split; [intros i; split; reflexivity|]. split; [reflexivity|]. split; [reflexivity|]. eapply (unreadE 100); [vm_compute; reflexivity|]. vm_compute. reflexivity.
Qed.

Print Assumptions C29_unique.
Print Assumptions C29_unique_statement.
Print Assumptions C29_expression_partial.
Print Assumptions C29_body_partial.
Print Assumptions C29_minus_refuted.
Print Assumptions C29_do_refuted.
Print Assumptions C29_do_break_refuted.
Print Assumptions C29_else_refuted.
Print Assumptions C29_declaration_refuted.
Print Assumptions C29_keyword_refuted.
