(* From the source text to the run of the code: the code written for a function does what
   its body says. *)
From Coq Require Import ZArith Bool Lia List.
From Verif Require Import Lexer Word NameTable SyTree ExprSem StmtSem OptSpec OpTree VM VmCode VmBase GenLabels GenLabels2 GenExpr GenFunc
  Parser ParserStmt ParseSpec ParseLabs ProgSpec ProgData ProgInv ProgTop StmtSpec StmtSound ProgGram ProgComplete Properties_Gen.
Import ListNotations.
Open Scope Z_scope.

(* ---- machines with cells ---- *)
(* M with the cells of locals and parameters given by l and p *)
Definition celled (M : machine) (l p : Z -> Z) : machine :=
  Machine (G M) (ldg M) (stg M) (ldw M) (stw M) (ldb M) (stb M) (call M) (adr M) (lab M) l p.
(* locals and parameters are addressed by their numbers *)
Definition plainM (M : machine) : Prop := (forall i, lcl M i = i) /\ (forall i, pcl M i = i).

Section Cells.
Variables (M : machine) (t : table).
Hypothesis PM : plainM M.
Definition MT : machine := celled M (cntAt t) (fun i => cntAt t i + 1).
(* the same state, seen from M *)
Definition same (st : state MT) : state M := @State M (ExprSem.gs st) (locs st) (prms st).
Definition sameC (c : cfg MT) : cfg M := let '(Cfg k s a r m) := c in Cfg k s a r (same m).
Lemma find_printed l p : find l (map (printed t) p) = find l p.
Proof. induction p as [|i p IH]; [reflexivity|]. destruct i; cbn [map printed find]; rewrite IH; reflexivity. Qed.
Lemma goto_printed p l s a r m : goto M (map (printed t) p) l s a r (same m) = option_map sameC (goto MT p l s a r m).
Proof. unfold goto. rewrite find_printed. destruct (find l p); reflexivity. Qed.
Lemma step_printed p c : VM.step M (map (printed t) p) (sameC c) = option_map sameC (VM.step MT p c).
Proof.
  destruct PM as [PL PP]. destruct c as [k s a r m]. cbn [sameC VM.step]. rewrite nth_error_map. destruct (nth_error p k) as [i|]; [|reflexivity]. cbn [option_map].
  destruct i; cbn [printed]; try reflexivity;
    try (destruct s as [|v s]; [reflexivity|]); try (destruct s as [|v1 s]; [reflexivity|]); try (destruct s as [|v2 s]; [reflexivity|]); try reflexivity; try apply goto_printed;
    try (destruct (_ =? 0); [reflexivity|apply goto_printed]); try (destruct (_ =? 0); [apply goto_printed|reflexivity]);
    try (rewrite ?PL, ?PP; reflexivity).
  all: try (cbn; destruct (op2_val _ _ _); reflexivity).
  all: try (cbn; destruct (call M _ _ _) as [[? ?]|]; reflexivity).
Qed.
Lemma steps_printed p n : forall c c', steps MT p n c c' -> steps M (map (printed t) p) n (sameC c) (sameC c').
Proof.
  induction n as [|n IH]; intros c c' H; cbn [steps] in *.
  - rewrite H. reflexivity.
  - destruct H as (d & S & H). exists (sameC d). rewrite step_printed, S. split; [reflexivity|]. exact (IH _ _ H).
Qed.
Lemma steps_printed_back p n : forall c c1, steps M (map (printed t) p) n (sameC c) c1 -> exists c', c1 = sameC c' /\ steps MT p n c c'.
Proof.
  induction n as [|n IH]; intros c c1 H; cbn [steps] in *.
  - exists c. auto.
  - destruct H as (d & S & H). rewrite step_printed in S. destruct (VM.step MT p c) as [d0|] eqn:E; [|discriminate S]. injection S as <-.
    destruct (IH _ _ H) as (c' & -> & H'). exists c'. split; [reflexivity|]. exists d0. auto.
Qed.
Lemma ret_printed p k (intr : bool) : nth_error (map (printed t) p) k = Some (if intr then IRetI else IRet) <-> nth_error p k = Some (if intr then IRetI else IRet).
Proof.
  rewrite nth_error_map. destruct (nth_error p k) as [i|]; cbn [option_map]; [|split; discriminate]. destruct i; cbn [printed]; split; intros H; try exact H; destruct intr; discriminate H.
Qed.
End Cells.

(* ---- the tree of an accepted body ---- *)
Lemma escapes_chain a b : escapes (chain a b) = escapes a || escapes b.
Proof. destruct a; destruct b; cbn [chain escapes]; rewrite ?orb_false_r; reflexivity. Qed.
Lemma escapes_block a : escapes (block a) = escapes a.
Proof. destruct a; reflexivity. Qed.
Lemma escapes_var t d E v x E' : okVar t d E v x E' -> escapes x = false.
Proof. intros H. destruct H; reflexivity. Qed.
Lemma escapes_vars t d E a vs x E' : okVars t d E a vs x E' -> escapes a = false -> escapes x = false.
Proof. induction 1 as [|E a v r x E1 y E2 V R IH]; intros A; [exact A|]. apply IH. rewrite escapes_chain, A, (escapes_var _ _ _ _ _ _ V). reflexivity. Qed.
Lemma escapes_decl E d x E' : okDecl E d x E' -> escapes x = false.
Proof. intros H. destruct H as [E t d vs x n l c m k V R]. exact (escapes_vars _ _ _ _ _ _ _ R eq_refl). Qed.
Lemma escapes_ini E i x E' : okIni E i x E' -> escapes x = false.
Proof. intros H. destruct H as [| |E d x E' H]; [reflexivity..|exact (escapes_decl _ _ _ _ H)]. Qed.
Lemma ok_escapes rt rd :
  (forall b E s x E', okS rt rd b E s x E' -> b = false -> escapes x = false) /\
  (forall b E a q x E', okQ rt rd b E a q x E' -> b = false -> escapes a = false -> escapes x = false).
Proof.
  apply ok_mutind; intros; cbn [escapes]; try reflexivity; try discriminate; auto.
  - rewrite H1 by assumption. rewrite H3 by assumption. reflexivity.
  - rewrite (escapes_ini _ _ _ _ H). reflexivity.
  - rewrite escapes_block. auto.
  - apply H2; [assumption|]. rewrite escapes_chain, H4, H0 by assumption. reflexivity.
  - apply H1; [assumption|]. rewrite escapes_chain, H3, (escapes_decl _ _ _ _ H). reflexivity.
Qed.

(* ---- labels are counted up ---- *)
Lemma nstr_pos e : 0 <= nstr e.
Proof. unfold nstr. lia. Qed.
Lemma lab_var t d E v x E' : okVar t d E v x E' -> eL E <= eL E'.
Proof. intros H. destruct H; cbn [eL]; [lia|]. pose proof (nstr_pos e). lia. Qed.
Lemma lab_vars t d E a vs x E' : okVars t d E a vs x E' -> eL E <= eL E'.
Proof. induction 1 as [|E a v r x E1 y E2 V R IH]; [lia|]. apply lab_var in V. lia. Qed.
Lemma lab_decl E d x E' : okDecl E d x E' -> eL E <= eL E'.
Proof. intros H. destruct H as [E t d vs x n l c m k V R]. apply lab_vars in R. exact R. Qed.
Lemma lab_cond E c x E' : okCond E c x E' -> eL E <= eL E'.
Proof. intros H. destruct H; cbn [eL]; [lia|]. pose proof (nstr_pos e). lia. Qed.
Lemma lab_opt E c x E' : okOpt E c x E' -> eL E <= eL E'.
Proof. intros H. destruct H; cbn [eL]; [lia|]. pose proof (nstr_pos e). lia. Qed.
Lemma lab_ini E i x E' : okIni E i x E' -> eL E <= eL E'.
Proof. intros H. destruct H as [|n l c m k e t d lv x H|E d x E' H]; cbn [eL]; [lia| |exact (lab_decl _ _ _ _ H)]. pose proof (nstr_pos e). lia. Qed.
Lemma lab_stmt rt rd :
  (forall b E s x E', okS rt rd b E s x E' -> eL E <= eL E') /\
  (forall b E a q x E', okQ rt rd b E a q x E' -> eL E <= eL E').
Proof.
  apply ok_mutind; intros; cbn [eL leave]; try lia;
    repeat match goal with
    | H : okCond _ _ _ _ |- _ => apply lab_cond in H
    | H : okOpt _ _ _ _ |- _ => apply lab_opt in H
    | H : okIni _ _ _ _ |- _ => apply lab_ini in H
    | H : okDecl _ _ _ _ |- _ => apply lab_decl in H
    end; try lia; try (pose proof (nstr_pos e); lia).
Qed.
Lemma genList_le k : forall node l node' c l', genList k node l = Some (node', c, l') -> l <= l'.
Proof.
  induction k as [|k IH]; intros node l node' c l' H; cbn [genList] in H.
  - injection H as <- <- <-. lia.
  - destruct (genList0 node (Z.of_nat (S k)) false l) as [((n1, c1), l1)|] eqn:G1; [|discriminate H]. destruct (genList k n1 l1) as [((n2, c2), l2)|] eqn:G2; [|discriminate H]. injection H as <- <- <-.
    apply genList0_ok in G1. destruct G1 as ((A & _) & _). apply IH in G2. lia.
Qed.
Lemma genData_le idx dim root l c l' : genData idx dim root l = Some (c, l') -> l <= l'.
Proof.
  intros H. unfold genData in H.
  destruct (match root with DList _ _ => _ | DArry _ _ => _ | _ => _ end) as [((root', c0), l1)|] eqn:G; [|discriminate H].
  destruct (genDW root') as [dw|] eqn:W; [|discriminate H]. injection H as <- <-.
  destruct root as [|v|i|s|a b|d0 r|d0 r]; try (injection G as <- <- <-; lia).
  - exact (genList_le _ _ _ _ _ _ G).
  - destruct (genArray0 d0 1 r l) as [((lab, c1), l2)|] eqn:E; [|discriminate G]. injection G as <- <- <-. destruct (genArray0_ok _ _ _ _ _ _ _ E) as ((A & _) & _). exact A.
Qed.
Lemma lab_gvar t d pub T v T' : okGVar t d pub T v T' -> tL T <= tL T'.
Proof.
  intros H. destruct H; cbn [tL]; try lia; match goal with A : okIn _ _ _ _ _ _ _, B : genData _ _ _ _ = _ |- _ => apply (proj1 (lab_in _ _)) in A; apply genData_le in B end; lia.
Qed.
Lemma lab_gvars t d pub T vs T' : okGVars t d pub T vs T' -> tL T <= tL T'.
Proof. induction 1 as [|T v T1 r T2 V R IH]; [lia|]. apply lab_gvar in V. lia. Qed.
Lemma body_noescape rt rd E q x E' : okQ rt rd false E SNull q x E' -> escapes (block x) = false.
Proof. intros H. rewrite escapes_block. exact (proj2 (ok_escapes rt rd) _ _ _ _ _ _ H eq_refl eq_refl). Qed.
(* whatever the statement *)
Lemma genS_le N : forall s p g c g', genS N s p g = Some (c, g') -> 0 <= cur g -> cur g <= cur g'.
Proof.
  assert (KC : forall e tf j n c j' n', genCnd N e tf j n = Some (c, j', n') -> 0 <= n -> no j <= n -> n <= n') by (intros; edestruct genCnd_good as [[? _] _]; eauto).
  assert (KX : forall e n c n', genX N e n = Some (c, n') -> 0 <= n -> n <= n') by (intros; edestruct genX_good as [[? _] _]; eauto).
  assert (KE : forall e n c n', genE N e n = Some (c, n') -> 0 <= n -> n <= n') by (intros; edestruct genE_good as [[? _] _]; eauto).
  induction s; intros p g c' g' H P; cbn [genS] in H.
  - injection H as <- <-. lia.
  - destruct (genX N e (cur g)) as [[c1 n]|] eqn:E; [|discriminate H]. injection H as <- <-. apply KX in E; [|lia]. exact E.
  - injection H as <- <-. lia.
  - destruct (genCnd N _ false _ _) as [[[c1 j] n]|] eqn:E; [|discriminate H]. destruct (genS N s _ _) as [[c2 g1]|] eqn:S; [|discriminate H]. injection H as <- <-.
    apply KC in E; [|lia|cbn; lia]. apply IHs in S; cbn [cur set_cur] in *; lia.
  - destruct (genCnd N _ false _ _) as [[[c1 j] n]|] eqn:E; [|discriminate H]. destruct (genS N s1 _ _) as [[c2 g1]|] eqn:S1; [|discriminate H].
    destruct (genS N s2 _ _) as [[c3 g3]|] eqn:S2; [|discriminate H]. injection H as <- <-.
    apply KC in E; [|lia|cbn; lia]. apply IHs1 in S1; cbn [cur set_cur] in *; [|lia]. apply IHs2 in S2; destruct (jmpBlock s1); cbn [cur set_cur] in *; lia.
  - destruct (match c with ENull => Some ([], -1, cur g + 1) | _ => _ end) as [[[c1 j] n1]|] eqn:E; [|discriminate H].
    assert (cur g + 1 <= n1) as L1.
    { destruct c; try (injection E as <- <- <-; lia); (destruct (genCnd N _ false _ _) as [[[cc jj] nn]|] eqn:Q; [|discriminate E]; injection E as <- <- <-; apply KC in Q; [exact Q|lia|cbn; lia]). }
    destruct (genS N s _ _) as [[c2 g1]|] eqn:S; [|discriminate H]. apply IHs in S; cbn [cur] in *; [|lia].
    destruct (match re with ENull => _ | _ => _ end) as [[[c3 jb] n2]|] eqn:R; [|discriminate H]. injection H as <- <-. cbn [cur].
    assert (cur g1 <= n2); [|lia]. clear -R KX S L1 P.
    destruct re; try (injection R as <- <- <-; lia); (destruct (negb (jmpBlock s) || negb (cnt g1 =? -1)); [|injection R as <- <- <-; lia]; destruct (genX N _ (cur g1)) as [[cr nr]|] eqn:Q; [|discriminate R]; injection R as <- <- <-; apply KX in Q; lia).
  - destruct (genS N s _ _) as [[c2 g1]|] eqn:S; [|discriminate H]. destruct (genCnd N _ true _ _) as [[[c1 j] n]|] eqn:E; [|discriminate H]. injection H as <- <-.
    apply IHs in S; cbn [cur] in *; [|lia]. apply KC in E; [|lia|cbn; lia]. lia.
  - injection H as <- <-. cbn [cur]. destruct (_ =? _); lia.
  - injection H as <- <-. cbn [cur]. destruct (_ =? _); lia.
  - destruct (match e with ENull => _ | _ => _ end) as [[c1 n]|] eqn:E; [|discriminate H].
    assert (cur g <= n) as L1.
    { destruct e; try (injection E as <- <-; lia); (destruct (genE N _ _) as [[cc nn]|] eqn:Q; [|discriminate E]; injection E as <- <-; apply KE in Q; lia). }
    destruct p; injection H as <- <-; cbn [cur set_cur]; try lia. destruct (_ =? _); lia.
  - destruct (genS N s1 _ _) as [[c1 g1]|] eqn:S1; [|discriminate H]. destruct (genS N s2 _ _) as [[c2 g2]|] eqn:S2; [|discriminate H]. injection H as <- <-.
    apply IHs1 in S1; [|lia]. apply IHs2 in S2; lia.
  - destruct (genS N s1 _ _) as [[c1 g1]|] eqn:S1; [|discriminate H]. destruct (genS N s2 _ _) as [[c2 g2]|] eqn:S2; [|discriminate H]. injection H as <- <-.
    apply IHs1 in S1; [|lia]. apply IHs2 in S2; lia.
Qed.
Lemma genFunc_le N s d krn intr g c g' : genFunc N s d krn intr g = Some (c, g') -> 0 <= cur g -> cur g <= cur g'.
Proof. unfold genFunc. intros H P. destruct (genS N s PRoot _) as [[c1 g1]|] eqn:S; [|discriminate H]. injection H as <- <-. apply genS_le in S; exact S || exact P. Qed.
Lemma lab_top opt krn T x T' : okTop opt krn T x T' -> 0 <= tL T -> 0 <= tL T'.
Proof.
  intros H P. destruct H as [| |n l c d0 b k o pub t d vs T' V R| |n l c0 d0 b k o pub t d nm ps e prev fi n2 c d2 prm q x E E' root code lb HD PV EE OQ RT RO GF]; cbn [tL] in *; try lia.
  - apply lab_gvars in R. cbn [tL] in R. lia.
  - subst E. pose proof (proj2 (lab_stmt _ _) _ _ _ _ _ _ OQ) as L. cbn [eL] in L.
    apply genFunc_le in GF; cbn [cur] in GF |- *; lia.
Qed.
Lemma lab_prog opt krn T p T' : okProg opt krn T p T' -> 0 <= tL T -> 0 <= tL T'.
Proof. induction 1 as [|T x T1 p T2 H R IH]; intros P; [exact P|]. apply IH. exact (lab_top _ _ _ _ _ H P). Qed.
Lemma okProg_split opt krn p1 : forall T x p2 T', okProg opt krn T (p1 ++ x :: p2) T' -> exists T1 T2, okProg opt krn T p1 T1 /\ okTop opt krn T1 x T2 /\ okProg opt krn T2 p2 T'.
Proof.
  induction p1 as [|y p1 IH]; intros T x p2 T' H; cbn [app] in H; inversion H as [|T0 z Ta q Tb HT HP]; subst.
  - exists T, Ta. split; [constructor|]. auto.
  - destruct (IH _ _ _ _ HP) as (T1 & T2 & A & B & C). exists T1, T2. split; [|auto]. econstructor; eassumption.
Qed.
(* output only grows *)
Lemma out_gvar t d pub T v T' : okGVar t d pub T v T' -> exists z, tO T' = tO T ++ z.
Proof. intros H. destruct H; cbn [tO]; eauto. exists []. rewrite app_nil_r. reflexivity. Qed.
Lemma out_gvars t d pub T vs T' : okGVars t d pub T vs T' -> exists z, tO T' = tO T ++ z.
Proof.
  induction 1 as [T|T v T1 r T2 V R [z IH]]; [exists []; rewrite app_nil_r; reflexivity|]. destruct (out_gvar _ _ _ _ _ _ V) as [y Y]. exists (y ++ z). rewrite IH, Y, app_assoc. reflexivity.
Qed.
Lemma out_top opt krn T x T' : okTop opt krn T x T' -> exists z, tO T' = tO T ++ z.
Proof.
  intros H. destruct H as [| |n l c d0 b k o pub t d vs T' V R| |]; cbn [tO]; try (exists []; rewrite app_nil_r; reflexivity); eauto. apply out_gvars in R. exact R.
Qed.
Lemma out_prog opt krn T p T' : okProg opt krn T p T' -> exists z, tO T' = tO T ++ z.
Proof.
  induction 1 as [T|T x T1 p T2 H R [z IH]]; [exists []; rewrite app_nil_r; reflexivity|]. destruct (out_top _ _ _ _ _ H) as [y Y]. exists (y ++ z). rewrite IH, Y, app_assoc. reflexivity.
Qed.
