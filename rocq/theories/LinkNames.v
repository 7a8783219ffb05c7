(* A name belongs to one function: a source file that is accepted defines no function twice. *)
From Coq Require Import ZArith Bool Lia List.
From Verif Require Import Lexer NameTable SyTree ExprSem Parser ParserStmt ParseSpec StmtSpec StmtSound ProgGram ProgComplete SourceRun SourceSlots AsmText Properties_Run.
Import ListNotations.
Open Scope Z_scope.

(* the first L entries keep their names; global names stay global, functions stay functions *)
Definition stays (e e' : entry) : Prop := nName e' = nName e /\ isGlob (nScope e') = isGlob (nScope e) /\ (nScope e = ScFUNC -> nScope e' = ScFUNC).
Definition evo (L : nat) (n n' : table) : Prop := forall i e, (i < L)%nat -> nth_error n i = Some e -> exists e', nth_error n' i = Some e' /\ stays e e'.
Lemma stays_refl e : stays e e. Proof. repeat split; auto. Qed.
Lemma evo_trans L a b c : evo L a b -> evo L b c -> evo L a c.
Proof.
  intros A B i e I N. destruct (A i e I N) as (e1 & N1 & X1 & Y1 & Z1). destruct (B i e1 I N1) as (e2 & N2 & X2 & Y2 & Z2). exists e2. split; [exact N2|].
  split; [congruence|]. split; [congruence|auto].
Qed.
Lemma evo_refl L n : evo L n n. Proof. intros i e _ N. exists e. split; [exact N|apply stays_refl]. Qed.
Lemma evo_app L n r : evo L n (n ++ r).
Proof. intros i e _ N. exists e. split; [|apply stays_refl]. rewrite nth_error_app1; [exact N|]. apply nth_error_Some. congruence. Qed.
Lemma evo_firstn L n k : (L <= k)%nat -> evo L n (firstn k n).
Proof.
  intros K i e I N. exists e. split; [|apply stays_refl]. rewrite <- (firstn_skipn k n) in N. rewrite nth_error_app1 in N; [exact N|].
  assert (i < length n)%nat by (rewrite <- (firstn_skipn k n); apply nth_error_Some; congruence). rewrite firstn_length. lia.
Qed.
Lemma evo_undef L n k : (L <= Z.to_nat k)%nat -> evo L n (ntUndefName n k).
Proof. apply evo_firstn. Qed.
Lemma evo_void L n k : (L <= Z.to_nat k)%nat -> evo L n (ntSetVoid n k).
Proof. intros K. unfold ntSetVoid. eapply evo_trans; [apply (evo_firstn L n _ K)|apply evo_app]. Qed.
Lemma nth_upd h t : forall i j, nth_error (NameTable.upd h t i) j = if Nat.eqb i j then option_map h (nth_error t j) else nth_error t j.
Proof. induction t as [|e t IH]; intros i j; [destruct j; destruct (Nat.eqb _ _); reflexivity|]. destruct i, j; cbn [NameTable.upd nth_error Nat.eqb]; auto. Qed.
Lemma evo_upd L h t i : (forall e, (i < L)%nat -> nth_error t i = Some e -> stays e (h e)) -> evo L t (NameTable.upd h t i).
Proof.
  intros H j e J N. rewrite nth_upd. destruct (Nat.eqb_spec i j) as [->|NE]; [|exists e; split; [exact N|apply stays_refl]].
  exists (h e). rewrite N. split; [reflexivity|]. apply H; assumption.
Qed.
Lemma evo_cnt L t i c : evo L t (ntSetCnt t i c).
Proof. apply evo_upd. intros e _ _. repeat split; auto. Qed.
Lemma evo_scope L t i s : ((Z.to_nat i < L)%nat -> forall e, nth_error t (Z.to_nat i) = Some e -> isGlob (nScope e) = isGlob s /\ (nScope e = ScFUNC -> s = ScFUNC)) -> evo L t (ntSetScope t i s).
Proof. intros H. apply evo_upd. intros e I N. destruct (H I e N) as [A B]. split; [reflexivity|]. split; [symmetry; exact A|exact B]. Qed.

Lemma names_app t d : forall n c ns n' c', okNames t d n c ns n' c' -> exists r, n' = n ++ r.
Proof.
  induction 1 as [|n c nm r n1 i n' c' D R (x & ->)]; [exists []; rewrite app_nil_r; reflexivity|].
  apply def_app in D. destruct D as [-> _]. eexists. rewrite <- app_assoc. reflexivity.
Qed.
Lemma flines_app n c d fs n' c' d' : okFlines n c d fs n' c' d' -> exists r, n' = n ++ r.
Proof.
  induction 1 as [|n c d0 t d ns r n1 c1 n' c' d' V N R (x & ->)]; [exists []; rewrite app_nil_r; reflexivity|].
  apply names_app in N. destruct N as [y ->]. eexists. rewrite <- app_assoc. reflexivity.
Qed.
Lemma prior_scan p t : forall i k, scan p t i = Some k -> exists j e, k = i + Z.of_nat j /\ nth_error t j = Some e /\ p e = true /\ forall j' e', (j' < j)%nat -> nth_error t j' = Some e' -> p e' = false.
Proof.
  induction t as [|e t IH]; intros i k H; cbn [scan] in H; [discriminate H|]. destruct (p e) eqn:P.
  - injection H as <-. exists 0%nat, e. split; [lia|]. split; [reflexivity|]. split; [exact P|]. intros j' e' J. lia.
  - destruct (IH _ _ H) as (j & e' & -> & N & Q & F). exists (S j), e'. split; [lia|]. split; [exact N|]. split; [exact Q|]. intros [|j'] e2 J N2; [injection N2 as <-; exact P|]. apply (F j'); [lia|exact N2].
Qed.
Lemma scan_prior p t : forall i j e, nth_error t j = Some e -> p e = true -> (forall j' e', (j' < j)%nat -> nth_error t j' = Some e' -> p e' = false) -> scan p t i = Some (i + Z.of_nat j).
Proof.
  induction t as [|x t IH]; intros i j e N P F; [destruct j; discriminate N|]. cbn [scan]. destruct j as [|j].
  - injection N as ->. rewrite P. f_equal. lia.
  - rewrite (F 0%nat x) by (auto; lia). rewrite (IH (i + 1) j e N P); [f_equal; lia|]. intros j' e' J. apply (F (S j')). lia.
Qed.
Lemma scan_nil p t : forall i j e, scan p t i = None -> nth_error t j = Some e -> p e = false.
Proof. induction t as [|x t IH]; intros i j e S N; [destruct j; discriminate N|]. cbn [scan] in S. destruct (p x) eqn:P; [discriminate S|]. destruct j; [injection N as <-; exact P|exact (IH _ _ _ S N)]. Qed.

(* the name belongs to a function *)
Definition taken (n : table) (nm : list Z) : Prop :=
  exists i e, nth_error n i = Some e /\ zeqb_list (nName e) nm = true /\ nScope e = ScFUNC /\ forall j e', (j < i)%nat -> nth_error n j = Some e' -> isGlob (nScope e') && zeqb_list (nName e') nm = false.
Lemma taken_evo n n' nm : evo (length n) n n' -> taken n nm -> taken n' nm.
Proof.
  intros V (i & e & N & E & S & F). assert (I : (i < length n)%nat) by (apply nth_error_Some; congruence).
  destruct (V i e I N) as (e1 & N1 & X & Y & Z). exists i, e1. split; [exact N1|]. split; [rewrite X; exact E|]. split; [auto|].
  intros j e' J NJ. destruct (nth_error n j) as [e0|] eqn:N0; [|apply nth_error_None in N0; lia].
  destruct (V j e0 ltac:(lia) N0) as (e2 & N2 & X2 & Y2 & _). replace e' with e2 by congruence. rewrite X2, Y2. exact (F j e0 J N0).
Qed.
Lemma scopeAt_nth n j e : nth_error n j = Some e -> scopeAt n (Z.of_nat j) = nScope e.
Proof. intros N. unfold scopeAt, NameTable.ent. destruct (Z.ltb_spec (Z.of_nat j) 0); [lia|]. rewrite Nat2Z.id, N. reflexivity. Qed.
Lemma taken_prior n nm : taken n nm -> exists i, prior n nm = Some i /\ scopeAt n i = ScFUNC.
Proof.
  intros (i & e & N & E & S & F). exists (Z.of_nat i). split; [|rewrite (scopeAt_nth _ _ _ N); exact S].
  unfold prior. rewrite (scan_prior _ n 0 i e N); [reflexivity|rewrite S, E; reflexivity|exact F].
Qed.

Lemma length_upd f (a : table) : forall j, length (NameTable.upd f a j) = length a.
Proof. induction a as [|y a IH]; intros j; [reflexivity|]. destruct j; cbn [NameTable.upd length]; auto. Qed.

Lemma evo_gvar t d pub T v T' : okGVar t d pub T v T' -> forall L, (L <= length (tN T))%nat -> evo L (tN T) (tN T') /\ (length (tN T) <= length (tN T'))%nat.
Proof.
  intros H L LE. destruct H as [n l c k b kk o nm n1 ci D P|n l c k b kk o nm n1 ci i D P|n l c k b kk o nm n1 ci x a l1 code l2 D P I G|n l c k b kk o nm n1 ci i x a l1 code l2 D P S A I G]; cbn [tN] in *.
  - apply def_app in D. destruct D as [-> _]. split; [apply evo_app|rewrite app_length; lia].
  - split; [apply evo_refl|lia].
  - apply def_app in D. destruct D as [-> _]. split; [apply evo_app|rewrite app_length; lia].
  - destruct (prior_scan _ _ _ _ P) as (j & e & -> & N & Q & _). change (0 + Z.of_nat j) with (Z.of_nat j) in *. rewrite (scopeAt_nth _ _ _ N) in S. split.
    + apply evo_scope. intros _ e1 N1. rewrite Nat2Z.id in N1. replace e1 with e by congruence. rewrite S. split; [reflexivity|discriminate].
    + unfold ntSetScope. rewrite length_upd. lia.
Qed.
Lemma evo_gvars t d pub T vs T' : okGVars t d pub T vs T' -> forall L, (L <= length (tN T))%nat -> evo L (tN T) (tN T').
Proof.
  induction 1 as [T|T v T1 r T2 V R IH]; intros L LE; [apply evo_refl|]. destruct (evo_gvar _ _ _ _ _ _ V L LE) as [A B]. eapply evo_trans; [exact A|]. apply IH. lia.
Qed.
Lemma evo_settle L prev fi prm loc n : (L <= Z.to_nat fi)%nat -> (L <= Z.to_nat prm)%nat -> (L <= Z.to_nat loc)%nat -> evo L n (settle prev fi prm loc n).
Proof. intros A B C. unfold settle. destruct prev; [apply evo_undef, A|]. eapply evo_trans; [apply evo_undef, C|apply evo_void, B]. Qed.
(* the header of a function: its entry, and what the table is in its body *)
Lemma head_table krn n c0 pub t d nm ps k prev fi n2 c d2 prm : okHead krn n c0 pub t d nm ps k prev fi n2 c d2 prm ->
  fi = ntGetSize n /\ prev = prior n nm /\ exists r, n2 = n ++ Ent nm ScPROT t d c0 pub :: r.
Proof.
  intros [_ PV _ (n1 & D & OP) _ _]. apply def_app in D. destruct D as [-> ->]. destruct (params_slots _ _ _ _ _ _ _ _ _ OP) as (r & -> & _). split; [reflexivity|]. split; [exact PV|]. exists r. rewrite <- app_assoc. reflexivity.
Qed.
Lemma evo_head krn n c0 pub t d nm ps k prev fi n2 c d2 prm : okHead krn n c0 pub t d nm ps k prev fi n2 c d2 prm -> evo (length n) n (ntSetCnt n2 fi prm).
Proof. intros H. destruct (head_table _ _ _ _ _ _ _ _ _ _ _ _ _ _ _ H) as (_ & _ & r & ->). eapply evo_trans; [apply evo_app|apply evo_cnt]. Qed.
Lemma evo_enter krn n c0 pub t d nm ps k prev fi n2 c d2 prm : okHead krn n c0 pub t d nm ps k prev fi n2 c d2 prm ->
  (forall i, prev = Some i -> scopeAt n i = ScPROT) -> evo (length n) n (enter prev fi (ntSetCnt n2 fi prm)).
Proof.
  intros H PS. pose proof (evo_head _ _ _ _ _ _ _ _ _ _ _ _ _ _ _ H) as V. destruct (head_table _ _ _ _ _ _ _ _ _ _ _ _ _ _ _ H) as (FI & PV & r & E).
  unfold enter. eapply evo_trans; [|apply evo_scope; intros I; subst fi; unfold ntGetSize in I; lia].
  destruct prev as [i|]; [|exact V]. eapply evo_trans; [exact V|]. apply evo_scope. intros I e N. pose proof (PS i eq_refl) as S.
  symmetry in PV. destruct (prior_scan _ _ _ _ PV) as (j & e0 & EI & N0 & _). rewrite Z.add_0_l in EI. subst i. rewrite (scopeAt_nth _ _ _ N0) in S. rewrite Nat2Z.id in *.
  unfold ntSetCnt in N. rewrite nth_upd, E, nth_error_app1, N0 in N by exact I. destruct (Nat.eqb _ _); injection N as <-; cbn [nScope]; rewrite S; split; reflexivity || discriminate.
Qed.
Lemma evo_top opt krn T x T' : okTop opt krn T x T' -> hidden (tN T) -> evo (length (tN T)) (tN T) (tN T').
Proof.
  intros H HI. destruct H as [n l c d b k o nm fs n1 i n2 c2 d2 D F|n l c d b k o nm n1 i D|n l c d0 b k o pub t d vs T' V R|n l c0 d0 b k o pub t d nm ps e prev fi n2 c d2 prm HD
    |n l c0 d0 b k o pub t d nm ps e prev fi n2 c d2 prm q x E E' root code lb HD PV EE OQ RT RO GF]; cbn [tN] in *.
  - apply def_app in D. destruct D as [-> ->]. apply flines_app in F. destruct F as [r ->]. eapply evo_trans; [|apply evo_cnt]. eapply evo_trans; [apply evo_app|]. eapply evo_trans; [apply evo_app|]. apply evo_void. unfold ntGetSize. lia.
  - apply def_app in D. destruct D as [-> _]. apply evo_app.
  - exact (evo_gvars _ _ _ _ _ _ R _ (Nat.le_refl _)).
  - destruct (head_table _ _ _ _ _ _ _ _ _ _ _ _ _ _ _ HD) as (-> & _ & r & E2). eapply evo_trans; [exact (evo_head _ _ _ _ _ _ _ _ _ _ _ _ _ _ _ HD)|].
    apply evo_settle; subst n2; unfold ntGetSize; rewrite ?app_length; lia.
  - subst E. destruct (head_table _ _ _ _ _ _ _ _ _ _ _ _ _ _ _ HD) as (FI & _ & r & E2).
    destruct (start_tidy _ _ _ _ _ _ _ _ _ _ _ _ _ _ _ l HD HI) as [T0 _]. destruct (proj2 (tidy_stmt _ _) _ _ _ _ _ _ OQ T0) as [T1 G]. destruct (tidy_leave _ _ T0 G) as [_ [[z Z] _ _ _ _]]. rewrite Z. cbn [eN].
    eapply evo_trans; [exact (evo_enter _ _ _ _ _ _ _ _ _ _ _ _ _ _ _ HD PV)|]. eapply evo_trans; [apply evo_app|]. apply evo_settle; subst n2 fi; unfold ntGetSize; rewrite ?app_length; lia.
Qed.

(* a function that is defined takes its name *)
Lemma func_takes opt krn T pub t d nm ps e q T' : okTop opt krn T (PFunc pub t d nm ps e (Some q)) T' -> hidden (tN T) -> ~ taken (tN T) nm /\ taken (tN T') nm.
Proof.
  intros H HI. inversion H as [| | | |n l c0 d0 b k o pub0 t0 d1 nm0 ps0 e0 prev fi n2 c d2 prm q0 x E E' root code lb HD PV EE OQ RT RO GF X1 X2 X3]; subst. cbn [tN] in *.
  destruct (head_table _ _ _ _ _ _ _ _ _ _ _ _ _ _ _ HD) as (FI & PR & r & E2). split.
  { intros TK. destruct (taken_prior _ _ TK) as (i & P & S). rewrite P in PR. pose proof (PV i PR) as S2. rewrite S in S2. discriminate S2. }
  set (E := Env (enter prev fi (ntSetCnt n2 fi prm)) l 0 0 d2) in *.
  destruct (start_tidy _ _ _ _ _ _ _ _ _ _ _ _ _ _ _ l HD HI) as [T0 _]. fold E in T0. destruct (proj2 (tidy_stmt _ _) _ _ _ _ _ _ OQ T0) as [T1 G]. destruct (tidy_leave _ _ T0 G) as [_ [[z Z] _ _ _ _]]. rewrite Z. unfold E. cbn [eN].
  assert (LN : length (enter prev fi (ntSetCnt n2 fi prm)) = (length n + S (length r))%nat) by (unfold enter, ntSetScope, ntSetCnt; destruct prev; rewrite !length_upd, E2, app_length; reflexivity).
  pose proof (evo_enter _ _ _ _ _ _ _ _ _ _ _ _ _ _ _ HD PV) as V. destruct prev as [i|] eqn:PVE.
  - (* it was declared before *)
    symmetry in PR. destruct (prior_scan _ _ _ _ PR) as (j & e1 & -> & N1 & Q1 & F1). rewrite Z.add_0_l in *. assert (J : (j < length n)%nat) by (apply nth_error_Some; congruence).
    apply andb_true_iff in Q1. destruct Q1 as [G1 Q1].
    assert (TK : taken (enter (Some (Z.of_nat j)) fi (ntSetCnt n2 fi prm)) nm).
    { exists j. unfold enter, ntSetScope. rewrite nth_upd. destruct (Nat.eqb_spec (Z.to_nat fi) j) as [EJ|EJ]; [subst fi; unfold ntGetSize in EJ; rewrite Nat2Z.id in EJ; lia|]. rewrite nth_upd, Nat2Z.id, Nat.eqb_refl.
      destruct (nth_error (ntSetCnt n2 fi prm) j) as [e2|] eqn:N2; [|apply nth_error_None in N2; unfold ntSetCnt in N2; rewrite length_upd, E2, app_length in N2; lia].
      eexists. split; [reflexivity|]. assert (NM : nName e2 = nName e1).
      { unfold ntSetCnt in N2. rewrite nth_upd, E2, nth_error_app1, N1 in N2 by exact J. destruct (Nat.eqb _ _); injection N2 as <-; reflexivity. }
      cbn [nName nScope]. rewrite NM. split; [exact Q1|]. split; [reflexivity|]. intros j' e' J' N'. destruct (nth_error n j') as [e0|] eqn:N0; [|apply nth_error_None in N0; lia].
      destruct (V j' e0 ltac:(lia) N0) as (e3 & N3 & X & Y & _). unfold enter, ntSetScope in N3. rewrite Nat2Z.id in N3. replace e' with e3 by congruence. rewrite X, Y. exact (F1 _ _ J' N0). }
    destruct TK as (i0 & e0 & A & B & C & F). unfold settle, ntUndefName. assert (i0 = j).
    { destruct (lt_eq_lt_dec i0 j) as [[K|K]|K]; [|exact K|].
      - destruct (nth_error n i0) as [e5|] eqn:N5; [|apply nth_error_None in N5; lia]. destruct (V i0 e5 ltac:(lia) N5) as (e6 & N6 & X & Y & _). pose proof (F1 _ _ K N5) as Z5. replace e0 with e6 in * by congruence. rewrite X in B. rewrite <- Y, C in Z5. cbn in Z5. rewrite B in Z5. discriminate Z5.
      - destruct (V j e1 J N1) as (e6 & N6 & X & Y & _). pose proof (F _ _ K N6) as Z5. rewrite X, Y, G1, Q1 in Z5. discriminate Z5. }
    subst i0. exists j, e0. assert (FN : (Z.to_nat fi = length n)%nat) by (subst fi; unfold ntGetSize; lia). rewrite FN.
    assert (PRE : forall j' e', (j' < length n)%nat -> nth_error (firstn (length n) (enter (Some (Z.of_nat j)) fi (ntSetCnt n2 fi prm) ++ z)) j' = Some e' <-> nth_error (enter (Some (Z.of_nat j)) fi (ntSetCnt n2 fi prm)) j' = Some e').
    { intros j' e' J'. rewrite firstn_app. replace (length n - _)%nat with O by lia. rewrite firstn_O, app_nil_r. set (en := enter _ _ _) in *. rewrite <- (firstn_skipn (length n) en) at 2. rewrite nth_error_app1; [reflexivity|]. rewrite firstn_length. lia. }
    split; [apply PRE; assumption|]. split; [exact B|]. split; [exact C|]. intros j' e' J' N'. apply (F j' e' J'). apply PRE; [lia|exact N'].
  - (* a new name *)
    assert (NN : nth_error (enter None fi (ntSetCnt n2 fi prm)) (length n) = Some (Ent nm ScFUNC (tyCode n t) (Z.of_nat d) prm pub)).
    { assert (FN : (Z.to_nat fi = length n)%nat) by (subst fi; unfold ntGetSize; lia). unfold enter, ntSetScope, ntSetCnt. rewrite nth_upd, FN, Nat.eqb_refl, nth_upd, Nat.eqb_refl, E2, nth_error_app2, Nat.sub_diag by lia. reflexivity. }
    unfold settle. assert (L2 : (length n < Z.to_nat (ntGetSize n2))%nat) by (subst n2; unfold ntGetSize; rewrite app_length; cbn [length]; lia). assert (L1 : (length n < Z.to_nat (fi + 1))%nat) by (subst fi; unfold ntGetSize; lia).
    eapply (taken_evo (firstn (S (length n)) (enter None fi (ntSetCnt n2 fi prm)))).
    + rewrite firstn_length, LN. replace (Nat.min _ _) with (S (length n)) by lia. set (en := enter _ _ _) in *.
      assert (EP : evo (S (length n)) (firstn (S (length n)) en) (en ++ z)) by (rewrite <- (firstn_skipn (S (length n)) en) at 2; rewrite <- app_assoc; apply evo_app).
      eapply evo_trans; [exact EP|]. eapply evo_trans; [apply evo_undef|apply evo_void]; lia.
    + assert (PRE : forall j' e', (j' <= length n)%nat -> nth_error (firstn (S (length n)) (enter None fi (ntSetCnt n2 fi prm))) j' = Some e' <-> nth_error (enter None fi (ntSetCnt n2 fi prm)) j' = Some e').
      { intros j' e' J'. set (en := enter _ _ _) in *. rewrite <- (firstn_skipn (S (length n)) en) at 2. rewrite nth_error_app1; [reflexivity|]. rewrite firstn_length. lia. }
      exists (length n). eexists. split; [apply PRE; [lia|exact NN]|]. cbn [nName nScope]. split; [|split; [reflexivity|]].
      { clear. induction nm as [|y m IH]; [reflexivity|]. cbn [zeqb_list]. rewrite Z.eqb_refl. exact IH. }
      intros j e' J N'. apply PRE in N'; [|lia]. destruct (nth_error n j) as [e5|] eqn:N5; [|apply nth_error_None in N5; lia]. destruct (V j e5 J N5) as (e6 & N6 & X & Y & _). replace e' with e6 by congruence. rewrite X, Y.
      symmetry in PR. exact (scan_nil _ _ _ _ _ PR N5).
Qed.
Lemma taken_prog opt krn T p T' nm : okProg opt krn T p T' -> hidden (tN T) -> taken (tN T) nm -> taken (tN T') nm.
Proof. induction 1 as [|T x T1 p T2 H R IH]; intros HI K; [exact K|]. apply IH; [exact (hidden_top _ _ _ _ _ H HI)|]. exact (taken_evo _ _ _ (evo_top _ _ _ _ _ H HI) K). Qed.
(* no function is defined twice *)
Lemma defined_once opt krn p1 pub t d nm ps e q p2 pub' t' d' ps' e' q' p3 T :
  okProg opt krn tenv0 (p1 ++ PFunc pub t d nm ps e (Some q) :: p2 ++ PFunc pub' t' d' nm ps' e' (Some q') :: p3) T -> False.
Proof.
  intros H. destruct (okProg_split _ _ _ _ _ _ _ H) as (T1 & T2 & O1 & F1 & O2). destruct (okProg_split _ _ _ _ _ _ _ O2) as (T3 & T4 & O3 & F2 & _).
  pose proof (hidden_prog _ _ _ _ _ O1 ltac:(constructor)) as H1. destruct (func_takes _ _ _ _ _ _ _ _ _ _ _ F1 H1) as [_ K]. pose proof (hidden_top _ _ _ _ _ F1 H1) as H2.
  pose proof (hidden_prog _ _ _ _ _ O3 H2) as H3. pose proof (taken_prog _ _ _ _ _ _ O3 H2 K) as K2. exact (proj1 (func_takes _ _ _ _ _ _ _ _ _ _ _ F2 H3) K2).
Qed.
(* the name of a function in the table of its body *)
Lemma own_name opt krn p1 pub t d nm ps e q fi rt rd E x E' : body_of opt krn p1 (PFunc pub t d nm ps e (Some q)) fi rt rd E q x E' -> nameAt (table_of E E') fi = nm.
Proof.
  intros H. inversion H as [T pub0 t0 d0 nm0 ps0 e0 prev fi0 n2 c d2 prm q0 x0 E0 OP HD OQ]; subst pub0 t0 d0 nm0 ps0 e0 fi0 q0 E0 rt rd x E. clear H.
  pose proof (hidden_prog _ _ _ _ _ OP ltac:(constructor)) as HN. destruct (head_table _ _ _ _ _ _ _ _ _ _ _ _ _ _ _ HD) as (FI & PR & r & E2).
  destruct (start_tidy _ _ _ _ _ _ _ _ _ _ _ _ _ _ _ (tL T) HD HN) as [T0 _]. destruct (proj2 (tidy_stmt _ _) _ _ _ _ _ _ OQ T0) as [T1 G]. destruct (tidy_leave _ _ T0 G) as [_ [[z Z] _ _ _ _]].
  unfold table_of. rewrite Z. cbn [eN]. unfold nameAt, NameTable.ent. destruct (Z.ltb_spec fi 0) as [K|K]; [subst fi; unfold ntGetSize in K; lia|].
  assert (FN : (Z.to_nat fi = length (tN T))%nat) by (subst fi; unfold ntGetSize; lia). rewrite nth_error_app1.
  2:{ rewrite FN. unfold enter, ntSetScope, ntSetCnt; destruct prev; rewrite !length_upd, E2, app_length; cbn [length]; lia. }
  unfold enter, ntSetScope. rewrite nth_upd, Nat.eqb_refl.
  destruct prev as [i|]; [rewrite nth_upd|]; unfold ntSetCnt; rewrite nth_upd, Nat.eqb_refl, FN, E2, nth_error_app2, Nat.sub_diag by lia; [destruct (Nat.eqb _ _)|]; reflexivity.
Qed.
