(* Whole functions and sequences of functions. *)
From Coq Require Import ZArith Bool List Lia.
From Verif Require Import Word SyTree ExprSem StmtSem OptSpec VM VmCode VmBase GenLabels GenLabels2 GenExpr GenSim GenStmt.
Import ListNotations.
Open Scope Z_scope.

Section F.
Variable N : names.

(* without stray break and continue the enclosing loop's labels do not matter *)
Lemma genS_noescape : forall s ps n b0 c0 r code g', escapes s = false ->
  genS N s ps (Labs n b0 c0 r) = Some (code, g') ->
  brk g' = b0 /\ cnt g' = c0 /\
  forall b1 c1, genS N s ps (Labs n b1 c1 r) = Some (code, Labs (cur g') b1 c1 (ret g')).
Proof.
  induction s as [|e|i|e b IHb|e b1 IH1 b2 IH2|e b IHb re|b IHb e| | |e|l IHl r IHr|l IHl r IHr];
    intros ps n bb cc rr code g' X H; cbn [genS] in H |- *; cbn [cur brk cnt ret] in *; cbn [escapes] in X; try discriminate X.
  - injection H as <- <-. auto.
  - destruct (genX N e n) as [(c, n1)|]; [|discriminate]. injection H as <- <-. auto.
  - injection H as <- <-. auto.
  - destruct (genCnd N e false (newLabel 0) n) as [((c, lb), n1)|]; [|discriminate]. cbn [set_cur brk cnt ret] in *.
    destruct (genS N b (right_of ps) _) as [(cb, g1)|] eqn:G; [|discriminate]. injection H as <- <-.
    destruct (IHb _ _ _ _ _ _ _ X G) as (A & B & C). split; [exact A|]. split; [exact B|].
    intros b1 c1. unfold set_cur. cbn [brk cnt ret]. rewrite C. reflexivity.
  - apply orb_false_elim in X. destruct X as (X1 & X2).
    destruct (genCnd N e false (newLabel 0) n) as [((c, lb), n1)|]; [|discriminate]. unfold set_cur in *. cbn [brk cnt ret] in *.
    destruct (genS N b1 PInner _) as [(cb, g1)|] eqn:G; [|discriminate].
    destruct (IH1 _ _ _ _ _ _ _ X1 G) as (A & B & C).
    destruct g1 as [n2 b2' c2' r2]. cbn [brk cnt ret cur] in *. subst.
    set (il := if jmpBlock b1 then -1 else n2 + 1) in *.
    match type of H with (match genS N b2 _ ?G2 with _ => _ end) = _ =>
      replace G2 with (Labs (if jmpBlock b1 then n2 else n2 + 1) bb cc r2) in H by (destruct (jmpBlock b1); reflexivity) end.
    destruct (genS N b2 (right_of ps) _) as [(cb2, g3)|] eqn:G2; [|discriminate]. injection H as <- <-.
    destruct (IH2 _ _ _ _ _ _ _ X2 G2) as (A2 & B2 & C2). split; [exact A2|]. split; [exact B2|].
    intros b3 c3. rewrite C. cbn [cur brk cnt ret]. fold il.
    match goal with |- (match genS N b2 _ ?G2 with _ => _ end) = _ =>
      replace G2 with (Labs (if jmpBlock b1 then n2 else n2 + 1) b3 c3 r2) by (destruct (jmpBlock b1); reflexivity) end.
    rewrite C2. reflexivity.
  - match type of H with match ?X with _ => _ end = _ => destruct X as [((c1, bl), n1)|] eqn:HC; [|discriminate] end.
    match type of H with match ?X with _ => _ end = _ => destruct X as [(cb, g1)|] eqn:GB; [|discriminate] end.
    match type of H with match ?X with _ => _ end = _ => destruct X as [((cre, jb), n2)|] eqn:HR; [|discriminate] end.
    injection H as <- <-. cbn [brk cnt]. auto.
  - destruct (genS N b PInner _) as [(cb, g1)|]; [|discriminate].
    destruct (genCnd N e true _ _) as [((c1, lb), n1)|]; [|discriminate]. injection H as <- <-. auto.
  - match type of H with match ?X with _ => _ end = _ => destruct X as [(c1, n1)|]; [|discriminate] end.
    destruct ps; injection H as <- <-; auto.
  - apply orb_false_elim in X. destruct X as (X1 & X2).
    destruct (genS N l PInner _) as [(cl, g1)|] eqn:GL; [|discriminate].
    destruct (genS N r (right_of ps) g1) as [(cr, g2)|] eqn:GR; [|discriminate]. injection H as <- <-.
    destruct (IHl _ _ _ _ _ _ _ X1 GL) as (A & B & C). destruct g1 as [n2 b2' c2' r2]. cbn [brk cnt ret cur] in *. subst.
    destruct (IHr _ _ _ _ _ _ _ X2 GR) as (A2 & B2 & C2). split; [exact A2|]. split; [exact B2|].
    intros b1 c1. rewrite C, C2. reflexivity.
  - apply orb_false_elim in X. destruct X as (X1 & X2).
    destruct (genS N l PInner _) as [(cl, g1)|] eqn:GL; [|discriminate].
    destruct (genS N r (right_of ps) g1) as [(cr, g2)|] eqn:GR; [|discriminate]. injection H as <- <-.
    destruct (IHl _ _ _ _ _ _ _ X1 GL) as (A & B & C). destruct g1 as [n2 b2' c2' r2]. cbn [brk cnt ret cur] in *. subst.
    destruct (IHr _ _ _ _ _ _ _ X2 GR) as (A2 & B2 & C2). split; [exact A2|]. split; [exact B2|].
    intros b1 c1. rewrite C, C2. reflexivity.
Qed.

Definition entry (d : Z) (krn intr : bool) : instr :=
  if intr then IEntryI d else if krn then IEntryK d else IEntry d.
Definition ret_instr (intr : bool) : instr := if intr then IRetI else IRet.

(* shape of a function's code *)
Lemma genFunc_shape : forall s d krn intr g c g', escapes s = false -> 0 <= cur g ->
  genFunc N s d krn intr g = Some (c, g') ->
  exists body g1, genS N s PRoot (Labs (cur g) (-1) (-1) (-1)) = Some (body, g1) /\
    wfg (Labs (cur g) (-1) (-1) (-1)) /\
    c = [entry d krn intr] ++ body ++ printLab (ret g1) ++ [ret_instr intr] /\
    cur g' = cur g1 /\ ret g' = ret g1 /\ brk g' = brk g /\ cnt g' = cnt g /\
    brk g1 = -1 /\ cnt g1 = -1.
Proof.
  intros s d krn intr g c g' X P H. unfold genFunc in H.
  destruct (genS N s PRoot _) as [(body, g1)|] eqn:G; [|discriminate]. injection H as <- <-.
  destruct (genS_noescape _ _ _ _ _ _ _ _ X G) as (A & B & C).
  exists body, (Labs (cur g1) (-1) (-1) (ret g1)). split; [apply C|].
  split. { unfold wfg, sep. cbn [cur brk cnt ret]. lia. }
  cbn [cur brk cnt ret]. unfold entry, ret_instr. auto 10.
Qed.

Lemma genFunc_labels : forall s d krn intr g c g', escapes s = false -> 0 <= cur g ->
  genFunc N s d krn intr g = Some (c, g') ->
  good c (cur g) (cur g') /\ closed c.
Proof.
  intros s d krn intr g c g' X P H.
  destruct (genFunc_shape _ _ _ _ _ _ _ X P H) as (body & g1 & G & W & -> & E1 & E2 & _ & _ & E3 & E4).
  destruct (genS_labs N _ _ _ _ _ G W) as (A1 & A2 & A3 & A4 & A5 & A6). cbn [cur ret] in *.
  rewrite E1.
  assert (DE : defs [entry d krn intr] = [] /\ uses [entry d krn intr] = []) by (unfold entry; destruct intr, krn; auto).
  assert (DR : defs [ret_instr intr] = [] /\ uses [ret_instr intr] = []) by (unfold ret_instr; destruct intr; auto).
  assert (GB : good (body ++ printLab (ret g1)) (cur g) (cur g1)) by (eapply printLab_good; eauto).
  split.
  - eapply good_app; [apply good_nodefs; apply DE|].
    rewrite app_assoc. eapply good_app; [exact GB|]. apply good_nodefs; apply DR.
  - intros l U. rewrite !uses_app, (proj2 DE), printLab_uses, (proj2 DR) in U. cbn [app] in U. rewrite app_nil_r in U.
    left. rewrite !defs_app. apply in_or_app. right. apply in_or_app.
    destruct (A6 l U) as [K|(K & NZ)]; [left; exact K|right]. apply in_or_app. left.
    apply printLab_defs. rewrite E3, E4 in K. destruct K as [K|[K|[K|[]]]]; try congruence. subst l. auto.
Qed.

(* all functions of a source file, in order; the counter runs on *)
Fixpoint genFuncs (fs : list (stmt * Z * bool * bool)) (g : labs) : option (list code * labs) :=
  match fs with
  | [] => Some ([], g)
  | (s, d, krn, intr) :: fs' =>
      do (c, g1) <- genFunc N s d krn intr g;
      do (cs, g2) <- genFuncs fs' g1;
      Some (c :: cs, g2)
  end.

Lemma genFuncs_labels : forall fs g cs g', 0 <= cur g ->
  Forall (fun f => escapes (fst (fst (fst f))) = false) fs ->
  genFuncs fs g = Some (cs, g') ->
  good (concat cs) (cur g) (cur g') /\ Forall closed cs.
Proof.
  induction fs as [|(((s, d), krn), intr) fs IH]; intros g cs g' P F H; cbn [genFuncs] in H.
  - injection H as <- <-. split; [apply good_nil|constructor].
  - inversion F as [|? ? F1 F2]; subst. cbn [fst] in F1.
    destruct (genFunc N s d krn intr g) as [(c, g1)|] eqn:G; [|discriminate].
    destruct (genFuncs fs g1) as [(cs', g2)|] eqn:GS; [|discriminate]. injection H as <- <-.
    destruct (genFunc_labels _ _ _ _ _ _ _ F1 P G) as (A & B).
    assert (P1 : 0 <= cur g1) by (destruct A; lia).
    destruct (IH _ _ _ P1 F2 GS) as (A2 & B2).
    split; [|constructor; assumption]. cbn [concat]. eapply good_app; eauto.
Qed.
End F.

Section Run.
Variable M : machine.
Variable N : names.
Notation run := (run M N cg_order).

(* without stray break and continue a statement does not end that way *)
Lemma noescape_out : forall s n m o m', escapes s = false -> run s n m = Done o m' -> o = ONorm \/ exists v, o = ORet v.
Proof.
  induction s as [|e|i|e b IHb|e b1 IH1 b2 IH2|e b IHb re|b IHb e| | |e|l IHl r IHr|l IHl r IHr];
    intros n m o m' X H; cbn [escapes] in X; cbn [StmtSem.run] in H; try discriminate X.
  - injection H as <- <-; auto.
  - destruct (eval _ _ _ _ _) as [(?, ?)|]; [|discriminate]. injection H as <- <-; auto.
  - injection H as <- <-; auto.
  - destruct (test _ _ _ _ _) as [([|], s1)|]; [exact (IHb _ _ _ _ X H)| |discriminate]. injection H as <- <-; auto.
  - apply orb_false_elim in X. destruct X as (X1 & X2).
    destruct (test _ _ _ _ _) as [([|], s1)|]; [exact (IH1 _ _ _ _ X1 H)|exact (IH2 _ _ _ _ X2 H)|discriminate].
  - clear X IHb. revert m H. generalize n at 2. induction n0 as [|k IHk]; intros m H; cbn [whl] in H; [discriminate|].
    destruct (test _ _ _ _ _) as [([|], s1)|]; [| |discriminate].
    + destruct (run b n s1) as [[| | |v] s2| |]; try discriminate.
      * destruct (effect _ _ _ _ _); [|discriminate]. exact (IHk _ H).
      * injection H as <- <-; auto.
      * destruct (effect _ _ _ _ _); [|discriminate]. exact (IHk _ H).
      * injection H as <- <-; eauto.
    + injection H as <- <-; auto.
  - clear X IHb. revert m H. generalize n at 2. induction n0 as [|k IHk]; intros m H; cbn [dowhl] in H; [discriminate|].
    destruct (run b n m) as [[| | |v] s2| |]; try discriminate.
    + destruct (test _ _ _ _ _) as [([|], s1)|]; [exact (IHk _ H)| |discriminate]. injection H as <- <-; auto.
    + injection H as <- <-; auto.
    + destruct (test _ _ _ _ _) as [([|], s1)|]; [exact (IHk _ H)| |discriminate]. injection H as <- <-; auto.
    + injection H as <- <-; eauto.
  - destruct e; try (destruct (eval _ _ _ _ _) as [(?, ?)|]; [|discriminate]); injection H as <- <-; eauto.
  - apply orb_false_elim in X. destruct X as (X1 & X2).
    destruct (run l n m) as [[| | |v] s1| |] eqn:R; try discriminate.
    + exact (IHr _ _ _ _ X2 H).
    + destruct (IHl _ _ _ _ X1 R) as [Y|(v & Y)]; discriminate.
    + destruct (IHl _ _ _ _ X1 R) as [Y|(w & Y)]; discriminate.
    + injection H as <- <-; eauto.
  - apply orb_false_elim in X. destruct X as (X1 & X2).
    destruct (run l n m) as [[| | |v] s1| |] eqn:R; try discriminate.
    + exact (IHr _ _ _ _ X2 H).
    + destruct (IHl _ _ _ _ X1 R) as [Y|(v & Y)]; discriminate.
    + destruct (IHl _ _ _ _ X1 R) as [Y|(w & Y)]; discriminate.
    + injection H as <- <-; eauto.
Qed.

(* the result register after a function that ends with outcome o *)
Definition ret_reg (o : outcome) (r : option Z) : option Z :=
  match o with ORet (Some v) => Some v | _ => r end.

Lemma func_sim : forall p s d krn intr g c g' k stk a r m n,
  NoDup (defs p) -> (forall l, In l (uses p) -> In l (defs p)) ->
  escapes s = false -> 0 <= cur g -> genFunc N s d krn intr g = Some (c, g') -> code_at p k c ->
  match run s n m with
  | Done o m' => exists k', reaches M p (Cfg k stk a r m) (Cfg k' stk a (ret_reg o r) m') /\
                            nth_error p k' = Some (ret_instr intr)
  | Stuck => True
  | Timeout => can M p n (Cfg k stk a r m)
  end.
Proof.
  intros p s d krn intr g c g' k stk a r m n ND CL X P H C.
  destruct (genFunc_shape _ _ _ _ _ _ _ _ X P H) as (body & g1 & G & W & -> & _).
  assert (C0 := code_at_l _ _ _ _ C). assert (C1 := code_at_r _ _ _ _ C). rewrite len1 in C1.
  assert (C2 := code_at_r _ _ _ _ C1). assert (C3 := code_at_r _ _ _ _ C2).
  assert (E : step M p (Cfg k stk a r m) = Some (Cfg (S k) stk a r m)).
  { unfold step. rewrite (code_at_hd _ _ _ _ C0). unfold entry. destruct intr, krn; reflexivity. }
  assert (F := stmt_sim M N p ND CL s _ _ _ _ _ stk a r m n G W (code_at_l _ _ _ _ C1)).
  assert (FIN : forall rr m', reaches M p (Cfg k stk a r m) (Cfg (S k + length body) stk a rr m') ->
     exists k', reaches M p (Cfg k stk a r m) (Cfg k' stk a rr m') /\ nth_error p k' = Some (ret_instr intr)).
  { intros rr m' R. eexists. split; [exact (reaches_trans _ _ _ _ _ R (printLab_sim M p _ _ _ _ _ _ (code_at_l _ _ _ _ C2)))|].
    exact (code_at_hd _ _ _ _ C3). }
  destruct (run s n m) as [o m'| |] eqn:R; [|exact I|].
  - destruct (noescape_out _ _ _ _ _ X R) as [-> |(v & ->)]; cbn [fin] in F.
    + apply FIN. exact (reaches_step _ _ _ _ _ E F).
    + destruct F as (k' & F & [(_ & ->)|(NZ & FF)]).
      * apply FIN. refine (reaches_step _ _ _ _ _ E _). destruct v; exact F.
      * apply FIN. refine (reaches_step _ _ _ _ _ E _).
        rewrite (printLab_find p ND _ _ (code_at_l _ _ _ _ C2) NZ) in FF. injection FF as <-. destruct v; exact F.
  - cbn [fin] in F. exact (can_pre M p n _ _ (reaches_one M p _ _ E) F).
Qed.

(* conversely: when the machine stops at RET, the statement has ended (unless it
   was undefined) in that state *)
Lemma func_sim_conv : forall p s d krn intr g c g' k stk a r m n c1,
  NoDup (defs p) -> (forall l, In l (uses p) -> In l (defs p)) ->
  escapes s = false -> 0 <= cur g -> genFunc N s d krn intr g = Some (c, g') -> code_at p k c ->
  steps M p n (Cfg k stk a r m) c1 -> step M p c1 = None ->
  run s (S n) m = Stuck \/
  exists o m', run s (S n) m = Done o m' /\ stk = VM.stk c1 /\ mem c1 = m' /\ reg c1 = ret_reg o r /\
    nth_error p (pc c1) = Some (ret_instr intr).
Proof.
  intros p s d krn intr g c g' k stk a r m n c1 ND CL X P H C S1 S2.
  assert (F := func_sim p s d krn intr g c g' k stk a r m (S n) ND CL X P H C).
  assert (HALT : forall j c2, steps M p (n + j) (Cfg k stk a r m) c2 -> j = O /\ c2 = c1).
  { intros j c2 K.
    assert (Q : forall i x y z, steps M p (i + j) x y -> steps M p i x z -> step M p z = None -> j = O /\ y = z).
    { induction i as [|i IH]; cbn [steps Nat.add]; intros x y z A B D.
      - subst x. destruct j; cbn [steps] in A; [auto|]. destruct A as (w & A & _). congruence.
      - destruct A as (w & A & A'). destruct B as (w' & B & B'). rewrite A in B. injection B as <-. exact (IH _ _ _ A' B' D). }
    exact (Q _ _ _ _ K S1 S2). }
  destruct (run s (S n) m) as [o m'| |] eqn:R; [right|left; reflexivity|].
  - exists o, m'. destruct F as (k' & (j & F) & RI).
    assert (HF : step M p (Cfg k' stk a (ret_reg o r) m') = None).
    { unfold step. rewrite RI. unfold ret_instr. destruct intr; reflexivity. }
    assert (c1 = Cfg k' stk a (ret_reg o r) m').
    { destruct (Nat.le_ge_cases n j) as [L|L].
      - replace j with (n + (j - n))%nat in F by lia. destruct (HALT _ _ F) as (_ & Y). congruence.
      - assert (Q : forall i t x y z, steps M p i x y -> step M p y = None -> steps M p (i + t) x z -> z = y).
        { induction i as [|i IH]; cbn [steps Nat.add]; intros t x y z A D B.
          - subst x. destruct t; cbn [steps] in B; [auto|]. destruct B as (w & B & _). congruence.
          - destruct A as (w & A & A'). destruct B as (w' & B & B'). rewrite A in B. injection B as <-. exact (IH _ _ _ _ A' D B'). }
        apply (Q j (n - j)%nat _ _ _ F HF). replace (j + (n - j))%nat with n by lia. exact S1. }
    subst c1. cbn [VM.stk mem reg pc]. auto.
  - exfalso. destruct F as (c2 & F). replace (S n) with (n + 1)%nat in F by lia.
    destruct (HALT _ _ F) as (Y & _). discriminate.
Qed.
End Run.
