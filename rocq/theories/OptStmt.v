(* The statement optimiser preserves runs. *)
From Coq Require Import ZArith Bool List Lia.
From Verif Require Import Word WordProofs SyTree ExprSem StmtSem OpTree OptSpec OptProofs OptProofs2 OptProofs3.
Import ListNotations.
Open Scope Z_scope.

Section P.
Variable M : machine.
Variable N : names.
Notation state := (state M).
Notation run := (run M N ltr).
Notation test := (test M N ltr).
Notation effect := (effect M N ltr).
Notation whl := (whl M N ltr).
Notation dowhl := (dowhl M N ltr).

Lemma cond_inv : forall c c', cond_ok N c = true -> optExp c = Ok c' ->
  c' <> ENull /\ bexp N c' = true /\ le (may_const c') (may_const c) /\
  forall st r, test c st = Some r -> test c' st = Some r.
Proof.
  intros c c' Hc Ho. assert (Hn : c <> ENull) by (intros ->; discriminate).
  assert (Hc2 : bexp N c = true /\ opt_safe N c = true).
  { destruct c; try discriminate Hc; apply andb_true_iff; exact Hc. }
  destruct Hc2 as [Hb Hs].
  destruct (optExp_ok M N c c' Ho Hs) as (HR & Hs' & (M1 & M2 & M3 & M4)).
  assert (Hn' : c' <> ENull).
  { unfold optExp in Ho. destruct c; try congruence; exact (arrExp_nn _ _ Ho). }
  repeat split; auto. intros st r E.
  assert (T : forall x, x <> ENull -> test x st =
     match eval M N ltr x st with Some (v, s) => Some (negb (v =? 0), s) | None => None end).
  { intros [] Hx; congruence || reflexivity. }
  rewrite T in * by auto.
  destruct (eval M N ltr c st) as [[v s]|] eqn:E1; try discriminate.
  rewrite (optExp_eval M N c c' Hs Ho st (v, s) E1). auto.
Qed.

Lemma test_cnst : forall v st b s, bexp N (Cnst v) = true ->
  test (Cnst v) st = Some (b, s) -> s = st /\ b = getBool v.
Proof.
  intros v st b s Hb H. simpl in Hb, H. inv H.
  apply orb_true_iff in Hb. rewrite !Z.eqb_eq in Hb. destruct Hb; subst; auto.
Qed.

Lemma effect_opt : forall e e' st s, opt_safe N e = true -> optExp e = Ok e' ->
  effect e st = Some s -> effect e' st = Some s.
Proof.
  intros e e' st s Hs Ho E. unfold optExp in Ho.
  destruct (expr_null_dec e) as [->|Hn].
  - inv Ho. auto.
  - assert (Ho' : optExp e = Ok e') by exact Ho.
    assert (Hn' : e' <> ENull) by (destruct e; try congruence; exact (arrExp_nn _ _ Ho)).
    assert (T : forall x, x <> ENull -> effect x st =
      match eval M N ltr x st with Some (_, s) => Some s | None => None end).
    { intros [] Hx; congruence || reflexivity. }
    rewrite T in * by auto. destruct (eval M N ltr e st) as [[v s1]|] eqn:E1; inv E.
    rewrite (optExp_eval M N e e' Hs Ho' st (v, s) E1). auto.
Qed.

(* refinement of results: anything but Stuck is kept *)
Definition rr (a b : result M) : Prop := a <> Stuck -> b = a.

Lemma rr_refl : forall a, rr a a.
Proof. unfold rr; auto. Qed.

Lemma whl_rr : forall c c' re re' body body' k st,
  (forall st r, test c st = Some r -> test c' st = Some r) ->
  (forall st r, effect re st = Some r -> effect re' st = Some r) ->
  (forall st, rr (body st) (body' st)) ->
  rr (whl c re body k st) (whl c' re' body' k st).
Proof.
  intros c c' re re' body body' k st Hc Hre Hb. revert st.
  induction k as [|k IH]; intros st; simpl; [apply rr_refl|].
  destruct (test c st) as [[b s]|] eqn:E; [|unfold rr; congruence].
  rewrite (Hc _ _ E). destruct b; [|apply rr_refl].
  intros Hn. destruct (body s) as [o s1| |] eqn:B; [|congruence|].
  - assert (B' : body' s = Done o s1) by (rewrite <- B; apply Hb; congruence).
    rewrite B'. destruct o; auto;
      (destruct (effect re s1) as [s2|] eqn:F; [|congruence]; rewrite (Hre _ _ F); apply IH; auto).
  - assert (B' : body' s = Timeout) by (rewrite <- B; apply Hb; congruence). rewrite B'; auto.
Qed.

Lemma dowhl_rr : forall c c' body body' k st,
  (forall st r, test c st = Some r -> test c' st = Some r) ->
  (forall st, rr (body st) (body' st)) ->
  rr (dowhl c body k st) (dowhl c' body' k st).
Proof.
  intros c c' body body' k st Hc Hb. revert st.
  induction k as [|k IH]; intros st; simpl; [apply rr_refl|].
  intros Hn. destruct (body st) as [o s1| |] eqn:B; [|congruence|].
  - assert (B' : body' st = Done o s1) by (rewrite <- B; apply Hb; congruence).
    rewrite B'. destruct o; auto;
      (destruct (test c s1) as [[b s2]|] eqn:E; [|congruence]; rewrite (Hc _ _ E);
       destruct b; auto; apply IH; auto).
  - assert (B' : body' st = Timeout) by (rewrite <- B; apply Hb; congruence). rewrite B'; auto.
Qed.

Lemma dowhl_true : forall c body k st,
  (forall st r, test c st = Some r -> r = (true, st)) ->
  rr (dowhl c body k st) (whl ENull ENull body k st).
Proof.
  intros c body k st Hc. revert st.
  induction k as [|k IH]; intros st; simpl; [apply rr_refl|].
  intros Hn. destruct (body st) as [o s1| |] eqn:B; auto.
  destruct o; auto;
    (destruct (test c s1) as [r|] eqn:E; [|congruence]; rewrite (Hc _ _ E) in *; apply IH; auto).
Qed.

Lemma whl_body : forall c re body body' k st,
  (forall st, rr (body st) (body' st)) ->
  rr (whl c re body k st) (whl c re body' k st).
Proof. intros. apply whl_rr; auto. Qed.

Lemma no_escape : forall s n st o s', escapes s = false -> run s n st = Done o s' ->
  o <> OBrk /\ o <> OCnt.
Proof.
  induction s as [|e|i|c b IHb|c b1 IH1 b2 IH2|c b IHb re|b IHb c| | |e|l IHl r IHr|l IHl r IHr];
    intros n st o s' He H; simpl in He; try discriminate He.
  - inv H; split; discriminate.
  - simpl in H. destruct (eval M N ltr e st) as [[v s1]|]; inv H; split; discriminate.
  - inv H; split; discriminate.
  - simpl in H. destruct (test c st) as [[[] s1]|]; try discriminate; eauto.
    inv H; split; discriminate.
  - apply orb_false_iff in He; destruct He. simpl in H.
    destruct (test c st) as [[[] s1]|]; try discriminate; eauto.
  - simpl in H. clear He. assert (G : forall k st, whl c re (run b n) k st = Done o s' -> o <> OBrk /\ o <> OCnt).
    { induction k as [|k IHk]; intros st0 G; simpl in G; [discriminate|].
      destruct (test c st0) as [[[] s1]|]; try discriminate; [|inv G; split; discriminate].
      destruct (run b n s1) as [o1 s2| |]; try discriminate.
      destruct o1; try (destruct (effect re s2); [eauto|discriminate]);
        inv G; split; discriminate. }
    eauto.
  - simpl in H. clear He. assert (G : forall k st, dowhl c (run b n) k st = Done o s' -> o <> OBrk /\ o <> OCnt).
    { induction k as [|k IHk]; intros st0 G; simpl in G; [discriminate|].
      destruct (run b n st0) as [o1 s2| |]; try discriminate.
      destruct o1; try (destruct (test c s2) as [[[] s3]|]; [eauto|inv G; split; discriminate|discriminate]);
        inv G; split; discriminate. }
    eauto.
  - simpl in H. destruct e; try (inv H; split; discriminate);
      match type of H with context [eval ?a ?b ?c ?d ?e] => destruct (eval a b c d e) as [[v s1]|] end;
      inv H; split; discriminate.
  - apply orb_false_iff in He; destruct He. simpl in H.
    destruct (run l n st) as [o1 s1| |] eqn:E; try discriminate.
    destruct o1; eauto; inv H; eauto.
  - apply orb_false_iff in He; destruct He. simpl in H.
    destruct (run l n st) as [o1 s1| |] eqn:E; try discriminate.
    destruct o1; eauto; inv H; eauto.
Qed.

Lemma copy_run : forall s n st, run (copyStmt s) n st = run s n st.
Proof. intros [] n st; reflexivity. Qed.

Ltac bnd H := apply bind_ok in H; let x := fresh "x" in let A := fresh "A" in destruct H as (x & A & H).

Lemma cnst_dec : forall e, (exists v, e = Cnst v) \/ is_cnst e = false.
Proof. intros [|[v| | | | |]| | |]; eauto. Qed.

Lemma optTree_rr : forall s s' n st, sopt_safe N s = true -> optTree s = Ok s' ->
  rr (run s (S n) st) (run s' (S n) st).
Proof.
  intros s s' n st. revert s' st.
  induction s as [|e|i|c b IHb|c b1 IH1 b2 IH2|c b IHb re|b IHb c| | |e|l IHl r IHr|l IHl r IHr];
    intros s' st Hs Ho; cbn [sopt_safe] in Hs; cbn [optTree] in Ho; try (inv Ho; apply rr_refl).
  - bnd Ho. inv Ho. cbn [StmtSem.run]. unfold rr. intros Hn.
    destruct (eval M N ltr e st) as [[v s1]|] eqn:E; [|congruence].
    rewrite (optExp_eval M N e x Hs A st _ E). auto.
  - bnd Ho. apply andb_true_iff in Hs; destruct Hs as [Hc Hb].
    destruct (cond_inv c x Hc A) as (Cn & Cb & _ & Ct).
    cbn [StmtSem.run]. intros Hn. destruct (test c st) as [[t s1]|] eqn:E; [|congruence].
    apply Ct in E. destruct (cnst_dec x) as [[v ->]|Hx].
    + destruct (test_cnst v st t s1 Cb E) as [-> ->].
      destruct (getBool v) eqn:G.
      * bnd Ho. inv Ho. rewrite copy_run. apply IHb; auto.
      * inv Ho. reflexivity.
    + assert (Ho' : x0 <- optTree b;; Ok (SIf x x0) = Ok s') by (destruct x as [|[]| | |]; try discriminate Hx; exact Ho).
      bnd Ho'. inv Ho'. cbn [StmtSem.run]. rewrite E. destruct t; auto. apply IHb; auto.
  - bnd Ho. rewrite !andb_true_iff in Hs; destruct Hs as [[Hc Hb1] Hb2].
    destruct (cond_inv c x Hc A) as (Cn & Cb & _ & Ct).
    cbn [StmtSem.run]. intros Hn. destruct (test c st) as [[t s1]|] eqn:E; [|congruence].
    apply Ct in E. destruct (cnst_dec x) as [[v ->]|Hx].
    + destruct (test_cnst v st t s1 Cb E) as [-> ->].
      destruct (getBool v) eqn:G; bnd Ho; inv Ho; rewrite copy_run; [apply IH1|apply IH2]; auto.
    + assert (Ho' : x2 <- optTree b2;; x1 <- optTree b1;; Ok (SEls x x1 x2) = Ok s')
        by (destruct x as [|[]| | |]; try discriminate Hx; exact Ho).
      bnd Ho'. bnd Ho'. inv Ho'. cbn [StmtSem.run]. rewrite E. destruct t; [apply IH1|apply IH2]; auto.
  - bnd Ho. rewrite !andb_true_iff in Hs; destruct Hs as [[Hc Hre] Hb].
    destruct (expr_null_dec c) as [->|Hnc].
    + inv A. bnd Ho. bnd Ho. inv Ho. cbn [StmtSem.run]. apply whl_rr; auto.
      intros st0 r. apply effect_opt; auto.
    + assert (Hc' : cond_ok N c = true) by (destruct c; auto; congruence).
      destruct (cond_inv c x Hc' A) as (Cn & Cb & _ & Ct).
      destruct (cnst_dec x) as [[v ->]|Hx].
      * destruct (getBool v) eqn:G.
        -- bnd Ho. bnd Ho. inv Ho. cbn [StmtSem.run]. apply whl_rr.
           ++ intros st0 [t s1] E. apply Ct in E. apply test_cnst in E; auto.
              destruct E as [-> ->]. rewrite G. reflexivity.
           ++ intros st0 r. apply effect_opt; auto.
           ++ intros; apply IHb; auto.
        -- inv Ho. cbn [StmtSem.run StmtSem.whl]. intros Hn.
           destruct (test c st) as [[t s1]|] eqn:E; [|congruence].
           apply Ct in E. destruct (test_cnst v st t s1 Cb E) as [-> ->]. rewrite G. reflexivity.
      * assert (Ho' : x0 <- optTree b;; x1 <- optExp re;; Ok (SWhl x x0 x1) = Ok s')
          by (destruct x as [|[]| | |]; try discriminate Hx; exact Ho).
        bnd Ho'. bnd Ho'. inv Ho'. cbn [StmtSem.run]. apply whl_rr; auto.
        intros st0 r. apply effect_opt; auto.
  - bnd Ho. bnd Ho. rewrite !andb_true_iff, negb_true_iff in Hs; destruct Hs as [[Hc Hb] He].
    destruct (cond_inv c x Hc A) as (Cn & Cb & Cm & Ct).
    destruct (cnst_dec x) as [[v ->]|Hx].
    + destruct (getBool v) eqn:G; inv Ho.
      * cbn [StmtSem.run].
        intros Hn.
        assert (D : whl ENull ENull (run b (S n)) (S n) st = dowhl c (run b (S n)) (S n) st).
        { apply dowhl_true; auto.
          intros st0 [t s1] E. apply Ct in E. apply test_cnst in E; auto. destruct E as [-> ->].
          rewrite G; reflexivity. }
        rewrite <- D in *. apply whl_body; auto.
      * rewrite copy_run. cbn [StmtSem.run StmtSem.dowhl]. intros Hn.
        assert (Hm : may_const c = true) by (apply Cm; reflexivity).
        rewrite Hm in He. simpl in He.
        destruct (run b (S n) st) as [o s1| |] eqn:B; [|congruence|].
        -- destruct (no_escape b (S n) st o s1 He B) as [N1 N2].
           assert (B' : run x0 (S n) st = Done o s1) by (rewrite <- B; apply IHb; auto; congruence).
           rewrite B'. destruct o; try congruence.
           destruct (test c s1) as [[t s2]|] eqn:E; [|congruence].
           apply Ct in E. apply test_cnst in E; auto. destruct E as [-> ->]. rewrite G. reflexivity.
        -- rewrite <- B. apply IHb; auto; congruence.
    + assert (Ho' : Ok (SDo x0 x) = Ok s') by (destruct x as [|[]| | |]; try discriminate Hx; exact Ho).
      inv Ho'. cbn [StmtSem.run]. apply dowhl_rr; auto.
  - bnd Ho. inv Ho. destruct (expr_null_dec e) as [->|Hn].
    + inv A. apply rr_refl.
    + assert (Hn' : x <> ENull) by (unfold optExp in A; destruct e; try congruence; exact (arrExp_nn _ _ A)).
      assert (T : forall y, y <> ENull -> run (SRet y) (S n) st =
        match eval M N ltr y st with Some (v, s1) => Done (ORet (Some v)) s1 | None => Stuck end).
      { intros [] Hy; congruence || reflexivity. }
      unfold rr. rewrite !T by auto. intros Hd.
      destruct (eval M N ltr e st) as [[v s1]|] eqn:E; [|congruence].
      rewrite (optExp_eval M N e x Hs A st _ E). auto.
  - bnd Ho. bnd Ho. inv Ho. apply andb_true_iff in Hs; destruct Hs as [Hl Hr].
    cbn [StmtSem.run]. intros Hn. destruct (run l (S n) st) as [o s1| |] eqn:E; [|congruence|].
    + assert (E' : run x (S n) st = Done o s1) by (rewrite <- E; apply IHl; auto; congruence).
      rewrite E'. destruct o; auto. apply IHr; auto.
    + assert (E' : run x (S n) st = Timeout) by (rewrite <- E; apply IHl; auto; congruence).
      rewrite E'; auto.
  - bnd Ho. bnd Ho. inv Ho. apply andb_true_iff in Hs; destruct Hs as [Hl Hr].
    cbn [StmtSem.run]. intros Hn. destruct (run l (S n) st) as [o s1| |] eqn:E; [|congruence|].
    + assert (E' : run x (S n) st = Done o s1) by (rewrite <- E; apply IHl; auto; congruence).
      rewrite E'. destruct o; auto. apply IHr; auto.
    + assert (E' : run x (S n) st = Timeout) by (rewrite <- E; apply IHl; auto; congruence).
      rewrite E'; auto.
Qed.

(* more fuel does not change a finished run *)
Lemma whl_mono : forall c re body body' k k' st, (k <= k')%nat ->
  (forall st, body st <> Timeout -> body' st = body st) ->
  whl c re body k st <> Timeout -> whl c re body' k' st = whl c re body k st.
Proof.
  intros c re body body' k. induction k as [|k IH]; intros k' st Hk Hb H; [exfalso; apply H; reflexivity|].
  destruct k' as [|k']; [lia|]. simpl in *.
  destruct (test c st) as [[[] s]|]; auto.
  destruct (body s) as [o s1| |] eqn:B.
  - rewrite Hb by (rewrite B; discriminate). rewrite B.
    destruct o; auto; (destruct (effect re s1); auto; apply IH; auto; lia).
  - rewrite Hb by (rewrite B; discriminate). rewrite B. auto.
  - congruence.
Qed.

Lemma dowhl_mono : forall c body body' k k' st, (k <= k')%nat ->
  (forall st, body st <> Timeout -> body' st = body st) ->
  dowhl c body k st <> Timeout -> dowhl c body' k' st = dowhl c body k st.
Proof.
  intros c body body' k. induction k as [|k IH]; intros k' st Hk Hb H; [exfalso; apply H; reflexivity|].
  destruct k' as [|k']; [lia|]. simpl in *.
  destruct (body st) as [o s1| |] eqn:B.
  - rewrite Hb by (rewrite B; discriminate). rewrite B.
    destruct o; auto; (destruct (test c s1) as [[[] s2]|]; auto; apply IH; auto; lia).
  - rewrite Hb by (rewrite B; discriminate). rewrite B. auto.
  - congruence.
Qed.

Lemma run_mono : forall s n n' st, (n <= n')%nat -> run s n st <> Timeout ->
  run s n' st = run s n st.
Proof.
  induction s as [|e|i|c b IHb|c b1 IH1 b2 IH2|c b IHb re|b IHb c| | |e|l IHl r IHr|l IHl r IHr];
    intros n n' st Hn H; cbn [StmtSem.run] in *; auto.
  - destruct (test c st) as [[[] s]|]; auto.
  - destruct (test c st) as [[[] s]|]; auto.
  - apply whl_mono; auto.
  - apply dowhl_mono; auto.
  - destruct (run l n st) as [o s1| |] eqn:E.
    + rewrite (IHl n n' st) by (auto; rewrite E; discriminate). rewrite E. destruct o; auto.
    + rewrite (IHl n n' st) by (auto; rewrite E; discriminate). rewrite E; auto.
    + congruence.
  - destruct (run l n st) as [o s1| |] eqn:E.
    + rewrite (IHl n n' st) by (auto; rewrite E; discriminate). rewrite E. destruct o; auto.
    + rewrite (IHl n n' st) by (auto; rewrite E; discriminate). rewrite E; auto.
    + congruence.
Qed.

Lemma optTree_diverges : forall s s' st, sopt_safe N s = true -> optTree s = Ok s' ->
  diverges M N ltr s st -> diverges M N ltr s' st.
Proof.
  intros s s' st Hs Ho H n.
  assert (E : run s' (S n) st = Timeout).
  { rewrite <- (H (S n)). apply optTree_rr; auto. rewrite (H (S n)); discriminate. }
  (* less fuel cannot help *)
  destruct (run s' n st) eqn:F; auto; exfalso;
    rewrite (run_mono s' n (S n) st) in E by (auto; rewrite F; discriminate); congruence.
Qed.

Lemma optTree_terminates : forall s s' st o st', sopt_safe N s = true -> optTree s = Ok s' ->
  terminates M N ltr s st o st' -> terminates M N ltr s' st o st'.
Proof.
  intros s s' st o st' Hs Ho [n H].
  assert (H1 : run s (S n) st = Done o st').
  { rewrite <- H. apply run_mono; auto. rewrite H; discriminate. }
  exists (S n). rewrite <- H1. apply optTree_rr; auto. rewrite H1; discriminate.
Qed.

End P.
