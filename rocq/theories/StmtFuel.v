(* Runs of statements (StmtSem.v), in any order of evaluation: more fuel does not change a
   finished run; what break and continue do in a loop. *)
From Coq Require Import ZArith Bool Lia List.
From Verif Require Import Word SyTree ExprSem StmtSem.
Import ListNotations.
Open Scope Z_scope.

Section P.
Variable M : machine.
Variable N : names.
Variable sw : op2 -> expr -> expr -> bool.
Notation run := (run M N sw).
Notation whl := (whl M N sw).
Notation dowhl := (dowhl M N sw).
Notation test := (test M N sw).
Notation effect := (effect M N sw).
Notation terminates := (terminates M N sw).

Lemma whl_more : forall c re body body' k k' st, (k <= k')%nat ->
  (forall st, body st <> Timeout -> body' st = body st) ->
  whl c re body k st <> Timeout -> whl c re body' k' st = whl c re body k st.
Proof.
  intros c re body body' k. induction k as [|k IH]; intros k' st Hk Hb H; [exfalso; apply H; reflexivity|].
  destruct k' as [|k']; [lia|]. simpl in *.
  destruct (test c st) as [[[] s]|]; auto.
  destruct (body s) as [o s1| |] eqn:B.
  - rewrite Hb by (rewrite B; discriminate). rewrite B.
    destruct o; auto; (destruct (effect re s1); auto; apply IH; auto; lia).
  - rewrite Hb by (rewrite B; discriminate). rewrite B. auto.
  - congruence.
Qed.
Lemma dowhl_more : forall c body body' k k' st, (k <= k')%nat ->
  (forall st, body st <> Timeout -> body' st = body st) ->
  dowhl c body k st <> Timeout -> dowhl c body' k' st = dowhl c body k st.
Proof.
  intros c body body' k. induction k as [|k IH]; intros k' st Hk Hb H; [exfalso; apply H; reflexivity|].
  destruct k' as [|k']; [lia|]. simpl in *.
  destruct (body st) as [o s1| |] eqn:B.
  - rewrite Hb by (rewrite B; discriminate). rewrite B.
    destruct o; auto; (destruct (test c s1) as [[[] s2]|]; auto; apply IH; auto; lia).
  - rewrite Hb by (rewrite B; discriminate). rewrite B. auto.
  - congruence.
Qed.
Lemma run_more : forall s n n' st, (n <= n')%nat -> run s n st <> Timeout -> run s n' st = run s n st.
Proof.
  induction s as [|e|i|c b IHb|c b1 IH1 b2 IH2|c b IHb re|b IHb c| | |e|l IHl r IHr|l IHl r IHr];
    intros n n' st Hn H; cbn [StmtSem.run] in *; auto.
  - destruct (test c st) as [[[] s]|]; auto.
  - destruct (test c st) as [[[] s]|]; auto.
  - apply whl_more; auto.
  - apply dowhl_more; auto.
  - destruct (run l n st) as [o s1| |] eqn:E.
    + rewrite (IHl n n' st) by (auto; rewrite E; discriminate). rewrite E. destruct o; auto.
    + rewrite (IHl n n' st) by (auto; rewrite E; discriminate). rewrite E; auto.
    + congruence.
  - destruct (run l n st) as [o s1| |] eqn:E.
    + rewrite (IHl n n' st) by (auto; rewrite E; discriminate). rewrite E. destruct o; auto.
    + rewrite (IHl n n' st) by (auto; rewrite E; discriminate). rewrite E; auto.
    + congruence.
Qed.
Lemma run_done s n n' st o st' : run s n st = Done o st' -> (n <= n')%nat -> run s n' st = Done o st'.
Proof. intros H L. rewrite (run_more s n n' st L); [exact H|rewrite H; discriminate]. Qed.

(* a loop whose body ends in each possible way, in one round *)
Lemma while_break c b re st s1 s2 : test c st = Some (true, s1) -> terminates b s1 OBrk s2 -> terminates (SWhl c b re) st ONorm s2.
Proof. intros T [n B]. exists (S n). cbn [StmtSem.run StmtSem.whl]. rewrite T, (run_done _ _ _ _ _ _ B (Nat.le_succ_diag_r n)). reflexivity. Qed.
Lemma while_round c b re st s1 s2 s3 o s4 : test c st = Some (true, s1) -> terminates b s1 ONorm s2 \/ terminates b s1 OCnt s2 -> effect re s2 = Some s3 ->
  terminates (SWhl c b re) s3 o s4 -> terminates (SWhl c b re) st o s4.
Proof.
  intros T B E [n' W].
  assert (exists n, run b n s1 = Done ONorm s2 \/ run b n s1 = Done OCnt s2) as [n B'] by (destruct B as [[n B]|[n B]]; eauto).
  exists (S (n + n')). cbn [StmtSem.run StmtSem.whl] in *. rewrite T.
  assert (whl c re (run b (S (n + n'))) (n + n') s3 = Done o s4) as R.
  { rewrite <- W. apply whl_more; [lia| |rewrite W; discriminate]. intros st0 H. apply run_more; [lia|exact H]. }
  destruct B' as [B'|B']; rewrite (run_done b n (S (n + n')) s1 _ _ B') by lia; rewrite E; exact R.
Qed.
Lemma do_break c b st s1 : terminates b st OBrk s1 -> terminates (SDo b c) st ONorm s1.
Proof. intros [n B]. exists (S n). cbn [StmtSem.run StmtSem.dowhl]. rewrite (run_done _ _ _ _ _ _ B (Nat.le_succ_diag_r n)). reflexivity. Qed.
Lemma do_last c b st s1 s2 : terminates b st ONorm s1 \/ terminates b st OCnt s1 -> test c s1 = Some (false, s2) -> terminates (SDo b c) st ONorm s2.
Proof.
  intros B T. destruct B as [[n B]|[n B]]; exists (S n); cbn [StmtSem.run StmtSem.dowhl]; rewrite (run_done _ _ _ _ _ _ B (Nat.le_succ_diag_r n)), T; reflexivity.
Qed.
Lemma do_round c b st s1 s2 o s3 : terminates b st ONorm s1 \/ terminates b st OCnt s1 -> test c s1 = Some (true, s2) -> terminates (SDo b c) s2 o s3 ->
  terminates (SDo b c) st o s3.
Proof.
  intros B T [n' W]. assert (exists n, run b n st = Done ONorm s1 \/ run b n st = Done OCnt s1) as [n B'] by (destruct B as [[n B]|[n B]]; eauto).
  exists (S (n + n')). cbn [StmtSem.run StmtSem.dowhl] in *.
  assert (dowhl c (run b (S (n + n'))) (n + n') s2 = Done o s3) as R.
  { rewrite <- W. apply dowhl_more; [lia| |rewrite W; discriminate]. intros st0 H. apply run_more; [lia|exact H]. }
  destruct B' as [B'|B']; rewrite (run_done b n (S (n + n')) st _ _ B') by lia; rewrite T; exact R.
Qed.
End P.
