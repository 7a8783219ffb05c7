(* What the static properties of function bodies mean for their runs. *)
From Coq Require Import ZArith Bool Lia List.
From Verif Require Import Word SyTree ExprSem StmtSem OptSpec ProgInv.
Import ListNotations.
Open Scope Z_scope.

Section Run.
Variable M : machine.
Variable N : names.
Variable sw : op2 -> expr -> expr -> bool.
Notation run := (run M N sw).

Lemma whl_out (P : outcome -> Prop) c re body : P ONorm -> (forall st o st', body st = Done o st' -> o <> OBrk -> o <> OCnt -> P o) ->
  forall k st o st', whl M N sw c re body k st = Done o st' -> P o.
Proof.
  intros PN HB. induction k as [|k IH]; intros st o st' H; cbn [whl] in H; [discriminate H|].
  destruct (test M N sw c st) as [[[] s1]|]; [|injection H as <- <-; exact PN|discriminate H].
  destruct (body s1) as [[| | |v] s2| |] eqn:E; try discriminate H.
  - destruct (effect M N sw re s2); [exact (IH _ _ _ H)|discriminate H].
  - injection H as <- <-. exact PN.
  - destruct (effect M N sw re s2); [exact (IH _ _ _ H)|discriminate H].
  - injection H as <- <-. apply (HB _ _ _ E); discriminate.
Qed.
Lemma dowhl_out (P : outcome -> Prop) c body : P ONorm -> (forall st o st', body st = Done o st' -> o <> OBrk -> o <> OCnt -> P o) ->
  forall k st o st', dowhl M N sw c body k st = Done o st' -> P o.
Proof.
  intros PN HB. induction k as [|k IH]; intros st o st' H; cbn [dowhl] in H; [discriminate H|].
  destruct (body st) as [[| | |v] s2| |] eqn:E; try discriminate H.
  - destruct (test M N sw c s2) as [[[] s3]|]; [exact (IH _ _ _ H)|injection H as <- <-; exact PN|discriminate H].
  - injection H as <- <-. exact PN.
  - destruct (test M N sw c s2) as [[[] s3]|]; [exact (IH _ _ _ H)|injection H as <- <-; exact PN|discriminate H].
  - injection H as <- <-. apply (HB _ _ _ E); discriminate.
Qed.

(* a body without escaping break or continue ends normally or with a return *)
Lemma run_escapes s : forall n st o st', escapes s = false -> run s n st = Done o st' -> o <> OBrk /\ o <> OCnt.
Proof.
  induction s as [|e|i|c b IHb|c b1 IH1 b2 IH2|c b IHb re|b IHb c| | |e|l IHl r IHr|l IHl r IHr]; intros n st o st' He H; cbn [escapes] in He; try discriminate He; cbn [StmtSem.run] in H.
  - injection H as <- <-. split; discriminate.
  - destruct (eval _ _ _ _ _) as [[v s1]|]; [|discriminate H]. injection H as <- <-. split; discriminate.
  - injection H as <- <-. split; discriminate.
  - destruct (test M N sw c st) as [[[] s1]|]; [exact (IHb _ _ _ _ He H)|injection H as <- <-; split; discriminate|discriminate H].
  - apply orb_false_iff in He. destruct He as [H1 H2]. destruct (test M N sw c st) as [[[] s1]|]; [exact (IH1 _ _ _ _ H1 H)|exact (IH2 _ _ _ _ H2 H)|discriminate H].
  - apply (whl_out (fun o => o <> OBrk /\ o <> OCnt)) in H; [exact H|split; discriminate|auto].
  - apply (dowhl_out (fun o => o <> OBrk /\ o <> OCnt)) in H; [exact H|split; discriminate|auto].
  - destruct e; try (injection H as <- <-; split; discriminate); (destruct (eval _ _ _ _ _) as [[v s1]|]; [|discriminate H]; injection H as <- <-; split; discriminate).
  - apply orb_false_iff in He. destruct He as [H1 H2]. destruct (run l n st) as [[| | |v] s1| |] eqn:E; try discriminate H; [exact (IHr _ _ _ _ H2 H)|..]; try (exact (IHl _ _ _ _ H1 (eq_trans E H))).
  - apply orb_false_iff in He. destruct He as [H1 H2]. destruct (run l n st) as [[| | |v] s1| |] eqn:E; try discriminate H; [exact (IHr _ _ _ _ H2 H)|..]; try (exact (IHl _ _ _ _ H1 (eq_trans E H))).
Qed.
(* return statements of a body all have a value, or none has *)
Definition retAs (v : bool) (o : outcome) : Prop := match o with ORet x => x = None <-> v = true | _ => True end.
Lemma run_rets v s : forall n st o st', rets v s = true -> run s n st = Done o st' -> retAs v o.
Proof.
  induction s as [|e|i|c b IHb|c b1 IH1 b2 IH2|c b IHb re|b IHb c| | |e|l IHl r IHr|l IHl r IHr]; intros n st o st' He H; cbn [rets] in He; cbn [StmtSem.run] in H;
    try (injection H as <- <-; exact I).
  - destruct (eval _ _ _ _ _) as [[x s1]|]; [|discriminate H]. injection H as <- <-. exact I.
  - destruct (test M N sw c st) as [[[] s1]|]; [exact (IHb _ _ _ _ He H)|injection H as <- <-; exact I|discriminate H].
  - apply andb_true_iff in He. destruct He as [H1 H2]. destruct (test M N sw c st) as [[[] s1]|]; [exact (IH1 _ _ _ _ H1 H)|exact (IH2 _ _ _ _ H2 H)|discriminate H].
  - apply (whl_out (retAs v)) in H; [exact H|exact I|]. intros s1 o1 s2 E _ _. exact (IHb _ _ _ _ He E).
  - apply (dowhl_out (retAs v)) in H; [exact H|exact I|]. intros s1 o1 s2 E _ _. exact (IHb _ _ _ _ He E).
  - apply eqb_prop in He. subst v. destruct e; cbn [noE]; try (injection H as <- <-; cbn [retAs]; split; reflexivity);
      (destruct (eval _ _ _ _ _) as [[x s1]|]; [|discriminate H]; injection H as <- <-; cbn [retAs]; split; discriminate).
  - apply andb_true_iff in He. destruct He as [H1 H2]. destruct (run l n st) as [[| | |x] s1| |] eqn:E; try discriminate H; [exact (IHr _ _ _ _ H2 H)|..]; exact (IHl _ _ _ _ H1 (eq_trans E H)).
  - apply andb_true_iff in He. destruct He as [H1 H2]. destruct (run l n st) as [[| | |x] s1| |] eqn:E; try discriminate H; [exact (IHr _ _ _ _ H2 H)|..]; exact (IHl _ _ _ _ H1 (eq_trans E H)).
Qed.
(* control does not get to the end *)
Lemma run_ends s : forall n st o st', endsRet s = true -> run s n st = Done o st' -> o <> ONorm.
Proof.
  induction s as [|e|i|c b IHb|c b1 IH1 b2 IH2|c b IHb re|b IHb c| | |e|l IHl r IHr|l IHl r IHr]; intros n st o st' He H; cbn [endsRet] in He; try discriminate He; cbn [StmtSem.run] in H.
  - destruct e; try (injection H as <- <-; discriminate); (destruct (eval _ _ _ _ _) as [[x s1]|]; [|discriminate H]; injection H as <- <-; discriminate).
  - apply orb_true_iff in He. destruct (run l n st) as [[| | |x] s1| |] eqn:E; try discriminate H; try (injection H as <- <-; discriminate).
    destruct He as [He|He]; [exfalso; exact (IHl _ _ _ _ He E eq_refl)|exact (IHr _ _ _ _ He H)].
  - apply orb_true_iff in He. destruct (run l n st) as [[| | |x] s1| |] eqn:E; try discriminate H; try (injection H as <- <-; discriminate).
    destruct He as [He|He]; [exfalso; exact (IHl _ _ _ _ He E eq_refl)|exact (IHr _ _ _ _ He H)].
Qed.
Definition outOk (value : bool) (o : outcome) : Prop := if value then exists v, o = ORet (Some v) else o = ONorm \/ o = ORet None.
Lemma run_body value s n st o st' : escapes s = false -> rets (negb value) s = true -> (value = true -> endsRet s = true) -> run s n st = Done o st' -> outOk value o.
Proof.
  intros E R X H. destruct (run_escapes _ _ _ _ _ E H) as [A B]. pose proof (run_rets _ _ _ _ _ _ R H) as C. destruct value; cbn [outOk negb] in *.
  - pose proof (run_ends _ _ _ _ _ (X eq_refl) H) as D. destruct o as [| | |[v|]]; try congruence; [exists v; reflexivity|]. cbn [retAs] in C. destruct C as [C _]. discriminate (C eq_refl).
  - destruct o as [| | |v]; try congruence; [left; reflexivity|right]. cbn [retAs] in C. f_equal. apply C. reflexivity.
Qed.
End Run.
