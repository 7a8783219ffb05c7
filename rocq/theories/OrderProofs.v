(* The evaluation-order policy does not matter for order_safe expressions. *)
From Coq Require Import ZArith Bool List Lia.
From Verif Require Import Word SyTree ExprSem StmtSem OptSpec OrderSpec GenExpr.
Import ListNotations.
Open Scope Z_scope.

Section Order.
Variable M : machine.
Variable N : names.

Ltac bt H := repeat match type of H with
  | (match ?X with _ => _ end) = Some _ => destruct X eqn:?; try discriminate
  | (if ?X then _ else _) = Some _ => destruct X eqn:?; try discriminate
  | (let (_, _) := ?X in _) = Some _ => destruct X eqn:?; try discriminate
  end.

Lemma one_inv : forall x v s, one M x = Some (v, s) -> x = Some ([v], s).
Proof. intros [([|y [|z t]], s0)|] v s H; try discriminate. simpl in H. congruence. Qed.
Lemma ret1_inv : forall o s vs s', ret1 M o s = Some (vs, s') -> s' = s.
Proof. intros o s vs s' H. unfold ret1 in H. destruct o; congruence. Qed.

(* an expression without calls and assignments changes nothing *)
Lemma effect_free_state : forall sw e m vs m', has_effect e = false ->
  ev M N sw e m = Some (vs, m') -> m' = m.
Proof.
  intros sw e. induction e as [|k|o a IH|o l IHl r IHr|f a IH]; intros m vs m' H E.
  - discriminate.
  - cbn [ev] in E. exact (ret1_inv _ _ _ _ E).
  - cbn [ev] in E. cbn [has_effect] in H.
    destruct (one M (ev M N sw a m)) as [(v, s)|] eqn:O; [|discriminate]. apply one_inv in O.
    injection E as <- <-. exact (IH _ _ _ H O).
  - assert (HH : o <> ASS /\ has_effect l = false /\ has_effect r = false).
    { destruct o; try discriminate H; (split; [discriminate|]); cbn [has_effect] in H; apply orb_false_elim in H; exact H. }
    destruct HH as (NA & Hl & Hr).
    assert (OL : forall m0 v s, one M (ev M N sw l m0) = Some (v, s) -> s = m0)
      by (intros m0 v s X; apply one_inv in X; exact (IHl _ _ _ Hl X)).
    assert (OR : forall m0 v s, one M (ev M N sw r m0) = Some (v, s) -> s = m0)
      by (intros m0 v s X; apply one_inv in X; exact (IHr _ _ _ Hr X)).
    destruct o; try contradiction; cbn [ev] in E; bt E;
      repeat match goal with
      | X : one M (ev M N sw l _) = Some _ |- _ => apply OL in X; subst
      | X : one M (ev M N sw r _) = Some _ |- _ => apply OR in X; subst
      | X : ret1 M _ _ = Some _ |- _ => apply ret1_inv in X; subst
      | X : Some _ = Some _ |- _ => injection X as ? ?; subst
      | X : ev M N sw l _ = Some _ |- _ => apply (IHl _ _ _ Hl) in X; subst
      end; reflexivity.
  - discriminate.
Qed.

(* a fixed expression has the same value in every state *)
Lemma fixed_value : forall sw e, fixed e = true ->
  exists r, forall m, ev M N sw e m = match r with Some v => Some ([v], m) | None => None end.
Proof.
  intros sw e. induction e as [|k|o a IH|o l IHl r IHr|f a IH]; intros H; try discriminate.
  - destruct k; try discriminate; eexists (Some _); intro m; reflexivity.
  - destruct (IH H) as ([v|] & E).
    + exists (Some (op1_val o v)). intro m. cbn [ev]. rewrite E. reflexivity.
    + exists None. intro m. cbn [ev]. rewrite E. reflexivity.
  - assert (HH : fixed l = true /\ fixed r = true)
      by (destruct o; try discriminate H; cbn [fixed] in H; apply andb_prop; exact H).
    destruct HH as (Hl & Hr). destruct (IHl Hl) as (vl & El), (IHr Hr) as (vr & Er).
    destruct o; try discriminate H; clear H IHl IHr Hl Hr;
    destruct vl as [a|], vr as [b|];
    try (exists None; intro m; cbn [ev]; rewrite ?El, ?Er; cbn [one];
         try destruct (either_order _ && _); rewrite ?El, ?Er; reflexivity);
    try (eexists (op2_val _ a b); intro m; cbn [ev];
         match goal with |- context [if ?B then _ else _] => destruct B end;
         rewrite ?El, ?Er; cbn [one]; rewrite ?El, ?Er; cbn [one]; unfold ret1; reflexivity).
    + exists (Some b). intro m. cbn [ev]. rewrite El. cbn [one]. rewrite Er. reflexivity.
    + destruct (a =? 0) eqn:A.
      * exists (Some b). intro m. cbn [ev]. rewrite El. cbn [one]. rewrite A, Er. reflexivity.
      * exists (Some 1). intro m. cbn [ev]. rewrite El. cbn [one]. rewrite A. reflexivity.
    + destruct (a =? 0) eqn:A.
      * exists None. intro m. cbn [ev]. rewrite El. cbn [one]. rewrite A, Er. reflexivity.
      * exists (Some 1). intro m. cbn [ev]. rewrite El. cbn [one]. rewrite A. reflexivity.
    + destruct (a =? 0) eqn:A.
      * exists (Some 0). intro m. cbn [ev]. rewrite El. cbn [one]. rewrite A. reflexivity.
      * exists (Some b). intro m. cbn [ev]. rewrite El. cbn [one]. rewrite A, Er. reflexivity.
    + destruct (a =? 0) eqn:A.
      * exists (Some 0). intro m. cbn [ev]. rewrite El. cbn [one]. rewrite A. reflexivity.
      * exists None. intro m. cbn [ev]. rewrite El. cbn [one]. rewrite A, Er. reflexivity.
Qed.

(* evaluating left operand first or right operand first *)
Definition lfirst sw (o : op2) l r m :=
  match one M (ev M N sw l m) with
  | Some (a, s) => match one M (ev M N sw r s) with
                   | Some (b, s') => ret1 M (op2_val o a b) s' | None => None end
  | None => None end.
Definition rfirst sw (o : op2) l r m :=
  match one M (ev M N sw r m) with
  | Some (b, s) => match one M (ev M N sw l s) with
                   | Some (a, s') => ret1 M (op2_val o a b) s' | None => None end
  | None => None end.

Lemma ev_either : forall sw o l r m, either_order o = true ->
  ev M N sw (E2 o l r) m = if sw o l r then rfirst sw o l r m else lfirst sw o l r m.
Proof.
  intros sw o l r m H. destruct o; try discriminate; cbn [ev either_order andb]; unfold lfirst, rfirst;
    destruct (sw _ l r); reflexivity.
Qed.

Lemma swap_ok : forall sw o l r m,
  negb (has_effect l || has_effect r) || fixed l || fixed r = true ->
  lfirst sw o l r m = rfirst sw o l r m.
Proof.
  intros sw o l r m H. unfold lfirst, rfirst.
  apply orb_prop in H. destruct H as [H|H]; [apply orb_prop in H; destruct H as [H|H]|].
  - apply negb_true_iff, orb_false_elim in H. destruct H as (Hl & Hr).
    destruct (one M (ev M N sw l m)) as [(a, s)|] eqn:L.
    + apply one_inv in L. pose proof (effect_free_state _ _ _ _ _ Hl L) as ->.
      destruct (one M (ev M N sw r m)) as [(b, s)|] eqn:R; [|reflexivity].
      apply one_inv in R. pose proof (effect_free_state _ _ _ _ _ Hr R) as ->.
      rewrite L. reflexivity.
    + destruct (one M (ev M N sw r m)) as [(b, s)|] eqn:R; [|reflexivity].
      apply one_inv in R. pose proof (effect_free_state _ _ _ _ _ Hr R) as ->. rewrite L. reflexivity.
  - destruct (fixed_value sw l H) as ([a|] & E); rewrite E; cbn [one].
    + destruct (one M (ev M N sw r m)) as [(b, s)|]; [|reflexivity]. rewrite E. reflexivity.
    + destruct (one M (ev M N sw r m)) as [(b, s)|]; [|reflexivity]. rewrite E. reflexivity.
  - destruct (fixed_value sw r H) as ([b|] & E).
    + rewrite E. cbn [one]. destruct (one M (ev M N sw l m)) as [(a, s)|]; [|reflexivity]. rewrite E. reflexivity.
    + rewrite E. cbn [one]. destruct (one M (ev M N sw l m)) as [(a, s)|]; [|reflexivity]. rewrite E. reflexivity.
Qed.

Lemma ev_other : forall sw1 sw2 o l r m, either_order o = false ->
  (forall m, ev M N sw1 l m = ev M N sw2 l m) -> (forall m, ev M N sw1 r m = ev M N sw2 r m) ->
  (forall x y, l = E2 x y (match l with E2 _ _ z => z | _ => ENull end) -> forall m, ev M N sw1 y m = ev M N sw2 y m) ->
  (forall x z, l = E2 x (match l with E2 _ y _ => y | _ => ENull end) z -> forall m, ev M N sw1 z m = ev M N sw2 z m) ->
  ev M N sw1 (E2 o l r) m = ev M N sw2 (E2 o l r) m.
Proof.
  intros sw1 sw2 o l r m EO Hl Hr H1 H2.
  assert (OL : forall m0, one M (ev M N sw1 l m0) = one M (ev M N sw2 l m0)) by (intro; rewrite Hl; reflexivity).
  assert (OR : forall m0, one M (ev M N sw1 r m0) = one M (ev M N sw2 r m0)) by (intro; rewrite Hr; reflexivity).
  assert (TWO : forall (F : Z -> state M -> Z -> state M -> option (list Z * state M)),
    match one M (ev M N sw1 l m) with Some (a, s) => match one M (ev M N sw1 r s) with Some (b, s') => F a s b s' | None => None end | None => None end =
    match one M (ev M N sw2 l m) with Some (a, s) => match one M (ev M N sw2 r s) with Some (b, s') => F a s b s' | None => None end | None => None end).
  { intro F. rewrite OL. destruct (one M (ev M N sw2 l m)) as [(a, s)|]; [|reflexivity]. rewrite OR. reflexivity. }
  destruct o; try discriminate EO; try (exact (TWO (fun a s b s' => ret1 M (op2_val _ a b) s'))).
  - cbn [ev]. destruct r as [|[] | | |]; try (rewrite OL; reflexivity); reflexivity.
  - exact (TWO (fun a s b s' => ret1 M (Some (w16 (ldw M (gs s') a b))) s')).
  - exact (TWO (fun a s b s' => ret1 M (Some (w16 (ldw M (gs s') a b))) s')).
  - exact (TWO (fun a s b s' => ret1 M (Some (w_chr (ldb M (gs s') a b))) s')).
  - exact (TWO (fun a s b s' => ret1 M (chk true (w_chr (ldb M (gs s') a b))) s')).
  - cbn [ev]. rewrite OR. destruct (one M (ev M N sw2 r m)) as [(v, s)|]; [|reflexivity].
    destruct l as [|[] | |x y z|]; try reflexivity.
    assert (Y : forall m0, one M (ev M N sw1 y m0) = one M (ev M N sw2 y m0)) by (intro; rewrite (H1 x y eq_refl); reflexivity).
    assert (Z : forall m0, one M (ev M N sw1 z m0) = one M (ev M N sw2 z m0)) by (intro; rewrite (H2 x z eq_refl); reflexivity).
    rewrite Y. destruct (one M (ev M N sw2 y s)) as [(a, s1)|];
      [rewrite Z; destruct (one M (ev M N sw2 z s1)) as [(b, s2)|]|]; destruct x; reflexivity.
  - cbn [ev]. rewrite OL. destruct (one M (ev M N sw2 l m)) as [(v, s)|]; [|reflexivity]. rewrite OR. reflexivity.
  - cbn [ev]. rewrite OL. destruct (one M (ev M N sw2 l m)) as [(v, s)|]; [|reflexivity]. rewrite OR. reflexivity.
  - cbn [ev]. rewrite OL. destruct (one M (ev M N sw2 l m)) as [(v, s)|]; [|reflexivity]. rewrite OR. reflexivity.
  - cbn [ev]. rewrite OR. destruct (one M (ev M N sw2 r m)) as [(v, s)|]; [|reflexivity]. rewrite Hl. reflexivity.
Qed.

Definition agree sw1 sw2 e := forall m, ev M N sw1 e m = ev M N sw2 e m.
Definition agree_sub sw1 sw2 e := match e with E2 _ y z => agree sw1 sw2 y /\ agree sw1 sw2 z | _ => True end.

Lemma order_free : forall sw1 sw2 e, order_safe e = true -> agree sw1 sw2 e /\ agree_sub sw1 sw2 e.
Proof.
  intros sw1 sw2 e. induction e as [|k|o a IH|o l IHl r IHr|f a IH]; intros H.
  - split; [intro; reflexivity|exact I].
  - split; [intro; reflexivity|exact I].
  - split; [|exact I]. intro m. cbn [ev]. rewrite (proj1 (IH H)). reflexivity.
  - cbn [order_safe] in H. apply andb_prop in H. destruct H as (H & Hr). apply andb_prop in H. destruct H as (Ho & Hl).
    destruct (IHl Hl) as (Al & Sl). destruct (IHr Hr) as (Ar & _).
    split; [|split; assumption]. intro m. unfold operands_ok in Ho.
    destruct (either_order o) eqn:EO.
    + rewrite !(ev_either _ o l r m EO).
      assert (LL : lfirst sw1 o l r m = lfirst sw2 o l r m).
      { unfold lfirst. rewrite Al. destruct (one M (ev M N sw2 l m)) as [(x, s)|]; [|reflexivity]. rewrite Ar. reflexivity. }
      assert (S1 := swap_ok sw1 o l r m Ho). assert (S2 := swap_ok sw2 o l r m Ho).
      destruct (sw1 o l r), (sw2 o l r); congruence.
    + apply ev_other; [exact EO|exact Al|exact Ar| |].
      * intros x y E. rewrite E in Sl. exact (proj1 Sl).
      * intros x z E. rewrite E in Sl. exact (proj2 Sl).
  - split; [|exact I]. intro m. cbn [ev]. destruct (IH H) as (A & _). destruct a; [reflexivity| | | |]; rewrite A; reflexivity.
Qed.

Lemma eval_order_free : forall sw1 sw2 e m, order_safe e = true -> eval M N sw1 e m = eval M N sw2 e m.
Proof. intros. unfold eval. rewrite (proj1 (order_free sw1 sw2 e H)). reflexivity. Qed.

Lemma effect_free_safe : forall e, has_effect e = false -> order_safe e = true.
Proof.
  induction e as [|k|o a IH|o l IHl r IHr|f a IH]; intro H; try reflexivity.
  - exact (IH H).
  - assert (HH : o <> ASS /\ has_effect l = false /\ has_effect r = false).
    { destruct o; try discriminate H; (split; [discriminate|]); cbn [has_effect] in H; apply orb_false_elim in H; exact H. }
    destruct HH as (_ & Hl & Hr). cbn [order_safe]. rewrite (IHl Hl), (IHr Hr). unfold operands_ok.
    rewrite Hl, Hr. destruct (either_order o); reflexivity.
  - discriminate.
Qed.

Lemma run_order_free : forall sw1 sw2 s n m, sorder_safe s = true -> run M N sw1 s n m = run M N sw2 s n m.
Proof.
  intros sw1 sw2.
  assert (T : forall e m, order_safe e = true -> test M N sw1 e m = test M N sw2 e m).
  { intros e m H. unfold test. destruct e; [reflexivity| | | |]; rewrite (eval_order_free sw1 sw2 _ m H); reflexivity. }
  assert (F : forall e m, order_safe e = true -> effect M N sw1 e m = effect M N sw2 e m).
  { intros e m H. unfold effect. destruct e; [reflexivity| | | |]; rewrite (eval_order_free sw1 sw2 _ m H); reflexivity. }
  induction s as [|e|i|e b IHb|e b1 IH1 b2 IH2|e b IHb re|b IHb e| | |e|l IHl r IHr|l IHl r IHr];
    intros n m H; cbn [sorder_safe] in H; cbn [run]; try reflexivity.
  - rewrite (eval_order_free sw1 sw2 e m H). reflexivity.
  - apply andb_prop in H. destruct H as (H1 & H2). rewrite (T _ _ H1).
    destruct (test M N sw2 e m) as [([|], s)|]; [apply IHb; exact H2|reflexivity|reflexivity].
  - apply andb_prop in H. destruct H as (H & H3). apply andb_prop in H. destruct H as (H1 & H2). rewrite (T _ _ H1).
    destruct (test M N sw2 e m) as [([|], s)|]; [apply IH1; exact H2|apply IH2; exact H3|reflexivity].
  - apply andb_prop in H. destruct H as (H & H3). apply andb_prop in H. destruct H as (H1 & H2).
    assert (G : forall k m, whl M N sw1 e re (run M N sw1 b n) k m = whl M N sw2 e re (run M N sw2 b n) k m).
    { induction k as [|k IHk]; intro m0; [reflexivity|]. cbn [whl]. rewrite (T _ _ H1).
      destruct (test M N sw2 e m0) as [([|], s)|]; try reflexivity. rewrite (IHb n s H2).
      destruct (run M N sw2 b n s) as [[| | |v] s1| |]; try reflexivity;
        rewrite (F _ _ H3); destruct (effect M N sw2 re s1); try reflexivity; apply IHk. }
    apply G.
  - apply andb_prop in H. destruct H as (H2 & H1).
    assert (G : forall k m, dowhl M N sw1 e (run M N sw1 b n) k m = dowhl M N sw2 e (run M N sw2 b n) k m).
    { induction k as [|k IHk]; intro m0; [reflexivity|]. cbn [dowhl]. rewrite (IHb n m0 H2).
      destruct (run M N sw2 b n m0) as [[| | |v] s1| |]; try reflexivity;
        rewrite (T _ _ H1); destruct (test M N sw2 e s1) as [([|], s)|]; try reflexivity; apply IHk. }
    apply G.
  - destruct e; [reflexivity| | | |]; rewrite (eval_order_free sw1 sw2 _ m H); reflexivity.
  - apply andb_prop in H. destruct H as (H1 & H2). rewrite (IHl n m H1).
    destruct (run M N sw2 l n m) as [[| | |v] s1| |]; try reflexivity. apply IHr. exact H2.
  - apply andb_prop in H. destruct H as (H1 & H2). rewrite (IHl n m H1).
    destruct (run M N sw2 l n m) as [[| | |v] s1| |]; try reflexivity. apply IHr. exact H2.
Qed.
End Order.
