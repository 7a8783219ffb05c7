(* Lemmas about the virtual machine: code segments, labels, runs. *)
From Coq Require Import ZArith Bool List Lia.
From Verif Require Import Word SyTree ExprSem VM.
Import ListNotations.
Open Scope Z_scope.

Lemma defs_app : forall a b, defs (a ++ b) = defs a ++ defs b.
Proof. induction a as [|i a IH]; intros; [reflexivity|]. destruct i; simpl; rewrite ?IH; reflexivity. Qed.
Lemma uses_app : forall a b, uses (a ++ b) = uses a ++ uses b.
Proof. induction a as [|i a IH]; intros; [reflexivity|]. destruct i; simpl; rewrite ?IH; reflexivity. Qed.

Lemma find_in : forall l p k, find l p = Some k -> In l (defs p).
Proof.
  induction p as [|i p IH]; simpl; intros k H; [discriminate|].
  destruct i; try (destruct (find l p) eqn:F; [apply (IH _ eq_refl)|discriminate]).
  destruct (l0 =? l) eqn:E; [left; apply Z.eqb_eq; exact E|].
  right. destruct (find l p) eqn:F; [apply (IH _ eq_refl)|discriminate].
Qed.
Lemma find_total : forall l p, In l (defs p) -> exists k, find l p = Some k.
Proof.
  induction p as [|i p IH]; simpl; intros H; [contradiction|].
  destruct i; try (destruct (IH H) as [k ->]; eexists; reflexivity).
  destruct (l0 =? l) eqn:E; [eexists; reflexivity|].
  destruct H as [->|H]; [rewrite Z.eqb_refl in E; discriminate|].
  destruct (IH H) as [k ->]; eexists; reflexivity.
Qed.
Lemma find_app_r : forall l a b, ~ In l (defs a) ->
  find l (a ++ b) = option_map (fun k => length a + k)%nat (find l b).
Proof.
  induction a as [|i a IH]; intros b H; simpl.
  - destruct (find l b); reflexivity.
  - assert (G : ~ In l (defs a)) by (intro X; apply H; destruct i; simpl; auto).
    specialize (IH b G). destruct i; try (rewrite IH; destruct (find l b); reflexivity).
    destruct (l0 =? l) eqn:E; [exfalso; apply H; left; apply Z.eqb_eq; exact E|].
    rewrite IH; destruct (find l b); reflexivity.
Qed.

(* [code_at p k c]: the piece c stands at position k of p *)
Definition code_at (p : code) (k : nat) (c : code) : Prop :=
  exists a b, p = a ++ c ++ b /\ k = length a.

Lemma code_at_l : forall p k a b, code_at p k (a ++ b) -> code_at p k a.
Proof. intros p k a b (x & y & E & K). exists x, (b ++ y). rewrite E, <- app_assoc. auto. Qed.
Lemma code_at_r : forall p k a b, code_at p k (a ++ b) -> code_at p (k + length a) b.
Proof.
  intros p k a b (x & y & E & K). exists (x ++ a), y. rewrite app_length.
  rewrite E, <- !app_assoc. split; [reflexivity|lia].
Qed.
Lemma code_at_hd : forall p k i c, code_at p k (i :: c) -> nth_error p k = Some i.
Proof.
  intros p k i c (x & y & E & K). subst. rewrite nth_error_app2 by lia.
  rewrite Nat.sub_diag. reflexivity.
Qed.
Lemma code_at_tl : forall p k i c, code_at p k (i :: c) -> code_at p (S k) c.
Proof. intros p k i c H. apply (code_at_r p k [i] c) in H. simpl in H. replace (S k) with (k+1)%nat by lia. exact H. Qed.

Lemma code_at_find : forall p k l c, code_at p k (ILab l :: c) -> NoDup (defs p) ->
  find l p = Some k.
Proof.
  intros p k l c (x & y & E & K) ND. subst.
  rewrite !defs_app in ND. simpl in ND.
  rewrite find_app_r.
  - simpl. rewrite Z.eqb_refl. simpl. f_equal. lia.
  - intro I. apply NoDup_remove_2 in ND. apply ND. apply in_or_app. left. exact I.
Qed.

Lemma in_uses : forall p k l i, nth_error p k = Some i ->
  (i = IJmp l \/ i = IJT l \/ i = IJF l) -> In l (uses p).
Proof.
  induction p as [|j p IH]; intros k l i H D; [destruct k; discriminate|].
  destruct k as [|k]; simpl in H.
  - injection H as ->. destruct D as [D|[D|D]]; subst; simpl; left; reflexivity.
  - pose proof (IH _ _ _ H D) as G. destruct j; simpl; auto.
Qed.

Section Runs.
Variable M : machine.
Variable p : code.
Notation cfg := (cfg M).
Notation steps := (steps M p).
Notation reaches := (reaches M p).
Notation step := (step M p).

Lemma steps_app : forall n m a b c, steps n a b -> steps m b c -> steps (n + m)%nat a c.
Proof.
  induction n as [|n IH]; simpl; intros m a b c H K.
  - subst. exact K.
  - destruct H as (d & S & R). exists d. split; [exact S|]. exact (IH _ _ _ _ R K).
Qed.
Lemma reaches_refl : forall c, reaches c c.
Proof. intros c. exists O. reflexivity. Qed.
Lemma reaches_trans : forall a b c, reaches a b -> reaches b c -> reaches a c.
Proof. intros a b c (n & H) (m & K). exists (n + m)%nat. exact (steps_app _ _ _ _ _ H K). Qed.
Lemma reaches_step : forall a b c, step a = Some b -> reaches b c -> reaches a c.
Proof. intros a b c S (n & H). exists (Datatypes.S n). exists b. auto. Qed.
Lemma reaches_one : forall a b, step a = Some b -> reaches a b.
Proof. intros a b S. exact (reaches_step _ _ _ S (reaches_refl b)). Qed.

Lemma steps_prefix : forall m n a c, steps (n + m)%nat a c -> exists b, steps n a b.
Proof.
  intros m n. induction n as [|n IH]; simpl; intros a c H.
  - exists a. reflexivity.
  - destruct H as (d & S & R). destruct (IH _ _ R) as (b & B). exists b, d. auto.
Qed.
Lemma steps_det : forall n a b c, steps n a b -> steps n a c -> b = c.
Proof.
  induction n as [|n IH]; simpl; intros a b c H K; [congruence|].
  destruct H as (d & S & R), K as (d' & S' & R'). rewrite S in S'. injection S' as <-.
  exact (IH _ _ _ R R').
Qed.
End Runs.
