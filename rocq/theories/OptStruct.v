(* Structural facts about the optimiser: range of constants, size, order of
   side effects, folding of constant operators. *)
From Coq Require Import ZArith Bool List Lia.
From Verif Require Import Word WordProofs SyTree ExprSem OpTree OptSpec OptProofs OptProofs2 OptProofs3.
Import ListNotations.
Open Scope Z_scope.

(* ---- constants ---- *)
Lemma mask_range : forall e, (forall v, e <> Cnst v -> consts_in_range e) -> consts_in_range (maskC e).
Proof.
  intros e H. destruct e as [|[v| | | | |]|o x|o x y|f x]; simpl; auto;
    try (apply (H 0); discriminate).
  unfold WMSK. rewrite land_65535. apply w16_range.
Qed.

Definition cr (e : expr) : Prop := consts_in_range (maskC e).

Lemma opt1_cr : forall o l, consts_in_range l -> cr (opt1 o l).
Proof.
  intros o l H. unfold cr. destruct l as [|[v| | | | |]| | |]; try exact H.
  destruct o; simpl; unfold setBool; try (unfold WMSK; rewrite land_65535; apply w16_range).
Qed.

Lemma cr_cnst : forall v, cr (Cnst v).
Proof. intros. unfold cr; simpl. unfold WMSK. rewrite land_65535. apply w16_range. Qed.

Lemma cr_of : forall e, consts_in_range e -> cr e.
Proof. intros e H. unfold cr. apply mask_range; auto. Qed.

Ltac opt2_cases H :=
  unfold optAdd, optSub, optMul, optBAnd, optBOr, optBXor, optCmp, optOr, optAnd, optDiv, optMod,
    optShl, optShr, setBool in H;
  repeat (match type of H with
  | context [isCnstN ?x ?n] => let E := fresh "E" in destruct (isCnstN x n) eqn:E
  | context [match ?x with _ => _ end] => is_var x; destruct x
  | context [if ?x then _ else _] =>
      lazymatch x with context [orb true _] => fail | context [orb false _] => fail
      | _ => destruct x eqn:? end
  end; cbn [orb] in H; try discriminate H).

Lemma opt2_cr : forall o l r e', consts_in_range l -> consts_in_range r ->
  opt2 o l r = Ok e' -> cr e'.
Proof.
  intros o l r e' Hl Hr H. unfold opt2 in H. destruct o; opt2_cases H; injection H as <-;
    first [apply cr_cnst | apply cr_of; simpl in *; tauto].
Qed.

Lemma calExp_range : forall e e', calExp e = Ok e' -> consts_in_range e'.
Proof.
  induction e as [|k|o e IH|o l IHl r IHr|f a IHa]; intros e' H.
  - discriminate.
  - injection H as <-. destruct k; simpl; auto. unfold WMSK. rewrite land_65535. apply w16_range.
  - simpl in H. apply bind_ok in H. destruct H as (l' & A & H). injection H as <-. apply opt1_cr; auto.
  - simpl in H. apply bind_ok in H. destruct H as (l' & A & H).
    apply bind_ok in H. destruct H as (r' & B & H).
    apply bind_ok in H. destruct H as (x & C & H). injection H as <-.
    eapply opt2_cr; [| |exact C]; auto.
  - apply cal_func in H. destruct H as [[-> ->]|(a' & A & ->)]; simpl; auto.
Qed.

Lemma optExp_range : forall e e', optExp e = Ok e' -> consts_in_range e'.
Proof.
  intros e e' H. unfold optExp in H.
  assert (G : e = ENull /\ e' = ENull \/ arrExp (moveLeft e) = Ok e').
  { destruct e; auto. inv H; auto. }
  destruct G as [[-> ->]|G]; [exact I|]. clear H.
  destruct (moveLeft e) as [|k|o x|o x y|f x]; cbn [arrExp] in G; try discriminate.
  - eapply calExp_range; eauto.
  - apply bind_ok in G. destruct G as (l' & A & G). eapply calExp_range; eauto.
  - apply bind_ok in G. destruct G as (l' & A & G). apply bind_ok in G. destruct G as (r' & B & G).
    eapply calExp_range; eauto.
  - apply (arr_func f x e') in G. destruct G as [[-> ->]|(a' & A & G)]; simpl; auto.
    eapply calExp_range; eauto.
Qed.

Lemma copy_range : forall s, sconsts_in_range s -> sconsts_in_range (copyStmt s).
Proof. intros []; simpl; auto. Qed.

Ltac bnd H := apply bind_ok in H; let x := fresh "x" in let A := fresh "A" in destruct H as (x & A & H).

Lemma cnst_cases : forall (A : Type) (e : expr) (p : Z -> A) (q : A),
  (exists v, e = Cnst v /\ match e with Cnst v => p v | _ => q end = p v) \/
  (is_cnst e = false /\ match e with Cnst v => p v | _ => q end = q).
Proof. intros A [|[v| | | | |]| | |] p q; eauto. Qed.

Ltac cnst H := match type of H with
  match ?e with _ => _ end = _ => 
   destruct e as [|[?| | | | |]| | |] end.

Lemma optTree_range : forall s s', optTree s = Ok s' -> sconsts_in_range s'.
Proof.
  induction s as [|e|i|c b IHb|c b1 IH1 b2 IH2|c b IHb re|b IHb c| | |e|l IHl r IHr|l IHl r IHr];
    intros s' Ho; cbn [optTree] in Ho; try (inv Ho; exact I).
  - bnd Ho. inv Ho. apply optExp_range in A; exact A.
  - bnd Ho. apply optExp_range in A.
    cnst Ho; try (bnd Ho; inv Ho; simpl; auto; fail).
    destruct (getBool v); [|inv Ho; exact A]. bnd Ho. inv Ho. apply copy_range; auto.
  - bnd Ho. apply optExp_range in A.
    cnst Ho; try (bnd Ho; bnd Ho; inv Ho; simpl; auto; fail).
    destruct (getBool v); bnd Ho; inv Ho; apply copy_range; auto.
  - bnd Ho. apply optExp_range in A.
    cnst Ho; try (bnd Ho; bnd Ho; apply optExp_range in A1; inv Ho; simpl; auto; fail).
    destruct (getBool v); [|inv Ho; exact A].
    bnd Ho; bnd Ho; apply optExp_range in A1; inv Ho; simpl; auto.
  - bnd Ho. bnd Ho. apply optExp_range in A. apply IHb in A0.
    cnst Ho; try (inv Ho; simpl; auto; fail).
    destruct (getBool v); inv Ho; simpl; auto. apply copy_range; auto.
  - bnd Ho. inv Ho. apply optExp_range in A; exact A.
  - bnd Ho. bnd Ho. inv Ho. simpl; auto.
  - bnd Ho. bnd Ho. inv Ho. simpl; auto.
Qed.

(* ---- size ---- *)
Lemma opt1_nodes : forall o l, (nodes (opt1 o l) <= S (nodes l))%nat.
Proof. intros o [|[]| | |]; destruct o; simpl; lia. Qed.
Lemma mask_nodes : forall e, nodes (maskC e) = nodes e.
Proof. intros [|[]| | |]; reflexivity. Qed.
Lemma isCnst_pos : forall e n, isCnstN e n = true -> (nodes e = 1)%nat.
Proof. intros e n H. apply isCnstN_inv in H; subst; reflexivity. Qed.
Lemma opt2_nodes : forall o l r e', opt2 o l r = Ok e' -> (nodes e' <= S (nodes l + nodes r))%nat.
Proof.
  intros o l r e' H. unfold opt2 in H. destruct o; opt2_cases H; injection H as <-; simpl; lia.
Qed.
Lemma calExp_nodes : forall e e', calExp e = Ok e' -> (nodes e' <= nodes e)%nat.
Proof.
  induction e as [|k|o e IH|o l IHl r IHr|f a IHa]; intros e' H.
  - discriminate.
  - injection H as <-. destruct k; simpl; lia.
  - simpl in H. bnd H. injection H as <-. rewrite mask_nodes. pose proof (opt1_nodes o x).
    apply IH in A. simpl; lia.
  - simpl in H. bnd H. bnd H. bnd H. injection H as <-. rewrite mask_nodes.
    apply opt2_nodes in A1. apply IHl in A. apply IHr in A0. simpl; lia.
  - apply cal_func in H. destruct H as [[-> ->]|(a' & A & ->)]; simpl; auto. apply IHa in A; lia.
Qed.
Lemma pull_nodes : forall r, nodes (moveLeft r) = nodes r /\
  forall o a, nodes (pull o a r) = S (nodes a + nodes r).
Proof.
  induction r as [|k|o1 x [IH _]|ob c [IHc IHc'] d [IHd IHd']|f x [IH _]]; split; intros; simpl; auto.
  - rewrite IHd'. lia.
  - destruct (canPull o ob).
    + rewrite IHd', IHc'. lia.
    + simpl. rewrite IHd'. lia.
Qed.
Lemma pushC_nodes : forall op l c, nodes (pushC op l c) = S (nodes l + nodes c).
Proof.
  intros op l c. induction l as [|k|o1 x IH|lop x IHx a IHa|f x IH]; simpl; auto.
  match goal with |- context [if ?b then _ else _] => destruct b end; simpl; [rewrite IHx; lia|].
  destruct (op2_eqb lop op); simpl; lia.
Qed.
Lemma moveCnst_nodes : forall o l r, nodes (moveCnst o l r) = S (nodes l + nodes r).
Proof.
  intros o l r. unfold moveCnst. destruct (normSub o r) as [o' r'] eqn:E.
  assert (Hr : nodes r' = nodes r).
  { destruct o; simpl in E; try (inv E; reflexivity). destruct r as [|[]| | |]; inv E; reflexivity. }
  destruct (movable o' && is_cnst r'); [rewrite pushC_nodes|simpl]; lia.
Qed.
Lemma arrExp_nodes : forall e e', arrExp e = Ok e' -> (nodes e' <= nodes e)%nat.
Proof.
  induction e as [|k|o e IH|o l IHl r IHr|f a IHa]; intros e' H.
  - discriminate.
  - apply calExp_nodes; exact H.
  - cbn [arrExp] in H. bnd H. apply calExp_nodes in H. apply IH in A. simpl in *; lia.
  - cbn [arrExp] in H. bnd H. bnd H. apply calExp_nodes in H. rewrite moveCnst_nodes in H.
    apply IHr in A. apply IHl in A0. simpl; lia.
  - apply arr_func in H. destruct H as [[-> ->]|(a' & A & H)]; simpl; auto.
    apply IHa in A. apply calExp_nodes in H. simpl in H; lia.
Qed.
Lemma optExp_nodes : forall e e', optExp e = Ok e' -> (nodes e' <= nodes e)%nat.
Proof.
  intros e e' H. unfold optExp in H. destruct e; try (inv H; auto; fail);
    apply arrExp_nodes in H; rewrite (proj1 (pull_nodes _)) in H; exact H.
Qed.

Lemma copy_nodes : forall s n, (snodes s <= n)%nat -> (1 <= n)%nat -> (snodes (copyStmt s) <= n)%nat.
Proof. intros [] n H1 H2; simpl in *; lia. Qed.

Lemma optTree_nodes : forall s s', optTree s = Ok s' -> (snodes s' <= snodes s)%nat.
Proof.
  induction s as [|e|i|c b IHb|c b1 IH1 b2 IH2|c b IHb re|b IHb c| | |e|l IHl r IHr|l IHl r IHr];
    intros s' Ho; cbn [optTree] in Ho; try (inv Ho; auto; fail).
  - bnd Ho. inv Ho. apply optExp_nodes in A; exact A.
  - bnd Ho. apply optExp_nodes in A.
    cnst Ho; try (bnd Ho; inv Ho; apply IHb in A0; simpl in *; lia).
    destruct (getBool v); [|inv Ho; simpl in *; lia]. bnd Ho. inv Ho. apply IHb in A0.
    apply copy_nodes; simpl in *; lia.
  - bnd Ho. apply optExp_nodes in A.
    cnst Ho; try (bnd Ho; bnd Ho; inv Ho; apply IH2 in A0; apply IH1 in A1; simpl in *; lia).
    destruct (getBool v); bnd Ho; inv Ho; [apply IH1 in A0|apply IH2 in A0];
      apply copy_nodes; simpl in *; lia.
  - bnd Ho. apply optExp_nodes in A.
    cnst Ho; try (bnd Ho; bnd Ho; apply optExp_nodes in A1; apply IHb in A0; inv Ho; simpl in *; lia).
    destruct (getBool v); [|inv Ho; simpl in *; lia].
    bnd Ho; bnd Ho; apply optExp_nodes in A1; apply IHb in A0; inv Ho; simpl in *; lia.
  - bnd Ho. bnd Ho. apply optExp_nodes in A. apply IHb in A0.
    cnst Ho; try (inv Ho; simpl in *; lia).
    destruct (getBool v); inv Ho; simpl in *; try lia. apply copy_nodes; lia.
  - bnd Ho. inv Ho. apply optExp_nodes in A; simpl; lia.
  - bnd Ho. bnd Ho. inv Ho. apply IHl in A; apply IHr in A0; simpl; lia.
  - bnd Ho. bnd Ho. inv Ho. apply IHl in A; apply IHr in A0; simpl; lia.
Qed.

(* ---- side effects: order kept, none invented ---- *)
Section Sub.
Context {A : Type}.
Lemma sub_refl : forall a : list A, subseq a a.
Proof. induction a; constructor; auto. Qed.
Lemma sub_empty : forall a : list A, subseq [] a.
Proof. induction a; constructor; auto. Qed.
Lemma sub_trans : forall b c : list A, subseq b c -> forall a, subseq a b -> subseq a c.
Proof.
  induction 1 as [|x b c H IH|x b c H IH]; intros a Ha; auto.
  - inversion Ha; subst; [apply sub_keep|apply sub_drop]; auto.
  - apply sub_drop; auto.
Qed.
Lemma sub_app : forall a a' b b' : list A, subseq a a' -> subseq b b' -> subseq (a ++ b) (a' ++ b').
Proof. induction 1; intros; simpl; auto; constructor; auto. Qed.
Lemma sub_l : forall a b : list A, subseq a (a ++ b).
Proof. intros. rewrite <- (app_nil_r a) at 1. apply sub_app; [apply sub_refl|apply sub_empty]. Qed.
Lemma sub_r : forall a b : list A, subseq b (a ++ b).
Proof. intros. apply (sub_app [] a b b); [apply sub_empty|apply sub_refl]. Qed.
End Sub.

Lemma effs_mid : forall o l r, o <> ASS -> effs (E2 o l r) = effs l ++ effs r.
Proof. intros o l r H; destruct o; congruence || reflexivity. Qed.

Lemma mask_effs : forall e, effs (maskC e) = effs e.
Proof. intros [|[]| | |]; reflexivity. Qed.
Lemma opt1_effs : forall o l, subseq (effs (opt1 o l)) (effs l).
Proof. intros o [|[]| | |]; destruct o; simpl; try apply sub_refl; constructor. Qed.
Lemma opt2_effs : forall o l r e', opt2 o l r = Ok e' -> subseq (effs e') (effs (E2 o l r)).
Proof.
  intros o l r e' H. unfold opt2 in H. destruct o; opt2_cases H; injection H as <-;
    first [apply sub_refl | apply sub_empty | apply sub_l | apply sub_r].
Qed.
Lemma effs_cong : forall o l l' r r', subseq (effs l') (effs l) -> subseq (effs r') (effs r) ->
  subseq (effs (E2 o l' r')) (effs (E2 o l r)).
Proof.
  intros o l l' r r' Hl Hr. destruct o; simpl; apply sub_app; auto. apply sub_keep; auto.
Qed.
Lemma calExp_effs : forall e e', calExp e = Ok e' -> subseq (effs e') (effs e).
Proof.
  induction e as [|k|o e IH|o l IHl r IHr|f a IHa]; intros e' H.
  - discriminate.
  - injection H as <-. destruct k; simpl; constructor.
  - simpl in H. bnd H. injection H as <-. rewrite mask_effs. simpl.
    eapply sub_trans; [apply IH; eauto|apply opt1_effs].
  - simpl in H. bnd H. bnd H. bnd H. injection H as <-. rewrite mask_effs.
    apply opt2_effs in A1. eapply sub_trans; [|exact A1]. apply effs_cong; auto.
  - apply cal_func in H. destruct H as [[-> ->]|(a' & A & ->)]; simpl; [apply sub_refl|].
    apply sub_keep; auto.
Qed.
Lemma pulled_ass : forall o ob, canPull o ob = true -> pulledOp o ob <> ASS /\ o <> ASS /\ ob <> ASS.
Proof. intros o ob; destruct o, ob; simpl; try discriminate; repeat split; discriminate. Qed.
Lemma pull_effs : forall r, effs (moveLeft r) = effs r /\
  forall o a, effs (pull o a r) = effs (E2 o a r).
Proof.
  induction r as [|k|o1 x [IH _]|ob c [IHc IHc'] d [IHd IHd']|f x [IH _]]; split; intros;
    cbn [moveLeft pull]; auto.
  - destruct o; simpl; rewrite IH; auto.
  - rewrite IHd'. destruct ob; simpl; rewrite IHc; auto.
  - destruct (canPull o ob) eqn:P.
    + apply pulled_ass in P. destruct P as (P1 & P2 & P3).
      rewrite IHd', !effs_mid, IHc', !effs_mid by auto. rewrite app_assoc; auto.
    + assert (E : effs (pull ob (moveLeft c) d) = effs (E2 ob c d)).
      { rewrite IHd'. destruct ob; simpl; rewrite IHc; auto. }
      destruct o; cbn [effs]; rewrite E; auto.
  - simpl. rewrite IH; auto.
  - destruct o; simpl; rewrite IH; auto.
Qed.
Lemma pushC_effs : forall op l c, movable op = true ->
  effs (pushC op l (Cnst c)) = effs l.
Proof.
  intros op l c Hm.
  assert (B : forall x, effs (E2 op x (Cnst c)) = effs x).
  { intros x. rewrite effs_mid by (destruct op; discriminate). simpl. apply app_nil_r. }
  induction l as [|k|o1 x IH|lop x IHx a IHa|f x IH]; try apply B. simpl.
  match goal with |- context [if ?b then _ else _] => destruct b eqn:E end.
  - destruct lop; simpl; rewrite IHx; auto.
  - destruct (op2_eqb lop op) eqn:E2; [|apply B]. apply op2_eqb_eq in E2; subst.
    rewrite !effs_mid by (destruct op; discriminate).
    simpl in E.
    apply negb_false_iff in E. apply is_cnst_inv in E. destruct E as [v ->].
    destruct op; try discriminate Hm; simpl; rewrite ?app_nil_r; auto.
Qed.
Lemma moveCnst_effs : forall o l r, effs (moveCnst o l r) = effs (E2 o l r).
Proof.
  intros o l r. unfold moveCnst. destruct (normSub o r) as [o' r'] eqn:E.
  assert (Hr : effs (E2 o' l r') = effs (E2 o l r)).
  { destruct o; simpl in E; try (inv E; reflexivity). destruct r as [|[]| | |]; inv E; reflexivity. }
  rewrite <- Hr. destruct (movable o' && is_cnst r') eqn:B; auto.
  apply andb_true_iff in B. destruct B as [B1 B2]. apply is_cnst_inv in B2. destruct B2 as [c ->].
  rewrite pushC_effs by auto. rewrite effs_mid by (destruct o'; discriminate). simpl.
  rewrite app_nil_r; auto.
Qed.
Lemma arrExp_effs : forall e e', arrExp e = Ok e' -> subseq (effs e') (effs e).
Proof.
  induction e as [|k|o e IH|o l IHl r IHr|f a IHa]; intros e' H.
  - discriminate.
  - apply calExp_effs; exact H.
  - cbn [arrExp] in H. bnd H. apply calExp_effs in H. apply IH in A. simpl in *.
    eapply sub_trans; eauto.
  - cbn [arrExp] in H. bnd H. bnd H. apply calExp_effs in H. rewrite moveCnst_effs in H.
    eapply sub_trans; [|exact H]. apply effs_cong; auto.
  - apply arr_func in H. destruct H as [[-> ->]|(a' & A & H)]; simpl; [apply sub_refl|].
    apply IHa in A. apply calExp_effs in H. simpl in H. eapply sub_trans; [|exact H].
    apply sub_keep; auto.
Qed.
Lemma optExp_effs : forall e e', optExp e = Ok e' -> subseq (effs e') (effs e).
Proof.
  intros e e' H. unfold optExp in H. destruct e; try (inv H; apply sub_refl);
    apply arrExp_effs in H; rewrite (proj1 (pull_effs _)) in H; exact H.
Qed.
