(* A source file has one outcome under the rules. *)
From Coq Require Import ZArith Bool Lia List.
From Verif Require Import Lexer NameTable SyTree OpTree Parser ParserStmt ParseSpec StmtSpec ProgGram RuleDet.
Import ListNotations.
Open Scope Z_scope.

Lemma okNames_one t d n c ns n' c' : okNames t d n c ns n' c' -> forall n2 c2, okNames t d n c ns n2 c2 -> n2 = n' /\ c2 = c'.
Proof. induction 1; intros n2 c2 B; inversion B; subst; defs; auto. Qed.
Lemma okFlines_one n c d fs n' c' d' : okFlines n c d fs n' c' d' -> forall n2 c2 d2, okFlines n c d fs n2 c2 d2 -> n2 = n' /\ c2 = c' /\ d2 = d'.
Proof.
  induction 1; intros n2 c2 d2 B; inversion B; subst; auto.
  match goal with A : okNames ?t ?d ?n ?c ?ns _ _, B : okNames ?t ?d ?n ?c ?ns _ _ |- _ => destruct (okNames_one _ _ _ _ _ _ _ A _ _ B) as [? ?]; subst end. auto.
Qed.
Lemma okParams_one prev n c d ps k n' c' d' : okParams prev n c d ps k n' c' d' -> forall n2 c2 d2, okParams prev n c d ps k n2 c2 d2 -> n2 = n' /\ c2 = c' /\ d2 = d'.
Proof.
  induction 1; intros n2 c2 d2 B; inversion B; subst; defs; auto; try (intuition congruence);
  match goal with H : _ \/ _ |- _ => destruct H; try congruence end.
Qed.
Lemma okHead_one krn n c0 pub t d nm ps k prev fi n2 c d2 prm prev' fi' n2' c' d2' prm' :
  okHead krn n c0 pub t d nm ps k prev fi n2 c d2 prm -> okHead krn n c0 pub t d nm ps k prev' fi' n2' c' d2' prm' ->
  prev' = prev /\ fi' = fi /\ n2' = n2 /\ c' = c /\ d2' = d2 /\ prm' = prm.
Proof.
  intros [_ P1 _ (n1 & D1 & Q1) C1 _] [_ P2 _ (n1' & D2 & Q2) C2 _]. subst prev prev'. defs. destruct (okParams_one _ _ _ _ _ _ _ _ _ Q1 _ _ _ Q2) as (-> & -> & ->). repeat split; congruence || reflexivity.
Qed.
Lemma okConst_one {W : word} n t l e d d' : okConst n t l e d -> okConst n t l e d' -> d' = d.
Proof. intros A B. destruct A; inversion B; subst; ones; try reflexivity; try congruence. Qed.
Ltac consts := repeat match goal with A : okConst ?n ?t ?l ?e _, B : okConst ?n ?t ?l ?e _ |- _ => pose proof (okConst_one _ _ _ _ _ _ A B); subst; clear B end.
Lemma okSizes_one {W : word} n a b es d c : okSizes n a b es d c -> forall d' c', okSizes n a b es d' c' -> d' = d /\ c' = c.
Proof.
  induction 1 as [|? ? ? ? ? ? ? ? ? ? ? ? IH]; intros d' c' B; inversion B; subst; consts; try congruence; auto.
  match goal with Q : okSizes _ _ _ _ _ _ |- _ => apply IH in Q; destruct Q as [-> ->]; auto end.
Qed.
Lemma okField_one {W : word} n i l x a l1 a' l1' : okField n i l x a l1 -> okField n i l x a' l1' -> a' = a /\ l1' = l1.
Proof. intros A B. destruct A; inversion B; subst; consts; auto. Qed.
Lemma okFields_one {W : word} n i l acc xs a l1 : okFields n i l acc xs a l1 -> forall a' l1', okFields n i l acc xs a' l1' -> a' = a /\ l1' = l1.
Proof.
  induction 1 as [? ? ? ? ? ? ? Q|? ? ? ? ? ? ? ? ? ? Q ? ? IH]; intros a' l1' B; inversion B; subst; try congruence;
    match goal with Q2 : okField ?n ?i ?l ?x _ _ |- _ => destruct (okField_one _ _ _ _ _ _ _ _ Q Q2) as [? ?]; subst; clear Q2 end; auto.
Qed.
Scheme okIn_mn := Minimality for okIn Sort Prop with okIns_mn := Minimality for okIns Sort Prop.
Combined Scheme okIn_mind from okIn_mn, okIns_mn.
Lemma okIn_one {W : word} n t :
  (forall d l x a l1, okIn n t d l x a l1 -> forall a' l1', okIn n t d l x a' l1' -> a' = a /\ l1' = l1) /\
  (forall d l acc xs a l1, okIns n t d l acc xs a l1 -> forall a' l1', okIns n t d l acc xs a' l1' -> a' = a /\ l1' = l1).
Proof.
  apply okIn_mind; intros; match goal with H : okIn _ _ _ _ _ ?x _ |- ?x = _ /\ _ => inversion H; subst; clear H | H : okIns _ _ _ _ _ _ ?x _ |- ?x = _ /\ _ => inversion H; subst; clear H end; consts; auto; try lia.
  all: repeat match goal with
    | A : okSizes ?n ?a ?b ?es _ _, B : okSizes ?n ?a ?b ?es _ _ |- _ => destruct (okSizes_one _ _ _ _ _ _ A _ _ B) as [? ?]; subst; clear B
    | A : okFields ?n ?a ?b ?c ?es _ _, B : okFields ?n ?a ?b ?c ?es _ _ |- _ => destruct (okFields_one _ _ _ _ _ _ _ A _ _ B) as [? ?]; subst; clear B
    | IH : forall a' l1', okIn ?n ?t ?d ?l ?x a' l1' -> _, H : okIn ?n ?t ?d ?l ?x _ _ |- _ => apply IH in H; destruct H as [? ?]; subst
    | IH : forall a' l1', okIns ?n ?t ?d ?l ?c ?x a' l1' -> _, H : okIns ?n ?t ?d ?l ?c ?x _ _ |- _ => apply IH in H; destruct H as [? ?]; subst
    end; auto.
Qed.
Lemma okGVar_one t d pub T v T1 T2 : okGVar t d pub T v T1 -> okGVar t d pub T v T2 -> T2 = T1.
Proof.
  intros A B. destruct A; inversion B; subst; defs; try congruence; auto;
  match goal with A : okIn ?n ?t ?d ?l ?x _ _, B : okIn ?n ?t ?d ?l ?x _ _ |- _ => destruct (proj1 (okIn_one _ _) _ _ _ _ _ A _ _ B) as [? ?]; subst end; congruence.
Qed.
Lemma okGVars_one t d pub T vs T1 : okGVars t d pub T vs T1 -> forall T2, okGVars t d pub T vs T2 -> T2 = T1.
Proof.
  induction 1 as [|T v Ta r Tb V R IH]; intros T2 B; inversion B; subst; [reflexivity|].
  match goal with Q : okGVar _ _ _ T v _ |- _ => pose proof (okGVar_one _ _ _ _ _ _ _ V Q); subst end. auto.
Qed.
Lemma okTop_one opt krn T x T1 T2 : okTop opt krn T x T1 -> okTop opt krn T x T2 -> T2 = T1.
Proof.
  intros A B. destruct A; inversion B; subst; defs; auto.
  - match goal with A : okFlines ?a ?b ?c ?d _ _ _, B : okFlines ?a ?b ?c ?d _ _ _ |- _ => destruct (okFlines_one _ _ _ _ _ _ _ A _ _ _ B) as (-> & -> & ->) end. reflexivity.
  - eapply okGVars_one; eassumption.
  - match goal with A : okHead _ _ _ _ _ _ _ _ _ _ _ _ _ _ _, B : okHead _ _ _ _ _ _ _ _ _ _ _ _ _ _ _ |- _ => destruct (okHead_one _ _ _ _ _ _ _ _ _ _ _ _ _ _ _ _ _ _ _ _ _ A B) as (-> & -> & -> & -> & -> & ->) end. reflexivity.
  - match goal with A : okHead _ _ _ _ _ _ _ _ _ _ _ _ _ _ _, B : okHead _ _ _ _ _ _ _ _ _ _ _ _ _ _ _ |- _ => destruct (okHead_one _ _ _ _ _ _ _ _ _ _ _ _ _ _ _ _ _ _ _ _ _ A B) as (-> & -> & -> & -> & -> & ->) end.
    match goal with A : okQ _ _ _ _ _ _ _ _, B : okQ _ _ _ _ _ _ _ _ |- _ => destruct (proj2 (ok_det _ _) _ _ _ _ _ _ A _ _ B) as (-> & ->) end.
    assert (root0 = root) as -> by (destruct opt; congruence). congruence.
Qed.
Lemma okProg_one opt krn T p T1 : okProg opt krn T p T1 -> forall T2, okProg opt krn T p T2 -> T2 = T1.
Proof.
  induction 1 as [|T x Ta p Tb A R IH]; intros T2 B; inversion B; subst; [reflexivity|].
  match goal with Q : okTop _ _ T x _ |- _ => pose proof (okTop_one _ _ _ _ _ _ A Q); subst end. auto.
Qed.
