(* The rules of the language give an expression one type and one tree, a statement one tree
   and one environment after it. *)
From Coq Require Import ZArith Bool Lia List.
From Verif Require Import Lexer NameTable SyTree OpTree Parser ParserStmt ParseSpec StmtSpec.
Import ListNotations.
Open Scope Z_scope.

Section Expr.
Variable n : table.
Scheme has_min := Minimality for has Sort Prop with passes_min := Minimality for passes Sort Prop.
Combined Scheme has_mutind from has_min, passes_min.
Lemma has_det :
  (forall l e t d lv x, has n l e t d lv x -> forall t' d' lv' x', has n l e t' d' lv' x' -> t' = t /\ d' = d /\ lv' = lv /\ x' = x) /\
  (forall l es p q acc x, passes n l es p q acc x -> forall x', passes n l es p q acc x' -> x' = x).
Proof.
  apply has_mutind; intros.
  all: match goal with H : has _ _ _ ?t _ _ ?x |- ?t = _ /\ _ => inversion H; subst; clear H | H : passes _ _ _ _ _ _ ?x |- ?x = _ => inversion H; subst; clear H end.
  all: try match goal with A : ntSrcName n ?f = Some _, B : ntSrcName n ?f = Some _ |- _ => rewrite A in B; injection B as ?; subst end.
  all: repeat match goal with IH : forall t' d' lv' x', has n ?l ?e t' d' lv' x' -> _, H : has n ?l ?e _ _ _ _ |- _ => apply IH in H; destruct H as (? & ? & ? & ?); subst end.
  all: repeat match goal with IH : forall x', passes n ?l ?e ?p ?q ?a x' -> _, H : passes n ?l ?e ?p ?q ?a _ |- _ => apply IH in H; subst end.
  all: try solve [repeat split; reflexivity | reflexivity | exfalso; lia | congruence | exfalso; congruence].
  - assert (k0 = k) by (destruct H0 as [(? & ->)|[(? & ->)|(? & ->)]]; destruct H5 as [(? & ->)|[(? & ->)|(? & ->)]]; try reflexivity; exfalso; repeat match goal with H : _ \/ _ |- _ => destruct H end; match goal with A : scopeAt _ _ = _, B : scopeAt _ _ = _ |- _ => rewrite A in B; discriminate B end).
    subst. auto.
  - exfalso. unfold arith, order in *. cbn [In] in *. intuition congruence.
  - exfalso. unfold arith, order in *. cbn [In] in *. intuition congruence.
  - exfalso. unfold arith, order in *. cbn [In] in *. intuition congruence.
  - exfalso. unfold arith, order in *. cbn [In] in *. intuition congruence.
  - exfalso. unfold arith, order in *. cbn [In] in *. intuition congruence.
  - exfalso. unfold arith, order in *. cbn [In] in *. intuition congruence.
  - assert (d' = d) by lia. subst. split; [reflexivity|]. split; [reflexivity|]. split; [reflexivity|]. f_equal.
    match goal with A : indexOp _ _ _, B : indexOp _ _ _ |- _ => unfold indexOp, TyINT, TyCHAR, TyBOOL in A, B; destruct A as [(? & ->)|(? & [(? & ->)|[(? & ->)|(? & ->)]])]; destruct B as [(? & ->)|(? & [(? & ->)|[(? & ->)|(? & ->)]])]; try reflexivity; exfalso; lia end.
  - match goal with A : ntSrcField _ _ _ = FFound _, B : ntSrcField _ _ _ = FFound _ |- _ => rewrite A in B; injection B as -> end. auto.
Qed.
Lemma has_one l e t d lv x t' d' lv' x' : has n l e t d lv x -> has n l e t' d' lv' x' -> t' = t /\ d' = d /\ lv' = lv /\ x' = x.
Proof. intros A B. exact (proj1 has_det _ _ _ _ _ _ A _ _ _ _ B). Qed.
End Expr.

Ltac ones :=
  repeat match goal with
  | A : has ?n ?l ?e _ _ _ _, B : has ?n ?l ?e _ _ _ _ |- _ => destruct (has_one _ _ _ _ _ _ _ _ _ _ _ A B) as (? & ? & ? & ?); subst; clear B
  end.
Ltac defs := repeat match goal with A : ntDefName ?a ?b ?c ?d ?e ?f ?g = _, B : ntDefName ?a ?b ?c ?d ?e ?f ?g = _ |- _ => rewrite A in B; injection B as ? ?; subst end.
Lemma okVar_one t d E v x E' x2 E2 : okVar t d E v x E' -> okVar t d E v x2 E2 -> x2 = x /\ E2 = E'.
Proof. intros A B. destruct A; inversion B; subst; defs; ones; auto. Qed.
Lemma okVars_one t d E a vs x E' : okVars t d E a vs x E' -> forall x2 E2, okVars t d E a vs x2 E2 -> x2 = x /\ E2 = E'.
Proof.
  induction 1 as [E a|E a v r x E1 y E2 V R IH]; intros x2 E3 B; inversion B as [|? ? ? ? xx Ex ? ? V2 R2]; subst; [auto|].
  destruct (okVar_one _ _ _ _ _ _ _ _ V V2) as [-> ->]. exact (IH _ _ R2).
Qed.
Lemma okDecl_one E d x E' x2 E2 : okDecl E d x E' -> okDecl E d x2 E2 -> x2 = x /\ E2 = E'.
Proof.
  intros A B. destruct A as [E t d vs x n l c m k V R]. inversion B as [? ? ? ? ? n1 l1 c1 m1 k1 V1 R1]; subst. destruct (okVars_one _ _ _ _ _ _ _ R _ _ R1) as [-> X]. injection X as -> -> -> -> ->. auto.
Qed.
Lemma okCond_one E c x E' x2 E2 : okCond E c x E' -> okCond E c x2 E2 -> x2 = x /\ E2 = E'.
Proof. intros A B. destruct A; inversion B; subst; ones; auto. Qed.
Lemma okOpt_one E c x E' x2 E2 : okOpt E c x E' -> okOpt E c x2 E2 -> x2 = x /\ E2 = E'.
Proof. intros A B. destruct A; inversion B; subst; ones; auto. Qed.
Lemma okIni_one E c x E' x2 E2 : okIni E c x E' -> okIni E c x2 E2 -> x2 = x /\ E2 = E'.
Proof. intros A B. destruct A as [| |E d x E' A]; inversion B; subst; ones; auto. match goal with Q : okDecl E d ?y ?F |- ?y = _ /\ _ => exact (okDecl_one _ _ _ _ _ _ A Q) end. Qed.
Section Stmts.
Variables rt rd : Z.
Scheme okS_mn := Minimality for okS Sort Prop with okQ_mn := Minimality for okQ Sort Prop.
Combined Scheme okSQ_ind from okS_mn, okQ_mn.
Lemma ok_det :
  (forall b E s x E', okS rt rd b E s x E' -> forall x2 E2, okS rt rd b E s x2 E2 -> x2 = x /\ E2 = E') /\
  (forall b E a q x E', okQ rt rd b E a q x E' -> forall x2 E2, okQ rt rd b E a q x2 E2 -> x2 = x /\ E2 = E').
Proof.
  apply okSQ_ind; intros.
  all: match goal with H : okS _ _ _ _ _ ?x ?E |- ?x = _ /\ _ => inversion H; subst; clear H | H : okQ _ _ _ _ _ _ ?x _ |- ?x = _ /\ _ => inversion H; subst; clear H end.
  all: repeat match goal with
    | A : okCond ?E ?c _ _, B : okCond ?E ?c _ _ |- _ => destruct (okCond_one _ _ _ _ _ _ A B) as [? ?]; subst; clear B
    | A : okOpt ?E ?c _ _, B : okOpt ?E ?c _ _ |- _ => destruct (okOpt_one _ _ _ _ _ _ A B) as [? ?]; subst; clear B
    | A : okIni ?E ?c _ _, B : okIni ?E ?c _ _ |- _ => destruct (okIni_one _ _ _ _ _ _ A B) as [? ?]; subst; clear B
    | A : okDecl ?E ?c _ _, B : okDecl ?E ?c _ _ |- _ => destruct (okDecl_one _ _ _ _ _ _ A B) as [? ?]; subst; clear B
    | IH : forall x2 E2, okS _ _ ?b ?E ?s x2 E2 -> _ , H : okS _ _ ?b ?E ?s _ _ |- _ => apply IH in H; destruct H as [? ?]; subst
    | IH : forall x2 E2, okQ _ _ ?b ?E ?a ?s x2 E2 -> _ , H : okQ _ _ ?b ?E ?a ?s _ _ |- _ => apply IH in H; destruct H as [? ?]; subst
    end; ones; auto.
Qed.
End Stmts.
