(* One slot of the table is the root of one tree only. *)
From Coq Require Import ZArith Bool Lia List.
From Verif Require Import SyTree OpTree SyTable SyTableRep SyTableExp.
Import ListNotations.
Open Scope Z_scope.

Lemma tyL_inj : forall k k', tyL k = tyL k' -> valL k = valL k' -> k = k'.
Proof. intros k k' H V. destruct k, k'; try discriminate H; cbn in V; subst; reflexivity. Qed.
Lemma ty1_inj : forall o o', ty1 o = ty1 o' -> o = o'.
Proof. intros o o' H. destruct o, o'; first [reflexivity|discriminate H]. Qed.
Lemma ty2_inj : forall o o', ty2 o = ty2 o' -> o = o'.
Proof. intros o o' H. destruct o; destruct o'; first [reflexivity|discriminate H]. Qed.
Lemma tyL1 : forall k o, tyL k <> ty1 o. Proof. intros k o. destruct k, o; discriminate. Qed.
Lemma tyL2 : forall k o, tyL k <> ty2 o. Proof. intros k o. destruct k, o; discriminate. Qed.
Lemma ty12 : forall k o, ty1 k <> ty2 o. Proof. intros k o. destruct k, o; discriminate. Qed.
Lemma tyLF : forall k, tyL k <> SyFUNC. Proof. intros k. destruct k; discriminate. Qed.
Lemma ty1F : forall k, ty1 k <> SyFUNC. Proof. intros k. destruct k; discriminate. Qed.
Lemma ty2F : forall k, ty2 k <> SyFUNC. Proof. intros k. destruct k; discriminate. Qed.
Lemma null_out : inTab SyNULL = false. Proof. reflexivity. Qed.

Lemma RE_in : forall m i e P, RE m i e P -> inTab i = true.
Proof. intros m i e P H. destruct H; assumption. Qed.

Ltac clash := exfalso; solve [
  match goal with A : nty ?x = ?a, B : nty ?x = ?b |- _ =>
    rewrite A in B; first [discriminate B|exact (tyL1 _ _ B)|exact (tyL1 _ _ (eq_sym B))|exact (tyL2 _ _ B)|exact (tyL2 _ _ (eq_sym B))
      |exact (ty12 _ _ B)|exact (ty12 _ _ (eq_sym B))|exact (tyLF _ B)|exact (tyLF _ (eq_sym B))|exact (ty1F _ B)|exact (ty1F _ (eq_sym B))|exact (ty2F _ B)|exact (ty2F _ (eq_sym B))] end].

Lemma RE_unique : forall m e i P, RE m i e P -> forall e' P', RE m i e' P' -> e = e'.
Proof.
  intros m e i P H. induction H as [i k P T Pi Ty V|i o e P Q T Ty B R IH|i o l r P Q1 Q2 T Ty B1 B2 A Rl IHl Rr IHr|i f P T Pi Ty Vf Vn|i f a P Q T Ty Vf B R IH];
    intros e' P' H'; destruct H' as [i k' P' T' Pi' Ty' V'|i o' e' P' Q' T' Ty' B' R'|i o' l' r' P' Q1' Q2' T' Ty' B1' B2' A' Rl' Rr'|i f' P' T' Pi' Ty' Vf' Vn'|i f' a' P' Q' T' Ty' Vf' B' R'];
    try clash.
  - f_equal. apply tyL_inj; congruence.
  - f_equal; [apply ty1_inj; congruence|exact (IH _ _ R')].
  - f_equal; [apply ty2_inj; congruence|exact (IHl _ _ Rl')|exact (IHr _ _ Rr')].
  - f_equal. congruence.
  - exfalso. pose proof (RE_in _ _ _ _ R') as K. rewrite Vn in K. rewrite null_out in K. discriminate.
  - exfalso. pose proof (RE_in _ _ _ _ R) as K. rewrite Vn' in K. rewrite null_out in K. discriminate.
  - f_equal; [congruence|exact (IH _ _ R')].
Qed.
Lemma ROpt_unique : forall m i e P e' P', ROpt m i e P -> ROpt m i e' P' -> e = e'.
Proof.
  intros m i e P e' P' [[A B]|A] [[C D]|C].
  - congruence.
  - apply RE_in in C. subst i. discriminate C.
  - apply RE_in in A. subst i. discriminate A.
  - exact (RE_unique _ _ _ _ A _ _ C).
Qed.
Definition stTy (t : Z) : bool := SyISSTAT t.
Lemma RE_nost : forall m i e P, RE m i e P -> noSemi e = true -> stTy (nty (m i)) = false.
Proof.
  intros m i e P H K. destruct H as [i k P T Pi Ty V|i o e P Q T Ty B R|i o l r P Q1 Q2 T Ty B1 B2 A Rl Rr|i f P T Pi Ty Vf Vn|i f a P Q T Ty Vf B R]; rewrite Ty; try reflexivity.
  - destruct k; reflexivity.
  - destruct o; reflexivity.
  - destruct o; first [reflexivity|discriminate K].
Qed.
Ltac clashS := exfalso; solve [
  match goal with A : nty ?x = ?a, B : nty ?x = ?b |- _ => rewrite A in B; discriminate B end
  | match goal with A : inTab SyNULL = true |- _ => discriminate A end
  | match goal with A : RE _ _ _ _, B : noSemi _ = true, C : nty _ = _ |- _ => let KK := fresh in pose proof (RE_nost _ _ _ _ A B) as KK; rewrite C in KK; vm_compute in KK; discriminate KK end
  | match goal with A : RE _ SyNULL _ _ |- _ => apply RE_in in A; discriminate A end ].

Lemma RS_unique : forall m s i P, RS m i s P -> forall s' P', RS m i s' P' -> s = s'.
Proof.
  intros m s i P H.
  induction H as [P|i e P R K|i v P T Pi Ty V|i c b P Q1 Q2 T Ty B1 B2 A Rc Rb IH
    |i j c b1 b2 P Q1 Q2 Q3 T Tj Nj Ty Ej Tyj B1 B2 B3 D1 D2 D3 A1 A2 A3 Rc Rb1 IH1 Rb2 IH2
    |i j c b e P Q1 Q2 Q3 T Tj Nj Ty Ej Tyj B1 B2 B3 D1 D2 D3 A1 A2 A3 Rc Rb IH Re
    |i c b P Q1 Q2 T Ty B1 B2 A Rb IH Rc|i P T Pi Ty|i P T Pi Ty|i e P Q T Ty B R
    |i l r P Q1 Q2 T Ty B1 B2 A Rl IHl Rr IHr|i l r P Q1 Q2 T Ty B1 B2 A Rl IHl Rr IHr];
  intros s' P' H';
  inversion H' as [P'0|i' e' P'0 R' K'|i' v' P'0 T' Pi' Ty' V'|i' c' b' P'0 Q1' Q2' T' Ty' B1' B2' A' Rc' Rb'
    |i' j' c' b1' b2' P'0 Q1' Q2' Q3' T' Tj' Nj' Ty' Ej' Tyj' B1' B2' B3' D1' D2' D3' A1' A2' A3' Rc' Rb1' Rb2'
    |i' j' c' b' e' P'0 Q1' Q2' Q3' T' Tj' Nj' Ty' Ej' Tyj' B1' B2' B3' D1' D2' D3' A1' A2' A3' Rc' Rb' Re'
    |i' c' b' P'0 Q1' Q2' T' Ty' B1' B2' A' Rb' Rc'|i' P'0 T' Pi' Ty'|i' P'0 T' Pi' Ty'|i' e' P'0 Q' T' Ty' B' R'
    |i' l' r' P'0 Q1' Q2' T' Ty' B1' B2' A' Rl' Rr'|i' l' r' P'0 Q1' Q2' T' Ty' B1' B2' A' Rl' Rr']; subst; try clashS.
  - reflexivity.
  - f_equal. exact (RE_unique _ _ _ _ R _ _ R').
  - reflexivity.
  - f_equal; [exact (RE_unique _ _ _ _ Rc _ _ Rc')|exact (IH _ _ Rb')].
  - f_equal; [exact (RE_unique _ _ _ _ Rc _ _ Rc')|exact (IH1 _ _ Rb1')|exact (IH2 _ _ Rb2')].
  - f_equal; [exact (ROpt_unique _ _ _ _ _ _ Rc Rc')|exact (IH _ _ Rb')|exact (ROpt_unique _ _ _ _ _ _ Re Re')].
  - f_equal; [exact (IH _ _ Rb')|exact (RE_unique _ _ _ _ Rc _ _ Rc')].
  - reflexivity.
  - reflexivity.
  - f_equal. exact (ROpt_unique _ _ _ _ _ _ R R').
  - f_equal; [exact (IHl _ _ Rl')|exact (IHr _ _ Rr')].
  - f_equal; [exact (IHl _ _ Rl')|exact (IHr _ _ Rr')].
Qed.
