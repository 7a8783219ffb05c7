(* The strings named in the trees that the rules give (StmtSpec.v, ProgGram.v) are those of
   the source, and the names of a block are added at the end of the table. *)
From Coq Require Import ZArith Bool Lia List.
From Verif Require Import Lexer NameTable SyTree OpTree OptLabs COptLabs VM VmCode Parser ParserStmt ParseSpec ParseLabs ProgData StmtSpec StmtSound ProgGram RuleDet SourceRun SourceSlots.
Import ListNotations.
Open Scope Z_scope.

(* ---- the range of the strings ---- *)
Definition rng (l l' : Z) (rs : list ref) : Prop := forall k, In (RStr k) rs -> l < k <= l'.
Lemma rng_nil l l' : rng l l' []. Proof. intros k []. Qed.
Lemma rng_app l l1 l2 l3 l' a b : rng l1 l2 a -> rng l2 l3 b -> l <= l1 -> l1 <= l2 -> l2 <= l3 -> l3 <= l' -> rng l l' (a ++ b).
Proof. intros A B H0 H1 H2 H3 k K. apply in_app_or in K. destruct K as [K|K]; [apply A in K|apply B in K]; lia. Qed.
Lemma rng_mono l l' m m' a : rng l l' a -> m <= l -> l' <= m' -> rng m m' a.
Proof. intros A X Y k K. apply A in K. lia. Qed.
Lemma nstr_bin a b n : n = Z.of_nat (List.length (strings a ++ strings b)) -> n = nstr a + nstr b.
Proof. intros ->. rewrite app_length. unfold nstr. lia. Qed.
Lemma has_rng nt :
  (forall l e t d lv x, has nt l e t d lv x -> rng l (l + nstr e) (refsE x)) /\
  (forall l args p last acc x, passes nt l args p last acc x ->
     forall k, In (RStr k) (refsE x) -> In (RStr k) (refsE acc) \/ l < k <= l + Z.of_nat (List.length (flat_map strings args))).
Proof.
  apply has_mutind; intros;
    repeat match goal with e : ast |- _ => lazymatch goal with H : 0 <= nstr e |- _ => fail | _ => pose proof (nstr_pos e) end end;
    try (solve [intros k0 K0; exfalso; cbn in K0; repeat (destruct K0 as [K0|K0]; [discriminate K0|]); destruct K0]);
    try (match goal with H : rng _ _ _ |- rng _ _ _ => exact H end);
    try (match goal with A : rng _ _ _, B : rng _ _ _ |- rng _ _ (refsE (E2 _ _ _)) => cbn [refsE]; eapply (rng_app _ _ _ _ _ _ _ A B); try lia;
           unfold nstr at 3; cbn [strings]; rewrite app_length; unfold nstr; lia end).
  - intros k0 K0. exfalso. destruct H0 as [[_ ->]|[[_ ->]|[_ ->]]]; destruct K0 as [K0|[]]; discriminate K0.
  - intros k0 [K0|[]]. injection K0 as <-. unfold nstr. cbn. lia.
  - cbn [refsE]. intros k0 K0. apply in_app_or in K0. destruct K0 as [K0|[]]. apply H0 in K0. exact K0.
  - intros k0 [K0|K0]; [discriminate K0|]. destruct (H3 _ K0) as [X|X]; [destruct X|]. exact X.
  - cbn [flat_map List.length]. auto.
  - destruct (H5 _ H6) as [X|X].
    + rewrite refsE_cat in X. apply in_app_or in X. destruct X as [X|X]; [auto|]. apply H2 in X. right. cbn [flat_map]. rewrite app_length. unfold nstr in *. lia.
    + right. cbn [flat_map]. rewrite app_length. unfold nstr in *. lia.
  - destruct (H5 _ H6) as [X|X].
    + rewrite refsE_cat in X. apply in_app_or in X. destruct X as [X|X]; [auto|]. apply H2 in X. right. cbn [flat_map]. rewrite app_length. unfold nstr in *. lia.
    + right. cbn [flat_map]. rewrite app_length. unfold nstr in *. lia.
Qed.

Lemma rng_has nt l e t d lv x : has nt l e t d lv x -> rng l (l + nstr e) (refsE x).
Proof. exact (proj1 (has_rng nt) l e t d lv x). Qed.
Lemma rng_chain l l1 l' a x : rng l l1 (refsS a) -> rng l1 l' (refsS x) -> l <= l1 -> l1 <= l' -> rng l l' (refsS (chain a x)).
Proof.
  intros A B L L1. assert (rng l l' (refsS a ++ refsS x)) as H by (eapply rng_app; [exact A|exact B| | | |]; lia).
  intros k K. apply H. unfold chain in K. apply in_or_app. destruct a; try (right; exact K); destruct x; try (left; exact K); cbn [refsS] in *; apply in_app_or in K; exact K.
Qed.
Lemma rng_var t d E v x E' : okVar t d E v x E' -> rng (eL E) (eL E') (refsS x).
Proof.
  intros H. destruct H as [|n l c m k nm n' i e t2 d2 lv x DN HS FT]; [apply rng_nil|]. cbn [refsS refsE refsL eL app]. intros k0 [K|K]; [discriminate K|]. apply (rng_has _ _ _ _ _ _ _ HS) in K. exact K.
Qed.
Lemma rng_vars t d E a vs x E' : okVars t d E a vs x E' -> forall l, l <= eL E -> rng l (eL E) (refsS a) -> rng l (eL E') (refsS x).
Proof.
  induction 1 as [|E a v r x E1 y E2 V R IH]; intros l L A; [exact A|]. pose proof (lab_var _ _ _ _ _ _ V) as LV. apply IH; [lia|].
  apply (rng_chain _ (eL E)); [exact A|exact (rng_var _ _ _ _ _ _ V)|exact L|exact LV].
Qed.
Lemma rng_decl E d x E' : okDecl E d x E' -> rng (eL E) (eL E') (refsS x).
Proof. intros H. destruct H as [E t d vs x n l c m k V R]. cbn [eL]. exact (rng_vars _ _ _ _ _ _ _ R (eL E) (Z.le_refl _) (rng_nil _ _)). Qed.
Lemma rng_cond E c x E' : okCond E c x E' -> rng (eL E) (eL E') (refsE x).
Proof. intros H. destruct H; [apply rng_nil|]. cbn [eL]. eapply rng_has; eassumption. Qed.
Lemma rng_opt E c x E' : okOpt E c x E' -> rng (eL E) (eL E') (refsE x).
Proof. intros H. destruct H; [apply rng_nil|]. cbn [eL]. eapply rng_has; eassumption. Qed.
Lemma rng_ini E i x E' : okIni E i x E' -> rng (eL E) (eL E') (refsS x).
Proof. intros H. destruct H as [|n l c m k e t d lv x H|E d x E' H]; [apply rng_nil|cbn [eL refsS]; eapply rng_has; eassumption|exact (rng_decl _ _ _ _ H)]. Qed.
Lemma refs_block x : refsS (block x) = refsS x.
Proof. destruct x; reflexivity. Qed.
Lemma rng_stmt rt rd :
  (forall b E s x E', okS rt rd b E s x E' -> rng (eL E) (eL E') (refsS x)) /\
  (forall b E a q x E', okQ rt rd b E a q x E' -> forall l, l <= eL E -> rng l (eL E) (refsS a) -> rng l (eL E') (refsS x)).
Proof.
  apply ok_mutind; intros;
    repeat match goal with
    | H : okS _ _ _ _ _ _ _ |- _ => let A := fresh in pose proof (proj1 (lab_stmt _ _) _ _ _ _ _ H) as A; clear H
    | H : okQ _ _ _ _ _ _ _ _ |- _ => let A := fresh in pose proof (proj2 (lab_stmt _ _) _ _ _ _ _ _ H) as A; clear H
    | H : okCond _ _ _ _ |- _ => let A := fresh in let B := fresh in pose proof (lab_cond _ _ _ _ H) as A; pose proof (rng_cond _ _ _ _ H) as B; clear H
    | H : okOpt _ _ _ _ |- _ => let A := fresh in let B := fresh in pose proof (lab_opt _ _ _ _ H) as A; pose proof (rng_opt _ _ _ _ H) as B; clear H
    | H : okIni _ _ _ _ |- _ => let A := fresh in let B := fresh in pose proof (lab_ini _ _ _ _ H) as A; pose proof (rng_ini _ _ _ _ H) as B; clear H
    | H : okDecl _ _ _ _ |- _ => let A := fresh in let B := fresh in pose proof (lab_decl _ _ _ _ H) as A; pose proof (rng_decl _ _ _ _ H) as B; clear H
    | H : has _ _ _ _ _ _ _ |- _ => apply rng_has in H
    end; cbn [refsS refsE leave eL app] in *; rewrite ?app_nil_r, ?refs_block in *; try apply rng_nil; try assumption; eauto using Z.le_refl, rng_nil.
  all: try (intros k0 K0; repeat (apply in_app_or in K0; destruct K0 as [K0|K0]);
      match goal with H : rng _ _ ?r, K : In _ ?r |- _ => apply H in K; lia end).
  - match goal with H : forall l, _ -> rng _ _ (refsS (chain _ _)) -> _ |- _ => apply H; [lia|] end. eapply rng_chain; [eassumption|eassumption|lia..].
  - match goal with H : forall l, _ -> rng _ _ (refsS (chain _ _)) -> _ |- _ => apply H; [lia|] end. eapply rng_chain; [eassumption|eassumption|lia..].
Qed.

(* ---- data ---- *)
Definition drng (l l' : Z) (ks : list Z) : Prop := l <= l' /\ forall k, In k ks -> l < k <= l'.
Lemma strsD_cat a b : strsD (catD a b) = strsD a ++ strsD b.
Proof. unfold catD. destruct a; cbn [strsD app]; try reflexivity; destruct b; cbn [strsD]; rewrite ?app_nil_r; reflexivity. Qed.
Lemma drng_const {W : word} n t l e a : okConst n t l e a -> drng l (l + nstr e) (strsD a).
Proof.
  intros H. split; [pose proof (nstr_pos e); lia|]. destruct H; cbn [strsD]; intros k K; try destruct K as [K|K]; try destruct K. subst.
  match goal with H : wOptExp _ = Ok _ |- _ => apply wOptExp_labs in H end. match goal with H : has _ _ _ _ _ _ _ |- _ => apply rng_has in H end.
  match goal with H : rng _ _ _, I : incl _ _ |- _ => apply H, I end. left. reflexivity.
Qed.
Lemma drng_sizes {W : word} n d l ns a l' : okSizes n d l ns a l' -> drng l l' (strsD a).
Proof.
  induction 1 as [d l e a D C P|d l e r a b l' D C P R S [IH1 IH2]]; [exact (drng_const _ _ _ _ _ C)|]. destruct (drng_const _ _ _ _ _ C) as [C1 C2]. split; [lia|].
  rewrite strsD_cat. intros k K. apply in_app_or in K. destruct K as [K|K]; [apply IH2 in K|apply C2 in K]; lia.
Qed.
Lemma drng_nil l l' : l <= l' -> drng l l' []. Proof. intros H. split; [exact H|intros k []]. Qed.
Lemma drng_one l : drng l (l + 1) [l + 1].
Proof. split; [lia|]. intros k [<-|[]]. lia. Qed.
Lemma drng_field {W : word} n i l x a l' : okField n i l x a l' -> drng l l' (strsD a).
Proof. destruct 1; cbn [strsD]; try (apply drng_nil; lia); [apply drng_one|eapply drng_const; eassumption]. Qed.
Lemma drng_app l l1 l2 acc a m : m <= l -> l <= l1 -> (forall k, In k acc -> m < k <= l) -> drng l l1 a -> l1 <= l2 -> forall k, In k (acc ++ a) -> m < k <= l1.
Proof. intros A B C [D F] E k K. apply in_app_or in K. destruct K as [K|K]; [apply C in K|apply F in K]; lia. Qed.
Lemma drng_fields {W : word} n i l acc xs y l' : okFields n i l acc xs y l' -> forall m, m <= l -> (forall k, In k (strsD acc) -> m < k <= l) -> l <= l' /\ forall k, In k (strsD y) -> m < k <= l'.
Proof.
  induction 1 as [i l acc x a l' F O N|i l acc x a l1 r y l' F O N R IH]; intros m M A; destruct (drng_field _ _ _ _ _ _ O) as [D1 D2].
  - split; [exact D1|]. rewrite strsD_cat. exact (drng_app l l' l' _ _ m M D1 A (conj D1 D2) (Z.le_refl _)).
  - destruct (IH m ltac:(lia)) as [X Y].
    + rewrite strsD_cat. exact (drng_app l l1 l1 _ _ m M D1 A (conj D1 D2) (Z.le_refl _)).
    + split; [lia|exact Y].
Qed.
Scheme okIn_rng := Minimality for okIn Sort Prop with okIns_rng := Minimality for okIns Sort Prop.
Combined Scheme okIn_rngind from okIn_rng, okIns_rng.
Lemma drng_in {W : word} n t :
  (forall d l x a l', okIn n t d l x a l' -> drng l l' (strsD a)) /\
  (forall d l acc xs y l', okIns n t d l acc xs y l' -> forall m, m <= l -> (forall k, In k (strsD acc) -> m < k <= l) -> l <= l' /\ forall k, In k (strsD y) -> m < k <= l').
Proof.
  apply okIn_rngind; intros; cbn [strsD]; try (apply drng_nil; lia).
  - eapply drng_const; eassumption.
  - match goal with H : okFields _ _ _ _ _ _ _ |- _ => destruct (drng_fields _ _ _ _ _ _ _ H l (Z.le_refl _)) as [A B] end; [intros k []|]. split; assumption.
  - apply drng_one.
  - match goal with H : okSizes _ _ _ _ _ _ |- _ => apply drng_sizes in H; destruct H as [A _] end. apply drng_nil. exact A.
  - match goal with H : forall m, _ |- _ => destruct (H l (Z.le_refl _)) as [A B] end; [intros k []|]. split; assumption.
  - split; [lia|assumption].
  - destruct H0 as [D1 D2]. destruct (H2 m ltac:(lia)) as [X Y].
    + rewrite strsD_cat. exact (drng_app l l1 l1 _ _ m H3 D1 H4 (conj D1 D2) (Z.le_refl _)).
    + split; [lia|exact Y].
Qed.

(* ---- the names of a block ---- *)
Definition more (E E' : env) : Prop := exists r, eN E' = eN E ++ r.
Lemma more_refl E : more E E. Proof. exists []. rewrite app_nil_r. reflexivity. Qed.
Lemma more_same E E' : eN E' = eN E -> more E E'. Proof. intros H. exists []. rewrite H, app_nil_r. reflexivity. Qed.
Lemma more_trans a b c : more a b -> more b c -> more a c.
Proof. intros [r R] [s S]. exists (r ++ s). rewrite S, R, app_assoc. reflexivity. Qed.
Lemma more_var t d E v x E' : okVar t d E v x E' -> more E E'.
Proof. intros H. destruct H; match goal with H : ntDefName _ _ _ _ _ _ _ = _ |- _ => apply def_app in H; destruct H as [-> _] end; eexists; reflexivity. Qed.
Lemma more_vars t d E a vs x E' : okVars t d E a vs x E' -> more E E'.
Proof. induction 1 as [|E a v r x E1 y E2 V R IH]; [apply more_refl|]. exact (more_trans _ _ _ (more_var _ _ _ _ _ _ V) IH). Qed.
Lemma more_decl E d x E' : okDecl E d x E' -> more E E'.
Proof. intros H. destruct H as [E t d vs x n l c m k V R]. exact (more_vars _ _ _ _ _ _ _ R). Qed.
Lemma more_cond E c x E' : okCond E c x E' -> more E E'.
Proof. intros H. destruct H; apply more_same; reflexivity. Qed.
Lemma more_opt E c x E' : okOpt E c x E' -> more E E'.
Proof. intros H. destruct H; apply more_same; reflexivity. Qed.
Lemma more_ini E i x E' : okIni E i x E' -> more E E'.
Proof. intros H. destruct H as [| |E d x E' H]; [apply more_same; reflexivity|apply more_same; reflexivity|exact (more_decl _ _ _ _ H)]. Qed.
Lemma more_leave E E' : more E E' -> more E (leave E E').
Proof. intros [r R]. unfold leave. exists (map voided r). cbn [eN]. rewrite R. apply ProgInv.setVoid_app. Qed.
Lemma more_stmt rt rd :
  (forall b E s x E', okS rt rd b E s x E' -> more E E') /\ (forall b E a q x E', okQ rt rd b E a q x E' -> more E E').
Proof.
  apply ok_mutind; intros;
    repeat match goal with
    | H : okCond _ _ _ _ |- _ => apply more_cond in H
    | H : okOpt _ _ _ _ |- _ => apply more_opt in H
    | H : okIni _ _ _ _ |- _ => apply more_ini in H
    | H : okDecl _ _ _ _ |- _ => apply more_decl in H
    end; try apply more_refl; try (apply more_same; reflexivity); try apply more_leave; eauto using more_trans.
Qed.
