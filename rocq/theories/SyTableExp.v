(* The optimiser on the table does to the tree in it what the functions of OpTree.v do
   to a tree: expressions. *)
From Coq Require Import ZArith Bool Lia List.
From Verif Require Import SyTree OpTree SyTable SyTableRep.
Import ListNotations.
Open Scope Z_scope.

(* ---- regions ---- *)
Ltac reg :=
  unfold below, apart in *; repeat match goal with
  | H : _ /\ _ |- _ => destruct H
  | H : _ \/ _ |- _ => destruct H
  | |- _ /\ _ => split
  | |- ~ _ => intro
  | |- forall _, _ => intro
  end; subst; try solve [firstorder (subst; eauto)].

Lemma below_mono : forall i (P P' Q : Z -> Prop), (forall x, P x -> P' x) -> below i P Q -> below i P' Q.
Proof. intros i P P' Q H [A [B C]]. repeat split; auto. Qed.

Lemma RE_mono : forall m i e P (P' : Z -> Prop), RE m i e P -> (forall x, P x -> P' x) -> RE m i e P'.
Proof.
  intros m i e P P' H; revert P'; induction H; intros P' HP.
  - constructor; auto.
  - apply R1 with Q; auto. exact (below_mono _ _ _ _ HP H1).
  - apply R2 with Q1 Q2; auto; [exact (below_mono _ _ _ _ HP H1)|exact (below_mono _ _ _ _ HP H2)].
  - apply RF0; auto.
  - apply RF with Q; auto. exact (below_mono _ _ _ _ HP H2).
Qed.

Lemma RE_frame : forall m m' i e P, RE m i e P -> (forall x, P x -> m' x = m x) -> RE m' i e P.
Proof.
  intros m m' i e P H; induction H; intros HP.
  - apply RLeaf; auto; rewrite HP; auto.
  - pose proof H1 as [B1 [B2 B3]]. apply R1 with Q; auto; try (rewrite HP; auto).
  - pose proof H1 as [B1 [B2 B3]]. pose proof H2 as [C1 [C2 C3]]. apply R2 with Q1 Q2; auto; rewrite HP; auto.
  - apply RF0; auto; rewrite HP; auto.
  - pose proof H2 as [B1 [B2 B3]]. apply RF with Q; auto; rewrite HP; auto.
Qed.

Lemma RE_root : forall m i e P, RE m i e P -> inTab i = true /\ P i.
Proof. intros m i e P H; destruct H; unfold below in *; tauto. Qed.

Definition tyE (e : expr) : Z :=
  match e with ENull => 0 | ELeaf k => tyL k | E1 o _ => ty1 o | E2 o _ _ => ty2 o | EFunc _ _ => SyFUNC end.
Lemma RE_ty : forall m i e P, RE m i e P -> nty (m i) = tyE e.
Proof. intros m i e P H; destruct H; assumption. Qed.
Lemma RE_val : forall m i k P, RE m i (ELeaf k) P -> nl (m i) = valL k.
Proof. intros m i k P H; inversion H; assumption. Qed.
Lemma RE_null : forall m i P, ~ RE m i ENull P.
Proof. intros m i P H; inversion H. Qed.

Lemma inTab_null : forall i, inTab i = true -> (i =? SyNULL) = false.
Proof. intros i H. unfold inTab, SyMAX, SyNULL in *. apply andb_true_iff in H. destruct H as [A B]. apply Z.leb_le in A. apply Z.ltb_lt in B. apply Z.eqb_neq. lia. Qed.

(* ---- reads and writes ---- *)
Lemma getT_ok : forall i m, inTab i = true -> getT i m = Ret (nty (m i)) m.
Proof. intros i m H. unfold getT. rewrite H. reflexivity. Qed.
Lemma getL_ok : forall i m, inTab i = true -> getL i m = Ret (nl (m i)) m.
Proof. intros i m H. unfold getL. rewrite H. reflexivity. Qed.
Lemma getR_ok : forall i m, inTab i = true -> getR i m = Ret (nr (m i)) m.
Proof. intros i m H. unfold getR. rewrite H. reflexivity. Qed.
Lemma setT_ok : forall i t m, inTab i = true -> setT i t m = Ret tt (put m i (N t (nl (m i)) (nr (m i)))).
Proof. intros i t m H. unfold setT. rewrite H. reflexivity. Qed.
Lemma setL_ok : forall i t m, inTab i = true -> setL i t m = Ret tt (put m i (N (nty (m i)) t (nr (m i)))).
Proof. intros i t m H. unfold setL. rewrite H. reflexivity. Qed.
Lemma setR_ok : forall i t m, inTab i = true -> setR i t m = Ret tt (put m i (N (nty (m i)) (nl (m i)) t)).
Proof. intros i t m H. unfold setR. rewrite H. reflexivity. Qed.
Lemma bnd_ret : forall A B (x : M A) (k : A -> M B) a m m', x m = Ret a m' -> bnd x k m = k a m'.
Proof. intros A B x k a m m' H. unfold bnd. rewrite H. reflexivity. Qed.
Lemma bnd_fail : forall A B (x : M A) (k : A -> M B) e m, x m = Fail e -> bnd x k m = Fail e.
Proof. intros A B x k e m H. unfold bnd. rewrite H. reflexivity. Qed.
Lemma put_same : forall m i x, put m i x i = x.
Proof. intros. unfold put. rewrite Z.eqb_refl. reflexivity. Qed.
Lemma put_other : forall m i x j, j <> i -> put m i x j = m j.
Proof. intros. unfold put. rewrite (proj2 (Z.eqb_neq j i)) by assumption. reflexivity. Qed.

(* memories are compared slot by slot *)
Definition sameM (m m' : mem) : Prop := forall x, m x = m' x.

(* a command ends in a table equal to m' *)
Definition ends (c : M unit) (m m' : mem) : Prop := exists m1, c m = Ret tt m1 /\ sameM m1 m'.

Lemma setNode_ok : forall i t l r m, inTab i = true -> exists m', setNode i t l r m = Ret tt m' /\ sameM m' (put m i (N t l r)).
Proof.
  intros i t l r m H. unfold setNode. rewrite (inTab_null _ H).
  rewrite (bnd_ret _ _ _ _ _ _ _ (setT_ok i t m H)).
  rewrite (bnd_ret _ _ _ _ _ _ _ (setL_ok i l _ H)).
  rewrite (setR_ok i r _ H). eexists. split; [reflexivity|].
  intro x. rewrite !put_same. simpl. unfold put. destruct (x =? i); reflexivity.
Qed.

Lemma copyNode_ok : forall i j m, inTab i = true -> inTab j = true -> exists m', copyNode i j m = Ret tt m' /\ sameM m' (put m i (m j)).
Proof.
  intros i j m H H'. unfold copyNode. rewrite (inTab_null _ H'). cbn [negb].
  rewrite (bnd_ret _ _ (ret tt) _ tt m m eq_refl).
  rewrite (bnd_ret _ _ _ _ _ _ _ (getT_ok j m H')).
  rewrite (bnd_ret _ _ _ _ _ _ _ (getL_ok j m H')).
  rewrite (bnd_ret _ _ _ _ _ _ _ (getR_ok j m H')).
  destruct (setNode_ok i (nty (m j)) (nl (m j)) (nr (m j)) m H) as [m' [A B]].
  exists m'. split; [exact A|]. intro x. rewrite B. unfold put. destruct (x =? i); [|reflexivity]. destruct (m j); reflexivity.
Qed.

(* a node is moved to a slot that is not part of the tree *)
Lemma RE_move : forall m m' i j e (P P' : Z -> Prop), RE m i e P -> inTab j = true -> P' j -> (forall x, P x -> P' x) ->
  m' j = m i -> (forall x, P x -> x <> i -> m' x = m x) -> ~ P j -> RE m' j e P'.
Proof.
  intros m m' i j e P P' H Hj HP' HPP Hm Hf Hn.
  destruct H; unfold below in *.
  - apply RLeaf; auto; rewrite Hm; assumption.
  - destruct H1 as [B1 [B2 B3]]. apply R1 with Q; auto; try (rewrite Hm; assumption).
    + repeat split; auto.
    + rewrite Hm. apply RE_frame with m; [assumption|]. intros x Hx. apply Hf; auto. intro; subst; auto.
  - destruct H1 as [B1 [B2 B3]]. destruct H2 as [C1 [C2 C3]]. apply R2 with Q1 Q2; auto; try (rewrite Hm; assumption); try (repeat split; auto).
    + rewrite Hm. apply RE_frame with m; [assumption|]. intros x Hx. apply Hf; auto. intro; subst; auto.
    + rewrite Hm. apply RE_frame with m; [assumption|]. intros x Hx. apply Hf; auto. intro; subst; auto.
  - apply RF0; auto; rewrite Hm; assumption.
  - destruct H2 as [B1 [B2 B3]]. apply RF with Q; auto; try (rewrite Hm; assumption).
    + repeat split; auto.
    + rewrite Hm. apply RE_frame with m; [assumption|]. intros x Hx. apply Hf; auto. intro; subst; auto.
Qed.

(* ---- what a command does to the tree at i ---- *)
Definition runs (c : nat -> M unit) (m m' : mem) : Prop := exists F, forall f, (F <= f)%nat -> c f m = Ret tt m'.
Definition failE (c : nat -> M unit) (m : mem) (e : operr) : Prop := exists F, forall f, (F <= f)%nat -> c f m = Fail e.
Definition okE (c : nat -> M unit) (m : mem) (i : Z) (e' : expr) (P : Z -> Prop) : Prop :=
  exists m', runs c m m' /\ RE m' i e' P /\ (forall x, ~ P x -> m' x = m x).
Definition resE (c : nat -> M unit) (m : mem) (i : Z) (r : res expr) (P : Z -> Prop) : Prop :=
  match r with Ok e' => okE c m i e' P | Err e => failE c m e end.

(* ---- tests ---- *)
Lemma isC_ok : forall m i e P, RE m i e P -> isC i m = Ret (is_cnst e) m.
Proof.
  intros m i e P H. unfold isC. destruct (RE_root _ _ _ _ H) as [A B].
  rewrite (bnd_ret _ _ _ _ _ _ _ (getT_ok i m A)). rewrite (RE_ty _ _ _ _ H). unfold ret.
  destruct e as [|k|o x|o l r|f a]; try destruct k; try destruct o; try reflexivity.
Qed.
Lemma cnstN_ok : forall m i e P n, RE m i e P -> cnstN i n m = Ret (isCnstN e n) m.
Proof.
  intros m i e P n H. unfold cnstN. rewrite (bnd_ret _ _ _ _ _ _ _ (isC_ok _ _ _ _ H)).
  destruct (RE_root _ _ _ _ H) as [A B].
  destruct e as [|k|o x|o l r|f a]; try reflexivity. destruct k; try reflexivity.
  cbn [is_cnst]. unfold getUInt. rewrite (bnd_ret _ _ _ _ _ _ _ (getL_ok i m A)). rewrite (RE_val _ _ _ _ H). reflexivity.
Qed.
Lemma cnstCnst_ok : forall m i j e d P Q, RE m i e P -> RE m j d Q -> cnstCnst i j m = Ret (is_cnst e && is_cnst d) m.
Proof.
  intros m i j e d P Q H H'. unfold cnstCnst. rewrite (bnd_ret _ _ _ _ _ _ _ (isC_ok _ _ _ _ H)).
  destruct (is_cnst e); [|reflexivity]. exact (isC_ok _ _ _ _ H').
Qed.
Lemma orM_ok : forall a b x y m, a m = Ret x m -> b m = Ret y m -> orM a b m = Ret (x || y) m.
Proof. intros a b x y m A B. unfold orM. rewrite (bnd_ret _ _ _ _ _ _ _ A). destruct x; [reflexivity|exact B]. Qed.
Lemma uInt_ok : forall m i v P, RE m i (Cnst v) P -> getUInt i m = Ret v m.
Proof. intros m i v P H. destruct (RE_root _ _ _ _ H) as [A B]. unfold getUInt. rewrite (getL_ok i m A), (RE_val _ _ _ _ H). reflexivity. Qed.
Lemma sInt_ok : forall m i v P, RE m i (Cnst v) P -> sInt i m = Ret (getSInt v) m.
Proof. intros m i v P H. unfold sInt. rewrite (bnd_ret _ _ _ _ _ _ _ (uInt_ok _ _ _ _ H)). reflexivity. Qed.
Lemma bInt_ok : forall m i v P, RE m i (Cnst v) P -> bInt i m = Ret (getBool v) m.
Proof. intros m i v P H. unfold bInt. rewrite (bnd_ret _ _ _ _ _ _ _ (uInt_ok _ _ _ _ H)). reflexivity. Qed.

Definition hasL (e : expr) : bool := match e with E1 _ _ | E2 _ _ _ => true | _ => false end.
Definition hasR (e : expr) : bool := match e with E2 _ _ _ => true | EFunc _ ENull => false | EFunc _ _ => true | _ => false end.
Lemma needL_ok : forall m i e P, RE m i e P -> needL i m = Ret (hasL e) m.
Proof.
  intros m i e P H. unfold needL. destruct (RE_root _ _ _ _ H) as [A B].
  rewrite (bnd_ret _ _ _ _ _ _ _ (getT_ok i m A)). rewrite (RE_ty _ _ _ _ H). unfold ret.
  destruct e as [|k|o x|o l r|f a]; try destruct k; try destruct o; try reflexivity.
Qed.
Lemma needR_ok : forall m i e P, RE m i e P -> needR i m = Ret (hasR e) m.
Proof.
  intros m i e P H. unfold needR. destruct (RE_root _ _ _ _ H) as [A B].
  rewrite (bnd_ret _ _ _ _ _ _ _ (getT_ok i m A)), (bnd_ret _ _ _ _ _ _ _ (getR_ok i m A)). rewrite (RE_ty _ _ _ _ H). unfold ret.
  destruct e as [|k|o x|o l r|f a]; try (destruct k; reflexivity); try (destruct o; reflexivity); [inversion H|].
  inversion H as [| | |i' f' P' T1 T2 T3 T4 T5|i' f' a' P' Q T1 T2 T3 T4 T5]; subst.
  - rewrite T5. reflexivity.
  - destruct (RE_root _ _ _ _ T5) as [A' B']. rewrite (inTab_null _ A'). destruct a; try reflexivity. inversion T5.
Qed.

(* ---- the results a step can have ---- *)
Lemma okE_const : forall c m i v (P : Z -> Prop), inTab i = true -> P i ->
  (exists m', (forall f : nat, c f m = Ret tt m') /\ sameM m' (put m i (N SyCNST v SyNULL))) -> okE c m i (Cnst v) P.
Proof.
  intros c m i v P A B [m' [C D]]. exists m'. split; [exists O; intros; apply C|]. split.
  - apply RLeaf; auto; rewrite D, put_same; reflexivity.
  - intros x Hx. rewrite D, put_other; [reflexivity|]. intro; subst; auto.
Qed.
Lemma setUInt_ok : forall i v m, inTab i = true -> exists m', setUInt i v m = Ret tt m' /\ sameM m' (put m i (N SyCNST v SyNULL)).
Proof. intros. apply setNode_ok. assumption. Qed.

Definition stepE (c : M unit) m i e P := okE (fun _ => c) m i e P.
Lemma step_const : forall m i v (P : Z -> Prop), inTab i = true -> P i -> stepE (setUInt i v) m i (Cnst v) P.
Proof. intros m i v P A B. destruct (setUInt_ok i v m A) as [m' [C D]]. apply okE_const; auto. exists m'. split; auto. Qed.
Lemma step_bool : forall m i v (P : Z -> Prop), inTab i = true -> P i -> stepE (setB i v) m i (OpTree.setBool v) P.
Proof. intros m i v P A B. destruct v; apply step_const; assumption. Qed.
Lemma step_ret : forall m i e P, RE m i e P -> stepE (ret tt) m i e P.
Proof. intros m i e P H. exists m. split; [exists O; reflexivity|]. split; auto. Qed.
Lemma step_copy : forall m i j e P Q, inTab i = true -> below i P Q -> RE m j e Q -> stepE (copyNode i j) m i e P.
Proof.
  intros m i j e P Q A [B1 [B2 B3]] H. destruct (RE_root _ _ _ _ H) as [C D].
  destruct (copyNode_ok i j m A C) as [m' [E G]]. exists m'. split; [exists O; auto|]. split.
  - apply RE_move with m j Q; auto. { rewrite G, put_same. reflexivity. }
    intros x Hx Hj. rewrite G, put_other; [reflexivity|]. intro; subst; auto.
  - intros x Hx. rewrite G, put_other; [reflexivity|]. intro; subst; auto.
Qed.
Lemma step_unary : forall m i j o e P Q, inTab i = true -> below i P Q -> RE m j e Q -> stepE (setNode i (ty1 o) j SyNULL) m i (E1 o e) P.
Proof.
  intros m i j o e P Q A B H. pose proof B as [B1 [B2 B3]].
  destruct (setNode_ok i (ty1 o) j SyNULL m A) as [m' [E G]]. exists m'. split; [exists O; auto|]. split.
  - apply R1 with Q; auto. { rewrite G, put_same. reflexivity. }
    rewrite G, put_same. simpl. apply RE_frame with m; [assumption|].
    intros x Hx. rewrite G, put_other; [reflexivity|]. intro; subst; auto.
  - intros x Hx. rewrite G, put_other; [reflexivity|]. intro; subst; auto.
Qed.

Lemma step_pre : forall A (x : M A) k a m i e P, x m = Ret a m -> stepE (k a) m i e P -> stepE (bnd x k) m i e P.
Proof.
  intros A x k a m i e P H [m' [[F B] C]]. exists m'. split; [exists F|exact C].
  intros f Hf. rewrite (bnd_ret _ _ _ _ _ _ _ H). apply B with f. exact Hf.
Qed.

(* the step for one node, its parts being done *)
Definition stepR (c : M unit) m i (r : res expr) P := resE (fun _ => c) m i r P.
Lemma stepR_pre : forall A (x : M A) k a m i e P, x m = Ret a m -> stepR (k a) m i e P -> stepR (bnd x k) m i e P.
Proof.
  intros A x k a m i e P H R. destruct e as [e|e].
  - exact (step_pre _ _ _ _ _ _ _ _ H R).
  - destruct R as [F R]. exists F. intros f Hf. rewrite (bnd_ret _ _ _ _ _ _ _ H). apply R with f. exact Hf.
Qed.

Lemma is_cnst_inv : forall e, is_cnst e = true -> exists v, e = Cnst v.
Proof. intros e H. destruct e as [|k|o x|o l r|f a]; try discriminate. destruct k; try discriminate. eauto. Qed.

Lemma disp1 : forall m i o e P Q j r, RE m i (E1 o e) P -> inTab i = true -> below i P Q -> RE m j e Q -> stepE (tDispatch (ty1 o) i j r) m i (opt1 o e) P.
Proof.
  intros m i o e P Q j r HR A B H. pose proof B as [B1 [B2 B3]].
  destruct (is_cnst e) eqn:E.
  - destruct (is_cnst_inv _ E) as [v ->].
    destruct o; unfold tDispatch; cbn -[Z.land Z.lnot Z.opp getSInt getBool bnd ret setB setUInt];
    (apply step_pre with true; [exact (isC_ok _ _ _ _ H)|]).
    + apply step_pre with (getSInt v); [exact (sInt_ok _ _ _ _ H)|]. apply step_const; auto.
    + apply step_pre with (getBool v); [exact (bInt_ok _ _ _ _ H)|]. apply step_bool; auto.
    + apply step_pre with v; [exact (uInt_ok _ _ _ _ H)|]. apply step_const; auto.
    + apply step_pre with v; [exact (uInt_ok _ _ _ _ H)|]. apply step_const; auto.
    + apply step_pre with (getBool v); [exact (bInt_ok _ _ _ _ H)|]. apply step_bool; auto.
  - replace (opt1 o e) with (E1 o e) by (destruct e as [|k|? x|? l ?|f a]; try reflexivity; destruct k; try reflexivity; discriminate).
    assert (K : isC j m = Ret false m) by (rewrite <- E; exact (isC_ok _ _ _ _ H)).
    destruct o; unfold tDispatch; cbn -[bnd ret]; (apply step_pre with false; [exact K|]); apply step_ret; exact HR.
Qed.

Ltac both l r := let E := fresh in destruct l as [|[]| | |], r as [|[]| | |]; try reflexivity; discriminate.

Section Disp2.
  Variables (m : mem) (i il ir : Z) (l r : expr) (P Q1 Q2 : Z -> Prop).
  Hypothesis (A : inTab i = true) (B1 : below i P Q1) (B2 : below i P Q2).
  Hypothesis (HL : RE m il l Q1) (HR : RE m ir r Q2).

  Ltac go :=
    repeat match goal with
    | |- stepR (bnd (orM (cnstN ?x ?a) (cnstN ?y ?b)) _) _ _ _ _ =>
        eapply stepR_pre; [apply orM_ok; eapply cnstN_ok; eassumption|cbv beta]
    | |- stepR (bnd (cnstN ?x ?a) _) _ _ _ _ => eapply stepR_pre; [eapply cnstN_ok; eassumption|cbv beta]
    | |- stepR (if ?b then _ else _) _ _ (if ?b then _ else _) _ => destruct b
    | |- stepR (if ?b then _ else _) _ _ (Ok (if ?b then _ else _)) _ => destruct b
    end.
  Ltac done_ :=
    match goal with
    | |- stepR (ret tt) _ _ _ _ => apply step_ret; assumption
    | |- stepR (copyNode _ ir) _ _ _ _ => exact (step_copy m i ir r P Q2 A B2 HR)
    | |- stepR (copyNode _ il) _ _ _ _ => exact (step_copy m i il l P Q1 A B1 HL)
    | |- stepR (setUInt _ _) _ _ _ _ => apply step_const; [exact A|exact (proj1 B1)]
    | |- stepR (setB _ _) _ _ _ _ => apply step_bool; [exact A|exact (proj1 B1)]
    | |- stepR (setNode _ SyNEG ir _) _ _ _ _ => exact (step_unary m i ir NEG r P Q2 A B2 HR)
    | |- stepR (setNode _ SyNEG il _) _ _ _ _ => exact (step_unary m i il NEG l P Q1 A B1 HL)
    | |- stepR (setNode _ SyBNOT ir _) _ _ _ _ => exact (step_unary m i ir BNOT r P Q2 A B2 HR)
    | |- stepR (setNode _ SyBNOT il _) _ _ _ _ => exact (step_unary m i il BNOT l P Q1 A B1 HL)
    | |- stepR (fail _) _ _ _ _ => exists O; intros; reflexivity
    end.
  Ltac cc :=
    eapply stepR_pre; [eapply cnstCnst_ok; eassumption|cbv beta].
  Ltac rd :=
    repeat (first [eapply stepR_pre; [eapply sInt_ok; eassumption|cbv beta]
                  |eapply stepR_pre; [eapply uInt_ok; eassumption|cbv beta]]).

  Lemma dAdd : RE m i (E2 ADD l r) P -> stepR (tAdd i il ir) m i (Ok (optAdd l r)) P.
  Proof.
    intros HE. unfold tAdd. cc. destruct (is_cnst l && is_cnst r) eqn:E.
    - apply andb_true_iff in E. destruct E as [E1 E2]. apply is_cnst_inv in E1, E2. destruct E1 as [a Ea], E2 as [b Eb]; rewrite Ea, Eb in *. rd. done_.
    - replace (optAdd l r) with (if isCnstN l 0 then r else if isCnstN r 0 then l else E2 ADD l r) by (clear - E; both l r).
      go; done_.
  Qed.
  Lemma dSub : RE m i (E2 SUB l r) P -> stepR (tSub i il ir) m i (Ok (optSub l r)) P.
  Proof.
    intros HE. unfold tSub. cc. destruct (is_cnst l && is_cnst r) eqn:E.
    - apply andb_true_iff in E. destruct E as [E1 E2]. apply is_cnst_inv in E1, E2. destruct E1 as [a Ea], E2 as [b Eb]; rewrite Ea, Eb in *. rd. done_.
    - replace (optSub l r) with (if isCnstN l 0 then E1 NEG r else if isCnstN r 0 then l else E2 SUB l r) by (clear - E; both l r).
      go; done_.
  Qed.
  Lemma dBAnd : RE m i (E2 BAND l r) P -> stepR (tBAnd i il ir) m i (Ok (optBAnd l r)) P.
  Proof.
    intros HE. unfold tBAnd. cc. destruct (is_cnst l && is_cnst r) eqn:E.
    - apply andb_true_iff in E. destruct E as [E1 E2]. apply is_cnst_inv in E1, E2. destruct E1 as [a Ea], E2 as [b Eb]; rewrite Ea, Eb in *. rd. done_.
    - replace (optBAnd l r) with (if isCnstN l 0 || isCnstN r 0 then Cnst 0 else if isCnstN l WMSK then r else if isCnstN r WMSK then l else E2 BAND l r) by (clear - E; both l r).
      go; done_.
  Qed.
  Lemma dBOr : RE m i (E2 BOR l r) P -> stepR (tBOr i il ir) m i (Ok (optBOr l r)) P.
  Proof.
    intros HE. unfold tBOr. cc. destruct (is_cnst l && is_cnst r) eqn:E.
    - apply andb_true_iff in E. destruct E as [E1 E2]. apply is_cnst_inv in E1, E2. destruct E1 as [a Ea], E2 as [b Eb]; rewrite Ea, Eb in *. rd. done_.
    - replace (optBOr l r) with (if isCnstN l WMSK || isCnstN r WMSK then Cnst WMSK else if isCnstN l 0 then r else if isCnstN r 0 then l else E2 BOR l r) by (clear - E; both l r).
      go; done_.
  Qed.
  Lemma dBXor : RE m i (E2 BXOR l r) P -> stepR (tBXor i il ir) m i (Ok (optBXor l r)) P.
  Proof.
    intros HE. unfold tBXor. cc. destruct (is_cnst l && is_cnst r) eqn:E.
    - apply andb_true_iff in E. destruct E as [E1 E2]. apply is_cnst_inv in E1, E2. destruct E1 as [a Ea], E2 as [b Eb]; rewrite Ea, Eb in *. rd. done_.
    - replace (optBXor l r) with (if isCnstN l WMSK then E1 BNOT r else if isCnstN l 0 then r else if isCnstN r WMSK then E1 BNOT l else if isCnstN r 0 then l else E2 BXOR l r) by (clear - E; both l r).
      go; done_.
  Qed.
  Lemma dMul : RE m i (E2 MUL l r) P -> stepR (tMul i il ir) m i (Ok (optMul l r)) P.
  Proof.
    intros HE. unfold tMul. cc. destruct (is_cnst l && is_cnst r) eqn:E.
    - apply andb_true_iff in E. destruct E as [E1 E2]. apply is_cnst_inv in E1, E2. destruct E1 as [a Ea], E2 as [b Eb]; rewrite Ea, Eb in *. rd. done_.
    - replace (optMul l r) with (if isCnstN l 0 || isCnstN r 0 then Cnst 0 else if isCnstN l 1 then r else if isCnstN r 1 then l
         else if isCnstN l WMSK then E1 NEG r else if isCnstN r WMSK then E1 NEG l else E2 MUL l r) by (clear - E; both l r).
      go; done_.
  Qed.
  Lemma dDiv : RE m i (E2 DIV l r) P -> stepR (tDiv i il ir) m i (optDiv l r) P.
  Proof.
    intros HE. unfold tDiv, optDiv. go; [done_|]. cc. destruct (is_cnst l && is_cnst r) eqn:E.
    - apply andb_true_iff in E. destruct E as [E1 E2]. apply is_cnst_inv in E1, E2. destruct E1 as [a Ea], E2 as [b Eb]; rewrite Ea, Eb in *. rd. done_.
    - replace (match l with Cnst a => match r with Cnst b => Ok (Cnst (Z.quot (getSInt a) (getSInt b))) | _ => if isCnstN r 1 then Ok l else Ok (E2 DIV l r) end
                 | _ => if isCnstN r 1 then Ok l else Ok (E2 DIV l r) end) with (if isCnstN r 1 then Ok l else Ok (E2 DIV l r)) by (clear - E; both l r).
      go; done_.
  Qed.
  Lemma dMod : RE m i (E2 MOD l r) P -> stepR (tMod i il ir) m i (optMod l r) P.
  Proof.
    intros HE. unfold tMod, optMod. go; [done_|]. cc. destruct (is_cnst l && is_cnst r) eqn:E.
    - apply andb_true_iff in E. destruct E as [E1 E2]. apply is_cnst_inv in E1, E2. destruct E1 as [a Ea], E2 as [b Eb]; rewrite Ea, Eb in *. rd. done_.
    - replace (match l with Cnst a => match r with Cnst b => Ok (Cnst (Z.rem (getSInt a) (getSInt b))) | _ => if isCnstN r 1 then Ok (Cnst 0) else Ok (E2 MOD l r) end
                 | _ => if isCnstN r 1 then Ok (Cnst 0) else Ok (E2 MOD l r) end) with (if isCnstN r 1 then Ok (Cnst 0) else Ok (E2 MOD l r)) by (clear - E; both l r).
      go; done_.
  Qed.
  Lemma dOr : RE m i (E2 OR l r) P -> stepR (tOr i il ir) m i (Ok (optOr l r)) P.
  Proof. intros HE. unfold tOr, optOr. go; done_. Qed.
  Lemma dAnd : RE m i (E2 AND l r) P -> stepR (tAnd i il ir) m i (Ok (optAnd l r)) P.
  Proof. intros HE. unfold tAnd, optAnd. go; done_. Qed.
  Lemma dShl : RE m i (E2 SHL l r) P -> stepR (tShl i il ir) m i (optShl l r) P.
  Proof.
    intros HE. unfold tShl. destruct (RE_root _ _ _ _ HR) as [C D].
    eapply stepR_pre; [apply (getL_ok ir m C)|]. cbv beta.
    eapply stepR_pre; [eapply isC_ok; eassumption|]. cbv beta.
    destruct (is_cnst r) eqn:E.
    - apply is_cnst_inv in E. destruct E as [b Eb]. rewrite Eb in HR. rewrite Eb in HE. rewrite Eb. unfold optShl. rewrite (RE_val _ _ _ _ HR). cbn [valL].
      destruct ((b <? 0) || (16 <=? b)); [done_|]. go.
      + done_.
      + cc. rewrite andb_true_r. destruct (is_cnst l) eqn:E'.
        * apply is_cnst_inv in E'. destruct E' as [a Ea]. rewrite Ea in *. rd. done_.
        * destruct l as [|[]| | |]; try discriminate; done_.
    - assert (N0 : isCnstN r 0 = false) by (clear - E; destruct r as [|[]| | |]; try reflexivity; discriminate).
      replace (optShl l r) with (Ok (E2 SHL l r)) by (clear - E; unfold optShl; destruct r as [|[]| | |]; try reflexivity; discriminate).
      go. rewrite N0. cc. rewrite E, andb_false_r. done_.
  Qed.
  Lemma dShr : RE m i (E2 SHR l r) P -> stepR (tShr i il ir) m i (optShr l r) P.
  Proof.
    intros HE. unfold tShr. destruct (RE_root _ _ _ _ HR) as [C D].
    eapply stepR_pre; [apply (getL_ok ir m C)|]. cbv beta.
    eapply stepR_pre; [eapply isC_ok; eassumption|]. cbv beta.
    destruct (is_cnst r) eqn:E.
    - apply is_cnst_inv in E. destruct E as [b Eb]. rewrite Eb in HR. rewrite Eb in HE. rewrite Eb. unfold optShr. rewrite (RE_val _ _ _ _ HR). cbn [valL].
      destruct ((b <? 0) || (16 <=? b)); [done_|]. go.
      + done_.
      + cc. rewrite andb_true_r. destruct (is_cnst l) eqn:E'.
        * apply is_cnst_inv in E'. destruct E' as [a Ea]. rewrite Ea in *. rd. done_.
        * destruct l as [|[]| | |]; try discriminate; done_.
    - assert (N0 : isCnstN r 0 = false) by (clear - E; destruct r as [|[]| | |]; try reflexivity; discriminate).
      replace (optShr l r) with (Ok (E2 SHR l r)) by (clear - E; unfold optShr; destruct r as [|[]| | |]; try reflexivity; discriminate).
      go. rewrite N0. cc. rewrite E, andb_false_r. done_.
  Qed.
  Lemma dCmpS : forall o (f : Z -> Z -> bool), RE m i (E2 o l r) P ->
    (forall a b, optCmp o (Cnst a) (Cnst b) = OpTree.setBool (f (getSInt a) (getSInt b))) -> stepR (tCmpS f i il ir) m i (Ok (optCmp o l r)) P.
  Proof.
    intros o f HE Hf. unfold tCmpS. cc. destruct (is_cnst l && is_cnst r) eqn:E.
    - apply andb_true_iff in E. destruct E as [E1 E2]. apply is_cnst_inv in E1, E2. destruct E1 as [a Ea], E2 as [b Eb]; rewrite Ea, Eb in *. rd. rewrite Hf. done_.
    - replace (optCmp o l r) with (E2 o l r) by (clear - E; both l r). done_.
  Qed.
  Lemma dCmpU : forall o (f : Z -> Z -> bool), RE m i (E2 o l r) P ->
    (forall a b, optCmp o (Cnst a) (Cnst b) = OpTree.setBool (f a b)) -> stepR (tCmpU f i il ir) m i (Ok (optCmp o l r)) P.
  Proof.
    intros o f HE Hf. unfold tCmpU. cc. destruct (is_cnst l && is_cnst r) eqn:E.
    - apply andb_true_iff in E. destruct E as [E1 E2]. apply is_cnst_inv in E1, E2. destruct E1 as [a Ea], E2 as [b Eb]; rewrite Ea, Eb in *.
      eapply stepR_pre; [exact (uInt_ok _ _ _ _ HL)|]. cbv beta. eapply stepR_pre; [exact (uInt_ok _ _ _ _ HR)|]. cbv beta. rewrite Hf. done_.
    - replace (optCmp o l r) with (E2 o l r) by (clear - E; both l r). done_.
  Qed.

  Lemma disp2 : forall o, RE m i (E2 o l r) P -> stepR (tDispatch (ty2 o) i il ir) m i (opt2 o l r) P.
  Proof.
    intros o HE. destruct o; try (apply step_ret; exact HE).
    - exact (dAdd HE).
    - exact (dSub HE).
    - exact (dShl HE).
    - exact (dShr HE).
    - exact (dBAnd HE).
    - exact (dBXor HE).
    - exact (dBOr HE).
    - exact (dMul HE).
    - exact (dDiv HE).
    - exact (dMod HE).
    - apply (dCmpS GT (fun a b => b <? a) HE). reflexivity.
    - apply (dCmpS GE (fun a b => b <=? a) HE). reflexivity.
    - apply (dCmpS LT (fun a b => a <? b) HE). reflexivity.
    - apply (dCmpS LE (fun a b => a <=? b) HE). reflexivity.
    - apply (dCmpU EQU (fun a b => a =? b) HE). reflexivity.
    - apply (dCmpU NEQ (fun a b => negb (a =? b)) HE). reflexivity.
    - exact (dOr HE).
    - exact (dAnd HE).
  Qed.
End Disp2.

(* ---- composition ---- *)
Lemma runs_seq : forall c k m m1 m2, runs c m m1 -> runs k m1 m2 -> runs (fun f => c f ;; k f) m m2.
Proof.
  intros c k m m1 m2 [F A] [G B]. exists (Nat.max F G). intros f Hf.
  rewrite (bnd_ret _ _ _ _ _ _ _ (A f ltac:(lia))). apply B. lia.
Qed.
Lemma fail_seq1 : forall c k m e, failE c m e -> failE (fun f => c f ;; k f) m e.
Proof. intros c k m e [F A]. exists F. intros f Hf. apply bnd_fail. auto. Qed.
Lemma fail_seq2 : forall c k m m1 e, runs c m m1 -> failE k m1 e -> failE (fun f => c f ;; k f) m e.
Proof.
  intros c k m m1 e [F A] [G B]. exists (Nat.max F G). intros f Hf.
  rewrite (bnd_ret _ _ _ _ _ _ _ (A f ltac:(lia))). apply B. lia.
Qed.
Lemma runs_pre : forall A (x : M A) (k : nat -> A -> M unit) a m m', x m = Ret a m -> runs (fun f => k f a) m m' -> runs (fun f => bnd x (k f)) m m'.
Proof. intros A x k a m m' H [F B]. exists F. intros f Hf. rewrite (bnd_ret _ _ _ _ _ _ _ H). auto. Qed.
Lemma fail_pre : forall A (x : M A) (k : nat -> A -> M unit) a m e, x m = Ret a m -> failE (fun f => k f a) m e -> failE (fun f => bnd x (k f)) m e.
Proof. intros A x k a m m' H [F B]. exists F. intros f Hf. rewrite (bnd_ret _ _ _ _ _ _ _ H). auto. Qed.
Lemma runs_S : forall c d m m', (forall f, d (S f) = c f) -> runs c m m' -> runs d m m'.
Proof. intros c d m m' E [F A]. exists (S F). intros f Hf. destruct f as [|f]; [lia|]. rewrite E. apply A. lia. Qed.
Lemma fail_S : forall c d m e, (forall f, d (S f) = c f) -> failE c m e -> failE d m e.
Proof. intros c d m e E [F A]. exists (S F). intros f Hf. destruct f as [|f]; [lia|]. rewrite E. apply A. lia. Qed.
Lemma runs_now : forall c m m', (forall f, c f m = Ret tt m') -> runs c m m'.
Proof. intros c m m' A. exists O. auto. Qed.

(* sequences of two commands on the same tree *)
Lemma ok_seq : forall c k m i e e' P, okE c m i e P -> (forall m1, RE m1 i e P -> (forall x, ~ P x -> m1 x = m x) -> okE k m1 i e' P) ->
  okE (fun f => c f ;; k f) m i e' P.
Proof.
  intros c k m i e e' P [m1 [A [B C]]] H. destruct (H m1 B C) as [m2 [D [E G]]].
  exists m2. split; [exact (runs_seq _ _ _ _ _ A D)|]. split; [exact E|]. intros x Hx. rewrite G, C; auto.
Qed.
Lemma res_seq : forall c k m i r g P, resE c m i r P -> (forall e m1, r = Ok e -> RE m1 i e P -> (forall x, ~ P x -> m1 x = m x) -> resE k m1 i (g e) P) ->
  resE (fun f => c f ;; k f) m i (bind r g) P.
Proof.
  intros c k m i r g P A H. destruct r as [e|e]; cbn [bind].
  - destruct A as [m1 [A [B C]]]. specialize (H e m1 eq_refl B C). destruct (g e) as [e'|e'].
    + destruct H as [m2 [D [E G]]]. exists m2. split; [exact (runs_seq _ _ _ _ _ A D)|]. split; [exact E|]. intros x Hx. rewrite G, C; auto.
    + exact (fail_seq2 _ _ _ _ _ A H).
  - apply fail_seq1. exact A.
Qed.
Lemma res_pre : forall A (x : M A) (k : nat -> A -> M unit) a m i r P, x m = Ret a m -> resE (fun f => k f a) m i r P -> resE (fun f => bnd x (k f)) m i r P.
Proof.
  intros A x k a m i r P H R. destruct r as [e|e].
  - destruct R as [m' [B C]]. exists m'. split; [exact (runs_pre _ _ _ _ _ _ H B)|exact C].
  - exact (fail_pre _ _ _ _ _ _ H R).
Qed.
Lemma res_S : forall c d m i r P, (forall f, d (S f) = c f) -> resE c m i r P -> resE d m i r P.
Proof.
  intros c d m i r P E R. destruct r as [e|e].
  - destruct R as [m' [B C]]. exists m'. split; [exact (runs_S _ _ _ _ E B)|exact C].
  - exact (fail_S _ _ _ _ E R).
Qed.

(* a command on a part of a tree *)
Lemma frame_off : forall (m m' : mem) (P Q : Z -> Prop) i, (forall x, ~ Q x -> m' x = m x) -> below i P Q -> m' i = m i /\ (forall x, ~ P x -> m' x = m x).
Proof. intros m m' P Q i H [A [B C]]. split; auto. Qed.

Lemma part1 : forall (m m' : mem) i o e e' P Q, inTab i = true -> nty (m i) = ty1 o -> below i P Q -> RE m (nl (m i)) e Q ->
  RE m' (nl (m i)) e' Q -> (forall x, ~ Q x -> m' x = m x) -> RE m' i (E1 o e') P.
Proof.
  intros m m' i o e e' P Q A B C D E G. destruct (frame_off _ _ _ _ _ G C) as [H1 H2].
  apply R1 with Q; auto; rewrite H1; assumption.
Qed.
Lemma partL : forall (m m' : mem) i o (l : expr) l' r P Q1 Q2, inTab i = true -> nty (m i) = ty2 o -> below i P Q1 -> below i P Q2 -> apart Q1 Q2 ->
  RE m (nr (m i)) r Q2 -> RE m' (nl (m i)) l' Q1 -> (forall x, ~ Q1 x -> m' x = m x) -> RE m' i (E2 o l' r) P.
Proof.
  intros m m' i o l l' r P Q1 Q2 A B C D S E G H. destruct (frame_off _ _ _ _ _ H C) as [H1 H2].
  apply R2 with Q1 Q2; auto; rewrite H1; auto. apply RE_frame with m; [assumption|]. intros x Hx. apply H. intro. exact (S x H0 Hx).
Qed.
Lemma partR : forall (m m' : mem) i o l r' P Q1 Q2, inTab i = true -> nty (m i) = ty2 o -> below i P Q1 -> below i P Q2 -> apart Q1 Q2 ->
  RE m (nl (m i)) l Q1 -> RE m' (nr (m i)) r' Q2 -> (forall x, ~ Q2 x -> m' x = m x) -> RE m' i (E2 o l r') P.
Proof.
  intros m m' i o l r' P Q1 Q2 A B C D S E G H. destruct (frame_off _ _ _ _ _ H D) as [H1 H2].
  apply R2 with Q1 Q2; auto; rewrite H1; auto. apply RE_frame with m; [assumption|]. intros x Hx. apply H. intro. exact (S x Hx H0).
Qed.
Lemma partF : forall (m m' : mem) i f a' P Q, inTab i = true -> nty (m i) = SyFUNC -> nl (m i) = f -> below i P Q ->
  RE m' (nr (m i)) a' Q -> (forall x, ~ Q x -> m' x = m x) -> RE m' i (EFunc f a') P.
Proof.
  intros m m' i f a' P Q A B C D E G. destruct (frame_off _ _ _ _ _ G D) as [H1 H2].
  apply RF with Q; auto; rewrite H1; assumption.
Qed.

(* ---- calExp ---- *)
Lemma mask_ok : forall m i e P, RE m i e P -> stepE (tMask i) m i (maskC e) P.
Proof.
  intros m i e P H. destruct (RE_root _ _ _ _ H) as [A B]. unfold tMask.
  apply step_pre with (is_cnst e); [exact (isC_ok _ _ _ _ H)|]. destruct (is_cnst e) eqn:E.
  - apply is_cnst_inv in E. destruct E as [v ->]. apply step_pre with v; [exact (uInt_ok _ _ _ _ H)|].
    eexists. split; [apply runs_now; intro; apply setL_ok; exact A|]. split.
    + apply RLeaf; auto; rewrite put_same; [exact (RE_ty _ _ _ _ H)|reflexivity].
    + intros x Hx. rewrite put_other; [reflexivity|]. intro; subst; auto.
  - replace (maskC e) with e by (destruct e as [|[]| | |]; try reflexivity; discriminate). apply step_ret. exact H.
Qed.

Definition calBody (f : nat) (n : Z) : M unit :=
    let^ ty := getT n in let^ l := getL n in let^ r := getR n in
    (when needL n then tCal f l else ret tt) ;;
    (when needR n then tCal f r else ret tt) ;;
    tDispatch ty n l r ;;
    tMask n.


Lemma res_then : forall c k (m m1 : mem) i r (P : Z -> Prop), runs c m m1 -> (forall x, ~ P x -> m1 x = m x) -> resE k m1 i r P -> resE (fun f => c f ;; k f) m i r P.
Proof.
  intros c k m m1 i r P A B H. destruct r as [e|e].
  - destruct H as [m2 [D [E G]]]. exists m2. split; [exact (runs_seq _ _ _ _ _ A D)|]. split; [exact E|]. intros x Hx. rewrite G, B; auto.
  - exact (fail_seq2 _ _ _ _ _ A H).
Qed.
Definition whenL (i : Z) (c : nat -> M unit) : nat -> M unit := fun f => when needL i then c f else ret tt.
Definition whenR (i : Z) (c : nat -> M unit) : nat -> M unit := fun f => when needR i then c f else ret tt.
Lemma whenL_no : forall m i e P c, RE m i e P -> hasL e = false -> runs (whenL i c) m m.
Proof. intros m i e P c H E. unfold whenL. eapply (runs_pre _ (needL i) (fun f b => if b then c f else ret tt)); [exact (needL_ok _ _ _ _ H)|]. rewrite E. apply runs_now. reflexivity. Qed.
Lemma whenR_no : forall m i e P c, RE m i e P -> hasR e = false -> runs (whenR i c) m m.
Proof. intros m i e P c H E. unfold whenR. eapply (runs_pre _ (needR i) (fun f b => if b then c f else ret tt)); [exact (needR_ok _ _ _ _ H)|]. rewrite E. apply runs_now. reflexivity. Qed.
Lemma whenL_run : forall m m' i e P c, RE m i e P -> hasL e = true -> runs c m m' -> runs (whenL i c) m m'.
Proof. intros m m' i e P c H E R. unfold whenL. eapply (runs_pre _ (needL i) (fun f b => if b then c f else ret tt)); [exact (needL_ok _ _ _ _ H)|]. rewrite E. exact R. Qed.
Lemma whenR_run : forall m m' i e P c, RE m i e P -> hasR e = true -> runs c m m' -> runs (whenR i c) m m'.
Proof. intros m m' i e P c H E R. unfold whenR. eapply (runs_pre _ (needR i) (fun f b => if b then c f else ret tt)); [exact (needR_ok _ _ _ _ H)|]. rewrite E. exact R. Qed.
Lemma whenL_fail : forall m x i e P c, RE m i e P -> hasL e = true -> failE c m x -> failE (whenL i c) m x.
Proof. intros m m' i e P c H E R. unfold whenL. eapply (fail_pre _ (needL i) (fun f b => if b then c f else ret tt)); [exact (needL_ok _ _ _ _ H)|]. rewrite E. exact R. Qed.
Lemma whenR_fail : forall m x i e P c, RE m i e P -> hasR e = true -> failE c m x -> failE (whenR i c) m x.
Proof. intros m m' i e P c H E R. unfold whenR. eapply (fail_pre _ (needR i) (fun f b => if b then c f else ret tt)); [exact (needR_ok _ _ _ _ H)|]. rewrite E. exact R. Qed.

(* the last two steps *)
Lemma fin_ok : forall m i r P d, stepR d m i r P -> resE (fun _ => d ;; tMask i) m i (bind r (fun e => Ok (maskC e))) P.
Proof.
  intros m i r P d H. apply (res_seq (fun _ => d) (fun _ => tMask i) m i r (fun e => Ok (maskC e)) P H).
  intros e m1 _ R _. exact (mask_ok _ _ _ _ R).
Qed.

Definition calRest (i ty l r : Z) (f : nat) : M unit :=
  whenL i (fun f => tCal f l) f ;; whenR i (fun f => tCal f r) f ;; tDispatch ty i l r ;; tMask i.
Lemma cal_start : forall m i e P r0, RE m i e P -> resE (calRest i (tyE e) (nl (m i)) (nr (m i))) m i r0 P -> resE (fun f => tCal f i) m i r0 P.
Proof.
  intros m i e P r0 H R. destruct (RE_root _ _ _ _ H) as [A B].
  apply res_S with (fun f => calBody f i); [reflexivity|]. unfold calBody.
  eapply res_pre; [exact (getT_ok i m A)|]. eapply res_pre; [exact (getL_ok i m A)|]. eapply res_pre; [exact (getR_ok i m A)|].
  rewrite (RE_ty _ _ _ _ H). exact R.
Qed.

Lemma cal_ok : forall e m i P, RE m i e P -> resE (fun f => tCal f i) m i (calExp e) P.
Proof.
  induction e as [|k|o e IH|o l IHl r IHr|f a IHa]; intros m i P H; [exfalso; exact (RE_null _ _ _ H)| | | |];
    apply (cal_start _ _ _ _ _ H); unfold calRest.
  - apply (res_then _ _ m m); [exact (whenL_no _ _ _ _ _ H eq_refl)|auto|].
    apply (res_then _ _ m m); [exact (whenR_no _ _ _ _ _ H eq_refl)|auto|].
    apply (fin_ok m i (Ok (ELeaf k)) P). destruct k; apply step_ret; exact H.
  - inversion H as [|i' o' e' P' Q A T B R| | |]; subst. specialize (IH _ _ _ R). cbn [calExp].
    destruct (calExp e) as [e1|x]; cbn [bind].
    2:{ apply fail_seq1. exact (whenL_fail _ _ _ _ _ _ H eq_refl IH). }
    destruct IH as [m1 [X [Y W]]]. destruct (frame_off _ _ _ _ _ W B) as [Ei Eo].
    assert (H1 : RE m1 i (E1 o e1) P) by exact (part1 _ _ _ _ _ _ _ _ A T B R Y W).
    apply (res_then _ _ m m1); [exact (whenL_run _ _ _ _ _ _ H eq_refl X)|exact Eo|].
    apply (res_then _ _ m1 m1); [exact (whenR_no _ _ _ _ _ H1 eq_refl)|auto|].
    apply (fin_ok m1 i (Ok (opt1 o e1)) P). exact (disp1 _ _ _ _ _ _ _ _ H1 A B Y).
  - inversion H as [| |i' o' l' r' P' Q1 Q2 A T B1 B2 D Rl Rr| |]; subst. specialize (IHl _ _ _ Rl). cbn [calExp].
    destruct (calExp l) as [l1|x]; cbn [bind].
    2:{ apply fail_seq1. exact (whenL_fail _ _ _ _ _ _ H eq_refl IHl). }
    destruct IHl as [m1 [X1 [Y1 W1]]]. destruct (frame_off _ _ _ _ _ W1 B1) as [Ei Eo].
    assert (H1 : RE m1 i (E2 o l1 r) P) by exact (partL _ _ _ _ l _ _ _ _ _ A T B1 B2 D Rr Y1 W1).
    apply (res_then _ _ m m1); [exact (whenL_run _ _ _ _ _ _ H eq_refl X1)|exact Eo|].
    assert (Rr1 : RE m1 (nr (m i)) r Q2). { apply RE_frame with m; [exact Rr|]. intros x Hx. apply W1. intro K. exact (D x K Hx). }
    specialize (IHr _ _ _ Rr1). destruct (calExp r) as [r1|x]; cbn [bind].
    2:{ apply fail_seq1. exact (whenR_fail _ _ _ _ _ _ H1 eq_refl IHr). }
    destruct IHr as [m2 [X2 [Y2 W2]]]. destruct (frame_off _ _ _ _ _ W2 B2) as [Ej Eo2].
    assert (Rl2 : RE m2 (nl (m i)) l1 Q1). { apply RE_frame with m1; [exact Y1|]. intros x Hx. apply W2. intro K. exact (D x Hx K). }
    assert (H2 : RE m2 i (E2 o l1 r1) P).
    { apply R2 with Q1 Q2; auto; rewrite Ej, Ei; auto. }
    apply (res_then _ _ m1 m2); [exact (whenR_run _ _ _ _ _ _ H1 eq_refl X2)|exact Eo2|].
    apply (fin_ok m2 i (opt2 o l1 r1) P). exact (disp2 _ _ _ _ _ _ _ _ _ A B1 B2 Rl2 Y2 _ H2).
  - apply (res_then _ _ m m); [exact (whenL_no _ _ _ _ _ H eq_refl)|auto|].
    inversion H as [| | |i' f' P' A B T E1 E2|i' f' a' P' Q A T E B R]; subst.
    + apply (res_then _ _ m m); [exact (whenR_no _ _ _ _ _ H eq_refl)|auto|].
      apply (fin_ok m i (Ok (EFunc (nl (m i)) ENull)) P). apply step_ret. exact H.
    + specialize (IHa _ _ _ R).
      assert (Na : hasR (EFunc (nl (m i)) a) = true) by (destruct a; try reflexivity; inversion R).
      replace (calExp (EFunc (nl (m i)) a)) with (bind (calExp a) (fun a' => Ok (EFunc (nl (m i)) a'))) by (destruct a; try reflexivity; inversion R).
      destruct (calExp a) as [a1|x]; cbn [bind].
      2:{ apply fail_seq1. exact (whenR_fail _ _ _ _ _ _ H Na IHa). }
      destruct IHa as [m1 [X [Y W]]]. destruct (frame_off _ _ _ _ _ W B) as [Ei Eo].
      assert (H1 : RE m1 i (EFunc (nl (m i)) a1) P) by exact (partF _ _ _ _ _ _ _ A T eq_refl B Y W).
      apply (res_then _ _ m m1); [exact (whenR_run _ _ _ _ _ _ H Na X)|exact Eo|].
      apply (fin_ok m1 i (Ok (EFunc (nl (m i)) a1)) P). apply step_ret. exact H1.
Qed.
