(* The optimiser on the table: statements. *)
From Coq Require Import ZArith Bool Lia List.
From Verif Require Import SyTree OpTree SyTable SyTableRep SyTableExp SyTableMove.
Import ListNotations.
Open Scope Z_scope.

(* ---- noSemi is kept ---- *)
Lemma semi2 : forall o l r, noSemi (E2 o l r) = true <-> op2_eqb o SEMI = false /\ noSemi l = true /\ noSemi r = true.
Proof. intros o l r. cbn [noSemi]. rewrite !andb_true_iff, negb_true_iff. tauto. Qed.

Lemma move_semi : forall e, (noSemi e = true -> noSemi (moveLeft e) = true) /\
  (forall o a, op2_eqb o SEMI = false -> noSemi a = true -> noSemi e = true -> noSemi (pull o a e) = true).
Proof.
  induction e as [|k|o e [IH _]|o l [IHl IHl'] r [IHr IHr']|f a [IHa _]].
  - split; [auto|]. intros. apply semi2; auto.
  - split; [auto|]. intros. apply semi2; auto.
  - split; [exact IH|]. intros o' a A B C. apply semi2; auto.
  - assert (S : noSemi (E2 o l r) = true -> noSemi (moveLeft (E2 o l r)) = true).
    { intro H. apply semi2 in H. destruct H as [A [B C]]. cbn [moveLeft]. apply IHr'; auto. }
    split; [exact S|]. intros o' a A B H. cbn [pull]. destruct (canPull o' o) eqn:C.
    + apply semi2 in H. destruct H as [E [F G]]. apply IHr'; auto. destruct o', o; try discriminate; reflexivity.
    + apply semi2. split; [exact A|]. split; [exact B|]. exact (S H).
  - split; [auto|]. intros. apply semi2; auto.
Qed.

Lemma mask_semi : forall e, noSemi e = true -> noSemi (maskC e) = true.
Proof. intros e H. destruct e as [|[]| | |]; auto. Qed.

Ltac ifs := repeat match goal with |- context [if ?b then _ else _] => destruct b end.
Ltac sm := first [assumption | reflexivity | (apply semi2; repeat split; assumption)].

Lemma opt2_semi : forall o l r e, opt2 o l r = Ok e -> op2_eqb o SEMI = false -> noSemi l = true -> noSemi r = true -> noSemi e = true.
Proof.
  intros o l r e H A B C.
  assert (D : noSemi (E2 o l r) = true) by (apply semi2; auto).
  assert (K : forall v, noSemi (Cnst v) = true) by reflexivity.
  assert (U1 : forall u, noSemi (E1 u l) = true) by (intro; exact B).
  assert (U2 : forall u, noSemi (E1 u r) = true) by (intro; exact C).
  assert (KB : forall b, noSemi (OpTree.setBool b) = true) by reflexivity.
  destruct o; cbn [opt2] in H; try discriminate; try (injection H as <-; assumption);
    unfold optAdd, optSub, optShl, optShr, optBAnd, optBOr, optBXor, optMul, optDiv, optMod, optOr, optAnd, optCmp in H;
    repeat match goal with
    | H : context [isCnstN ?a ?b] |- _ => destruct (isCnstN a b); cbn [orb] in H
    | H : context [if ?b then _ else _] |- _ => destruct b
    | H : Err _ = Ok _ |- _ => discriminate
    | H : Ok _ = Ok _ |- _ => injection H as <-
    | H : context [match l with _ => _ end] |- _ => destruct l as [|[]| | |]
    | H : context [match r with _ => _ end] |- _ => destruct r as [|[]| | |]
    | |- context [match l with _ => _ end] => destruct l as [|[]| | |]
    | |- context [match r with _ => _ end] => destruct r as [|[]| | |]
    end; auto.
Qed.

Lemma opt1_semi : forall o e, noSemi e = true -> noSemi (opt1 o e) = true.
Proof. intros o e H. destruct e as [|[]| | |]; try exact H; destruct o; reflexivity. Qed.

Lemma cal_semi : forall e e', calExp e = Ok e' -> noSemi e = true -> noSemi e' = true.
Proof.
  induction e as [|k|o e IH|o l IHl r IHr|f a IHa]; intros e' H N; cbn [calExp] in H.
  - discriminate.
  - injection H as <-. destruct k; reflexivity.
  - destruct (calExp e) as [e1|]; cbn [bind] in H; [|discriminate]. injection H as <-. apply mask_semi, opt1_semi. apply IH; auto.
  - apply semi2 in N. destruct N as [A [B C]]. destruct (calExp l) as [l1|]; cbn [bind] in H; [|discriminate].
    destruct (calExp r) as [r1|]; cbn [bind] in H; [|discriminate].
    destruct (opt2 o l1 r1) as [e1|] eqn:E; cbn [bind] in H; [|discriminate]. injection H as <-.
    apply mask_semi. exact (opt2_semi _ _ _ _ E A (IHl _ eq_refl B) (IHr _ eq_refl C)).
  - destruct a; try (injection H as <-; reflexivity);
    match type of H with bind ?x _ = _ => destruct x; cbn [bind] in H; [injection H as <-; reflexivity|discriminate] end.
Qed.

Lemma push_semi : forall l op c, op2_eqb op SEMI = false -> noSemi l = true -> noSemi c = true -> noSemi (pushC op l c) = true.
Proof.
  induction l as [|k|o e IH|lop x IHx a IHa|f a IHa]; intros op c A B C; cbn [pushC]; try (apply semi2; auto; fail).
  apply semi2 in B as B'. destruct B' as [B1 [B2 B3]].
  destruct ((op2_eqb lop op || op2_eqb op ADD && op2_eqb lop SUB) && negb (is_cnst a)).
  - apply semi2. auto.
  - destruct (op2_eqb lop op).
    + apply semi2. split; [exact A|]. split; [exact B2|]. apply semi2. destruct (op2_eqb op DIV); auto.
    + apply semi2. auto.
Qed.
Lemma moveCnst_semi : forall o l r, op2_eqb o SEMI = false -> noSemi l = true -> noSemi r = true -> noSemi (moveCnst o l r) = true.
Proof.
  intros o l r A B C. unfold moveCnst. destruct (normSub o r) as [o' r'] eqn:E.
  assert (X : op2_eqb o' SEMI = false /\ noSemi r' = true).
  { unfold normSub in E. destruct o, r as [|[]| | |]; injection E as <- <-; auto. }
  destruct X as [X Y]. destruct (movable o' && is_cnst r'); [apply push_semi; auto|apply semi2; auto].
Qed.
Lemma arr_semi : forall e e', arrExp e = Ok e' -> noSemi e = true -> noSemi e' = true.
Proof.
  induction e as [|k|o e IH|o l IHl r IHr|f a IHa]; intros e' H N; cbn [arrExp] in H.
  - discriminate.
  - exact (cal_semi _ _ H N).
  - destruct (arrExp e) as [e1|]; cbn [bind] in H; [|discriminate]. apply (cal_semi _ _ H). exact (IH _ eq_refl N).
  - apply semi2 in N. destruct N as [A [B C]]. destruct (arrExp r) as [r1|]; cbn [bind] in H; [|discriminate].
    destruct (arrExp l) as [l1|]; cbn [bind] in H; [|discriminate].
    apply (cal_semi _ _ H). apply moveCnst_semi; [exact A|exact (IHl _ eq_refl B)|exact (IHr _ eq_refl C)].
  - destruct a; try (match type of H with bind ?x _ = _ => destruct x; cbn [bind] in H; [|discriminate] end); exact (cal_semi _ _ H eq_refl).
Qed.
Lemma exp_semi : forall e e', optExp e = Ok e' -> noSemi e = true -> noSemi e' = true.
Proof.
  intros e e' H N. assert (M : noSemi (moveLeft e) = true) by (apply move_semi; exact N).
  unfold optExp in H. destruct e; try (injection H as <-; reflexivity); exact (arr_semi _ _ H M).
Qed.

(* ---- regions ---- *)
Lemma ROpt_mono : forall m i e P (P' : Z -> Prop), ROpt m i e P -> (forall x, P x -> P' x) -> ROpt m i e P'.
Proof. intros m i e P P' [H|H] S; [left; exact H|right; exact (RE_mono _ _ _ _ _ H S)]. Qed.
Lemma ROpt_frame : forall m m' i e P, ROpt m i e P -> (forall x, P x -> m' x = m x) -> ROpt m' i e P.
Proof. intros m m' i e P [H|H] S; [left; exact H|right; exact (RE_frame _ _ _ _ _ H S)]. Qed.

Lemma RS_mono : forall m i s P (P' : Z -> Prop), RS m i s P -> (forall x, P x -> P' x) -> RS m i s P'.
Proof.
  intros m i s P P' H; revert P'; induction H; intros P' HP; pose proof (fun i Q => below_mono i P P' Q HP) as BM.
  - constructor.
  - constructor; auto. exact (RE_mono _ _ _ _ _ H HP).
  - constructor; auto.
  - apply RSIf with Q1 Q2; auto.
  - apply RSEls with j Q1 Q2 Q3; auto.
  - apply RSWhl with j Q1 Q2 Q3; auto.
  - apply RSDo with Q1 Q2; auto.
  - constructor; auto.
  - constructor; auto.
  - apply RSRet with Q; auto.
  - apply RSSemi with Q1 Q2; auto.
  - apply RSBlk with Q1 Q2; auto.
Qed.

Lemma below_sub : forall i P Q x, below i P Q -> Q x -> P x.
Proof. intros i P Q x [_ [H _]]. apply H. Qed.
Lemma below_root : forall i P Q, below i P Q -> P i.
Proof. intros i P Q [H _]. exact H. Qed.

Lemma RS_frame : forall m m' i s P, RS m i s P -> (forall x, P x -> m' x = m x) -> RS m' i s P.
Proof.
  intros m m' i s P H; induction H; intros HP.
  - constructor.
  - constructor; auto. exact (RE_frame _ _ _ _ _ H HP).
  - constructor; auto; rewrite HP; auto.
  - pose proof (HP i (below_root _ _ _ H1)) as Ei. apply RSIf with Q1 Q2; auto; rewrite Ei; auto.
    + apply RE_frame with m; auto. intros x Hx. apply HP. exact (below_sub _ _ _ _ H1 Hx).
    + apply IHRS. intros x Hx. apply HP. exact (below_sub _ _ _ _ H2 Hx).
  - match goal with A1 : below i P Q1, A2 : below i P Q2, A3 : below i P Q3, A4 : below j P Q1 |- _ =>
      pose proof (HP i (below_root _ _ _ A1)) as Ei; pose proof (HP j (below_root _ _ _ A4)) as Ej;
      pose proof (fun x (Hx : Q1 x) => HP x (below_sub _ _ _ _ A1 Hx)) as S1;
      pose proof (fun x (Hx : Q2 x) => HP x (below_sub _ _ _ _ A2 Hx)) as S2;
      pose proof (fun x (Hx : Q3 x) => HP x (below_sub _ _ _ _ A3 Hx)) as S3 end.
    apply RSEls with j Q1 Q2 Q3; auto; rewrite ?Ei, ?Ej; auto. apply RE_frame with m; auto.
  - match goal with A1 : below i P Q1, A2 : below i P Q2, A3 : below i P Q3, A4 : below j P Q1 |- _ =>
      pose proof (HP i (below_root _ _ _ A1)) as Ei; pose proof (HP j (below_root _ _ _ A4)) as Ej;
      pose proof (fun x (Hx : Q1 x) => HP x (below_sub _ _ _ _ A1 Hx)) as S1;
      pose proof (fun x (Hx : Q2 x) => HP x (below_sub _ _ _ _ A2 Hx)) as S2;
      pose proof (fun x (Hx : Q3 x) => HP x (below_sub _ _ _ _ A3 Hx)) as S3 end.
    apply RSWhl with j Q1 Q2 Q3; auto; rewrite ?Ei, ?Ej; auto; apply ROpt_frame with m; auto.
  - pose proof (HP i (below_root _ _ _ H1)) as Ei. apply RSDo with Q1 Q2; auto; rewrite Ei; auto.
    + apply IHRS. intros x Hx. apply HP. exact (below_sub _ _ _ _ H1 Hx).
    + apply RE_frame with m; auto. intros x Hx. apply HP. exact (below_sub _ _ _ _ H2 Hx).
  - constructor; auto; rewrite HP; auto.
  - constructor; auto; rewrite HP; auto.
  - pose proof (HP i (below_root _ _ _ H1)) as Ei. apply RSRet with Q; auto; rewrite Ei; auto.
    apply ROpt_frame with m; auto. intros x Hx. apply HP. exact (below_sub _ _ _ _ H1 Hx).
  - pose proof (HP i (below_root _ _ _ H1)) as Ei. apply RSSemi with Q1 Q2; auto; rewrite Ei; auto.
    + apply IHRS1. intros x Hx. apply HP. exact (below_sub _ _ _ _ H1 Hx).
    + apply IHRS2. intros x Hx. apply HP. exact (below_sub _ _ _ _ H2 Hx).
  - pose proof (HP i (below_root _ _ _ H1)) as Ei. apply RSBlk with Q1 Q2; auto; rewrite Ei; auto.
    + apply IHRS1. intros x Hx. apply HP. exact (below_sub _ _ _ _ H1 Hx).
    + apply IHRS2. intros x Hx. apply HP. exact (below_sub _ _ _ _ H2 Hx).
Qed.

Lemma below_move : forall i j (P P' Q : Z -> Prop), below i P Q -> P' j -> (forall x, P x -> P' x) -> ~ P j -> below j P' Q.
Proof. intros i j P P' Q [A [B C]] H S N. repeat split; auto. Qed.
Lemma below_up : forall i (P P' Q : Z -> Prop), below i P Q -> (forall x, P x -> P' x) -> below i P' Q.
Proof. intros i P P' Q [A [B C]] S. repeat split; auto. Qed.

Lemma RS_move : forall m m' i j s (P P' : Z -> Prop), RS m i s P -> s <> SNull -> inTab j = true -> P' j -> (forall x, P x -> P' x) ->
  m' j = m i -> (forall x, P x -> x <> i -> m' x = m x) -> ~ P j -> RS m' j s P'.
Proof.
  intros m m' i j s P P' H Hs Hj HP' HPP Hm Hf Hn.
  assert (F : forall Q, below i P Q -> forall x, Q x -> m' x = m x).
  { intros Q [B1 [B2 B3]] x Hx. apply Hf; auto. intro; subst; auto. }
  assert (BM : forall Q, below i P Q -> below j P' Q) by (intros Q B; exact (below_move _ _ _ _ _ B HP' HPP Hn)).
  destruct H.
  - congruence.
  - constructor; auto. exact (RE_move _ _ _ _ _ _ _ H Hj HP' HPP Hm Hf Hn).
  - constructor; auto; rewrite Hm; auto.
  - apply RSIf with Q1 Q2; auto; rewrite Hm; auto.
    + apply RE_frame with m; [assumption|eapply F; eassumption].
    + apply RS_frame with m; [assumption|eapply F; eassumption].
  - match goal with A4 : below ?k P Q1, N : i <> ?k |- _ =>
      assert (Ek : m' k = m k) by (apply Hf; [exact (below_root _ _ _ A4)|congruence]);
      assert (Nk : j <> k) by (intro; subst; apply Hn; exact (below_root _ _ _ A4));
      apply RSEls with k Q1 Q2 Q3; auto; rewrite ?Hm, ?Ek; auto; try (eapply below_up; [eassumption|assumption]) end.
    + apply RE_frame with m; [assumption|eapply F; eassumption].
    + apply RS_frame with m; [assumption|eapply F; eassumption].
    + apply RS_frame with m; [assumption|eapply F; eassumption].
  - match goal with A4 : below ?k P Q1, N : i <> ?k |- _ =>
      assert (Ek : m' k = m k) by (apply Hf; [exact (below_root _ _ _ A4)|congruence]);
      assert (Nk : j <> k) by (intro; subst; apply Hn; exact (below_root _ _ _ A4));
      apply RSWhl with k Q1 Q2 Q3; auto; rewrite ?Hm, ?Ek; auto; try (eapply below_up; [eassumption|assumption]) end.
    + apply ROpt_frame with m; [assumption|eapply F; eassumption].
    + apply RS_frame with m; [assumption|eapply F; eassumption].
    + apply ROpt_frame with m; [assumption|eapply F; eassumption].
  - apply RSDo with Q1 Q2; auto; rewrite Hm; auto.
    + apply RS_frame with m; [assumption|eapply F; eassumption].
    + apply RE_frame with m; [assumption|eapply F; eassumption].
  - constructor; auto; rewrite Hm; auto.
  - constructor; auto; rewrite Hm; auto.
  - apply RSRet with Q; auto; rewrite Hm; auto. apply ROpt_frame with m; [assumption|eapply F; eassumption].
  - apply RSSemi with Q1 Q2; auto; rewrite Hm; auto; (apply RS_frame with m; [assumption|eapply F; eassumption]).
  - apply RSBlk with Q1 Q2; auto; rewrite Hm; auto; (apply RS_frame with m; [assumption|eapply F; eassumption]).
Qed.

Lemma RS_root : forall m i s P, RS m i s P -> (i = SyNULL /\ s = SNull) \/ (inTab i = true /\ P i /\ s <> SNull).
Proof.
  intros m i s P H. destruct H; try (right; split; [assumption|]; split; [first [assumption|eapply below_root; eassumption]|discriminate]).
  - left; auto.
  - right. destruct (RE_root _ _ _ _ H) as [A B]. split; [exact A|]. split; [exact B|discriminate].
Qed.

(* ---- what a command does to the statement at i ---- *)
Definition okS (c : nat -> M unit) (m : mem) (i : Z) (s : stmt) (P : Z -> Prop) : Prop :=
  exists m', runs c m m' /\ RS m' i s P /\ (forall x, ~ P x -> m' x = m x).
Definition resS (c : nat -> M unit) (m : mem) (i : Z) (r : res stmt) (P : Z -> Prop) : Prop :=
  match r with Ok s => okS c m i s P | Err e => failE c m e end.
Lemma resS_then : forall c k (m m1 : mem) i r (P : Z -> Prop), runs c m m1 -> (forall x, ~ P x -> m1 x = m x) -> resS k m1 i r P -> resS (fun f => c f ;; k f) m i r P.
Proof.
  intros c k m m1 i r P A B H. destruct r as [e|e].
  - destruct H as [m2 [D [E G]]]. exists m2. split; [exact (runs_seq _ _ _ _ _ A D)|]. split; [exact E|]. intros x Hx. rewrite G, B; auto.
  - exact (fail_seq2 _ _ _ _ _ A H).
Qed.
Lemma resS_pre : forall A (x : M A) (k : nat -> A -> M unit) a m i r P, x m = Ret a m -> resS (fun f => k f a) m i r P -> resS (fun f => bnd x (k f)) m i r P.
Proof.
  intros A x k a m i r P H R. destruct r as [e|e].
  - destruct R as [m' [B C]]. exists m'. split; [exact (runs_pre _ _ _ _ _ _ H B)|exact C].
  - exact (fail_pre _ _ _ _ _ _ H R).
Qed.
Lemma resS_S : forall c d m i r P, (forall f, d (S f) = c f) -> resS c m i r P -> resS d m i r P.
Proof.
  intros c d m i r P E R. destruct r as [e|e].
  - destruct R as [m' [B C]]. exists m'. split; [exact (runs_S _ _ _ _ E B)|exact C].
  - exact (fail_S _ _ _ _ E R).
Qed.
Lemma resS_ext : forall c d m i r P, (forall f, d f m = c f m) -> resS c m i r P -> resS d m i r P.
Proof.
  intros c d m i r P E R. destruct r as [e|e].
  - destruct R as [m' [[F B] C]]. exists m'. split; [exists F; intros f Hf; rewrite E; auto|exact C].
  - destruct R as [F R]. exists F. intros f Hf. rewrite E. auto.
Qed.
Lemma okS_ret : forall m i s P, RS m i s P -> okS (fun _ => ret tt) m i s P.
Proof. intros m i s P H. exists m. split; [exists O; reflexivity|]. split; auto. Qed.

(* expressions that may be missing *)
Definition okO (c : nat -> M unit) (m : mem) (i : Z) (e : expr) (P : Z -> Prop) : Prop :=
  exists m', runs c m m' /\ ROpt m' i e P /\ (forall x, ~ P x -> m' x = m x).
Definition resO (c : nat -> M unit) (m : mem) (i : Z) (r : res expr) (P : Z -> Prop) : Prop :=
  match r with Ok e => okO c m i e P | Err e => failE c m e end.
Lemma opt_ok : forall e m i P, ROpt m i e P -> resO (fun f => tExp f i) m i (optExp e) P.
Proof.
  intros e m i P [[-> ->]|H].
  - exists m. split; [exists O; reflexivity|]. split; [left; auto|auto].
  - pose proof (exp_ok _ _ _ _ H) as K. destruct (optExp e) as [e1|]; [|exact K].
    destruct K as [m' [A [B C]]]. exists m'. split; [exact A|]. split; [right; exact B|exact C].
Qed.

(* copyNode of a body over the statement *)
Lemma copy_body : forall m i j b (P Q : Z -> Prop), inTab i = true -> SyISSTAT (nty (m i)) = true -> below i P Q -> RS m j b Q ->
  exists m2, copyNode i j m = Ret tt m2 /\ RS m2 i (copyStmt b) P /\ (forall x, ~ P x -> m2 x = m x).
Proof.
  intros m i j b P Q A St [B1 [B2 B3]] H. destruct (RS_root _ _ _ _ H) as [[-> ->]|[Aj [Pj Nb]]].
  - unfold copyNode. rewrite Z.eqb_refl. cbn [negb].
    rewrite (bnd_ret _ _ _ _ tt m m). 2:{ rewrite (bnd_ret _ _ _ _ _ _ _ (getT_ok i m A)). rewrite St. reflexivity. }
    destruct (setNode_ok i SySEMI SyNULL SyNULL m A) as [m2 [X Y]]. exists m2. split; [exact X|]. split.
    + apply RSSemi with (fun _ => False) (fun _ => False); auto.
      * rewrite Y, put_same. reflexivity.
      * repeat split; auto; contradiction.
      * repeat split; auto; contradiction.
      * intros x [].
      * rewrite Y, put_same. constructor.
      * rewrite Y, put_same. constructor.
    + intros x Hx. rewrite Y, put_other; [reflexivity|]. intro; subst; auto.
  - destruct (copyNode_ok i j m A Aj) as [m2 [X Y]]. exists m2. split; [exact X|]. split.
    + replace (copyStmt b) with b by (destruct b; try reflexivity; congruence).
      apply RS_move with m j Q; auto. { rewrite Y, put_same. reflexivity. }
      intros x Hx Hj. rewrite Y, put_other; [reflexivity|]. intro; subst; auto.
    + intros x Hx. rewrite Y, put_other; [reflexivity|]. intro; subst; auto.
Qed.

Definition treeSpec (s : stmt) : Prop := forall m i P, RS m i s P -> resS (fun f => tTree f i) m i (optTree s) P.

(* the body of tTree, in the order of the tests *)
Definition ifBody (i : Z) (f : nat) : M unit :=
      let^ cnd := getL i in tExp f cnd ;;
      when isC cnd
      then (when bInt cnd then ((let^ b := getR i in copyNode i b) ;; tTree f i) else copyNode i cnd)
      else let^ b := getR i in tTree f b.
Definition elsBody (i : Z) (f : nat) : M unit :=
      let^ ifs := getL i in let^ cnd := getL ifs in tExp f cnd ;;
      when isC cnd
      then ((when bInt cnd then (let^ b := getR ifs in copyNode i b) else let^ b := getR i in copyNode i b) ;; tTree f i)
      else ((let^ b := getR i in tTree f b) ;; let^ b := getR ifs in tTree f b).
Definition loopBody (i : Z) (f : nat) : M unit :=
  (let^ s := getR i in let^ b := getL s in tTree f b) ;; let^ s := getR i in let^ e := getR s in tExp f e.
Definition whlBody (i : Z) (f : nat) : M unit :=
      let^ cnd := getL i in tExp f cnd ;;
      when (if negb (cnd =? SyNULL) then isC cnd else ret false)
      then (when bInt cnd then (setL i SyNULL ;; loopBody i f) else copyNode i cnd)
      else loopBody i f.
Definition doBody (i : Z) (f : nat) : M unit :=
      let^ cnd := getR i in let^ sta := getL i in tExp f cnd ;; tTree f sta ;;
      when isC cnd
      then (when bInt cnd
            then (setT i SyWHL ;; setT cnd SySEMI ;; setL cnd sta ;; setR cnd SyNULL ;; setR i cnd ;; setL i SyNULL)
            else copyNode i sta)
      else ret tt.
Definition blkBody (i : Z) (f : nat) : M unit := (let^ l := getL i in tTree f l) ;; let^ r := getR i in tTree f r.
Definition treeBody (i ty : Z) (f : nat) : M unit :=
    if ty =? SyVAR then ret tt
    else if ty =? SyIF then ifBody i f
    else if ty =? SyELS then elsBody i f
    else if ty =? SyWHL then whlBody i f
    else if ty =? SyDO then doBody i f
    else if (ty =? SyBRK) || (ty =? SyCNT) then ret tt
    else if ty =? SyRET then let^ e := getL i in tExp f e
    else if (ty =? SySEMI) || (ty =? SyBLK) then blkBody i f
    else if (ty =? SyARRY) || (ty =? SyLIST) then bug
    else tExp f i.

Lemma tree_start : forall m i r P, inTab i = true -> resS (treeBody i (nty (m i))) m i r P -> resS (fun f => tTree f i) m i r P.
Proof.
  intros m i r P A R. apply (resS_S (fun f => let^ ty := getT i in treeBody i ty f)).
  - intro f. cbn [tTree]. rewrite (inTab_null _ A). reflexivity.
  - eapply (resS_pre _ (getT i) (fun f ty => treeBody i ty f)); [exact (getT_ok i m A)|exact R].
Qed.

Lemma empty_tree : forall m i P, RS m i (SSemi SNull SNull) P -> runs (fun f => tTree f i) m m.
Proof.
  intros m i P H. inversion H as [| | | | | | | | | |i' l' r' P' Q1 Q2 A T B1 B2 D Rl Rr|]; subst.
  destruct (RS_root _ _ _ _ Rl) as [[El _]|[_ [_ K]]]; [|congruence].
  destruct (RS_root _ _ _ _ Rr) as [[Er _]|[_ [_ K]]]; [|congruence].
  exists 2%nat. intros f Hf. destruct f as [|[|f]]; [lia|lia|].
  cbn [tTree]. rewrite (inTab_null _ A). rewrite (bnd_ret _ _ _ _ _ _ _ (getT_ok i m A)), T. cbn -[bnd getL getR tTree SyNULL].
  unfold bnd at 1. rewrite (bnd_ret _ _ _ _ _ _ _ (getL_ok i m A)), El.
  rewrite Z.eqb_refl. unfold ret at 1. rewrite (bnd_ret _ _ _ _ _ _ _ (getR_ok i m A)), Er, Z.eqb_refl. reflexivity.
Qed.

Lemma tree_copy : forall b m i P, treeSpec b -> inTab i = true -> RS m i (copyStmt b) P ->
  resS (fun f => tTree f i) m i (bind (optTree b) (fun x => Ok (copyStmt x))) P.
Proof.
  intros b m i P IH A H. assert (E : b = SNull \/ b <> SNull) by (destruct b; [left; reflexivity|right; discriminate..]).
  destruct E as [->|E].
  - cbn [optTree bind copyStmt] in *. exists m. split; [exact (empty_tree _ _ _ H)|]. split; auto.
  - replace (copyStmt b) with b in H by (destruct b; try reflexivity; congruence).
    specialize (IH m i P H). destruct (optTree b) as [s|e]; [|exact IH]. cbn [bind].
    destruct IH as [m' [X [Y W]]]. exists m'. split; [exact X|]. split; [|exact W].
    destruct (RS_root _ _ _ _ Y) as [[K _]|[_ [_ K]]]; [rewrite K in A; vm_compute in A; discriminate|].
    replace (copyStmt s) with s by (destruct s; try reflexivity; congruence). exact Y.
Qed.

Lemma noSemi_ty : forall e m i P, RE m i e P -> noSemi e = true -> treeBody i (tyE e) = fun f => tExp f i.
Proof.
  intros e m i P H N. destruct e as [|k|o x|o l r|f a]; try (destruct k; reflexivity); try (destruct o; reflexivity); try reflexivity.
  destruct o; try reflexivity. discriminate.
Qed.

Lemma resS_fail : forall c m i e P, failE c m e -> resS c m i (Err e) P.
Proof. auto. Qed.

Lemma cnst_cases : forall (A : Type) (c : expr) (f : Z -> A) (g : A),
  match c with Cnst v => f v | _ => g end = if is_cnst c then f (match c with Cnst v => v | _ => 0 end) else g.
Proof. intros A c f g. destruct c as [|[]| | |]; reflexivity. Qed.

Lemma tree_if : forall c b, treeSpec b -> treeSpec (SIf c b).
Proof.
  intros c b IH m i P H. inversion H as [| | |i' c' b' P' Q1 Q2 A T B1 B2 D Rc Rb| | | | | | | |]; subst.
  apply tree_start; [exact A|]. rewrite T. change (treeBody i SyIF) with (ifBody i). unfold ifBody.
  eapply resS_pre; [exact (getL_ok i m A)|]. cbn [optTree].
  pose proof (exp_ok _ _ _ _ Rc) as E. destruct (optExp c) as [c1|x]; cbn [bind].
  2:{ apply fail_seq1. exact E. }
  destruct E as [m1 [X1 [Y1 W1]]]. destruct (frame_off _ _ _ _ _ W1 B1) as [Ei Eo].
  apply (resS_then _ _ m m1); [exact X1|exact Eo|].
  assert (Rb1 : RS m1 (nr (m i)) b Q2). { apply RS_frame with m; [exact Rb|]. intros x Hx. apply W1. intro K. exact (D x K Hx). }
  eapply resS_pre; [exact (isC_ok _ _ _ _ Y1)|]. rewrite cnst_cases. destruct (is_cnst c1) eqn:Ec.
  - destruct (is_cnst_inv _ Ec) as [v ->]. eapply resS_pre; [exact (bInt_ok _ _ _ _ Y1)|]. destruct (getBool v).
    + destruct (copy_body m1 i (nr (m i)) b P Q2 A ltac:(rewrite Ei, T; reflexivity) B2 Rb1) as [m2 [X2 [Y2 W2]]].
      apply (resS_then (fun _ => let^ b := getR i in copyNode i b) _ m1 m2).
      * exists O. intros f _. rewrite (bnd_ret _ _ _ _ _ _ _ (getR_ok i m1 A)), Ei. exact X2.
      * exact W2.
      * exact (tree_copy b m2 i P IH A Y2).
    + destruct (step_copy m1 i (nl (m i)) (Cnst v) P Q1 A B1 Y1) as [m2 [X2 [Y2 W2]]].
      exists m2. split; [exact X2|]. split; [constructor; [exact Y2|reflexivity]|exact W2].
  - eapply resS_pre; [exact (getR_ok i m1 A)|]. rewrite Ei. specialize (IH _ _ _ Rb1).
    destruct (optTree b) as [b1|x]; cbn [bind]; [|exact IH].
    destruct IH as [m2 [X2 [Y2 W2]]]. destruct (frame_off _ _ _ _ _ W2 B2) as [Ej Eo2].
    exists m2. split; [exact X2|]. split; [|exact Eo2].
    apply RSIf with Q1 Q2; auto; rewrite Ej, Ei; auto.
    apply RE_frame with m1; [exact Y1|]. intros x Hx. apply W2. intro K. exact (D x Hx K).
Qed.

Lemma tree_els : forall c b1 b2, treeSpec b1 -> treeSpec b2 -> treeSpec (SEls c b1 b2).
Proof.
  intros c b1 b2 IH1 IH2 m i P H.
  inversion H as [| | | |i' j c' b1' b2' P' Q1 Q2 Q3 A Aj Nij T El Tj B1 B2 B3 C1 C2 C3 D12 D13 D23 Rc R1 R2| | | | | | |]; subst.
  remember (nl (m i)) as j eqn:Ej.
  apply tree_start; [exact A|]. rewrite T. change (treeBody i SyELS) with (elsBody i). unfold elsBody.
  eapply resS_pre; [exact (getL_ok i m A)|]. rewrite <- Ej. eapply resS_pre; [exact (getL_ok j m Aj)|]. cbn [optTree].
  pose proof (exp_ok _ _ _ _ Rc) as E. destruct (optExp c) as [c1|x]; cbn [bind].
  2:{ apply fail_seq1. exact E. }
  destruct E as [m1 [X1 [Y1 W1]]]. destruct (frame_off _ _ _ _ _ W1 B1) as [Ei Eo]. destruct (frame_off _ _ _ _ _ W1 C1) as [Ejj _].
  apply (resS_then _ _ m m1); [exact X1|exact Eo|].
  assert (Ra : RS m1 (nr (m j)) b1 Q2). { apply RS_frame with m; [exact R1|]. intros x Hx. apply W1. intro K. exact (D12 x K Hx). }
  assert (Rb : RS m1 (nr (m i)) b2 Q3). { apply RS_frame with m; [exact R2|]. intros x Hx. apply W1. intro K. exact (D13 x K Hx). }
  eapply resS_pre; [exact (isC_ok _ _ _ _ Y1)|]. rewrite cnst_cases. destruct (is_cnst c1) eqn:Ec.
  - destruct (is_cnst_inv _ Ec) as [v ->]. destruct (getBool v) eqn:Bv.
    + destruct (copy_body m1 i (nr (m j)) b1 P Q2 A ltac:(rewrite Ei, T; reflexivity) B2 Ra) as [m2 [X2 [Y2 W2]]].
      apply (resS_then (fun _ => when bInt (nl (m j)) then (let^ b := getR j in copyNode i b) else let^ b := getR i in copyNode i b) _ m1 m2).
      * exists O. intros f _. rewrite (bnd_ret _ _ _ _ _ _ _ (bInt_ok _ _ _ _ Y1)), Bv, (bnd_ret _ _ _ _ _ _ _ (getR_ok j m1 Aj)), Ejj. exact X2.
      * exact W2.
      * exact (tree_copy b1 m2 i P IH1 A Y2).
    + destruct (copy_body m1 i (nr (m i)) b2 P Q3 A ltac:(rewrite Ei, T; reflexivity) B3 Rb) as [m2 [X2 [Y2 W2]]].
      apply (resS_then (fun _ => when bInt (nl (m j)) then (let^ b := getR j in copyNode i b) else let^ b := getR i in copyNode i b) _ m1 m2).
      * exists O. intros f _. rewrite (bnd_ret _ _ _ _ _ _ _ (bInt_ok _ _ _ _ Y1)), Bv, (bnd_ret _ _ _ _ _ _ _ (getR_ok i m1 A)), Ei. exact X2.
      * exact W2.
      * exact (tree_copy b2 m2 i P IH2 A Y2).
  - specialize (IH2 _ _ _ Rb). destruct (optTree b2) as [s2|x]; cbn [bind].
    2:{ apply fail_seq1. eapply fail_pre; [exact (getR_ok i m1 A)|]. rewrite Ei. exact IH2. }
    destruct IH2 as [m2 [X2 [Y2 W2]]]. destruct (frame_off _ _ _ _ _ W2 B3) as [Ei2 Eo2]. destruct (frame_off _ _ _ _ _ W2 C3) as [Ej2 _].
    apply (resS_then (fun f => let^ b := getR i in tTree f b) _ m1 m2).
    { eapply runs_pre; [exact (getR_ok i m1 A)|]. rewrite Ei. exact X2. }
    { exact Eo2. }
    eapply resS_pre; [exact (getR_ok j m2 Aj)|]. rewrite Ej2, Ejj.
    assert (Ra2 : RS m2 (nr (m j)) b1 Q2). { apply RS_frame with m1; [exact Ra|]. intros x Hx. apply W2. intro K. exact (D23 x Hx K). }
    specialize (IH1 _ _ _ Ra2). destruct (optTree b1) as [s1|x]; cbn [bind]; [|exact IH1].
    destruct IH1 as [m3 [X3 [Y3 W3]]]. destruct (frame_off _ _ _ _ _ W3 B2) as [Ei3 Eo3]. destruct (frame_off _ _ _ _ _ W3 C2) as [Ej3 _].
    exists m3. split; [exact X3|]. split; [|exact Eo3].
    apply RSEls with j Q1 Q2 Q3; auto; rewrite ?Ei3, ?Ei2, ?Ei, ?Ej3, ?Ej2, ?Ejj; auto.
    + apply RE_frame with m2; [apply RE_frame with m1; [exact Y1|]|]; intros x Hx.
      * apply W2. intro K. exact (D13 x Hx K).
      * apply W3. intro K. exact (D12 x Hx K).
    + apply RS_frame with m2; [exact Y2|]. intros x Hx. apply W3. intro K. exact (D23 x K Hx).
Qed.

Lemma ROpt_isC : forall m i e P, ROpt m i e P -> (if negb (i =? SyNULL) then isC i else ret false) m = Ret (is_cnst e) m.
Proof.
  intros m i e P [[-> ->]|H]; [reflexivity|]. rewrite (inTab_null _ (proj1 (RE_root _ _ _ _ H))). cbn [negb]. exact (isC_ok _ _ _ _ H).
Qed.

(* the body of a loop and what follows it *)
Lemma loop_ok : forall b e c, treeSpec b -> forall m i P, RS m i (SWhl c b e) P ->
  resS (loopBody i) m i (bind (optTree b) (fun b' => bind (optExp e) (fun e' => Ok (SWhl c b' e')))) P.
Proof.
  intros b e c IH m i P H. unfold loopBody.
  inversion H as [| | | | |i' j c' b' e' P' Q1 Q2 Q3 A Aj Nij T Er Tj B1 B2 B3 C1 C2 C3 D12 D13 D23 Rc Rb Re| | | | | |]; subst.
  remember (nr (m i)) as j eqn:Ej.
  specialize (IH _ _ _ Rb). destruct (optTree b) as [b1|x]; cbn [bind].
  2:{ apply fail_seq1. eapply fail_pre; [exact (getR_ok i m A)|]. rewrite <- Ej. eapply fail_pre; [exact (getL_ok j m Aj)|]. exact IH. }
  destruct IH as [m1 [X1 [Y1 W1]]]. destruct (frame_off _ _ _ _ _ W1 B2) as [Ei Eo]. destruct (frame_off _ _ _ _ _ W1 C2) as [Ejj _].
  apply (resS_then (fun f => let^ s := getR i in let^ b := getL s in tTree f b) _ m m1).
  { eapply runs_pre; [exact (getR_ok i m A)|]. rewrite <- Ej. eapply runs_pre; [exact (getL_ok j m Aj)|]. exact X1. }
  { exact Eo. }
  eapply resS_pre; [exact (getR_ok i m1 A)|]. rewrite Ei, <- Ej. eapply resS_pre; [exact (getR_ok j m1 Aj)|]. rewrite Ejj.
  assert (Re1 : ROpt m1 (nr (m j)) e Q3). { apply ROpt_frame with m; [exact Re|]. intros x Hx. apply W1. intro K. exact (D23 x K Hx). }
  pose proof (opt_ok _ _ _ _ Re1) as E. destruct (optExp e) as [e1|x]; cbn [bind]; [|exact E].
  destruct E as [m2 [X2 [Y2 W2]]]. destruct (frame_off _ _ _ _ _ W2 B3) as [Ei2 Eo2]. destruct (frame_off _ _ _ _ _ W2 C3) as [Ej2 _].
  exists m2. split; [exact X2|]. split; [|exact Eo2].
  apply RSWhl with j Q1 Q2 Q3; auto; rewrite ?Ei2, ?Ei, ?Ej2, ?Ejj; auto.
  - apply ROpt_frame with m1; [apply ROpt_frame with m; [exact Rc|]|]; intros x Hx.
    + apply W1. intro K. exact (D12 x Hx K).
    + apply W2. intro K. exact (D13 x Hx K).
  - apply RS_frame with m1; [exact Y1|]. intros x Hx. apply W2. intro K. exact (D23 x Hx K).
Qed.

Lemma tree_whl : forall c b e, treeSpec b -> treeSpec (SWhl c b e).
Proof.
  intros c b e IH m i P H.
  inversion H as [| | | | |i' j c' b' e' P' Q1 Q2 Q3 A Aj Nij T Er Tj B1 B2 B3 C1 C2 C3 D12 D13 D23 Rc Rb Re| | | | | |]; subst.
  remember (nr (m i)) as j eqn:Ej.
  apply tree_start; [exact A|]. rewrite T. change (treeBody i SyWHL) with (whlBody i). unfold whlBody.
  eapply resS_pre; [exact (getL_ok i m A)|]. cbn [optTree].
  pose proof (opt_ok _ _ _ _ Rc) as E. destruct (optExp c) as [c1|x]; cbn [bind].
  2:{ apply fail_seq1. exact E. }
  destruct E as [m1 [X1 [Y1 W1]]]. destruct (frame_off _ _ _ _ _ W1 B1) as [Ei Eo]. destruct (frame_off _ _ _ _ _ W1 C1) as [Ejj _].
  apply (resS_then _ _ m m1); [exact X1|exact Eo|].
  assert (Rb1 : RS m1 (nl (m j)) b Q2). { apply RS_frame with m; [exact Rb|]. intros x Hx. apply W1. intro K. exact (D12 x K Hx). }
  assert (Re1 : ROpt m1 (nr (m j)) e Q3). { apply ROpt_frame with m; [exact Re|]. intros x Hx. apply W1. intro K. exact (D13 x K Hx). }
  assert (H1 : RS m1 i (SWhl c1 b e) P).
  { apply RSWhl with j Q1 Q2 Q3; auto; rewrite ?Ei, ?Ejj; auto. }
  eapply resS_pre; [exact (ROpt_isC _ _ _ _ Y1)|]. rewrite cnst_cases. destruct (is_cnst c1) eqn:Ec.
  - destruct (is_cnst_inv _ Ec) as [v ->]. destruct Y1 as [[_ K]|Y1]; [discriminate|].
    eapply resS_pre; [exact (bInt_ok _ _ _ _ Y1)|]. destruct (getBool v) eqn:Bv.
    + pose (m2 := put m1 i (N SyWHL SyNULL j)).
      assert (W2 : forall x, x <> i -> m2 x = m1 x) by (intros x K; unfold m2; rewrite put_other by exact K; reflexivity).
      apply (resS_then (fun _ => setL i SyNULL) _ m1 m2).
      * exists O. intros f _. rewrite (setL_ok i SyNULL m1 A), Ei, T, <- Ej. reflexivity.
      * intros x K. apply W2. intro; subst. exact (K (below_root _ _ _ B1)).
      * apply (loop_ok b e ENull IH m2 i P).
        assert (F : forall Q, below i P Q -> forall x, Q x -> m2 x = m1 x) by (intros Q [_ [_ K]] x Hx; apply W2; intro; subst; auto).
        apply RSWhl with j Q1 Q2 Q3; auto; unfold m2; rewrite ?put_same; try reflexivity; fold m2.
        -- rewrite (W2 j), Ejj by auto. exact Tj.
        -- left. auto.
        -- rewrite (W2 j), Ejj by auto. apply RS_frame with m1; [exact Rb1|]. exact (F _ B2).
        -- rewrite (W2 j), Ejj by auto. apply ROpt_frame with m1; [exact Re1|]. exact (F _ B3).
    + destruct (step_copy m1 i (nl (m i)) (Cnst v) P Q1 A B1 Y1) as [m2 [X2 [Y2 W2]]].
      exists m2. split; [exact X2|]. split; [constructor; [exact Y2|reflexivity]|exact W2].
  - exact (loop_ok b e c1 IH m1 i P H1).
Qed.

Lemma tree_do : forall c b, treeSpec b -> treeSpec (SDo b c).
Proof.
  intros c b IH m i P H. inversion H as [| | | | | |i' c' b' P' Q1 Q2 A T B1 B2 D Rb Rc| | | | |]; subst.
  apply tree_start; [exact A|]. rewrite T. change (treeBody i SyDO) with (doBody i). unfold doBody.
  eapply resS_pre; [exact (getR_ok i m A)|]. eapply resS_pre; [exact (getL_ok i m A)|]. cbn [optTree].
  pose proof (exp_ok _ _ _ _ Rc) as E. destruct (optExp c) as [c1|x]; cbn [bind].
  2:{ apply fail_seq1. exact E. }
  destruct E as [m1 [X1 [Y1 W1]]]. destruct (frame_off _ _ _ _ _ W1 B2) as [Ei Eo].
  apply (resS_then _ _ m m1); [exact X1|exact Eo|].
  assert (Rb1 : RS m1 (nl (m i)) b Q1). { apply RS_frame with m; [exact Rb|]. intros x Hx. apply W1. intro K. exact (D x Hx K). }
  specialize (IH _ _ _ Rb1). destruct (optTree b) as [b1|x]; cbn [bind].
  2:{ apply fail_seq1. exact IH. }
  destruct IH as [m2 [X2 [Y2 W2]]]. destruct (frame_off _ _ _ _ _ W2 B1) as [Ei2 Eo2].
  apply (resS_then _ _ m1 m2); [exact X2|exact Eo2|].
  assert (Rc2 : RE m2 (nr (m i)) c1 Q2). { apply RE_frame with m1; [exact Y1|]. intros x Hx. apply W2. intro K. exact (D x K Hx). }
  eapply resS_pre; [exact (isC_ok _ _ _ _ Rc2)|]. rewrite cnst_cases. destruct (is_cnst c1) eqn:Ec.
  - destruct (is_cnst_inv _ Ec) as [v ->]. eapply resS_pre; [exact (bInt_ok _ _ _ _ Rc2)|]. destruct (getBool v).
    + destruct (RE_root _ _ _ _ Rc2) as [Ac Pc]. remember (nr (m i)) as j eqn:Ej. pose proof B2 as [B21 [B22 B23]]. pose proof B1 as [_ [B12 B13]].
      assert (Nij : i <> j) by (intro; subst i; auto).
      assert (Nji : j <> i) by congruence.
      assert (XX : exists m3, (setT i SyWHL ;; setT j SySEMI ;; setL j (nl (m i)) ;; setR j SyNULL ;; setR i j ;; setL i SyNULL) m2 = Ret tt m3 /\
        sameM m3 (put (put m2 i (N SyWHL SyNULL j)) j (N SySEMI (nl (m i)) SyNULL))).
      { rewrite (bnd_ret _ _ _ _ _ _ _ (setT_ok i _ m2 A)), (bnd_ret _ _ _ _ _ _ _ (setT_ok j _ _ Ac)).
        rewrite (bnd_ret _ _ _ _ _ _ _ (setL_ok j _ _ Ac)), (bnd_ret _ _ _ _ _ _ _ (setR_ok j _ _ Ac)).
        rewrite (bnd_ret _ _ _ _ _ _ _ (setR_ok i _ _ A)), (setL_ok i _ _ A).
        eexists. split; [reflexivity|]. intro x. destruct (Z.eq_dec x j) as [->|Nj].
        - rewrite !(put_other _ i _ j) by auto. rewrite !put_same. reflexivity.
        - rewrite (put_other _ j _ x Nj). destruct (Z.eq_dec x i) as [->|Ni].
          + rewrite !put_same. simpl. rewrite !(put_other _ j _ i) by auto. rewrite !put_same. reflexivity.
          + rewrite !(put_other _ i _ x Ni), !(put_other _ j _ x Nj), (put_other _ i _ x Ni). reflexivity. }
      destruct XX as [m3 [X3 M3]].
      assert (E3j : m3 j = N SySEMI (nl (m i)) SyNULL) by (rewrite M3, put_same; reflexivity).
      assert (E3i : m3 i = N SyWHL SyNULL j) by (rewrite M3, put_other, put_same by auto; reflexivity).
      assert (E3o : forall x, x <> i -> x <> j -> m3 x = m2 x) by (intros x N1 N2; rewrite M3, !put_other by auto; reflexivity).
      exists m3. split; [exists O; intros; exact X3|]. split.
      * pose (Em := fun _ : Z => False).
        assert (BE : forall k, P k -> below k P Em) by (intros k K; repeat split; auto; unfold Em; contradiction).
        apply RSWhl with j Em Q1 Em; auto; try (rewrite E3i; reflexivity); try (rewrite E3j; reflexivity).
        -- repeat split; auto. intro K. exact (D j K Pc).
        -- intros x [].
        -- intros x [].
        -- intros x _ [].
        -- rewrite E3i. left. auto.
        -- rewrite E3j. apply RS_frame with m2; [exact Y2|]. intros x Hx. apply E3o; intro; subst x; [auto|exact (D j Hx Pc)].
        -- rewrite E3j. left. auto.
      * intros x Hx. apply E3o; intro; subst x; auto.
    + destruct (copy_body m2 i (nl (m i)) b1 P Q1 A ltac:(rewrite Ei2, Ei, T; reflexivity) B1 Y2) as [m3 [X3 [Y3 W3]]].
      exists m3. split; [exists O; intros; exact X3|]. split; [exact Y3|exact W3].
  - apply okS_ret. apply RSDo with Q1 Q2; auto; rewrite ?Ei2, ?Ei; auto.
Qed.

Lemma blk_ok : forall l r (K : stmt -> stmt -> stmt) t, treeSpec l -> treeSpec r ->
  (forall m i P Q1 Q2 l r, inTab i = true -> nty (m i) = t -> below i P Q1 -> below i P Q2 -> apart Q1 Q2 -> RS m (nl (m i)) l Q1 -> RS m (nr (m i)) r Q2 -> RS m i (K l r) P) ->
  forall m i P Q1 Q2, inTab i = true -> nty (m i) = t -> below i P Q1 -> below i P Q2 -> apart Q1 Q2 -> RS m (nl (m i)) l Q1 -> RS m (nr (m i)) r Q2 ->
  resS (blkBody i) m i (bind (optTree l) (fun l' => bind (optTree r) (fun r' => Ok (K l' r')))) P.
Proof.
  intros l r K t IHl IHr HK m i P Q1 Q2 A T B1 B2 D Rl Rr. unfold blkBody.
  specialize (IHl _ _ _ Rl). destruct (optTree l) as [l1|x]; cbn [bind].
  2:{ apply fail_seq1. eapply fail_pre; [exact (getL_ok i m A)|exact IHl]. }
  destruct IHl as [m1 [X1 [Y1 W1]]]. destruct (frame_off _ _ _ _ _ W1 B1) as [Ei Eo].
  apply (resS_then (fun f => let^ l := getL i in tTree f l) _ m m1).
  { eapply runs_pre; [exact (getL_ok i m A)|exact X1]. }
  { exact Eo. }
  eapply resS_pre; [exact (getR_ok i m1 A)|]. rewrite Ei.
  assert (Rr1 : RS m1 (nr (m i)) r Q2). { apply RS_frame with m; [exact Rr|]. intros x Hx. apply W1. intro G. exact (D x G Hx). }
  specialize (IHr _ _ _ Rr1). destruct (optTree r) as [r1|x]; cbn [bind]; [|exact IHr].
  destruct IHr as [m2 [X2 [Y2 W2]]]. destruct (frame_off _ _ _ _ _ W2 B2) as [Ej Eo2].
  exists m2. split; [exact X2|]. split; [|exact Eo2].
  apply HK with Q1 Q2; auto; rewrite ?Ej, ?Ei; auto.
  apply RS_frame with m1; [exact Y1|]. intros x Hx. apply W2. intro G. exact (D x Hx G).
Qed.

Theorem tree_ok : forall s, treeSpec s.
Proof.
  induction s as [|e|v|c b IH|c b1 IH1 b2 IH2|c b IH e|b IH c| | |e|l IHl r IHr|l IHl r IHr].
  - intros m i P H. inversion H; subst. exists m. split; [|split; auto]. exists 1%nat. intros f Hf. destruct f; [lia|]. reflexivity.
  - intros m i P H. inversion H as [|i' e' P' R N0| | | | | | | | | |]; subst. destruct (RE_root _ _ _ _ R) as [A _].
    apply tree_start; [exact A|]. rewrite (RE_ty _ _ _ _ R), (noSemi_ty _ _ _ _ R N0). cbn [optTree].
    pose proof (exp_ok _ _ _ _ R) as E. destruct (optExp e) as [e1|x] eqn:Ee; cbn [bind]; [|exact E].
    destruct E as [m1 [X [Y W]]]. exists m1. split; [exact X|]. split; [|exact W]. constructor; [exact Y|]. exact (exp_semi _ _ Ee N0).
  - intros m i P H. inversion H as [| |i' v' P' A Pi T V| | | | | | | | |]; subst.
    apply tree_start; [exact A|]. rewrite T. change (treeBody i SyVAR) with (fun _ : nat => ret tt). apply okS_ret. exact H.
  - apply tree_if; exact IH.
  - apply tree_els; assumption.
  - apply tree_whl; exact IH.
  - apply tree_do; exact IH.
  - intros m i P H. inversion H as [| | | | | | |i' P' A Pi T| | | |]; subst.
    apply tree_start; [exact A|]. rewrite T. change (treeBody i SyBRK) with (fun _ : nat => ret tt). apply okS_ret. exact H.
  - intros m i P H. inversion H as [| | | | | | | |i' P' A Pi T| | |]; subst.
    apply tree_start; [exact A|]. rewrite T. change (treeBody i SyCNT) with (fun _ : nat => ret tt). apply okS_ret. exact H.
  - intros m i P H. inversion H as [| | | | | | | | |i' e' P' Q A T B R| |]; subst.
    apply tree_start; [exact A|]. rewrite T. change (treeBody i SyRET) with (fun f => let^ e := getL i in tExp f e).
    eapply resS_pre; [exact (getL_ok i m A)|]. cbn [optTree].
    pose proof (opt_ok _ _ _ _ R) as E. destruct (optExp e) as [e1|x]; cbn [bind]; [|exact E].
    destruct E as [m1 [X [Y W]]]. destruct (frame_off _ _ _ _ _ W B) as [Ei Eo]. exists m1. split; [exact X|]. split; [|exact Eo].
    apply RSRet with Q; auto; rewrite Ei; auto.
  - intros m i P H. inversion H as [| | | | | | | | | |i' l' r' P' Q1 Q2 A T B1 B2 D Rl Rr|]; subst.
    apply tree_start; [exact A|]. rewrite T. change (treeBody i SySEMI) with (blkBody i).
    apply (blk_ok l r SSemi SySEMI IHl IHr) with Q1 Q2; auto. intros m0 i0 P0 U1 U2; intros; apply RSSemi with U1 U2; assumption.
  - intros m i P H. inversion H as [| | | | | | | | | | |i' l' r' P' Q1 Q2 A T B1 B2 D Rl Rr]; subst.
    apply tree_start; [exact A|]. rewrite T. change (treeBody i SyBLK) with (blkBody i).
    apply (blk_ok l r SBlk SyBLK IHl IHr) with Q1 Q2; auto. intros m0 i0 P0 U1 U2; intros; apply RSBlk with U1 U2; assumption.
Qed.
