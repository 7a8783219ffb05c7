(* The optimiser on the table: the rearrangement of expressions. *)
From Coq Require Import ZArith Bool Lia List.
From Verif Require Import SyTree OpTree SyTable SyTableRep SyTableExp.
Import ListNotations.
Open Scope Z_scope.

Lemma canPullZ_ok : forall o e, canPullZ (ty2 o) (tyE e) = match e with E2 ob _ _ => canPull o ob | _ => false end.
Proof. intros o e. destruct o, e as [|[]|[]|[]|]; reflexivity. Qed.

Definition pullCond (n : Z) : M bool :=
  when needR n then (let^ t := getT n in let^ r := getR n in let^ u := getT r in ret (canPullZ t u)) else ret false.
Definition pullable (e : expr) : bool := match e with E2 o _ (E2 ob _ _) => canPull o ob | _ => false end.

Lemma pullCond_ok : forall m i e P, RE m i e P -> pullCond i m = Ret (pullable e) m.
Proof.
  intros m i e P H. unfold pullCond. rewrite (bnd_ret _ _ _ _ _ _ _ (needR_ok _ _ _ _ H)).
  destruct (RE_root _ _ _ _ H) as [A _].
  destruct H as [i k P A' B T V|i o e P Q A' T B R|i o l r P Q1 Q2 A' T B1 B2 D Rl Rr|i f P A' B T V N0|i f a P Q A' T V B R]; try reflexivity.
  - cbn [hasR]. rewrite (bnd_ret _ _ _ _ _ _ _ (getT_ok i m A)), (bnd_ret _ _ _ _ _ _ _ (getR_ok i m A)).
    rewrite (bnd_ret _ _ _ _ _ _ _ (getT_ok _ m (proj1 (RE_root _ _ _ _ Rr)))). rewrite T, (RE_ty _ _ _ _ Rr), canPullZ_ok. destruct r; reflexivity.
  - destruct (hasR (EFunc f a)); [|reflexivity].
    rewrite (bnd_ret _ _ _ _ _ _ _ (getT_ok i m A)), (bnd_ret _ _ _ _ _ _ _ (getR_ok i m A)).
    rewrite (bnd_ret _ _ _ _ _ _ _ (getT_ok _ m (proj1 (RE_root _ _ _ _ R)))). rewrite T. unfold ret. reflexivity.
Qed.

Definition pullEdit (n : Z) (k : Z -> M unit) : M unit :=
  let^ a := getL n in let^ b := getR n in let^ c := getL b in let^ d := getR b in
          setL n b ;; setR n d ;; setL b a ;; setR b c ;;
          (let^ opN := getT n in let^ opB := getT b in
           (if (opN =? SyADD) || (opN =? SySUB)
            then setT b opN ;; setT n (if negb (opN =? opB) then SySUB else SyADD)
            else ret tt) ;;
           k b).

Lemma pullEdit_ok : forall m i o ob, inTab i = true -> inTab (nr (m i)) = true -> i <> nr (m i) ->
  nty (m i) = ty2 o -> nty (m (nr (m i))) = ty2 ob -> canPull o ob = true ->
  exists m2, (forall k, pullEdit i k m = k (nr (m i)) m2) /\
    sameM m2 (put (put m i (N (ty2 (pulledOp o ob)) (nr (m i)) (nr (m (nr (m i)))))) (nr (m i)) (N (ty2 o) (nl (m i)) (nl (m (nr (m i)))))).
Proof.
  intros m i o ob A B D T Tb C. remember (nr (m i)) as b eqn:Eb.
  assert (D' : b <> i) by congruence.
  set (ma := put m i (N (nty (m i)) b (nr (m i)))).
  set (mb := put ma i (N (nty (ma i)) (nl (ma i)) (nr (m b)))).
  set (mc := put mb b (N (nty (mb b)) (nl (m i)) (nr (mb b)))).
  set (m1 := put mc b (N (nty (mc b)) (nl (mc b)) (nl (m b)))).
  assert (S1 : forall k, pullEdit i k m = ((if (nty (m1 i) =? SyADD) || (nty (m1 i) =? SySUB)
            then setT b (nty (m1 i)) ;; setT i (if negb (nty (m1 i) =? nty (m1 b)) then SySUB else SyADD)
            else ret tt) ;; k b) m1).
  { intro k. unfold pullEdit. rewrite (bnd_ret _ _ _ _ _ _ _ (getL_ok i m A)), (bnd_ret _ _ _ _ _ _ _ (getR_ok i m A)). rewrite <- Eb.
    rewrite (bnd_ret _ _ _ _ _ _ _ (getL_ok b m B)), (bnd_ret _ _ _ _ _ _ _ (getR_ok b m B)).
    rewrite (bnd_ret _ _ _ _ _ _ _ (setL_ok i b m A)), (bnd_ret _ _ _ _ _ _ _ (setR_ok i _ _ A)).
    rewrite (bnd_ret _ _ _ _ _ _ _ (setL_ok b _ _ B)), (bnd_ret _ _ _ _ _ _ _ (setR_ok b _ _ B)).
    rewrite (bnd_ret _ _ _ _ _ _ _ (getT_ok i _ A)), (bnd_ret _ _ _ _ _ _ _ (getT_ok b _ B)). reflexivity. }
  assert (Ti : nty (m1 i) = ty2 o). { unfold m1, mc, mb, ma. rewrite !(put_other _ b _ i D), !put_same. exact T. }
  assert (Tb1 : nty (m1 b) = ty2 ob). { unfold m1, mc, mb, ma. rewrite put_same. simpl. rewrite put_same. simpl. rewrite !(put_other _ i _ b D'). exact Tb. }
  assert (M1 : forall x, m1 x = if x =? b then N (ty2 ob) (nl (m i)) (nl (m b)) else if x =? i then N (ty2 o) b (nr (m b)) else m x).
  { intro x. unfold m1, mc, mb, ma. destruct (Z.eq_dec x b) as [->|Nb].
    - rewrite Z.eqb_refl. rewrite !put_same. simpl. rewrite put_other by auto. rewrite put_other by auto. rewrite Tb. reflexivity.
    - rewrite (proj2 (Z.eqb_neq x b)) by exact Nb. rewrite !(put_other _ b _ x Nb).
      destruct (Z.eq_dec x i) as [->|Ni].
      + rewrite Z.eqb_refl, !put_same. simpl. rewrite T. reflexivity.
      + rewrite (proj2 (Z.eqb_neq x i)) by exact Ni. rewrite !(put_other _ i _ x Ni). reflexivity. }
  rewrite Ti, Tb1 in S1. clearbody m1.
  destruct ((ty2 o =? SyADD) || (ty2 o =? SySUB)) eqn:Q.
  - assert (Eo : o = ADD \/ o = SUB) by (destruct o; try discriminate; auto).
    eexists. split.
    { intro k. rewrite S1. unfold bnd at 1. rewrite (bnd_ret _ _ _ _ _ _ _ (setT_ok b _ m1 B)), (setT_ok i _ _ A). reflexivity. }
    intro x.
    assert (Pe : (if negb (ty2 o =? ty2 ob) then SySUB else SyADD) = ty2 (pulledOp o ob)).
    { destruct Eo as [-> | ->]; destruct ob; try discriminate; reflexivity. }
    rewrite Pe. destruct (Z.eq_dec x b) as [->|Nb].
    + rewrite put_other by auto. rewrite !put_same. rewrite (M1 b), Z.eqb_refl. reflexivity.
    + destruct (Z.eq_dec x i) as [->|Ni].
      * rewrite put_same. rewrite (put_other _ b _ i) by auto. rewrite (put_other _ b _ i) by auto. rewrite put_same.
        rewrite (M1 i), (proj2 (Z.eqb_neq i b)) by auto. rewrite Z.eqb_refl. reflexivity.
      * rewrite !put_other by auto. rewrite M1, (proj2 (Z.eqb_neq x b)), (proj2 (Z.eqb_neq x i)) by auto. reflexivity.
  - assert (Eo : ob = o /\ pulledOp o ob = o). { clear - C Q. destruct o, ob; try discriminate; split; reflexivity. }
    destruct Eo as [-> Ep]. rewrite Ep. exists m1. split; [intro k; rewrite S1; reflexivity|]. intro x. rewrite M1. unfold put. reflexivity.
Qed.

Definition pullBody (f : nat) (n : Z) : M unit :=
  when pullCond n then pullEdit n (fun b => tPull f b ;; tPull f n) else whenR n (fun f => let^ r := getR n in tMove f r) f.
Lemma tPull_S : forall n f, tPull (S f) n = pullBody f n.
Proof. reflexivity. Qed.

Definition moveSpec (e : expr) : Prop := forall m i P, RE m i e P -> okE (fun f => tMove f i) m i (moveLeft e) P.
Definition pullSpec (e : expr) : Prop := forall o a m i P, RE m i (E2 o a e) P -> okE (fun f => tPull f i) m i (pull o a e) P.

Lemma ok_S : forall c d m i e P, (forall f, d (S f) = c f) -> okE c m i e P -> okE d m i e P.
Proof. intros c d m i e P E [m' [B C]]. exists m'. split; [exact (runs_S _ _ _ _ E B)|exact C]. Qed.
Lemma ok_pre : forall A (x : M A) (k : nat -> A -> M unit) a m i e P, x m = Ret a m -> okE (fun f => k f a) m i e P -> okE (fun f => bnd x (k f)) m i e P.
Proof. intros A x k a m i e P H [m' [B C]]. exists m'. split; [exact (runs_pre _ _ _ _ _ _ H B)|exact C]. Qed.
Lemma ok_then : forall c k (m m1 : mem) i e (P : Z -> Prop), runs c m m1 -> (forall x, ~ P x -> m1 x = m x) -> okE k m1 i e P -> okE (fun f => c f ;; k f) m i e P.
Proof. intros c k m m1 i e P A B H. exact (res_then c k m m1 i (Ok e) P A B H). Qed.

(* pullTree on a node that is not pulled *)
Lemma stop_other : forall m i e P, RE m i e P -> pullable e = false -> hasR e = false -> okE (fun f => tPull f i) m i e P.
Proof.
  intros m i e P H N1 N2. apply (ok_S (fun f => pullBody f i)); [reflexivity|]. unfold pullBody.
  eapply (ok_pre _ (pullCond i) (fun f (b : bool) => if b then _ else _)); [exact (pullCond_ok _ _ _ _ H)|]. rewrite N1. cbn iota beta.
  exists m. split; [exact (whenR_no _ _ _ _ _ H N2)|]. split; auto.
Qed.
Lemma stop_E2 : forall e, moveSpec e -> forall o a m i P, RE m i (E2 o a e) P -> pullable (E2 o a e) = false -> okE (fun f => tPull f i) m i (E2 o a (moveLeft e)) P.
Proof.
  intros e IH o a m i P H N1. apply (ok_S (fun f => pullBody f i)); [reflexivity|]. unfold pullBody.
  eapply (ok_pre _ (pullCond i) (fun f (b : bool) => if b then _ else _)); [exact (pullCond_ok _ _ _ _ H)|]. rewrite N1. cbn iota beta.
  inversion H as [| |i' o' l' r' P' Q1 Q2 A T B1 B2 D Rl Rr| |]; subst.
  destruct (IH _ _ _ Rr) as [m1 [X [Y W]]]. exists m1. split.
  - apply (whenR_run _ _ _ _ _ _ H eq_refl). eapply runs_pre; [exact (getR_ok i m A)|]. exact X.
  - split; [exact (partR _ _ _ _ _ _ _ _ _ A T B1 B2 D Rl Y W)|exact (proj2 (frame_off _ _ _ _ _ W B2))].
Qed.

Lemma pull_stop : forall o a e, pullable (E2 o a e) = false -> pull o a e = E2 o a (moveLeft e).
Proof. intros o a e H. destruct e as [| | |ob c d|]; try reflexivity. cbn [pull moveLeft]. cbn [pullable] in H. rewrite H. reflexivity. Qed.

Lemma pull_go : forall c d, pullSpec c -> pullSpec d -> forall o ob a m i P, RE m i (E2 o a (E2 ob c d)) P -> canPull o ob = true ->
  okE (fun f => tPull f i) m i (pull (pulledOp o ob) (pull o a c) d) P.
Proof.
  intros c d IHc IHd o ob a m i P H C. apply (ok_S (fun f => pullBody f i)); [reflexivity|]. unfold pullBody.
  eapply (ok_pre _ (pullCond i) (fun f (b : bool) => if b then _ else _)); [exact (pullCond_ok _ _ _ _ H)|].
  cbn [pullable]. rewrite C. cbn iota beta.
  inversion H as [| |i' o' l' r' P' Qa Qb A T Ba Bb D Ra Rb| |]; subst. clear H.
  inversion Rb as [| |i' o' l' r' P' Qc Qd A' T' Bc Bd D' Rc Rd| |]; subst. clear Rb.
  remember (nr (m i)) as b eqn:Eb.
  assert (Nib : i <> b) by (intros E; destruct Bb as [_ [_ K]], Bc as [K' _]; rewrite <- E in K'; auto).
  assert (Nbi : b <> i) by congruence.
  destruct (pullEdit_ok m i o ob A ltac:(rewrite <- Eb; exact A') ltac:(rewrite <- Eb; exact Nib) T ltac:(rewrite <- Eb; exact T') C) as [m2 [X2 M2]].
  rewrite <- Eb in *.
  assert (E2b : m2 b = N (ty2 o) (nl (m i)) (nl (m b))) by (rewrite M2, put_same; reflexivity).
  assert (E2i : m2 i = N (ty2 (pulledOp o ob)) b (nr (m b))) by (rewrite M2, put_other, put_same by auto; reflexivity).
  assert (E2o : forall x, x <> i -> x <> b -> m2 x = m x) by (intros x N1 N2; rewrite M2, !put_other by auto; reflexivity).
  pose proof Ba as [Ba1 [Ba2 Ba3]]. pose proof Bb as [_ [Bb2 Bb3]]. pose proof Bc as [Bc1 [Bc2 Bc3]]. pose proof Bd as [_ [Bd2 Bd3]].
  pose (Qb' := fun x => Qa x \/ x = b \/ Qc x).
  assert (Ra2 : RE m2 (nl (m i)) a Qa).
  { apply RE_frame with m; [exact Ra|]. intros x Hx. apply E2o; intro; subst x; [auto|exact (D b Hx Bc1)]. }
  assert (Rc2 : RE m2 (nl (m b)) c Qc).
  { apply RE_frame with m; [exact Rc|]. intros x Hx. apply E2o; intro; subst x; auto. }
  assert (Rd2 : RE m2 (nr (m b)) d Qd).
  { apply RE_frame with m; [exact Rd|]. intros x Hx. apply E2o; intro; subst x; auto. }
  assert (Rb2 : RE m2 b (E2 o a c) Qb').
  { apply R2 with Qa Qc; auto.
    - rewrite E2b. reflexivity.
    - repeat split; unfold Qb'; auto. intro K. exact (D b K Bc1).
    - repeat split; unfold Qb'; auto.
    - intros x Hx Hy. exact (D x Hx (Bc2 x Hy)).
    - rewrite E2b. exact Ra2.
    - rewrite E2b. exact Rc2. }
  destruct (IHc o a m2 b Qb' Rb2) as [m3 [X3 [Y3 W3]]].
  assert (Nb' : ~ Qb' i) by (unfold Qb'; intros [K|[K|K]]; auto).
  assert (E3i : m3 i = m2 i) by (apply W3; exact Nb').
  assert (Rd3 : RE m3 (nr (m b)) d Qd).
  { apply RE_frame with m2; [exact Rd2|]. intros x Hx. apply W3. unfold Qb'. intros [K|[K|K]]; [exact (D x K (Bd2 x Hx))|subst; auto|exact (D' x K Hx)]. }
  assert (Ri3 : RE m3 i (E2 (pulledOp o ob) (pull o a c) d) P).
  { apply R2 with Qb' Qd; auto.
    - rewrite E3i, E2i. reflexivity.
    - repeat split; auto. unfold Qb'. intros x [K|[K|K]]; subst; auto.
    - repeat split; auto.
    - unfold Qb'. intros x [K|[K|K]] Hx; [exact (D x K (Bd2 x Hx))|subst; auto|exact (D' x K Hx)].
    - rewrite E3i, E2i. exact Y3.
    - rewrite E3i, E2i. exact Rd3. }
  destruct (IHd _ _ _ _ _ Ri3) as [m4 [X4 [Y4 W4]]].
  exists m4. split; [|split; [exact Y4|]].
  - destruct (runs_seq (fun f => tPull f b) (fun f => tPull f i) m2 m3 m4 X3 X4) as [F HF]. exists F. intros f Hf. rewrite X2. apply HF. exact Hf.
  - intros x Hx. rewrite W4 by exact Hx. rewrite W3; [|unfold Qb'; intros [K|[K|K]]; subst; auto].
    apply E2o; intro; subst; auto.
Qed.

Lemma move_pull : forall e, moveSpec e /\ pullSpec e.
Proof.
  assert (St : forall e, moveSpec e -> (match e with E2 _ _ _ => False | _ => True end) -> pullSpec e).
  { intros e IH N o a m i P H. rewrite pull_stop by (destruct e; try reflexivity; contradiction).
    apply stop_E2; auto. destruct e; try reflexivity; contradiction. }
  induction e as [|k|o e [IH _]|o l [IHl IHl'] r [IHr IHr']|f a [IHa _]].
  - assert (S : moveSpec ENull) by (intros m i P H; exfalso; exact (RE_null _ _ _ H)). split; [exact S|]. apply St; auto.
  - assert (S : moveSpec (ELeaf k)).
    { intros m i P H. apply (ok_S (fun f => whenL i (fun f => let^ l := getL i in tMove f l) f ;; tPull f i)); [reflexivity|].
      apply (ok_then _ _ m m); [exact (whenL_no _ _ _ _ _ H eq_refl)|auto|]. exact (stop_other _ _ _ _ H eq_refl eq_refl). }
    split; [exact S|]. apply St; auto.
  - assert (S : moveSpec (E1 o e)).
    { intros m i P H. apply (ok_S (fun f => whenL i (fun f => let^ l := getL i in tMove f l) f ;; tPull f i)); [reflexivity|].
      inversion H as [|i' o' e' P' Q A T B R| | |]; subst. destruct (IH _ _ _ R) as [m1 [X [Y W]]].
      apply (ok_then _ _ m m1); [|exact (proj2 (frame_off _ _ _ _ _ W B))|].
      - apply (whenL_run _ _ _ _ _ _ H eq_refl). eapply runs_pre; [exact (getL_ok i m A)|exact X].
      - apply stop_other; try reflexivity. exact (part1 _ _ _ _ _ _ _ _ A T B R Y W). }
    split; [exact S|]. apply St; auto.
  - assert (S : moveSpec (E2 o l r)).
    { intros m i P H. apply (ok_S (fun f => whenL i (fun f => let^ l := getL i in tMove f l) f ;; tPull f i)); [reflexivity|].
      inversion H as [| |i' o' l' r' P' Q1 Q2 A T B1 B2 D Rl Rr| |]; subst. destruct (IHl _ _ _ Rl) as [m1 [X [Y W]]].
      apply (ok_then _ _ m m1); [|exact (proj2 (frame_off _ _ _ _ _ W B1))|].
      - apply (whenL_run _ _ _ _ _ _ H eq_refl). eapply runs_pre; [exact (getL_ok i m A)|exact X].
      - apply IHr'. exact (partL _ _ _ _ l _ _ _ _ _ A T B1 B2 D Rr Y W). }
    split; [exact S|].
    intros oo a m i P H. destruct (canPull oo o) eqn:C.
    + cbn [pull]. rewrite C. exact (pull_go l r IHl' IHr' _ _ _ _ _ _ H C).
    + rewrite pull_stop by exact C. apply stop_E2; auto.
  - assert (S : moveSpec (EFunc f a)).
    { intros m i P H. apply (ok_S (fun f => whenL i (fun f => let^ l := getL i in tMove f l) f ;; tPull f i)); [reflexivity|].
      apply (ok_then _ _ m m); [exact (whenL_no _ _ _ _ _ H eq_refl)|auto|].
      inversion H as [| | |i' f' P' A B T E1 E2|i' f' a' P' Q A T E B R]; subst.
      - exact (stop_other _ _ _ _ H eq_refl eq_refl).
      - assert (Na : hasR (EFunc (nl (m i)) a) = true) by (destruct a; try reflexivity; inversion R).
        apply (ok_S (fun f => pullBody f i)); [reflexivity|]. unfold pullBody.
        eapply (ok_pre _ (pullCond i) (fun f (b : bool) => if b then _ else _)); [exact (pullCond_ok _ _ _ _ H)|]. cbn iota beta.
        destruct (IHa _ _ _ R) as [m1 [X [Y W]]]. exists m1. split.
        + apply (whenR_run _ _ _ _ _ _ H Na). eapply runs_pre; [exact (getR_ok i m A)|]. exact X.
        + split; [exact (partF _ _ _ _ _ _ _ A T eq_refl B Y W)|exact (proj2 (frame_off _ _ _ _ _ W B))]. }
    split; [exact S|]. apply St; auto.
Qed.

Lemma move_ok : forall e m i P, RE m i e P -> okE (fun f => tMove f i) m i (moveLeft e) P.
Proof. intros e. exact (proj1 (move_pull e)). Qed.

(* ---- moveCnst ---- *)
Lemma normSub_ok : forall m i o l r P, RE m i (E2 o l r) P -> stepE (tNormSub i) m i (E2 (fst (normSub o r)) l (snd (normSub o r))) P.
Proof.
  intros m i o l r P H. inversion H as [| |i' o' l' r' P' Q1 Q2 A T B1 B2 D Rl Rr| |]; subst.
  unfold tNormSub. apply step_pre with (ty2 o); [rewrite <- T; exact (getT_ok i m A)|].
  apply step_pre with (nr (m i)); [exact (getR_ok i m A)|].
  destruct (ty2 o =? SySUB) eqn:E.
  - assert (o = SUB) by (destruct o; try discriminate; reflexivity). subst o.
    apply step_pre with (is_cnst r); [exact (isC_ok _ _ _ _ Rr)|]. destruct (is_cnst r) eqn:Ec.
    + apply is_cnst_inv in Ec. destruct Ec as [v ->]. cbn [normSub fst snd].
      apply step_pre with (getSInt v); [exact (sInt_ok _ _ _ _ Rr)|].
      destruct (RE_root _ _ _ _ Rr) as [Ar Pr]. destruct B1 as [B11 [B12 B13]]. destruct B2 as [_ [B22 B23]].
      destruct (setUInt_ok (nr (m i)) (- getSInt v) m Ar) as [m1 [X Y]].
      assert (Ni : i <> nr (m i)) by (intro K; rewrite <- K in Pr; auto).
      assert (E1i : m1 i = m i) by (rewrite Y, put_other by auto; reflexivity).
      eexists. split.
      { apply runs_now. intro. rewrite (bnd_ret _ _ _ _ _ _ _ X). apply setT_ok. exact A. }
      split.
      * apply R2 with Q1 Q2; auto; rewrite ?put_same; rewrite ?E1i; try reflexivity; try (repeat split; auto; fail).
        -- cbn [nl]. apply RE_frame with m; [exact Rl|]. intros x Hx.
           rewrite put_other by (intro; subst; auto). rewrite Y, put_other; [reflexivity|]. intro; subst. exact (D _ Hx Pr).
        -- cbn [nr]. apply RLeaf; auto; rewrite put_other by auto; rewrite Y, put_same; reflexivity.
      * intros x Hx. rewrite put_other by (intro; subst; auto). rewrite Y, put_other; [reflexivity|]. intro; subst. auto.
    + replace (normSub SUB r) with (SUB, r) by (destruct r as [|[]| | |]; try reflexivity; discriminate). apply step_ret. exact H.
  - apply step_pre with false; [reflexivity|].
    replace (normSub o r) with (o, r) by (destruct o; try reflexivity; discriminate). apply step_ret. exact H.
Qed.

Lemma ty2_inj : forall a b, (ty2 a =? ty2 b) = op2_eqb a b.
Proof. intros a b. destruct a, b; reflexivity. Qed.

Definition pushBody (f : nat) (op n : Z) : M unit :=
    let^ l := getL n in let^ r := getR n in let^ lOp := getT l in
    when (if (lOp =? op) || ((op =? SyADD) && (lOp =? SySUB)) then (let^ x := getR l in let^ c := isC x in ret (negb c)) else ret false)
    then (let^ t := getT n in setT l t ;; setT n lOp ;; let^ x := getR l in setR n x ;; setR l r ;; tPush f op l)
    else
      if lOp =? op then
        let^ x := getL l in setL n x ;; let^ y := getR l in setL l y ;; setR l r ;; setR n l ;;
        (if op =? SyDIV then setT l SyMUL else ret tt)
      else ret tt.

Lemma swap1 : forall m i l (k : Z -> M unit) A' (r : Z), inTab i = true -> inTab l = true -> i <> l -> A' = nty (m l) ->
  exists m2, (forall k : M unit, (let^ t := getT i in setT l t ;; setT i A' ;; let^ x := getR l in setR i x ;; setR l r ;; k) m = k m2) /\
    sameM m2 (put (put m i (N A' (nl (m i)) (nr (m l)))) l (N (nty (m i)) (nl (m l)) r)).
Proof.
  intros m i l _ A' r A B D E. assert (D' : l <> i) by congruence.
  eexists. split.
  { intro k. rewrite (bnd_ret _ _ _ _ _ _ _ (getT_ok i m A)), (bnd_ret _ _ _ _ _ _ _ (setT_ok l _ m B)).
    rewrite (bnd_ret _ _ _ _ _ _ _ (setT_ok i _ _ A)), (bnd_ret _ _ _ _ _ _ _ (getR_ok l _ B)).
    rewrite (bnd_ret _ _ _ _ _ _ _ (setR_ok i _ _ A)), (bnd_ret _ _ _ _ _ _ _ (setR_ok l _ _ B)). reflexivity. }
  intro x. destruct (Z.eq_dec x l) as [->|Nl].
  - rewrite !put_same. rewrite !(put_other _ i _ l) by auto. rewrite !put_same. reflexivity.
  - rewrite !(put_other _ l _ x Nl). destruct (Z.eq_dec x i) as [->|Ni].
    + rewrite !put_same. simpl. rewrite !(put_other _ l _ i) by auto. rewrite (put_other _ i _ l) by auto. rewrite put_same. reflexivity.
    + rewrite !(put_other _ i _ x Ni). rewrite (put_other _ l _ x Nl). reflexivity.
Qed.

Lemma swap2 : forall m i l (r : Z) (b : bool), inTab i = true -> inTab l = true -> i <> l ->
  exists m2, (let^ x := getL l in setL i x ;; let^ y := getR l in setL l y ;; setR l r ;; setR i l ;; (if b then setT l SyMUL else ret tt)) m = Ret tt m2 /\
    sameM m2 (put (put m i (N (nty (m i)) (nl (m l)) l)) l (N (if b then SyMUL else nty (m l)) (nr (m l)) r)).
Proof.
  intros m i l r b A B D. assert (D' : l <> i) by congruence.
  rewrite (bnd_ret _ _ _ _ _ _ _ (getL_ok l m B)), (bnd_ret _ _ _ _ _ _ _ (setL_ok i _ m A)).
  rewrite (bnd_ret _ _ _ _ _ _ _ (getR_ok l _ B)), (bnd_ret _ _ _ _ _ _ _ (setL_ok l _ _ B)).
  rewrite (bnd_ret _ _ _ _ _ _ _ (setR_ok l _ _ B)), (bnd_ret _ _ _ _ _ _ _ (setR_ok i _ _ A)).
  set (m1 := put _ i _).
  assert (M1 : sameM m1 (put (put m i (N (nty (m i)) (nl (m l)) l)) l (N (nty (m l)) (nr (m l)) r))).
  { intro x. unfold m1. destruct (Z.eq_dec x l) as [->|Nl].
    - rewrite (put_other _ i _ l) by auto. rewrite !put_same. simpl. rewrite !(put_other _ i _ l) by auto. reflexivity.
    - rewrite (put_other _ l _ x Nl). destruct (Z.eq_dec x i) as [->|Ni].
      + rewrite !put_same. rewrite !(put_other _ l _ i) by auto. rewrite !put_same. reflexivity.
      + rewrite !(put_other _ i _ x Ni), !(put_other _ l _ x Nl), (put_other _ i _ x Ni). reflexivity. }
  clearbody m1. destruct b.
  - rewrite (setT_ok l _ m1 B). eexists. split; [reflexivity|]. intro x. destruct (Z.eq_dec x l) as [->|Nl].
    + rewrite !put_same. rewrite M1, put_same. reflexivity.
    + rewrite (put_other _ l _ x Nl), M1, !(put_other _ l _ x Nl). reflexivity.
  - exists m1. split; [reflexivity|exact M1].
Qed.

Lemma push_ok : forall l op m i c P, is_cnst c = true -> movable op = true -> RE m i (E2 op l c) P -> okE (fun f => tPush f (ty2 op) i) m i (pushC op l c) P.
Proof.
  induction l as [|k|o e IH|lop x IHx a IHa|f a IHa]; intros op m i c P Hc Hm H;
    apply (ok_S (fun f => pushBody f (ty2 op) i)); try reflexivity; unfold pushBody;
    inversion H as [| |i' o' l' r' P' Q1 Q2 A T B1 B2 D Rl Rr| |]; subst;
    destruct (RE_root _ _ _ _ Rl) as [Al Pl];
    (eapply ok_pre; [exact (getL_ok i m A)|]); (eapply ok_pre; [exact (getR_ok i m A)|]); (eapply ok_pre; [exact (getT_ok _ m Al)|]);
    rewrite (RE_ty _ _ _ _ Rl).
  - exfalso. exact (RE_null _ _ _ Rl).
  - assert (E : ((tyE (ELeaf k) =? ty2 op) = false) /\ ((tyE (ELeaf k) =? SySUB) = false)) by (destruct k, op; split; try reflexivity; discriminate).
    destruct E as [E1 E2]. rewrite E1, E2, andb_false_r. cbn [orb]. eapply ok_pre; [reflexivity|]. apply step_ret. exact H.
  - assert (E : ((tyE (E1 o e) =? ty2 op) = false) /\ ((tyE (E1 o e) =? SySUB) = false)) by (destruct o, op; split; try reflexivity; discriminate).
    destruct E as [E1 E2]. rewrite E1, E2, andb_false_r. cbn [orb]. eapply ok_pre; [reflexivity|]. apply step_ret. exact H.
  - cbn [tyE]. change SyADD with (ty2 ADD). change SySUB with (ty2 SUB). rewrite !ty2_inj. cbn [pushC].
    inversion Rl as [| |i' o' l' r' P' Qx Qa A' T' Bx Ba D' Rx Ra| |]; subst.
    remember (nl (m i)) as l eqn:El.
    assert (Nil : i <> l) by (intros E; destruct B1 as [_ [_ K]]; rewrite <- E in Pl; auto).
    pose proof B1 as [B11 [B12 B13]]. pose proof B2 as [_ [B22 B23]]. pose proof Bx as [_ [Bx2 Bx3]]. pose proof Ba as [_ [Ba2 Ba3]].
    destruct (RE_root _ _ _ _ Rr) as [Ar Pr].
    destruct ((op2_eqb lop op || op2_eqb op ADD && op2_eqb lop SUB) && negb (is_cnst a)) eqn:Cond.
    + apply andb_true_iff in Cond. destruct Cond as [C1 C2]. rewrite C1.
      eapply (ok_pre _ _ (fun f (b : bool) => if b then _ else _) true).
      { rewrite (bnd_ret _ _ _ _ _ _ _ (getR_ok l m Al)), (bnd_ret _ _ _ _ _ _ _ (isC_ok _ _ _ _ Ra)), C2. reflexivity. }
      cbn iota beta.
      destruct (swap1 m i l (fun _ => ret tt) (ty2 lop) (nr (m i)) A Al Nil (eq_sym T')) as [m2 [X2 M2]].
      assert (E2l : m2 l = N (nty (m i)) (nl (m l)) (nr (m i))) by (rewrite M2, put_same; reflexivity).
      assert (E2i : m2 i = N (ty2 lop) l (nr (m l))) by (rewrite M2, put_other, put_same by auto; rewrite <- El; reflexivity).
      assert (E2o : forall x, x <> i -> x <> l -> m2 x = m x) by (intros y N1 N2; rewrite M2, !put_other by auto; reflexivity).
      pose (Ql := fun y => Qx y \/ y = l \/ Q2 y).
      assert (Rx2 : RE m2 (nl (m l)) x Qx).
      { apply RE_frame with m; [exact Rx|]. intros y Hy. apply E2o; intro; subst y; auto. }
      assert (Ra2 : RE m2 (nr (m l)) a Qa).
      { apply RE_frame with m; [exact Ra|]. intros y Hy. apply E2o; intro; subst y; auto. }
      assert (Rc2 : RE m2 (nr (m i)) c Q2).
      { apply RE_frame with m; [exact Rr|]. intros y Hy. apply E2o; intro; subst y; [auto|exact (D l Pl Hy)]. }
      assert (Rl2 : RE m2 l (E2 op x c) Ql).
      { apply R2 with Qx Q2; auto.
        - rewrite E2l. exact T.
        - repeat split; unfold Ql; auto.
        - repeat split; unfold Ql; auto. intro K. exact (D l Pl K).
        - intros y Hy Hz. exact (D y (Bx2 y Hy) Hz).
        - rewrite E2l. exact Rx2.
        - rewrite E2l. exact Rc2. }
      destruct (IHx op m2 l c Ql Hc Hm Rl2) as [m3 [X3 [Y3 W3]]].
      assert (Nli : ~ Ql i) by (unfold Ql; intros [K|[K|K]]; auto).
      exists m3. split; [|split].
      * destruct X3 as [F X3]. exists F. intros f Hf. rewrite X2. apply X3. exact Hf.
      * apply R2 with Ql Qa; auto.
        -- rewrite W3, E2i by exact Nli. reflexivity.
        -- repeat split; auto. unfold Ql. intros y [K|[K|K]]; subst; auto.
        -- repeat split; auto.
        -- unfold Ql. intros y [K|[K|K]] Hy; [exact (D' y K Hy)|subst; auto|exact (D y (Ba2 y Hy) K)].
        -- rewrite W3, E2i by exact Nli. exact Y3.
        -- rewrite W3, E2i by exact Nli. cbn [nr]. apply RE_frame with m2; [exact Ra2|].
           intros y Hy. apply W3. unfold Ql. intros [K|[K|K]]; [exact (D' y K Hy)|subst; auto|exact (D y (Ba2 y Hy) K)].
      * intros y Hy. rewrite W3; [|unfold Ql; intros [K|[K|K]]; subst; auto]. apply E2o; intro; subst; auto.
    + eapply (ok_pre _ _ (fun f (b : bool) => if b then _ else _) false).
      { destruct (op2_eqb lop op || op2_eqb op ADD && op2_eqb lop SUB); [|reflexivity].
        rewrite (bnd_ret _ _ _ _ _ _ _ (getR_ok l m Al)), (bnd_ret _ _ _ _ _ _ _ (isC_ok _ _ _ _ Ra)).
        cbn [andb] in Cond. rewrite Cond. reflexivity. }
      cbn iota beta. destruct (op2_eqb lop op) eqn:Eo; [|apply step_ret; exact H].
      apply op2_eqb_eq in Eo. subst lop.
      change SyDIV with (ty2 DIV). rewrite ty2_inj.
      destruct (swap2 m i l (nr (m i)) (op2_eqb op DIV) A Al Nil) as [m2 [X2 M2]].
      assert (E2l : m2 l = N (ty2 (if op2_eqb op DIV then MUL else op)) (nr (m l)) (nr (m i))).
      { rewrite M2, put_same, T'. destruct (op2_eqb op DIV); reflexivity. }
      assert (E2i : m2 i = N (ty2 op) (nl (m l)) l) by (rewrite M2, put_other, put_same by auto; rewrite T; reflexivity).
      assert (E2o : forall x, x <> i -> x <> l -> m2 x = m x) by (intros y N1 N2; rewrite M2, !put_other by auto; reflexivity).
      assert (Rx2 : RE m2 (nl (m l)) x Qx).
      { apply RE_frame with m; [exact Rx|]. intros y Hy. apply E2o; intro; subst y; auto. }
      assert (Ra2 : RE m2 (nr (m l)) a Qa).
      { apply RE_frame with m; [exact Ra|]. intros y Hy. apply E2o; intro; subst y; auto. }
      assert (Rc2 : RE m2 (nr (m i)) c Q2).
      { apply RE_frame with m; [exact Rr|]. intros y Hy. apply E2o; intro; subst y; [auto|exact (D l Pl Hy)]. }
      pose (Ql := fun y => Qa y \/ y = l \/ Q2 y).
      exists m2. split; [exists O; intros; exact X2|]. split.
      * apply R2 with Qx Ql; auto.
        -- rewrite E2i. reflexivity.
        -- repeat split; auto.
        -- repeat split; auto; unfold Ql; [intros y [K|[K|K]]; subst; auto|intros [K|[K|K]]; auto].
        -- unfold Ql. intros y Hy [K|[K|K]]; [exact (D' y Hy K)|subst; auto|exact (D y (Bx2 y Hy) K)].
        -- rewrite E2i. exact Rx2.
        -- rewrite E2i. cbn [nr]. apply R2 with Qa Q2; auto.
           ++ rewrite E2l. reflexivity.
           ++ repeat split; unfold Ql; auto.
           ++ repeat split; unfold Ql; auto. intro K. exact (D l Pl K).
           ++ intros y Hy Hz. exact (D y (Ba2 y Hy) Hz).
           ++ rewrite E2l. exact Ra2.
           ++ rewrite E2l. exact Rc2.
      * intros y Hy. apply E2o; intro; subst; auto.
  - assert (E : ((SyFUNC =? ty2 op) = false)) by (destruct op; reflexivity).
    cbn [tyE]. rewrite E, andb_false_r. cbn [orb]. eapply ok_pre; [reflexivity|]. apply step_ret. exact H.
Qed.

Lemma movableZ_ok : forall o, movableZ (ty2 o) = movable o.
Proof. destruct o; reflexivity. Qed.

Lemma moveCnst_ok : forall m i o l r P, RE m i (E2 o l r) P -> okE (fun f => tMoveCnst f i) m i (moveCnst o l r) P.
Proof.
  intros m i o l r P H. unfold tMoveCnst, moveCnst.
  pose proof (normSub_ok _ _ _ _ _ _ H) as S. destruct (normSub o r) as [o' r']. cbn [fst snd] in S.
  apply (ok_seq (fun _ => tNormSub i) _ _ _ _ _ _ S). intros m1 H1 _.
  inversion H1 as [| |i' o'' l' r'' P' Q1 Q2 A T B1 B2 D Rl Rr| |]; subst.
  eapply ok_pre; [exact (getT_ok i m1 A)|]. rewrite T, movableZ_ok. destruct (movable o') eqn:Mo; cbn [negb andb].
  - eapply ok_pre; [exact (getR_ok i m1 A)|]. eapply ok_pre; [exact (isC_ok _ _ _ _ Rr)|].
    destruct (is_cnst r') eqn:Cr; [exact (push_ok _ _ _ _ _ _ Cr Mo H1)|apply step_ret; exact H1].
  - apply step_ret. exact H1.
Qed.
Lemma moveCnst_ok1 : forall m i o e P, RE m i (E1 o e) P -> okE (fun f => tMoveCnst f i) m i (E1 o e) P.
Proof.
  intros m i o e P H. destruct (RE_root _ _ _ _ H) as [A _]. unfold tMoveCnst.
  apply (ok_then (fun _ => tNormSub i) _ m m).
  - exists O. intros f _. unfold tNormSub. rewrite (bnd_ret _ _ _ _ _ _ _ (getT_ok i m A)), (bnd_ret _ _ _ _ _ _ _ (getR_ok i m A)), (RE_ty _ _ _ _ H).
    destruct o; reflexivity.
  - auto.
  - eapply ok_pre; [exact (getT_ok i m A)|]. rewrite (RE_ty _ _ _ _ H). destruct o; apply step_ret; exact H.
Qed.

(* ---- arrExp, optExp ---- *)
Definition arrBody (i : Z) (f : nat) : M unit :=
  whenR i (fun f => let^ r := getR i in tArr f r) f ;;
  whenL i (fun f => (let^ l := getL i in tArr f l) ;; tMoveCnst f i) f ;;
  tCal f i.

Lemma arr_ok : forall e m i P, RE m i e P -> resE (fun f => tArr f i) m i (arrExp e) P.
Proof.
  induction e as [|k|o e IH|o l IHl r IHr|f a IHa]; intros m i P H; [exfalso; exact (RE_null _ _ _ H)| | | |];
    apply (res_S (arrBody i)); try reflexivity; unfold arrBody.
  - apply (res_then _ _ m m); [exact (whenR_no _ _ _ _ _ H eq_refl)|auto|].
    apply (res_then _ _ m m); [exact (whenL_no _ _ _ _ _ H eq_refl)|auto|]. exact (cal_ok _ _ _ _ H).
  - inversion H as [|i' o' e' P' Q A T B R| | |]; subst.
    apply (res_then _ _ m m); [exact (whenR_no _ _ _ _ _ H eq_refl)|auto|].
    specialize (IH _ _ _ R). cbn [arrExp]. destruct (arrExp e) as [e1|x]; cbn [bind].
    2:{ apply fail_seq1. apply (whenL_fail _ _ _ _ _ _ H eq_refl). apply fail_seq1. eapply fail_pre; [exact (getL_ok i m A)|exact IH]. }
    destruct IH as [m1 [X [Y W]]].
    assert (H1 : RE m1 i (E1 o e1) P) by exact (part1 _ _ _ _ _ _ _ _ A T B R Y W).
    destruct (moveCnst_ok1 _ _ _ _ _ H1) as [m2 [X2 [Y2 W2]]].
    apply (res_then _ _ m m2).
    + apply (whenL_run _ _ _ _ _ _ H eq_refl). apply runs_seq with m1; [|exact X2]. eapply runs_pre; [exact (getL_ok i m A)|exact X].
    + intros x Hx. rewrite W2 by exact Hx. exact (proj2 (frame_off _ _ _ _ _ W B) x Hx).
    + exact (cal_ok _ _ _ _ Y2).
  - inversion H as [| |i' o' l' r' P' Q1 Q2 A T B1 B2 D Rl Rr| |]; subst.
    specialize (IHr _ _ _ Rr). cbn [arrExp]. destruct (arrExp r) as [r1|x]; cbn [bind].
    2:{ apply fail_seq1. apply (whenR_fail _ _ _ _ _ _ H eq_refl). eapply fail_pre; [exact (getR_ok i m A)|exact IHr]. }
    destruct IHr as [m1 [X1 [Y1 W1]]]. destruct (frame_off _ _ _ _ _ W1 B2) as [Ei Eo].
    assert (H1 : RE m1 i (E2 o l r1) P) by exact (partR _ _ _ _ _ _ _ _ _ A T B1 B2 D Rl Y1 W1).
    apply (res_then _ _ m m1); [apply (whenR_run _ _ _ _ _ _ H eq_refl); eapply runs_pre; [exact (getR_ok i m A)|exact X1]|exact Eo|].
    assert (Rl1 : RE m1 (nl (m i)) l Q1). { apply RE_frame with m; [exact Rl|]. intros x Hx. apply W1. intro K. exact (D x Hx K). }
    specialize (IHl _ _ _ Rl1). destruct (arrExp l) as [l1|x]; cbn [bind].
    2:{ apply fail_seq1. apply (whenL_fail _ _ _ _ _ _ H1 eq_refl). apply fail_seq1. eapply fail_pre; [exact (getL_ok i m1 A)|]. rewrite Ei. exact IHl. }
    destruct IHl as [m2 [X2 [Y2 W2]]]. destruct (frame_off _ _ _ _ _ W2 B1) as [Ej Eo2].
    assert (H2 : RE m2 i (E2 o l1 r1) P).
    { apply R2 with Q1 Q2; auto; rewrite Ej, Ei; auto. apply RE_frame with m1; [exact Y1|]. intros x Hx. apply W2. intro K. exact (D x K Hx). }
    destruct (moveCnst_ok _ _ _ _ _ _ H2) as [m3 [X3 [Y3 W3]]].
    apply (res_then _ _ m1 m3).
    + apply (whenL_run _ _ _ _ _ _ H1 eq_refl). apply runs_seq with m2; [|exact X3]. eapply runs_pre; [exact (getL_ok i m1 A)|]. rewrite Ei. exact X2.
    + intros x Hx. rewrite W3 by exact Hx. exact (Eo2 x Hx).
    + exact (cal_ok _ _ _ _ Y3).
  - inversion H as [| | |i' f' P' A B T E1 E2|i' f' a' P' Q A T E B R]; subst.
    + apply (res_then _ _ m m); [exact (whenR_no _ _ _ _ _ H eq_refl)|auto|].
      apply (res_then _ _ m m); [exact (whenL_no _ _ _ _ _ H eq_refl)|auto|]. exact (cal_ok _ _ _ _ H).
    + assert (Na : hasR (EFunc (nl (m i)) a) = true) by (destruct a; try reflexivity; inversion R).
      replace (arrExp (EFunc (nl (m i)) a)) with (bind (arrExp a) (fun a' => calExp (EFunc (nl (m i)) a'))) by (destruct a; try reflexivity; inversion R).
      specialize (IHa _ _ _ R). destruct (arrExp a) as [a1|x]; cbn [bind].
      2:{ apply fail_seq1. apply (whenR_fail _ _ _ _ _ _ H Na). eapply fail_pre; [exact (getR_ok i m A)|exact IHa]. }
      destruct IHa as [m1 [X [Y W]]].
      assert (H1 : RE m1 i (EFunc (nl (m i)) a1) P) by exact (partF _ _ _ _ _ _ _ A T eq_refl B Y W).
      apply (res_then _ _ m m1); [apply (whenR_run _ _ _ _ _ _ H Na); eapply runs_pre; [exact (getR_ok i m A)|exact X]|exact (proj2 (frame_off _ _ _ _ _ W B))|].
      apply (res_then _ _ m1 m1); [exact (whenL_no _ _ _ _ _ H1 eq_refl)|auto|]. exact (cal_ok _ _ _ _ H1).
Qed.

Lemma exp_ok : forall e m i P, RE m i e P -> resE (fun f => tExp f i) m i (optExp e) P.
Proof.
  intros e m i P H. destruct (RE_root _ _ _ _ H) as [A _]. unfold tExp. rewrite (inTab_null _ A).
  replace (optExp e) with (bind (Ok (moveLeft e)) arrExp) by (destruct e; try reflexivity; exfalso; exact (RE_null _ _ _ H)).
  apply (res_seq (fun f => tMove f i) (fun f => tArr f i) m i (Ok (moveLeft e)) arrExp P); [exact (move_ok _ _ _ _ H)|].
  intros e1 m1 _ R _. exact (arr_ok _ _ _ _ R).
Qed.
