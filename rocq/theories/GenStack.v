(* The generated code has consistent stack heights. *)
From Coq Require Import ZArith Bool List Lia Arith.
From Verif Require Import Word SyTree ExprSem VM VmCode VmBase GenLabels GenLabels2 StackSpec OptSpec.
Import ListNotations.
Open Scope Z_scope.

Lemma heq_eq : forall x y, heq x y = true -> x = y.
Proof.
  intros (a, b) (c, d) H. unfold heq in H. cbn [fst snd] in H. apply andb_prop in H.
  destruct H as (A & B). apply Nat.eqb_eq in A. apply Nat.eqb_eq in B. congruence.
Qed.
Lemma heq_refl : forall x, heq x x = true.
Proof. intros (a, b). unfold heq. cbn [fst snd]. rewrite !Nat.eqb_refl. reflexivity. Qed.

Definition le (y' y : option height) : Prop := y' = None \/ y' = y.

Lemma chk1_mono : forall E i x y x', chk1 E i x = Some y -> le x' x ->
  exists y', chk1 E i x' = Some y' /\ le y' y.
Proof.
  intros E i x y x' H [->| ->]; [|exists y; split; [exact H|right; reflexivity]].
  destruct x as [h|]; [|exists y; split; [exact H|right; reflexivity]].
  destruct i; try (exists None; split; [reflexivity|left; reflexivity]).
  cbn [chk1] in *. destruct (heq (E l) h) eqn:Q; [|discriminate].
  apply heq_eq in Q. injection H as <-. subst h. eexists. split; [reflexivity|right; reflexivity].
Qed.
Lemma chk_mono : forall E c x y x', chk E c x = Some y -> le x' x ->
  exists y', chk E c x' = Some y' /\ le y' y.
Proof.
  induction c as [|i c IH]; intros x y x' H L.
  - injection H as <-. exists x'. split; [reflexivity|exact L].
  - cbn [chk] in *. destruct (chk1 E i x) as [z|] eqn:G; [|discriminate].
    destruct (chk1_mono _ _ _ _ _ G L) as (z' & G' & L'). rewrite G'. exact (IH _ _ _ H L').
Qed.
Lemma le_trans : forall a b c, le a b -> le b c -> le a c.
Proof. intros a b c [->| ->] H; [left; reflexivity|exact H]. Qed.

Definition Chk (E : Z -> height) (c : code) (x y : option height) : Prop :=
  exists y', chk E c x = Some y' /\ le y' y.

Lemma chk_app : forall E a b x, chk E (a ++ b) x = match chk E a x with Some y => chk E b y | None => None end.
Proof.
  induction a as [|i a IH]; intros b x; [reflexivity|]. cbn [chk app].
  destruct (chk1 E i x); [apply IH|reflexivity].
Qed.
Lemma Chk_app : forall E a b x y z, Chk E a x y -> Chk E b y z -> Chk E (a ++ b) x z.
Proof.
  intros E a b x y z (y' & A & LA) (z' & B & LB). unfold Chk. rewrite chk_app, A.
  destruct (chk_mono _ _ _ _ _ B LA) as (z2 & C & LC). exists z2. split; [exact C|].
  exact (le_trans _ _ _ LC LB).
Qed.
Lemma Chk_nil : forall E x, Chk E [] x x.
Proof. intros. exists x. split; [reflexivity|right; reflexivity]. Qed.
Lemma Chk_weak : forall E c x y x', Chk E c x y -> le x' x -> Chk E c x' y.
Proof.
  intros E c x y x' (y' & A & L) L'. destruct (chk_mono _ _ _ _ _ A L') as (z & B & LB).
  exists z. split; [exact B|exact (le_trans _ _ _ LB L)].
Qed.

Definition mentions (c : code) (l : Z) : Prop := In l (defs c) \/ In l (uses c).

Lemma chk_agree : forall E E' c x, (forall l, mentions c l -> E l = E' l) -> chk E c x = chk E' c x.
Proof.
  intros E E'. induction c as [|i c IH]; intros x H; [reflexivity|]. cbn [chk].
  assert (A : chk1 E i x = chk1 E' i x).
  { destruct i; try reflexivity; (rewrite_strat fail || idtac);
      cbn [chk1]; rewrite ?(H l); try reflexivity; unfold mentions; cbn [defs uses In]; auto. }
  rewrite A. destruct (chk1 E' i x); [|reflexivity]. apply IH.
  intros l [M|M]; apply H; unfold mentions; destruct i; cbn [defs uses In]; auto.
Qed.
Lemma Chk_agree : forall E E' c x y, Chk E c x y -> (forall l, mentions c l -> E l = E' l) -> Chk E' c x y.
Proof. intros E E' c x y (y' & A & L) H. exists y'. split; [|exact L]. rewrite <- (chk_agree E E' c x H). exact A. Qed.

Lemma mentions_app : forall a b l, mentions (a ++ b) l <-> mentions a l \/ mentions b l.
Proof. intros. unfold mentions. rewrite defs_app, uses_app, !in_app_iff. tauto. Qed.
Lemma closed_range : forall c n n' l, good c n n' -> closed c -> mentions c l -> n < l <= n'.
Proof.
  intros c n n' l (_ & G & _) C [M|M]; [exact (G _ M)|].
  destruct (C l M) as [D|(F & _)]; [exact (G _ D)|destruct F].
Qed.
Lemma covered_range : forall c n n' ls l, good c n n' -> covered c ls -> mentions c l ->
  n < l <= n' \/ In l ls.
Proof.
  intros c n n' ls l (_ & G & _) C [M|M]; [left; exact (G _ M)|].
  destruct (C l M) as [D|(F & _)]; [left; exact (G _ D)|right; exact F].
Qed.

Definition merge (m : Z) (E1 E2 : Z -> height) : Z -> height := fun l => if l <=? m then E1 l else E2 l.
Definition clamp (n m : Z) (E : Z -> height) (h : height) : Z -> height :=
  fun l => if (n <? l) && (l <=? m) then E l else h.
Lemma merge_lo : forall m E1 E2 l, l <= m -> merge m E1 E2 l = E1 l.
Proof. intros. unfold merge. apply Z.leb_le in H. rewrite H. reflexivity. Qed.
Lemma merge_hi : forall m E1 E2 l, m < l -> merge m E1 E2 l = E2 l.
Proof. intros. unfold merge. apply Z.leb_gt in H. rewrite H. reflexivity. Qed.
Lemma clamp_in : forall n m E h l, n < l <= m -> clamp n m E h l = E l.
Proof.
  intros n m E h l (A & B). unfold clamp. apply Z.ltb_lt in A. apply Z.leb_le in B. rewrite A, B. reflexivity.
Qed.
Lemma clamp_out : forall n m E h l, l <= n \/ m < l -> clamp n m E h l = h.
Proof.
  intros n m E h l [A|A]; unfold clamp.
  - apply Z.ltb_ge in A. rewrite A. reflexivity.
  - apply Z.leb_gt in A. rewrite A, andb_false_r. reflexivity.
Qed.

Lemma Chk_seq : forall E1 E2 a b n n1 n2 x y z, good a n n1 -> closed a -> good b n1 n2 -> closed b ->
  Chk E1 a x y -> Chk E2 b y z -> exists E, Chk E (a ++ b) x z.
Proof.
  intros E1 E2 a b n n1 n2 x y z GA CA GB CB A B. exists (merge n1 E1 E2).
  apply (Chk_app _ _ _ _ y).
  - apply (Chk_agree _ _ _ _ _ A). intros l M. rewrite merge_lo; [reflexivity|].
    assert (R := closed_range _ _ _ _ GA CA M). lia.
  - apply (Chk_agree _ _ _ _ _ B). intros l M. rewrite merge_hi; [reflexivity|].
    assert (R := closed_range _ _ _ _ GB CB M). lia.
Qed.
Lemma Chk_clamp : forall E h c n n' x y, good c n n' -> closed c -> Chk E c x y -> Chk (clamp n n' E h) c x y.
Proof.
  intros E h c n n' x y G C A. apply (Chk_agree _ _ _ _ _ A). intros l M. rewrite clamp_in; [reflexivity|].
  exact (closed_range _ _ _ _ G C M).
Qed.

(* code without labels and jumps does not depend on E *)
Lemma chk_one : forall E i h h', eff i h = Some h' -> Chk E [i] (Some h) (Some h').
Proof.
  intros E i h h' H. exists (Some h'). split; [|right; reflexivity].
  cbn [chk]. assert (A : chk1 E i (Some h) = Some (Some h')); [|rewrite A; reflexivity].
  destruct i; cbn [chk1]; rewrite ?H; try reflexivity; cbn [eff] in H; destruct h; discriminate.
Qed.

Definition push (h : height) : height := (S (fst h), snd h).
Definition after (p : place) (h : height) : height :=
  match p with
  | STKD => push h
  | STKW | STKB => push (push h)
  | _ => h
  end.

Definition Et (g : genE_t) : Prop := forall n c n' h, g n = Some (c, n') -> 0 <= n ->
  exists E, Chk E c (Some h) (Some (push h)).
Definition Bt (g : genB_t) : Prop := forall n c p n' h, g n = Some (c, p, n') -> 0 <= n ->
  exists E, Chk E c (Some h) (Some (after p h)).
Definition Lt (g : genL_t) : Prop := forall lf l1 l2 n c l1' l2' n' h,
  g lf l1 l2 n = Some (c, l1', l2', n') -> 0 <= n -> no l1 <= n -> no l2 <= n ->
  sep (no l1) (no l2) -> 1 <= lf ->
  exists E, (forall l, l <= n -> E l = h) /\ E (no l1') = h /\ E (no l2') = h /\
            Chk E c (Some h) (Some (if 2 <=? lf then h else push h)).

Lemma load_t : forall E p c h, load p = Some c -> Chk E c (Some (after p h)) (Some (push h)).
Proof.
  intros E p c (s, a) H. destruct p; try discriminate; injection H as <-; cbn [after push fst snd];
    first [apply Chk_nil | apply chk_one; reflexivity].
Qed.
Lemma pop_t : forall E p h, Chk E (pop p) (Some (after p h)) (Some h).
Proof.
  intros E p (s, a). destruct p; cbn [pop after push fst snd]; try apply Chk_nil; try (apply chk_one; reflexivity);
    apply (Chk_app _ [IPop] [IPop] _ (Some (S s, a))); apply chk_one; reflexivity.
Qed.
Lemma store_t : forall E p c h, store p = Some c -> Chk E c (Some (after p (push h))) (Some (push h)).
Proof.
  intros E p c (s, a) H. destruct p; try discriminate; injection H as <-; cbn [after push fst snd];
    apply chk_one; reflexivity.
Qed.

Lemma toE_t : forall g, Bt g -> Et (toE g).
Proof.
  intros g H n c n' h G P. unfold toE in G.
  destruct (g n) as [((cb, p), n1)|] eqn:B; [|discriminate].
  destruct (load p) as [ld|] eqn:L; [|discriminate]. injection G as <- <-.
  destruct (H _ _ _ _ h B P) as (E & A). exists E.
  exact (Chk_app _ _ _ _ _ _ A (load_t E p ld h L)).
Qed.

Lemma jump_t : forall E tf l n j l' n' h, boolJmp tf l n = (j, l', n') -> E (no l') = h ->
  Chk E j (Some (push h)) (Some h).
Proof.
  intros E tf l n j l' n' (s, a) B H. unfold boolJmp in B.
  assert (J : j = [if tf then IJT (no l') else IJF (no l')]).
  { destruct (no l =? -1); injection B as <- <- <-; reflexivity. }
  subst j. exists (Some (s, a)). split; [|right; reflexivity].
  destruct tf; cbn [chk chk1 push fst snd]; rewrite H, heq_refl; reflexivity.
Qed.
Lemma print_t : forall E l h, E l = h -> Chk E (printLab l) (Some h) (Some h).
Proof.
  intros E l h H. unfold printLab. destruct (l =? -1); [apply Chk_nil|].
  exists (Some h). split; [|right; reflexivity]. cbn [chk chk1]. rewrite H, heq_refl. reflexivity.
Qed.

Lemma logBody_t : forall o l r El Er Ll Lr,
  Eok El -> Eok Er -> Lok Ll -> Lok Lr -> Et El -> Et Er -> Lt Ll -> Lt Lr ->
  Lt (logBody o l r El Er Ll Lr).
Proof.
  intros o l r El Er Ll Lr KEl KEr KLl KLr HEl HEr HLl HLr lf l1 l2 n c l1' l2' n' h H P B1 B2 SP LF.
  red in HLl, HLr, HEl, HEr, KLl, KLr, KEl, KEr. unfold logBody in H.
  match type of H with match ?X with _ => _ end = _ => destruct X as [((cl, l1a), n1)|] eqn:HL; [|discriminate] end.
  assert (A : good cl n n1 /\ ext (no l1) (no l1a) n n1 cl /\ covered cl [no l1a] /\ no l1a <> -1 /\
    exists E, (forall x, x <= n -> E x = h) /\ E (no l1a) = h /\ Chk E cl (Some h) (Some h)).
  { destruct (is_log l).
    - destruct (op2_eqb (log_op l) o).
      + destruct (Ll (lf + 1) l1 (newLabel (lf + 1)) n) as [(((cc, l1b), lN), nn)|] eqn:G; [|discriminate].
        inv HL. assert (G0 := G). apply KLl in G; [|assumption|simpl; lia|simpl; lia|simpl; unfold sep; lia|lia].
        destruct G as (G & X1 & XN & SP1 & L1 & LN & CV & AA & BB).
        destruct (HLl _ _ _ _ _ _ _ _ h G0) as (E & O & E1 & E2 & CK); [assumption|simpl; lia|simpl; lia|simpl; unfold sep; lia|lia|].
        split; [eapply printLab_good; eauto|].
        split. { apply ext_print; [exact X1|]. unfold sep in *. intro Q. symmetry in Q. pose proof (SP1 Q). lia. }
        split. { eapply covered_app; [exact CV|apply covered_nouses; apply printLab_uses|].
          intros x [<-|[<-|[]]] NE; [left; simpl; auto|right; apply printLab_defs; auto]. }
        split; [exact AA|]. exists E. split; [exact O|]. split; [exact E1|].
        assert (T : (2 <=? lf + 1) = true) by (apply Z.leb_le; lia). rewrite T in CK.
        exact (Chk_app _ _ _ _ _ _ CK (print_t E _ h E2)).
      + destruct (Ll (lf + 1) (newLabel (lf + 1)) l1 n) as [(((cc, lN), l1b), nn)|] eqn:G; [|discriminate].
        inv HL. assert (G0 := G). apply KLl in G; [|assumption|simpl; lia|simpl; lia|simpl; unfold sep; lia|lia].
        destruct G as (G & XN & X1 & SP1 & LN & L1 & CV & AA & BB).
        destruct (HLl _ _ _ _ _ _ _ _ h G0) as (E & O & E1 & E2 & CK); [assumption|simpl; lia|simpl; lia|simpl; unfold sep; lia|lia|].
        split; [eapply printLab_good; eauto|].
        split. { apply ext_print; [exact X1|exact SP1]. }
        split. { eapply covered_app; [exact CV|apply covered_nouses; apply printLab_uses|].
          intros x [<-|[<-|[]]] NE; [right; apply printLab_defs; auto|left; simpl; auto]. }
        split; [apply BB; [lia|reflexivity]|]. exists E. split; [exact O|]. split; [exact E2|].
        assert (T : (2 <=? lf + 1) = true) by (apply Z.leb_le; lia). rewrite T in CK.
        exact (Chk_app _ _ _ _ _ _ CK (print_t E _ h E1)).
    - destruct (El n) as [(ce, ne)|] eqn:G; [|discriminate].
      destruct (boolJmp (is_or o) l1 ne) as ((j, l1b), n2) eqn:J. inv HL.
      destruct (KEl _ _ _ G P) as (GE & CE). assert (LE : n <= ne) by (destruct GE; assumption).
      destruct (HEl _ _ _ h G P) as (E & CK). assert (J0 := J).
      apply boolJmp_ok in J; [|lia|lia]. destruct J as (GJ & XJ & LJ & NJ & DJ & UJ).
      split; [eapply good_app; eauto|]. split; [eapply ext_appr; eauto|].
      split. { eapply covered_app; [exact CE| |intros x []]. intros x Hx. rewrite UJ in Hx.
        destruct Hx as [<-|[]]. right. simpl. auto. }
      split; [exact NJ|]. exists (clamp n ne E h).
      assert (EL : clamp n ne E h (no l1a) = h).
      { apply clamp_out. destruct XJ as [->|(_ & X & _)]; lia. }
      split; [intros x Hx; apply clamp_out; auto|]. split; [exact EL|].
      exact (Chk_app _ _ _ _ _ _ (Chk_clamp E h _ _ _ _ _ GE CE CK) (jump_t _ _ _ _ _ _ _ h J0 EL)). }
  destruct A as (GA & XA & CA & NA & E1 & O1 & EA & CKA).
  assert (LE1 : n <= n1) by (destruct GA; assumption).
  assert (LA : no l1a <= n1) by (eapply ext_le; eauto).
  (* it is enough to find heights for the right part *)
  assert (R : forall cr, c = cl ++ cr -> good cr n1 n' -> covered cr [no l1'; no l2'] ->
    ext (no l1a) (no l1') n1 n' cr -> ext (no l2) (no l2') n1 n' cr ->
    (exists E, (forall x, x <= n1 -> E x = h) /\ E (no l1') = h /\ E (no l2') = h /\
      Chk E cr (Some h) (Some (if 2 <=? lf then h else push h))) ->
    exists E, (forall x, x <= n -> E x = h) /\ E (no l1') = h /\ E (no l2') = h /\
      Chk E c (Some h) (Some (if 2 <=? lf then h else push h))).
  { intros cr -> GR CR XR1 XR2 (E2 & O2 & ER1 & ER2 & CK). exists (merge n1 E1 E2).
    assert (M1 : merge n1 E1 E2 (no l1') = h).
    { destruct XR1 as [->|(_ & X & _)]; [rewrite merge_lo by lia; exact EA|rewrite merge_hi by lia; exact ER1]. }
    assert (M2 : merge n1 E1 E2 (no l2') = h).
    { destruct XR2 as [->|(_ & X & _)]; [rewrite merge_lo by lia; apply O1; lia|rewrite merge_hi by lia; exact ER2]. }
    split; [intros x Hx; rewrite merge_lo by lia; apply O1; exact Hx|].
    split; [exact M1|]. split; [exact M2|].
    apply (Chk_app _ _ _ _ (Some h)).
    - apply (Chk_agree _ _ _ _ _ CKA). intros x M. rewrite merge_lo; [reflexivity|].
      destruct (covered_range _ _ _ _ _ GA CA M) as [Q|[<-|[]]]; lia.
    - apply (Chk_agree _ _ _ _ _ CK). intros x M.
      destruct (covered_range _ _ _ _ _ GR CR M) as [Q|[<-|[<-|[]]]];
        [rewrite merge_hi by lia; reflexivity|rewrite M1; exact ER1|rewrite M2; exact ER2]. }
  assert (SA : sep (no l1a) (no l2)).
  { unfold sep in *. destruct XA as [->|(X0 & X1 & _)]; [exact SP|lia]. }
  assert (SA' : sep (no l2) (no l1a)).
  { unfold sep in *. intro Q. symmetry in Q. pose proof (SA Q). lia. }
  destruct (is_log r).
  - destruct (op2_eqb (log_op r) o).
    + destruct (Lr lf l1a l2 n1) as [(((cc, a), b), nn)|] eqn:G; [|discriminate]. injection H as <- <- <- <-.
      assert (G0 := G). apply KLr in G; [|lia|lia|lia|exact SA|lia].
      destruct G as (G & X1 & X2 & _ & _ & _ & CV & _).
      apply (R cc eq_refl G CV X1 X2). apply (HLr _ _ _ _ _ _ _ _ h G0); [lia|lia|lia|exact SA|lia].
    + destruct (Lr lf l2 l1a n1) as [(((cc, a), b), nn)|] eqn:G; [|discriminate]. injection H as <- <- <- <-.
      assert (G0 := G). apply KLr in G; [|lia|lia|lia|exact SA'|lia].
      destruct G as (G & X1 & X2 & _ & _ & _ & CV & _).
      apply (R cc eq_refl G); [|exact X2|exact X1|].
      { eapply covered_weak; [exact CV|]. intros x [->|[->|[]]] _; simpl; auto. }
      destruct (HLr _ _ _ _ _ _ _ _ h G0) as (E & O & Ea & Eb & CK); [lia|lia|lia|exact SA'|lia|].
      exists E. auto.
  - destruct (Er n1) as [(ce, ne)|] eqn:G; [|discriminate].
    destruct (KEr _ _ _ G) as (GE & CE); [lia|]. assert (LE : n1 <= ne) by (destruct GE; assumption).
    destruct (HEr _ _ _ h G) as (E & CK); [lia|].
    assert (CKc := Chk_clamp E h _ _ _ _ _ GE CE CK).
    destruct (2 <=? lf) eqn:L2.
    + destruct (left l1a =? lf).
      * destruct (boolJmp (negb (is_or o)) l2 ne) as ((j, l2b), n2) eqn:J. injection H as <- <- <- <-.
        assert (J0 := J). apply boolJmp_ok in J; [|lia|lia]. destruct J as (GJ & XJ & LJ & NJ & DJ & UJ).
        assert (GG : good (ce ++ j) n1 n2) by (eapply good_app; eauto).
        assert (E2 : clamp n1 ne E h (no l2b) = h).
        { apply clamp_out. destruct XJ as [->|(_ & X & _)]; lia. }
        apply (R (ce ++ j) eq_refl GG); [|apply ext_refl|eapply ext_appr; [lia|exact XJ|exact GE|exact GJ]|].
        { eapply covered_app; [exact CE| |intros x []]. intros x Hx. rewrite UJ in Hx.
          destruct Hx as [<-|[]]. right. simpl. auto. }
        exists (clamp n1 ne E h). split; [intros x Hx; apply clamp_out; auto|].
        split; [apply clamp_out; lia|]. split; [exact E2|].
        exact (Chk_app _ _ _ _ _ _ CKc (jump_t _ _ _ _ _ _ _ h J0 E2)).
      * destruct (boolJmp (is_or o) l1a ne) as ((j, l1b), n2) eqn:J. injection H as <- <- <- <-.
        assert (J0 := J). apply boolJmp_ok in J; [|lia|lia]. destruct J as (GJ & XJ & LJ & NJ & DJ & UJ).
        assert (GG : good (ce ++ j) n1 n2) by (eapply good_app; eauto).
        assert (E2 : clamp n1 ne E h (no l1b) = h).
        { apply clamp_out. destruct XJ as [->|(_ & X & _)]; lia. }
        apply (R (ce ++ j) eq_refl GG); [|eapply ext_appr; [lia|exact XJ|exact GE|exact GJ]|apply ext_refl|].
        { eapply covered_app; [exact CE| |intros x []]. intros x Hx. rewrite UJ in Hx.
          destruct Hx as [<-|[]]. right. simpl. auto. }
        exists (clamp n1 ne E h). split; [intros x Hx; apply clamp_out; auto|].
        split; [exact E2|]. split; [apply clamp_out; lia|].
        exact (Chk_app _ _ _ _ _ _ CKc (jump_t _ _ _ _ _ _ _ h J0 E2)).
    + injection H as <- <- <- <-.
      apply (R ce eq_refl GE); [|apply ext_refl|apply ext_refl|].
      { eapply covered_weak; [exact CE|]. intros x []. }
      exists (clamp n1 ne E h). split; [intros x Hx; apply clamp_out; auto|].
      split; [apply clamp_out; lia|]. split; [apply clamp_out; lia|]. exact CKc.
Qed.

Section G.
Variable N : names.
Notation genB := (genB N).
Notation genE := (genE N).
Notation genL := (genL N).
Notation genS := (genS N).

Definition At (e : expr) : Prop := forall n c k n' h,
  genArgs genB e n = Some (c, k, n') -> 0 <= n ->
  exists E, Chk E c (Some h) (Some (fst h, (snd h + k)%nat)).

Lemma args_single_t : forall e, Bt (genB e) ->
  (match e with E2 SEMI _ _ | ENull => False | _ => True end) -> At e.
Proof.
  intros e H T n c k n' h E P.
  assert (E' : (do (c0, n1) <- toE (genB e) n; Some (c0 ++ [IArg], 1%nat, n1)) = Some (c, k, n')).
  { destruct e as [| | |[] | ]; try contradiction; exact E. }
  destruct (toE (genB e) n) as [(c0, n1)|] eqn:G; [|discriminate]. injection E' as <- <- <-.
  destruct (toE_t _ H _ _ _ h G P) as (F & CK). exists F. refine (Chk_app _ _ _ _ _ _ CK _).
  apply chk_one. cbn [eff push fst snd]. rewrite Nat.add_1_r. reflexivity.
Qed.

(* the end of a logical expression evaluated for its value *)
Lemma mac_t : forall E x y l1 l2 l3 h, E l1 = h -> E l2 = h -> E l3 = push h ->
  Chk E ([IJmp l3; ILab l1; ILdCns x] ++ (if l2 =? -1 then [] else [IJmp l3; ILab l2; ILdCns y]) ++ [ILab l3])
      (Some (push h)) (Some (push h)).
Proof.
  intros E x y l1 l2 l3 (s, a) H1 H2 H3. exists (Some (push (s, a))). split; [|right; reflexivity].
  destruct (l2 =? -1); cbn [app chk chk1 eff]; rewrite ?H3, ?heq_refl; cbn [chk chk1 eff]; rewrite ?H1; cbn [chk1 eff];
    rewrite ?H3; change (S s, a) with (push (s, a)); rewrite ?heq_refl; rewrite ?H2; cbn [chk1 eff];
    change (S s, a) with (push (s, a)); rewrite ?H3, ?heq_refl; reflexivity.
Qed.

Lemma log_value_t : forall o c l2 l1 n n1 E h,
  good c (n + 1) n1 -> covered c [l2; l1] -> ext (-1) l2 (n + 1) n1 c -> ext (-1) l1 (n + 1) n1 c ->
  0 <= n -> E l2 = h -> E l1 = h -> Chk E c (Some h) (Some (push h)) ->
  exists E, Chk E (c ++ (if is_or o then vmBoolOR else vmBoolAND) l2 l1 (n + 1)) (Some h) (Some (push h)).
Proof.
  intros o c l2 l1 n n1 E h G CV X2 X1 P H2 H1 CK.
  set (E' := fun l => if l =? n + 1 then push h else E l).
  assert (A : forall l, l <> n + 1 -> E' l = E l).
  { intros l D. unfold E'. apply Z.eqb_neq in D. rewrite D. reflexivity. }
  assert (B : E' (n + 1) = push h) by (unfold E'; rewrite Z.eqb_refl; reflexivity).
  assert (D2 : l2 <> n + 1) by (destruct X2 as [->|X2]; lia).
  assert (D1 : l1 <> n + 1) by (destruct X1 as [->|X1]; lia).
  exists E'. apply (Chk_app _ _ _ _ (Some (push h))).
  - apply (Chk_agree _ _ _ _ _ CK). intros l M. symmetry. apply A.
    destruct (covered_range _ _ _ _ _ G CV M) as [Q|[<-|[<-|[]]]]; auto. lia.
  - destruct (is_or o); (apply mac_t; [rewrite A by exact D2; exact H2|rewrite A by exact D1; exact H1|exact B]).
Qed.

Lemma gen_t : forall e, Bt (genB e) /\ Lt (genL e) /\ At e.
Proof.
  induction e as [|k|o a IH|o l IHl r IHr|f a IH].
  - split; [intros n c p n' h H; discriminate|]. split; [intros until 1; discriminate|].
    intros n c k n' h H P. inv H. exists (fun _ => h). rewrite Nat.add_0_r. destruct h. apply Chk_nil.
  - assert (B : Bt (genB (ELeaf k))).
    { intros n c p n' h H P. inv H. exists (fun _ => h). destruct k; apply Chk_nil. }
    split; [exact B|]. split; [intros until 1; discriminate|]. apply args_single_t; auto.
  - assert (B : Bt (genB (E1 o a))).
    { intros n c p n' h H P. cbn [VmCode.genB] in H.
      destruct (toE (genB a) n) as [(c0, n1)|] eqn:G; [|discriminate]. inv H.
      destruct (toE_t _ (proj1 IH) _ _ _ h G P) as (E & CK). exists E.
      refine (Chk_app _ _ _ _ _ _ CK _). apply chk_one. reflexivity. }
    split; [exact B|]. split; [intros until 1; discriminate|]. apply args_single_t; auto.
  - destruct IHl as (Bl & Ll & Al), IHr as (Br & Lr & Ar).
    destruct (gen_ok N l) as (KBl & KLl & KAl), (gen_ok N r) as (KBr & KLr & KAr).
    pose proof (toE_ok _ KBl) as KEl. pose proof (toE_ok _ KBr) as KEr.
    pose proof (toE_t _ Bl) as El. pose proof (toE_t _ Br) as Er.
    assert (KL : Lok (logBody o l r (toE (genB l)) (toE (genB r)) (genL l) (genL r)))
      by (apply logBody_ok; assumption).
    assert (LB : Lt (logBody o l r (toE (genB l)) (toE (genB r)) (genL l) (genL r)))
      by (apply logBody_t; assumption).
    assert (L : Lt (genL (E2 o l r))).
    { destruct o; try (intros until 1; discriminate); exact LB. }
    assert (B : Bt (genB (E2 o l r))).
    { intros n c p n' h H P.
      assert (BIN : forall ga gb tl q, Eok ga -> Eok gb -> Et ga -> Et gb ->
        (forall E, Chk E tl (Some (push (push h))) (Some (after q h))) ->
        (do (ca, n1) <- ga n; do (cb, n2) <- gb n1; Some (ca ++ cb ++ tl, q, n2)) = Some (c, p, n') ->
        exists E, Chk E c (Some h) (Some (after p h))).
      { intros ga gb tl q Ka Kb Ha Hb HT HH.
        destruct (ga n) as [(ca, n1)|] eqn:Ga; [|discriminate].
        destruct (gb n1) as [(cb, n2)|] eqn:Gb; [|discriminate].
        injection HH as <- <- <-. destruct (Ka _ _ _ Ga P) as (GA & CA).
        assert (P1 : 0 <= n1) by (destruct GA; lia). destruct (Kb _ _ _ Gb P1) as (GB & CB).
        destruct (Ha _ _ _ h Ga P) as (E1 & C1). destruct (Hb _ _ _ (push h) Gb P1) as (E2 & C2).
        destruct (Chk_seq _ _ _ _ _ _ _ _ _ _ GA CA GB CB C1 C2) as (E & CK). exists E.
        rewrite app_assoc. exact (Chk_app _ _ _ _ _ _ CK (HT E)). }
      assert (BIN0 : forall q, after q h = push (push h) ->
        (do (ca, n1) <- toE (genB l) n; do (cb, n2) <- toE (genB r) n1; Some (ca ++ cb, q, n2)) = Some (c, p, n') ->
        exists E, Chk E c (Some h) (Some (after p h))).
      { intros q Q HH. apply (BIN (toE (genB l)) (toE (genB r)) [] q KEl KEr El Er).
        - intro E. rewrite Q. apply Chk_nil.
        - rewrite <- HH. destruct (toE (genB l) n) as [(ca, n1)|]; [|reflexivity].
          destruct (toE (genB r) n1) as [(cb, n2)|]; [|reflexivity]. rewrite app_nil_r. reflexivity. }
      assert (OP : forall E o', Chk E [IBin o'] (Some (push (push h))) (Some (after STKD h))).
      { intros E o'. apply chk_one. reflexivity. }
      destruct o; first [rewrite genB_or in H|rewrite genB_and in H|cbn [VmCode.genB isCommutativeOp andb mirror] in H];
        try match type of H with context [evalDepth l <? evalDepth r] => destruct (evalDepth l <? evalDepth r) end;
        try (exact (BIN _ _ _ _ KEl KEr El Er (fun E => OP E _) H));
        try (exact (BIN _ _ _ _ KEr KEl Er El (fun E => OP E _) H));
        try (exact (BIN0 STKW eq_refl H)); try (exact (BIN0 STKB eq_refl H)); try discriminate.
      - (* DOT *)
        destruct r as [|[v| | | | |]| | | ]; try discriminate.
        destruct (toE (genB l) n) as [(c0, n1)|] eqn:G; [|discriminate]. inv H.
        destruct (El _ _ _ h G P) as (E & CK). exists E.
        refine (Chk_app _ _ _ _ _ _ CK _). apply chk_one. reflexivity.
      - (* ASS *)
        destruct (toE (genB r) n) as [(cr, n1)|] eqn:Gr; [|discriminate].
        destruct (genB l n1) as [((cl, q), n2)|] eqn:Gl; [|discriminate].
        destruct (store q) as [s|] eqn:St; [|discriminate]. inv H.
        destruct (KEr _ _ _ Gr P) as (GA & CA). assert (P1 : 0 <= n1) by (destruct GA; lia).
        destruct (KBl _ _ _ _ Gl P1) as (GB & CB).
        destruct (Er _ _ _ h Gr P) as (E1 & C1). destruct (Bl _ _ _ _ (push h) Gl P1) as (E2 & C2).
        destruct (Chk_seq _ _ _ _ _ _ _ _ _ _ GA CA GB CB C1 C2) as (E & CK). exists E.
        rewrite app_assoc. exact (Chk_app _ _ _ _ _ _ CK (store_t E q s h St)).
      - (* COMM *)
        destruct (genB l n) as [((cl, q), n1)|] eqn:Gl; [|discriminate].
        destruct (genB r n1) as [((cr, q'), n2)|] eqn:Gr; [|discriminate]. inv H.
        destruct (KBl _ _ _ _ Gl P) as (GA & CA). assert (P1 : 0 <= n1) by (destruct GA; lia).
        destruct (KBr _ _ _ _ Gr P1) as (GB & CB). destruct (pop_plain q) as (D & U).
        destruct (nodefs_step cl (pop q) n n1 (conj GA CA) D U) as (GA' & CA').
        destruct (Bl _ _ _ _ h Gl P) as (E1 & C1). destruct (Br _ _ _ _ h Gr P1) as (E2 & C2).
        rewrite app_assoc.
        exact (Chk_seq E1 E2 _ _ _ _ _ _ _ _ GA' CA' GB CB (Chk_app _ _ _ _ _ _ C1 (pop_t E1 q h)) C2).
      - (* OR *)
        destruct (logBody OR l r (toE (genB l)) (toE (genB r)) (genL l) (genL r) 1 (newLabel 1) (newLabel 0) (n + 1))
          as [(((cc, l2), l1), n1)|] eqn:G; [|discriminate]. injection H as <- <- <-. assert (G0 := G).
        red in KL; apply KL in G; [|lia|simpl; lia|simpl; lia|unfold sep; simpl; lia|lia].
        destruct G as (G & X2 & X1 & _ & _ & _ & CV & _ & _).
        destruct (LB _ _ _ _ _ _ _ _ h G0) as (E & _ & E2 & E1 & CK); [lia|simpl; lia|simpl; lia|unfold sep; simpl; lia|lia|].
        exact (log_value_t OR cc _ _ n n1 E h G CV X2 X1 P E2 E1 CK).
      - destruct (logBody AND l r (toE (genB l)) (toE (genB r)) (genL l) (genL r) 1 (newLabel 1) (newLabel 0) (n + 1))
          as [(((cc, l2), l1), n1)|] eqn:G; [|discriminate]. injection H as <- <- <-. assert (G0 := G).
        red in KL; apply KL in G; [|lia|simpl; lia|simpl; lia|unfold sep; simpl; lia|lia].
        destruct G as (G & X2 & X1 & _ & _ & _ & CV & _ & _).
        destruct (LB _ _ _ _ _ _ _ _ h G0) as (E & _ & E2 & E1 & CK); [lia|simpl; lia|simpl; lia|unfold sep; simpl; lia|lia|].
        exact (log_value_t AND cc _ _ n n1 E h G CV X2 X1 P E2 E1 CK). }
    split; [exact B|]. split; [exact L|].
    destruct (op2_eqb o SEMI) eqn:ES.
    + apply op2_eqb_eq in ES. subst o. intros n c k n' h H P. cbn [genArgs] in H.
      fold (genArgs genB) in H.
      destruct (toE (genB r) n) as [(c0, n1)|] eqn:G; [|discriminate].
      destruct (genArgs genB l n1) as [((c1, k1), n2)|] eqn:GA; [|discriminate]. injection H as <- <- <-.
      destruct (KEr _ _ _ G P) as (G1 & C1). assert (P1 : 0 <= n1) by (destruct G1; lia).
      destruct (KAl _ _ _ _ GA P1) as (G2 & C2).
      destruct (nodefs_step c0 [IArg] n n1 (conj G1 C1) eq_refl eq_refl) as (G1' & C1').
      destruct (Er _ _ _ h G P) as (F1 & D1). destruct (Al _ _ _ _ (fst h, S (snd h)) GA P1) as (F2 & D2).
      change (c0 ++ IArg :: c1) with (c0 ++ [IArg] ++ c1). rewrite app_assoc.
      apply (Chk_seq F1 F2 _ _ n n1 n2 _ (Some (fst h, S (snd h)))); auto.
      * refine (Chk_app _ _ _ _ _ _ D1 _). apply chk_one. reflexivity.
      * cbn [fst snd] in D2. replace (snd h + S k1)%nat with (S (snd h) + k1)%nat by lia. exact D2.
    + apply args_single_t; [exact B|]. destruct o; auto. discriminate.
  - assert (B : Bt (genB (EFunc f a))).
    { intros n c p n' h H P. cbn [VmCode.genB] in H.
      destruct (genArgs genB a n) as [((c0, k), n1)|] eqn:G; [|discriminate].
      destruct (proj2 (proj2 IH) _ _ _ _ h G P) as (E & CK). exists E. destruct h as (s, ar). cbn [fst snd] in CK.
      assert (LE : (k <=? ar + k)%nat = true) by (apply Nat.leb_le; lia).
      assert (SB : (ar + k - k)%nat = ar) by lia.
      destruct (is_void N f); injection H as <- <- <-; refine (Chk_app _ _ _ _ _ _ CK _); apply chk_one;
        cbn [eff after push fst snd]; rewrite LE, SB; reflexivity. }
    split; [exact B|]. split; [intros until 1; discriminate|]. apply args_single_t; auto.
Qed.

Lemma genE_t' : forall e, Et (genE e).
Proof. intro e. apply toE_t. apply gen_t. Qed.
Lemma genX_t : forall e n c n' h, genX N e n = Some (c, n') -> 0 <= n ->
  exists E, Chk E c (Some h) (Some h).
Proof.
  intros e n c n' h H P. unfold genX in H.
  destruct (genB e n) as [((c0, p), n1)|] eqn:G; [|discriminate]. inv H.
  destruct (proj1 (gen_t e) _ _ _ _ h G P) as (E & CK). exists E.
  exact (Chk_app _ _ _ _ _ _ CK (pop_t E p h)).
Qed.

Lemma genCnd_t : forall e tf j n c j' n' h, genCnd N e tf j n = Some (c, j', n') -> 0 <= n -> no j <= n ->
  exists E, (forall l, l <= n -> E l = h) /\ E (no j') = h /\ Chk E c (Some h) (Some h).
Proof.
  intros e tf j n c j' n' h H P B. unfold genCnd in H.
  assert (LT : Lt (genL e)) by apply gen_t. red in LT.
  destruct (is_log e).
  - destruct (Bool.eqb (is_or (log_op e)) tf).
    + destruct (genL e 2 j (newLabel 2) n) as [(((c0, a), b), nn)|] eqn:G; [|discriminate]. injection H as <- <- <-.
      destruct (LT _ _ _ _ _ _ _ _ h G) as (E & O & Ea & Eb & CK); [lia|lia|simpl; lia|unfold sep; simpl; lia|lia|].
      exists E. split; [exact O|]. split; [exact Ea|]. exact (Chk_app _ _ _ _ _ _ CK (print_t E _ h Eb)).
    + destruct (genL e 2 (newLabel 2) j n) as [(((c0, a), b), nn)|] eqn:G; [|discriminate]. injection H as <- <- <-.
      destruct (LT _ _ _ _ _ _ _ _ h G) as (E & O & Ea & Eb & CK); [lia|simpl; lia|lia|unfold sep; simpl; lia|lia|].
      exists E. split; [exact O|]. split; [exact Eb|]. exact (Chk_app _ _ _ _ _ _ CK (print_t E _ h Ea)).
  - destruct (genE e n) as [(ce, ne)|] eqn:G; [|discriminate].
    destruct (boolJmp tf j ne) as ((jc, j2), n2) eqn:J. injection H as <- <- <-.
    destruct (genE_good N _ _ _ _ G P) as (GE & CE). assert (LE : n <= ne) by (destruct GE; assumption).
    destruct (genE_t' _ _ _ _ h G P) as (E & CK). assert (J0 := J).
    apply boolJmp_ok in J; [|lia|lia]. destruct J as (GJ & XJ & LJ & NJ & DJ & UJ).
    exists (clamp n ne E h).
    assert (EL : clamp n ne E h (no j2) = h).
    { apply clamp_out. destruct XJ as [->|(_ & X & _)]; lia. }
    split; [intros x Hx; apply clamp_out; auto|]. split; [exact EL|].
    cbn [newLabel no]. change (printLab (-1)) with (@nil instr). rewrite app_nil_r.
    exact (Chk_app _ _ _ _ _ _ (Chk_clamp E h _ _ _ _ _ GE CE CK) (jump_t _ _ _ _ _ _ _ h J0 EL)).
Qed.

Lemma pend : forall h E1 E2 m l l' n2 c, ext l l' m n2 c -> l <= m -> E1 l = h -> E2 l' = h ->
  merge m E1 E2 l' = h.
Proof.
  intros h E1 E2 m l l' n2 c [->|(_ & X & _)] L A B; [rewrite merge_lo by lia; exact A|rewrite merge_hi by lia; exact B].
Qed.
Lemma jmp_t : forall E l h, E l = h -> Chk E [IJmp l] (Some h) (Some h).
Proof. intros E l h H. exists None. split; [|left; reflexivity]. cbn [chk chk1]. rewrite H, heq_refl. reflexivity. Qed.

Definition Sg (g g' : labs) (c : code) (h : height) : Prop := exists E,
  (forall l, l <= cur g -> E l = h) /\ E (brk g') = h /\ E (cnt g') = h /\ E (ret g') = h /\
  Chk E c (Some h) (Some h).

(* heights of a piece of code combined with those of a statement that follows *)
Lemma Sg_after : forall E1 g1 g2 c h, wfg g1 -> Lbs g1 g2 [] c -> Sg g1 g2 c h ->
  E1 (brk g1) = h -> E1 (cnt g1) = h -> E1 (ret g1) = h ->
  exists E, (forall l, l <= cur g1 -> E l = E1 l) /\ (forall l, cur g2 < l -> E l = h) /\
    E (brk g2) = h /\ E (cnt g2) = h /\ E (ret g2) = h /\ Chk E c (Some h) (Some h).
Proof.
  intros E1 g1 g2 c h W (G & XB & XC & XR & W2 & CV) (E2 & O & EB & EC & ER & CK) HB HC HR.
  unfold wfg in W. unfold wfg in W2.
  set (E3 := fun l => if cur g2 <? l then h else E2 l).
  assert (A3 : forall l, l <= cur g2 -> E3 l = E2 l).
  { intros l L. unfold E3. apply Z.ltb_ge in L. rewrite L. reflexivity. }
  assert (B3 : forall l, cur g2 < l -> E3 l = h).
  { intros l L. unfold E3. apply Z.ltb_lt in L. rewrite L. reflexivity. }
  assert (N12 : cur g1 <= cur g2) by (destruct G; assumption).
  assert (PB : merge (cur g1) E1 E3 (brk g2) = h) by (apply (pend h _ _ _ _ _ _ _ XB); [lia|exact HB|rewrite A3 by lia; exact EB]).
  assert (PC : merge (cur g1) E1 E3 (cnt g2) = h) by (apply (pend h _ _ _ _ _ _ _ XC); [lia|exact HC|rewrite A3 by lia; exact EC]).
  assert (PR : merge (cur g1) E1 E3 (ret g2) = h) by (apply (pend h _ _ _ _ _ _ _ XR); [lia|exact HR|rewrite A3 by lia; exact ER]).
  exists (merge (cur g1) E1 E3). split; [intros l L; apply merge_lo; exact L|].
  split; [intros l L; rewrite merge_hi by lia; apply B3; exact L|].
  split; [exact PB|]. split; [exact PC|]. split; [exact PR|].
  apply (Chk_agree _ _ _ _ _ CK). intros l M.
  destruct (covered_range _ _ _ _ _ G CV M) as [Q|[<-|[<-|[<-|[]]]]]; [|congruence|congruence|congruence].
  rewrite merge_hi by lia. symmetry. apply A3. lia.
Qed.
(* code before it keeps its heights *)
Lemma Chk_keep : forall E1 E c x y n m ls, Chk E1 c x y -> good c n m -> covered c ls ->
  (forall l, In l ls -> l <= m) -> (forall l, l <= m -> E l = E1 l) -> Chk E c x y.
Proof.
  intros E1 E c x y n m ls CK G CV B A. apply (Chk_agree _ _ _ _ _ CK). intros l M. symmetry. apply A.
  destruct (covered_range _ _ _ _ _ G CV M) as [Q|Q]; [lia|exact (B _ Q)].
Qed.
(* closed code that follows *)
Lemma closed_after : forall E1 E2 c n n' h, good c n n' -> closed c -> (forall l, n < l -> E1 l = h) ->
  Chk E2 c (Some h) (Some h) ->
  exists E, (forall l, l <= n -> E l = E1 l) /\ (forall l, n' < l -> E l = h) /\ Chk E c (Some h) (Some h).
Proof.
  intros E1 E2 c n n' h G C O CK. assert (LE : n <= n') by (destruct G; assumption).
  exists (merge n E1 (clamp n n' E2 h)). split; [intros l L; apply merge_lo; exact L|].
  split; [intros l L; rewrite merge_hi by lia; apply clamp_out; lia|].
  apply (Chk_agree _ _ _ _ _ CK). intros l M. assert (R := closed_range _ _ _ _ G C M).
  rewrite merge_hi by lia. symmetry. apply clamp_in. exact R.
Qed.

Lemma genS_t : forall s p g c g' h, genS s p g = Some (c, g') -> wfg g -> Sg g g' c h.
Proof.
  induction s as [|e|i|e b IHb|e b1 IH1 b2 IH2|e b IHb re|b IHb e| | |e|l IHl r IHr|l IHl r IHr];
    intros p g c g' h H W; assert (P : 0 <= cur g) by apply W; cbn [VmCode.genS] in H;
    assert (W0 := W); unfold wfg in W0.
  - inv H. exists (fun _ => h). repeat (split; [auto|]). apply Chk_nil.
  - destruct (genX N e (cur g)) as [(c0, n)|] eqn:G; [|discriminate]. inv H.
    destruct (genX_good N _ _ _ _ G P) as (GG & CC). destruct (genX_t _ _ _ _ h G P) as (E & CK).
    exists (clamp (cur g) n E h). split; [intros l L; apply clamp_out; auto|].
    cbn [set_cur brk cnt ret]. repeat (split; [apply clamp_out; lia|]).
    exact (Chk_clamp E h _ _ _ _ _ GG CC CK).
  - inv H. exists (fun _ => h). repeat (split; [auto|]). apply Chk_nil.
  - (* if *)
    destruct (genCnd N e false (newLabel 0) (cur g)) as [((c0, lb), n)|] eqn:G; [|discriminate].
    destruct (genS b (right_of p) (set_cur g n)) as [(cb, g1)|] eqn:GB; [|discriminate]. injection H as <- <-.
    destruct (genCnd_t _ _ _ _ _ _ _ h G P) as (E0 & O0 & EL & CK0); [simpl; lia|].
    apply genCnd_good in G; [|lia|simpl; lia]. destruct G as (G1 & G2 & G3 & G4 & G5).
    assert (WC : wfg (set_cur g n)).
    { assert (cur g <= n) by (destruct G1; assumption). unfold wfg, set_cur. cbn [cur brk cnt ret]. intuition lia. }
    assert (LN : no lb <= n) by (unfold ext in G2; destruct G1; simpl in G2; lia).
    destruct (Sg_after E0 _ _ _ h WC (genS_labs N _ _ _ _ _ GB WC) (IHb _ _ _ _ h GB WC))
      as (E & A & _ & EB & EC & ER & CK); cbn [set_cur cur brk cnt ret] in *; try (apply O0; lia).
    assert (LE : cur g <= n) by (destruct G1; assumption).
    exists E. split; [intros l L; rewrite A by lia; apply O0; exact L|].
    repeat (split; [assumption|]). apply (Chk_app _ _ _ _ (Some h)).
    + apply (Chk_keep E0 E c0 _ _ _ _ _ CK0 G1 G4); [intros l [<-|[]]; exact LN|exact A].
    + apply (Chk_app _ _ _ _ _ _ CK). apply print_t. rewrite A by exact LN. exact EL.
  - (* else *)
    destruct (genCnd N e false (newLabel 0) (cur g)) as [((c0, lb), n)|] eqn:G; [|discriminate].
    destruct (genS b1 PInner (set_cur g n)) as [(cb1, g1)|] eqn:GB1; [|discriminate].
    cbv zeta in H.
    destruct (genCnd_t _ _ _ _ _ _ _ h G P) as (E0 & O0 & EL & CK0); [simpl; lia|].
    apply genCnd_good in G; [|lia|simpl; lia]. destruct G as (G1 & G2 & G3 & G4 & G5).
    assert (LE : cur g <= n) by (destruct G1; assumption).
    assert (WC : wfg (set_cur g n)) by (unfold wfg, set_cur; cbn [cur brk cnt ret]; intuition lia).
    assert (LN : no lb <= n) by (unfold ext in G2; simpl in G2; lia).
    assert (L1 := genS_labs N _ _ _ _ _ GB1 WC).
    destruct (Sg_after E0 _ _ _ h WC L1 (IH1 _ _ _ _ h GB1 WC))
      as (E1 & A1 & B1 & EB1 & EC1 & ER1 & CK1); try (apply O0; cbn [set_cur cur brk cnt ret]; lia).
    cbn [set_cur cur brk cnt ret] in A1.
    assert (W1 : wfg g1) by apply L1. pose proof L1 as (Q1 & _ & _ & _ & _ & Q6).
    cbn [set_cur cur brk cnt ret] in Q1. assert (LE1 : n <= cur g1) by (destruct Q1; assumption).
    assert (NL : forall g2 jc il, wfg g2 -> cur g1 <= cur g2 -> 
       brk g2 = brk g1 -> cnt g2 = cnt g1 -> ret g2 = ret g1 -> il <= cur g2 ->
       (forall E, E il = h -> Chk E jc (Some h) (Some h)) -> (il = -1 \/ cur g1 < il) ->
       forall cb2 g3, genS b2 (right_of p) g2 = Some (cb2, g3) ->
       Sg g g3 (c0 ++ cb1 ++ jc ++ printLab (no lb) ++ cb2 ++ printLab il) h).
    { intros g2 jc il W2 LE2 EB EC ER IL CJ IL2 cb2 g3 GB2.
      assert (L2 := genS_labs N _ _ _ _ _ GB2 W2).
      destruct (Sg_after E1 _ _ _ h W2 L2 (IH2 _ _ _ _ h GB2 W2))
        as (E & A & _ & EB2 & EC2 & ER2 & CK2); [congruence|congruence|congruence|].
      assert (A' : forall x, x <= n -> E x = E0 x) by (intros x Hx; rewrite A by lia; apply A1; exact Hx).
      assert (EI : E il = h).
      { rewrite A by exact IL. destruct IL2 as [-> | I]; [rewrite A1 by lia; apply O0; lia|apply B1; exact I]. }
      exists E. split; [intros x Hx; rewrite A' by lia; apply O0; exact Hx|].
      repeat (split; [assumption|]). unfold wfg in W1.
      apply (Chk_app _ _ _ _ (Some h)); [|apply (Chk_app _ _ _ _ (Some h)); [|apply (Chk_app _ _ _ _ (Some h));
        [exact (CJ E EI)|apply (Chk_app _ _ _ _ (Some h)); [|apply (Chk_app _ _ _ _ (Some h)); [exact CK2|apply print_t; exact EI]]]]].
      - apply (Chk_keep E0 E c0 _ _ _ _ _ CK0 G1 G4); [intros x [<-|[]]; exact LN|exact A'].
      - apply (Chk_keep E1 E cb1 _ _ _ _ _ CK1 Q1 Q6); [|intros x Hx; apply A; lia].
        intros x [<-|[<-|[<-|[]]]]; lia.
      - apply print_t. rewrite A' by exact LN. exact EL. }
    destruct (jmpBlock b1) eqn:JB.
    + destruct (genS b2 (right_of p) g1) as [(cb2, g3)|] eqn:GB2; [|discriminate]. injection H as <- <-.
      apply (NL g1 [] (-1)); auto; try lia; try (unfold wfg in W1; lia). intros E _. apply Chk_nil.
    + destruct (genS b2 (right_of p) (set_cur g1 (cur g1 + 1))) as [(cb2, g3)|] eqn:GB2; [|discriminate]. injection H as <- <-.
      apply (NL (set_cur g1 (cur g1 + 1)) [IJmp (cur g1 + 1)] (cur g1 + 1)); auto; cbn [set_cur cur brk cnt ret]; try lia.
      * unfold wfg, set_cur in *. cbn [cur brk cnt ret]. intuition lia.
      * intros E EI. apply jmp_t. exact EI.
  - (* while *)
    cbv zeta in H.
    match type of H with match ?X with _ => _ end = _ => destruct X as [((c0, bl), n1)|] eqn:HC; [|discriminate] end.
    destruct (genS b PInner (Labs n1 bl match re with ENull => cur g + 1 | _ => -1 end (ret g))) as [(cb, g1)|] eqn:GB; [|discriminate].
    match type of H with match ?X with _ => _ end = _ => destruct X as [((cre, jb), n2)|] eqn:HR; [|discriminate] end.
    injection H as <- <-.
    set (cl := match re with ENull => cur g + 1 | _ => -1 end) in *.
    assert (CL : cl = cur g + 1 \/ cl = -1) by (unfold cl; destruct re; auto).
    assert (C0 : good c0 (cur g + 1) n1 /\ ext (-1) bl (cur g + 1) n1 c0 /\ covered c0 [bl] /\
      exists E, (forall l, l <= cur g + 1 -> E l = h) /\ E bl = h /\ Chk E c0 (Some h) (Some h)).
    { destruct e; try (destruct (genCnd N _ false (newLabel 0) (cur g + 1)) as [((c1, lb), nn)|] eqn:G; [|discriminate];
        injection HC as <- <- <-;
        (destruct (genCnd_t _ _ _ _ _ _ _ h G) as (E0 & O0 & EL & CK0); [lia|simpl; lia|]);
        apply genCnd_good in G; [|lia|simpl; lia]; destruct G as (? & ? & ? & ? & ?);
        repeat (split; [assumption|]); exists E0; auto).
      injection HC as <- <- <-. split; [apply good_nil|]. split; [apply ext_refl|]. split; [intros x []|].
      exists (fun _ => h). repeat (split; [auto|]). apply Chk_nil. }
    destruct C0 as (C1 & C2 & C3 & E0 & O0 & EL & CK0).
    assert (N1 : cur g + 1 <= n1) by (destruct C1; assumption).
    assert (LB : bl <= n1) by (unfold ext in C2; lia).
    assert (WH : wfg (Labs n1 bl cl (ret g))).
    { unfold wfg, sep, ext in *. cbn [cur brk cnt ret]. clear -C2 CL W0 N1. lia. }
    assert (L1 := genS_labs N _ _ _ _ _ GB WH). assert (W1 : wfg g1) by apply L1.
    destruct (Sg_after E0 _ _ _ h WH L1 (IHb _ _ _ _ h GB WH)) as (E1 & A1 & B1 & EB1 & EC1 & ER1 & CK1);
      cbn [cur brk cnt ret] in *; [exact EL|apply O0; lia|apply O0; lia|].
    pose proof L1 as (Q1 & _ & _ & _ & _ & Q6). cbn [cur] in Q1.
    assert (LE1 : n1 <= cur g1) by (destruct Q1; assumption). unfold wfg in W1.
    assert (CR : exists E, (forall l, l <= cur g1 -> E l = E1 l) /\ Chk E cre (Some h) (Some h)).
    { assert (PL : forall x, exists E, (forall l, l <= cur g1 -> E l = E1 l) /\ Chk E [] x x).
      { intro x. exists E1. split; [auto|apply Chk_nil]. }
      destruct re; try (injection HR as <- <- <-; apply PL);
      (destruct (negb (jmpBlock b) || negb (cnt g1 =? -1)); [|injection HR as <- <- <-; apply PL]);
      (destruct (genX N _ (cur g1)) as [(cr, nn)|] eqn:GX; [|discriminate]; injection HR as <- <- <-;
       assert (P1 : 0 <= cur g1) by lia;
       destruct (genX_good N _ _ _ _ GX P1) as (GG & CC);
       destruct (genX_t _ _ _ _ h GX P1) as (E2 & CK2);
       destruct (closed_after E1 E2 _ _ _ h GG CC B1 CK2) as (E & AE & _ & CKE);
       exists E; split; [exact AE|]; apply (Chk_app _ _ _ _ (Some h)); [apply print_t; rewrite AE by lia; exact EC1|exact CKE]). }
    destruct CR as (E & A & CKR).
    assert (A' : forall x, x <= n1 -> E x = E0 x) by (intros x Hx; rewrite A by lia; apply A1; exact Hx).
    assert (EV : E (cur g + 1) = h) by (rewrite A' by lia; apply O0; lia).
    exists E. split; [intros x Hx; rewrite A' by lia; apply O0; lia|]. cbn [brk cnt ret].
    split; [rewrite A' by lia; apply O0; lia|]. split; [rewrite A' by lia; apply O0; lia|].
    split; [rewrite A by lia; exact ER1|].
    match goal with |- Chk _ (_ :: ?x) _ _ => apply (Chk_app _ [ILab (cur g + 1)] x _ (Some h)) end.
    { exists (Some h). split; [|right; reflexivity]. cbn [chk chk1]. rewrite EV, heq_refl. reflexivity. }
    apply (Chk_app _ _ _ _ (Some h)).
    { apply (Chk_keep E0 E c0 _ _ _ _ _ CK0 C1 C3); [intros x [<-|[]]; exact LB|exact A']. }
    apply (Chk_app _ _ _ _ (Some h)).
    { apply (Chk_keep E1 E cb _ _ _ _ _ CK1 Q1 Q6); [|exact A]. intros x [<-|[<-|[<-|[]]]]; lia. }
    apply (Chk_app _ _ _ _ _ _ CKR). apply (Chk_app _ _ _ _ (Some h)).
    + destruct jb; [apply Chk_nil|apply jmp_t; exact EV].
    + apply print_t. rewrite A by lia. exact EB1.
  - (* do *)
    cbv zeta in H.
    destruct (genS b PInner (Labs (cur g + 1) (-1) (-1) (ret g))) as [(cb, g1)|] eqn:GB; [|discriminate].
    destruct (genCnd N e true (Label (cur g + 1) 0) (cur g1)) as [((c0, lb), n1)|] eqn:G; [|discriminate].
    injection H as <- <-.
    assert (WH : wfg (Labs (cur g + 1) (-1) (-1) (ret g))).
    { unfold wfg, sep in *. cbn [cur brk cnt ret]. lia. }
    assert (L1 := genS_labs N _ _ _ _ _ GB WH). assert (W1 : wfg g1) by apply L1.
    destruct (Sg_after (fun _ => h) _ _ _ h WH L1 (IHb _ _ _ _ h GB WH) eq_refl eq_refl eq_refl) as (E1 & A1 & B1 & EB1 & EC1 & ER1 & CK1).
    cbn [cur brk cnt ret] in *.
    pose proof L1 as (Q1 & _ & _ & _ & _ & Q6). cbn [cur] in Q1.
    assert (LE1 : cur g + 1 <= cur g1) by (destruct Q1; assumption). unfold wfg in W1.
    destruct (genCnd_t _ _ _ _ _ _ _ h G) as (E2 & O2 & EL2 & CK2); [lia|simpl; lia|].
    apply genCnd_good in G; [|lia|simpl; lia]. destruct G as (G1 & G2 & G3 & G4 & G5).
    assert (LL : no lb = cur g + 1) by (unfold ext in G2; simpl in G2; lia).
    set (E := merge (cur g1) E1 E2).
    assert (A : forall l, l <= cur g1 -> E l = E1 l) by (intros; apply merge_lo; assumption).
    assert (EV : E (cur g + 1) = h) by (rewrite A by lia; rewrite A1 by lia; reflexivity).
    exists E. split; [intros x Hx; rewrite A by lia; apply A1; lia|]. cbn [brk cnt ret].
    split; [rewrite A by lia; apply A1; lia|]. split; [rewrite A by lia; apply A1; lia|].
    split; [rewrite A by lia; exact ER1|].
    match goal with |- Chk _ (_ :: ?x) _ _ => apply (Chk_app _ [ILab (cur g + 1)] x _ (Some h)) end.
    { exists (Some h). split; [|right; reflexivity]. cbn [chk chk1]. rewrite EV, heq_refl. reflexivity. }
    apply (Chk_app _ _ _ _ (Some h)).
    { apply (Chk_keep E1 E cb _ _ _ _ _ CK1 Q1 Q6); [|exact A]. intros x [<-|[<-|[<-|[]]]]; lia. }
    apply (Chk_app _ _ _ _ (Some h)); [apply print_t; rewrite A by lia; exact EC1|].
    apply (Chk_app _ _ _ _ (Some h)); [|apply print_t; rewrite A by lia; exact EB1].
    apply (Chk_agree _ _ _ _ _ CK2). intros x M.
    destruct (covered_range _ _ _ _ _ G1 G4 M) as [Q|[<-|[]]].
    + unfold E. rewrite merge_hi by lia. reflexivity.
    + rewrite LL, EV. apply O2. lia.
  - (* break *)
    inv H. exists (fun _ => h). repeat (split; [auto|]). apply jmp_t. reflexivity.
  - inv H. exists (fun _ => h). repeat (split; [auto|]). apply jmp_t. reflexivity.
  - (* return *)
    match type of H with match ?X with _ => _ end = _ => destruct X as [(c0, n)|] eqn:HC; [|discriminate] end.
    assert (C0 : cur g <= n /\ exists E, (forall l, l <= cur g \/ n < l -> E l = h) /\ Chk E c0 (Some h) (Some h)).
    { destruct e; try (injection HC as <- <-; split; [lia|]; exists (fun _ => h); split; [auto|apply Chk_nil]);
      (destruct (genE _ (cur g)) as [(c1, n1)|] eqn:G; [|discriminate]; injection HC as <- <-;
       destruct (genE_good N _ _ _ _ G P) as (GG & CC); destruct (genE_t' _ _ _ _ h G P) as (E & CK);
       split; [destruct GG; assumption|]; exists (clamp (cur g) n1 E h);
       split; [intros l L; apply clamp_out; exact L|];
       apply (Chk_app _ _ _ _ _ _ (Chk_clamp E h _ _ _ _ _ GG CC CK)); apply chk_one; destruct h; reflexivity). }
    destruct C0 as (LE & E & O & CK).
    assert (RR : forall g', brk g' = brk g -> cnt g' = cnt g -> ret g' = ret g -> Sg g g' c0 h).
    { intros g2 EB EC ER. exists E. split; [intros l L; apply O; auto|]. rewrite EB, EC, ER.
      repeat (split; [apply O; left; lia|]). exact CK. }
    destruct p.
    + injection H as <- <-. apply RR; reflexivity.
    + injection H as <- <-. apply RR; reflexivity.
    + injection H as <- <-. exists E. split; [intros l L; apply O; auto|]. cbn [brk cnt ret].
      assert (ER : E (if ret g =? -1 then n + 1 else ret g) = h).
      { destruct (ret g =? -1); apply O; [right|left]; lia. }
      split; [apply O; left; lia|]. split; [apply O; left; lia|]. split; [exact ER|].
      apply (Chk_app _ _ _ _ _ _ CK). apply jmp_t. exact ER.
  - destruct (genS l PInner g) as [(c1, g1)|] eqn:GL; [|discriminate].
    destruct (genS r (right_of p) g1) as [(c2, g2)|] eqn:GR; [|discriminate]. injection H as <- <-.
    assert (L1 := genS_labs N _ _ _ _ _ GL W). assert (W1 : wfg g1) by apply L1.
    destruct (IHl _ _ _ _ h GL W) as (E1 & O & EB & EC & ER & CK).
    destruct (Sg_after E1 _ _ _ h W1 (genS_labs N _ _ _ _ _ GR W1) (IHr _ _ _ _ h GR W1) EB EC ER)
      as (E & A & _ & EB' & EC' & ER' & CK').
    pose proof L1 as (Q1 & _ & _ & _ & _ & Q6). assert (LE : cur g <= cur g1) by (destruct Q1; assumption).
    unfold wfg in W1. exists E. split; [intros x Hx; rewrite A by lia; apply O; exact Hx|].
    repeat (split; [assumption|]). apply (Chk_app _ _ _ _ (Some h)); [|exact CK'].
    apply (Chk_keep E1 E c1 _ _ _ _ _ CK Q1 Q6); [|exact A]. intros x [<-|[<-|[<-|[]]]]; lia.
  - destruct (genS l PInner g) as [(c1, g1)|] eqn:GL; [|discriminate].
    destruct (genS r (right_of p) g1) as [(c2, g2)|] eqn:GR; [|discriminate]. injection H as <- <-.
    assert (L1 := genS_labs N _ _ _ _ _ GL W). assert (W1 : wfg g1) by apply L1.
    destruct (IHl _ _ _ _ h GL W) as (E1 & O & EB & EC & ER & CK).
    destruct (Sg_after E1 _ _ _ h W1 (genS_labs N _ _ _ _ _ GR W1) (IHr _ _ _ _ h GR W1) EB EC ER)
      as (E & A & _ & EB' & EC' & ER' & CK').
    pose proof L1 as (Q1 & _ & _ & _ & _ & Q6). assert (LE : cur g <= cur g1) by (destruct Q1; assumption).
    unfold wfg in W1. exists E. split; [intros x Hx; rewrite A by lia; apply O; exact Hx|].
    repeat (split; [assumption|]). apply (Chk_app _ _ _ _ (Some h)); [|exact CK'].
    apply (Chk_keep E1 E c1 _ _ _ _ _ CK Q1 Q6); [|exact A]. intros x [<-|[<-|[<-|[]]]]; lia.
Qed.
End G.
