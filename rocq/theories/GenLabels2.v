(* Labels of the code generated for statements and functions. *)
From Coq Require Import ZArith Bool List Lia Permutation.
From Verif Require Import Word SyTree ExprSem VM VmCode VmBase GenLabels OptSpec.
Import ListNotations.
Open Scope Z_scope.

Ltac inv H := inversion H; subst; clear H.

Definition wfg (g : labs) : Prop :=
  0 <= cur g /\ brk g <= cur g /\ cnt g <= cur g /\ ret g <= cur g /\
  sep (brk g) (cnt g) /\ sep (brk g) (ret g) /\ sep (cnt g) (ret g).

(* code c was generated between g and g'; xs: further labels it may jump to *)
Definition Lbs (g g' : labs) (xs : list Z) (c : code) : Prop :=
  good c (cur g) (cur g') /\ ext (brk g) (brk g') (cur g) (cur g') c /\
  ext (cnt g) (cnt g') (cur g) (cur g') c /\ ext (ret g) (ret g') (cur g) (cur g') c /\
  wfg g' /\ covered c (brk g' :: cnt g' :: ret g' :: xs).

Lemma Lbs_seq : forall g g1 g2 xs a b, wfg g -> Lbs g g1 xs a -> Lbs g1 g2 xs b -> Lbs g g2 xs (a ++ b).
Proof.
  intros g g1 g2 xs a b W (A1 & A2 & A3 & A4 & A5 & A6) (B1 & B2 & B3 & B4 & B5 & B6).
  assert (P : 0 <= cur g) by apply W.
  split; [apply (good_app a b _ _ _ A1 B1)|].
  split; [eapply ext_app; eauto|]. split; [eapply ext_app; eauto|]. split; [eapply ext_app; eauto|].
  split; [exact B5|].
  eapply covered_app; [exact A6|exact B6|].
    intros l [<-|[<-|[<-|H]]] NE; left.
    + left. eapply ext_keep; eauto.
    + right; left. eapply ext_keep; eauto.
    + right; right; left. eapply ext_keep; eauto.
    + right; right; right. exact H.
Qed.

Lemma Lbs_plain : forall g n xs c, wfg g -> good c (cur g) n -> covered c xs -> Lbs g (set_cur g n) xs c.
Proof.
  intros g n xs c W G C. unfold Lbs. simpl. split; [exact G|].
  split; [apply ext_refl|]. split; [apply ext_refl|]. split; [apply ext_refl|].
  assert (cur g <= n) by (destruct G; assumption).
  split. { unfold wfg in *. simpl. intuition lia. }
  eapply covered_weak; [exact C|]. intros l H0 _. right; right; right. exact H0.
Qed.

Lemma Lbs_weak : forall g g' xs ys c, Lbs g g' xs c -> (forall l, In l xs -> l <> -1 -> In l ys) -> Lbs g g' ys c.
Proof.
  intros g g' xs ys c (A1 & A2 & A3 & A4 & A5 & A6) H. repeat (split; [assumption|]).
  eapply covered_weak; [exact A6|]. intros l [->|[->|[->|I]]] NE; simpl; auto.
Qed.

Lemma Lbs_set : forall g g1 g' xs c, g1 = g -> Lbs g g' xs c -> Lbs g1 g' xs c.
Proof. intros; subst; assumption. Qed.

Lemma insert_perm : forall c1 c2 k, Permutation (defs ((c1 ++ c2) ++ k)) (defs (c1 ++ k ++ c2)).
Proof.
  intros. rewrite !defs_app, <- !app_assoc. apply Permutation_app_head. apply Permutation_app_comm.
Qed.
Lemma good_perm : forall c d n n', Permutation (defs c) (defs d) -> good c n n' -> good d n n'.
Proof.
  intros c d n n' P (A & B & C). split; [exact A|]. split.
  - intros l H. apply B. apply (Permutation_in _ (Permutation_sym P)). exact H.
  - apply (Permutation_NoDup P). exact C.
Qed.
Lemma ext_perm : forall c d l l' n n', Permutation (defs c) (defs d) -> ext l l' n n' c -> ext l l' n n' d.
Proof.
  intros c d l l' n n' P [->|(A & B & C)]; [left; reflexivity|right].
  split; [exact A|]. split; [exact B|]. intro H. apply C. apply (Permutation_in _ (Permutation_sym P)). exact H.
Qed.

Lemma Lbs_insert : forall g g' e xs c1 c2, Lbs g g' (e :: xs) (c1 ++ c2) ->
  ext (-1) e (cur g) (cur g') (c1 ++ c2) ->
  sep e (brk g') -> sep e (cnt g') -> sep e (ret g') ->
  Lbs g g' xs (c1 ++ printLab e ++ c2).
Proof.
  intros g g' e xs c1 c2 (A1 & A2 & A3 & A4 & A5 & A6) X S1 S2 S3.
  pose proof (insert_perm c1 c2 (printLab e)) as PM.
  split; [apply (good_perm _ _ _ _ PM); eapply printLab_good; eauto|].
  split; [apply (ext_perm _ _ _ _ _ _ PM); apply ext_print; assumption|].
  split; [apply (ext_perm _ _ _ _ _ _ PM); apply ext_print; assumption|].
  split; [apply (ext_perm _ _ _ _ _ _ PM); apply ext_print; assumption|].
  split; [assumption|].
  intros l H. rewrite !uses_app, printLab_uses in H. simpl in H. rewrite <- uses_app in H.
  destruct (A6 l H) as [I|(I & NE)].
  - left. rewrite defs_app in *. rewrite defs_app. apply in_app_or in I.
    apply in_or_app. destruct I; [left; assumption|right; apply in_or_app; right; assumption].
  - destruct I as [I|[I|[I|[I|I]]]]; try (right; split; [simpl; tauto|assumption]).
    subst l. left. rewrite !defs_app. apply in_or_app. right. apply in_or_app. left.
    apply printLab_defs. auto.
Qed.

Section G.
Variable N : names.
Notation genB := (genB N).
Notation genE := (genE N).
Notation genL := (genL N).
Notation genS := (genS N).

Lemma genE_good : forall e n c n', genE e n = Some (c, n') -> 0 <= n -> good c n n' /\ closed c.
Proof. intros e. apply toE_ok. apply gen_ok. Qed.

Lemma genX_good : forall e n c n', genX N e n = Some (c, n') -> 0 <= n -> good c n n' /\ closed c.
Proof.
  intros e n c n' H P. unfold genX in H.
  destruct (genB e n) as [((c0, p), n1)|] eqn:G; [|discriminate]. inv H.
  destruct (pop_plain p). apply nodefs_step; auto. apply (proj1 (gen_ok N e) _ _ _ _ G P).
Qed.

Lemma genCnd_good : forall e tf j n c j' n', genCnd N e tf j n = Some (c, j', n') ->
  0 <= n -> no j <= n -> 
  good c n n' /\ ext (no j) (no j') n n' c /\ left j' = left j /\ covered c [no j'] /\ no j' <> -1.
Proof.
  intros e tf j n c j' n' H P L. unfold genCnd in H.
  match type of H with match ?X with _ => _ end = _ => destruct X as [(((c0, j1), nx), n1)|] eqn:HX; [|discriminate] end.
  injection H as <- <- <-.
  assert (A : good c0 n n1 /\ ext (no j) (no j1) n n1 c0 /\ ext (-1) (no nx) n n1 c0 /\
              sep (no nx) (no j1) /\ left j1 = left j /\ covered c0 [no j1; no nx] /\ no j1 <> -1).
  { destruct (is_log e).
    - pose proof (proj1 (proj2 (gen_ok N e))) as LK. red in LK.
      destruct (Bool.eqb (is_or (log_op e)) tf).
      + destruct (genL e 2 j (newLabel 2) n) as [(((cc, a), b), nn)|] eqn:G; [|discriminate]. inv HX.
        apply LK in G; [|lia|lia|simpl; lia|unfold sep; simpl; lia|lia].
        destruct G as (G1 & G2 & G3 & G4 & G5 & G6 & G7 & G8 & G9).
        repeat (split; [assumption|]). split; [unfold sep in *; intro E; symmetry in E; specialize (G4 E); lia|].
        auto.
      + destruct (genL e 2 (newLabel 2) j n) as [(((cc, a), b), nn)|] eqn:G; [|discriminate]. inv HX.
        apply LK in G; [|lia|simpl; lia|lia|unfold sep; simpl; lia|lia].
        destruct G as (G1 & G2 & G3 & G4 & G5 & G6 & G7 & G8 & G9).
        repeat (split; [assumption|]). split; [eapply covered_weak; [exact G7|]; intros l [->|[->|[]]] _; simpl; auto|].
        apply G9; [lia|reflexivity].
    - destruct (genE e n) as [(ce, ne)|] eqn:G; [|discriminate].
      destruct (genE_good _ _ _ _ G P) as (GE & CE).
      assert (NE : n <= ne) by (destruct GE; assumption).
      destruct (boolJmp tf j ne) as ((jc, j2), n2) eqn:J. inv HX.
      apply boolJmp_ok in J; [|lia|lia]. destruct J as (GJ & XJ & LJ & NJ & DJ & UJ).
      split; [eapply good_app; eauto|]. split; [eapply ext_appr; eauto|].
      split; [apply ext_refl|]. split; [unfold sep; simpl; auto|]. split; [exact LJ|]. split; [|exact NJ].
      eapply covered_app; [exact CE| |intros x []].
      intros x Hx. rewrite UJ in Hx. destruct Hx as [<-|[]]. right. simpl. auto. }
  destruct A as (A1 & A2 & A3 & A4 & A5 & A6 & A7).
  split; [eapply printLab_good; eauto|]. split; [apply ext_print; assumption|].
  split; [exact A5|]. split; [|exact A7].
  eapply covered_app; [exact A6|apply covered_nouses; apply printLab_uses|].
  intros l [<-|[<-|[]]] NE; [left; simpl; auto|right; apply printLab_defs; auto].
Qed.

Lemma ext_l : forall l l' n n1 n' a b, 0 <= n -> ext l l' n n1 a -> good a n n1 -> good b n1 n' -> ext l l' n n' (a ++ b).
Proof. exact ext_appl. Qed.

Lemma genS_labs : forall s p g c g', genS s p g = Some (c, g') -> wfg g -> Lbs g g' [] c.
Proof.
  induction s as [|e|i|e b IHb|e b1 IH1 b2 IH2|e b IHb re|b IHb e| | |e|l IHl r IHr|l IHl r IHr];
    intros p g c g' H W; assert (P : 0 <= cur g) by apply W; cbn [VmCode.genS] in H.
  - inv H. unfold Lbs. split; [apply good_nil|]. repeat (split; [apply ext_refl|]). split; [exact W|]. intros x [].
  - destruct (genX N e (cur g)) as [(c0, n)|] eqn:G; [|discriminate]. inv H.
    destruct (genX_good _ _ _ _ G P). apply Lbs_plain; assumption.
  - inv H. unfold Lbs. split; [apply good_nil|]. repeat (split; [apply ext_refl|]). split; [exact W|]. intros x [].
  - (* if *)
    destruct (genCnd N e false (newLabel 0) (cur g)) as [((c0, lb), n)|] eqn:G; [|discriminate].
    destruct (genS b (right_of p) (set_cur g n)) as [(cb, g1)|] eqn:GB; [|discriminate]. injection H as <- <-.
    apply genCnd_good in G; [|lia|simpl; lia]. destruct G as (G1 & G2 & G3 & G4 & G5).
    assert (LC : Lbs g (set_cur g n) [no lb] c0) by (apply Lbs_plain; assumption).
    assert (WC : wfg (set_cur g n)) by apply LC.
    pose proof (IHb _ _ _ _ GB WC) as LB.
    assert (LL : Lbs g g1 [no lb] (c0 ++ cb)).
    { eapply Lbs_seq; [exact W|exact LC|]. eapply Lbs_weak; [exact LB|intros x []]. }
    replace (c0 ++ cb ++ printLab (no lb)) with ((c0 ++ cb) ++ printLab (no lb) ++ [])
      by (rewrite app_nil_r, <- app_assoc; reflexivity).
    destruct LB as (L1 & L2 & L3 & L4 & L5 & L6).
    unfold wfg in W. simpl in *.
    apply Lbs_insert; rewrite ?app_nil_r; [exact LL|eapply ext_l; eauto| | | ]; unfold sep, ext in *; lia.
  - (* else *)
    destruct (genCnd N e false (newLabel 0) (cur g)) as [((c0, lb), n)|] eqn:G; [|discriminate].
    destruct (genS b1 PInner (set_cur g n)) as [(cb1, g1)|] eqn:GB1; [|discriminate].
    cbv zeta in H.
    apply genCnd_good in G; [|lia|simpl; lia]. destruct G as (G1 & G2 & G3 & G4 & G5).
    assert (LC : Lbs g (set_cur g n) [no lb] c0) by (apply Lbs_plain; assumption).
    assert (WC : wfg (set_cur g n)) by apply LC.
    pose proof (IH1 _ _ _ _ GB1 WC) as LB1.
    assert (W1 : wfg g1) by apply LB1.
    assert (NL : forall g2 jc il xs, Lbs g1 g2 xs jc -> ext (-1) il (cur g1) (cur g2) jc ->
       brk g2 = brk g1 -> cnt g2 = cnt g1 -> ret g2 = ret g1 -> 
       (il <> -1 -> xs = [il]) -> (il = -1 -> xs = []) ->
       forall cb2 g3, genS b2 (right_of p) g2 = Some (cb2, g3) ->
       Lbs g g3 [] (c0 ++ cb1 ++ jc ++ printLab (no lb) ++ cb2 ++ printLab il)).
    { intros g2 jc il xs LJ XJ EB EC ER XS XS' cb2 g3 GB2.
      assert (W2 : wfg g2) by apply LJ.
      pose proof (IH2 _ _ _ _ GB2 W2) as LB2.
      assert (L3 : Lbs g g3 [il; no lb] (((c0 ++ cb1) ++ jc) ++ cb2)).
      { eapply Lbs_seq; [exact W| |eapply Lbs_weak; [exact LB2|intros x []]].
        eapply Lbs_seq; [exact W| |].
        - eapply Lbs_weak with (xs := [no lb]); [|intros x [->|[]] _; simpl; auto].
          eapply Lbs_seq; [exact W|exact LC|]. eapply Lbs_weak; [exact LB1|intros x []].
        - eapply Lbs_weak; [exact LJ|]. intros x I NE. destruct (Z.eq_dec il (-1)) as [E|E].
          + rewrite (XS' E) in I. destruct I.
          + rewrite (XS E) in I. destruct I as [->|[]]. simpl. auto. }
      (* the else label *)
      pose proof LB1 as (K1 & K2 & K3 & K4 & K5 & K6).
      pose proof LJ as (J1 & J2 & J3 & J4 & J5 & J6).
      pose proof LB2 as (M1 & M2 & M3 & M4 & M5 & M6).
      unfold wfg in W. cbn [set_cur cur brk cnt ret] in *.
      assert (GR : good ((cb1 ++ jc) ++ cb2) n (cur g3)) by (eapply good_app; [eapply good_app|]; eauto).
      assert (Q2 : ext (-1) (no lb) (cur g) (cur g3) (((c0 ++ cb1) ++ jc) ++ cb2)).
      { replace (((c0 ++ cb1) ++ jc) ++ cb2) with (c0 ++ ((cb1 ++ jc) ++ cb2)) by (rewrite <- !app_assoc; reflexivity).
        eapply ext_appl; eauto. }
      assert (GA : good ((c0 ++ cb1)) (cur g) (cur g1)) by (eapply good_app; eauto).
      assert (Q1 : ext (-1) il (cur g) (cur g3) (((c0 ++ cb1) ++ jc) ++ cb2)).
      { eapply ext_appl; [exact P| |eapply good_app; eauto|exact M1]. eapply ext_appr; eauto. }
      assert (N1 : cur g <= n) by (destruct G1; assumption).
      assert (N2 : n <= cur g1) by (destruct K1; assumption).
      assert (N3 : cur g1 <= cur g2) by (destruct J1; assumption).
      assert (N4 : cur g2 <= cur g3) by (destruct M1; assumption).
      assert (TH : forall a b d, a <= cur g -> ext a b n (cur g1) cb1 -> ext b d (cur g2) (cur g3) cb2 ->
                d <= cur g \/ n < d <= cur g1 \/ cur g2 < d) by (clear; unfold ext; lia).
      assert (FB : brk g3 <= cur g \/ n < brk g3 <= cur g1 \/ cur g2 < brk g3) by (rewrite EB in M2; apply (TH (brk g) (brk g1)); auto; apply W).
      assert (FC : cnt g3 <= cur g \/ n < cnt g3 <= cur g1 \/ cur g2 < cnt g3) by (rewrite EC in M3; apply (TH (cnt g) (cnt g1)); auto; apply W).
      assert (FR : ret g3 <= cur g \/ n < ret g3 <= cur g1 \/ cur g2 < ret g3) by (rewrite ER in M4; apply (TH (ret g) (ret g1)); auto; apply W).
      assert (FI : il = -1 \/ cur g1 < il <= cur g2) by (clear -XJ; unfold ext in XJ; lia).
      assert (FL : cur g < no lb <= n) by (clear -G2 G5; unfold ext in G2; simpl in G2; lia).
      assert (L4 : Lbs g g3 [no lb] ((((c0 ++ cb1) ++ jc) ++ cb2) ++ printLab il ++ [])).
      { apply Lbs_insert; rewrite ?app_nil_r; [exact L3|exact Q1| | |]; unfold sep; clear -FB FC FR FI N1 N2 N3 P; lia. }
      rewrite app_nil_r in L4.
      replace (c0 ++ cb1 ++ jc ++ printLab (no lb) ++ cb2 ++ printLab il)
        with (((c0 ++ cb1) ++ jc) ++ printLab (no lb) ++ (cb2 ++ printLab il)) by (rewrite <- !app_assoc; reflexivity).
      apply Lbs_insert; [rewrite <- app_assoc in L4; exact L4| | | |]; try (unfold sep; clear -FB FC FR FI FL N1 N2 N3 P; lia).
      rewrite app_assoc. apply ext_print; [exact Q2|]. unfold sep. clear -FI FL N1 N2. lia. }
    destruct (jmpBlock b1) eqn:JB.
    + destruct (genS b2 (right_of p) g1) as [(cb2, g3)|] eqn:GB2; [|discriminate]. injection H as <- <-.
      apply (NL g1 [] (-1) []); auto; try apply ext_refl; try congruence.
      unfold Lbs. split; [apply good_nil|]. repeat (split; [apply ext_refl|]). split; [exact W1|]. intros x [].
    + destruct (genS b2 (right_of p) (set_cur g1 (cur g1 + 1))) as [(cb2, g3)|] eqn:GB2; [|discriminate]. injection H as <- <-.
      assert (0 <= cur g1) by apply W1.
      apply (NL (set_cur g1 (cur g1 + 1)) [IJmp (cur g1 + 1)] (cur g1 + 1) [cur g1 + 1]); auto; try lia.
      * apply Lbs_plain; [exact W1|apply good_nodefs'; [reflexivity|lia]|].
        intros x [<-|[]]. right. simpl. split; [auto|lia].
      * right. simpl. split; [reflexivity|]. split; [lia|tauto].
  - (* while *)
    cbv zeta in H.
    match type of H with match ?X with _ => _ end = _ => destruct X as [((c0, bl), n1)|] eqn:HC; [|discriminate] end.
    destruct (genS b PInner (Labs n1 bl match re with ENull => cur g + 1 | _ => -1 end (ret g))) as [(cb, g1)|] eqn:GB; [|discriminate].
    match type of H with match ?X with _ => _ end = _ => destruct X as [((cre, jb), n2)|] eqn:HR; [|discriminate] end.
    injection H as <- <-.
    set (cl := match re with ENull => cur g + 1 | _ => -1 end) in *.
    unfold wfg in W. destruct W as (W1 & W2 & W3 & W4 & W5 & W6 & W7).
    set (h0 := Labs (cur g + 1) (-1) cl (ret g)).
    set (h1 := Labs n1 bl cl (ret g)).
    assert (CL : cl = cur g + 1 \/ cl = -1) by (unfold cl; destruct re; auto).
    assert (WH0 : wfg h0) by (unfold wfg, h0, sep in *; simpl; lia).
    assert (C0 : good c0 (cur g + 1) n1 /\ ext (-1) bl (cur g + 1) n1 c0 /\ covered c0 [bl]).
    { destruct e; try (destruct (genCnd N _ false (newLabel 0) (cur g + 1)) as [((c1, lb), nn)|] eqn:G; [|discriminate];
        injection HC as <- <- <-; apply genCnd_good in G; [|lia|simpl; lia]; tauto).
      injection HC as <- <- <-. split; [apply good_nil|]. split; [apply ext_refl|]. intros x []. }
    destruct C0 as (C1 & C2 & C3).
    assert (N1 : cur g + 1 <= n1) by (destruct C1; assumption).
    assert (L0 : Lbs h0 h1 [] c0).
    { unfold Lbs, h0, h1. simpl. split; [exact C1|]. split; [exact C2|]. repeat (split; [apply ext_refl|]).
      split. { clearbody cl. clear -C2 CL W1 W4 N1. unfold wfg, sep, ext in *; simpl; lia. }
      eapply covered_weak; [exact C3|]. intros l [->|[]] _. simpl. auto. }
    assert (WH1 : wfg h1) by apply L0.
    pose proof (IHb _ _ _ _ GB WH1) as LB.
    assert (WG1 : wfg g1) by apply LB.
    assert (P1 : 0 <= cur g1) by apply WG1.
    (* re-initialisation *)
    assert (CR : good cre (cur g1) n2 /\ closed cre \/
                 exists cr, cre = printLab (cnt g1) ++ cr /\ good cr (cur g1) n2 /\ closed cr /\ cl = -1).
    { assert (NR : re <> ENull -> cl = -1) by (unfold cl; destruct re; congruence).
      destruct re; try (injection HR as <- <- <-; left; split; [apply good_nil|intros x []]);
      specialize (NR ltac:(discriminate));
      (destruct (negb (jmpBlock b) || negb (cnt g1 =? -1));
       [|injection HR as <- <- <-; left; split; [apply good_nil|intros x []]]);
      (destruct (genX N _ (cur g1)) as [(cr, nn)|] eqn:GX; [|discriminate]; injection HR as <- <- <-;
       right; exists cr; destruct (genX_good _ _ _ _ GX P1); auto). }
    set (h2 := set_cur g1 n2).
    set (cj := if jb then [] else [IJmp (cur g + 1)]).
    assert (LJ : forall x, wfg x -> covered cj [cur g + 1] /\ Lbs x x [cur g + 1] cj).
    { intros x Wx. assert (CV : covered cj [cur g + 1]).
      { unfold cj. destruct jb; [intros l []|]. intros l [<-|[]]. right. split; [left; reflexivity|lia]. }
      split; [exact CV|]. replace x with (set_cur x (cur x)) at 2 by (destruct x; reflexivity).
      apply Lbs_plain; [exact Wx| |exact CV]. apply good_nodefs. unfold cj. destruct jb; reflexivity. }
    (* inside the loop, loop label jumped to *)
    assert (BODY : exists rest, Lbs h0 h2 [cur g + 1] (c0 ++ cb ++ rest ++ cj) /\
       ((cre = rest /\ (cnt g1 = -1 \/ cl = cur g + 1 \/ True)) \/ (cre = printLab (cnt g1) ++ rest /\ cl = -1))).
    { destruct CR as [(G & C)|(cr & E & G & C & K)]; [exists cre|exists cr]; (split; [|auto]).
      - eapply Lbs_seq; [exact WH0|eapply Lbs_weak; [exact L0|intros x []]|].
        eapply Lbs_seq; [exact WH1|eapply Lbs_weak; [exact LB|intros x []]|].
        assert (WW : Lbs g1 h2 [] cre) by (apply Lbs_plain; assumption).
        eapply Lbs_seq; [exact WG1|eapply Lbs_weak; [exact WW|intros x []]|]. apply LJ. apply WW.
      - eapply Lbs_seq; [exact WH0|eapply Lbs_weak; [exact L0|intros x []]|].
        eapply Lbs_seq; [exact WH1|eapply Lbs_weak; [exact LB|intros x []]|].
        assert (WW : Lbs g1 h2 [] cr) by (apply Lbs_plain; assumption).
        eapply Lbs_seq; [exact WG1|eapply Lbs_weak; [exact WW|intros x []]|]. apply LJ. apply WW. }
    destruct BODY as (rest & LR & RE).
    destruct LR as (R1 & R2 & R3 & R4 & R5 & R6).
    unfold h0, h2, set_cur in *. cbn [cur brk cnt ret] in *.
    pose proof R5 as (V1 & V2 & V3 & V4 & V5 & V6 & V7). cbn [cur brk cnt ret] in *.
    (* the full list of labels placed *)
    set (full := c0 ++ cb ++ rest ++ cj).
    assert (PR : forall z, (z = [] \/ (z = printLab (cnt g1) /\ cl = -1)) ->
       good ((full ++ z) ++ printLab (brk g1)) (cur g + 1) n2 /\
       ext (ret g) (ret g1) (cur g + 1) n2 ((full ++ z) ++ printLab (brk g1))).
    { intros z Hz.
      assert (Gz : good (full ++ z) (cur g + 1) n2 /\ ext (-1) (brk g1) (cur g + 1) n2 (full ++ z) /\
                   ext (ret g) (ret g1) (cur g + 1) n2 (full ++ z)).
      { destruct Hz as [->|(-> & K)]; [rewrite app_nil_r; auto|]. rewrite K in R3.
        split; [eapply printLab_good; eauto|].
        split; apply ext_print; auto; unfold sep in *; lia. }
      destruct Gz as (Z1 & Z2 & Z3).
      split; [eapply printLab_good; eauto|]. apply ext_print; auto. }
    assert (PERM : exists z, (z = [] \/ (z = printLab (cnt g1) /\ cl = -1)) /\
       Permutation (defs ((full ++ z) ++ printLab (brk g1)))
                   (defs (c0 ++ cb ++ cre ++ cj ++ printLab (brk g1))) /\
       (z = [] -> cl = -1 -> cre = rest) ).
    { destruct RE as [(-> & _)|(-> & K)].
      - exists []. split; [auto|]. split; [|auto].
        unfold full. rewrite app_nil_r, <- !app_assoc. apply Permutation_refl.
      - exists (printLab (cnt g1)). split; [auto|]. split.
        + unfold full. rewrite !defs_app, <- !app_assoc.
          apply Permutation_app_head. apply Permutation_app_head.
          rewrite (Permutation_app_comm (defs (printLab (cnt g1))) (defs rest ++ _)) by idtac.
          rewrite <- !app_assoc. apply Permutation_app_head. apply Permutation_app_head.
          apply Permutation_app_comm.
        + intros Z _. rewrite Z. reflexivity. }
    destruct PERM as (z & Hz & PM & _). destruct (PR z Hz) as (Y1 & Y2).
    apply (good_perm _ _ _ _ PM) in Y1. apply (ext_perm _ _ _ _ _ _ PM) in Y2.
    unfold Lbs. cbn [cur brk cnt ret].
    match goal with |- context [ILab (cur g + 1) :: ?x] => change (ILab (cur g + 1) :: x) with ([ILab (cur g + 1)] ++ x) end.
    assert (GL : good [ILab (cur g + 1)] (cur g) (cur g + 1)).
    { apply (good_lab [] (cur g) (cur g + 1) (cur g + 1)); [apply good_nodefs'; [reflexivity|lia]|lia|intros []]. }
    split; [eapply good_app; eauto|].
    split; [apply ext_refl|]. split; [apply ext_refl|].
    split; [eapply ext_appr; eauto|].
    assert (NN : cur g + 1 <= n2) by (destruct Y1; assumption).
    split. { clear -W1 W2 W3 W4 W5 W6 W7 Y2 NN. unfold wfg, sep, ext in *. cbn [cur brk cnt ret]. lia. }
    (* coverage *)
    intros l I. rewrite uses_app in I. cbn [uses app] in I.
    assert (U : In l (uses full)).
    { unfold full. rewrite !uses_app in *. rewrite printLab_uses, app_nil_r in I.
      destruct RE as [(-> & _)|(-> & _)]; [exact I|].
      rewrite uses_app, printLab_uses in I. exact I. }
    assert (D : forall x, In x (defs full) \/ (x = brk g1 /\ x <> -1) \/ (x = cnt g1 /\ x <> -1) \/ x = cur g + 1 ->
                In x (defs ([ILab (cur g + 1)] ++ c0 ++ cb ++ cre ++ cj ++ printLab (brk g1))) \/ (x = cnt g1 /\ x <> -1 /\ cl = -1 /\ cre = rest)).
    { intros x Hx. rewrite defs_app. cbn [defs app].
      destruct Hx as [Hx|[Hx|[Hx|Hx]]].
      - left. right. unfold full in Hx. rewrite !defs_app in *.
        apply in_app_or in Hx. apply in_or_app. destruct Hx as [Hx|Hx]; [left; exact Hx|right].
        apply in_app_or in Hx. apply in_or_app. destruct Hx as [Hx|Hx]; [left; exact Hx|right].
        apply in_app_or in Hx. apply in_or_app. destruct Hx as [Hx|Hx].
        + left. destruct RE as [(-> & _)|(-> & _)]; [exact Hx|]. rewrite defs_app. apply in_or_app. auto.
        + right. apply in_or_app. left. exact Hx.
      - left. right. rewrite !defs_app. do 4 (apply in_or_app; right). apply printLab_defs. destruct Hx as (-> & Hx). auto.
      - destruct Hx as (-> & Hx). destruct CL as [CL|CL].
        + left. left. rewrite CL in R3. unfold ext in R3. lia.
        + destruct RE as [(RE & _)|(RE & _)]; [right; auto|].
          left. right. rewrite RE, !defs_app. do 2 (apply in_or_app; right). apply in_or_app. left.
          apply in_or_app. left. apply printLab_defs. auto.
      - left. left. auto. }
    assert (NC : cl = -1 -> cre = rest -> cnt g1 <> -1 -> False \/ In (cnt g1) (defs ([ILab (cur g + 1)] ++ c0 ++ cb ++ cre ++ cj ++ printLab (brk g1)))).
    { intros K1 K2 K3. 
      assert (RN : re <> ENull) by (intro; subst re; unfold cl in K1; lia).
      destruct re; try congruence;
      (replace (negb (jmpBlock b) || negb (cnt g1 =? -1)) with true in HR
         by (symmetry; apply orb_true_iff; right; apply negb_true_iff; apply Z.eqb_neq; exact K3));
      (destruct (genX N _ (cur g1)) as [(cr, nn)|]; [|discriminate]; injection HR as HR1 HR2 HR3;
       right; rewrite <- HR1; rewrite !defs_app; do 3 (apply in_or_app; right); apply in_or_app; left;
       apply in_or_app; left; apply printLab_defs; auto). }
    destruct (R6 l U) as [I'|(I' & NE)].
    + destruct (D l (or_introl I')) as [X|(X1 & X2 & X3 & X4)]; [left; exact X|].
      subst l. destruct (NC X3 X4 X2) as [[]|X]. left. exact X.
    + destruct I' as [<-|[<-|[<-|[<-|[]]]]].
      * destruct (D (brk g1)) as [X|(X1 & X2 & X3 & X4)]; [auto|left; exact X|].
        unfold sep in V5. lia.
      * destruct (D (cnt g1)) as [X|(X1 & X2 & X3 & X4)]; [auto|left; exact X|].
        destruct (NC X3 X4 X2) as [[]|X]. left. exact X.
      * right. simpl. auto.
      * left. left. reflexivity.
  - (* do *)
    cbv zeta in H.
    destruct (genS b PInner (Labs (cur g + 1) (-1) (-1) (ret g))) as [(cb, g1)|] eqn:GB; [|discriminate].
    destruct (genCnd N e true (Label (cur g + 1) 0) (cur g1)) as [((c0, jl), n1)|] eqn:GC; [|discriminate].
    injection H as <- <-.
    unfold wfg in W. destruct W as (W1 & W2 & W3 & W4 & W5 & W6 & W7).
    set (h0 := Labs (cur g + 1) (-1) (-1) (ret g)) in *.
    assert (WH0 : wfg h0) by (unfold wfg, h0, sep in *; simpl; lia).
    pose proof (IHb _ _ _ _ GB WH0) as LB.
    assert (WG1 : wfg g1) by apply LB.
    assert (P1 : cur g + 1 <= cur g1) by (destruct LB as ((? & _) & _); exact H).
    apply genCnd_good in GC; [|lia|simpl; lia]. destruct GC as (C1 & C2 & C3 & C4 & C5).
    simpl in C2. apply ext_keep in C2; [|lia]. 
    assert (LC : Lbs g1 (set_cur g1 n1) [cur g + 1] c0).
    { apply Lbs_plain; [exact WG1|exact C1|]. rewrite <- C2. exact C4. }
    assert (LL : Lbs h0 (set_cur g1 n1) [cur g + 1] (cb ++ c0)).
    { eapply Lbs_seq; [exact WH0|eapply Lbs_weak; [exact LB|intros x []]|exact LC]. }
    destruct LL as (R1 & R2 & R3 & R4 & R5 & R6).
    unfold h0, set_cur in *. cbn [cur brk cnt ret] in *.
    pose proof R5 as (V1 & V2 & V3 & V4 & V5 & V6 & V7). cbn [cur brk cnt ret] in *.
    assert (PM : Permutation (defs (((cb ++ c0) ++ printLab (cnt g1)) ++ printLab (brk g1)))
                             (defs (cb ++ printLab (cnt g1) ++ c0 ++ printLab (brk g1)))).
    { rewrite !defs_app, <- !app_assoc. apply Permutation_app_head. rewrite !app_assoc.
      apply Permutation_app_tail. apply Permutation_app_comm. }
    assert (Y : good (((cb ++ c0) ++ printLab (cnt g1)) ++ printLab (brk g1)) (cur g + 1) n1 /\
                ext (ret g) (ret g1) (cur g + 1) n1 (((cb ++ c0) ++ printLab (cnt g1)) ++ printLab (brk g1))).
    { assert (Z1 : good ((cb ++ c0) ++ printLab (cnt g1)) (cur g + 1) n1) by (eapply printLab_good; eauto).
      assert (Z2 : ext (-1) (brk g1) (cur g + 1) n1 ((cb ++ c0) ++ printLab (cnt g1)))
        by (apply ext_print; auto; unfold sep in *; lia).
      split; [eapply printLab_good; eauto|]. apply ext_print; [|exact V6]. apply ext_print; auto. }
    destruct Y as (Y1 & Y2). apply (good_perm _ _ _ _ PM) in Y1. apply (ext_perm _ _ _ _ _ _ PM) in Y2.
    unfold Lbs. cbn [cur brk cnt ret].
    match goal with |- context [ILab (cur g + 1) :: ?x] => change (ILab (cur g + 1) :: x) with ([ILab (cur g + 1)] ++ x) end.
    assert (GL : good [ILab (cur g + 1)] (cur g) (cur g + 1)).
    { apply (good_lab [] (cur g) (cur g + 1) (cur g + 1)); [apply good_nodefs'; [reflexivity|lia]|lia|intros []]. }
    split; [eapply good_app; eauto|].
    split; [apply ext_refl|]. split; [apply ext_refl|].
    split; [eapply ext_appr; eauto|].
    assert (NN : cur g + 1 <= n1) by (destruct Y1; assumption).
    split. { clear -W1 W2 W3 W4 W5 W6 W7 Y2 NN. unfold wfg, sep, ext in *. cbn [cur brk cnt ret]. lia. }
    intros l I. rewrite !uses_app, !printLab_uses in I. cbn [uses app] in I. rewrite app_nil_r, <- uses_app in I.
    rewrite !defs_app. cbn [defs app].
    destruct (R6 l I) as [I'|(I' & NE)].
    + left. right. rewrite defs_app in I'. apply in_app_or in I'. apply in_or_app.
      destruct I' as [I'|I']; [left; exact I'|right]. apply in_or_app. right. apply in_or_app. left. exact I'.
    + destruct I' as [<-|[<-|[<-|[<-|[]]]]].
      * left. right. do 3 (apply in_or_app; right). apply printLab_defs. auto.
      * left. right. apply in_or_app. right. apply in_or_app. left. apply printLab_defs. auto.
      * right. simpl. auto.
      * left. left. reflexivity.
  - (* break *)
    injection H as <- <-. unfold wfg in W.
    unfold Lbs. cbn [cur brk cnt ret].
    destruct (brk g =? -1) eqn:E; [apply Z.eqb_eq in E|apply Z.eqb_neq in E].
    + split; [apply good_nodefs'; [reflexivity|lia]|].
      split. { right. simpl. split; [exact E|]. split; [lia|tauto]. }
      split; [apply ext_refl|]. split; [apply ext_refl|].
      split. { unfold wfg, sep in *. cbn [cur brk cnt ret]. lia. }
      intros l [<-|[]]. right. simpl. split; [auto|lia].
    + split; [apply good_nodefs'; [reflexivity|lia]|].
      repeat (split; [apply ext_refl|]).
      split. { unfold wfg, sep in *. cbn [cur brk cnt ret]. lia. }
      intros l [<-|[]]. right. simpl. split; [auto|lia].
  - (* continue *)
    injection H as <- <-. unfold wfg in W.
    unfold Lbs. cbn [cur brk cnt ret].
    destruct (cnt g =? -1) eqn:E; [apply Z.eqb_eq in E|apply Z.eqb_neq in E].
    + split; [apply good_nodefs'; [reflexivity|lia]|].
      split; [apply ext_refl|]. 
      split. { right. simpl. split; [exact E|]. split; [lia|tauto]. }
      split; [apply ext_refl|].
      split. { unfold wfg, sep in *. cbn [cur brk cnt ret]. lia. }
      intros l [<-|[]]. right. simpl. split; [auto|lia].
    + split; [apply good_nodefs'; [reflexivity|lia]|].
      repeat (split; [apply ext_refl|]).
      split. { unfold wfg, sep in *. cbn [cur brk cnt ret]. lia. }
      intros l [<-|[]]. right. simpl. split; [auto|lia].
  - (* return *)
    match type of H with match ?X with _ => _ end = _ => destruct X as [(c0, n)|] eqn:HC; [|discriminate] end.
    assert (C0 : good c0 (cur g) n /\ closed c0).
    { destruct e; try (destruct (genE _ (cur g)) as [(c1, nn)|] eqn:G; [|discriminate];
        injection HC as <- <-; apply genE_good in G; [|lia]; apply nodefs_step; auto).
      injection HC as <- <-. split; [apply good_nil|intros x []]. }
    destruct C0 as (C1 & C2).
    assert (L0 : Lbs g (set_cur g n) [] c0) by (apply Lbs_plain; assumption).
    destruct p; try (injection H as <- <-; exact L0).
    injection H as <- <-.
    assert (NN : cur g <= n) by (destruct C1; assumption).
    eapply Lbs_seq; [exact W|exact L0|].
    unfold wfg in W. unfold Lbs. cbn [cur brk cnt ret set_cur].
    destruct (ret g =? -1) eqn:E; [apply Z.eqb_eq in E|apply Z.eqb_neq in E].
    + split; [apply good_nodefs'; [reflexivity|lia]|].
      split; [apply ext_refl|]. split; [apply ext_refl|].
      split. { right. simpl. split; [exact E|]. split; [lia|tauto]. }
      split. { unfold wfg, sep in *. cbn [cur brk cnt ret]. lia. }
      intros l [<-|[]]. right. simpl. split; [auto|lia].
    + split; [apply good_nodefs'; [reflexivity|lia]|].
      repeat (split; [apply ext_refl|]).
      split. { unfold wfg, sep in *. cbn [cur brk cnt ret]. lia. }
      intros l [<-|[]]. right. simpl. split; [auto|lia].
  - destruct (genS l PInner g) as [(cl, g1)|] eqn:Gl; [|discriminate].
    destruct (genS r (right_of p) g1) as [(cr, g2)|] eqn:Gr; [|discriminate]. injection H as <- <-.
    pose proof (IHl _ _ _ _ Gl W) as Ll. eapply Lbs_seq; [exact W|exact Ll|].
    apply (IHr _ _ _ _ Gr). apply Ll.
  - destruct (genS l PInner g) as [(cl, g1)|] eqn:Gl; [|discriminate].
    destruct (genS r (right_of p) g1) as [(cr, g2)|] eqn:Gr; [|discriminate]. injection H as <- <-.
    pose proof (IHl _ _ _ _ Gl W) as Ll. eapply Lbs_seq; [exact W|exact Ll|].
    apply (IHr _ _ _ _ Gr). apply Ll.
Qed.
End G.
