(* Labels of the generated code: every label is placed at most once, fresh
   labels are those counted, and jumps go to placed or pending labels. *)
From Coq Require Import ZArith Bool List Lia.
From Verif Require Import Word SyTree ExprSem VM VmCode VmBase.
Import ListNotations.
Open Scope Z_scope.

(* the labels placed in c are pairwise distinct and within (n, n'] *)
Definition good (c : code) (n n' : Z) : Prop :=
  n <= n' /\ (forall l, In l (defs c) -> n < l <= n') /\ NoDup (defs c).

(* label number l became l' while c was generated; if newly allocated it is
   still to be placed *)
Definition ext (l l' n n' : Z) (c : code) : Prop :=
  l' = l \/ (l = -1 /\ n < l' <= n' /\ ~ In l' (defs c)).

Definition sep (a b : Z) : Prop := a = b -> a = -1.

Lemma good_app : forall a b n n1 n2, good a n n1 -> good b n1 n2 -> good (a ++ b) n n2.
Proof.
  intros a b n n1 n2 (A & B & C) (D & E & F). split; [lia|]. rewrite defs_app. split.
  - intros l H. apply in_app_or in H. destruct H as [H|H]; [apply B in H|apply E in H]; lia.
  - clear - B C E F. induction (defs a) as [|x xs IH]; simpl; [exact F|].
    inversion C; subst. constructor.
    + intro H. apply in_app_or in H. destruct H as [H|H]; [auto|].
      apply E in H. specialize (B x (or_introl eq_refl)). lia.
    + apply IH; [|exact H2]. intros l H. apply B. right. exact H.
Qed.
Lemma good_nil : forall n, good [] n n.
Proof. intros n. split; [lia|]. split; [intros l []|constructor]. Qed.
Lemma good_nodefs : forall c n, defs c = [] -> good c n n.
Proof. intros c n H. split; [lia|]. rewrite H. split; [intros l []|constructor]. Qed.
Lemma good_nodefs' : forall c n n', defs c = [] -> n <= n' -> good c n n'.
Proof. intros c n n' H L. split; [lia|]. rewrite H. split; [intros l []|constructor]. Qed.
Lemma good_weak : forall c n n1 n', good c n n1 -> n1 <= n' -> good c n n'.
Proof. intros c n n1 n' (A & B & C) L. split; [lia|]. split; [|exact C]. intros l H. apply B in H. lia. Qed.
Lemma good_weakl : forall c n n1 n', good c n1 n' -> n <= n1 -> good c n n'.
Proof. intros c n n1 n' (A & B & C) L. split; [lia|]. split; [|exact C]. intros l H. apply B in H. lia. Qed.
Lemma good_lab : forall c n n' l, good c n n' -> n < l <= n' -> ~ In l (defs c) ->
  good (c ++ [ILab l]) n n'.
Proof.
  intros c n n' l (A & B & C) L NI. split; [lia|]. rewrite defs_app. simpl. split.
  - intros x H. apply in_app_or in H. destruct H as [H|[<-|[]]]; [apply B; exact H|lia].
  - apply NoDup_rev in C. rewrite <- (rev_involutive (defs c ++ [l])). apply NoDup_rev.
    rewrite rev_app_distr. simpl. constructor; [|exact C].
    intro H. apply in_rev in H. auto.
Qed.

Lemma ext_refl : forall l n n' c, ext l l n n' c.
Proof. intros. left. reflexivity. Qed.
Lemma ext_app : forall l l1 l2 n n1 n2 a b, 0 <= n -> good a n n1 -> good b n1 n2 ->
  ext l l1 n n1 a -> ext l1 l2 n1 n2 b -> ext l l2 n n2 (a ++ b).
Proof.
  intros l l1 l2 n n1 n2 a b P (A & B & C) (D & E & F) X Y. unfold ext in *.
  rewrite defs_app. destruct X as [->|(-> & X1 & X2)], Y as [->|(Y0 & Y1 & Y2)].
  - left. reflexivity.
  - right. split; [exact Y0|]. split; [lia|]. intro H. apply in_app_or in H.
    destruct H as [H|H]; [apply B in H; lia|auto].
  - right. split; [reflexivity|]. split; [lia|]. intro H. apply in_app_or in H.
    destruct H as [H|H]; [auto|apply E in H; lia].
  - lia.
Qed.
Lemma ext_le : forall l l' n n' c, ext l l' n n' c -> l <= n -> n <= n' -> l' <= n'.
Proof. unfold ext. intros. lia. Qed.
Lemma ext_keep : forall l l' n n' c, ext l l' n n' c -> l <> -1 -> l' = l.
Proof. unfold ext. intros. lia. Qed.
Lemma ext_notin : forall l l' n n' c, ext l l' n n' c -> good c n n' -> l <= n -> ~ In l' (defs c).
Proof.
  intros l l' n n' c X (A & B & C) L H. unfold ext in X.
  destruct X as [->|(_ & _ & X)]; [apply B in H; lia|auto].
Qed.
Lemma ext_weak : forall l l' n n1 n' c d, ext l l' n n1 c -> n1 <= n' -> defs d = defs c -> ext l l' n n' d.
Proof. intros l l' n n1 n' c d X L D. unfold ext in *. rewrite D. destruct X as [->|(X & Y & Z)]; [left; reflexivity|right; repeat split; auto; lia]. Qed.
Lemma ext_appl : forall l l' n n1 n' a b, 0 <= n -> ext l l' n n1 a -> good a n n1 -> good b n1 n' -> ext l l' n n' (a ++ b).
Proof. intros. eapply ext_app; eauto. apply ext_refl. Qed.
Lemma ext_appr : forall l l' n n1 n' a b, 0 <= n -> ext l l' n1 n' b -> good a n n1 -> good b n1 n' -> ext l l' n n' (a ++ b).
Proof. intros. eapply ext_app; eauto. apply ext_refl. Qed.
Lemma ext_lab : forall l l' n n' c k, ext l l' n n' c -> k <> l' -> ext l l' n n' (c ++ [ILab k]).
Proof.
  intros l l' n n' c k X K. unfold ext in *. rewrite defs_app. simpl.
  destruct X as [->|(X & Y & Z)]; [left; reflexivity|right; repeat split; try lia].
  intro H. apply in_app_or in H. destruct H as [H|[H|[]]]; auto.
Qed.
Lemma sep_ext : forall a b a' b' n n' c, 0 <= n -> sep a b -> a <= n -> b <= n ->
  ext a a' n n' c -> b' = b -> sep a' b'.
Proof. unfold sep, ext. intros. subst. lia. Qed.

(* a jump goes to a label placed in c or to one of the pending labels *)
Definition covered (c : code) (ls : list Z) : Prop :=
  forall l, In l (uses c) -> In l (defs c) \/ (In l ls /\ l <> -1).

Lemma covered_app : forall a b ls ls', covered a ls -> covered b ls' ->
  (forall l, In l ls -> l <> -1 -> In l ls' \/ In l (defs b)) -> covered (a ++ b) ls'.
Proof.
  intros a b ls ls' A B C l H. rewrite uses_app in H. rewrite defs_app.
  apply in_app_or in H. destruct H as [H|H].
  - destruct (A l H) as [G|(G & K)]; [left; apply in_or_app; auto|].
    destruct (C l G K) as [X|X]; [right; auto|left; apply in_or_app; auto].
  - destruct (B l H) as [G|G]; [left; apply in_or_app; auto|right; auto].
Qed.
Lemma covered_nouses : forall c ls, uses c = [] -> covered c ls.
Proof. intros c ls H l I. rewrite H in I. destruct I. Qed.
Lemma covered_weak : forall c ls ls', covered c ls ->
  (forall l, In l ls -> l <> -1 -> In l ls') -> covered c ls'.
Proof. intros c ls ls' A B l H. destruct (A l H) as [G|(G & K)]; auto. Qed.

Lemma load_plain : forall p c, load p = Some c -> defs c = [] /\ uses c = [].
Proof. destruct p; simpl; intros c H; inversion H; subst; auto. Qed.
Lemma store_plain : forall p c, store p = Some c -> defs c = [] /\ uses c = [].
Proof. destruct p; simpl; intros c H; inversion H; subst; auto. Qed.
Lemma pop_plain : forall p, defs (pop p) = [] /\ uses (pop p) = [].
Proof. destruct p; simpl; auto. Qed.

Definition closed (c : code) : Prop := covered c [].

Definition Eok (g : genE_t) : Prop := forall n c n', g n = Some (c, n') -> 0 <= n ->
  good c n n' /\ closed c.
Definition Bok (g : genB_t) : Prop := forall n c p n', g n = Some (c, p, n') -> 0 <= n ->
  good c n n' /\ closed c.
Definition Lok (g : genL_t) : Prop := forall lf l1 l2 n c l1' l2' n',
  g lf l1 l2 n = Some (c, l1', l2', n') -> 0 <= n -> no l1 <= n -> no l2 <= n ->
  sep (no l1) (no l2) -> 1 <= lf ->
  good c n n' /\ ext (no l1) (no l1') n n' c /\ ext (no l2) (no l2') n n' c /\
  sep (no l1') (no l2') /\ left l1' = left l1 /\ left l2' = left l2 /\
  covered c [no l1'; no l2'] /\ no l1' <> -1 /\ (2 <= lf -> left l1 = lf -> no l2' <> -1).

Lemma toE_ok : forall g, Bok g -> Eok (toE g).
Proof.
  intros g H n c n' E P. unfold toE in E.
  destruct (g n) as [((cb, p), n1)|] eqn:G; [|discriminate].
  destruct (load p) as [ld|] eqn:L; [|discriminate].
  injection E as <- <-. destruct (H _ _ _ _ G P) as (A & B).
  destruct (load_plain _ _ L) as (D & U). split.
  - eapply good_app; [exact A|]. apply good_nodefs. exact D.
  - eapply covered_app; [exact B|apply covered_nouses; exact U|]. intros l [].
Qed.

Lemma boolJmp_ok : forall tf l n c l' n', boolJmp tf l n = (c, l', n') -> 0 <= n -> no l <= n ->
  good c n n' /\ ext (no l) (no l') n n' c /\ left l' = left l /\ no l' <> -1 /\
  defs c = [] /\ uses c = [no l'].
Proof.
  intros tf l n c l' n' H P L. unfold boolJmp in H.
  destruct (no l =? -1) eqn:E.
  - injection H as <- <- <-. apply Z.eqb_eq in E. simpl.
    assert (defs [if tf then IJT (n + 1) else IJF (n + 1)] = []) as D by (destruct tf; reflexivity).
    split; [apply good_nodefs'; [exact D|lia]|]. split.
    { right. rewrite D. simpl. split; [exact E|]. split; [lia|tauto]. }
    split; [reflexivity|]. split; [lia|]. split; [exact D|destruct tf; reflexivity].
  - injection H as <- <- <-. apply Z.eqb_neq in E.
    assert (defs [if tf then IJT (no l) else IJF (no l)] = []) as D by (destruct tf; reflexivity).
    split; [apply good_nodefs; exact D|]. split; [apply ext_refl|].
    split; [reflexivity|]. split; [exact E|]. split; [exact D|destruct tf; reflexivity].
Qed.

(* placing the pending label l *)
Lemma printLab_good : forall c l l' n n', good c n n' -> ext l l' n n' c -> l = -1 ->
  good (c ++ printLab l') n n'.
Proof.
  intros c l l' n n' G X E. unfold printLab. destruct (l' =? -1) eqn:K.
  - rewrite app_nil_r. exact G.
  - apply Z.eqb_neq in K. destruct X as [->|(X & Y & Z)]; [congruence|].
    apply good_lab; auto.
Qed.
Lemma printLab_defs : forall l x, In x (defs (printLab l)) <-> x = l /\ l <> -1.
Proof.
  intros l x. unfold printLab. destruct (l =? -1) eqn:K; simpl.
  - apply Z.eqb_eq in K. split; [tauto|intros (A & B); congruence].
  - apply Z.eqb_neq in K. split; [intros [->|[]]; auto|intros (-> & _); auto].
Qed.
Lemma printLab_uses : forall l, uses (printLab l) = [].
Proof. intros l. unfold printLab. destruct (l =? -1); reflexivity. Qed.
Lemma ext_print : forall l l' n n' c k, ext l l' n n' c -> sep k l' -> ext l l' n n' (c ++ printLab k).
Proof.
  intros l l' n n' c k X K. unfold printLab. destruct (k =? -1) eqn:E; [rewrite app_nil_r; exact X|].
  apply Z.eqb_neq in E. apply ext_lab; [exact X|]. intro H. apply E. apply K. exact H.
Qed.

Ltac inv H := inversion H; subst; clear H.

Lemma logBody_ok : forall o l r El Er Ll Lr,
  Eok El -> Eok Er -> Lok Ll -> Lok Lr -> Lok (logBody o l r El Er Ll Lr).
Proof.
  intros o l r El Er Ll Lr HEl HEr HLl HLr lf l1 l2 n c l1' l2' n' H P B1 B2 S LF.
  red in HLl, HLr, HEl, HEr. unfold logBody in H.
  match type of H with match ?X with _ => _ end = _ => destruct X as [((cl, l1a), n1)|] eqn:HL; [|discriminate] end.
  (* left part *)
  assert (A : good cl n n1 /\ ext (no l1) (no l1a) n n1 cl /\ left l1a = left l1 /\
              covered cl [no l1a] /\ no l1a <> -1).
  { destruct (is_log l).
    - destruct (op2_eqb (log_op l) o).
      + destruct (Ll (lf + 1) l1 (newLabel (lf + 1)) n) as [(((cc, l1b), lN), nn)|] eqn:G; [|discriminate].
        inv HL. apply HLl in G; [|assumption|simpl; lia|simpl; lia|simpl; unfold sep; lia|lia].
        destruct G as (G & X1 & XN & SP & L1 & LN & CV & AA & BB).
        split; [eapply printLab_good; eauto|].
        split. { apply ext_print; [exact X1|]. unfold sep in *. intro. symmetry in H0. pose proof (SP H0). lia. }
        split; [exact L1|].
        split; [|first [exact AA|apply BB; [lia|reflexivity]]].
        eapply covered_app; [exact CV|apply covered_nouses; apply printLab_uses|].
        intros x [<-|[<-|[]]] NE; [left; simpl; auto|right; apply printLab_defs; auto].
      + destruct (Ll (lf + 1) (newLabel (lf + 1)) l1 n) as [(((cc, lN), l1b), nn)|] eqn:G; [|discriminate].
        inv HL. apply HLl in G; [|assumption|simpl; lia|simpl; lia|simpl; unfold sep; lia|lia].
        destruct G as (G & XN & X1 & SP & LN & L1 & CV & AA & BB).
        split; [eapply printLab_good; eauto|].
        split. { apply ext_print; [exact X1|]. unfold sep in *. intro. pose proof (SP H0). lia. }
        split; [exact L1|].
        split; [|first [exact AA|apply BB; [lia|reflexivity]]].
        eapply covered_app; [exact CV|apply covered_nouses; apply printLab_uses|].
        intros x [<-|[<-|[]]] NE; [right; apply printLab_defs; auto|left; simpl; auto].
    - destruct (El n) as [(ce, ne)|] eqn:G; [|discriminate].
      destruct (HEl _ _ _ G P) as (GE & CE).
      destruct (boolJmp (is_or o) l1 ne) as ((j, l1b), nb) eqn:J. inv HL.
      assert (NE : n <= ne) by (destruct GE; assumption).
      apply boolJmp_ok in J; [|lia|lia]. destruct J as (GJ & XJ & LJ & NJ & DJ & UJ).
      split; [eapply good_app; eauto|]. split; [eapply ext_appr; eauto|]. split; [exact LJ|].
      split; [|exact NJ].
      eapply covered_app; [exact CE| |intros x []].
      intros x Hx. rewrite UJ in Hx. destruct Hx as [<-|[]]. right. simpl. auto. }
  destruct A as (GA & XA & LA & CA & NEA).
  assert (NA : n <= n1) by (destruct GA; assumption).
  assert (BA : no l1a <= n1) by (eapply ext_le; eauto).
  assert (SA : sep (no l1a) (no l2)) by (unfold sep, ext in *; lia).
  destruct (is_log r).
  - destruct (op2_eqb (log_op r) o).
    + destruct (Lr lf l1a l2 n1) as [(((cc, l1b), l2b), nn)|] eqn:G; [|discriminate]. inv H.
      apply HLr in G; [|lia|lia|lia|unfold sep in *; lia|lia].
      destruct G as (G & X1 & X2 & SP & L1 & L2 & CV & AA & BB).
      split; [eapply good_app; eauto|]. split; [eapply ext_app; eauto|].
      split; [eapply ext_appr; eauto|]. split; [exact SP|]. split; [congruence|]. split; [congruence|].
      split; [|split; [exact AA|intros; apply BB; congruence]].
      eapply covered_app; [exact CA|exact CV|]. intros x [<-|[]] NE. left. simpl. left.
      eapply ext_keep; eauto.
    + destruct (Lr lf l2 l1a n1) as [(((cc, l2b), l1b), nn)|] eqn:G; [|discriminate]. inv H.
      apply HLr in G; [|lia|lia|lia|unfold sep in *; lia|lia].
      destruct G as (G & X2 & X1 & SP & L2 & L1 & CV & AA & BB).
      split; [eapply good_app; eauto|]. split; [eapply ext_app; eauto|].
      split; [eapply ext_appr; eauto|].
      split; [unfold sep in *; intros E; symmetry in E; pose proof (SP E); lia|]. split; [congruence|]. split; [congruence|].
      split; [|split; [rewrite (ext_keep _ _ _ _ _ X1 NEA); exact NEA|intros; exact AA]].
      eapply covered_app; [exact CA|eapply covered_weak; [exact CV|]|].
      * intros x [<-|[<-|[]]] NE; simpl; auto.
      * intros x [<-|[]] NE. left. simpl. left. eapply ext_keep; eauto.
  - destruct (Er n1) as [(ce, ne)|] eqn:G; [|discriminate].
    destruct (HEr _ _ _ G) as (GE & CE); [lia|].
    assert (NE1 : n1 <= ne) by (destruct GE; assumption).
    destruct (2 <=? lf) eqn:E2; [apply Z.leb_le in E2|apply Z.leb_gt in E2].
    + destruct (left l1a =? lf) eqn:EL; [apply Z.eqb_eq in EL|apply Z.eqb_neq in EL].
      * destruct (boolJmp (negb (is_or o)) l2 ne) as ((j, l2b), nb) eqn:J. inv H.
        apply boolJmp_ok in J; [|lia|lia]. destruct J as (GJ & XJ & LJ & NJ & DJ & UJ).
        assert (GEJ : good (ce ++ j) n1 n') by (eapply good_app; eauto).
        split; [eapply good_app; eauto|].
        split; [eapply ext_appl; eauto|].
        split; [eapply ext_appr; eauto; eapply ext_appr; eauto; lia|].
        split; [unfold sep, ext in *; lia|]. split; [exact LA|]. split; [exact LJ|].
        split; [|split; [exact NEA|intros; exact NJ]].
        eapply covered_app with (ls' := [no l1'; no l2']); [exact CA| |intros x [<-|[]] _; left; simpl; auto].
        eapply covered_app; [exact CE| |intros x []].
        intros x Hx. rewrite UJ in Hx. destruct Hx as [<-|[]]. right. simpl. auto.
      * destruct (boolJmp (is_or o) l1a ne) as ((j, l1b), nb) eqn:J. inv H.
        apply boolJmp_ok in J; [|lia|lia]. destruct J as (GJ & XJ & LJ & NJ & DJ & UJ).
        assert (GEJ : good (ce ++ j) n1 n') by (eapply good_app; eauto).
        split; [eapply good_app; eauto|].
        split. { eapply ext_app; eauto. eapply ext_appr; eauto; lia. }
        split; [apply ext_refl|].
        split; [unfold sep, ext in *; lia|]. split; [congruence|]. split; [reflexivity|].
        split; [|split; [exact NJ|intros; congruence]].
        eapply covered_app with (ls' := [no l1'; no l2']); [exact CA| |].
        2:{ intros x [<-|[]] NE. left. simpl. left. eapply ext_keep; eauto. }
        eapply covered_app; [exact CE| |intros x []].
        intros x Hx. rewrite UJ in Hx. destruct Hx as [<-|[]]. right. simpl. auto.
    + inv H. split; [eapply good_app; eauto|]. split; [eapply ext_appl; eauto|].
      split; [apply ext_refl|]. split; [exact SA|]. split; [exact LA|]. split; [reflexivity|].
      split; [|split; [exact NEA|intros; lia]].
      eapply covered_app; [exact CA|eapply covered_weak; [exact CE|intros x []]|].
      intros x [<-|[]] NE. left. simpl. auto.
Qed.

Lemma printLab_pending : forall c l n n', good c n n' -> n < l <= n' -> ~ In l (defs c) ->
  good (c ++ printLab l) n n'.
Proof.
  intros c l n n' G A B. unfold printLab. destruct (l =? -1); [rewrite app_nil_r; exact G|].
  apply good_lab; auto.
Qed.

Lemma defs_boolOR : forall a b d, defs (vmBoolOR a b d) = a :: defs (printLab b) ++ [d].
Proof. intros. unfold vmBoolOR, printLab. destruct (b =? -1); reflexivity. Qed.
Lemma defs_boolAND : forall a b d, defs (vmBoolAND a b d) = a :: defs (printLab b) ++ [d].
Proof. intros. unfold vmBoolAND, printLab. destruct (b =? -1); reflexivity. Qed.
Lemma uses_boolOR : forall a b d x, In x (uses (vmBoolOR a b d)) -> x = d.
Proof. intros a b d x. unfold vmBoolOR. destruct (b =? -1); simpl; intuition. Qed.
Lemma uses_boolAND : forall a b d x, In x (uses (vmBoolAND a b d)) -> x = d.
Proof. intros a b d x. unfold vmBoolAND. destruct (b =? -1); simpl; intuition. Qed.

Lemma defs_eq_good : forall c d n n', defs c = defs d -> good d n n' -> good c n n'.
Proof. intros c d n n' E (A & B & C). unfold good. rewrite E. auto. Qed.

Section G.
Variable N : names.
Notation genB := (genB N).
Notation genL := (genL N).

Lemma genB_or : forall l r n, genB (E2 OR l r) n =
  (do (c, lab2, lab1, n1) <-
    logBody OR l r (toE (genB l)) (toE (genB r)) (genL l) (genL r) 1 (newLabel 1) (newLabel 0) (n + 1);
   Some (c ++ vmBoolOR (no lab2) (no lab1) (n + 1), STKD, n1)).
Proof. reflexivity. Qed.
Lemma genB_and : forall l r n, genB (E2 AND l r) n =
  (do (c, lab2, lab1, n1) <-
    logBody AND l r (toE (genB l)) (toE (genB r)) (genL l) (genL r) 1 (newLabel 1) (newLabel 0) (n + 1);
   Some (c ++ vmBoolAND (no lab2) (no lab1) (n + 1), STKD, n1)).
Proof. reflexivity. Qed.

Definition Aok (e : expr) : Prop := forall n c k n',
  genArgs genB e n = Some (c, k, n') -> 0 <= n -> good c n n' /\ closed c.

Ltac dm H := match type of H with
  | match ?X with _ => _ end = _ => destruct X eqn:?; try discriminate
  | (if ?X then _ else _) = _ => destruct X eqn:?; try discriminate
  end.

Lemma nodefs_step : forall c d n n', good c n n' /\ closed c -> defs d = [] -> uses d = [] ->
  good (c ++ d) n n' /\ closed (c ++ d).
Proof.
  intros c d n n' (A & B) D U. split.
  - eapply good_app; [exact A|]. apply good_nodefs. exact D.
  - eapply covered_app; [exact B|apply covered_nouses; exact U|]. intros l [].
Qed.
Lemma seq_step : forall c d n n1 n', good c n n1 /\ closed c -> good d n1 n' /\ closed d ->
  good (c ++ d) n n' /\ closed (c ++ d).
Proof.
  intros c d n n1 n' (A & B) (A' & B'). split.
  - eapply good_app; eauto.
  - eapply covered_app; [exact B|exact B'|]. intros l [].
Qed.
Lemma args_single : forall e, Bok (genB e) ->
  (match e with E2 SEMI _ _ | ENull => False | _ => True end) -> Aok e.
Proof.
  intros e H T n c k n' E P.
  assert (E' : (do (c0, n1) <- toE (genB e) n; Some (c0 ++ [IArg], 1%nat, n1)) = Some (c, k, n')).
  { destruct e as [| | |[] | ]; try contradiction; exact E. }
  destruct (toE (genB e) n) as [(c0, n1)|] eqn:G; [|discriminate]. inv E'.
  apply nodefs_step; try reflexivity. apply (toE_ok _ H _ _ _ G P).
Qed.

Lemma log_value_ok : forall o c l2 l1 n n1,
  good c (n + 1) n1 -> covered c [l2; l1] -> ext (-1) l2 (n + 1) n1 c -> ext (-1) l1 (n + 1) n1 c ->
  sep l2 l1 -> l2 <> -1 -> 0 <= n ->
  let m := (if is_or o then vmBoolOR else vmBoolAND) l2 l1 (n + 1) in
  good (c ++ m) n n1 /\ closed (c ++ m).
Proof.
  intros o c l2 l1 n n1 G C X2 X1 S NE P m.
  assert (D : defs m = l2 :: defs (printLab l1) ++ [n + 1])
    by (unfold m; destruct (is_or o); [apply defs_boolOR|apply defs_boolAND]).
  assert (U : forall x, In x (uses m) -> x = n + 1)
    by (unfold m; destruct (is_or o); [apply uses_boolOR|apply uses_boolAND]).
  destruct X2 as [->|(_ & X2 & X2')]; [congruence|].
  assert (G1 : good (c ++ [ILab l2]) (n + 1) n1) by (apply good_lab; assumption).
  assert (X1' : ext (-1) l1 (n + 1) n1 (c ++ [ILab l2])).
  { apply ext_lab; [exact X1|]. unfold sep in S. lia. }
  assert (G2 : good ((c ++ [ILab l2]) ++ printLab l1) (n + 1) n1).
  { eapply printLab_good; eauto. }
  assert (N1 : n + 1 <= n1) by (destruct G; assumption).
  split.
  - apply defs_eq_good with (d := ((c ++ [ILab l2]) ++ printLab l1) ++ [ILab (n + 1)]).
    + rewrite !defs_app, D. simpl. rewrite <- !app_assoc. reflexivity.
    + apply good_lab; [eapply good_weakl; [exact G2|lia]|lia|].
      intro I. destruct G2 as (_ & R & _). apply R in I. lia.
  - intros x H. left. rewrite defs_app, D. rewrite uses_app in H. apply in_app_or in H.
    apply in_or_app. destruct H as [H|H].
    + destruct (C x H) as [I|([<-|[<-|[]]] & K)]; [left; exact I|right; left; reflexivity|].
      right. right. apply in_or_app. left. apply printLab_defs. auto.
    + apply U in H. subst. right. right. apply in_or_app. right. left. reflexivity.
Qed.

Lemma gen_ok : forall e, Bok (genB e) /\ Lok (genL e) /\ Aok e.
Proof.
  induction e as [|k|o a IH|o l IHl r IHr|f a IH].
  - split; [intros n c p n' H; discriminate|]. split; [intros until 1; discriminate|].
    intros n c k n' H P. inv H. split; [apply good_nil|]. intros x [].
  - assert (B : Bok (genB (ELeaf k))).
    { intros n c p n' H P. inv H. split; [apply good_nil|]. intros x []. }
    split; [exact B|]. split; [intros until 1; discriminate|]. apply args_single; auto.
  - assert (B : Bok (genB (E1 o a))).
    { intros n c p n' H P. simpl in H.
      destruct (toE (genB a) n) as [(c0, n1)|] eqn:G; [|discriminate]. inv H.
      apply nodefs_step; try reflexivity. apply (toE_ok _ (proj1 IH) _ _ _ G P). }
    split; [exact B|]. split; [intros until 1; discriminate|]. apply args_single; auto.
  - destruct IHl as (Bl & Ll & Al), IHr as (Br & Lr & Ar).
    pose proof (toE_ok _ Bl) as El. pose proof (toE_ok _ Br) as Er.
    assert (LB : Lok (logBody o l r (toE (genB l)) (toE (genB r)) (genL l) (genL r)))
      by (apply logBody_ok; assumption).
    assert (L : Lok (genL (E2 o l r))).
    { destruct o; try (intros until 1; discriminate); exact LB. }
    assert (B : Bok (genB (E2 o l r))).
    { intros n c p n' H P.
      assert (BIN : forall ga gb tl, Eok ga -> Eok gb -> forall q, defs tl = [] -> uses tl = [] ->
        (do (ca, n1) <- ga n; do (cb, n2) <- gb n1; Some (ca ++ cb ++ tl, q, n2)) = Some (c, p, n') ->
        good c n n' /\ closed c).
      { intros ga gb tl Ha Hb q D U HH.
        destruct (ga n) as [(ca, n1)|] eqn:Ga; [|discriminate].
        destruct (gb n1) as [(cb, n2)|] eqn:Gb; [|discriminate].
        injection HH as <- <- <-. pose proof (Ha _ _ _ Ga P) as RA.
        assert (0 <= n1) by (destruct RA as ((? & _) & _); lia).
        rewrite app_assoc. apply nodefs_step; [|exact D|exact U].
        eapply seq_step; [exact RA|]. apply (Hb _ _ _ Gb). assumption. }
      assert (BIN0 : forall q,
        (do (ca, n1) <- toE (genB l) n; do (cb, n2) <- toE (genB r) n1; Some (ca ++ cb, q, n2)) = Some (c, p, n') ->
        good c n n' /\ closed c).
      { intros q HH. apply (BIN (toE (genB l)) (toE (genB r)) [] El Er q eq_refl eq_refl).
        rewrite <- HH. destruct (toE (genB l) n) as [(ca, n1)|]; [|reflexivity].
        destruct (toE (genB r) n1) as [(cb, n2)|]; [|reflexivity]. rewrite app_nil_r. reflexivity. }
      destruct o; first [rewrite genB_or in H|rewrite genB_and in H|cbn [VmCode.genB isCommutativeOp andb mirror] in H];
        try match type of H with context [evalDepth l <? evalDepth r] => destruct (evalDepth l <? evalDepth r) end;
        try (refine (BIN _ _ _ El Er _ _ _ H); reflexivity);
        try (refine (BIN _ _ _ Er El _ _ _ H); reflexivity);
        try (apply (BIN0 _ H)); try discriminate.
      - (* DOT *)
        destruct r as [|[v| | | | |]| | | ]; try discriminate.
        destruct (toE (genB l) n) as [(c0, n1)|] eqn:G; [|discriminate]. inv H.
        apply nodefs_step; try reflexivity. apply (El _ _ _ G P).
      - (* ASS *)
        destruct (toE (genB r) n) as [(cr, n1)|] eqn:Gr; [|discriminate].
        destruct (genB l n1) as [((cl, q), n2)|] eqn:Gl; [|discriminate].
        destruct (store q) as [s|] eqn:St; [|discriminate]. inv H.
        destruct (store_plain _ _ St) as (D & U).
        pose proof (Er _ _ _ Gr P) as RA.
        assert (0 <= n1) by (destruct RA as ((? & _) & _); lia).
        rewrite app_assoc. apply nodefs_step; [|exact D|exact U].
        eapply seq_step; [exact RA|]. apply (Bl _ _ _ _ Gl). assumption.
      - (* COMM *)
        destruct (genB l n) as [((cl, q), n1)|] eqn:Gl; [|discriminate].
        destruct (genB r n1) as [((cr, q'), n2)|] eqn:Gr; [|discriminate]. inv H.
        pose proof (Bl _ _ _ _ Gl P) as RA.
        assert (0 <= n1) by (destruct RA as ((? & _) & _); lia).
        destruct (pop_plain q) as (D & U).
        rewrite app_assoc. eapply seq_step; [apply nodefs_step; [exact RA|exact D|exact U]|].
        apply (Br _ _ _ _ Gr). assumption.
      - (* OR *)
        destruct (logBody OR l r (toE (genB l)) (toE (genB r)) (genL l) (genL r) 1 (newLabel 1) (newLabel 0) (n + 1))
          as [(((cc, l2), l1), n1)|] eqn:G; [|discriminate]. injection H as <- <- <-.
        red in LB; apply LB in G; [|lia|simpl; lia|simpl; lia|unfold sep; simpl; lia|lia].
        destruct G as (G & X2 & X1 & SP & _ & _ & CV & AA & _).
        apply (log_value_ok OR); auto.
      - destruct (logBody AND l r (toE (genB l)) (toE (genB r)) (genL l) (genL r) 1 (newLabel 1) (newLabel 0) (n + 1))
          as [(((cc, l2), l1), n1)|] eqn:G; [|discriminate]. injection H as <- <- <-.
        red in LB; apply LB in G; [|lia|simpl; lia|simpl; lia|unfold sep; simpl; lia|lia].
        destruct G as (G & X2 & X1 & SP & _ & _ & CV & AA & _).
        apply (log_value_ok AND); auto. }
    split; [exact B|]. split; [exact L|].
    destruct (op2_eqb o SEMI) eqn:ES.
    + apply op2_eqb_eq in ES. subst o. intros n c k n' H P. cbn [genArgs] in H.
      fold (genArgs genB) in H.
      destruct (toE (genB r) n) as [(c0, n1)|] eqn:G; [|discriminate].
      destruct (genArgs genB l n1) as [((c1, k1), n2)|] eqn:GA; [|discriminate]. injection H as <- <- <-.
      pose proof (Er _ _ _ G P) as RA.
      assert (0 <= n1) by (destruct RA as ((? & _) & _); lia).
      change (c0 ++ IArg :: c1) with (c0 ++ [IArg] ++ c1). rewrite app_assoc. eapply seq_step; [apply nodefs_step; [exact RA|reflexivity|reflexivity]|].
      apply (Al _ _ _ _ GA). assumption.
    + apply args_single; [exact B|]. destruct o; auto. discriminate.
  - assert (B : Bok (genB (EFunc f a))).
    { intros n c p n' H P. cbn [VmCode.genB] in H.
      destruct (genArgs genB a n) as [((c0, k), n1)|] eqn:G; [|discriminate].
      pose proof (proj2 (proj2 IH) _ _ _ _ G P) as RA.
      destruct (is_void N f); inv H; apply nodefs_step; auto. }
    split; [exact B|]. split; [intros until 1; discriminate|]. apply args_single; auto.
Qed.
End G.
