(* Proofs about the model of the driver cm2e. *)
From Coq Require Import ZArith Bool Lia List String.
From Verif Require Import Lexer CCode DriverSpec Driver DriverProofs DriverTacSpec DriverTac.
Import ListNotations.
Open Scope Z_scope.

Lemma exeFile_of f : exeFile f = exeOf f.
Proof. unfold exeFile, exeOf. destruct (list_eq_dec _ _ _) as [E|E]; [rewrite E; reflexivity|]. destruct (pext (exe f)); [contradiction|reflexivity]. Qed.
Lemma withExt_ne p q e e' : codes e <> codes e' -> withExt p e <> withExt q e'.
Proof. intros N E. apply N. exact (f_equal pext E). Qed.
Lemma withExt_self p e : isA p e -> withExt p e = p.
Proof. unfold withExt, isA. intros <-. destruct p; reflexivity. Qed.
Lemma withExt_place p q e : placeOf p = placeOf q -> withExt p e = withExt q e.
Proof. unfold placeOf, withExt. intros E. injection E as -> ->. reflexivity. Qed.
Lemma place_withExt p e : placeOf (withExt p e) = placeOf p.
Proof. reflexivity. Qed.

Section P.
Variable T : tacTools.
Variable f : flags.
Variable pid : list Z.
Notation tmpF := (tmpFile pid).
Lemma ext_tmpE p e : codes e <> codes ".tmp" -> tmpF <> withExt p e.
Proof. intros N E. apply N. symmetry. exact (f_equal pext E). Qed.

Lemma asTo_other p F q : q <> withExt p ".o" -> q <> withExt p ".lst" -> snd (asTo T p F) q = F q.
Proof.
  intros A B. unfold asTo. destruct (F (withExt p ".s")) as [c|]; [|reflexivity]. destruct (tasm T c) as [o l|[o|] [l|]]; cbn [snd]; rewrite ?put_other by congruence; reflexivity.
Qed.
Lemma asTo_ok p F : fst (asTo T p F) = true -> exists c o, F (withExt p ".s") = Some c /\ assembles T c o /\ snd (asTo T p F) (withExt p ".o") = Some o.
Proof.
  unfold asTo. destruct (F (withExt p ".s")) as [c|]; [|discriminate]. destruct (tasm T c) as [o l|o l] eqn:E; [|discriminate]. intros _. exists c, o. split; [reflexivity|]. split; [exists l; exact E|]. cbn [snd].
  rewrite put_other by (apply withExt_ne; discriminate). apply put_same.
Qed.
Lemma asTo_made p F c o : F (withExt p ".s") = Some c -> assembles T c o -> fst (asTo T p F) = true /\ snd (asTo T p F) (withExt p ".o") = Some o.
Proof.
  intros E (l & A). unfold asTo. rewrite E, A. split; [reflexivity|]. cbn [snd]. rewrite put_other by (apply withExt_ne; discriminate). apply put_same.
Qed.

(* ==== what is not touched ==== *)
Section Frame.
Variable P : path -> Prop.
Hypothesis Ptmp : fE f = false -> P tmpF.
Definition closedE (p : path) : Prop :=
  (fE f = false -> isA p ".cmm" -> P (withExt p ".s")) /\
  (fE f = false -> fS f = false -> isA p ".cmm" \/ isA p ".s" -> P (withExt p ".o") /\ P (withExt p ".lst")).
Notation agree := (agree P).
Lemma asTo_agree F F' p : agree F F' -> P (withExt p ".o") -> P (withExt p ".lst") -> agree F (snd (asTo T p F')).
Proof. intros A B C q N. rewrite asTo_other; [apply A; exact N| |]; intros ->; contradiction. Qed.
Lemma argE_frame F s p : closedE p -> Forall P (tmps s) -> agree F (sF s) ->
  match argE T f pid s p with
  | Next s' => agree F (sF s') /\ Forall P (tmps s')
  | Stop F' _ => agree F F'
  end.
Proof.
  intros [C1 C2] TM A. unfold argE. destruct (hasExt p ".cmm") eqn:EC.
  - apply hasExt_iff in EC. destruct (match sF s p with Some x => tcpp T x | None => None end) as [t|].
    + destruct (fE f); [split; assumption|]. specialize (C1 eq_refl EC). specialize (Ptmp eq_refl). destruct (ttrans T t) as [c|].
      * destruct (fS f); [cbn [sF tmps]; split; [repeat apply agree_put; assumption|exact TM]|]. destruct (C2 eq_refl eq_refl (or_introl EC)) as [C3 C4].
        pose proof (asTo_agree F (put (put (put (sF s) tmpF (Some t)) (withExt p ".s") (Some c)) tmpF None) p) as K.
        destruct (asTo T p _) as [ok G]. cbn [snd] in K. assert (agree F G) by (apply K; try assumption; repeat apply agree_put; assumption).
        assert (Forall P (tmps s ++ [withExt p ".o"])) by (apply Forall_app; split; [exact TM|constructor; [exact C3|constructor]]).
        destruct ok; cbn [sF tmps error]; [split; [repeat apply agree_put; assumption|assumption]|apply agree_rm; [repeat apply agree_put; assumption|assumption]].
      * apply agree_rm; [repeat apply agree_put; assumption|exact TM].
    + destruct (fE f); apply agree_rm; try assumption. repeat apply agree_put; auto.
  - destruct (hasExt p ".s") eqn:ES.
    + apply hasExt_iff in ES. destruct (fE f); [split; assumption|]. destruct (fS f); [split; assumption|]. cbn [negb andb]. destruct (C2 eq_refl eq_refl (or_intror ES)) as [C3 C4].
      pose proof (asTo_agree F (sF s) p A C3 C4) as K. destruct (asTo T p _) as [ok G]. cbn [snd] in K.
      assert (Forall P (tmps s ++ [withExt p ".o"])) by (apply Forall_app; split; [exact TM|constructor; [exact C3|constructor]]).
      destruct ok; cbn [sF tmps error]; [split; [repeat apply agree_put; assumption|assumption]|apply agree_rm; [repeat apply agree_put; assumption|assumption]].
    + destruct (hasExt p ".o"); [split; assumption|]. apply agree_rm; assumption.
Qed.
Lemma loopE_frame F args : forall s, Forall closedE args -> Forall P (tmps s) -> agree F (sF s) ->
  match loopE T f pid s args with
  | Next s' => agree F (sF s') /\ Forall P (tmps s')
  | Stop F' _ => agree F F'
  end.
Proof.
  induction args as [|p r IH]; intros s C TM A; cbn [loopE]; [split; assumption|]. inversion C as [|x y Cp Cr]; subst. pose proof (argE_frame F s p Cp TM A) as H.
  destruct (argE T f pid s p) as [s'|F' o]; [|exact H]. destruct H as [A' T']. apply IH; assumption.
Qed.
Lemma buildE_frame F s : P (linkFile pid) -> P (exeFile f) -> P (withExt (exeFile f) ".map") -> agree F (sF s) -> Forall P (tmps s) -> agree F (buildE T f pid s).
Proof.
  intros L E M A TM. unfold buildE. apply agree_rm; [|apply Forall_app; split; [exact TM|constructor; [exact L|constructor]]].
  assert (B : agree F match contents (sF s) (objs s) with Some xs => match tld T xs with Some x => put (sF s) (linkFile pid) (Some x) | None => sF s end | None => sF s end).
  { destruct (contents _ _); [|exact A]. destruct (tld T _); [apply agree_put; assumption|exact A]. }
  destruct (match _ (linkFile pid) with Some x => tobjexe T x | None => None end) as [[x m]|]; repeat apply agree_put; assumption.
Qed.
End Frame.

Lemma cm2e_frame args F : forall status F' o, cm2e T f pid args F = (status, F', o) ->
  forall q, ~ (fE f = false /\ q = tmpF) -> ~ (links f /\ q = linkFile pid) -> ~ mayTouchE f args q -> F' q = F q.
Proof.
  intros status F' o H q NT NL NM. unfold cm2e in H. destruct args as [|p0 r0] eqn:EA; [injection H as <- <- <-; reflexivity|]. rewrite <- EA in *. clear EA p0 r0.
  destruct (hasExt _ _); [|injection H as <- <- <-; reflexivity].
  set (P := fun q => (fE f = false /\ q = tmpF) \/ (links f /\ q = linkFile pid) \/ mayTouchE f args q). assert (~ P q) as NP by (intros [A|[A|A]]; contradiction).
  assert (C : Forall (closedE P) args).
  { apply Forall_forall. intros p I. split; [intros Z E; right; right; left; split; [exact Z|]; exists p; auto|]. intros Z1 Z2 E. split; right; right; right; left; (split; [exact Z1|]); (split; [exact Z2|]); exists p; auto. }
  pose proof (loopE_frame P (fun Z => or_introl (conj Z eq_refl)) F args (St F [] [] []) C (Forall_nil _) (fun q _ => eq_refl)) as L.
  destruct (loopE T f pid _ args) as [s|G g]; [|injection H as <- <- <-; exact (L q NP)]. destruct L as [A TM]. injection H as <- <- <-.
  destruct (fE f) eqn:E1, (fS f) eqn:E2, (fC f) eqn:E3; cbn [negb andb]; try exact (A q NP).
  assert (LK : links f) by (repeat split; assumption).
  apply (buildE_frame P); try assumption; right; [left; split; [exact LK|reflexivity]| |]; right; right; right; (split; [exact LK|]); rewrite exeFile_of; auto.
Qed.

(* the loop touches only files .s, .o, .lst and its own .tmp *)
Definition otherExtE (q : path) : Prop := ~ isA q ".s" /\ ~ isA q ".o" /\ ~ isA q ".lst" /\ ~ isA q ".tmp".
Lemma argE_other s p s' : argE T f pid s p = Next s' -> Forall (fun q => ~ otherExtE q) (tmps s) -> (forall q, otherExtE q -> sF s' q = sF s q) /\ Forall (fun q => ~ otherExtE q) (tmps s').
Proof.
  intros H TM. pose proof (argE_frame (fun q => ~ otherExtE q)) as L. specialize (L (fun _ A => proj2 (proj2 (proj2 A)) eq_refl) (sF s) s p). rewrite H in L.
  destruct L as [A B]; try assumption; [|intros q _; reflexivity|].
  - split; [intros _ _ A; exact (proj1 A eq_refl)|]. intros _ _ _. split; intros A; [exact (proj1 (proj2 A) eq_refl)|exact (proj1 (proj2 (proj2 A)) eq_refl)].
  - split; [|exact B]. intros q O. apply A. intros N. exact (N O).
Qed.
Lemma cmm_otherE p : isA p ".cmm" -> otherExtE p.
Proof. unfold otherExtE, isA. intros ->. vm_compute. repeat split; intros E; discriminate E. Qed.

(* ==== no temporary file is left ==== *)
Lemma asTo_tmp p F : snd (asTo T p F) tmpF = F tmpF.
Proof. apply asTo_other; apply ext_tmpE; discriminate. Qed.
Lemma argE_tmp s p : sF s tmpF = None -> match argE T f pid s p with Next s' => sF s' tmpF = None | Stop F' _ => F' tmpF = None end.
Proof.
  intros A. unfold argE. assert (N : forall e, codes e <> codes ".tmp" -> withExt p e <> tmpF) by (intros e K E; exact (ext_tmpE p e K (eq_sym E))).
  assert (N1 : withExt p ".s" <> tmpF) by (apply N; discriminate). assert (N2 : withExt p ".lst" <> tmpF) by (apply N; discriminate).
  destruct (hasExt p ".cmm").
  - destruct (match sF s p with Some x => tcpp T x | None => None end) as [t|].
    + destruct (fE f); [exact A|]. destruct (ttrans T t) as [c|].
      * destruct (fS f); [apply put_same|]. pose proof (asTo_tmp p (put (put (put (sF s) tmpF (Some t)) (withExt p ".s") (Some c)) tmpF None)) as K. rewrite put_same in K.
        destruct (asTo T p _) as [ok G]. cbn [snd] in K. destruct ok; cbn [sF error]; [|apply rmAll_none]; rewrite !put_other by assumption; exact K.
      * apply rmAll_none. rewrite put_other by exact N1. apply put_same.
    + destruct (fE f); apply rmAll_none; [exact A|apply put_same].
  - destruct (hasExt p ".s").
    + destruct (negb _ && negb _); [|exact A]. pose proof (asTo_tmp p (sF s)) as K. destruct (asTo T p _) as [ok G]. cbn [snd] in K. destruct ok; cbn [sF error]; [|apply rmAll_none]; rewrite put_other, K by assumption; exact A.
    + destruct (hasExt p ".o"); [exact A|apply rmAll_none; exact A].
Qed.
Lemma loopE_tmp args : forall s, sF s tmpF = None -> match loopE T f pid s args with Next s' => sF s' tmpF = None | Stop F' _ => F' tmpF = None end.
Proof.
  induction args as [|p r IH]; intros s A; cbn [loopE]; [exact A|]. pose proof (argE_tmp s p A) as H. destruct (argE T f pid s p) as [s'|]; [apply IH|]; exact H.
Qed.
Lemma cm2e_tmp args F : forall status F' o, F tmpF = None -> cm2e T f pid args F = (status, F', o) -> F' tmpF = None.
Proof.
  intros status F' o A H. unfold cm2e in H. destruct args as [|p0 r0] eqn:EA; [injection H as <- <- <-; exact A|]. rewrite <- EA in *. clear EA p0 r0.
  destruct (hasExt (exeFile f) ".exe") eqn:X; [|injection H as <- <- <-; exact A]. apply hasExt_iff in X.
  pose proof (loopE_tmp args (St F [] [] []) A) as L. destruct (loopE T f pid _ args) as [s|G g]; injection H as <- <- <-; [|exact L].
  destruct (_ && _); [|exact L]. unfold buildE. apply rmAll_none.
  assert (NL : linkFile pid <> tmpF) by (intros E; apply (f_equal pext) in E; discriminate E).
  assert (NX : exeFile f <> tmpF) by (intros E; unfold isA in X; rewrite E in X; discriminate X).
  assert (NM : withExt (exeFile f) ".map" <> tmpF) by (intros E; apply (f_equal pext) in E; discriminate E).
  assert (B : match contents (sF s) (objs s) with Some xs => match tld T xs with Some x => put (sF s) (linkFile pid) (Some x) | None => sF s end | None => sF s end tmpF = None).
  { destruct (contents _ _); [|exact L]. destruct (tld T _); [rewrite put_other by exact NL|]; exact L. }
  destruct (match _ (linkFile pid) with Some x => tobjexe T x | None => None end) as [[x m]|]; rewrite !put_other by assumption; exact B.
Qed.

(* ==== success ==== *)
Lemma translatedE_ext F G p c : (forall q, otherExtE q -> G q = F q) -> isA p ".cmm" -> translatedE T G p c -> translatedE T F p c.
Proof. intros A E (s & t & H). rewrite (A p (cmm_otherE _ E)) in H. exists s, t. exact H. Qed.
Lemma argE_cmm s p s' : isA p ".cmm" -> fE f = false -> argE T f pid s p = Next s' -> exists c, translatedE T (sF s) p c /\
  (fS f = true -> sF s' (withExt p ".s") = Some c) /\ (fS f = false -> exists o, assembles T c o).
Proof.
  intros E NE H. unfold argE in H. rewrite (proj2 (hasExt_iff _ _) E), NE in H. destruct (sF s p) as [x|] eqn:X; [|discriminate H]. destruct (tcpp T x) as [t|] eqn:C; [|discriminate H]. destruct (ttrans T t) as [c|] eqn:TR; [|discriminate H].
  assert (N : tmpF <> withExt p ".s") by (apply ext_tmpE; discriminate).
  exists c. split; [exists x, t; auto|]. destruct (fS f).
  - split; [|discriminate]. intros _. injection H as <-. cbn [sF]. rewrite put_other by exact N. apply put_same.
  - split; [discriminate|]. intros _. pose proof (asTo_ok p (put (put (put (sF s) tmpF (Some t)) (withExt p ".s") (Some c)) tmpF None)) as K. destruct (asTo T p _) as [ok G]. cbn [fst snd] in K. destruct ok; [|discriminate H].
    destruct (K eq_refl) as (c' & o & K1 & K2 & _). rewrite put_other, put_same in K1 by exact N. injection K1 as <-. exists o. exact K2.
Qed.
(* with -S an argument touches its own .s only *)
Lemma argE_S s p s' : fS f = true -> fE f = false -> argE T f pid s p = Next s' -> forall q, isA q ".s" -> (isA p ".cmm" -> q <> withExt p ".s") -> sF s' q = sF s q.
Proof.
  intros ES NE H q Q N. unfold argE in H. rewrite ES, NE in H. cbn [negb andb] in H. destruct (hasExt p ".cmm") eqn:E.
  - apply hasExt_iff in E. destruct (sF s p) as [x|]; [|discriminate H]. destruct (tcpp T x); [|discriminate H]. destruct (ttrans T _); [|discriminate H]. injection H as <-. cbn [sF].
    assert (tmpF <> q) by (intros <-; discriminate Q). rewrite !put_other; try reflexivity; try assumption. intros <-. exact (N E eq_refl).
  - destruct (hasExt p ".s"); [injection H as <-; reflexivity|]. destruct (hasExt p ".o"); [injection H as <-; reflexivity|discriminate H].
Qed.
Lemma loopE_S args : forall s s', fS f = true -> fE f = false -> Forall (fun q => ~ otherExtE q) (tmps s) -> loopE T f pid s args = Next s' ->
  (forall q, isA q ".s" -> (forall p, In p args -> isA p ".cmm" -> q <> withExt p ".s") -> sF s' q = sF s q) /\
  forall p, In p args -> isA p ".cmm" -> exists c, translatedE T (sF s) p c /\ sF s' (withExt p ".s") = Some c.
Proof.
  induction args as [|p r IH]; intros s s' ES NE TM H; cbn [loopE] in H; [injection H as <-; split; [reflexivity|intros p []]|].
  destruct (argE T f pid s p) as [s1|] eqn:A; [|discriminate H]. destruct (argE_other _ _ _ A TM) as [O TM']. destruct (IH _ _ ES NE TM' H) as [I1 I2]. split.
  - intros q Q N. rewrite I1; [apply (argE_S _ _ _ ES NE A q Q); intros E; exact (N p (or_introl eq_refl) E)|exact Q|intros p' I'; exact (N p' (or_intror I'))].
  - intros p' [<-|I] E.
    + destruct (argE_cmm _ _ _ E NE A) as (c & TR & K & _). specialize (K ES). exists c. split; [exact TR|].
      destruct (in_dec path_dec p r) as [J|J].
      * destruct (I2 p J E) as (c' & TR' & K'). rewrite K'. f_equal. apply (translatedE_ext _ _ _ _ O E) in TR'.
        destruct TR as (x & t & X1 & X2 & X3), TR' as (x' & t' & Y1 & Y2 & Y3). rewrite X1 in Y1. injection Y1 as <-. rewrite X2 in Y2. injection Y2 as <-. rewrite X3 in Y3. injection Y3 as <-. reflexivity.
      * rewrite I1; [exact K|reflexivity|]. intros p' I' E' W. apply J. replace p with p'; [exact I'|]. unfold isA in *. destruct p as [d1 n1 e1], p' as [d2 n2 e2]. unfold withExt in W. cbn [pdir pstem pext] in *. injection W as -> ->. subst. reflexivity.
    + destruct (I2 p' I E) as (c & TR & K). exists c. split; [exact (translatedE_ext _ _ _ _ O E TR)|exact K].
Qed.
Lemma loopE_cmm args : forall s s', fE f = false -> Forall (fun q => ~ otherExtE q) (tmps s) -> loopE T f pid s args = Next s' ->
  forall p, In p args -> isA p ".cmm" -> exists c, translatedE T (sF s) p c /\ (fS f = false -> exists o, assembles T c o).
Proof.
  induction args as [|p r IH]; intros s s' NE TM H p' I E; [destruct I|]. cbn [loopE] in H.
  destruct (argE T f pid s p) as [s1|] eqn:A; [|discriminate H]. destruct (argE_other _ _ _ A TM) as [O TM']. destruct I as [->|I].
  - destruct (argE_cmm _ _ _ E NE A) as (c & TR & _ & K). exists c. split; [exact TR|exact K].
  - destruct (IH _ _ NE TM' H p' I E) as (c & TR & K). exists c. split; [exact (translatedE_ext _ _ _ _ O E TR)|exact K].
Qed.

(* ==== failure ==== *)
Lemma loopE_bad args : forall s p, In p args -> ~ isA p ".cmm" -> ~ isA p ".s" -> ~ isA p ".o" -> exists F o, loopE T f pid s args = Stop F o.
Proof.
  induction args as [|p r IH]; intros s p' I N1 N2 N3; [destruct I|]. cbn [loopE]. destruct I as [->|I].
  - unfold argE. rewrite (proj2 (hasExt_ne _ _) N1), (proj2 (hasExt_ne _ _) N2), (proj2 (hasExt_ne _ _) N3). eexists. eexists. reflexivity.
  - destruct (argE T f pid s p) as [s'|F o]; [exact (IH s' p' I N1 N2 N3)|]. eexists. eexists. reflexivity.
Qed.
Lemma argE_clean F s p : fresh F s -> match argE T f pid s p with Next s' => fresh F s' | Stop F' _ => clean F F' end.
Proof.
  intros H. assert (NT : forall q, isA q ".o" -> tmpF <> q) by (intros q Q <-; discriminate Q).
  assert (NC : forall q, isA q ".o" -> withExt p ".s" <> q) by (intros q Q <-; discriminate Q).
  assert (NL : forall q, isA q ".o" -> withExt p ".lst" <> q) by (intros q Q <-; discriminate Q).
  assert (X : forall s' G, tmps s' = tmps s ++ [withExt p ".o"] -> (forall q, isA q ".o" -> q <> withExt p ".o" -> G q = sF s q) -> sF s' = G -> fresh F s').
  { intros s' G TM A B q Q. rewrite TM, B. destruct (path_dec (withExt p ".o") q) as [E|E]; [left; apply in_or_app; right; left; exact E|].
    destruct (H q Q) as [I|I]; [left; apply in_or_app; left; exact I|]. right. rewrite A; auto. }
  assert (Y : forall G, (forall q, isA q ".o" -> q <> withExt p ".o" -> G q = sF s q) -> clean F (rmAll (tmps s ++ [withExt p ".o"]) G)).
  { intros G A q Q. destruct (in_dec path_dec q (tmps s ++ [withExt p ".o"])) as [I|I]; [left; apply rmAll_in; exact I|]. right. rewrite rmAll_other by exact I. rewrite A; [|exact Q|intros ->; apply I; apply in_or_app; right; left; reflexivity].
    destruct (H q Q) as [J|J]; [|exact J]. destruct I. apply in_or_app. left. exact J. }
  unfold argE. destruct (hasExt p ".cmm").
  - destruct (match sF s p with Some x => tcpp T x | None => None end) as [t|].
    + destruct (fE f); [exact H|]. destruct (ttrans T t) as [c|].
      * destruct (fS f).
        -- intros q Q. cbn [tmps sF]. rewrite !put_other by auto. exact (H q Q).
        -- pose proof (asTo_other p (put (put (put (sF s) tmpF (Some t)) (withExt p ".s") (Some c)) tmpF None)) as K. destruct (asTo T p _) as [ok G]. cbn [snd] in K.
           assert (KK : forall q, isA q ".o" -> q <> withExt p ".o" -> put (put G (withExt p ".s") None) (withExt p ".lst") None q = sF s q).
           { intros q Q1 Q2. rewrite !put_other by auto. rewrite K; [rewrite !put_other by auto; reflexivity|exact Q2|intros E; exact (NL q Q1 (eq_sym E))]. }
           destruct ok; [eapply X; [reflexivity|exact KK|reflexivity]|apply Y; exact KK].
      * apply fresh_clean; [exact H|]. intros q Q. rewrite !put_other by auto. reflexivity.
    + destruct (fE f); (apply fresh_clean; [exact H|]); intros q Q; [reflexivity|]. apply put_other. auto.
  - destruct (hasExt p ".s").
    + destruct (negb _ && negb _); [|exact H]. pose proof (asTo_other p (sF s)) as K. destruct (asTo T p _) as [ok G]. cbn [snd] in K.
      assert (KK : forall q, isA q ".o" -> q <> withExt p ".o" -> put G (withExt p ".lst") None q = sF s q).
      { intros q Q1 Q2. rewrite !put_other by auto. apply K; [exact Q2|intros E; exact (NL q Q1 (eq_sym E))]. }
      destruct ok; [eapply X; [reflexivity|exact KK|reflexivity]|apply Y; exact KK].
    + destruct (hasExt p ".o"); [exact H|]. apply fresh_clean; [exact H|reflexivity].
Qed.
Lemma loopE_clean F args : forall s, fresh F s -> match loopE T f pid s args with Next s' => fresh F s' | Stop F' _ => clean F F' end.
Proof.
  induction args as [|p r IH]; intros s H; cbn [loopE]; [exact H|]. pose proof (argE_clean F s p H) as A. destruct (argE T f pid s p) as [s'|]; [|exact A]. apply IH; exact A.
Qed.

(* ==== no listing and no translation is left ==== *)
Definition between (q : path) : Prop := isA q ".lst" \/ (isA q ".s" /\ fS f = false).
Definition gone (F G : files) : Prop := forall q, between q -> G q = None \/ G q = F q.
Lemma gone_put F G p v : gone F G -> (between p -> v = None) -> gone F (put G p v).
Proof. intros A B q Q. unfold put. destruct (path_dec p q) as [->|]; [left; exact (B Q)|exact (A q Q)]. Qed.
Lemma gone_rm F l : forall G, gone F G -> gone F (rmAll l G).
Proof. unfold rmAll. induction l as [|p l IH]; intros G A; cbn [fold_left]; [exact A|]. apply IH. apply gone_put; [exact A|reflexivity]. Qed.
Lemma not_between p : ~ isA p ".lst" -> ~ isA p ".s" -> forall v : option (list Z), between p -> v = None.
Proof. intros A B v [C|[C _]]; contradiction. Qed.
Lemma gone_as F G p : gone F G -> gone F (put (snd (asTo T p G)) (withExt p ".lst") None).
Proof.
  intros A q Q. destruct (path_dec (withExt p ".lst") q) as [<-|N]; [left; apply put_same|]. rewrite put_other by exact N. rewrite asTo_other; [exact (A q Q)| |intros E; exact (N (eq_sym E))].
  intros ->. destruct Q as [Q|[Q _]]; discriminate Q.
Qed.
Lemma argE_gone F s p : gone F (sF s) -> match argE T f pid s p with Next s' => gone F (sF s') | Stop F' _ => gone F F' end.
Proof.
  intros A. unfold argE. assert (NT : forall v : option (list Z), between tmpF -> v = None) by (apply not_between; discriminate).
  destruct (hasExt p ".cmm").
  - destruct (match sF s p with Some x => tcpp T x | None => None end) as [t|].
    + destruct (fE f); [exact A|]. destruct (ttrans T t) as [c|].
      * destruct (fS f) eqn:ES.
        -- cbn [sF]. apply gone_put; [|apply NT]. apply gone_put; [apply gone_put; [exact A|apply NT]|]. intros [Q|[_ Q]]; [discriminate Q|rewrite ES in Q; discriminate Q].
        -- set (G0 := put (put (put (sF s) tmpF (Some t)) (withExt p ".s") (Some c)) tmpF None).
           assert (K : gone F (put (put (snd (asTo T p G0)) (withExt p ".s") None) (withExt p ".lst") None)).
           { intros q Q. destruct (path_dec (withExt p ".lst") q) as [<-|N]; [left; apply put_same|]. rewrite put_other by exact N.
             destruct (path_dec (withExt p ".s") q) as [<-|N2]; [left; apply put_same|]. rewrite put_other by exact N2. rewrite asTo_other; [|intros ->; destruct Q as [Q|[Q _]]; discriminate Q|intros E; exact (N (eq_sym E))].
             assert (tmpF <> q) by (intros <-; destruct Q as [Q|[Q _]]; discriminate Q). unfold G0. rewrite !put_other by assumption. exact (A q Q). }
           destruct (asTo T p G0) as [ok G]. cbn [snd] in K. destruct ok; [exact K|apply gone_rm; exact K].
      * apply gone_rm. repeat (apply gone_put; [|apply NT || reflexivity]). exact A.
    + destruct (fE f); apply gone_rm; [exact A|]. apply gone_put; [exact A|reflexivity].
  - destruct (hasExt p ".s").
    + destruct (negb _ && negb _); [|exact A]. pose proof (gone_as F (sF s) p A) as K. destruct (asTo T p (sF s)) as [ok G]. cbn [snd] in K. destruct ok; [exact K|apply gone_rm; exact K].
    + destruct (hasExt p ".o"); [exact A|apply gone_rm; exact A].
Qed.
Lemma loopE_gone F args : forall s, gone F (sF s) -> match loopE T f pid s args with Next s' => gone F (sF s') | Stop F' _ => gone F F' end.
Proof.
  induction args as [|p r IH]; intros s A; cbn [loopE]; [exact A|]. pose proof (argE_gone F s p A) as H. destruct (argE T f pid s p) as [s'|]; [apply IH|]; exact H.
Qed.
Lemma cm2e_gone args F : forall status F' o, cm2e T f pid args F = (status, F', o) -> gone F F'.
Proof.
  intros status F' o H. assert (A : gone F F) by (intros q _; right; reflexivity). unfold cm2e in H. destruct args as [|p0 r0] eqn:EA; [injection H as <- <- <-; exact A|]. rewrite <- EA in *. clear EA p0 r0.
  destruct (hasExt (exeFile f) ".exe") eqn:X; [|injection H as <- <- <-; exact A]. apply hasExt_iff in X.
  pose proof (loopE_gone F args (St F [] [] []) A) as L. destruct (loopE T f pid _ args) as [s|G g]; injection H as <- <- <-; [|exact L].
  destruct (_ && _); [|exact L]. unfold buildE. apply gone_rm.
  assert (NX : forall v : option (list Z), between (exeFile f) -> v = None) by (apply not_between; unfold isA in *; rewrite X; discriminate).
  assert (NM : forall v : option (list Z), between (withExt (exeFile f) ".map") -> v = None) by (apply not_between; discriminate).
  assert (NL : forall v : option (list Z), between (linkFile pid) -> v = None) by (apply not_between; discriminate).
  assert (B : gone F match contents (sF s) (objs s) with Some xs => match tld T xs with Some x => put (sF s) (linkFile pid) (Some x) | None => sF s end | None => sF s end).
  { destruct (contents _ _); [|exact L]. destruct (tld T _); [apply gone_put; [exact L|apply NL]|exact L]. }
  destruct (match _ (linkFile pid) with Some x => tobjexe T x | None => None end) as [[x m]|]; repeat (apply gone_put; [|apply NX || apply NM]); exact B.
Qed.

(* ==== a whole program ==== *)
Hypothesis NS : fS f = false.
Hypothesis NE : fE f = false.
Lemma argE_ok s p o : compiledE T (sF s) p o ->
  exists s', argE T f pid s p = Next s' /\ objs s' = objs s ++ [withExt p ".o"] /\ sF s' (withExt p ".o") = Some o /\
    (forall q, placeOf q <> placeOf p -> ~ isA q ".tmp" -> sF s' q = sF s q) /\ out s' = out s /\
    tmps s' = tmps s ++ (if hasExt p ".o" then [] else [withExt p ".o"]) /\
    (isA p ".cmm" -> sF s' (withExt p ".s") = None) /\ (~ isA p ".o" -> sF s' (withExt p ".lst") = None).
Proof.
  intros C.
  assert (N : tmpF <> withExt p ".s") by (apply ext_tmpE; discriminate).
  assert (N2 : withExt p ".s" <> withExt p ".o") by (apply withExt_ne; discriminate).
  assert (N3 : withExt p ".lst" <> withExt p ".o") by (apply withExt_ne; discriminate).
  assert (N4 : withExt p ".lst" <> withExt p ".s") by (apply withExt_ne; discriminate).
  assert (X : forall q, placeOf q <> placeOf p -> forall e, withExt p e <> q) by (intros q Q e <-; apply Q; reflexivity).
  assert (X' : forall q, placeOf q <> placeOf p -> forall e, q <> withExt p e) by (intros q Q e ->; apply Q; reflexivity).
  unfold argE. rewrite NS, NE. destruct C as [[E (c & (x & t & X1 & X2 & X3) & X4)]|[[E (c & X1 & X2)]|[E X1]]].
  - rewrite (proj2 (hasExt_iff _ _) E), X1, X2, X3. set (G0 := put (put (put (sF s) tmpF (Some t)) (withExt p ".s") (Some c)) tmpF None).
    assert (G0s : G0 (withExt p ".s") = Some c) by (unfold G0; rewrite put_other, put_same by exact N; reflexivity).
    destruct (asTo_made p G0 c o G0s X4) as [M1 M2]. pose proof (asTo_other p G0) as K. destruct (asTo T p G0) as [ok G]. cbn [fst snd] in *. subst ok. eexists. split; [reflexivity|]. cbn [objs sF out tmps].
    replace (hasExt p ".o") with false by (symmetry; apply hasExt_ne; unfold isA in *; rewrite E; discriminate).
    split; [reflexivity|]. split; [rewrite !put_other by assumption; exact M2|]. split; [|split; [reflexivity|split; [reflexivity|split; [intros _; rewrite put_other by exact N4; apply put_same|intros _; apply put_same]]]].
    intros q Q1 Q2. assert (tmpF <> q) by (intros <-; apply Q2; reflexivity). rewrite !put_other by auto. rewrite K by auto. unfold G0. rewrite !put_other; auto.
  - replace (hasExt p ".cmm") with false by (symmetry; apply hasExt_ne; unfold isA in *; rewrite E; discriminate). rewrite (proj2 (hasExt_iff _ _) E). cbn [negb andb].
    assert (Ps : sF s (withExt p ".s") = Some c) by (rewrite withExt_self by exact E; exact X1).
    destruct (asTo_made p (sF s) c o Ps X2) as [M1 M2]. pose proof (asTo_other p (sF s)) as K. destruct (asTo T p (sF s)) as [ok G]. cbn [fst snd] in *. subst ok. eexists. split; [reflexivity|]. cbn [objs sF out tmps].
    replace (hasExt p ".o") with false by (symmetry; apply hasExt_ne; unfold isA in *; rewrite E; discriminate).
    split; [reflexivity|]. split; [rewrite put_other by assumption; exact M2|]. split; [|split; [reflexivity|split; [reflexivity|split; [unfold isA in *; rewrite E; discriminate|intros _; apply put_same]]]].
    intros q Q1 Q2. rewrite put_other by auto. apply K; auto.
  - replace (hasExt p ".cmm") with false by (symmetry; apply hasExt_ne; unfold isA in *; rewrite E; discriminate). replace (hasExt p ".s") with false by (symmetry; apply hasExt_ne; unfold isA in *; rewrite E; discriminate).
    rewrite (proj2 (hasExt_iff _ _) E). eexists. split; [reflexivity|]. cbn [objs sF out tmps]. rewrite app_nil_r. split; [reflexivity|].
    split; [rewrite withExt_self by exact E; exact X1|].
    split; [reflexivity|split; [reflexivity|split; [reflexivity|split; [unfold isA in *; rewrite E; discriminate|intros A; contradiction]]]].
Qed.
Lemma compiledE_ext F G p o : G p = F p -> compiledE T F p o -> compiledE T G p o.
Proof. unfold compiledE, translatedE. intros ->. tauto. Qed.
Lemma compiledE_tmp F p o : compiledE T F p o -> ~ isA p ".tmp".
Proof. unfold compiledE, isA. intros [[-> _]|[[-> _]|[-> _]]]; discriminate. Qed.
Lemma loopE_ok args : forall os s xs, Forall2 (compiledE T (sF s)) args os -> NoDup (map placeOf args) ->
  contents (sF s) (objs s) = Some xs -> (forall q, In q (objs s) -> ~ In (placeOf q) (map placeOf args) /\ isA q ".o") ->
  exists s', loopE T f pid s args = Next s' /\ contents (sF s') (objs s') = Some (xs ++ os) /\ out s' = out s /\
    tmps s' = tmps s ++ flat_map (fun p => if hasExt p ".o" then [] else [withExt p ".o"]) args /\
    (forall q, ~ In (placeOf q) (map placeOf args) -> ~ isA q ".tmp" -> sF s' q = sF s q) /\
    (forall p, In p args -> (isA p ".cmm" -> sF s' (withExt p ".s") = None) /\ (~ isA p ".o" -> sF s' (withExt p ".lst") = None)) /\
    objs s' = objs s ++ map (fun p => withExt p ".o") args.
Proof.
  induction args as [|p r IH]; intros os s xs C ND CT OB.
  - inversion C. exists s. cbn [map flat_map]. rewrite !app_nil_r. split; [reflexivity|]. split; [exact CT|]. split; [reflexivity|]. split; [reflexivity|]. split; [reflexivity|]. split; [intros p []|reflexivity].
  - inversion C as [|? o ? os' Cp Cr]; subst. inversion ND as [|? ? N1 N2]; subst.
    destruct (argE_ok s p o Cp) as (s1 & A & OJ & OV & FR & OU & TM & GN & GL).
    assert (CT1 : contents (sF s1) (objs s1) = Some (xs ++ [o])).
    { rewrite OJ. apply contents_app; [|exact OV]. rewrite <- CT. apply contents_ext. intros q Q. destruct (OB q Q) as [O1 O2]. apply FR.
      - intros E. apply O1. left. symmetry. exact E.
      - unfold isA in *. rewrite O2. discriminate. }
    destruct (IH os' s1 (xs ++ [o])) as (s' & L & C' & O' & T' & F' & G' & J').
    + clear - Cr FR N1. induction Cr as [|q o' r os Cq _ IHr]; constructor; [|apply IHr; intros I; apply N1; right; exact I].
      apply (compiledE_ext (sF s)); [|exact Cq]. apply FR; [|exact (compiledE_tmp _ _ _ Cq)]. intros E. apply N1. left. exact E.
    + exact N2.
    + exact CT1.
    + rewrite OJ. intros q Q. apply in_app_or in Q. destruct Q as [Q|[<-|[]]].
      * destruct (OB q Q) as [O1 O2]. split; [intros I; apply O1; right; exact I|exact O2].
      * split; [exact N1|reflexivity].
    + exists s'. cbn [loopE]. rewrite A. split; [exact L|]. split; [rewrite C', <- app_assoc; reflexivity|]. split; [rewrite O', OU; reflexivity|].
      split; [rewrite T', TM; cbn [flat_map]; rewrite app_assoc; reflexivity|]. split; [|split].
      * intros q Q1 Q2. rewrite F'; [apply FR; [|exact Q2]|intros I; apply Q1; right; exact I|exact Q2]. intros E. apply Q1. left. symmetry. exact E.
      * intros p' [<-|I]; [|exact (G' p' I)]. split; intros E; (rewrite F'; [|exact N1|discriminate]); [exact (GN E)|exact (GL E)].
      * rewrite J', OJ, <- app_assoc. reflexivity.
Qed.
End P.
