(* Proofs about the model of the driver cm2c. *)
From Coq Require Import ZArith Bool Lia List String.
From Verif Require Import Lexer CCode DriverSpec Driver.
Import ListNotations.
Open Scope Z_scope.

Lemma put_same F p v : put F p v p = v.
Proof. unfold put. destruct (path_dec p p); [reflexivity|contradiction]. Qed.
Lemma put_other F p v q : p <> q -> put F p v q = F q.
Proof. unfold put. destruct (path_dec p q); [contradiction|reflexivity]. Qed.
Lemma rmAll_other l : forall F q, ~ In q l -> rmAll l F q = F q.
Proof.
  unfold rmAll. induction l as [|p l IH]; intros F q N; [reflexivity|]. cbn [fold_left]. rewrite IH by (intros I; apply N; right; exact I). apply put_other. intros ->. apply N. left. reflexivity.
Qed.
Lemma rmAll_none l : forall F q, F q = None -> rmAll l F q = None.
Proof.
  unfold rmAll. induction l as [|p l IH]; intros F q N; [exact N|]. cbn [fold_left]. apply IH. unfold put. destruct (path_dec p q); [reflexivity|exact N].
Qed.
Lemma rmAll_in l : forall F q, In q l -> rmAll l F q = None.
Proof.
  induction l as [|p l IH]; intros F q N; [destruct N|]. unfold rmAll. cbn [fold_left]. destruct N as [->|N]; [apply rmAll_none; apply put_same|apply IH; exact N].
Qed.
Lemma hasExt_iff p e : hasExt p e = true <-> isA p e.
Proof. unfold hasExt, isA. destruct (list_eq_dec _ _ _); split; intros H; try assumption; try reflexivity; [discriminate H|contradiction]. Qed.
Lemma hasExt_ne p e : hasExt p e = false <-> ~ isA p e.
Proof. unfold hasExt, isA. destruct (list_eq_dec _ _ _); split; intros H; try assumption; try reflexivity; [discriminate H|contradiction]. Qed.

Section P.
Variable T : tools.
Variable f : flags.
Variable pid : list Z.
Notation tmpFile := (tmpFile pid).

(* ==== what is not touched ==== *)
Section Frame.
Variable P : path -> Prop.
Hypothesis Ptmp : P tmpFile.
Definition closed (p : path) : Prop :=
  (isA p ".cmm" -> P (withExt p ".c")) /\ (isA p ".cmm" \/ isA p ".c" -> P (withExt p ".o") /\ P (Path here (pstem p) (codes ".o"))).
Definition agree (F F' : files) : Prop := forall q, ~ P q -> F' q = F q.
Lemma agree_put F F' p v : agree F F' -> P p -> agree F (put F' p v).
Proof. intros A H q N. rewrite put_other; [apply A; exact N|]. intros ->. contradiction. Qed.
Lemma agree_rm l F F' : agree F F' -> Forall P l -> agree F (rmAll l F').
Proof. intros A H q N. rewrite rmAll_other; [apply A; exact N|]. intros I. rewrite Forall_forall in H. apply N, H, I. Qed.
Lemma ccTo_agree F F' G p : agree F F' -> P (Path here (pstem p) (codes ".o")) -> ccTo T p F' = Some G -> agree F G.
Proof.
  intros A H E. unfold ccTo in E. destruct (F' _); [|discriminate E]. destruct (cc T _); [|discriminate E]. injection E as <-. apply agree_put; assumption.
Qed.
Lemma arg_frame F s p : closed p -> Forall P (tmps s) -> agree F (sF s) ->
  match arg T f pid s p with
  | Next s' => agree F (sF s') /\ Forall P (tmps s')
  | Stop F' _ => agree F F'
  end.
Proof.
  intros [C1 C2] TM A. unfold arg. destruct (hasExt p ".cmm") eqn:EC.
  - apply hasExt_iff in EC. specialize (C1 EC). destruct (C2 (or_introl EC)) as [C3 C4]. destruct (match sF s p with Some x => cpp T x | None => None end) as [t|].
    + destruct (fE f); [split; assumption|]. destruct (trans T t) as [c|].
      * destruct (fS f); [cbn [sF tmps]; split; [repeat apply agree_put; assumption|exact TM]|].
        destruct (ccTo T p _) as [G|] eqn:EG; cbn [sF tmps error].
        -- split; [|apply Forall_app; split; [exact TM|constructor; [exact C3|constructor]]]. apply agree_put; [|exact C1].
           refine (ccTo_agree _ _ _ _ _ C4 EG). repeat apply agree_put; assumption.
        -- apply agree_rm; [repeat apply agree_put; assumption|]. apply Forall_app. split; [exact TM|constructor; [exact C3|constructor]].
      * apply agree_rm; [repeat apply agree_put; assumption|exact TM].
    + destruct (fE f); apply agree_rm; try assumption. repeat apply agree_put; assumption.
  - destruct (hasExt p ".c") eqn:ES.
    + apply hasExt_iff in ES. destruct (C2 (or_intror ES)) as [C3 C4]. destruct (negb _ && negb _); [|split; assumption].
      destruct (ccTo T p _) as [G|] eqn:EG; cbn [sF tmps error].
      * split; [exact (ccTo_agree _ _ _ _ A C4 EG)|]. apply Forall_app. split; [exact TM|constructor; [exact C3|constructor]].
      * apply agree_rm; [assumption|]. apply Forall_app. split; [exact TM|constructor; [exact C3|constructor]].
    + destruct (hasExt p ".o"); [split; assumption|]. apply agree_rm; assumption.
Qed.
Lemma loop_frame F args : forall s, Forall closed args -> Forall P (tmps s) -> agree F (sF s) ->
  match loop T f pid s args with
  | Next s' => agree F (sF s') /\ Forall P (tmps s')
  | Stop F' _ => agree F F'
  end.
Proof.
  induction args as [|p r IH]; intros s C TM A; cbn [loop]; [split; assumption|]. inversion C as [|x y Cp Cr]; subst. pose proof (arg_frame F s p Cp TM A) as H.
  destruct (arg T f pid s p) as [s'|F' o]; [|exact H]. destruct H as [A' T']. apply IH; assumption.
Qed.
Lemma build_frame F s : P (exe f) -> agree F (sF s) -> Forall P (tmps s) -> agree F (build T f s).
Proof.
  intros E A TM. unfold build. apply agree_rm; [|exact TM]. destruct (contents _ _); [|exact A]. destruct (link T _); [apply agree_put; assumption|exact A].
Qed.
End Frame.

Lemma cm2c_frame args F : forall status F' o, cm2c T f pid args F = (status, F', o) ->
  forall q, q <> tmpFile -> ~ mayTouch f args q -> F' q = F q.
Proof.
  intros status F' o H q NT NM. unfold cm2c in H. destruct args as [|p0 r0] eqn:EA; [injection H as <- <- <-; reflexivity|]. rewrite <- EA in *. clear EA p0 r0.
  set (P := fun q => q = tmpFile \/ mayTouch f args q). assert (~ P q) as NP by (intros [A|A]; contradiction).
  assert (C : Forall (closed P) args).
  { apply Forall_forall. intros p I. split; [intros E; right; left; exists p; auto|]. intros E. split; right; right; left; exists p; auto. }
  pose proof (loop_frame P (or_introl eq_refl) F args (St F [] [] []) C (Forall_nil _) (fun q _ => eq_refl)) as L.
  destruct (loop T f pid _ args) as [s|G g]; [|injection H as <- <- <-; exact (L q NP)]. destruct L as [A TM]. injection H as <- <- <-.
  destruct (fE f) eqn:E1, (fS f) eqn:E2, (fC f) eqn:E3; cbn [negb andb]; try exact (A q NP).
  apply (build_frame P); try assumption. right. right. right. repeat split; assumption.
Qed.

(* the loop touches only files .c, .o and its own .tmp *)
Definition otherExt (q : path) : Prop := ~ isA q ".c" /\ ~ isA q ".o" /\ ~ isA q ".tmp".
Lemma arg_other s p s' : arg T f pid s p = Next s' -> Forall (fun q => ~ otherExt q) (tmps s) -> (forall q, otherExt q -> sF s' q = sF s q) /\ Forall (fun q => ~ otherExt q) (tmps s').
Proof.
  intros H TM. pose proof (arg_frame (fun q => ~ otherExt q)) as L. specialize (L (fun A => proj2 (proj2 A) eq_refl) (sF s) s p). rewrite H in L.
  destruct L as [A B]; try assumption; [|intros q _; reflexivity|].
  - split; [intros _ A; exact (proj1 A eq_refl)|]. intros _. split; intros A; exact (proj1 (proj2 A) eq_refl).
  - split; [|exact B]. intros q O. apply A. intros N. exact (N O).
Qed.
Lemma cmm_other p : isA p ".cmm" -> otherExt p.
Proof. unfold otherExt, isA. intros ->. vm_compute. repeat split; intros E; discriminate E. Qed.

(* ==== no temporary file is left ==== *)
Lemma ext_tmp p e : codes e <> codes ".tmp" -> withExt p e <> tmpFile.
Proof. intros N E. apply N. exact (f_equal pext E). Qed.
Lemma obj_tmp p : Path here (pstem p) (codes ".o") <> tmpFile.
Proof. intros E. apply (f_equal pext) in E. discriminate E. Qed.
Lemma ccTo_tmp F p G : F tmpFile = None -> ccTo T p F = Some G -> G tmpFile = None.
Proof.
  intros A E. unfold ccTo in E. destruct (F (withExt p ".c")) as [c|]; [|discriminate E]. destruct (cc T c); [|discriminate E]. injection E as <-. rewrite put_other; [exact A|apply obj_tmp].
Qed.
Lemma arg_tmp s p : sF s tmpFile = None -> match arg T f pid s p with Next s' => sF s' tmpFile = None | Stop F' _ => F' tmpFile = None end.
Proof.
  intros A. unfold arg. assert (N : withExt p ".c" <> tmpFile) by (apply ext_tmp; discriminate).
  destruct (hasExt p ".cmm").
  - destruct (match sF s p with Some x => cpp T x | None => None end) as [t|].
    + destruct (fE f); [exact A|]. destruct (trans T t) as [c|].
      * destruct (fS f); [apply put_same|]. destruct (ccTo T p _) as [G|] eqn:EG; cbn [sF error].
        -- rewrite put_other by exact N. refine (ccTo_tmp _ _ _ _ EG). apply put_same.
        -- apply rmAll_none. rewrite put_other by exact N. apply put_same.
      * apply rmAll_none. rewrite put_other by exact N. apply put_same.
    + destruct (fE f); apply rmAll_none; [exact A|apply put_same].
  - destruct (hasExt p ".c").
    + destruct (negb _ && negb _); [|exact A]. destruct (ccTo T p _) as [G|] eqn:EG; cbn [sF error]; [exact (ccTo_tmp _ _ _ A EG)|apply rmAll_none; exact A].
    + destruct (hasExt p ".o"); [exact A|apply rmAll_none; exact A].
Qed.
Lemma loop_tmp args : forall s, sF s tmpFile = None -> match loop T f pid s args with Next s' => sF s' tmpFile = None | Stop F' _ => F' tmpFile = None end.
Proof.
  induction args as [|p r IH]; intros s A; cbn [loop]; [exact A|]. pose proof (arg_tmp s p A) as H. destruct (arg T f pid s p) as [s'|]; [apply IH|]; exact H.
Qed.
Lemma cm2c_tmp args F : forall status F' o, F tmpFile = None -> exe f <> tmpFile -> cm2c T f pid args F = (status, F', o) -> F' tmpFile = None.
Proof.
  intros status F' o A E H. unfold cm2c in H. destruct args as [|p0 r0] eqn:EA; [injection H as <- <- <-; exact A|]. rewrite <- EA in *. clear EA p0 r0.
  pose proof (loop_tmp args (St F [] [] []) A) as L. destruct (loop T f pid _ args) as [s|G g]; injection H as <- <- <-; [|exact L].
  destruct (_ && _); [|exact L]. unfold build. apply rmAll_none. destruct (contents _ _); [|exact L]. destruct (link T _); [|exact L]. rewrite put_other by exact E. exact L.
Qed.

(* ==== success ==== *)
Lemma translated_ext F G p c : (forall q, otherExt q -> G q = F q) -> isA p ".cmm" -> translated T G p c -> translated T F p c.
Proof. intros A E (s & t & H). rewrite (A p (cmm_other _ E)) in H. exists s, t. exact H. Qed.
Lemma arg_cmm s p s' : isA p ".cmm" -> fE f = false -> arg T f pid s p = Next s' -> exists c, translated T (sF s) p c /\
  (fS f = true -> sF s' (withExt p ".c") = Some c) /\ (fS f = false -> exists o, cc T c = Some o /\ sF s' (Path here (pstem p) (codes ".o")) = Some o).
Proof.
  intros E NE H. unfold arg in H. rewrite (proj2 (hasExt_iff _ _) E), NE in H. destruct (sF s p) as [x|] eqn:X; [|discriminate H]. destruct (cpp T x) as [t|] eqn:C; [|discriminate H]. destruct (trans T t) as [c|] eqn:TR; [|discriminate H].
  assert (N : tmpFile <> withExt p ".c") by (intros K; symmetry in K; revert K; apply ext_tmp; discriminate).
  exists c. split; [exists x, t; auto|]. destruct (fS f).
  - split; [|discriminate]. intros _. injection H as <-. cbn [sF]. rewrite put_other by exact N. apply put_same.
  - split; [discriminate|]. intros _. unfold ccTo in H. rewrite put_other, put_same in H by exact N. destruct (cc T c) as [o|]; [|discriminate H]. injection H as <-. exists o. split; [reflexivity|]. cbn [sF].
    rewrite put_other by (intros K; apply (f_equal pext) in K; discriminate K). apply put_same.
Qed.
(* with -S an argument touches its own .c only *)
Lemma arg_S s p s' : fS f = true -> fE f = false -> arg T f pid s p = Next s' -> forall q, isA q ".c" -> (isA p ".cmm" -> q <> withExt p ".c") -> sF s' q = sF s q.
Proof.
  intros ES NE H q Q N. unfold arg in H. rewrite ES, NE in H. cbn [negb andb] in H. destruct (hasExt p ".cmm") eqn:E.
  - apply hasExt_iff in E. destruct (sF s p) as [x|]; [|discriminate H]. destruct (cpp T x); [|discriminate H]. destruct (trans T _); [|discriminate H]. injection H as <-. cbn [sF].
    assert (tmpFile <> q) by (intros <-; discriminate Q). rewrite !put_other; try reflexivity; try assumption. intros <-. exact (N E eq_refl).
  - destruct (hasExt p ".c"); [injection H as <-; reflexivity|]. destruct (hasExt p ".o"); [injection H as <-; reflexivity|discriminate H].
Qed.
Lemma loop_S args : forall s s', fS f = true -> fE f = false -> Forall (fun q => ~ otherExt q) (tmps s) -> loop T f pid s args = Next s' ->
  (forall q, isA q ".c" -> (forall p, In p args -> isA p ".cmm" -> q <> withExt p ".c") -> sF s' q = sF s q) /\
  forall p, In p args -> isA p ".cmm" -> exists c, translated T (sF s) p c /\ sF s' (withExt p ".c") = Some c.
Proof.
  induction args as [|p r IH]; intros s s' ES NE TM H; cbn [loop] in H; [injection H as <-; split; [reflexivity|intros p []]|].
  destruct (arg T f pid s p) as [s1|] eqn:A; [|discriminate H]. destruct (arg_other _ _ _ A TM) as [O TM']. destruct (IH _ _ ES NE TM' H) as [I1 I2]. split.
  - intros q Q N. rewrite I1; [apply (arg_S _ _ _ ES NE A q Q); intros E; exact (N p (or_introl eq_refl) E)|exact Q|intros p' I'; exact (N p' (or_intror I'))].
  - intros p' [<-|I] E.
    + destruct (arg_cmm _ _ _ E NE A) as (c & TR & K & _). specialize (K ES). exists c. split; [exact TR|].
      destruct (in_dec path_dec p r) as [J|J].
      * destruct (I2 p J E) as (c' & TR' & K'). rewrite K'. f_equal. apply (translated_ext _ _ _ _ O E) in TR'.
        destruct TR as (x & t & X1 & X2 & X3), TR' as (x' & t' & Y1 & Y2 & Y3). rewrite X1 in Y1. injection Y1 as <-. rewrite X2 in Y2. injection Y2 as <-. rewrite X3 in Y3. injection Y3 as <-. reflexivity.
      * rewrite I1; [exact K|reflexivity|]. intros p' I' E' W. apply J. replace p with p'; [exact I'|]. unfold isA in *. destruct p as [d1 n1 e1], p' as [d2 n2 e2]. unfold withExt in W. cbn [pdir pstem pext] in *. injection W as -> ->. subst. reflexivity.
    + destruct (I2 p' I E) as (c & TR & K). exists c. split; [exact (translated_ext _ _ _ _ O E TR)|exact K].
Qed.
Lemma cm2c_S args F F' o : fS f = true -> fE f = false -> cm2c T f pid args F = (0, F', o) ->
  forall p, In p args -> isA p ".cmm" -> exists c, translated T F p c /\ F' (withExt p ".c") = Some c.
Proof.
  intros ES NE H p I E. unfold cm2c in H. destruct args as [|p0 r0] eqn:EA; [discriminate H|]. rewrite <- EA in *. clear EA p0 r0.
  destruct (loop T f pid _ args) as [s|] eqn:L; [|discriminate H]. rewrite ES, NE in H. cbn [negb andb] in H. injection H as <- <-.
  exact (proj2 (loop_S _ (St F [] [] []) _ ES NE (Forall_nil _) L) p I E).
Qed.
(* status 0: every source was translated and compiled *)
Lemma loop_cmm args : forall s s', fE f = false -> Forall (fun q => ~ otherExt q) (tmps s) -> loop T f pid s args = Next s' ->
  forall p, In p args -> isA p ".cmm" -> exists c, translated T (sF s) p c /\ (fS f = false -> exists o, cc T c = Some o).
Proof.
  induction args as [|p r IH]; intros s s' NE TM H p' I E; [destruct I|]. cbn [loop] in H.
  destruct (arg T f pid s p) as [s1|] eqn:A; [|discriminate H]. destruct (arg_other _ _ _ A TM) as [O TM']. destruct I as [->|I].
  - destruct (arg_cmm _ _ _ E NE A) as (c & TR & _ & K). exists c. split; [exact TR|]. intros S. destruct (K S) as (o & J & _). exists o. exact J.
  - destruct (IH _ _ NE TM' H p' I E) as (c & TR & K). exists c. split; [exact (translated_ext _ _ _ _ O E TR)|exact K].
Qed.

(* ==== failure ==== *)
Lemma loop_bad args : forall s p, In p args -> ~ isA p ".cmm" -> ~ isA p ".c" -> ~ isA p ".o" -> exists F o, loop T f pid s args = Stop F o.
Proof.
  induction args as [|p r IH]; intros s p' I N1 N2 N3; [destruct I|]. cbn [loop]. destruct I as [->|I].
  - unfold arg. rewrite (proj2 (hasExt_ne _ _) N1), (proj2 (hasExt_ne _ _) N2), (proj2 (hasExt_ne _ _) N3). eexists. eexists. reflexivity.
  - destruct (arg T f pid s p) as [s'|F o]; [exact (IH s' p' I N1 N2 N3)|]. eexists. eexists. reflexivity.
Qed.
Definition fresh (F : files) (s : st) : Prop := forall q, isA q ".o" -> In q (tmps s) \/ sF s q = F q.
Definition clean (F F' : files) : Prop := forall q, isA q ".o" -> F' q = None \/ F' q = F q.
Lemma fresh_clean F s G : fresh F s -> (forall q, isA q ".o" -> G q = sF s q) -> clean F (rmAll (tmps s) G).
Proof.
  intros H E q Q. destruct (in_dec path_dec q (tmps s)) as [I|I]; [left; apply rmAll_in; exact I|]. right. rewrite rmAll_other by exact I. rewrite (E q Q). destruct (H q Q); [contradiction|assumption].
Qed.
Lemma arg_clean F s p : pdir p = here -> fresh F s -> match arg T f pid s p with Next s' => fresh F s' | Stop F' _ => clean F F' end.
Proof.
  intros D H. assert (W : Path here (pstem p) (codes ".o") = withExt p ".o") by (unfold withExt; rewrite D; reflexivity).
  assert (NT : forall q, isA q ".o" -> tmpFile <> q) by (intros q Q <-; discriminate Q).
  assert (NC : forall q, isA q ".o" -> withExt p ".c" <> q) by (intros q Q <-; discriminate Q).
  assert (X : forall G G' s', (forall q, isA q ".o" -> G q = sF s q) -> ccTo T p G = Some G' -> tmps s' = tmps s ++ [withExt p ".o"] -> (forall q, isA q ".o" -> sF s' q = G' q) -> fresh F s').
  { intros G G' s' A C TM B q Q. rewrite TM. unfold ccTo in C. destruct (G (withExt p ".c")) as [c|]; [|discriminate C]. destruct (cc T c) as [o|]; [|discriminate C]. injection C as <-.
    destruct (path_dec (withExt p ".o") q) as [E|E]; [left; apply in_or_app; right; left; exact E|].
    destruct (H q Q) as [I|I]; [left; apply in_or_app; left; exact I|]. right. rewrite (B q Q). rewrite put_other; [rewrite (A q Q); exact I|]. intros K. apply E. rewrite <- K. symmetry. exact W. }
  assert (Y : forall G s', (forall q, isA q ".o" -> G q = sF s q) -> tmps s' = tmps s ++ [withExt p ".o"] -> clean F (rmAll (tmps s') G)).
  { intros G s' A TM q Q. destruct (in_dec path_dec q (tmps s')) as [I|I]; [left; apply rmAll_in; exact I|]. right. rewrite rmAll_other by exact I. rewrite (A q Q).
    destruct (H q Q) as [J|J]; [|exact J]. destruct I. rewrite TM. apply in_or_app. left. exact J. }
  unfold arg. destruct (hasExt p ".cmm").
  - destruct (match sF s p with Some x => cpp T x | None => None end) as [t|].
    + destruct (fE f); [exact H|]. destruct (trans T t) as [c|].
      * destruct (fS f).
        -- intros q Q. cbn [tmps sF]. rewrite !put_other by auto. exact (H q Q).
        -- destruct (ccTo T p _) as [G|] eqn:EG; cbn [sF error tmps out].
           ++ eapply X; [|exact EG|reflexivity|]; intros q Q; [rewrite !put_other by auto; reflexivity|]. cbn [sF]. apply put_other. auto.
           ++ refine (Y _ (St (sF s) (objs s) (tmps s ++ [withExt p ".o"]) (out s)) _ eq_refl). intros q Q. rewrite !put_other by auto. reflexivity.
      * apply fresh_clean; [exact H|]. intros q Q. rewrite !put_other by auto. reflexivity.
    + destruct (fE f); (apply fresh_clean; [exact H|]); intros q Q; [reflexivity|]. apply put_other. auto.
  - destruct (hasExt p ".c").
    + destruct (negb _ && negb _); [|exact H]. destruct (ccTo T p _) as [G|] eqn:EG; cbn [sF error tmps out].
      * eapply X; [|exact EG|reflexivity|]; reflexivity.
      * refine (Y _ (St (sF s) (objs s) (tmps s ++ [withExt p ".o"]) (out s)) _ eq_refl). reflexivity.
    + destruct (hasExt p ".o"); [exact H|]. apply fresh_clean; [exact H|reflexivity].
Qed.
Lemma loop_clean F args : forall s, (forall p, In p args -> pdir p = here) -> fresh F s -> match loop T f pid s args with Next s' => fresh F s' | Stop F' _ => clean F F' end.
Proof.
  induction args as [|p r IH]; intros s D H; cbn [loop]; [exact H|]. pose proof (arg_clean F s p (D p (or_introl eq_refl)) H) as A. destruct (arg T f pid s p) as [s'|]; [|exact A]. apply IH; [|exact A]. intros q Q. apply D. right. exact Q.
Qed.

(* ==== a whole program in the current directory ==== *)
Hypothesis NS : fS f = false.
Hypothesis NE : fE f = false.
Lemma arg_ok s p o : pdir p = here -> compiled T (sF s) p o ->
  exists s', arg T f pid s p = Next s' /\ objs s' = objs s ++ [withExt p ".o"] /\ sF s' (withExt p ".o") = Some o /\
    (forall q, pstem q <> pstem p -> ~ isA q ".tmp" -> sF s' q = sF s q) /\ out s' = out s /\
    tmps s' = tmps s ++ (if hasExt p ".o" then [] else [withExt p ".o"]) /\
    (isA p ".cmm" -> sF s' (withExt p ".c") = None).
Proof.
  intros D C. assert (W : Path here (pstem p) (codes ".o") = withExt p ".o") by (unfold withExt; rewrite D; reflexivity).
  assert (N : tmpFile <> withExt p ".c") by (intros K; symmetry in K; revert K; apply ext_tmp; discriminate).
  assert (N2 : withExt p ".c" <> withExt p ".o") by (intros K; apply (f_equal pext) in K; discriminate K).
  assert (X : forall q, pstem q <> pstem p -> forall e, withExt p e <> q) by (intros q Q e <-; apply Q; reflexivity).
  unfold arg. rewrite NS, NE. destruct C as [[E (c & (x & t & X1 & X2 & X3) & X4)]|[[E (c & X1 & X2)]|[E X1]]].
  - rewrite (proj2 (hasExt_iff _ _) E), X1, X2, X3. unfold ccTo. rewrite put_other, put_same, X4 by exact N. eexists. split; [reflexivity|]. cbn [objs sF out tmps]. rewrite W.
    replace (hasExt p ".o") with false by (symmetry; apply hasExt_ne; unfold isA in *; rewrite E; discriminate).
    split; [reflexivity|]. split; [rewrite put_other by exact N2; apply put_same|]. split; [|split; [reflexivity|split; [reflexivity|intros _; apply put_same]]].
    intros q Q1 Q2. assert (tmpFile <> q) by (intros <-; apply Q2; reflexivity). rewrite !put_other; auto.
  - replace (hasExt p ".cmm") with false by (symmetry; apply hasExt_ne; unfold isA in *; rewrite E; discriminate). rewrite (proj2 (hasExt_iff _ _) E). cbn [negb andb].
    unfold ccTo. replace (withExt p ".c") with p in * by (destruct p as [d1 n1 e1]; unfold withExt, isA in *; cbn [pext pdir pstem] in *; rewrite E; reflexivity). rewrite X1, X2. eexists. split; [reflexivity|]. cbn [objs sF out tmps]. rewrite W.
    replace (hasExt p ".o") with false by (symmetry; apply hasExt_ne; unfold isA in *; rewrite E; discriminate).
    split; [reflexivity|]. split; [apply put_same|]. split; [|split; [reflexivity|split; [reflexivity|unfold isA in *; rewrite E; discriminate]]].
    intros q Q1 Q2. apply put_other. auto.
  - replace (hasExt p ".cmm") with false by (symmetry; apply hasExt_ne; unfold isA in *; rewrite E; discriminate). replace (hasExt p ".c") with false by (symmetry; apply hasExt_ne; unfold isA in *; rewrite E; discriminate).
    rewrite (proj2 (hasExt_iff _ _) E). eexists. split; [reflexivity|]. cbn [objs sF out tmps]. rewrite app_nil_r. split; [reflexivity|].
    split; [replace (withExt p ".o") with p by (destruct p as [d1 n1 e1]; unfold withExt, isA in *; cbn [pext pdir pstem] in *; rewrite E; reflexivity); exact X1|].
    split; [reflexivity|split; [reflexivity|split; [reflexivity|unfold isA in *; rewrite E; discriminate]]].
Qed.
Lemma contents_ext F G l : (forall q, In q l -> G q = F q) -> contents G l = contents F l.
Proof. induction l as [|p l IH]; intros H; cbn [contents]; [reflexivity|]. rewrite (H p (or_introl eq_refl)), IH by (intros q Q; apply H; right; exact Q). reflexivity. Qed.
Lemma contents_app F l : forall xs p o, contents F l = Some xs -> F p = Some o -> contents F (l ++ [p]) = Some (xs ++ [o]).
Proof.
  induction l as [|q l IH]; intros xs p o H E; cbn [contents app] in *.
  - injection H as <-. rewrite E. reflexivity.
  - destruct (F q); [|discriminate H]. destruct (contents F l) as [ys|]; [|discriminate H]. injection H as <-. rewrite (IH ys p o eq_refl E). reflexivity.
Qed.
Lemma contents_each F l : forall xs, contents F l = Some xs -> Forall2 (fun p o => F p = Some o) l xs.
Proof.
  induction l as [|p l IH]; intros xs H; cbn [contents] in H; [injection H as <-; constructor|].
  destruct (F p) eqn:E; [|discriminate H]. destruct (contents F l); [|discriminate H]. injection H as <-. constructor; [exact E|apply IH; reflexivity].
Qed.
Lemma compiled_ext F G p o : G p = F p -> compiled T F p o -> compiled T G p o.
Proof. unfold compiled, translated. intros ->. tauto. Qed.
Lemma compiled_tmp F p o : compiled T F p o -> ~ isA p ".tmp".
Proof. unfold compiled, isA. intros [[-> _]|[[-> _]|[-> _]]]; discriminate. Qed.
Lemma loop_ok args : forall os s xs, Forall2 (compiled T (sF s)) args os -> (forall p, In p args -> pdir p = here) -> NoDup (map pstem args) ->
  contents (sF s) (objs s) = Some xs -> (forall q, In q (objs s) -> ~ In (pstem q) (map pstem args) /\ isA q ".o") ->
  exists s', loop T f pid s args = Next s' /\ contents (sF s') (objs s') = Some (xs ++ os) /\ out s' = out s /\
    tmps s' = tmps s ++ flat_map (fun p => if hasExt p ".o" then [] else [withExt p ".o"]) args /\
    (forall q, ~ In (pstem q) (map pstem args) -> ~ isA q ".tmp" -> sF s' q = sF s q) /\
    (forall p, In p args -> isA p ".cmm" -> sF s' (withExt p ".c") = None) /\
    objs s' = objs s ++ map (fun p => withExt p ".o") args.
Proof.
  induction args as [|p r IH]; intros os s xs C D ND CT OB.
  - inversion C. exists s. cbn [map]. rewrite !app_nil_r. repeat split; auto. intros p [].
  - inversion C as [|? o ? os' Cp Cr]; subst. inversion ND as [|? ? N1 N2]; subst.
    destruct (arg_ok s p o (D p (or_introl eq_refl)) Cp) as (s1 & A & OJ & OV & FR & OU & TM & GN).
    assert (CT1 : contents (sF s1) (objs s1) = Some (xs ++ [o])).
    { rewrite OJ. apply contents_app; [|exact OV]. rewrite <- CT. apply contents_ext. intros q Q. destruct (OB q Q) as [O1 O2]. apply FR.
      - intros E. apply O1. left. symmetry. exact E.
      - unfold isA in *. rewrite O2. discriminate. }
    destruct (IH os' s1 (xs ++ [o])) as (s' & L & C' & O' & T' & F' & G' & J').
    + clear - Cr FR N1. induction Cr as [|q o' r os Cq _ IHr]; constructor; [|apply IHr; intros I; apply N1; right; exact I].
      apply (compiled_ext (sF s)); [|exact Cq]. apply FR; [|exact (compiled_tmp _ _ _ Cq)]. intros E. apply N1. left. exact E.
    + intros q Q. apply D. right. exact Q.
    + exact N2.
    + exact CT1.
    + rewrite OJ. intros q Q. apply in_app_or in Q. destruct Q as [Q|[<-|[]]].
      * destruct (OB q Q) as [O1 O2]. split; [intros I; apply O1; right; exact I|exact O2].
      * split; [exact N1|reflexivity].
    + exists s'. cbn [loop]. rewrite A. split; [exact L|]. split; [rewrite C', <- app_assoc; reflexivity|]. split; [rewrite O', OU; reflexivity|].
      split; [rewrite T', TM; cbn [flat_map]; rewrite app_assoc; reflexivity|]. split; [|split].
      * intros q Q1 Q2. rewrite F'; [apply FR; [|exact Q2]|intros I; apply Q1; right; exact I|exact Q2]. intros E. apply Q1. left. symmetry. exact E.
      * intros p' [<-|I] E; [|exact (G' p' I E)]. rewrite F'; [exact (GN E)|exact N1|discriminate].
      * rewrite J', OJ, <- app_assoc. reflexivity.
Qed.
End P.
