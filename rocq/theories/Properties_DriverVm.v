(* C76: the drivers cm2v and cm2i. *)
From Coq Require Import ZArith Bool Lia String List.
From Verif Require Import Lexer CCode DriverSpec Driver DriverVm.
Import ListNotations.
Open Scope Z_scope.

Lemma put_eq F p v : put F p v p = v.
Proof. unfold put. destruct (path_dec p p); congruence. Qed.
Lemma put_neq F p v q : p <> q -> put F p v q = F q.
Proof. unfold put. intros N. destruct (path_dec p q); congruence. Qed.
Lemma ext_spec p e : if hasExt p e then isA p e else ~ isA p e.
Proof. unfold hasExt, isA. destruct (list_eq_dec _ _ _); auto. Qed.

(* ==== specification ==== *)
(* the text that the preprocessor makes of a source *)
Definition preprocessed (T : tools) (F : files) (p : path) (t : list Z) : Prop :=
  exists s, F p = Some s /\ cpp T s = Some t.
Definition output (e : string) (args : list path) (q : path) : Prop :=
  exists p, In p args /\ isA p ".cmm" /\ q = withExt p e.

Section Spec.
Variable T : tools.
Variable e : string.
Hypothesis ext : e = ".v"%string \/ e = ".i"%string.
Variable pid : list Z.
Let tmp := Path here pid (codes ".tmp").

Lemma ext_ne : codes e <> codes ".cmm" /\ codes e <> codes ".tmp".
Proof. destruct ext as [-> | ->]; split; discriminate. Qed.
Lemma src_out p q : isA p ".cmm" -> withExt q e <> p.
Proof. intros A E. destruct ext_ne as [N _]. apply N. rewrite <- A, <- E. reflexivity. Qed.
Lemma src_tmp p : isA p ".cmm" -> tmp <> p.
Proof. intros A E. unfold isA in A. rewrite <- E in A. discriminate A. Qed.
Lemma out_tmp q : withExt q e <> tmp.
Proof. intros E. destruct ext_ne as [_ N]. apply N. exact (f_equal pext E). Qed.

(* one argument: sources stay; the loop sees what the first file system has *)
Definition kept (F G : files) : Prop := forall p, isA p ".cmm" -> G p = F p.
Lemma vArg_kept ef F o p : kept F (snd (fst (vArg T e ef pid F o p))).
Proof.
  intros q Q. unfold vArg. change (tmpFile pid) with tmp. pose proof (src_tmp q Q). pose proof (src_out q p Q).
  destruct (hasExt p ".cmm"); [|reflexivity].
  destruct ef; [destruct (match F p with Some x => cpp T x | None => None end); reflexivity|].
  destruct (match F p with Some x => cpp T x | None => None end) as [t|]; [|cbn; now rewrite put_neq].
  destruct (trans T t) as [c|]; cbn; rewrite !put_neq; auto.
Qed.
Lemma kept_trans F G p c : kept F G -> isA p ".cmm" -> translated T G p c <-> translated T F p c.
Proof. intros K A. unfold translated. rewrite (K p A). reflexivity. Qed.

Lemma out_inj p q : isA p ".cmm" -> isA q ".cmm" -> withExt p e = withExt q e -> p = q.
Proof. destruct p as [d1 s1 e1], q as [d2 s2 e2]. unfold isA, withExt. cbn. congruence. Qed.

(* what one argument does *)
Definition stepped (F G : files) (p : path) (b : bool) : Prop :=
  (b = true <-> isA p ".cmm" /\ exists c, translated T F p c) /\ (F tmp = None -> G tmp = None) /\
  (forall q, ~ (isA p ".cmm" /\ q = withExt p e) -> q <> tmp -> G q = F q) /\
  (b = true -> forall c, translated T F p c -> G (withExt p e) = Some c) /\
  (b = false -> G (withExt p e) = F (withExt p e) \/ G (withExt p e) = None).
Lemma vArg_ok F o p : let '(b, G, o') := vArg T e false pid F o p in o' = o /\ stepped F G p b.
Proof.
  unfold vArg, stepped. change (tmpFile pid) with tmp. pose proof (ext_spec p ".cmm") as X. pose proof (out_tmp p) as OT.
  destruct (hasExt p ".cmm").
  2:{ repeat split; auto; try discriminate. intros [A _]; contradiction. }
  assert (TR : forall c, translated T F p c <-> exists t, (match F p with Some x => cpp T x | None => None end) = Some t /\ trans T t = Some c).
  { intros c. unfold translated. split.
    - intros (s & t & -> & E1 & E2). eauto.
    - intros (t & E1 & E2). destruct (F p) as [s|]; [|discriminate]. eauto. }
  destruct (match F p with Some x => cpp T x | None => None end) as [t|].
  2:{ split; [reflexivity|]. split; [split; [discriminate|intros [_ [c C]]; apply TR in C; destruct C as (t & C & _); discriminate]|].
      split; [intros _; apply put_eq|]. split; [intros q _ N; rewrite put_neq; congruence|].
      split; [discriminate|]. intros _. left. rewrite put_neq; congruence. }
  destruct (trans T t) as [c|] eqn:TT.
  - split; [reflexivity|]. split; [split; [intros _; split; [exact X|exists c; apply TR; eauto]|reflexivity]|].
    split; [intros _; apply put_eq|].
    split; [intros q N N2; rewrite !put_neq; try congruence; intros E; apply N; auto|].
    split; [|discriminate]. intros _ c' C. apply TR in C. destruct C as (t' & C1 & C2).
    rewrite put_neq by congruence. rewrite put_eq. congruence.
  - split; [reflexivity|].
    split; [split; [discriminate|intros [_ [c C]]; apply TR in C; destruct C as (t' & C1 & C2); congruence]|].
    split; [intros _; rewrite put_neq by congruence; apply put_eq|].
    split; [intros q N N2; rewrite !put_neq; try congruence; intros E; apply N; auto|].
    split; [discriminate|]. intros _. right. apply put_eq.
Qed.

Definition done (F G : files) (args : list path) (z : Z) : Prop :=
  (z = 0 <-> forall p, In p args -> isA p ".cmm" /\ exists c, translated T F p c) /\
  (z = 0 \/ z = 1) /\
  (F tmp = None -> G tmp = None) /\
  (forall q, ~ output e args q -> q <> tmp -> G q = F q) /\
  (z = 0 -> forall p c, In p args -> translated T F p c -> G (withExt p e) = Some c) /\
  (forall p, isA p ".cmm" -> G (withExt p e) = F (withExt p e) \/ G (withExt p e) = None \/
     exists c, translated T F p c /\ G (withExt p e) = Some c).
Lemma loop_ok args : forall F o,
  let '(z, G, o') := vLoop T e false pid F o args in done F G args z /\ o' = o.
Proof.
  induction args as [|p r IH]; intros F o; cbn [vLoop].
  { split; [|reflexivity]. unfold done. split; [split; [intros _ p []|reflexivity]|]. split; [left; reflexivity|].
    split; [auto|]. split; [auto|]. split; [intros _ p c []|auto]. }
  pose proof (vArg_kept false F o p) as K. pose proof (vArg_ok F o p) as ST.
  destruct (vArg T e false pid F o p) as [[b G] o']. cbn [fst snd] in K.
  destruct ST as (-> & B & ST1 & ST2 & ST3 & ST4).
  destruct b.
  - specialize (IH G o). destruct (vLoop T e false pid G o r) as [[z H] o'].
    destruct IH as [(I1 & I2 & I3 & I4 & I5 & I6) ->]. split; [|reflexivity].
    destruct (proj1 B eq_refl) as [PA [pc PT]].
    assert (All : z = 0 -> forall q, In q r -> isA q ".cmm") by (intros Z0 x Ix; apply (proj1 I1 Z0 x Ix)).
    split; [|split; [exact I2|split; [auto|split; [|split]]]].
    + rewrite I1. split.
      * intros Q q [<-|I]; [eauto|]. destruct (Q q I) as [QA [c C]]. split; [exact QA|]. exists c. apply (kept_trans F G); auto.
      * intros Q q I. destruct (Q q (or_intror I)) as [QA [c C]]. split; [exact QA|]. exists c. apply (kept_trans F G); auto.
    + intros q N N2. rewrite I4; [apply ST2; auto| |exact N2].
      * intros [A E]. apply N. exists p. split; [left; reflexivity|auto].
      * intros (x & I & A & E). apply N. exists x. split; [right; exact I|auto].
    + intros Z0 q c I C. destruct (in_dec path_dec q r) as [Ir|Nr].
      * apply I5; auto. apply (kept_trans F G); auto.
      * destruct I as [<-|I]; [|contradiction].
        rewrite I4; [apply ST3; auto| |apply out_tmp].
        intros (x & Ix & A & Ex). apply Nr. rewrite (out_inj p x PA A Ex). exact Ix.
    + intros q A. destruct (I6 q A) as [E|[E|(c & C & E)]].
      * destruct (path_dec p q) as [<-|N]; [right; right; exists pc; split; [exact PT|rewrite E; apply ST3; auto]|].
        left. rewrite E. apply ST2; [|apply out_tmp]. intros [_ X]. apply N. symmetry. apply out_inj; auto.
      * auto.
      * right; right. exists c. split; [apply (kept_trans F G); auto|exact E].
  - split; [|reflexivity].
    assert (NB : ~ (isA p ".cmm" /\ exists c, translated T F p c)) by (intros X; apply B in X; discriminate).
    split; [|split; [auto|split; [auto|split; [|split]]]].
    + split; [discriminate|]. intros Q. exfalso. apply NB, Q. left. reflexivity.
    + intros q N N2. apply ST2; auto. intros [A E]. apply N. exists p. split; [left; reflexivity|auto].
    + discriminate.
    + intros q A. destruct (path_dec p q) as [<-|N]; [destruct (ST4 eq_refl); auto|].
      left. apply ST2; [|apply out_tmp]. intros [PA X]. apply N. symmetry. apply out_inj; auto.
Qed.

Lemma loopE_ok args : forall F o,
  let '(z, G, o') := vLoop T e true pid F o args in G = F /\
    (z = 0 <-> forall p, In p args -> isA p ".cmm" /\ exists t, preprocessed T F p t) /\
    (z = 0 -> exists ts, Forall2 (preprocessed T F) args ts /\ o' = o ++ List.concat ts).
Proof.
  induction args as [|p r IH]; intros F o; cbn [vLoop].
  { split; [reflexivity|]. split; [split; [intros _ p []|reflexivity]|]. intros _. exists []. split; [constructor|]. cbn. now rewrite app_nil_r. }
  unfold vArg. pose proof (ext_spec p ".cmm") as X. destruct (hasExt p ".cmm").
  2:{ split; [reflexivity|]. split; [split; [discriminate|intros Q; destruct (Q p (or_introl eq_refl)); contradiction]|discriminate]. }
  destruct (match F p with Some x => cpp T x | None => None end) as [t|] eqn:E.
  2:{ split; [reflexivity|]. split; [split; [discriminate|]|discriminate].
      intros Q. destruct (Q p (or_introl eq_refl)) as [_ (t & s & E1 & E2)]. rewrite E1 in E. congruence. }
  assert (P : preprocessed T F p t) by (unfold preprocessed; destruct (F p) as [s|]; [eauto|discriminate]).
  specialize (IH F (o ++ t)). destruct (vLoop T e true pid F (o ++ t) r) as [[z G] o'].
  destruct IH as (I1 & I2 & I3). split; [exact I1|]. split.
  - rewrite I2. split; [intros Q q [<-|I]; eauto|intros Q q I; apply Q; right; exact I].
  - intros Z0. destruct (I3 Z0) as (ts & F2 & ->). exists (t :: ts). split; [constructor; auto|]. cbn. now rewrite app_assoc.
Qed.
End Spec.

(* ==== C76 ==== *)
Definition tmp_of (pid : list Z) : path := Path here pid (codes ".tmp").
(* a run without -E succeeds if and only if there are arguments, all sources, and each of them is
   preprocessed and translated without an error *)
Theorem C76_status : forall T pid args F,
  (fst (fst (cm2v T false pid args F)) = 0 <->
     args <> [] /\ forall p, In p args -> isA p ".cmm" /\ exists c, translated T F p c) /\
  (fst (fst (cm2i T false pid args F)) = 0 <->
     args <> [] /\ forall p, In p args -> isA p ".cmm" /\ exists c, translated T F p c).
Proof.
  intros T pid args F. unfold cm2v, cm2i, cm2x. destruct args as [|p r].
  { split; (split; [discriminate|intros [N _]; congruence]). }
  split.
  - pose proof (loop_ok T ".v" (or_introl eq_refl) pid (p :: r) F []) as L.
    destruct (vLoop _ _ _ _ _ _ _) as [[z G] o]. destruct L as [(L & _) _]. cbn [fst]. rewrite L.
    split; [intros Q; split; [discriminate|exact Q]|intros [_ Q]; exact Q].
  - pose proof (loop_ok T ".i" (or_intror eq_refl) pid (p :: r) F []) as L.
    destruct (vLoop _ _ _ _ _ _ _) as [[z G] o]. destruct L as [(L & _) _]. cbn [fst]. rewrite L.
    split; [intros Q; split; [discriminate|exact Q]|intros [_ Q]; exact Q].
Qed.
Lemma cm2x_done T e pid args F : e = ".v"%string \/ e = ".i"%string ->
  forall z G o, cm2x T e false pid args F = (z, G, o) -> args <> [] -> done T e pid F G args z /\ o = [].
Proof.
  intros X z G o H N. unfold cm2x in H. destruct args as [|p r]; [congruence|].
  pose proof (loop_ok T e X pid (p :: r) F []) as L. rewrite H in L. exact L.
Qed.
(* then each translation stands beside its source, the other files are as they were, and the
   temporary file is gone *)
Theorem C76_made : forall T e pid args F G o, e = ".v"%string \/ e = ".i"%string ->
  cm2x T e false pid args F = (0, G, o) ->
  (forall p c, In p args -> translated T F p c -> G (withExt p e) = Some c) /\
  (forall q, ~ output e args q -> q <> tmp_of pid -> G q = F q) /\
  (F (tmp_of pid) = None -> G (tmp_of pid) = None).
Proof.
  intros T e pid args F G o X H. destruct args as [|p r]; [discriminate H|].
  destruct (cm2x_done T e pid (p :: r) F X _ _ _ H) as [(_ & _ & D3 & D4 & D5 & _) _]; [discriminate|]. auto.
Qed.
(* a run that fails leaves the other files as they were too, no temporary file, and no output
   that is not the whole translation of its source or was there before *)
Theorem C76_failed : forall T e pid args F z G o, e = ".v"%string \/ e = ".i"%string ->
  cm2x T e false pid args F = (z, G, o) -> z <> 0 -> z = 1 /\
  (forall p, isA p ".cmm" -> G (withExt p e) = F (withExt p e) \/ G (withExt p e) = None \/
     exists c, translated T F p c /\ G (withExt p e) = Some c) /\
  (forall q, ~ output e args q -> q <> tmp_of pid -> G q = F q) /\
  (F (tmp_of pid) = None -> G (tmp_of pid) = None).
Proof.
  intros T e pid args F z G o X H NZ. destruct args as [|p r].
  { cbn in H. assert (z = 1 /\ G = F) by (split; congruence). destruct H0 as [-> ->]. auto. }
  destruct (cm2x_done T e pid (p :: r) F X _ _ _ H) as [(_ & D2 & D3 & D4 & _ & D6) _]; [discriminate|].
  split; [destruct D2; congruence|]. auto.
Qed.
(* -E changes no file; if it succeeds it prints what the preprocessor makes of the sources, in
   their order *)
Theorem C76_preprocess : forall T e pid args F z G o,
  cm2x T e true pid args F = (z, G, o) -> G = F /\
  (z = 0 <-> args <> [] /\ forall p, In p args -> isA p ".cmm" /\ exists t, preprocessed T F p t) /\
  (z = 0 -> exists ts, Forall2 (preprocessed T F) args ts /\ o = List.concat ts).
Proof.
  intros T e pid args F z G o H. unfold cm2x in H. destruct args as [|p r].
  { assert (z = 1 /\ G = F) by (split; congruence). destruct H0 as [-> ->].
    split; [reflexivity|]. split; [split; [discriminate|intros [N _]; congruence]|discriminate]. }
  pose proof (loopE_ok T e pid (p :: r) F []) as L. rewrite H in L. destruct L as (L1 & L2 & L3).
  split; [exact L1|]. split; [|exact L3]. rewrite L2.
  split; [intros Q; split; [discriminate|exact Q]|intros [_ Q]; exact Q].
Qed.
Print Assumptions C76_status.
Print Assumptions C76_made.
Print Assumptions C76_failed.
Print Assumptions C76_preprocess.

(* tools that fail on the empty text *)
Definition T76 : tools := Tools (fun s => Some (s ++ [10])) (fun t => match t with [10] => None | _ => Some (0 :: t) end)
  (fun _ => None) (fun _ => None).
Definition a76 : path := Path here (codes "a") (codes ".cmm").
Definition b76 : path := Path here (codes "b") (codes ".cmm").
Definition F76 (x : list Z) : files := fun p => if path_dec p a76 then Some [5] else if path_dec p b76 then Some x else None.
Example C76_inhabited :
  fst (fst (cm2v T76 false [49] [a76; b76] (F76 [7]))) = 0 /\
  snd (fst (cm2v T76 false [49] [a76; b76] (F76 [7]))) (withExt b76 ".v") = Some [0; 7; 10] /\
  fst (fst (cm2i T76 false [49] [a76; b76] (F76 []))) = 1 /\
  snd (fst (cm2i T76 false [49] [a76; b76] (F76 []))) (withExt a76 ".i") = Some [0; 5; 10] /\
  cm2x T76 ".v" true [49] [a76; b76] (F76 []) = (0, F76 [], [5; 10; 10]).
Proof. repeat split. Qed.
