(* The C translator on a whole file: headers and the loop over the declarations (C65). *)
From Coq Require Import ZArith Bool Lia String Ascii List Permutation.
From Verif Require Import Lexer LexProofs NameTable NameProofs SyTree OpTree OptLabs VM VmCode Parser ParserStmt ParseSpec ParseSound ParseComplete ParseLabs ParseShow ProgInv ProgSpec ProgData ProgTop StmtSpec StmtSound StmtComplete ProgGram ProgSound DataSpec DataProofs DataParse CCode AsmText CFile CDataSpec CDataProofs CFileSpec CFileProofs CFileTop CSourceSpec CSourceRefs CSourceText CSourceSound.
Import ListNotations.
Open Scope Z_scope.

(* ---- the names of headers ---- *)
Lemma prefix_ok p : forall s, CFile.prefix p s = true <-> exists b, s = p ++ b.
Proof.
  induction p as [|a p IH]; intros s; cbn [CFile.prefix app]; [split; [exists s; reflexivity|reflexivity]|].
  destruct s as [|b s]; [split; [discriminate|intros [x H]; discriminate H]|]. rewrite andb_true_iff, Z.eqb_eq, IH. split.
  - intros [-> [x ->]]. exists x. reflexivity.
  - intros [x H]. injection H as -> ->. eauto.
Qed.
Lemma contains_ok p : forall s, CFile.contains p s = true <-> exists a b, s = a ++ p ++ b.
Proof.
  induction s as [|c s IH]; cbn [CFile.contains]; rewrite orb_true_iff, prefix_ok.
  - split; [intros [[b H]|H]; [exists [], b; exact H|discriminate H]|]. intros (a & b & H). left. destruct a; [exists b; exact H|discriminate H].
  - rewrite IH. split.
    + intros [[b H]|(a & b & ->)]; [exists [], b; exact H|exists (c :: a), b; reflexivity].
    + intros ([|x a] & b & H); [left; exists b; exact H|right]. injection H as -> ->. eauto.
Qed.
Lemma endsWith_ok s x : endsWith s x = true <-> exists a, s = a ++ x.
Proof.
  unfold endsWith. rewrite prefix_ok. split.
  - intros [b H]. exists (rev b). apply (f_equal (@rev Z)) in H. rewrite rev_involutive, rev_app_distr, rev_involutive in H. exact H.
  - intros [a ->]. exists (rev a). apply rev_app_distr.
Qed.
Lemma upTo_app c a b : ~ In c a -> CFile.upTo c (a ++ c :: b) = a.
Proof.
  induction a as [|x a IH]; intros N; cbn [app CFile.upTo]; [rewrite Z.eqb_refl; reflexivity|]. destruct (Z.eqb_spec x c) as [->|D]; [destruct N; left; reflexivity|].
  rewrite IH; [reflexivity|]. intros H. apply N. right. exact H.
Qed.
Lemma last_slash a : In 47 a -> exists d b, a = d ++ 47 :: b /\ ~ In 47 b.
Proof.
  induction a as [|x a IH]; intros H; [destruct H|]. destruct (in_dec Z.eq_dec 47 a) as [K|K].
  - destruct (IH K) as (d & b & -> & N). exists (x :: d), b. split; [reflexivity|exact N].
  - destruct H as [->|H]; [|contradiction]. exists [], a. split; [reflexivity|exact K].
Qed.
Lemma system_ok f : contains (codes "/cmmInclude/") f && endsWith f (codes ".hmm") = true <-> system f.
Proof. rewrite andb_true_iff, contains_ok, endsWith_ok. reflexivity. Qed.
Lemma system_name f : system f -> exists dir b, f = dir ++ codes "/" ++ b ++ codes ".hmm" /\ ~ In 47 b /\ baseName (firstn (List.length f - 2) f) = b ++ codes ".h".
Proof.
  intros [(x & y & E) (a & ->)]. assert (In 47 a) as K.
  { assert (In 47 (a ++ codes ".hmm")) as K by (rewrite E; apply in_or_app; right; left; reflexivity). apply in_app_or in K. destruct K as [K|K]; [exact K|].
    vm_compute in K. repeat (destruct K as [K|K]; [discriminate K|]). destruct K. }
  destruct (last_slash _ K) as (d & b & -> & N). exists d, b. split; [rewrite <- app_assoc; reflexivity|]. split; [exact N|].
  assert (forall w, firstn (List.length (w ++ codes ".hmm") - 2) (w ++ codes ".hmm") = w ++ codes ".h") as FN.
  { intros w. rewrite app_length. change (List.length (codes ".hmm")) with 4%nat. replace (List.length w + 4 - 2)%nat with (List.length w + 2)%nat by lia. rewrite firstn_app_2. reflexivity. }
  rewrite FN. unfold baseName. rewrite <- app_assoc, rev_app_distr. change ((47 :: b) ++ codes ".h") with (47 :: (b ++ codes ".h")). cbn [rev]. rewrite <- app_assoc. cbn [app].
  rewrite upTo_app; [apply rev_involutive|]. rewrite <- in_rev. intros H. apply in_app_or in H. destruct H as [H|H]; [exact (N H)|].
  vm_compute in H. repeat (destruct H as [H|H]; [discriminate H|]). destruct H.
Qed.
Lemma genDirect_text m x o : isMark m -> textOf (cps x) = Some o -> exists i h, mark m i h /\ inhib (genDirect m x) = h /\ CFile.nstr (genDirect m x) = CFile.nstr x /\ ntmp (genDirect m x) = ntmp x /\
  textOf (cps (genDirect m x)) = Some (o ++ i).
Proof.
  destruct m as [[[k ln] f] n]. unfold isMark. cbn [tokOf]. intros -> T. unfold genDirect. destruct (_ && _) eqn:S.
  - apply system_ok in S. destruct (Z.eqb_spec ln 1) as [->|D].
    + destruct (system_name _ S) as (dir & b & E & N & B). eexists _, true. split; [exact (mk_first f n dir b S E N)|]. cbn [inhib CFile.nstr ntmp cps]. do 3 (split; [reflexivity|]).
      rewrite B. erewrite textOf_snoc; [reflexivity|exact T|]. cbn [pieceText]. f_equal. rewrite <- app_assoc. reflexivity.
    + exists [], true. split; [apply mk_later; assumption|]. cbn [inhib CFile.nstr ntmp cps]. do 3 (split; [reflexivity|]). rewrite !app_nil_r. exact T.
  - exists [], false. split; [apply mk_own; intros K; apply system_ok in K; congruence|]. cbn [inhib CFile.nstr ntmp cps]. do 3 (split; [reflexivity|]). rewrite app_nil_r. exact T.
Qed.
Lemma markers_text ms : forall x o, (forall m, In m ms -> isMark m) -> textOf (cps x) = Some o -> let x' := fold_left (fun x i => genDirect i x) ms x in
  exists i, markers (inhib x) ms i (inhib x') /\ CFile.nstr x' = CFile.nstr x /\ ntmp x' = ntmp x /\ textOf (cps x') = Some (o ++ i).
Proof.
  induction ms as [|m ms IH]; intros x o M T; cbn [fold_left]; cbv zeta.
  - exists []. rewrite app_nil_r. split; [constructor|auto].
  - destruct (genDirect_text m x o (M m (or_introl eq_refl)) T) as (i & h & K & HI & NS & NT & T1).
    destruct (IH (genDirect m x) (o ++ i) (fun k H => M k (or_intror H)) T1) as (j & MS & NS2 & NT2 & T2). exists (i ++ j). split; [|split; [congruence|split; [congruence|rewrite app_assoc; exact T2]]].
    econstructor; [exact K|]. rewrite <- HI. exact MS.
Qed.

(* ---- the markers before a token ---- *)
Definition notMark (i : item) : Prop := ~ isMark i.
Lemma takeFile_marks l : forall m, In m (takeFile l) -> isMark m.
Proof. induction l as [|i l IH]; cbn [takeFile]; [intros m []|]. destruct (Z.eqb_spec (tokOf i) LxFILE) as [E|E]; [|intros m []]. intros m [<-|H]; [exact E|exact (IH m H)]. Qed.
Lemma takeFile_split l : exists r, l = takeFile l ++ r /\ clean r.
Proof.
  induction l as [|i l (r & E & C)]; cbn [takeFile]; [exists []; split; [reflexivity|exact I]|]. destruct (Z.eqb_spec (tokOf i) LxFILE) as [K|K]; [|exists (i :: l); split; [reflexivity|exact K]].
  exists r. cbn [app]. rewrite <- E. split; [reflexivity|exact C].
Qed.
Lemma takeFile_app a i b : (forall m, In m a -> isMark m) -> ~ isMark i -> takeFile (a ++ i :: b) = a.
Proof.
  intros A N. induction a as [|x a IH]; cbn [app takeFile].
  - destruct (Z.eqb_spec (tokOf i) LxFILE); [contradiction|reflexivity].
  - rewrite (proj2 (Z.eqb_eq _ _) (A x (or_introl eq_refl))), IH; [reflexivity|]. intros m H. apply A. right. exact H.
Qed.
Lemma marks_isMark all r m : In m (marks all r) -> isMark m.
Proof. unfold marks. rewrite <- in_rev. apply takeFile_marks. Qed.
Lemma marks_app a r : marks (a ++ r) r = rev (takeFile (rev a)).
Proof. unfold marks. rewrite app_length. replace (List.length a + List.length r - List.length r)%nat with (List.length a) by lia. rewrite firstn_app, firstn_all, Nat.sub_diag. cbn [firstn]. rewrite app_nil_r. reflexivity. Qed.
Lemma view_marks ms : (forall m, In m ms -> isMark m) -> view ms = [].
Proof.
  induction ms as [|m ms IH]; intros M; [reflexivity|]. cbn [view]. rewrite (proj2 (Z.eqb_eq _ _) (M m (or_introl eq_refl))). apply IH. intros k K. apply M. right. exact K.
Qed.
(* the items of a declaration, and the markers after it *)
Lemma segment c : view c <> [] -> exists f e ms, c = (f ++ [e]) ++ ms /\ ~ isMark e /\ (forall m, In m ms -> isMark m) /\ view (f ++ [e]) = view c.
Proof.
  intros V. destruct (takeFile_split (rev c)) as (r & E & C). set (ms := rev (takeFile (rev c))). assert (forall m, In m ms -> isMark m) as M by (intros m; unfold ms; rewrite <- in_rev; apply takeFile_marks).
  apply (f_equal (@rev item)) in E. rewrite rev_involutive, rev_app_distr in E. fold ms in E. destruct r as [|e r].
  - cbn [rev app] in E. rewrite E, (view_marks _ M) in V. destruct V. reflexivity.
  - cbn [rev] in E. exists (rev r), e, ms. split; [exact E|]. split; [exact C|]. split; [exact M|]. rewrite E, (view_app _ ms), (view_marks _ M), app_nil_r. reflexivity.
Qed.
Lemma top_nonempty y ts : derives_top y ts -> ts <> [].
Proof. intros []; try discriminate; destruct pub; discriminate. Qed.

(* ---- the loop ---- *)
Section Top.
Variables opt krn : bool.
Variable l0 : list item.
Hypothesis ends : exists a e, l0 = a ++ [e] /\ tokOf e = EOFtok /\ forall i, In i a -> tokOf i <> EOFtok.
Lemma app_same_len (a b x y : list item) : List.length a = List.length b -> a ++ x = b ++ y -> a = b /\ x = y.
Proof.
  revert b. induction a as [|i a IH]; intros [|j b] L E; try discriminate L; [auto|]. cbn [app] in E. injection E as -> E. destruct (IH b ltac:(cbn in L; lia) E) as [-> ->]. auto.
Qed.
Lemma tails r1 r2 : tailOf r1 l0 -> tailOf r2 l0 -> (List.length r2 <= List.length r1)%nat -> tailOf r2 r1.
Proof.
  intros [a A] [b B] L. rewrite A in B. assert (List.length a <= List.length b)%nat as L2 by (apply (f_equal (@List.length item)) in B; rewrite !app_length in B; lia).
  exists (skipn (List.length a) b). rewrite <- (firstn_skipn (List.length a) b), <- app_assoc in B. apply app_same_len in B; [|rewrite firstn_length; lia]. exact (proj2 B).
Qed.
Lemma y_transLoop F : forall g x g' x' o, rest g -> INV opt krn l0 (g, x) -> its (ge g) <> [] -> textOf (cps x) = Some o -> transLoop opt krn l0 F g x = POk (g', x') ->
  exists p i T, layout (inhib x) (marks l0 (its (ge g)) ++ its (ge g)) p i /\ trFile opt krn (stateC g x o) p T /\ textOf (cps x') = Some (cO T ++ i).
Proof.
  induction F as [|F IH]; intros g x g' x' o R IV NE TX H; [discriminate H|]. cbn [transLoop] in H.
  destruct (markers_text (marks l0 (its (ge g))) x o (marks_isMark _ _) TX) as (i & MS & NS & NT & T1). cbv zeta in *.
  assert (INV opt krn l0 (g, fold_left (fun x i => genDirect i x) (marks l0 (its (ge g))) x)) as IV1.
  { destruct IV as (T & ss & LI & XX). split; [exact T|]. exists ss. split; [exact LI|]. cbn [fst snd] in *. clear - XX. generalize (marks l0 (its (ge g))) as ms. intros ms. revert x XX.
    induction ms as [|m ms IHm]; intros x XX; cbn [fold_left]; [exact XX|]. apply IHm. apply genDirect_XS. exact XX. }
  set (x1 := fold_left _ _ x) in *. clearbody x1.
  pose proof (i_its _ _ _ _ (proj1 IV1)) as TL. cbn [fst] in TL. destruct ends as (a & e & EL & EE & EA).
  destruct (its (ge g)) as [|i0 r0] eqn:EI; [contradiction|]. destruct (Z.eqb_spec (gtok g) EOFtok) as [TE|TE].
  - injection H as <- <-. unfold gtok, tok in TE. rewrite EI in TE.
    assert (r0 = []) as ->.
    { destruct TL as [b TL]. rewrite EL in TL. destruct r0 as [|j r0] using rev_ind; [reflexivity|]. exfalso. rewrite app_comm_cons, app_assoc in TL. apply app_inj_tail in TL. destruct TL as [TL _].
      apply (EA i0); [rewrite TL; apply in_or_app; right; left; reflexivity|exact TE]. }
    exists [], i, (stateC g x o). split; [exact (ly_end _ _ _ _ _ MS TE)|]. split; [constructor|exact T1].
  - destruct (getProgC opt krn g x1) as [[g2 x2]| | |] eqn:E2; cbn [pbind] in H; try discriminate H.
    pose proof (ac_get _ _ _ (ac_getProgC opt krn l0 g x1 IV1) E2) as IV2. pose proof (i_its _ _ _ _ (proj1 IV2)) as TL2. cbn [fst] in TL2.
    destruct (y_getProg opt krn _ _ _ _ _ R T1 E2) as (R2 & IN2 & o2 & TX2 & y & ts & V & DT & TT). unfold vgot in V. rewrite EI in V.
    assert (tailOf (its (ge g2)) (i0 :: r0)) as [c C].
    { apply tails; [exact TL|exact TL2|]. destruct (Nat.le_gt_cases (List.length (its (ge g2))) (List.length (i0 :: r0))) as [L|L]; [exact L|exfalso].
      destruct (tails _ _ TL2 TL ltac:(lia)) as [b B]. rewrite B, view_app in V. apply (f_equal (@List.length stok)) in V. rewrite !app_length in V.
      pose proof (top_nonempty _ _ DT). destruct ts; [contradiction|]. cbn [List.length] in V. lia. }
    rewrite C, view_app in V. apply app_inv_tail in V.
    assert (its (ge g2) <> []) as NE2.
    { intros E. rewrite E, app_nil_r in C. destruct TL as [b TL]. rewrite EL, C in TL. destruct c as [|z c _] using rev_ind; [discriminate C|]. rewrite app_assoc in TL. apply app_inj_tail in TL. destruct TL as [_ TL]. subst z.
      pose proof (noeof_top _ _ DT) as NO. rewrite <- V, view_app, noeof_app in NO. cbn [view] in NO. rewrite EE in NO. change (EOFtok =? LxFILE) with false in NO. cbn iota in NO. rewrite (proj2 (own_eof e) EE) in NO.
      rewrite noeof_sym in NO. cbn in NO. rewrite andb_false_r in NO. discriminate NO. }
    destruct (segment c) as (f & z & ms & EC & NZ & MM & VF). { rewrite V. exact (top_nonempty _ _ DT). }
    assert (marks l0 (its (ge g2)) = ms) as EM.
    { destruct TL as [b TL]. rewrite TL, C, EC, app_assoc, marks_app. rewrite !rev_app_distr. cbn [rev app]. rewrite <- app_assoc. cbn [app].
      rewrite takeFile_app; [apply rev_involutive| |exact NZ]. intros m M. apply MM. rewrite in_rev. exact M. }
    destruct (IH g2 x2 g' x' o2 R2 IV2 NE2 TX2 H) as (p & j & T & LY & TF & TX'). rewrite IN2 in LY. rewrite EM in LY.
    exists ((i, inhib x1, y) :: p), j, T. split; [|split; [|exact TX']].
    + assert (i0 :: r0 = (f ++ [z]) ++ ms ++ its (ge g2)) as EQ by (rewrite C, EC, <- app_assoc; reflexivity). rewrite EQ at 2. apply (ly_top _ _ _ _ f (f ++ [z]) z); [exact MS| |exact NZ|reflexivity|rewrite VF, V; exact DT|exact LY].
      intros q Q. destruct R as ((GD & _) & _). destruct GD as [CL _]. rewrite EI in CL. cbn [clean] in CL. rewrite EC in C.
      unfold isMark. destruct f as [|f0 f]; cbn [app hd_error] in Q, C; injection Q as Q; injection C as C C'; rewrite <- Q, <- C; exact CL.
    + unfold stateC at 1. econstructor; [|exact TF]. unfold stateC at 1 in TT. rewrite NS, NT in TT. exact TT.
Qed.
End Top.

Theorem translate_sound opt krn file l text : lexAll file = LOk l -> unmarked l -> translate opt krn file = Some text ->
  exists p i T, layout false l p i /\ trFile opt krn cenv0 p T /\ text = cO T ++ i.
Proof.
  intros LX U H. unfold translate, pieces in H. rewrite LX in H. destruct (transLoop opt krn l _ (gInit l) _) as [[g x]| | |] eqn:E; try discriminate H.
  assert (rest (gInit l)) as R. { split; [split; [apply (good_init l 0 []), (lexAll_steady _ _ LX U)|constructor]|]. cbn. split; [lia|reflexivity]. }
  destruct (lexAllF_end _ _ _ LX) as (a & e & EL & EE & EA).
  assert (exists q, l = q ++ skipFile l /\ (forall m, In m q -> isMark m)) as (q & EQ & MQ).
  { clear. induction l as [|i l (q & E & M)]; [exists []; split; [reflexivity|intros m []]|]. cbn [skipFile]. destruct (Z.eqb_spec (tokOf i) LxFILE) as [K|K]; [|exists []; split; [reflexivity|intros m []]].
    exists (i :: q). cbn [app]. rewrite <- E. split; [reflexivity|]. intros m [<-|H]; [exact K|exact (M m H)]. }
  assert (marks l (skipFile l) = q) as MK.
  { rewrite EQ at 1. rewrite marks_app. assert (takeFile (rev q) = rev q) as T; [|rewrite T; apply rev_involutive]. assert (forall m, In m (rev q) -> isMark m) as M by (intros m; rewrite <- in_rev; apply MQ).
    clear - M. revert M. generalize (rev q) as r. intros r M. induction r as [|i r IH]; [reflexivity|]. cbn [takeFile]. rewrite (proj2 (Z.eqb_eq _ _) (M i (or_introl eq_refl))), IH; [reflexivity|]. intros k K. apply M. right. exact K. }
  destruct (y_transLoop opt krn l (ex_intro _ a (ex_intro _ e (conj EL (conj EE EA)))) (S (List.length l)) (gInit l) (CSt [] false 0 0) g x [] R) as (p & i & T & LY & TF & TX).
  - split; [apply TI_init|]. exists []. split; [split; reflexivity|]. constructor; cbn [cps CFile.nstr ntmp snd].
    + split; [reflexivity|lia].
    + constructor.
    + split; [reflexivity|lia].
    + intros [|y b] p c X; discriminate X.
  - cbn [gInit ge its]. intros K. assert (~ isMark e) as NM by (unfold isMark; rewrite EE; discriminate). apply NM, MQ. rewrite K, app_nil_r in EQ. rewrite <- EQ, EL. apply in_or_app. right. left. reflexivity.
  - reflexivity.
  - exact E.
  - exists p, i, T. cbn [gInit ge its inhib] in LY. rewrite MK, <- EQ in LY. split; [exact LY|]. split; [exact TF|]. rewrite TX in H. injection H as <-. reflexivity.
Qed.
