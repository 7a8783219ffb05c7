(* The optimiser and the code generator refer to no strings, variables, objects or functions
   but those of the tree. *)
From Coq Require Import ZArith Bool Lia List.
From Verif Require Import SyTree OpTree ExprSem OptSpec OptFold VM VmCode VmBase GenLabels ParseLabs.
Import ListNotations.
Open Scope Z_scope.

Ltac inc := cbn [refsL refsE refsL refsS app]; let x := fresh in let H := fresh in intros x H; rewrite ?app_nil_r, ?in_app_iff in *; cbn [In app] in *; rewrite ?in_app_iff in *; tauto.

Lemma incl_cons2 {A} (x : A) a b : incl a b -> incl (x :: a) (x :: b).
Proof. intros H y [E|E]; [left; exact E|right; exact (H y E)]. Qed.

(* ---- optimiser ---- *)
Lemma isCnstN_cnst e v : isCnstN e v = true -> exists u, e = Cnst u.
Proof. destruct e as [|[]| | |]; try discriminate. eauto. Qed.
Lemma opt1_labs o l : incl (refsE (opt1 o l)) (refsE l).
Proof. unfold opt1. destruct l as [|[]| | |]; try (cbn [refsL refsE]; apply incl_refl). destruct o; cbn [refsL refsE setBool]; apply incl_refl. Qed.
Lemma mask_labs e : refsE (maskC e) = refsE e.
Proof. destruct e as [|[]| | |]; reflexivity. Qed.
Lemma setBool_labs b : refsE (setBool b) = [].
Proof. destruct b; reflexivity. Qed.
Ltac ifsplit := repeat match goal with
  | |- context [if ?c then _ else _] => destruct c
  end.
Lemma opt2_labs o l r e : opt2 o l r = Ok e -> incl (refsE e) (refsE l ++ refsE r).
Proof.
  assert (forall a b : expr, match a, b with Cnst _, Cnst _ => True | _, _ => True end) as _ by (intros [|[]| | |] [|[]| | |]; exact I).
  unfold opt2. intros H. destruct o; try (injection H as <-; cbn [refsL refsE]; apply incl_refl).
  all: try (injection H as <-; unfold optAdd, optSub, optBAnd, optBOr, optBXor, optMul, optCmp, optOr, optAnd;
    destruct l as [|[]| | |], r as [|[]| | |]; cbn [refsL refsE isCnstN setBool orb]; ifsplit; cbn [refsL refsE app]; inc).
  - unfold optShl in H. destruct r as [|[]| | |]; try (injection H as <-; inc); ifsplit; try discriminate H.
    destruct (_ || _); [discriminate|]. destruct (isCnstN _ _); [injection H as <-; inc|]. destruct l as [|[]| | |]; injection H as <-; inc.
  - unfold optShr in H. destruct r as [|[]| | |]; try (injection H as <-; inc).
    destruct (_ || _); [discriminate|]. destruct (isCnstN _ _); [injection H as <-; inc|]. destruct l as [|[]| | |]; injection H as <-; inc.
  - unfold optDiv in H. destruct (isCnstN r 0); [discriminate|]. destruct l as [|[]| | |], r as [|[]| | |]; try (destruct (isCnstN _ _)); injection H as <-; inc.
  - unfold optMod in H. destruct (isCnstN r 0); [discriminate|]. destruct l as [|[]| | |], r as [|[]| | |]; try (destruct (isCnstN _ _)); injection H as <-; inc.
  - injection H as <-. unfold optOr. destruct (_ || _); [rewrite setBool_labs; inc|]. destruct (isCnstN l 0); [inc|]. destruct (isCnstN r 0); inc.
  - injection H as <-. unfold optAnd. destruct (_ || _); [rewrite setBool_labs; inc|]. destruct (isCnstN l 1); [inc|]. destruct (isCnstN r 1); inc.
Qed.
Ltac ob H := match type of H with bind ?x _ = Ok _ => let E := fresh "E" in destruct x eqn:E; cbn [bind] in H; [|discriminate H] end.
Lemma calExp_labs e : forall e', calExp e = Ok e' -> incl (refsE e') (refsE e).
Proof.
  induction e as [|k|o a IH|o l IHl r IHr|f a IH]; intros e' H; cbn [calExp] in H.
  - discriminate.
  - destruct k; injection H as <-; apply incl_refl.
  - ob H. injection H as <-. rewrite mask_labs. cbn [refsL refsE]. eapply incl_tran; [apply opt1_labs|]. apply IH. reflexivity.
  - ob H. ob H. ob H. injection H as <-. rewrite mask_labs. eapply incl_tran; [apply (opt2_labs _ _ _ _ E1)|]. cbn [refsL refsE].
    apply incl_app_app; [apply IHl|apply IHr]; reflexivity.
  - assert (forall x, (a' <- calExp a ;; Ok (EFunc f a')) = Ok x -> incl (refsE x) (refsE (EFunc f a))) as G.
    { intros x Hx. ob Hx. injection Hx as <-. cbn [refsL refsE]. apply incl_cons2, IH. reflexivity. }
    destruct a; try (apply G; exact H). injection H as <-. apply incl_refl.
Qed.
Lemma moveLeft_labs e : incl (refsE (moveLeft e)) (refsE e) /\ forall o a, incl (refsE (pull o a e)) (refsE a ++ refsE e).
Proof.
  induction e as [|k|o a [IH _]|o l [IHl Pl] r [IHr Pr]|f a [IH _]].
  - split; [apply incl_refl|]. intros; cbn [pull refsE]; apply incl_refl.
  - split; [apply incl_refl|]. intros; cbn [pull refsE]; apply incl_refl.
  - split; [exact IH|]. intros; cbn [pull refsE]. apply incl_app_app; [apply incl_refl|exact IH].
  - split.
    + cbn [moveLeft refsE]. eapply incl_tran; [apply Pr|]. apply incl_app_app; [exact IHl|apply incl_refl].
    + intros o' a. cbn [pull]. destruct (canPull o' o).
      * eapply incl_tran; [apply Pr|]. cbn [refsL refsE]. rewrite app_assoc. apply incl_app_app; [apply Pl|apply incl_refl].
      * cbn [refsL refsE]. apply incl_app_app; [apply incl_refl|]. eapply incl_tran; [apply Pr|]. apply incl_app_app; [exact IHl|apply incl_refl].
  - split; [apply incl_cons2; exact IH|]. intros; cbn [pull refsE]. apply incl_app_app; [apply incl_refl|apply incl_cons2; exact IH].
Qed.
Lemma pushC_labs op c : forall l, incl (refsE (pushC op l c)) (refsE l ++ refsE c).
Proof.
  induction l as [|k|o a IH|o x IHx a IHa|f a IH]; cbn [pushC]; try (cbn [refsL refsE]; apply incl_refl).
  destruct (_ && _). { cbn [refsL refsE]. intros y Hy. apply in_app_or in Hy. rewrite !in_app_iff. destruct Hy as [Hy|Hy]; [apply IHx in Hy; rewrite in_app_iff in Hy|]; intuition. }
  destruct (op2_eqb _ _); cbn [refsL refsE]; inc.
Qed.
Lemma moveCnst_labs o l r : incl (refsE (moveCnst o l r)) (refsE l ++ refsE r).
Proof.
  unfold moveCnst. assert (incl (refsE (snd (normSub o r))) (refsE r)) as N.
  { unfold normSub. destruct o; try apply incl_refl. destruct r as [|[]| | |]; try apply incl_refl. }
  destruct (normSub o r) as [o' r']. cbn [snd] in N. destruct (_ && _).
  - eapply incl_tran; [apply pushC_labs|]. apply incl_app_app; [apply incl_refl|exact N].
  - cbn [refsL refsE]. apply incl_app_app; [apply incl_refl|exact N].
Qed.
Lemma arrExp_labs e : forall e', arrExp e = Ok e' -> incl (refsE e') (refsE e).
Proof.
  induction e as [|k|o a IH|o l IHl r IHr|f a IH]; intros e' H; cbn [arrExp] in H.
  - discriminate.
  - apply (calExp_labs _ _ H).
  - ob H. apply calExp_labs in H. eapply incl_tran; [exact H|]. cbn [refsL refsE]. apply IH. reflexivity.
  - ob H. ob H. apply calExp_labs in H. eapply incl_tran; [exact H|]. eapply incl_tran; [apply moveCnst_labs|]. cbn [refsL refsE].
    apply incl_app_app; [apply IHl|apply IHr]; reflexivity.
  - assert (forall x, (a' <- arrExp a ;; calExp (EFunc f a')) = Ok x -> incl (refsE x) (refsE (EFunc f a))) as G.
    { intros x Hx. ob Hx. apply calExp_labs in Hx. eapply incl_tran; [exact Hx|]. cbn [refsL refsE]. apply incl_cons2, IH. reflexivity. }
    destruct a; try (apply G; exact H). apply (calExp_labs _ _ H).
Qed.
Lemma optExp_labs e e' : optExp e = Ok e' -> incl (refsE e') (refsE e).
Proof.
  unfold optExp. intros H.
  assert (forall x, arrExp (moveLeft e) = Ok x -> incl (refsE x) (refsE e)) as G.
  { intros x Hx. eapply incl_tran; [exact (arrExp_labs _ _ Hx)|apply moveLeft_labs]. }
  destruct e; try (apply G; exact H). injection H as <-. apply incl_refl.
Qed.
Lemma copy_labs s : refsS (copyStmt s) = refsS s.
Proof. destruct s; reflexivity. Qed.
Lemma copy_escapes s : escapes (copyStmt s) = escapes s.
Proof. destruct s; reflexivity. Qed.

(* statements without do .. while *)
Fixpoint noDo (s : stmt) : bool :=
  match s with
  | SDo _ _ => false
  | SIf _ b | SWhl _ b _ => noDo b
  | SEls _ a b | SSemi a b | SBlk a b => noDo a && noDo b
  | _ => true
  end.
Lemma optTree_labs s : forall s', optTree s = Ok s' -> incl (refsS s') (refsS s).
Proof.
  assert (forall (a b c d : list ref), incl a c -> incl b d -> incl (a ++ b) (c ++ d)) as AA by (intros; apply incl_app_app; assumption).
  induction s as [|e|i|e b IHb|e b1 IH1 b2 IH2|e b IHb re|b IHb e| | |e|l IHl r IHr|l IHl r IHr]; intros s' H; cbn [optTree] in H;
    try (injection H as <-; apply incl_refl).
  - ob H. injection H as <-. exact (optExp_labs _ _ E).
  - ob H. pose proof (optExp_labs _ _ E) as C.
    assert (forall x, (b' <- optTree b ;; Ok (SIf a b')) = Ok x -> incl (refsS x) (refsS (SIf e b))) as G.
    { intros x Hx. ob Hx. injection Hx as <-. cbn [refsS]. apply AA; [exact C|]. apply IHb. reflexivity. }
    destruct a as [|[]| | |]; try (apply G; exact H). destruct (getBool v).
    + ob H. injection H as <-. rewrite copy_labs. cbn [refsS]. apply incl_appr. apply IHb. reflexivity.
    + injection H as <-. apply incl_nil_l.
  - ob H. pose proof (optExp_labs _ _ E) as C.
    assert (forall x, (b2' <- optTree b2 ;; b1' <- optTree b1 ;; Ok (SEls a b1' b2')) = Ok x -> incl (refsS x) (refsS (SEls e b1 b2))) as G.
    { intros x Hx. ob Hx. ob Hx. injection Hx as <-. cbn [refsS]. apply AA; [exact C|]. apply AA; [apply IH1|apply IH2]; reflexivity. }
    destruct a as [|[]| | |]; try (apply G; exact H). destruct (getBool v).
    + ob H. injection H as <-. rewrite copy_labs. cbn [refsS]. apply incl_appr, incl_appl. apply IH1. reflexivity.
    + ob H. injection H as <-. rewrite copy_labs. cbn [refsS]. apply incl_appr, incl_appr. apply IH2. reflexivity.
  - ob H. pose proof (optExp_labs _ _ E) as C.
    assert (forall c x, incl (refsE c) (refsE e) -> (b' <- optTree b ;; re' <- optExp re ;; Ok (SWhl c b' re')) = Ok x -> incl (refsS x) (refsS (SWhl e b re))) as G.
    { intros c x Hc Hx. ob Hx. ob Hx. injection Hx as <-. cbn [refsS]. apply AA; [exact Hc|]. apply AA; [apply IHb; reflexivity|]. exact (optExp_labs _ _ E1). }
    destruct a as [|[]| | |]; try (apply (G _ _ C); exact H). destruct (getBool v).
    + apply (G ENull); [apply incl_nil_l|exact H].
    + injection H as <-. apply incl_nil_l.
  - ob H. pose proof (optExp_labs _ _ E) as C. ob H.
    assert (incl (refsS a0) (refsS b)) as B by (apply IHb; reflexivity).
    destruct a as [|[]| | |]; try (injection H as <-; cbn [refsS]; apply AA; assumption). destruct (getBool v); injection H as <-.
    + cbn [refsS refsE app]. rewrite app_nil_r. apply incl_appl. exact B.
    + rewrite copy_labs. cbn [refsS]. apply incl_appl. exact B.
  - ob H. injection H as <-. exact (optExp_labs _ _ E).
  - ob H. ob H. injection H as <-. cbn [refsS]. apply AA; [apply IHl|apply IHr]; reflexivity.
  - ob H. ob H. injection H as <-. cbn [refsS]. apply AA; [apply IHl|apply IHr]; reflexivity.
Qed.
Lemma optTree_escapes s : forall s', noDo s = true -> optTree s = Ok s' -> escapes s' = true -> escapes s = true.
Proof.
  induction s as [|e|i|e b IHb|e b1 IH1 b2 IH2|e b IHb re|b IHb e| | |e|l IHl r IHr|l IHl r IHr]; intros s' D H X; cbn [optTree] in H; cbn [noDo] in D;
    try (injection H as <-; exact X); try discriminate D.
  - ob H. injection H as <-. exact X.
  - ob H. assert (forall x, (b' <- optTree b ;; Ok (SIf a b')) = Ok x -> escapes x = true -> escapes b = true) as G.
    { intros x Hx Y. ob Hx. injection Hx as <-. apply (IHb a0); auto. }
    cbn [escapes]. destruct a as [|[]| | |]; try (apply (G _ H X)). destruct (getBool v); [|injection H as <-; discriminate X].
    ob H. injection H as <-. rewrite copy_escapes in X. apply (IHb a); auto.
  - apply andb_prop in D. destruct D as [D1 D2]. ob H. cbn [escapes].
    assert (forall x, (b2' <- optTree b2 ;; b1' <- optTree b1 ;; Ok (SEls a b1' b2')) = Ok x -> escapes x = true -> escapes b1 || escapes b2 = true) as G.
    { intros x Hx Y. ob Hx. ob Hx. injection Hx as <-. cbn [escapes] in Y. apply orb_prop in Y. apply orb_true_intro.
      destruct Y as [Y|Y]; [left; apply (IH1 a1)|right; apply (IH2 a0)]; auto. }
    destruct a as [|[]| | |]; try (apply (G _ H X)). apply orb_true_intro. destruct (getBool v).
    + ob H. injection H as <-. rewrite copy_escapes in X. left. apply (IH1 a); auto.
    + ob H. injection H as <-. rewrite copy_escapes in X. right. apply (IH2 a); auto.
  - ob H. assert (forall c x, (b' <- optTree b ;; re' <- optExp re ;; Ok (SWhl c b' re')) = Ok x -> escapes x = true -> False) as G.
    { intros c x Hx Y. ob Hx. ob Hx. injection Hx as <-. discriminate Y. }
    destruct a as [|[]| | |]; try (destruct (G _ _ H X)). destruct (getBool v); [destruct (G _ _ H X)|injection H as <-; discriminate X].
  - ob H. injection H as <-. exact X.
  - apply andb_prop in D. destruct D as [D1 D2]. ob H. ob H. injection H as <-. cbn [escapes] in *. apply orb_prop in X. apply orb_true_intro.
    destruct X as [X|X]; [left; apply (IHl a)|right; apply (IHr a0)]; auto.
  - apply andb_prop in D. destruct D as [D1 D2]. ob H. ob H. injection H as <-. cbn [escapes] in *. apply orb_prop in X. apply orb_true_intro.
    destruct X as [X|X]; [left; apply (IHl a)|right; apply (IHr a0)]; auto.
Qed.

(* ---- code generator ---- *)
(* what an instruction refers to *)
Definition refsI (i : instr) : list ref :=
  match i with
  | ILdLab l => [RStr l]
  | ILdGlb i | IStGlb i => [RGlb i]
  | ILdNam i => [RAddr i]
  | ILdLoc i | IStLoc i => [RLoc i]
  | ILdPrm i | IStPrm i => [RPrm i]
  | ICallF _ f | ICallP _ f => [RFun f]
  | _ => []
  end.
Definition loads (p : code) : list ref := flat_map refsI p.
Lemma loads_app a b : loads (a ++ b) = loads a ++ loads b.
Proof. apply flat_map_app. Qed.
Lemma loads_printLab l : loads (printLab l) = [].
Proof. unfold printLab. destruct (_ =? _); reflexivity. Qed.

Section G.
Variable N : names.
Notation genB := (genB N). Notation genL := (genL N).
Definition placeRefs (p : place) : list ref :=
  match p with STR l => [RStr l] | GVAR i => [RGlb i] | LVAR i => [RLoc i] | PRM i => [RPrm i] | LABL i => [RAddr i] | _ => [] end.
Definition Bl (e : expr) := forall n c p n', genB e n = Some (c, p, n') -> incl (loads c ++ placeRefs p) (refsE e).
Definition Ll (e : expr) := forall lf a b n c a' b' n', genL e lf a b n = Some (c, a', b', n') -> incl (loads c) (refsE e).
Definition Al (e : expr) := forall n c k n', genArgs genB e n = Some (c, k, n') -> incl (loads c) (refsE e).
Lemma load_labs p c : load p = Some c -> loads c = placeRefs p.
Proof. destruct p; intros H; try discriminate H; injection H as <-; reflexivity. Qed.
Lemma store_labs p c : store p = Some c -> loads c = placeRefs p.
Proof. destruct p; intros H; try discriminate H; injection H as <-; reflexivity. Qed.
Lemma pop_labs p : loads (pop p) = [].
Proof. destruct p; reflexivity. Qed.
Lemma toE_labs e : Bl e -> forall n c n', toE (genB e) n = Some (c, n') -> incl (loads c) (refsE e).
Proof.
  intros H n c n' E. unfold toE in E. destruct (genB e n) as [[[c1 p] n1]|] eqn:G; [|discriminate].
  destruct (load p) as [ld|] eqn:L; [|discriminate]. injection E as <- <-. rewrite loads_app, (load_labs _ _ L). exact (H _ _ _ _ G).
Qed.
Lemma boolJmp_labs tf l n c l' n' : boolJmp tf l n = (c, l', n') -> loads c = [].
Proof. unfold boolJmp. destruct (no l =? -1), tf; intros H; injection H as <- <- <-; reflexivity. Qed.
Ltac od H := match type of H with
  | match ?x with Some _ => _ | None => None end = Some _ => let E := fresh "E" in destruct x as [?|] eqn:E; [|discriminate H];
      repeat match goal with p : (_ * _)%type |- _ => destruct p end
  | (let '(_, _) := ?x in _) = Some _ => let E := fresh "E" in destruct x eqn:E; repeat match goal with p : (_ * _)%type |- _ => destruct p end
  | (if ?c then _ else _) = Some _ => destruct c eqn:?
  end.
Lemma logBody_labs o l r : Bl l -> Bl r -> Ll l -> Ll r ->
  forall lf a b n c a' b' n', logBody o l r (toE (genB l)) (toE (genB r)) (genL l) (genL r) lf a b n = Some (c, a', b', n') ->
  incl (loads c) (refsE l ++ refsE r).
Proof.
  intros BL BR LL LR lf a b n c a' b' n' H. unfold logBody in H.
  match type of H with match ?x with Some _ => _ | None => None end = _ => destruct x as [[[cl la] n1]|] eqn:HL; [|discriminate] end.
  assert (incl (loads cl) (refsE l)) as CL.
  { destruct (is_log l).
    - destruct (op2_eqb _ _).
      + destruct (genL l _ _ _ _) as [[[[c1 x] y] z]|] eqn:G; [|discriminate]. injection HL as <- <- <-. rewrite loads_app, loads_printLab, app_nil_r. exact (LL _ _ _ _ _ _ _ _ G).
      + destruct (genL l _ _ _ _) as [[[[c1 x] y] z]|] eqn:G; [|discriminate]. injection HL as <- <- <-. rewrite loads_app, loads_printLab, app_nil_r. exact (LL _ _ _ _ _ _ _ _ G).
    - destruct (toE (genB l) n) as [[c1 m]|] eqn:G; [|discriminate]. destruct (boolJmp _ _ _) as [[j x] y] eqn:J. injection HL as <- <- <-.
      rewrite loads_app, (boolJmp_labs _ _ _ _ _ _ J), app_nil_r. exact (toE_labs _ BL _ _ _ G). }
  destruct (is_log r).
  - clear HL. destruct (op2_eqb (log_op r) o).
    + destruct (genL r _ _ _ _) as [[[[c1 x] y] z]|] eqn:G; [|discriminate]. injection H as <- <- <- <-. rewrite loads_app. apply incl_app_app; [exact CL|exact (LR _ _ _ _ _ _ _ _ G)].
    + destruct (genL r _ _ _ _) as [[[[c1 x] y] z]|] eqn:G; [|discriminate]. injection H as <- <- <- <-. rewrite loads_app. apply incl_app_app; [exact CL|exact (LR _ _ _ _ _ _ _ _ G)].
  - destruct (toE (genB r) n1) as [[c1 m]|] eqn:G; [|discriminate]. apply (toE_labs _ BR) in G.
    destruct (2 <=? lf).
    + destruct (left la =? lf); destruct (boolJmp _ _ _) as [[j x] y] eqn:J; injection H as <- <- <- <-;
        rewrite !loads_app, (boolJmp_labs _ _ _ _ _ _ J), app_nil_r; apply incl_app_app; assumption.
    + injection H as <- <- <- <-. rewrite loads_app. apply incl_app_app; assumption.
Qed.
Lemma args_single_labs e : Bl e -> match e with ENull | E2 SEMI _ _ => False | _ => True end -> Al e.
Proof.
  intros B S n c k n' H.
  assert (forall x, (do (c, n1) <- toE (genB e) n; Some (c ++ [IArg], 1%nat, n1)) = Some x -> incl (loads (fst (fst x))) (refsE e)) as G.
  { intros x Hx. destruct (toE (genB e) n) as [[c1 m]|] eqn:T; [|discriminate]. injection Hx as <-. cbn [fst]. rewrite loads_app. cbn [flat_map refsI loads]. rewrite app_nil_r.
    exact (toE_labs _ B _ _ _ T). }
  destruct e as [|?|? ?|o ? ?|? ?]; try contradiction; try (exact (G _ H)). destruct o; try contradiction; exact (G _ H).
Qed.
Lemma gen_labs e : Bl e /\ Ll e /\ Al e.
Proof.
  induction e as [|k|o a IH|o l IHl r IHr|f a IH].
  - split; [intros n c p n' H; discriminate|]. split; [intros lf x y n c x1 y1 n1 H; discriminate H|].
    intros n c k n' H. cbn in H. injection H as <- <- <-. apply incl_nil_l.
  - assert (B : Bl (ELeaf k)). { intros n c p n' H. cbn in H. injection H as <- <- <-. destruct k; apply incl_refl. }
    split; [exact B|]. split; [intros lf x y n c x1 y1 n1 H; discriminate H|]. apply args_single_labs; auto.
  - assert (B : Bl (E1 o a)).
    { intros n c p n' H. cbn [VmCode.genB] in H. destruct (toE (genB a) n) as [(c0, n1)|] eqn:G; [|discriminate]. injection H as <- <- <-.
      rewrite loads_app. cbn [flat_map refsI loads placeRefs]. rewrite !app_nil_r. apply (toE_labs _ (proj1 IH) _ _ _ G). }
    split; [exact B|]. split; [intros lf x y n c x1 y1 n1 H; discriminate H|]. apply args_single_labs; auto.
  - destruct IHl as (Bl' & Ll' & Al'), IHr as (Br & Lr & Ar).
    pose proof (toE_labs _ Bl') as El. pose proof (toE_labs _ Br) as Er.
    pose proof (logBody_labs o l r Bl' Br Ll' Lr) as LB.
    assert (L : Ll (E2 o l r)).
    { destruct o; try (intros lf x y n c x1 y1 n1 H; discriminate H); intros lf a b n c a' b' n' H; exact (LB _ _ _ _ _ _ _ _ H). }
    assert (B : Bl (E2 o l r)).
    { intros n c p n' H.
      assert (BIN : forall x y tl q, (x = l /\ y = r \/ x = r /\ y = l) -> loads tl = [] -> placeRefs q = [] ->
        (do (ca, n1) <- toE (genB x) n; do (cb, n2) <- toE (genB y) n1; Some (ca ++ cb ++ tl, q, n2)) = Some (c, p, n') ->
        incl (loads c ++ placeRefs p) (refsE (E2 o l r))).
      { intros x y tl q XY TL QL HH.
        destruct (toE (genB x) n) as [(ca, n1)|] eqn:Ga; [|discriminate].
        destruct (toE (genB y) n1) as [(cb, n2)|] eqn:Gb; [|discriminate].
        injection HH as <- <- <-. rewrite !loads_app, TL, QL, !app_nil_r. cbn [refsL refsE].
        destruct XY as [[-> ->]|[-> ->]].
        - apply incl_app_app; [exact (El _ _ _ Ga)|exact (Er _ _ _ Gb)].
        - apply incl_app; [apply incl_appr; exact (Er _ _ _ Ga)|apply incl_appl; exact (El _ _ _ Gb)]. }
      assert (BIN0 : forall q, placeRefs q = [] ->
        (do (ca, n1) <- toE (genB l) n; do (cb, n2) <- toE (genB r) n1; Some (ca ++ cb, q, n2)) = Some (c, p, n') ->
        incl (loads c ++ placeRefs p) (refsE (E2 o l r))).
      { intros q QL HH. apply (BIN l r [] q (or_introl (conj eq_refl eq_refl)) eq_refl QL).
        rewrite <- HH. destruct (toE (genB l) n) as [(ca, n1)|]; [|reflexivity].
        destruct (toE (genB r) n1) as [(cb, n2)|]; [|reflexivity]. rewrite app_nil_r. reflexivity. }
      destruct o; first [rewrite genB_or in H|rewrite genB_and in H|cbn [VmCode.genB isCommutativeOp andb mirror] in H];
        try match type of H with context [evalDepth l <? evalDepth r] => destruct (evalDepth l <? evalDepth r) end;
        try (refine (BIN l r _ _ (or_introl (conj eq_refl eq_refl)) _ _ H); reflexivity);
        try (refine (BIN r l _ _ (or_intror (conj eq_refl eq_refl)) _ _ H); reflexivity);
        try (apply (fun Q => BIN0 _ Q H); reflexivity); try discriminate.
      - destruct r as [|[v| | | | |]| | | ]; try discriminate.
        destruct (toE (genB l) n) as [(c0, n1)|] eqn:G; [|discriminate]. injection H as <- <- <-.
        rewrite loads_app. cbn [flat_map refsI loads placeRefs refsE]. rewrite !app_nil_r. exact (El _ _ _ G).
      - destruct (toE (genB r) n) as [(cr, n1)|] eqn:Gr; [|discriminate].
        destruct (genB l n1) as [((cl, q), n2)|] eqn:Gl; [|discriminate].
        destruct (store q) as [s|] eqn:St; [|discriminate]. injection H as <- <- <-.
        rewrite !loads_app, (store_labs _ _ St). cbn [placeRefs refsE]. rewrite !app_nil_r. apply Er in Gr. apply Bl' in Gl.
        apply incl_app; [apply incl_appr; exact Gr|apply incl_appl; exact Gl].
      - destruct (genB l n) as [((cl, q), n1)|] eqn:Gl; [|discriminate].
        destruct (genB r n1) as [((cr, q'), n2)|] eqn:Gr; [|discriminate]. injection H as <- <- <-.
        rewrite !loads_app, pop_labs. cbn [app refsE]. rewrite <- app_assoc. apply Bl' in Gl. apply Br in Gr. apply incl_app_app; [|exact Gr].
        eapply incl_tran; [|exact Gl]. apply incl_appl, incl_refl.
      - destruct (logBody OR _ _ _ _ _ _ _ _ _ _) as [(((cc, l2), l1), n1)|] eqn:G; [|discriminate]. injection H as <- <- <-.
        rewrite loads_app. cbn [placeRefs refsE]. rewrite app_nil_r. apply LB in G.
        replace (loads (vmBoolOR (no l2) (no l1) (n + 1))) with (@nil ref) by (unfold vmBoolOR; destruct (_ =? _); reflexivity).
        rewrite app_nil_r. exact G.
      - destruct (logBody AND _ _ _ _ _ _ _ _ _ _) as [(((cc, l2), l1), n1)|] eqn:G; [|discriminate]. injection H as <- <- <-.
        rewrite loads_app. cbn [placeRefs refsE]. rewrite app_nil_r. apply LB in G.
        replace (loads (vmBoolAND (no l2) (no l1) (n + 1))) with (@nil ref) by (unfold vmBoolAND; destruct (_ =? _); reflexivity).
        rewrite app_nil_r. exact G. }
    split; [exact B|]. split; [exact L|].
    destruct (op2_eqb o SEMI) eqn:ES.
    + apply op2_eqb_eq in ES. subst o. intros n c k n' H. cbn [genArgs] in H. fold (genArgs genB) in H.
      destruct (toE (genB r) n) as [(c0, n1)|] eqn:G; [|discriminate].
      destruct (genArgs genB l n1) as [((c1, k1), n2)|] eqn:GA; [|discriminate]. injection H as <- <- <-.
      change (c0 ++ IArg :: c1) with (c0 ++ [IArg] ++ c1). rewrite !loads_app. cbn [flat_map refsI loads app refsE].
      apply incl_app; [apply incl_appr; exact (Er _ _ _ G)|apply incl_appl; exact (Al' _ _ _ _ GA)].
    + apply args_single_labs; [exact B|]. destruct o; auto. discriminate.
  - assert (B : Bl (EFunc f a)).
    { intros n c p n' H. cbn [VmCode.genB] in H. destruct (genArgs genB a n) as [((c0, k), n1)|] eqn:G; [|discriminate].
      apply (proj2 (proj2 IH)) in G. destruct (is_void N f); injection H as <- <- <-; rewrite loads_app; cbn [flat_map refsI loads placeRefs refsE app]; rewrite !app_nil_r;
        (apply incl_app; [apply incl_tl; exact G|intros y [<-|[]]; left; reflexivity]). }
    split; [exact B|]. split; [intros lf x y n c x1 y1 n1 H; discriminate H|]. apply args_single_labs; auto.
Qed.
Lemma genE_labs e n c n' : genE N e n = Some (c, n') -> incl (loads c) (refsE e).
Proof. apply toE_labs. apply gen_labs. Qed.
Lemma genX_labs e n c n' : genX N e n = Some (c, n') -> incl (loads c) (refsE e).
Proof.
  unfold genX. destruct (genB e n) as [[[c1 p] n1]|] eqn:G; [|discriminate]. intros H. injection H as <- <-. apply (proj1 (gen_labs e)) in G.
  rewrite loads_app, pop_labs, app_nil_r. eapply incl_tran; [|exact G]. apply incl_appl, incl_refl.
Qed.
Lemma genCnd_labs e tf j n c j' n' : genCnd N e tf j n = Some (c, j', n') -> incl (loads c) (refsE e).
Proof.
  unfold genCnd. intros H.
  match type of H with match ?x with Some _ => _ | None => None end = _ => destruct x as [[[[c1 a] b] n1]|] eqn:HL; [|discriminate] end.
  injection H as <- <- <-. rewrite loads_app, loads_printLab, app_nil_r. destruct (is_log e).
  - destruct (Bool.eqb _ _); destruct (genL e _ _ _ _) as [[[[c2 x] y] z]|] eqn:G; try discriminate; injection HL as <- <- <- <-; exact (proj1 (proj2 (gen_labs e)) _ _ _ _ _ _ _ _ G).
  - destruct (genE N e n) as [[c2 m]|] eqn:G; [|discriminate]. destruct (boolJmp _ _ _) as [[jj x] y] eqn:J. injection HL as <- <- <- <-.
    rewrite loads_app, (boolJmp_labs _ _ _ _ _ _ J), app_nil_r. exact (genE_labs _ _ _ _ G).
Qed.
Lemma genS_labs' : forall s p g c g', genS N s p g = Some (c, g') -> incl (loads c) (refsS s).
Proof.
  induction s as [|e|i|e b IHb|e b1 IH1 b2 IH2|e b IHb re|b IHb e| | |e|l IHl r IHr|l IHl r IHr]; intros p g c g' H; cbn [genS] in H.
  - injection H as <- <-. apply incl_nil_l.
  - destruct (genX N e (cur g)) as [(c1, n1)|] eqn:G; [|discriminate]. injection H as <- <-. exact (genX_labs _ _ _ _ G).
  - injection H as <- <-. apply incl_nil_l.
  - destruct (genCnd N e false (newLabel 0) _) as [((c1, lb), n1)|] eqn:C; [|discriminate].
    destruct (genS N b _ _) as [(cb, g1)|] eqn:G; [|discriminate]. injection H as <- <-. apply genCnd_labs in C. apply IHb in G.
    rewrite !loads_app, loads_printLab, app_nil_r. apply incl_app_app; assumption.
  - destruct (genCnd N e false (newLabel 0) _) as [((c1, lb), n1)|] eqn:C; [|discriminate].
    destruct (genS N b1 PInner _) as [(cb, g1)|] eqn:G; [|discriminate].
    destruct (genS N b2 _ _) as [(cb2, g3)|] eqn:G2; [|discriminate]. injection H as <- <-. apply genCnd_labs in C. apply IH1 in G. apply IH2 in G2.
    rewrite !loads_app, !loads_printLab, app_nil_r. replace (loads (if jmpBlock b1 then [] else _)) with (@nil ref) by (destruct (jmpBlock b1); reflexivity).
    cbn [app refsS]. apply incl_app_app; [assumption|]. apply incl_app_app; assumption.
  - match type of H with match ?X with _ => _ end = _ => destruct X as [((c1, bl), n1)|] eqn:HC; [|discriminate] end.
    match type of H with match ?X with _ => _ end = _ => destruct X as [(cb, g1)|] eqn:GB; [|discriminate] end.
    match type of H with match ?X with _ => _ end = _ => destruct X as [((cre, jb), n2)|] eqn:HR; [|discriminate] end.
    injection H as <- <-. apply IHb in GB.
    assert (incl (loads c1) (refsE e)) as C.
    { assert (forall x, (do (c, bLab, n1) <- genCnd N e false (newLabel 0) (cur g + 1); Some (c, no bLab, n1)) = Some x -> incl (loads (fst (fst x))) (refsE e)) as K.
      { intros x Hx. destruct (genCnd N e false _ _) as [((c2, lb), n3)|] eqn:C; [|discriminate]. injection Hx as <-. exact (genCnd_labs _ _ _ _ _ _ _ C). }
      destruct e; try (exact (K _ HC)). injection HC as <- <- <-. apply incl_nil_l. }
    assert (incl (loads cre) (refsE re)) as R.
    { assert (forall x, (if negb (jmpBlock b) || negb (cnt g1 =? -1) then do (cr, n2) <- genX N re (cur g1); Some (printLab (cnt g1) ++ cr, false, n2)
                else Some ([], jmpBlock b, cur g1)) = Some x -> incl (loads (fst (fst x))) (refsE re)) as K.
      { intros x Hx. destruct (_ || _); [|injection Hx as <-; apply incl_nil_l]. destruct (genX N re _) as [(c2, n3)|] eqn:G; [|discriminate]. injection Hx as <-. cbn [fst].
        rewrite loads_app, loads_printLab. exact (genX_labs _ _ _ _ G). }
      destruct re; try (exact (K _ HR)). injection HR as <- <- <-. apply incl_nil_l. }
    cbn [flat_map refsI loads]. rewrite !loads_app, loads_printLab. replace (loads (if jb then [] else _)) with (@nil ref) by (destruct jb; reflexivity).
    cbn [flat_map refsI loads app refsS]. rewrite app_nil_r. apply incl_app_app; [assumption|]. apply incl_app_app; assumption.
  - destruct (genS N b PInner _) as [(cb, g1)|] eqn:G; [|discriminate].
    destruct (genCnd N e true _ _) as [((c1, lb), n1)|] eqn:C; [|discriminate]. injection H as <- <-. apply genCnd_labs in C. apply IHb in G.
    cbn [flat_map refsI loads app]. rewrite !loads_app, !loads_printLab, app_nil_r. cbn [flat_map refsI loads app refsS]. apply incl_app_app; assumption.
  - injection H as <- <-. apply incl_nil_l.
  - injection H as <- <-. apply incl_nil_l.
  - match type of H with match ?X with _ => _ end = _ => destruct X as [(c1, n1)|] eqn:HC; [|discriminate] end.
    assert (incl (loads c1) (refsE e)) as C.
    { assert (forall x, (do (c, n) <- genE N e (cur g); Some (c ++ [IMReg], n)) = Some x -> incl (loads (fst x)) (refsE e)) as K.
      { intros x Hx. destruct (genE N e _) as [(c2, n3)|] eqn:G; [|discriminate]. injection Hx as <-. cbn [fst]. rewrite loads_app. cbn [flat_map refsI loads]. rewrite app_nil_r. exact (genE_labs _ _ _ _ G). }
      destruct e; try (exact (K _ HC)). injection HC as <- <-. apply incl_nil_l. }
    destruct p; injection H as <- <-; try exact C. rewrite loads_app. cbn [flat_map refsI loads]. rewrite app_nil_r. exact C.
  - destruct (genS N l PInner _) as [(cl, g1)|] eqn:GL; [|discriminate].
    destruct (genS N r _ g1) as [(cr, g2)|] eqn:GR; [|discriminate]. injection H as <- <-. apply IHl in GL. apply IHr in GR.
    rewrite loads_app. apply incl_app_app; assumption.
  - destruct (genS N l PInner _) as [(cl, g1)|] eqn:GL; [|discriminate].
    destruct (genS N r _ g1) as [(cr, g2)|] eqn:GR; [|discriminate]. injection H as <- <-. apply IHl in GL. apply IHr in GR.
    rewrite loads_app. apply incl_app_app; assumption.
Qed.
Lemma genFunc_strs s d krn intr g c g' : genFunc N s d krn intr g = Some (c, g') -> incl (loads c) (refsS s).
Proof.
  unfold genFunc. destruct (genS N s PRoot _) as [(c1, g1)|] eqn:G; [|discriminate]. intros H. injection H as <- <-. apply genS_labs' in G.
  match goal with |- incl (loads (?i :: c1 ++ ?x)) _ => change (i :: c1 ++ x) with ([i] ++ c1 ++ x) end.
  rewrite !loads_app, loads_printLab. replace (loads [if intr then IEntryI d else if krn then IEntryK d else IEntry d]) with (@nil ref) by (destruct intr, krn; reflexivity).
  replace (loads [if intr then IRetI else IRet]) with (@nil ref) by (destruct intr; reflexivity). cbn [app]. rewrite app_nil_r. exact G.
Qed.
End G.
