(* The optimiser of the C translator (COpTree.v) refers to no strings, variables, objects or
   functions but those of the tree.  The proofs are those of OptLabs.v. *)
From Coq Require Import ZArith Bool Lia List.
From Verif Require Import SyTree OpTree COpTree OptSpec ParseLabs OptLabs ParserStmt.
Import ListNotations.
Open Scope Z_scope.

Lemma cInt_labs v e : cInt v = Ok e -> refsE e = [].
Proof. unfold cInt. destruct (isInt v); [|discriminate]. intros H. injection H as <-. reflexivity. Qed.
Lemma maskI_labs e : refsE (maskI e) = refsE e.
Proof. destruct e as [|[]| | |]; reflexivity. Qed.
Lemma cOpt1_labs o l e : cOpt1 o l = Ok e -> incl (refsE e) (refsE l).
Proof.
  unfold cOpt1. intros H. destruct l as [|[]| | |]; try (injection H as <-; cbn [refsL refsE]; apply incl_refl).
  destruct o; try (injection H as <-; cbn [refsL refsE setBool]; apply incl_refl). rewrite (cInt_labs _ _ H). apply incl_nil_l.
Qed.
Ltac li := match goal with H : cInt _ = Ok ?e |- incl (refsE ?e) _ => rewrite (cInt_labs _ _ H); apply incl_nil_l | H : Ok _ = Ok _ |- _ => injection H as <-; inc end.
Lemma cOpt2_labs o l r e : cOpt2 o l r = Ok e -> incl (refsE e) (refsE l ++ refsE r).
Proof.
  unfold cOpt2. intros H. destruct o; try (injection H as <-; cbn [refsL refsE]; apply incl_refl).
  - unfold cAdd in H. destruct l as [|[]| | |], r as [|[]| | |]; cbn [cIsN] in H; try (destruct (_ =? _)); li.
  - unfold cSub in H. destruct l as [|[]| | |], r as [|[]| | |]; cbn [cIsN] in H; try (destruct (_ =? _)); li.
  - unfold cShl in H. destruct r as [|[]| | |]; try li. destruct (_ || _); [discriminate|]. destruct (cIsN _ _); [li|]. destruct l as [|[]| | |]; li.
  - unfold cShr in H. destruct r as [|[]| | |]; try li. destruct (_ || _); [discriminate|]. destruct (cIsN _ _); [li|]. destruct l as [|[]| | |]; li.
  - injection H as <-; unfold cBAnd. destruct l as [|[]| | |], r as [|[]| | |]; cbn [refsL refsE cIsN orb]; ifsplit; cbn [refsL refsE app]; inc.
  - injection H as <-; unfold cBXor. destruct l as [|[]| | |], r as [|[]| | |]; cbn [refsL refsE cIsN orb]; ifsplit; cbn [refsL refsE app]; inc.
  - injection H as <-; unfold cBOr. destruct l as [|[]| | |], r as [|[]| | |]; cbn [refsL refsE cIsN orb]; ifsplit; cbn [refsL refsE app]; inc.
  - unfold cMul in H. destruct l as [|[]| | |], r as [|[]| | |]; cbn [cIsN orb] in H; repeat match type of H with context [if ?c then _ else _] => destruct c end; li.
  - unfold cDiv in H. destruct (cIsN r 0); [discriminate|]. destruct l as [|[]| | |], r as [|[]| | |]; try (destruct (cIsN _ _)); li.
  - unfold cMod in H. destruct (cIsN r 0); [discriminate|]. destruct l as [|[]| | |], r as [|[]| | |]; try (destruct (cIsN _ _)); try (destruct (isInt _); [|discriminate H]); li.
  - injection H as <-; unfold cCmp. destruct l as [|[]| | |], r as [|[]| | |]; cbn [refsL refsE setBool]; inc.
  - injection H as <-; unfold cCmp. destruct l as [|[]| | |], r as [|[]| | |]; cbn [refsL refsE setBool]; inc.
  - injection H as <-; unfold cCmp. destruct l as [|[]| | |], r as [|[]| | |]; cbn [refsL refsE setBool]; inc.
  - injection H as <-; unfold cCmp. destruct l as [|[]| | |], r as [|[]| | |]; cbn [refsL refsE setBool]; inc.
  - injection H as <-; unfold cCmp. destruct l as [|[]| | |], r as [|[]| | |]; cbn [refsL refsE setBool]; inc.
  - injection H as <-; unfold cCmp. destruct l as [|[]| | |], r as [|[]| | |]; cbn [refsL refsE setBool]; inc.
  - injection H as <-. unfold cOr. destruct (_ || _); [rewrite setBool_labs; inc|]. destruct (cIsN l 0); [inc|]. destruct (cIsN r 0); inc.
  - injection H as <-. unfold cAnd. destruct (_ || _); [rewrite setBool_labs; inc|]. destruct (cIsN l 1); [inc|]. destruct (cIsN r 1); inc.
Qed.
Lemma cCal_labs e : forall e', cCal e = Ok e' -> incl (refsE e') (refsE e).
Proof.
  induction e as [|k|o a IH|o l IHl r IHr|f a IH]; intros e' H; cbn [cCal] in H.
  - discriminate.
  - assert (e' = maskI (ELeaf k)) as -> by congruence. rewrite maskI_labs. apply incl_refl.
  - ob H. ob H. injection H as <-. rewrite maskI_labs. cbn [refsL refsE]. eapply incl_tran; [apply (cOpt1_labs _ _ _ E0)|]. apply IH. reflexivity.
  - ob H. ob H. ob H. injection H as <-. rewrite maskI_labs. eapply incl_tran; [apply (cOpt2_labs _ _ _ _ E1)|]. cbn [refsL refsE].
    apply incl_app_app; [apply IHl|apply IHr]; reflexivity.
  - assert (forall x, (a' <- cCal a ;; Ok (EFunc f a')) = Ok x -> incl (refsE x) (refsE (EFunc f a))) as G.
    { intros x Hx. ob Hx. injection Hx as <-. cbn [refsL refsE]. apply incl_cons2, IH. reflexivity. }
    destruct a; try (apply G; exact H). injection H as <-. apply incl_refl.
Qed.
Lemma cMoveCnst_labs o l r e : cMoveCnst o l r = Ok e -> incl (refsE e) (refsE l ++ refsE r).
Proof.
  unfold cMoveCnst. intros H. ob H. destruct a as [o' r']. injection H as <-.
  assert (incl (refsE r') (refsE r)) as N.
  { unfold cNormSub in E. destruct o; try (injection E as <- <-; apply incl_refl).
    destruct r as [|[]| | |]; try (injection E as <- <-; apply incl_refl). destruct (isInt _); [injection E as <- <-; apply incl_refl|discriminate E]. }
  destruct (_ && _).
  - eapply incl_tran; [apply pushC_labs|]. apply incl_app_app; [apply incl_refl|exact N].
  - cbn [refsL refsE]. apply incl_app_app; [apply incl_refl|exact N].
Qed.
Lemma cArr_labs e : forall e', cArr e = Ok e' -> incl (refsE e') (refsE e).
Proof.
  induction e as [|k|o a IH|o l IHl r IHr|f a IH]; intros e' H; cbn [cArr] in H.
  - discriminate.
  - apply (cCal_labs _ _ H).
  - ob H. apply cCal_labs in H. eapply incl_tran; [exact H|]. cbn [refsL refsE]. apply IH. reflexivity.
  - ob H. ob H. ob H. apply cCal_labs in H. eapply incl_tran; [exact H|]. eapply incl_tran; [exact (cMoveCnst_labs _ _ _ _ E1)|]. cbn [refsL refsE].
    apply incl_app_app; [apply IHl|apply IHr]; reflexivity.
  - assert (forall x, (a' <- cArr a ;; cCal (EFunc f a')) = Ok x -> incl (refsE x) (refsE (EFunc f a))) as G.
    { intros x Hx. ob Hx. apply cCal_labs in Hx. eapply incl_tran; [exact Hx|]. cbn [refsL refsE]. apply incl_cons2, IH. reflexivity. }
    destruct a; try (apply G; exact H). apply (cCal_labs _ _ H).
Qed.
Lemma cOptExp_labs e e' : cOptExp e = Ok e' -> incl (refsE e') (refsE e).
Proof.
  unfold cOptExp. intros H.
  assert (forall x, cArr (moveLeft e) = Ok x -> incl (refsE x) (refsE e)) as G.
  { intros x Hx. eapply incl_tran; [exact (cArr_labs _ _ Hx)|apply moveLeft_labs]. }
  destruct e; try (apply G; exact H). injection H as <-. apply incl_refl.
Qed.
Lemma cOptTree_labs s : forall s', cOptTree s = Ok s' -> incl (refsS s') (refsS s).
Proof.
  assert (forall (a b c d : list ref), incl a c -> incl b d -> incl (a ++ b) (c ++ d)) as AA by (intros; apply incl_app_app; assumption).
  induction s as [|e|i|e b IHb|e b1 IH1 b2 IH2|e b IHb re|b IHb e| | |e|l IHl r IHr|l IHl r IHr]; intros s' H; cbn [cOptTree] in H;
    try (injection H as <-; apply incl_refl).
  - ob H. injection H as <-. exact (cOptExp_labs _ _ E).
  - ob H. pose proof (cOptExp_labs _ _ E) as C.
    assert (forall x, (b' <- cOptTree b ;; Ok (SIf a b')) = Ok x -> incl (refsS x) (refsS (SIf e b))) as G.
    { intros x Hx. ob Hx. injection Hx as <-. cbn [refsS]. apply AA; [exact C|]. apply IHb. reflexivity. }
    destruct a as [|[]| | |]; try (apply G; exact H). destruct (getBool v).
    + ob H. injection H as <-. rewrite copy_labs. cbn [refsS]. apply incl_appr. apply IHb. reflexivity.
    + injection H as <-. apply incl_nil_l.
  - ob H. pose proof (cOptExp_labs _ _ E) as C.
    assert (forall x, (b2' <- cOptTree b2 ;; b1' <- cOptTree b1 ;; Ok (SEls a b1' b2')) = Ok x -> incl (refsS x) (refsS (SEls e b1 b2))) as G.
    { intros x Hx. ob Hx. ob Hx. injection Hx as <-. cbn [refsS]. apply AA; [exact C|]. apply AA; [apply IH1|apply IH2]; reflexivity. }
    destruct a as [|[]| | |]; try (apply G; exact H). destruct (getBool v).
    + ob H. injection H as <-. rewrite copy_labs. cbn [refsS]. apply incl_appr, incl_appl. apply IH1. reflexivity.
    + ob H. injection H as <-. rewrite copy_labs. cbn [refsS]. apply incl_appr, incl_appr. apply IH2. reflexivity.
  - ob H. pose proof (cOptExp_labs _ _ E) as C.
    assert (forall c x, incl (refsE c) (refsE e) -> (b' <- cOptTree b ;; re' <- cOptExp re ;; Ok (SWhl c b' re')) = Ok x -> incl (refsS x) (refsS (SWhl e b re))) as G.
    { intros c x Hc Hx. ob Hx. ob Hx. injection Hx as <-. cbn [refsS]. apply AA; [exact Hc|]. apply AA; [apply IHb; reflexivity|]. exact (cOptExp_labs _ _ E1). }
    destruct a as [|[]| | |]; try (apply (G _ _ C); exact H). destruct (getBool v).
    + apply (G ENull); [apply incl_nil_l|exact H].
    + injection H as <-. apply incl_nil_l.
  - ob H. pose proof (cOptExp_labs _ _ E) as C. ob H.
    assert (incl (refsS a0) (refsS b)) as B by (apply IHb; reflexivity).
    destruct a as [|[]| | |]; try (injection H as <-; cbn [refsS]; apply AA; assumption). destruct (getBool v); injection H as <-.
    + cbn [refsS refsE app]. rewrite app_nil_r. apply incl_appl. exact B.
    + rewrite copy_labs. cbn [refsS]. apply incl_appl. exact B.
  - ob H. injection H as <-. exact (cOptExp_labs _ _ E).
  - ob H. ob H. injection H as <-. cbn [refsS]. apply AA; [apply IHl|apply IHr]; reflexivity.
  - ob H. ob H. injection H as <-. cbn [refsS]. apply AA; [apply IHl|apply IHr]; reflexivity.
Qed.
Lemma wOptExp_labs {W : word} e e' : wOptExp e = Ok e' -> incl (refsE e') (refsE e).
Proof. destruct W; [apply optExp_labs|apply cOptExp_labs]. Qed.
