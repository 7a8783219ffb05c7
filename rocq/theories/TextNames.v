(* The names that a text places: which definition of which name is printed.  For C61. *)
From Coq Require Import ZArith Bool Lia List.
From Verif Require Import Lexer NameTable SyTree OpTree VM VmCode Parser ParserStmt ParseSpec ParseLabs ProgInv ProgTop CCode TacSpec Tac TacFrom AsmText TextGrow.
Import ListNotations.
Open Scope Z_scope.

(* ---- the parts of a declaration that print strings only and only add to the table ---- *)
Definition isNam (a : asm) : bool := match a with ANam _ => true | _ => false end.
Definition noNam (p : list asm) : Prop := forallb (fun a => negb (isNam a)) p = true.
Lemma noNam_app a b : noNam a -> noNam b -> noNam (a ++ b).
Proof. unfold noNam. intros A B. rewrite forallb_app, A, B. reflexivity. Qed.
Lemma noNam_str ss : forall l, noNam (strOut l ss). Proof. induction ss as [|s ss IH]; intros l; [reflexivity|]. exact (IH _). Qed.

Definition keep (g g' : gs) : Prop := (exists p, outp (ge g') = outp (ge g) ++ p /\ noNam p) /\ (exists x, gnt g' = gnt g ++ x) /\ funcIdx g' = funcIdx g.
Lemma keep_refl g : keep g g. Proof. split; [|split; [|reflexivity]]; exists []; rewrite app_nil_r; [split; reflexivity|reflexivity]. Qed.
Lemma keep_trans a b c : keep a b -> keep b c -> keep a c.
Proof.
  intros [(p & P & N) [[x X] I]] [(q & Q & M) [[y Y] J]]. split; [exists (p ++ q); rewrite Q, P, app_assoc; split; [reflexivity|apply noNam_app; assumption]|].
  split; [|congruence]. exists (x ++ y). rewrite Y, X, app_assoc. reflexivity.
Qed.
Lemma keep_same g g' : ge g' = ge g -> gnt g' = gnt g -> funcIdx g' = funcIdx g -> keep g g'. Proof. intros E F I. unfold keep. rewrite E, F, I. apply keep_refl. Qed.
Lemma keep_strs g g' : strs (ge g) (ge g') -> gnt g' = gnt g -> funcIdx g' = funcIdx g -> keep g g'.
Proof. intros (_ & ss & _ & E) F I. split; [eexists; split; [exact E|apply noNam_str]|split; [exists []; rewrite app_nil_r; exact F|exact I]]. Qed.
Lemma keep_quiet g g' : quiet g g' -> keep g g'.
Proof. intros (e & -> & _ & E & _). split; [|split; [|reflexivity]]; exists []; rewrite app_nil_r; [split; [exact E|reflexivity]|reflexivity]. Qed.
Lemma keep_set g g1 g2 : keep g g1 -> ge g2 = ge g1 -> gnt g2 = gnt g1 -> funcIdx g2 = funcIdx g1 -> keep g g2.
Proof. intros K E F I. exact (keep_trans _ _ _ K (keep_same _ _ E F I)). Qed.
(* the end of a block *)
Lemma keep_void g g1 g2 : keep g g1 -> ge g2 = ge g1 -> gnt g2 = ntSetVoid (gnt g1) (ntGetSize (gnt g)) -> funcIdx g2 = funcIdx g1 -> keep g g2.
Proof.
  intros [P [[x X] J]] E F I. split; [rewrite E; exact P|]. split; [|congruence]. exists (map voided x). rewrite F, X. unfold ntSetVoid, ntGetSize.
  rewrite Nat2Z.id, firstn_app, firstn_all, Nat.sub_diag, skipn_app, skipn_all, Nat.sub_diag. cbn [firstn skipn app]. rewrite app_nil_r. reflexivity.
Qed.
Lemma keep_add g g1 g2 e : keep g g1 -> ge g2 = ge g1 -> gnt g2 = gnt g1 ++ [e] -> funcIdx g2 = funcIdx g1 -> keep g g2.
Proof. intros K E F I. apply (keep_trans _ _ _ K). split; [exists []; rewrite E, app_nil_r; split; reflexivity|split; [exists [e]; exact F|exact I]]. Qed.
Definition keeps {A} (g : gs) (r : pres (A * gs)) : Prop := ac r (fun x => keep g (snd x)).
Definition keeps1 (g : gs) (r : pres gs) : Prop := ac r (keep g).
Lemma keeps_bind {A B} g g1 (r : pres (A * gs)) (f : A * gs -> pres (B * gs)) :
  keep g g1 -> keeps g1 r -> (forall a g2, keep g g2 -> keeps g (f (a, g2))) -> keeps g (pbind r f).
Proof. intros G R F. eapply ac_bind; [exact R|]. intros [a g2] H. apply F. exact (keep_trans _ _ _ G H). Qed.
Lemma keeps_bind1 {B} g g1 (r : pres gs) (f : gs -> pres (B * gs)) :
  keep g g1 -> keeps1 g1 r -> (forall g2, keep g g2 -> keeps g (f g2)) -> keeps g (pbind r f).
Proof. intros G R F. eapply ac_bind; [exact R|]. intros g2 H. apply F. exact (keep_trans _ _ _ G H). Qed.
Lemma keeps1_bind {A} g g1 (r : pres (A * gs)) (f : A * gs -> pres gs) :
  keep g g1 -> keeps g1 r -> (forall a g2, keep g g2 -> keeps1 g (f (a, g2))) -> keeps1 g (pbind r f).
Proof. intros G R F. eapply ac_bind; [exact R|]. intros [a g2] H. apply F. exact (keep_trans _ _ _ G H). Qed.
Lemma keeps1_bind1 g g1 (r : pres gs) (f : gs -> pres gs) :
  keep g g1 -> keeps1 g1 r -> (forall g2, keep g g2 -> keeps1 g (f g2)) -> keeps1 g (pbind r f).
Proof. intros G R F. eapply ac_bind; [exact R|]. intros g2 H. apply F. exact (keep_trans _ _ _ G H). Qed.
Lemma keeps_skip {A B} g (r : pres A) (f : A -> pres (B * gs)) : (forall a, keeps g (f a)) -> keeps g (pbind r f).
Proof. intros F. eapply ac_bind; [apply ac_skip|]. intros a _. apply F. Qed.
Lemma keeps1_skip {A} g (r : pres A) (f : A -> pres gs) : (forall a, keeps1 g (f a)) -> keeps1 g (pbind r f).
Proof. intros F. eapply ac_bind; [apply ac_skip|]. intros a _. apply F. Qed.
Lemma keeps_ok {A} g (a : A) g' : keep g g' -> keeps g (POk (a, g')). Proof. exact (fun H => H). Qed.
Lemma keeps1_ok g g' : keep g g' -> keeps1 g (POk g'). Proof. exact (fun H => H). Qed.
Lemma keeps_from {A} g g1 (r : pres (A * gs)) : keep g g1 -> keeps g1 r -> keeps g r.
Proof. intros G R. apply (ac_mono _ _ _ R). intros x. apply keep_trans. exact G. Qed.
Lemma keeps1_from g g1 (r : pres gs) : keep g g1 -> keeps1 g1 r -> keeps1 g r.
Proof. intros G R. apply (ac_mono _ _ _ R). intros x. apply keep_trans. exact G. Qed.

Lemma k_chkTok k g : keeps1 g (gChkTok k g). Proof. eapply ac_mono; [apply ac_gChkTok|]. exact (keep_quiet g). Qed.
Lemma k_isTok k g0 g g' : keep g0 g -> gIsTok k g = Some g' -> keep g0 g'.
Proof. intros G H. exact (keep_trans _ _ _ G (keep_quiet _ _ (quiet_isTok _ _ _ H))). Qed.
Lemma k_expr g : keeps g (gExpr g).
Proof. unfold gExpr. eapply ac_bind; [apply ac_getExpr|]. intros [w e] [A _]. cbn [ac snd]. apply keep_strs; [exact A|reflexivity|reflexivity]. Qed.
Lemma k_asExpr g : keeps g (gAsExpr g).
Proof. unfold gAsExpr. eapply ac_bind; [apply ac_getAsExpr|]. intros [w e] [A _]. cbn [ac snd]. apply keep_strs; [exact A|reflexivity|reflexivity]. Qed.
Lemma k_type g : keeps1 g (gGetType g).
Proof. eapply ac_mono; [apply ac_gGetType|]. intros g' (_ & g1 & Q & ->). exact (keep_set _ _ _ (keep_quiet _ _ Q) eq_refl eq_refl eq_refl). Qed.
Lemma k_name krn pub g : keeps g (getName krn pub g).
Proof. eapply ac_mono; [apply ac_named|]. intros [i g'] (n & g1 & Q & E). cbn [snd] in *. subst g'. refine (keep_add g g1 _ _ (keep_quiet _ _ Q) _ _ _); reflexivity. Qed.
Lemma k_getTok g : keep g (gGetTok g). Proof. apply keep_quiet, quiet_getTok. Qed.

Section K.
Variables opt krn : bool.
Ltac kr := first [eassumption | apply keep_refl | (eapply keep_set; [eassumption|reflexivity|reflexivity|reflexivity]) | (apply keep_same; reflexivity)].
Lemma k_lvar g : keeps g (getLVar krn g).
Proof.
  unfold getLVar. eapply keeps_bind; [|apply k_name|]; [apply keep_same; reflexivity|]. intros i g2 G.
  destruct (gIsTok cEQ g2) as [g3|] eqn:K; [|apply keeps_ok; exact G].
  eapply keeps_bind; [eapply k_isTok; eassumption|apply k_asExpr|]. intros w g4 G4. apply keeps_skip. intros w'. apply keeps_ok. exact G4.
Qed.
Lemma k_lvarsLoop f : forall sta g, keeps g (lvarsLoop krn f sta g).
Proof.
  induction f as [|f IH]; intros sta g; [exact I|]. cbn [lvarsLoop]. destruct (gIsTok cCOMMA g) as [g1|] eqn:K; [|apply keeps_ok; kr].
  eapply keeps_bind; [eapply k_isTok; [apply keep_refl|eassumption]|apply k_lvar|]. intros s g2 G. exact (keeps_from _ _ _ G (IH _ _)).
Qed.
Lemma k_lvars g : keeps g (getLVars krn g).
Proof.
  unfold getLVars. eapply keeps_bind1; [apply keep_refl|apply k_type|]. intros g1 G1. eapply keeps_bind; [exact G1|apply k_lvar|]. intros s g2 G2.
  eapply keeps_bind; [exact G2|apply k_lvarsLoop|]. intros s3 g3 G3. apply keeps_ok. destruct (_ <? _); kr.
Qed.
Lemma k_cond g : keeps g (getCond g).
Proof.
  unfold getCond. eapply keeps_bind1; [apply keep_refl|apply k_chkTok|]. intros g1 G1. eapply keeps_bind; [exact G1|apply k_expr|]. intros w g2 G2.
  apply keeps_skip. intros w'. eapply keeps_bind1; [exact G2|apply k_chkTok|]. intros g3 G3. exact G3.
Qed.
Definition kStat (stat : sparser) : Prop := forall g, keeps g (stat g).
Lemma k_body stat g : kStat stat -> keeps g (body stat g).
Proof. intros S. unfold body. eapply keeps_bind; [|apply S|]; [apply keep_same; reflexivity|]. intros b g2 G2. apply keeps_ok. kr. Qed.
Lemma k_if stat g : kStat stat -> keeps g (getIf stat g).
Proof.
  intros S. unfold getIf. eapply keeps_bind; [apply keep_refl|apply k_cond|]. intros c g1 G1. eapply keeps_bind; [exact G1|apply S|]. intros b g2 G2.
  destruct (gIsTok LxELSE g2) as [g3|] eqn:K; [|exact G2]. eapply keeps_bind; [eapply k_isTok; eassumption|apply S|]. intros b2 g4 G4. exact G4.
Qed.
Lemma k_while stat g : kStat stat -> keeps g (getWhile stat g).
Proof. intros S. unfold getWhile. eapply keeps_bind; [apply keep_refl|apply k_cond|]. intros c g1 G1. eapply keeps_bind; [exact G1|apply k_body; exact S|]. intros b g2 G2. exact G2. Qed.
Lemma k_do stat g : kStat stat -> keeps g (getDoWhile stat g).
Proof.
  intros S. unfold getDoWhile. eapply keeps_bind; [apply keep_refl|apply k_body; exact S|]. intros b g1 G1. eapply keeps_bind1; [exact G1|apply k_chkTok|]. intros g2 G2.
  eapply keeps_bind; [exact G2|apply k_cond|]. intros c g3 G3. eapply keeps_bind1; [exact G3|apply k_chkTok|]. intros g4 G4. exact G4.
Qed.
Lemma k_for stat g : kStat stat -> keeps g (getFor krn stat g).
Proof.
  intros S. unfold getFor. cbv zeta. eapply keeps_bind1; [apply keep_refl|apply k_chkTok|]. intros g1 G1.
  eapply keeps_bind; [exact G1| |].
  { destruct (_ =? _); [apply keeps_ok; apply keep_refl|]. unfold gIsType. destruct (isType _ _).
    - eapply keeps_from; [|apply k_lvars]. apply keep_same; reflexivity.
    - eapply keeps_bind; [|apply k_expr|]; [apply keep_same; reflexivity|]. intros w g2 G2. exact G2. }
  intros ini g2 G2. eapply keeps_bind1; [exact G2|apply k_chkTok|]. intros g3 G3.
  eapply keeps_bind; [exact G3| |].
  { destruct (_ =? _); [apply keeps_ok; apply keep_refl|]. eapply keeps_bind; [apply keep_refl|apply k_expr|]. intros w g4 G4. apply keeps_skip. intros w'. exact G4. }
  intros cnd g4 G4. eapply keeps_bind1; [exact G4|apply k_chkTok|]. intros g5 G5.
  eapply keeps_bind; [exact G5| |].
  { destruct (_ =? _); [apply keeps_ok; apply keep_refl|]. eapply keeps_bind; [apply keep_refl|apply k_expr|]. intros w g6 G6. exact G6. }
  intros ri g6 G6. eapply keeps_bind1; [exact G6|apply k_chkTok|]. intros g7 G7. eapply keeps_bind; [exact G7|apply k_body; exact S|]. intros b g8 G8. apply keeps_ok.
  eapply keep_void; [exact G8|reflexivity|reflexivity|reflexivity].
Qed.
Lemma k_blockLoop stat f : kStat stat -> forall l g, keeps g (blockLoop krn stat f l g).
Proof.
  intros S. induction f as [|f IH]; intros l g; [exact I|]. cbn [blockLoop]. destruct (_ || _); [apply keeps_ok, keep_refl|].
  eapply keeps_bind; [apply keep_refl| |].
  { unfold gIsType. destruct (isType _ _).
    - eapply keeps_bind; [|apply k_lvars|]; [apply keep_same; reflexivity|]. intros r g1 G1. eapply keeps_bind1; [exact G1|apply k_chkTok|]. intros g2 G2. exact G2.
    - eapply keeps_from; [|apply S]. apply keep_same; reflexivity. }
  intros r g1 G1. exact (keeps_from _ _ _ G1 (IH _ _)).
Qed.
Lemma k_block stat g : kStat stat -> keeps g (getBlock krn stat g).
Proof.
  intros S. unfold getBlock. cbv zeta. eapply keeps_bind; [apply keep_refl|apply k_blockLoop; exact S|]. intros l g1 G1. eapply keeps_bind1; [exact G1|apply k_chkTok|]. intros g2 G2. apply keeps_ok.
  eapply keep_void; [exact G2|reflexivity|reflexivity|reflexivity].
Qed.
Lemma k_return g : keeps g (getReturn g).
Proof.
  unfold getReturn. cbv zeta. eapply keeps_bind; [apply keep_refl| |].
  { destruct (_ && _); [|apply keeps_ok, keep_refl]. eapply keeps_bind; [apply keep_refl|apply k_expr|]. intros w g1 G1. apply keeps_skip. intros w'. exact G1. }
  intros e g1 G1. eapply keeps_bind1; [exact G1|apply k_chkTok|]. intros g2 G2. exact G2.
Qed.
Lemma k_statF f : kStat (getStatF krn f).
Proof.
  induction f as [|f IH]; intros g; [exact I|]. cbn [getStatF]. eapply keeps_bind; [apply keep_refl| |]; [|intros s g1 G1; apply keeps_ok; kr].
  repeat (match goal with |- keeps _ (if ?c then _ else _) => destruct c end).
  1-9: (eapply keeps_from; [apply k_getTok|]).
  - apply k_if. exact IH.
  - apply k_while. exact IH.
  - apply k_do. exact IH.
  - apply k_for. exact IH.
  - apply k_return.
  - unfold getBreak. destruct (_ <=? _); [exact I|]. eapply keeps_bind1; [apply keep_refl|apply k_chkTok|]. intros g2 G2. exact G2.
  - unfold getCont. destruct (_ <=? _); [exact I|]. eapply keeps_bind1; [apply keep_refl|apply k_chkTok|]. intros g2 G2. exact G2.
  - apply k_block. exact IH.
  - apply keeps_ok, keep_refl.
  - eapply keeps_bind; [apply keep_refl|apply k_expr|]. intros w g1 G1. eapply keeps_bind1; [exact G1|apply k_chkTok|]. intros g2 G2. exact G2.
Qed.
Lemma k_stat : kStat (getStat krn). Proof. intros g. apply k_statF. Qed.
Lemma k_paramsLoop f : forall idx last g, keeps g (paramsLoop krn f idx last g).
Proof.
  induction f as [|f IH]; intros idx last g; [exact I|]. cbn [paramsLoop]. unfold gIsType. destruct (isType _ _); [|apply keeps_ok, keep_same; reflexivity].
  eapply keeps_bind1; [|apply k_type|]; [apply keep_same; reflexivity|]. intros g1 G1. apply keeps_skip. intros _. eapply keeps_bind; [exact G1|apply k_name|]. intros i g2 G2.
  destruct (gIsTok cCOMMA g2) as [g3|] eqn:K; [|exact G2]. refine (keeps_from _ _ _ _ (IH _ _ _)). exact (keep_set _ _ _ (k_isTok _ _ _ _ G2 K) eq_refl eq_refl eq_refl).
Qed.
Lemma defName_ok t n sc ty d c p t' i : ntDefName t n sc ty d c p = NOk (t', i) -> t' = t ++ [Ent n sc ty d c p].
Proof. unfold ntDefName. destruct (_ <=? _); [discriminate|]. destruct (_ <=? _); [discriminate|]. intros H. injection H as <- _. reflexivity. Qed.
Lemma k_params idx g : keeps1 g (getParams krn idx g).
Proof.
  unfold getParams. eapply keeps1_bind; [|apply k_paramsLoop|]; [apply keep_same; reflexivity|]. intros last g1 G1. eapply keeps1_bind1; [exact G1| |].
  - destruct (if last then gIsTok LxDOTDOTDOT g1 else None) as [g2|] eqn:K; [|apply keeps1_ok, keep_refl].
    assert (keep g1 g2) as G2 by (destruct last; [exact (k_isTok _ _ _ _ (keep_refl _) K)|discriminate K]).
    apply keeps1_skip. intros _. destruct (ntDefName _ _ _ _ _ _ _) as [[t j]|e] eqn:D; [|exact I]. apply keeps1_ok. apply defName_ok in D. apply (keep_add g1 (wDim (wType g2 TyDOTDOTDOT) 0) _ (Ent [] (curScope g2) TyDOTDOTDOT 0 (curCnt g2) false)); [exact (keep_set _ _ _ G2 eq_refl eq_refl eq_refl)|reflexivity|exact D|reflexivity].
  - intros g3 G3. exact (keeps1_from _ _ _ G3 (k_chkTok _ _)).
Qed.
Lemma k_init g : ac (init_of g) (fun r => keep g (snd r) /\ snd r = wE g (ge (snd r))).
Proof.
  assert (forall n r, dpost n g r -> keep g (snd r) /\ snd r = wE g (ge (snd r))) as D.
  { intros n [d g'] H. destruct H as [[R S] _]. cbn [snd] in *. split; [|exact R]. apply keep_strs; [exact S|rewrite R; reflexivity|rewrite R; reflexivity]. }
  unfold init_of. destruct (0 <? curDim g) eqn:E; [apply Z.ltb_lt in E; eapply ac_mono; [apply ac_getGArrayInitF; lia|apply D]|].
  destruct (_ || _); [eapply ac_mono; [apply ac_getCnst|apply D]|]. destruct (_ <=? _); [|exact I]. eapply ac_mono; [apply ac_getStructInit|apply D].
Qed.
End K.

(* ---- the definitions in a text ---- *)
Inductive kind := KFun | KDat | KBss | KNone.
Definition kindOf (l : list asm) : kind := match l with ACode _ :: _ => KFun | AWs _ :: _ => KBss | (ADwName _ | ADwLab _ | ADwCns _) :: _ => KDat | _ => KNone end.
Fixpoint defsK (t : table) (l : list asm) : list (kind * list Z) :=
  match l with
  | [] => []
  | ANam i :: r => (kindOf r, symText t i) :: defsK t r
  | _ :: r => defsK t r
  end.
Definition defsP (ps : list piece) : list (kind * list Z) := flat_map (fun p => defsK (fst p) (snd p)) ps.
Lemma defsK_no t p q : noNam p -> defsK t (p ++ q) = defsK t q.
Proof.
  unfold noNam. induction p as [|a p IH]; [reflexivity|]. cbn [forallb app]. intros H. apply andb_true_iff in H. destruct H as [A B]. specialize (IH B).
  destruct a; cbn [defsK]; try exact IH. discriminate A.
Qed.
Lemma defsP_new g g1 x p : outp (ge g1) = outp (ge g) ++ p -> defsP (printNew g g1 x) = defsP x ++ defsK (gnt g1) p.
Proof.
  intros E. unfold printNew, defsP. rewrite flat_map_app. cbn [flat_map fst snd]. rewrite E, skipn_app, skipn_all, Nat.sub_diag, app_nil_r. reflexivity.
Qed.

(* ---- the first global with a name ---- *)
Definition gl (n : list Z) (e : entry) : bool := isGlob (nScope e) && zeqb_list (nName e) n.
Definition okK (k : kind) (s : Z) : Prop := match k with KFun => s = ScFUNC | KDat => s = ScGVAR | KBss => s = ScCOMM \/ s = ScGVAR | KNone => False end.
Definition pre (p : bool) : list Z := if p then [95] else [46].
Definition Inv (t : table) (D : list (kind * list Z)) : Prop :=
  NoDup D /\ forall k x, In (k, x) D -> exists n e, List.find (gl n) t = Some e /\ x = pre (nPub e) ++ n /\ okK k (nScope e).
Lemma zl_eq a : forall b, zeqb_list a b = true -> a = b.
Proof. induction a as [|x a IH]; intros [|y b] H; try discriminate; [reflexivity|]. cbn [zeqb_list] in H. apply andb_true_iff in H. destruct H as [A B]. apply Z.eqb_eq in A. rewrite A, (IH _ B). reflexivity. Qed.
Lemma zl_refl a : zeqb_list a a = true. Proof. induction a as [|x a IH]; [reflexivity|]. cbn [zeqb_list]. rewrite Z.eqb_refl. exact IH. Qed.
Lemma find_app {A} (p : A -> bool) a b : List.find p (a ++ b) = match List.find p a with Some e => Some e | None => List.find p b end.
Proof. induction a as [|x a IH]; [reflexivity|]. cbn [app List.find]. destruct (p x); [reflexivity|exact IH]. Qed.
Lemma pre_inj p q m n : pre p ++ m = pre q ++ n -> p = q /\ m = n.
Proof. destruct p, q; cbn [pre app]; intros H; try discriminate H; injection H as H; split; congruence. Qed.
Lemma inv_ext t x D : Inv t D -> Inv (t ++ x) D.
Proof. intros [N H]. split; [exact N|]. intros k y I. destruct (H k y I) as (n & e & F & X). exists n, e. rewrite find_app, F. split; [reflexivity|exact X]. Qed.
Lemma NoDup_snoc {A} (l : list A) a : NoDup l -> ~ In a l -> NoDup (l ++ [a]).
Proof. intros N H. apply NoDup_rev in N. rewrite <- (rev_involutive (l ++ [a])). apply NoDup_rev. rewrite rev_app_distr. cbn [rev app]. constructor; [rewrite <- in_rev; exact H|exact N]. Qed.
(* a name that was not known *)
Lemma inv_new t e x D k : Inv t D -> List.find (gl (nName e)) t = None -> isGlob (nScope e) = true -> okK k (nScope e) -> Inv (t ++ e :: x) (D ++ [(k, pre (nPub e) ++ nName e)]).
Proof.
  intros Iv F G K. destruct (inv_ext _ (e :: x) _ Iv) as [N H]. destruct Iv as [_ H0]. split.
  - apply NoDup_snoc; [exact N|]. intros I. destruct (H0 _ _ I) as (n & e' & F' & X & _). apply pre_inj in X. destruct X as [_ X]. rewrite <- X, F in F'. discriminate F'.
  - intros k' y I. apply in_app_or in I. destruct I as [I|[I|[]]]; [exact (H _ _ I)|]. inversion I. subst k' y. exists (nName e), e. split; [|split; [reflexivity|exact K]].
    rewrite find_app, F. cbn [List.find]. unfold gl. rewrite G, zl_refl. reflexivity.
Qed.
(* the scope of a global changes *)
Definition setS (s : Z) (e : entry) : entry := Ent (nName e) s (nType e) (nDim e) (nCnt e) (nPub e).
Lemma inv_set a e b D s : Inv (a ++ e :: b) D -> isGlob (nScope e) = true -> List.find (gl (nName e)) a = None -> isGlob s = true -> (forall k, okK k (nScope e) -> okK k s) -> Inv (a ++ setS s e :: b) D.
Proof.
  intros [N H] G F S K. split; [exact N|]. intros k x I. destruct (H _ _ I) as (n & e' & F' & X & Y). rewrite find_app in F'.
  destruct (zeqb_list (nName e) n) eqn:E.
  - apply zl_eq in E. subst n. rewrite F in F'. cbn [List.find] in F'. unfold gl in F' at 1. rewrite G, zl_refl in F'. injection F' as <-. exists (nName e), (setS s e). split; [|split; [exact X|exact (K _ Y)]].
    rewrite find_app, F. cbn [List.find]. unfold gl at 1. cbn [setS nScope nName]. rewrite S, zl_refl. reflexivity.
  - exists n, e'. split; [|split; assumption]. rewrite find_app. destruct (List.find (gl n) a) as [e1|]; [exact F'|]. cbn [List.find] in *. unfold gl at 1. unfold gl in F' at 1. cbn [setS nName]. rewrite E, andb_false_r in *. exact F'.
Qed.
Lemma inv_def a e b D s k : Inv (a ++ e :: b) D -> isGlob (nScope e) = true -> List.find (gl (nName e)) a = None -> isGlob s = true -> (forall k, okK k (nScope e) -> okK k s) ->
  ~ okK k (nScope e) -> okK k s -> Inv (a ++ setS s e :: b) (D ++ [(k, pre (nPub e) ++ nName e)]).
Proof.
  intros Iv G F S K Nk Ok. destruct (inv_set _ _ _ _ _ Iv G F S K) as [N H]. destruct Iv as [_ H0].
  assert (List.find (gl (nName e)) (a ++ setS s e :: b) = Some (setS s e)) as F1 by (rewrite find_app, F; cbn [List.find]; unfold gl at 1; cbn [setS nScope nName]; rewrite S, zl_refl; reflexivity).
  split.
  - apply NoDup_snoc; [exact N|]. intros I. destruct (H0 _ _ I) as (n & e' & F' & X & Y). apply pre_inj in X. destruct X as [_ X]. rewrite <- X in F'. rewrite find_app, F in F'. cbn [List.find] in F'. unfold gl in F' at 1. rewrite G, zl_refl in F'. injection F' as <-. exact (Nk Y).
  - intros k' y I. apply in_app_or in I. destruct I as [I|[I|[]]]; [exact (H _ _ I)|]. inversion I. subst k' y. exists (nName e), (setS s e). split; [exact F1|]. split; [reflexivity|exact Ok].
Qed.

(* ---- indices ---- *)
Lemma ent_mid a e b : NameTable.ent (a ++ e :: b) (ntGetSize a) = Some e.
Proof. unfold NameTable.ent, ntGetSize. replace (_ <? 0) with false by (symmetry; apply Z.ltb_ge; lia). rewrite Nat2Z.id, nth_error_app2, Nat.sub_diag by lia. reflexivity. Qed.
Lemma upd_mid f a e b : NameTable.upd f (a ++ e :: b) (Z.to_nat (ntGetSize a)) = a ++ f e :: b.
Proof. unfold ntGetSize. rewrite Nat2Z.id. induction a as [|x a IH]; [reflexivity|]. cbn [app List.length NameTable.upd]. rewrite IH. reflexivity. Qed.
Lemma undef_mid a b : ntUndefName (a ++ b) (ntGetSize a) = a.
Proof. unfold ntUndefName, ntGetSize. rewrite Nat2Z.id, firstn_app, firstn_all, Nat.sub_diag. cbn [firstn]. apply app_nil_r. Qed.
Lemma size_app a b : ntGetSize (a ++ b) = ntGetSize a + ntGetSize b. Proof. unfold ntGetSize. rewrite app_length. lia. Qed.
Lemma sym_mid a e b : symText (a ++ e :: b) (ntGetSize a) = pre (nPub e) ++ nName e.
Proof. unfold symText, nameAt, pubAt. rewrite ent_mid. destruct (nPub e); reflexivity. Qed.
Lemma scan_split p t : forall i j, scan p t i = Some j -> exists a e b, t = a ++ e :: b /\ j = i + ntGetSize a /\ p e = true /\ List.find p a = None.
Proof.
  induction t as [|x t IH]; intros i j H; [discriminate H|]. cbn [scan] in H. destruct (p x) eqn:P.
  - injection H as <-. exists [], x, t. cbn [ntGetSize List.length]. repeat split; [unfold ntGetSize; cbn; lia|exact P].
  - destruct (IH _ _ H) as (a & e & b & -> & -> & E & F). exists (x :: a), e, b. split; [reflexivity|]. split; [unfold ntGetSize; cbn [List.length]; lia|]. split; [exact E|]. cbn [List.find]. rewrite P. exact F.
Qed.
Lemma scan_none p t : forall i, scan p t i = None -> List.find p t = None.
Proof. induction t as [|x t IH]; intros i H; [reflexivity|]. cbn [scan] in H. cbn [List.find]. destruct (p x); [discriminate H|]. exact (IH _ H). Qed.
(* what the search for an earlier declaration of the name entered last finds *)
Lemma glob_cases t e : let idx := ntSrcGlob (t ++ [e]) (ntGetSize t) in
  (idx = -1 /\ List.find (gl (nName e)) t = None) \/
  (exists a e1 b, t = a ++ e1 :: b /\ idx = ntGetSize a /\ isGlob (nScope e1) = true /\ nName e1 = nName e /\ List.find (gl (nName e1)) a = None).
Proof.
  cbv zeta. unfold ntSrcGlob. rewrite (ent_mid t e []). pose proof (undef_mid t [e]) as U. unfold ntUndefName in U. rewrite U. clear U.
  destruct (scan _ t 0) as [j|] eqn:S; [right|left; split; [reflexivity|exact (scan_none _ _ _ S)]].
  destruct (scan_split _ _ _ _ S) as (a & e1 & b & -> & -> & P & F). apply andb_true_iff in P. destruct P as [G E]. apply zl_eq in E.
  exists a, e1, b. split; [reflexivity|]. split; [lia|]. split; [exact G|]. split; [exact E|]. rewrite E. exact F.
Qed.

Lemma noNam_dwLabs k : forall ln, noNam (dwLabs k ln).
Proof. induction k; intros ln; [reflexivity|]. apply IHk. Qed.
Lemma noNam_ptrRows n : forall cnt ln l, noNam (ptrRows n cnt ln l).
Proof. induction n as [|n IH]; intros cnt ln l; [reflexivity|]. exact (noNam_app _ _ (noNam_dwLabs _ _) (IH _ _ _)). Qed.
Lemma noNam_endRows n dir : isNam dir = false -> forall l, noNam (endRows n dir l).
Proof. intros D. induction n as [|n IH]; intros l; [reflexivity|]. unfold noNam. cbn [endRows forallb isNam]. rewrite D. exact (IH _). Qed.
Lemma noNam_genArray0 node : forall n d l ln c l', genArray0 node n d l = Some (ln, c, l') -> noNam c.
Proof.
  induction node as [|v|i|s|lv IH1 rv IH2|d0 IH r|d0 IH r]; intros n d l ln c l' H; cbn [genArray0] in H; try discriminate H.
  - injection H as <- <- <-. apply noNam_endRows. destruct (_ =? _); reflexivity.
  - destruct rv as [|cnt| | | | |]; try discriminate H. destruct (genArray0 lv (n * cnt) (d - 1) l) as [((ln1, c1), l1)|] eqn:G; [|discriminate H]. injection H as <- <- <-.
    exact (noNam_app _ _ (IH1 _ _ _ _ _ _ G) (noNam_ptrRows _ _ _ _)).
Qed.
Lemma noNam_genDW d c : genDW d = Some c -> noNam c.
Proof. destruct d; cbn [genDW]; intros H; try discriminate H; injection H as <-; reflexivity. Qed.
Lemma noNam_genList0 node : forall dim byt l node' c l', genList0 node dim byt l = Some (node', c, l') -> noNam c.
Proof.
  assert (forall (node node' : dat) (byt : bool) (l : Z) (c : list asm) (l' : Z) (z : bool), 
    (if z then (if byt then match node with DCnst v => Some (node, [ADbCns v], l) | _ => None end else match genDW node with Some c => Some (node, c, l) | None => None end) else Some (node, [], l)) = Some (node', c, l') -> noNam c) as LEAF.
  { intros n0 n1 byt l c l' z H. destruct z; [|injection H as <- <- <-; reflexivity]. destruct byt.
    - destruct n0; try discriminate H. injection H as <- <- <-. reflexivity.
    - destruct (genDW n0) eqn:G; [|discriminate H]. injection H as <- <- <-. exact (noNam_genDW _ _ G). }
  induction node as [|v|i|s|a IHa b IHb|d0 IH r|d0 IH r]; intros dim byt l node' c l' H; cbn [genList0] in H; try match type of H with _ = Some (_, _, _) => match goal with H : context [genDW ?n] |- _ => first [exact (LEAF n node' byt l c l' (dim =? 0) H)|idtac] end end.
  - destruct (genList0 a _ byt l) as [((a', c1), l1)|] eqn:G1; [|discriminate H]. destruct (genList0 b _ byt l1) as [((b', c2), l2)|] eqn:G2; [|discriminate H]. injection H as <- <- <-.
    exact (noNam_app _ _ (IHa _ _ _ _ _ _ G1) (IHb _ _ _ _ _ _ G2)).
  - destruct (dim =? 0); [exact (LEAF (DList d0 r) node' byt l c l' true H)|]. destruct (dim =? 1).
    + destruct (genList0 d0 _ _ _) as [((d', c1), l1)|] eqn:G; [|discriminate H]. injection H as <- <- <-. exact (IH _ _ _ _ _ _ G).
    + destruct (genList0 d0 _ _ _) as [((d', c1), l1)|] eqn:G; [|discriminate H]. injection H as <- <- <-. exact (IH _ _ _ _ _ _ G).
  - destruct (dim =? 0); [exact (LEAF (DArry d0 r) node' byt l c l' true H)|]. destruct (dim =? 1).
    + destruct (genArray0 _ _ _ _) as [((d', c1), l1)|] eqn:G; [|discriminate H]. injection H as <- <- <-. exact (noNam_genArray0 _ _ _ _ _ _ _ G).
    + injection H as <- <- <-. reflexivity.
Qed.
Lemma noNam_genList k : forall node l node' c l', genList k node l = Some (node', c, l') -> noNam c.
Proof.
  induction k as [|k IH]; intros node l node' c l' H; cbn [genList] in H; [injection H as <- <- <-; reflexivity|].
  destruct (genList0 node (Z.of_nat (S k)) false l) as [((n1, c1), l1)|] eqn:G1; [|discriminate H]. destruct (genList k n1 l1) as [((n2, c2), l2)|] eqn:G2; [|discriminate H]. injection H as <- <- <-.
  exact (noNam_app _ _ (noNam_genList0 _ _ _ _ _ _ _ G1) (IH _ _ _ _ _ G2)).
Qed.
(* the data of a variable: its name once, before the word that holds its value *)
Lemma data_name idx dim root l c l' : genData idx dim root l = Some (c, l') -> exists p d, c = p ++ [ANam idx; d] /\ noNam p /\ (exists n, d = ADwName n \/ d = ADwLab n \/ d = ADwCns n).
Proof.
  intros H. unfold genData in H.
  destruct (match root with DList _ _ => _ | DArry _ _ => _ | _ => _ end) as [((root', c0), l1)|] eqn:G; [|discriminate H].
  destruct (genDW root') as [dw|] eqn:W; [|discriminate H]. injection H as <- <-. exists c0.
  assert (noNam c0) as N0.
  { destruct root; try (injection G as <- <- <-; reflexivity).
    - exact (noNam_genList _ _ _ _ _ _ G).
    - destruct (genArray0 _ _ _ _) as [((d', c1), l2)|] eqn:E; [|discriminate G]. injection G as <- <- <-. exact (noNam_genArray0 _ _ _ _ _ _ _ E). }
  destruct root'; cbn [genDW] in W; try discriminate W; injection W as <-; eexists; (split; [reflexivity|]); (split; [exact N0|]); eexists; tauto.
Qed.

(* ---- the declarations ---- *)
Section P.
Variables opt krn : bool.
Lemma at_mid {A} (f : entry -> A) (d : A) a e b : match NameTable.ent (a ++ e :: b) (ntGetSize a) with Some e => f e | None => d end = f e.
Proof. rewrite ent_mid. reflexivity. Qed.
Lemma scopeAt_mid a e b : scopeAt (a ++ e :: b) (ntGetSize a) = nScope e. Proof. unfold scopeAt. rewrite ent_mid. reflexivity. Qed.
Lemma pubAt_mid a e b : pubAt (a ++ e :: b) (ntGetSize a) = nPub e. Proof. unfold pubAt. rewrite ent_mid. reflexivity. Qed.
Lemma perr_ok b e u : perr_if b e = POk u -> b = false. Proof. destruct b; [discriminate|reflexivity]. Qed.
Lemma body_out root g g' : compileBody opt krn root g = POk g' -> gnt g' = gnt g /\ exists c, outp (ge g') = outp (ge g) ++ [ANam (funcIdx g); ACode c].
Proof.
  unfold compileBody. intros H. apply bind_ok in H. destruct H as (r & _ & H). destruct (VmCode.genFunc _ _ _ _ _ _) as [[c l]|]; [|discriminate H]. injection H as <-. split; [reflexivity|]. eexists. reflexivity.
Qed.
Lemma glob_fun s : isGlob s = true -> (s =? ScCOMM) || (s =? ScGVAR) = false -> s = ScPROT \/ s = ScFUNC.
Proof. unfold isGlob. destruct (Z.eqb_spec s ScPROT); [tauto|]. destruct (Z.eqb_spec s ScFUNC); [tauto|]. cbn [orb]. congruence. Qed.
Lemma size_pos a : 0 <= ntGetSize a. Proof. unfold ntGetSize. lia. Qed.
Lemma le_size a : (0 <=? ntGetSize a) = true. Proof. apply Z.leb_le, size_pos. Qed.
Definition setC (c : Z) (e : entry) : entry := Ent (nName e) (nScope e) (nType e) (nDim e) c (nPub e).
Lemma void_mid a x : forall b, ntSetVoid (ntUndefName (a ++ x ++ b) (ntGetSize (a ++ x))) (ntGetSize a) = a ++ map voided x.
Proof.
  intros b. rewrite app_assoc, undef_mid. unfold ntSetVoid, ntGetSize. rewrite Nat2Z.id, firstn_app, firstn_all, Nat.sub_diag, skipn_app, skipn_all, Nat.sub_diag. cbn [firstn skipn app]. rewrite app_nil_r. reflexivity.
Qed.

Lemma undef_end t : ntUndefName t (ntGetSize t) = t.
Proof. unfold ntUndefName, ntGetSize. rewrite Nat2Z.id. apply firstn_all. Qed.
Lemma func_inv t e g x g' x' : gnt g = t ++ [e] -> nPub e = pubFlag g -> nScope e = ScPROT -> Inv t (defsP x) -> getFuncT opt krn g x = POk (g', x') -> Inv (gnt g') (defsP x').
Proof.
  intros T P S Iv H. unfold getFuncT in H. cbv zeta in H. cbn [wFunc gnt curType curDim pubFlag] in H.
  assert (ntGetSize (gnt g) - 1 = ntGetSize t) as FI by (rewrite T, size_app; unfold ntGetSize; cbn [List.length]; lia). rewrite FI in H.
  rewrite T in H. set (idx := ntSrcGlob (t ++ [e]) (ntGetSize t)) in H.
  apply bind_ok in H. destruct H as (u1 & C1 & H). apply perr_ok in C1. apply bind_ok in H. destruct H as (u2 & C2 & H). apply perr_ok in C2. apply bind_ok in H. destruct H as (_ & _ & H).
  apply bind_ok in H. destruct H as (g3 & P3 & H).
  match type of P3 with getParams _ _ ?G = _ => assert (keep G g3) as K3 by exact (ac_get _ _ _ (k_params krn (idx + 1) G) P3);
    assert (outp (ge G) = outp (ge g)) as O0 by exact (quiet_out _ _ (quiet_getTok _)); assert (gnt G = t ++ [e]) as T0 by exact T; assert (funcIdx G = ntGetSize t) as F0 by reflexivity; set (g2 := G) in * end.
  destruct K3 as [(p3 & O3 & N3) [[x3 T3] F3]]. rewrite O0 in O3. rewrite T0 in T3. rewrite F0 in F3. rewrite ?T0 in H. clear P3 O0 T0 F0. try clear g2.
  apply bind_ok in H. destruct H as (_ & _ & H). apply bind_ok in H. destruct H as (_ & _ & H). apply bind_ok in H. destruct H as (g8 & E8 & H).
  set (pc := ntGetSize (gnt g3) - _) in *. cbn [wNt gnt] in *. rewrite <- app_assoc in T3. cbn [app] in T3. rewrite T3 in *.
  unfold ntSetCnt in E8, H. rewrite upd_mid in E8, H. fold (setC pc e) in E8, H.
  (* the state after the body *)
  assert ((exists x8, gnt g8 = t ++ setC pc e :: x3 ++ x8 /\ exists p, outp (ge g8) = outp (ge g) ++ p /\ noNam p) \/
          (exists t' x8 p c, gnt g8 = t' ++ setS ScFUNC (setC pc e) :: x3 ++ x8 /\ ntGetSize t' = ntGetSize t /\ outp (ge g8) = outp (ge g) ++ p ++ [ANam (ntGetSize t); ACode c] /\ noNam p /\
             ((t' = t /\ idx = -1) \/ exists a e1 b, t = a ++ e1 :: b /\ t' = a ++ setS ScFUNC e1 :: b /\ idx = ntGetSize a /\ nScope e1 = ScPROT))) as C8.
  { match type of E8 with match ?M with _ => _ end = _ => destruct M as [g5|] eqn:K end.
    2:{ left. pose proof (ac_get _ _ _ (ac_gChkTok _ _) E8) as Q. exists []. rewrite app_nil_r. destruct (keep_quiet _ _ Q) as [(p & O & N) _]. destruct Q as (ee & -> & _ & OO & _). split; [reflexivity|].
        exists (p3 ++ p). split; [|apply noNam_app; assumption]. rewrite O. cbn [wNt ge]. rewrite O3, app_assoc. reflexivity. }
    right. pose proof (quiet_isTok _ _ _ K) as Q5. destruct (keep_quiet _ _ Q5) as [(p5 & O5 & N5) _]. destruct Q5 as (e5 & -> & _). cbn [wE wNt gnt ge wScope funcIdx] in *.
    apply bind_ok in E8. destruct E8 as (u8 & C8 & E8). apply perr_ok in C8. apply bind_ok in E8. destruct E8 as ([root g7] & B7 & E8). apply bind_ok in E8. destruct E8 as (_ & _ & E8).
    match type of B7 with getBlock _ _ ?G = _ => pose proof (ac_get _ _ _ (k_block krn (getStat krn) G (k_stat krn)) B7) as K7; set (g6 := G) in * end. cbn [snd] in K7.
    assert (outp (ge g6) = outp e5) as O6 by (unfold g6; destruct (0 <=? idx); reflexivity). assert (funcIdx g6 = ntGetSize t) as F6 by (unfold g6; destruct (0 <=? idx); exact F3).
    destruct K7 as [(p7 & O7 & N7) [[x7 T7] F7]]. rewrite O6 in O7. rewrite F6 in F7. destruct (body_out _ _ _ E8) as [T8 (c & O8)]. rewrite F7 in O8.
    assert (exists t', gnt g6 = t' ++ setS ScFUNC (setC pc e) :: x3 /\ ntGetSize t' = ntGetSize t /\ ((t' = t /\ idx = -1) \/ exists a e1 b, t = a ++ e1 :: b /\ t' = a ++ setS ScFUNC e1 :: b /\ idx = ntGetSize a /\ nScope e1 = ScPROT)) as (t' & T6 & L6 & X6).
    { destruct (glob_cases t e) as [[I _]|(a & e1 & b & Tt & I & G & Nm & Fn)]; fold idx in I.
      - exists t. split; [|split; [reflexivity|left; split; [reflexivity|exact I]]]. unfold g6. rewrite I. cbn [Z.leb Z.compare]. cbn [wCnt wMax wNt gnt wScope wE]. unfold ntSetScope. rewrite upd_mid. reflexivity.
      - rewrite I, le_size in C1, C8. rewrite Tt, <- app_assoc in C1. rewrite Tt, <- app_assoc in C8. cbn [app] in C1, C8. rewrite !scopeAt_mid in C1. rewrite scopeAt_mid in C8. cbn [andb] in C1, C8.
        apply negb_false_iff, Z.eqb_eq in C8. exists (a ++ setS ScFUNC e1 :: b). split; [|split; [rewrite Tt, !size_app; unfold ntGetSize; cbn [List.length]; lia|right; exists a, e1, b; repeat split; assumption]].
        unfold g6. rewrite I, le_size. cbn [wCnt wMax wNt gnt wScope wE]. unfold ntSetScope. rewrite Tt, <- app_assoc. cbn [app]. rewrite upd_mid. fold (setS ScFUNC e1).
        replace (ntGetSize (a ++ e1 :: b)) with (ntGetSize (a ++ setS ScFUNC e1 :: b)) by (unfold ntGetSize; rewrite !app_length; reflexivity).
        change (a ++ setS ScFUNC e1 :: b ++ setC pc e :: x3) with (a ++ (setS ScFUNC e1 :: b) ++ setC pc e :: x3). rewrite app_assoc, upd_mid, <- !app_assoc. reflexivity. }
    exists t', x7, (p3 ++ p5 ++ p7), c. rewrite T8, T7, T6, <- app_assoc. split; [reflexivity|]. split; [exact L6|]. split; [|split; [repeat apply noNam_app; assumption|exact X6]].
    rewrite O8, O7, O5, O3, <- !app_assoc. reflexivity. }
  clear E8. injection H as <- <-.
  destruct C8 as [(x8 & T8 & p & O8 & N8)|(t' & x8 & p & c & T8 & L8 & O8 & N8 & X8)].
  - rewrite (defsP_new _ _ _ _ O8). rewrite <- (app_nil_r p), (defsK_no _ _ [] N8). cbn [defsK]. rewrite app_nil_r.
    destruct (0 <=? idx); cbn [wNt gnt]; rewrite T8.
    + rewrite undef_mid. exact Iv.
    + replace (ntGetSize (t ++ [e])) with (ntGetSize (t ++ [setC pc e])) by (rewrite !size_app; reflexivity).
      change (t ++ setC pc e :: x3 ++ x8) with (t ++ [setC pc e] ++ x3 ++ x8). change (t ++ setC pc e :: x3) with (t ++ [setC pc e] ++ x3). rewrite !app_assoc with (l := t), void_mid, <- app_assoc. apply inv_ext. exact Iv.
  - rewrite (defsP_new _ _ _ _ O8), (defsK_no _ _ _ N8). cbn [defsK kindOf]. rewrite T8, <- L8, sym_mid. cbn [setS setC nPub nName].
    destruct X8 as [[-> I8]|(a & e1 & b & -> & -> & I8 & S1)].
    + rewrite I8. cbn [Z.leb Z.compare wNt gnt]. replace (ntGetSize (t ++ [e])) with (ntGetSize (t ++ [setS ScFUNC (setC pc e)])) by (rewrite !size_app; reflexivity).
      replace (ntGetSize (t ++ setC pc e :: x3)) with (ntGetSize ((t ++ [setS ScFUNC (setC pc e)]) ++ x3)) by (rewrite !size_app; unfold ntGetSize; cbn [List.length]; lia).
      change (t ++ setS ScFUNC (setC pc e) :: x3 ++ x8) with (t ++ [setS ScFUNC (setC pc e)] ++ x3 ++ x8). rewrite app_assoc with (l := t), void_mid, <- app_assoc. cbn [app].
      apply (inv_new t (setS ScFUNC (setC pc e)) _ _ KFun Iv); [|reflexivity|reflexivity].
      destruct (glob_cases t e) as [[_ F]|(a & e1 & b & _ & I & _)]; [exact F|]. fold idx in I. pose proof (size_pos a). lia.
    + rewrite I8, le_size. cbn [wNt gnt]. rewrite undef_mid.
      destruct (glob_cases (a ++ e1 :: b) e) as [[I _]|(a' & e1' & b' & Tt & I & G & Nm & Fn)]; fold idx in I; [pose proof (size_pos a); lia|].
      assert (a' = a /\ e1' = e1 /\ b' = b) as (-> & -> & ->).
      { rewrite I in I8. assert (List.length a' = List.length a) as LL by (unfold ntGetSize in I8; lia). clear -Tt LL. revert a' Tt LL. induction a as [|y a IH]; intros [|y' a'] Tt LL; cbn [List.length app] in *; try discriminate LL.
        - injection Tt as <- <-. repeat split.
        - injection Tt as <- Tt. injection LL as LL. destruct (IH _ Tt LL) as (-> & -> & ->). repeat split. }
      rewrite I8, le_size in C2. rewrite <- app_assoc in C2. cbn [app andb] in C2. apply orb_false_iff in C2. destruct C2 as [_ C2]. apply negb_false_iff, Bool.eqb_prop in C2. rewrite pubAt_mid, <- P in C2.
      rewrite <- Nm, <- C2. apply inv_def; try assumption; try reflexivity; rewrite S1.
      * intros k. destruct k; cbn [okK]; unfold ScPROT, ScFUNC, ScCOMM, ScGVAR; lia.
      * cbn [okK]. discriminate.
Qed.

Lemma quiet_all g g' : quiet g g' -> gnt g' = gnt g /\ curScope g' = curScope g /\ pubFlag g' = pubFlag g.
Proof. intros (e & -> & _). repeat split. Qed.
Lemma gvar_inv t e g x g' x' : gnt g = t ++ [e] -> nPub e = pubFlag g -> nScope e = ScCOMM -> Inv t (defsP x) -> getGVarT g x = POk (g', x') -> Inv (gnt g') (defsP x') /\ curScope g' = curScope g /\ pubFlag g' = pubFlag g.
Proof.
  intros T P S Iv H. unfold getGVarT in H. cbv zeta in H.
  assert (ntGetSize (gnt g) - 1 = ntGetSize t) as FI by (rewrite T, size_app; unfold ntGetSize; cbn [List.length]; lia). rewrite FI in H.
  assert (ntSrcGlob (gnt g) (ntGetSize t) = ntSrcGlob (t ++ [e]) (ntGetSize t)) as E0 by (rewrite T; reflexivity). rewrite E0 in H. clear E0. set (idx := ntSrcGlob (t ++ [e]) (ntGetSize t)) in H.
  apply bind_ok in H. destruct H as ([g1 x1] & H1 & H). apply bind_ok in H. destruct H as (u & C2 & H). apply perr_ok in C2. injection H as -> ->.
  destruct (glob_cases t e) as [[I F]|(a & e1 & b & Tt & I & G & Nm & Fn)]; fold idx in I.
  - rewrite I in H1. cbn [Z.leb Z.compare] in H1. clear C2. destruct (gIsTok cEQ g) as [g1|] eqn:K.
    + pose proof (quiet_isTok _ _ _ K) as Q. destruct (quiet_all _ _ Q) as (T1 & S1 & P1). destruct (keep_quiet _ _ Q) as [(p1 & O1 & N1) _].
      apply bind_ok in H1. destruct H1 as ([d g2] & GI & H1). match type of GI with (if 0 <? curDim ?G then _ else _) = _ => fold (init_of G) in GI; pose proof (ac_get _ _ _ (k_init G) GI) as K2 end. cbn [snd] in K2.
      destruct K2 as [[(p2 & O2 & N2) _] R]. destruct (genData _ _ _ _) as [[c l]|] eqn:GD; [|discriminate H1]. injection H1 as <- <-. destruct (data_name _ _ _ _ _ _ GD) as (p & w & -> & Np & nn & W).
      assert (gnt g2 = t ++ [setS ScGVAR e]) as T2 by (rewrite R; cbn [wE wNt gnt]; rewrite T1, T; unfold ntSetScope; rewrite upd_mid; reflexivity).
      cbn [wE gnt curScope pubFlag]. split; [|rewrite R; split; assumption].
      rewrite (defsP_new _ _ _ (p1 ++ p2 ++ p ++ [ANam (ntGetSize t); w])) by (cbn [wE ge outp]; rewrite O2; cbn [wNt ge]; rewrite O1, <- !app_assoc; reflexivity).
      rewrite !defsK_no by assumption. cbn [wE gnt]. rewrite T2. cbn [defsK]. rewrite sym_mid. cbn [setS nPub nName].
      match goal with |- Inv _ (_ ++ (kindOf ?L, ?s) :: ?M) => assert ((kindOf L, s) :: M = [(KDat, s)]) as -> by (destruct W as [W|[W|W]]; rewrite W; reflexivity) end.
      apply (inv_new t (setS ScGVAR e) [] _ KDat Iv F); reflexivity.
    + injection H1 as <- <-. cbn [ParserStmt.emit wE gnt curScope pubFlag]. split; [|split; reflexivity]. rewrite T.
      rewrite (defsP_new _ _ _ (genBss (ntGetSize t))) by reflexivity. unfold genBss. cbn [defsK kindOf ParserStmt.emit wE gnt]. rewrite T, sym_mid.
      apply (inv_new t e [] _ KBss Iv F); rewrite S; [reflexivity|left; reflexivity].
  - rewrite I, le_size in H1. rewrite I, le_size in C2. cbn [andb] in C2. destruct (gIsTok cEQ g) as [g1|] eqn:K.
    + pose proof (quiet_isTok _ _ _ K) as Q. destruct (quiet_all _ _ Q) as (T1 & S1 & P1). destruct (keep_quiet _ _ Q) as [(p1 & O1 & N1) _].
      apply bind_ok in H1. destruct H1 as ([d g2] & GI & H1). match type of GI with (if 0 <? curDim ?G then _ else _) = _ => fold (init_of G) in GI; pose proof (ac_get _ _ _ (k_init G) GI) as K2 end. cbn [snd] in K2.
      destruct K2 as [[(p2 & O2 & N2) _] R]. destruct (genData _ _ _ _) as [[c l]|] eqn:GD; [|discriminate H1].
      assert (gnt g2 = t ++ [setS ScGVAR e]) as T2 by (rewrite R; cbn [wE wNt gnt]; rewrite T1, T; unfold ntSetScope; rewrite upd_mid; reflexivity).
      cbn [wE gnt] in H1. rewrite T2 in H1. rewrite Tt, <- app_assoc in H1. cbn [app] in H1. rewrite scopeAt_mid in H1. destruct (nScope e1 =? ScCOMM) eqn:SC; [|discriminate H1]. apply Z.eqb_eq in SC. cbn [negb] in H1.
      injection H1 as <- <-. destruct (data_name _ _ _ _ _ _ GD) as (p & w & -> & Np & nn & W).
      assert (ntUndefName (ntSetScope (a ++ e1 :: b ++ [setS ScGVAR e]) (ntGetSize a) ScGVAR) (ntGetSize (a ++ e1 :: b)) = a ++ setS ScGVAR e1 :: b) as TU.
      { unfold ntSetScope. rewrite upd_mid. fold (setS ScGVAR e1). replace (ntGetSize (a ++ e1 :: b)) with (ntGetSize (a ++ setS ScGVAR e1 :: b)) by (unfold ntGetSize; rewrite !app_length; reflexivity).
        change (a ++ setS ScGVAR e1 :: b ++ [setS ScGVAR e]) with (a ++ (setS ScGVAR e1 :: b) ++ [setS ScGVAR e]). rewrite app_assoc. apply undef_mid. }
      cbn [wNt wE gnt curScope pubFlag curType curDim] in C2 |- *. rewrite TU in C2 |- *. split; [|rewrite R; split; assumption].
      apply orb_false_iff in C2. destruct C2 as [_ C2]. apply negb_false_iff, Bool.eqb_prop in C2. rewrite pubAt_mid in C2. cbn [setS nPub] in C2. rewrite R in C2. cbn [wE wNt pubFlag] in C2. rewrite P1, <- P in C2.
      rewrite (defsP_new _ _ _ (p1 ++ p2 ++ p ++ [ANam (ntGetSize t); w])) by (cbn [wE ge outp]; rewrite O2; cbn [wNt ge]; rewrite O1, <- !app_assoc; reflexivity).
      rewrite !defsK_no by assumption. cbn [wE gnt]. rewrite T2. cbn [defsK]. rewrite sym_mid. cbn [setS nPub nName].
      match goal with |- Inv _ (_ ++ (kindOf ?L, ?s) :: ?M) => assert ((kindOf L, s) :: M = [(KDat, s)]) as -> by (destruct W as [W|[W|W]]; rewrite W; reflexivity) end.
      rewrite <- Nm, <- C2. rewrite Tt in Iv. fold (setS ScGVAR e1). apply inv_def; try assumption; try reflexivity; rewrite SC.
      * intros k. destruct k; cbn [okK]; unfold ScPROT, ScFUNC, ScCOMM, ScGVAR; lia.
      * cbn [okK]. discriminate.
    + destruct (_ || _); [|discriminate H1]. injection H1 as <- <-. cbn [wNt gnt curScope pubFlag]. rewrite T, undef_mid. split; [exact Iv|split; reflexivity].
Qed.
Lemma named_ok pub g i g' : getName krn pub g = POk (i, g') -> exists e, gnt g' = gnt g ++ [e] /\ nPub e = pub /\ nScope e = curScope g /\ curScope g' = curScope g /\ pubFlag g' = pubFlag g.
Proof.
  intros H. destruct (ac_get _ _ _ (ac_named krn pub g) H) as (n & g1 & Q & E). cbn [snd] in E. destruct (quiet_all _ _ Q) as (A & B & C). subst g'. eexists. cbn [wNt gnt curScope pubFlag]. rewrite A, B, C. repeat split.
Qed.
Lemma gvarsLoop_inv f : forall g x g' x', curScope g = ScCOMM -> Inv (gnt g) (defsP x) -> gvarsLoopT krn f g x = POk (g', x') -> Inv (gnt g') (defsP x').
Proof.
  induction f as [|f IH]; intros g x g' x' S Iv H; [discriminate H|]. cbn [gvarsLoopT] in H. destruct (gIsTok cCOMMA g) as [g1|] eqn:K; [|injection H as <- <-; exact Iv].
  destruct (quiet_all _ _ (quiet_isTok _ _ _ K)) as (A & B & C). apply bind_ok in H. destruct H as ([i g2] & N & H). destruct (named_ok _ _ _ _ N) as (e & T & P & Sc & S2 & P2).
  apply bind_ok in H. destruct H as ([g3 x3] & V & H). destruct (gvar_inv (gnt g1) e g2 x g3 x3 T ltac:(congruence) ltac:(congruence) ltac:(rewrite A; exact Iv) V) as (I3 & S3 & _). apply (IH g3 x3 g' x'); [congruence|exact I3|exact H].
Qed.
Lemma gvars_inv t e g x g' x' : gnt g = t ++ [e] -> nPub e = pubFlag g -> nScope e = ScCOMM -> curScope g = ScCOMM -> Inv t (defsP x) -> getGVarsT krn g x = POk (g', x') -> Inv (gnt g') (defsP x').
Proof.
  intros T P S C Iv H. unfold getGVarsT in H. apply bind_ok in H. destruct H as ([g1 x1] & V & H). destruct (gvar_inv _ _ _ _ _ _ T P S Iv V) as (I1 & S1 & _).
  apply bind_ok in H. destruct H as ([g2 x2] & L & H). apply bind_ok in H. destruct H as (g3 & K & H). injection H as <- <-.
  destruct (quiet_all _ _ (ac_get _ _ _ (ac_gChkTok _ _) K)) as (A & _). rewrite A. exact (gvarsLoop_inv _ g1 x1 g2 x2 ltac:(congruence) I1 L).
Qed.
Lemma k_nameCnt g : keeps1 g (nameCnt krn g).
Proof. unfold nameCnt. eapply keeps1_bind; [apply keep_refl|apply k_name|]. intros i g1 G. exact (keep_set _ _ _ G eq_refl eq_refl eq_refl). Qed.
Lemma k_fieldNames f : forall g, keeps1 g (fieldNames krn f g).
Proof.
  induction f as [|f IH]; intros g; [exact I|]. cbn [fieldNames]. destruct (gIsTok cCOMMA g) as [g1|] eqn:K; [|apply keeps1_ok, keep_refl].
  eapply keeps1_bind1; [eapply k_isTok; [apply keep_refl|exact K]|apply k_nameCnt|]. intros g2 G2. exact (keeps1_from _ _ _ G2 (IH _)).
Qed.
Lemma k_fieldLine g : keeps1 g (getFieldLine krn g).
Proof.
  unfold getFieldLine. eapply keeps1_bind1; [apply keep_refl|apply k_type|]. intros g1 G1. eapply keeps1_bind1; [exact G1|apply k_nameCnt|]. intros g2 G2. eapply keeps1_bind1; [exact G2|apply k_fieldNames|]. intros g3 G3.
  exact (keeps1_from _ _ _ G3 (k_chkTok _ _)).
Qed.
Lemma k_fieldLines f : forall g, keeps1 g (fieldLines krn f g).
Proof.
  induction f as [|f IH]; intros g; [exact I|]. cbn [fieldLines]. destruct (gIsTok cRC g) as [g1|] eqn:K; [exact (k_isTok _ _ _ _ (keep_refl _) K)|].
  eapply keeps1_bind1; [apply keep_refl|apply k_fieldLine|]. intros g2 G2. exact (keeps1_from _ _ _ G2 (IH _)).
Qed.
Lemma struct_inv t e g g' D : gnt g = t ++ [e] -> Inv t D -> getStruct krn g = POk g' -> Inv (gnt g') D.
Proof.
  intros T Iv H. unfold getStruct in H. cbv zeta in H. apply bind_ok in H. destruct H as (g1 & K1 & H). destruct (quiet_all _ _ (ac_get _ _ _ (ac_gChkTok _ _) K1)) as (A & _).
  apply bind_ok in H. destruct H as (g2 & K2 & H). apply bind_ok in H. destruct H as (g3 & K3 & H). apply bind_ok in H. destruct H as (g4 & K4 & H). injection H as <-. cbn [wNt gnt].
  pose proof (keep_trans _ _ _ (ac_get _ _ _ (k_fieldLine _) K2) (keep_trans _ _ _ (ac_get _ _ _ (k_fieldLines _ _) K3) (ac_get _ _ _ (k_chkTok _ _) K4))) as [_ [[x X] _]]. cbn [wCnt wScope gnt] in X.
  rewrite X, A, T. match goal with |- Inv (ntSetCnt _ _ ?c) _ => generalize c end. intros c.
  pose proof (void_mid (t ++ [e]) x []) as V. rewrite app_nil_r, undef_end in V. rewrite V. replace (ntGetSize (t ++ [e]) - 1) with (ntGetSize t) by (rewrite size_app; unfold ntGetSize; cbn [List.length]; lia).
  unfold ntSetCnt. rewrite <- app_assoc. cbn [app]. rewrite upd_mid. apply inv_ext. exact Iv.
Qed.
Lemma prog_inv g x g' x' : Inv (gnt g) (defsP x) -> getProgT opt krn g x = POk (g', x') -> Inv (gnt g') (defsP x').
Proof.
  intros Iv H. unfold getProgT in H. cbv zeta in H. set (g1 := match gIsTok LxPUBLIC (wPub g false) with Some g => wPub g true | None => wPub g false end) in *.
  assert (gnt g1 = gnt g) as T1 by (unfold g1; destruct (gIsTok LxPUBLIC (wPub g false)) as [g0|] eqn:K; [exact (proj1 (quiet_all _ _ (quiet_isTok _ _ _ K)))|reflexivity]).
  destruct (gIsTok LxSTRUCT g1) as [g2|] eqn:K2; [|destruct (gIsTok LxTYPEDEF g1) as [g2|] eqn:K3].
  - apply bind_ok in H. destruct H as (g3 & A & H). injection H as <- <-. unfold getProg in A. cbv zeta in A. fold g1 in A. rewrite K2 in A.
    destruct (pubFlag _); [discriminate A|]. apply bind_ok in A. destruct A as ([i g4] & N & A). destruct (named_ok _ _ _ _ N) as (e & T & _). cbn [wType wScope gnt] in T.
    rewrite (proj1 (quiet_all _ _ (quiet_isTok _ _ _ K2))), T1 in T. exact (struct_inv _ _ _ _ _ T Iv A).
  - apply bind_ok in H. destruct H as (g3 & A & H). injection H as <- <-. unfold getProg in A. cbv zeta in A. fold g1 in A. rewrite K2, K3 in A.
    destruct (pubFlag _); [discriminate A|]. apply bind_ok in A. destruct A as ([i g4] & N & A). destruct (named_ok _ _ _ _ N) as (e & T & _). cbn [wType wScope gnt] in T.
    rewrite (proj1 (quiet_all _ _ (quiet_isTok _ _ _ K3))), T1 in T. rewrite (proj1 (quiet_all _ _ (ac_get _ _ _ (ac_gChkTok _ _) A))), T. apply inv_ext. exact Iv.
  - apply bind_ok in H. destruct H as (g2 & A & H). apply bind_ok in H. destruct H as ([i g3] & N & H). destruct (named_ok _ _ _ _ N) as (e & T & P & S & S3 & P3).
    destruct (ac_get _ _ _ (ac_gGetType _) A) as (_ & g0 & Q & E0). destruct (quiet_all _ _ Q) as (A0 & B0 & C0).
    assert (gnt g2 = gnt g /\ curScope g2 = ScPROT) as [T2 S2] by (rewrite E0; cbn [wType wDim gnt curScope]; rewrite A0, B0; split; [exact T1|reflexivity]).
    rewrite T2 in T. destruct (gtok g3 =? cLP).
    + apply (func_inv (gnt g) e g3 x g' x'); [exact T|congruence|congruence|exact Iv|exact H].
    + destruct (_ && _); [discriminate H|]. destruct (_ =? _); [discriminate H|].
      refine (gvars_inv (gnt g) (setS ScCOMM e) _ x g' x' _ _ _ _ Iv H); try reflexivity.
      * cbn [wScope wNt gnt]. rewrite T. replace (ntGetSize (gnt g ++ [e]) - 1) with (ntGetSize (gnt g)) by (rewrite size_app; unfold ntGetSize; cbn [List.length]; lia). unfold ntSetScope. rewrite upd_mid. reflexivity.
      * cbn [setS nPub wScope wNt pubFlag]. congruence.
Qed.
Lemma text_inv f : forall g x g' x', Inv (gnt g) (defsP x) -> textLoop opt krn f g x = POk (g', x') -> Inv (gnt g') (defsP x').
Proof.
  induction f as [|f IH]; intros g x g' x' Iv H; [discriminate H|]. cbn [textLoop] in H. destruct (_ =? _); [injection H as <- <-; exact Iv|].
  apply bind_ok in H. destruct H as ([g1 x1] & A & H). exact (IH _ _ _ _ (prog_inv _ _ _ _ Iv A) H).
Qed.
(* No definition is printed twice, and a symbol has two of them only if it is a variable: once
   without and once with a value. *)
Theorem names_once file ps : piecesOf opt krn file = Some ps ->
  NoDup (defsP ps) /\ forall k k' x, In (k, x) (defsP ps) -> In (k', x) (defsP ps) -> k = k' \/ (k = KBss /\ k' = KDat) \/ (k = KDat /\ k' = KBss).
Proof.
  unfold piecesOf. destruct (lexAll file) as [l| |]; try discriminate. destruct (textLoop _ _ _ _ _) as [[g x]| | |] eqn:L; try discriminate. intros H. injection H as <-.
  assert (Inv (gnt (gInit l)) (defsP [])) as I0 by (split; [constructor|intros k y []]). destruct (text_inv _ _ _ _ _ I0 L) as [N H]. split; [exact N|].
  intros k k' y A B. destruct (H _ _ A) as (n & e & F & X & Y). destruct (H _ _ B) as (n' & e' & F' & X' & Y'). rewrite X in X'. apply pre_inj in X'. destruct X' as [_ <-]. rewrite F in F'. injection F' as <-.
  destruct k, k'; cbn [okK] in Y, Y'; unfold ScFUNC, ScCOMM, ScGVAR in *; try tauto; exfalso; lia.
Qed.
End P.
