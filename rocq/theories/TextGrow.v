(* The output only grows, and the loop that prints (AsmText.v) is the loop of ParserStmt.v. *)
From Coq Require Import ZArith Bool Lia List.
From Verif Require Import Lexer NameTable SyTree OpTree VM VmCode Parser ParserStmt ParseLabs ProgInv ProgTop CCode TacSpec Tac TacFrom AsmText.
Import ListNotations.
Open Scope Z_scope.

Definition grow (g g' : gs) : Prop := exists p, outp (ge g') = outp (ge g) ++ p.
Lemma grow_refl g : grow g g. Proof. exists []. rewrite app_nil_r. reflexivity. Qed.
Lemma grow_trans a b c : grow a b -> grow b c -> grow a c.
Proof. intros [p P] [q Q]. exists (p ++ q). rewrite Q, P, app_assoc. reflexivity. Qed.
Lemma grow_same g g' : ge g' = ge g -> grow g g'. Proof. intros E. exists []. rewrite E, app_nil_r. reflexivity. Qed.
Lemma grow_strs g g' : strs (ge g) (ge g') -> grow g g'. Proof. intros (_ & ss & _ & E). eexists; exact E. Qed.
Lemma grow_quiet g g' : quiet g g' -> grow g g'.
Proof. intros (e & -> & _ & E & _). exists []. rewrite app_nil_r. exact E. Qed.
Lemma grow_reads g g' : reads g g' -> grow g g'. Proof. intros [_ H]. apply grow_strs. exact H. Qed.
Definition grows {A} (g : gs) (r : pres (A * gs)) : Prop := ac r (fun x => grow g (snd x)).
Definition grows1 (g : gs) (r : pres gs) : Prop := ac r (grow g).
Lemma grows_bind {A B} g g1 (r : pres (A * gs)) (f : A * gs -> pres (B * gs)) :
  grow g g1 -> grows g1 r -> (forall a g2, grow g g2 -> grows g (f (a, g2))) -> grows g (pbind r f).
Proof. intros G R F. eapply ac_bind; [exact R|]. intros [a g2] H. apply F. exact (grow_trans _ _ _ G H). Qed.
Lemma grows_bind1 {B} g g1 (r : pres gs) (f : gs -> pres (B * gs)) :
  grow g g1 -> grows1 g1 r -> (forall g2, grow g g2 -> grows g (f g2)) -> grows g (pbind r f).
Proof. intros G R F. eapply ac_bind; [exact R|]. intros g2 H. apply F. exact (grow_trans _ _ _ G H). Qed.
Lemma grows1_bind {A} g g1 (r : pres (A * gs)) (f : A * gs -> pres gs) :
  grow g g1 -> grows g1 r -> (forall a g2, grow g g2 -> grows1 g (f (a, g2))) -> grows1 g (pbind r f).
Proof. intros G R F. eapply ac_bind; [exact R|]. intros [a g2] H. apply F. exact (grow_trans _ _ _ G H). Qed.
Lemma grows1_bind1 g g1 (r : pres gs) (f : gs -> pres gs) :
  grow g g1 -> grows1 g1 r -> (forall g2, grow g g2 -> grows1 g (f g2)) -> grows1 g (pbind r f).
Proof. intros G R F. eapply ac_bind; [exact R|]. intros g2 H. apply F. exact (grow_trans _ _ _ G H). Qed.
Lemma grows_skip {A B} g (r : pres A) (f : A -> pres (B * gs)) : (forall a, grows g (f a)) -> grows g (pbind r f).
Proof. intros F. eapply ac_bind; [apply ac_skip|]. intros a _. apply F. Qed.
Lemma grows1_skip {A} g (r : pres A) (f : A -> pres gs) : (forall a, grows1 g (f a)) -> grows1 g (pbind r f).
Proof. intros F. eapply ac_bind; [apply ac_skip|]. intros a _. apply F. Qed.
Lemma grows_ok {A} g (a : A) g' : grow g g' -> grows g (POk (a, g')). Proof. exact (fun H => H). Qed.
Lemma grows1_ok g g' : grow g g' -> grows1 g (POk g'). Proof. exact (fun H => H). Qed.
Lemma grows_from {A} g g1 (r : pres (A * gs)) : grow g g1 -> grows g1 r -> grows g r.
Proof. intros G R. apply (ac_mono _ _ _ R). intros x. apply grow_trans. exact G. Qed.
Lemma grows1_from g g1 (r : pres gs) : grow g g1 -> grows1 g1 r -> grows1 g r.
Proof. intros G R. apply (ac_mono _ _ _ R). intros x. apply grow_trans. exact G. Qed.
Lemma grow_set g g1 g2 : grow g g1 -> ge g2 = ge g1 -> grow g g2. Proof. intros [p P] E. exists p. rewrite E. exact P. Qed.

Lemma g_chkTok k g : grows1 g (gChkTok k g). Proof. eapply ac_mono; [apply ac_gChkTok|]. exact (grow_quiet g). Qed.
Lemma g_isTok k g0 g g' : grow g0 g -> gIsTok k g = Some g' -> grow g0 g'.
Proof. intros G H. exact (grow_trans _ _ _ G (grow_quiet _ _ (quiet_isTok _ _ _ H))). Qed.
Lemma g_expr g : grows g (gExpr g).
Proof. unfold gExpr. eapply ac_bind; [apply ac_getExpr|]. intros [w e] [A _]. cbn [ac snd]. apply grow_strs. exact A. Qed.
Lemma g_asExpr g : grows g (gAsExpr g).
Proof. unfold gAsExpr. eapply ac_bind; [apply ac_getAsExpr|]. intros [w e] [A _]. cbn [ac snd]. apply grow_strs. exact A. Qed.
Lemma g_type g : grows1 g (gGetType g).
Proof. eapply ac_mono; [apply ac_gGetType|]. intros g' (_ & g1 & Q & ->). exact (grow_set _ _ _ (grow_quiet _ _ Q) eq_refl). Qed.
Lemma g_name krn pub g : grows g (getName krn pub g).
Proof. eapply ac_mono; [apply ac_named|]. intros [i g'] (n & g1 & Q & E). cbn [snd] in *. subst g'. exact (grow_set _ _ _ (grow_quiet _ _ Q) eq_refl). Qed.
Lemma g_getTok g : grow g (gGetTok g). Proof. apply grow_quiet, quiet_getTok. Qed.

Ltac gr := first [eassumption | apply grow_refl | (eapply g_isTok; [|eassumption]; gr) | (eapply grow_set; [eassumption|reflexivity]) | (apply grow_same; reflexivity)].
Section G.
Variables opt krn : bool.
Lemma g_lvar g : grows g (getLVar krn g).
Proof.
  unfold getLVar. eapply grows_bind; [|apply g_name|]; [apply grow_same; reflexivity|]. intros i g2 G.
  destruct (gIsTok cEQ g2) as [g3|] eqn:K; [|apply grows_ok; exact G].
  eapply grows_bind; [eapply g_isTok; eassumption|apply g_asExpr|]. intros w g4 G4. apply grows_skip. intros w'. apply grows_ok. exact G4.
Qed.
Lemma g_lvarsLoop f : forall sta g, grows g (lvarsLoop krn f sta g).
Proof.
  induction f as [|f IH]; intros sta g; [exact I|]. cbn [lvarsLoop]. destruct (gIsTok cCOMMA g) as [g1|] eqn:K; [|apply grows_ok; gr].
  eapply grows_bind; [eapply g_isTok; [apply grow_refl|eassumption]|apply g_lvar|]. intros s g2 G. exact (grows_from _ _ _ G (IH _ _)).
Qed.
Lemma g_lvars g : grows g (getLVars krn g).
Proof.
  unfold getLVars. eapply grows_bind1; [apply grow_refl|apply g_type|]. intros g1 G1. eapply grows_bind; [exact G1|apply g_lvar|]. intros s g2 G2.
  eapply grows_bind; [exact G2|apply g_lvarsLoop|]. intros s3 g3 G3. apply grows_ok. destruct (_ <? _); gr.
Qed.
Lemma g_cond g : grows g (getCond g).
Proof.
  unfold getCond. eapply grows_bind1; [apply grow_refl|apply g_chkTok|]. intros g1 G1. eapply grows_bind; [exact G1|apply g_expr|]. intros w g2 G2.
  apply grows_skip. intros w'. eapply grows_bind1; [exact G2|apply g_chkTok|]. intros g3 G3. exact G3.
Qed.
Definition okStat (stat : sparser) : Prop := forall g, grows g (stat g).
Lemma g_body stat g : okStat stat -> grows g (body stat g).
Proof. intros S. unfold body. eapply grows_bind; [|apply S|]; [apply grow_same; reflexivity|]. intros b g2 G2. apply grows_ok. gr. Qed.
Lemma g_if stat g : okStat stat -> grows g (getIf stat g).
Proof.
  intros S. unfold getIf. eapply grows_bind; [apply grow_refl|apply g_cond|]. intros c g1 G1. eapply grows_bind; [exact G1|apply S|]. intros b g2 G2.
  destruct (gIsTok LxELSE g2) as [g3|] eqn:K; [|exact G2]. eapply grows_bind; [eapply g_isTok; eassumption|apply S|]. intros b2 g4 G4. exact G4.
Qed.
Lemma g_while stat g : okStat stat -> grows g (getWhile stat g).
Proof. intros S. unfold getWhile. eapply grows_bind; [apply grow_refl|apply g_cond|]. intros c g1 G1. eapply grows_bind; [exact G1|apply g_body; exact S|]. intros b g2 G2. exact G2. Qed.
Lemma g_do stat g : okStat stat -> grows g (getDoWhile stat g).
Proof.
  intros S. unfold getDoWhile. eapply grows_bind; [apply grow_refl|apply g_body; exact S|]. intros b g1 G1. eapply grows_bind1; [exact G1|apply g_chkTok|]. intros g2 G2.
  eapply grows_bind; [exact G2|apply g_cond|]. intros c g3 G3. eapply grows_bind1; [exact G3|apply g_chkTok|]. intros g4 G4. exact G4.
Qed.
Lemma g_for stat g : okStat stat -> grows g (getFor krn stat g).
Proof.
  intros S. unfold getFor. cbv zeta. eapply grows_bind1; [apply grow_refl|apply g_chkTok|]. intros g1 G1.
  eapply grows_bind; [exact G1| |].
  { destruct (_ =? _); [apply grows_ok; apply grow_refl|]. unfold gIsType. destruct (isType _ _).
    - eapply grows_from; [|apply g_lvars]. apply grow_same. reflexivity.
    - eapply grows_bind; [|apply g_expr|]; [apply grow_same; reflexivity|]. intros w g2 G2. exact G2. }
  intros ini g2 G2. eapply grows_bind1; [exact G2|apply g_chkTok|]. intros g3 G3.
  eapply grows_bind; [exact G3| |].
  { destruct (_ =? _); [apply grows_ok; apply grow_refl|]. eapply grows_bind; [apply grow_refl|apply g_expr|]. intros w g4 G4. apply grows_skip. intros w'. exact G4. }
  intros cnd g4 G4. eapply grows_bind1; [exact G4|apply g_chkTok|]. intros g5 G5.
  eapply grows_bind; [exact G5| |].
  { destruct (_ =? _); [apply grows_ok; apply grow_refl|]. eapply grows_bind; [apply grow_refl|apply g_expr|]. intros w g6 G6. exact G6. }
  intros ri g6 G6. eapply grows_bind1; [exact G6|apply g_chkTok|]. intros g7 G7. eapply grows_bind; [exact G7|apply g_body; exact S|]. intros b g8 G8. apply grows_ok. gr.
Qed.
Lemma g_blockLoop stat f : okStat stat -> forall l g, grows g (blockLoop krn stat f l g).
Proof.
  intros S. induction f as [|f IH]; intros l g; [exact I|]. cbn [blockLoop]. destruct (_ || _); [apply grows_ok, grow_refl|].
  eapply grows_bind; [apply grow_refl| |].
  { unfold gIsType. destruct (isType _ _).
    - eapply grows_bind; [|apply g_lvars|]; [apply grow_same; reflexivity|]. intros r g1 G1. eapply grows_bind1; [exact G1|apply g_chkTok|]. intros g2 G2. exact G2.
    - eapply grows_from; [|apply S]. apply grow_same. reflexivity. }
  intros r g1 G1. exact (grows_from _ _ _ G1 (IH _ _)).
Qed.
Lemma g_block stat g : okStat stat -> grows g (getBlock krn stat g).
Proof.
  intros S. unfold getBlock. cbv zeta. eapply grows_bind; [apply grow_refl|apply g_blockLoop; exact S|]. intros l g1 G1. eapply grows_bind1; [exact G1|apply g_chkTok|]. intros g2 G2. apply grows_ok. gr.
Qed.
Lemma g_return g : grows g (getReturn g).
Proof.
  unfold getReturn. cbv zeta. eapply grows_bind; [apply grow_refl| |].
  { destruct (_ && _); [|apply grows_ok, grow_refl]. eapply grows_bind; [apply grow_refl|apply g_expr|]. intros w g1 G1. apply grows_skip. intros w'. exact G1. }
  intros e g1 G1. eapply grows_bind1; [exact G1|apply g_chkTok|]. intros g2 G2. exact G2.
Qed.
Lemma g_statF f : okStat (getStatF krn f).
Proof.
  induction f as [|f IH]; intros g; [exact I|]. cbn [getStatF]. eapply grows_bind; [apply grow_refl| |]; [|intros s g1 G1; apply grows_ok; gr].
  repeat (match goal with |- grows _ (if ?c then _ else _) => destruct c end).
  1-9: (eapply grows_from; [apply g_getTok|]).
  - apply g_if. exact IH.
  - apply g_while. exact IH.
  - apply g_do. exact IH.
  - apply g_for. exact IH.
  - apply g_return.
  - unfold getBreak. destruct (_ <=? _); [exact I|]. eapply grows_bind1; [apply grow_refl|apply g_chkTok|]. intros g2 G2. exact G2.
  - unfold getCont. destruct (_ <=? _); [exact I|]. eapply grows_bind1; [apply grow_refl|apply g_chkTok|]. intros g2 G2. exact G2.
  - apply g_block. exact IH.
  - apply grows_ok, grow_refl.
  - eapply grows_bind; [apply grow_refl|apply g_expr|]. intros w g1 G1. eapply grows_bind1; [exact G1|apply g_chkTok|]. intros g2 G2. exact G2.
Qed.
Lemma g_stat : okStat (getStat krn). Proof. intros g. apply g_statF. Qed.
Lemma g_paramsLoop f : forall idx last g, grows g (paramsLoop krn f idx last g).
Proof.
  induction f as [|f IH]; intros idx last g; [exact I|]. cbn [paramsLoop]. unfold gIsType. destruct (isType _ _); [|apply grows_ok, grow_same; reflexivity].
  eapply grows_bind1; [|apply g_type|]; [apply grow_same; reflexivity|]. intros g1 G1. apply grows_skip. intros _. eapply grows_bind; [exact G1|apply g_name|]. intros i g2 G2.
  destruct (gIsTok cCOMMA g2) as [g3|] eqn:K; [|exact G2]. refine (grows_from _ _ _ _ (IH _ _ _)). exact (grow_set _ _ _ (g_isTok _ _ _ _ G2 K) eq_refl).
Qed.
Lemma g_params idx g : grows1 g (getParams krn idx g).
Proof.
  unfold getParams. eapply grows1_bind; [|apply g_paramsLoop|]; [apply grow_same; reflexivity|]. intros last g1 G1. eapply grows1_bind1; [exact G1| |].
  - destruct (if last then gIsTok LxDOTDOTDOT g1 else None) as [g2|] eqn:K; [|apply grows1_ok, grow_refl].
    assert (grow g1 g2) as G2 by (destruct last; [exact (g_isTok _ _ _ _ (grow_refl _) K)|discriminate K]).
    apply grows1_skip. intros _. destruct (ntDefName _ _ _ _ _ _ _) as [[t j]|e]; [|exact I]. apply grows1_ok. exact (grow_set _ _ _ G2 eq_refl).
  - intros g3 G3. exact (grows1_from _ _ _ G3 (g_chkTok _ _)).
Qed.
Lemma g_compileBody root g : grows1 g (compileBody opt krn root g).
Proof.
  unfold compileBody. apply grows1_skip. intros r. destruct (VmCode.genFunc _ _ _ _ _ _) as [[c l]|]; [|exact I]. apply grows1_ok. eexists. cbn [wLabs wE ge outp]. reflexivity.
Qed.

(* ---- the text loop ---- *)
Definition same {A} (r : pres (gs * A)) (s : pres gs) : Prop := pbind r (fun y => POk (fst y)) = s.
(* from (g, x) to (g', x') *)
Definition prints (g : gs) (x : list piece) (r : pres (gs * list piece)) : Prop :=
  ac r (fun y => exists ps, outp (ge (fst y)) = outp (ge g) ++ flat_map snd ps /\ snd y = x ++ ps).
Definition both (g : gs) (x : list piece) (r : pres (gs * list piece)) (s : pres gs) : Prop := same r s /\ prints g x r.
Lemma both_none g x g' : outp (ge g') = outp (ge g) -> both g x (POk (g', x)) (POk g').
Proof. intros E. split; [reflexivity|]. exists []. cbn [flat_map fst snd]. rewrite !app_nil_r. split; [exact E|reflexivity]. Qed.
Lemma both_new g g1 x g2 : grow g g1 -> outp (ge g2) = outp (ge g1) -> both g x (POk (g2, printNew g g1 x)) (POk g2).
Proof.
  intros [p P] E. split; [reflexivity|]. exists [(gnt g1, p)]. cbn [fst snd flat_map]. rewrite app_nil_r, E, P. split; [reflexivity|].
  unfold printNew. rewrite P, skipn_app, skipn_all, Nat.sub_diag. reflexivity.
Qed.
Lemma both_pre g0 g x r s : outp (ge g0) = outp (ge g) -> both g x r s -> both g0 x r s.
Proof. intros E [S P]. split; [exact S|]. apply (ac_mono _ _ _ P). intros y (ps & A & B). exists ps. rewrite E. split; assumption. Qed.
Lemma both_bind g x r s (f : gs * list piece -> pres (gs * list piece)) (h : gs -> pres gs) :
  both g x r s -> (forall g1 x1, both g1 x1 (f (g1, x1)) (h g1)) -> both g x (pbind r f) (pbind s h).
Proof.
  intros [S P] F. unfold same in S. subst s. destruct r as [[g1 x1]| | |]; cbn [pbind]; try (split; [reflexivity|exact I]).
  destruct P as (ps & A & B). cbn [fst snd] in *. destruct (F g1 x1) as [S2 P2]. split; [exact S2|]. apply (ac_mono _ _ _ P2). intros y (qs & C & D). exists (ps ++ qs).
  rewrite flat_map_app, C, A, D, B, !app_assoc. split; reflexivity.
Qed.
Lemma both_same {A} g x (r : pres A) f h : (forall a, r = POk a -> both g x (f a) (h a)) -> both g x (pbind r f) (pbind r h).
Proof. intros F. destruct r as [a| | |]; cbn [pbind]; try (split; [reflexivity|exact I]). apply F. reflexivity. Qed.
Lemma both_err g x e : both g x (PErr e) (PErr e). Proof. split; [reflexivity|exact I]. Qed.
Lemma bind_ok {A B} (r : pres A) (f : A -> pres B) b : pbind r f = POk b -> exists a, r = POk a /\ f a = POk b.
Proof. destruct r as [a| | |]; cbn [pbind]; try discriminate. intros H. exists a. split; [reflexivity|exact H]. Qed.
Lemma quiet_out g g' : quiet g g' -> outp (ge g') = outp (ge g). Proof. intros (e & -> & _ & E & _). exact E. Qed.

Lemma func_same g x : both g x (getFuncT opt krn g x) (getFunc opt krn g).
Proof.
  unfold getFuncT, getFunc. cbv zeta.
  apply both_same. intros _ _. apply both_same. intros _ _. apply both_same. intros _ _. apply both_same. intros g3 P3.
  assert (grow g g3) as G3 by (refine (grow_trans _ _ _ (grow_set _ _ _ (g_getTok g) _) (ac_get _ _ _ (g_params _ _) P3)); reflexivity).
  apply both_same. intros _ _. apply both_same. intros _ _. apply both_same. intros g8 E8.
  apply both_new; [|destruct (_ <=? _); reflexivity].
  match type of E8 with match ?M with _ => _ end = _ => destruct M as [g5|] eqn:K end.
  - assert (grow g g5) as G5 by (eapply g_isTok; [|exact K]; exact (grow_set _ _ _ G3 eq_refl)).
    apply bind_ok in E8. destruct E8 as (_ & _ & E8). apply bind_ok in E8. destruct E8 as ([root g7] & B7 & E8). apply bind_ok in E8. destruct E8 as (_ & _ & E8).
    refine (grow_trans _ _ _ _ (ac_get _ _ _ (g_compileBody root g7) E8)).
    refine (grow_trans _ _ _ (grow_set _ _ _ G5 _) (ac_get _ _ _ (g_block (getStat krn) _ g_stat) B7)).
    match goal with |- ge (wCnt (wMax (wNt (if ?c then _ else _) _) _) _) = _ => destruct c end; reflexivity.
  - exact (grow_trans _ _ _ (grow_set _ _ _ G3 eq_refl) (ac_get _ _ _ (g_chkTok _ _) E8)).
Qed.
Definition init_of (g : gs) : pres (dat * gs) :=
  if 0 <? curDim g then getGArrayInit (curDim g) g
  else if (curType g =? TyINT) || (curType g =? TyCHAR) || (curType g =? TyBOOL) then getCnst (curType g) g
  else if curType g <=? 0 then getStructInit g
  else PErr XBug.
Lemma g_init g : grows g (init_of g).
Proof.
  assert (forall n r, dpost n g r -> grow g (snd r)) as D by (intros n [d g'] H; apply grow_reads; apply H).
  unfold init_of. destruct (0 <? curDim g) eqn:E; [apply Z.ltb_lt in E; eapply ac_mono; [apply ac_getGArrayInitF; lia|apply D]|].
  destruct (_ || _); [eapply ac_mono; [apply ac_getCnst|apply D]|]. destruct (_ <=? _); [|exact I]. eapply ac_mono; [apply ac_getStructInit|apply D].
Qed.
Lemma gvar_same g x : both g x (getGVarT g x) (getGVar g).
Proof.
  unfold getGVarT, getGVar. cbv zeta. apply both_bind.
  2:{ intros g1 x1. apply both_same. intros _ _. apply both_none. reflexivity. }
  destruct (gIsTok cEQ g) as [g1|] eqn:K.
  - pose proof (g_isTok _ _ _ _ (grow_refl g) K) as G1. apply both_same. intros [d g2] GI.
    match type of GI with (if 0 <? curDim ?G then _ else _) = _ => fold (init_of G) in GI end.
    assert (grow g g2) as G2 by exact (grow_trans _ _ _ (grow_set _ _ _ G1 eq_refl) (ac_get _ _ _ (g_init _) GI)).
    destruct (genData _ _ _ _) as [[c l]|]; [|apply both_err].
    match goal with |- context [printNew g ?G x] => assert (grow g G) as GG by (destruct G2 as [p P]; exists (p ++ c); cbn [wE ge outp]; rewrite P, app_assoc; reflexivity) end.
    destruct (0 <=? _); [destruct (negb _); [apply both_err|]|]; (apply both_new; [exact GG|reflexivity]).
  - destruct (0 <=? _).
    + destruct (_ || _); [|apply both_err]. apply both_none. reflexivity.
    + apply both_new; [|reflexivity]. eexists. reflexivity.
Qed.
Lemma chk_out k g g' : gChkTok k g = POk g' -> outp (ge g') = outp (ge g).
Proof. intros H. apply quiet_out. exact (ac_get _ _ _ (ac_gChkTok k g) H). Qed.
Lemma name_out pub g i g' : getName krn pub g = POk (i, g') -> outp (ge g') = outp (ge g).
Proof. intros H. destruct (ac_get _ _ _ (ac_named krn pub g) H) as (n & g1 & Q & E). cbn [snd] in E. subst g'. exact (quiet_out _ _ Q). Qed.
Lemma type_out g g' : gGetType g = POk g' -> outp (ge g') = outp (ge g).
Proof. intros H. destruct (ac_get _ _ _ (ac_gGetType g) H) as (_ & g1 & Q & ->). exact (quiet_out _ _ Q). Qed.
Lemma isTok_out k g g' : gIsTok k g = Some g' -> outp (ge g') = outp (ge g).
Proof. intros H. exact (quiet_out _ _ (quiet_isTok _ _ _ H)). Qed.
Lemma gvarsLoop_same f : forall g x, both g x (gvarsLoopT krn f g x) (gvarsLoop krn f g).
Proof.
  induction f as [|f IH]; intros g x; [split; [reflexivity|exact I]|]. cbn [gvarsLoopT gvarsLoop]. destruct (gIsTok cCOMMA g) as [g1|] eqn:K.
  - apply both_same. intros [i g2] N. apply both_pre with g2; [rewrite (name_out _ _ _ _ N); symmetry; exact (isTok_out _ _ _ K)|].
    apply both_bind; [apply gvar_same|]. intros g3 x3. apply IH.
  - apply both_none. reflexivity.
Qed.
Lemma gvars_same g x : both g x (getGVarsT krn g x) (getGVars krn g).
Proof.
  unfold getGVarsT, getGVars. apply both_bind; [apply gvar_same|]. intros g1 x1. apply both_bind; [apply gvarsLoop_same|]. intros g2 x2.
  destruct (gChkTok cSEMI g2) as [g3| | |] eqn:C; cbn [pbind]; try (split; [reflexivity|exact I]). apply both_none. exact (chk_out _ _ _ C).
Qed.
Lemma nameCnt_out g g' : nameCnt krn g = POk g' -> outp (ge g') = outp (ge g).
Proof. unfold nameCnt. intros H. apply bind_ok in H. destruct H as ([i g1] & A & H). injection H as <-. exact (name_out _ _ _ _ A). Qed.
Lemma fieldNames_out f : forall g g', fieldNames krn f g = POk g' -> outp (ge g') = outp (ge g).
Proof.
  induction f as [|f IH]; intros g g' H; [discriminate H|]. cbn [fieldNames] in H. destruct (gIsTok cCOMMA g) as [g1|] eqn:K; [|injection H as <-; reflexivity].
  apply bind_ok in H. destruct H as (g2 & A & H). rewrite (IH _ _ H), (nameCnt_out _ _ A). exact (isTok_out _ _ _ K).
Qed.
Lemma fieldLine_out g g' : getFieldLine krn g = POk g' -> outp (ge g') = outp (ge g).
Proof.
  unfold getFieldLine. intros H. apply bind_ok in H. destruct H as (g1 & A & H). apply bind_ok in H. destruct H as (g2 & B & H). apply bind_ok in H. destruct H as (g3 & C & H).
  rewrite (chk_out _ _ _ H), (fieldNames_out _ _ _ C), (nameCnt_out _ _ B). exact (type_out _ _ A).
Qed.
Lemma fieldLines_out f : forall g g', fieldLines krn f g = POk g' -> outp (ge g') = outp (ge g).
Proof.
  induction f as [|f IH]; intros g g' H; [discriminate H|]. cbn [fieldLines] in H. destruct (gIsTok cRC g) as [g1|] eqn:K; [injection H as <-; exact (isTok_out _ _ _ K)|].
  apply bind_ok in H. destruct H as (g2 & A & H). rewrite (IH _ _ H). exact (fieldLine_out _ _ A).
Qed.
Lemma struct_out g g' : getStruct krn g = POk g' -> outp (ge g') = outp (ge g).
Proof.
  unfold getStruct. cbv zeta. intros H. apply bind_ok in H. destruct H as (g1 & A & H). apply bind_ok in H. destruct H as (g2 & B & H). apply bind_ok in H. destruct H as (g3 & C & H). apply bind_ok in H. destruct H as (g4 & D & H).
  injection H as <-. cbn [wNt ge]. rewrite (chk_out _ _ _ D), (fieldLines_out _ _ _ C), (fieldLine_out _ _ B). exact (chk_out _ _ _ A).
Qed.
Lemma both_silent g x r : (forall g', r = POk g' -> outp (ge g') = outp (ge g)) -> both g x (pbind r (fun g' => POk (g', x))) r.
Proof. intros H. destruct r as [g'| | |]; cbn [pbind]; try (split; [reflexivity|exact I]). apply both_none. apply H. reflexivity. Qed.
Lemma prog_same g x : both g x (getProgT opt krn g x) (getProg opt krn g).
Proof.
  unfold getProgT. cbv zeta. set (g1 := match gIsTok LxPUBLIC (wPub g false) with Some g => wPub g true | None => wPub g false end) in *.
  assert (outp (ge g1) = outp (ge g)) as E1 by (unfold g1; destruct (gIsTok LxPUBLIC (wPub g false)) as [g0|] eqn:K; [exact (isTok_out _ _ _ K)|reflexivity]).
  destruct (gIsTok LxSTRUCT g1) as [g2|] eqn:K2; [|destruct (gIsTok LxTYPEDEF g1) as [g2|] eqn:K3].
  - apply both_silent. intros g3 A. unfold getProg in A. cbv zeta in A. fold g1 in A. rewrite K2 in A.
    destruct (pubFlag _); [discriminate A|]. apply bind_ok in A. destruct A as ([i g4] & N & A). rewrite (struct_out _ _ A), (name_out _ _ _ _ N). cbn [wType wScope ge]. rewrite (isTok_out _ _ _ K2). exact E1.
  - apply both_silent. intros g3 A. unfold getProg in A. cbv zeta in A. fold g1 in A. rewrite K2, K3 in A.
    destruct (pubFlag _); [discriminate A|]. apply bind_ok in A. destruct A as ([i g4] & N & A). rewrite (chk_out _ _ _ A), (name_out _ _ _ _ N). cbn [wType wScope ge]. rewrite (isTok_out _ _ _ K3). exact E1.
  - unfold getProg. cbv zeta. fold g1. rewrite K2, K3. apply both_same. intros g2 A. apply both_same. intros [i g3] B.
    apply both_pre with g3; [rewrite (name_out _ _ _ _ B), (type_out _ _ A); symmetry; exact E1|].
    destruct (gtok g3 =? cLP); [apply func_same|]. destruct (_ && _); [apply both_err|]. destruct (_ =? _); [apply both_err|].
    eapply both_pre; [|apply gvars_same]. reflexivity.
Qed.
Lemma textLoop_same f : forall g x, both g x (textLoop opt krn f g x) (progLoop opt krn f g).
Proof.
  induction f as [|f IH]; intros g x; [split; [reflexivity|exact I]|]. cbn [textLoop progLoop]. destruct (_ =? _); [apply both_none; reflexivity|].
  apply both_bind; [apply prog_same|]. intros g1 x1. apply IH.
Qed.
(* the pieces of a file are the output of the compiler *)
Theorem pieces_compile file :
  match piecesOf opt krn file with
  | Some ps => compile opt krn file = COut (flat_map snd ps)
  | None => forall l, compile opt krn file <> COut l
  end.
Proof.
  unfold piecesOf, compile, psGetSrc. destruct (lexAll file) as [l| |]; try discriminate.
  destruct (textLoop_same (S (List.length l)) (gInit l) []) as [S P]. unfold same in S. rewrite <- S. destruct (textLoop _ _ _ _ _) as [[g x]| | |]; cbn [pbind]; try discriminate.
  destruct P as (ps & A & B). cbn [fst snd app] in *. rewrite A, B. reflexivity.
Qed.
End G.
