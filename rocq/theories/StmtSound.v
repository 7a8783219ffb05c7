(* Whatever the statement parser accepts is a statement of the grammar and obeys the rules,
   and the tree it makes is the one the rules give. *)
From Coq Require Import ZArith Bool Lia List.
From Verif Require Import Lexer NameTable SyTree OpTree VM VmCode Parser ParserStmt ParseSpec ParseSound ProgInv StmtSpec.
Import ListNotations.
Open Scope Z_scope.

Definition envOf (g : gs) : env := Env (gnt g) (clab (ge g)) (curCnt g) (maxCnt g) (curDim g).
Ltac gcbn := cbn [ge gnt curScope curType curDim curCnt pubFlag funcIdx maxCnt depth lastStat brkLab cntLab
  wE wNt wScope wType wDim wCnt wPub wFunc wMax wDepth wLast wLabs eN eL eC eM eD] in *.

(* ---- names ---- *)
Lemma typeAt_app t r i : i < ntGetSize t -> typeAt (t ++ r) i = typeAt t i.
Proof. intros H. unfold typeAt. rewrite ent_app_l by exact H. reflexivity. Qed.
Lemma dimAt_app t r i : i < ntGetSize t -> dimAt (t ++ r) i = dimAt t i.
Proof. intros H. unfold dimAt. rewrite ent_app_l by exact H. reflexivity. Qed.
Lemma ent_setVoid t k i : option_map (fun e => (nType e, nDim e)) (ent (ntSetVoid t k) i) = option_map (fun e => (nType e, nDim e)) (ent t i).
Proof.
  unfold ent. destruct (i <? 0); [reflexivity|]. unfold ntSetVoid.
  rewrite <- (firstn_skipn (Z.to_nat k) t) at 3. generalize (firstn (Z.to_nat k) t) as a, (skipn (Z.to_nat k) t) as u, (Z.to_nat i) as n. clear.
  induction a as [|e a IH]; intros u n; cbn [app map].
  - revert n. induction u as [|e u IH]; intros [|n]; cbn; auto.
  - destruct n; cbn; [reflexivity|apply IH].
Qed.
Lemma typeAt_setVoid t k i : typeAt (ntSetVoid t k) i = typeAt t i.
Proof. unfold typeAt. pose proof (ent_setVoid t k i) as H. destruct (ent (ntSetVoid t k) i), (ent t i); cbn in H; congruence. Qed.
Lemma dimAt_setVoid t k i : dimAt (ntSetVoid t k) i = dimAt t i.
Proof. unfold dimAt. pose proof (ent_setVoid t k i) as H. destruct (ent (ntSetVoid t k) i), (ent t i); cbn in H; congruence. Qed.
Lemma size_setVoid t k : ntGetSize (ntSetVoid t k) = ntGetSize t.
Proof. unfold ntGetSize, ntSetVoid. rewrite app_length, map_length, <- app_length, firstn_skipn. reflexivity. Qed.
Lemma dims_setVoid t k : dimsOk t -> dimsOk (ntSetVoid t k).
Proof.
  intros H. unfold ntSetVoid. rewrite <- (firstn_skipn (Z.to_nat k) t) in H. apply dimsOk_app in H. destruct H.
  apply dimsOk_app. split; [assumption|apply dimsOk_void; assumption].
Qed.
Lemma def_app t n sc ty d c p t' i : ntDefName t n sc ty d c p = NOk (t', i) -> t' = t ++ [Ent n sc ty d c p] /\ i = ntGetSize t.
Proof. unfold ntDefName. destruct (_ <=? _); [discriminate|]. destruct (_ <=? _); [discriminate|]. intros H. injection H as <- <-. auto. Qed.
Lemma size_app t r : ntGetSize (t ++ r) = ntGetSize t + Z.of_nat (List.length r).
Proof. unfold ntGetSize. rewrite app_length. lia. Qed.

Section Sound.
Variables (krn : bool) (fi rt rd : Z).

Record inv (g : gs) : Prop := Inv {
  i_good : good (ge g); i_dims : dimsOk (gnt g); i_depth : 0 <= depth g; i_scope : curScope g = ScLVAR;
  i_func : funcIdx g = fi; i_in : fi < ntGetSize (gnt g); i_rt : typeAt (gnt g) fi = rt; i_rd : dimAt (gnt g) fi = rd }.
(* from g to g' the tokens ts were read and the strings ss written *)
Record got (g : gs) (ts : list stok) (ss : list (list Z)) (g' : gs) : Prop := Got {
  t_view : view (its (ge g)) = ts ++ view (its (ge g'));
  t_lab : clab (ge g') = clab (ge g) + Z.of_nat (List.length ss);
  t_out : outp (ge g') = outp (ge g) ++ strOut (clab (ge g)) ss;
  t_depth : depth g' = depth g }.
Lemma got_refl g : got g [] [] g.
Proof. constructor; cbn; rewrite ?app_nil_r; [reflexivity|lia|reflexivity|reflexivity]. Qed.
Lemma got_trans g a sa g1 b sb g2 : got g a sa g1 -> got g1 b sb g2 -> got g (a ++ b) (sa ++ sb) g2.
Proof.
  intros [V1 L1 O1 D1] [V2 L2 O2 D2]. constructor.
  - rewrite V1, V2, app_assoc. reflexivity.
  - rewrite L2, L1, app_length. lia.
  - rewrite O2, O1, L1, <- app_assoc, strOut_app. reflexivity.
  - congruence.
Qed.
Lemma got_eq g a b sa sb g2 : got g a sa g2 -> a = b -> sa = sb -> got g b sb g2.
Proof. intros H -> ->. exact H. Qed.
(* only the fields got and inv speak of matter *)
Lemma got_from g h a sa g2 : got h a sa g2 -> ge h = ge g -> depth h = depth g -> got g a sa g2.
Proof. intros [V L O D] E F. rewrite E in *. constructor; congruence. Qed.
Lemma got_to g a sa h g2 : got g a sa h -> ge g2 = ge h -> depth g2 = depth h -> got g a sa g2.
Proof. intros [V L O D] E F. rewrite <- E in *. constructor; congruence. Qed.

Lemma inv_wE g e : inv g -> good e -> inv (wE g e).
Proof. intros [G D N S F I T U] H. constructor; gcbn; assumption. Qed.

(* ---- tokens ---- *)
(* everything but the position in the text *)
Definition quiet (g g' : gs) : Prop := g' = wE g (ge g') /\ clab (ge g') = clab (ge g).
Lemma quiet_env g g' : quiet g g' -> envOf g' = envOf g.
Proof. intros [H L]. unfold envOf. rewrite L, H. reflexivity. Qed.
Lemma quiet_next g : quiet g (gGetTok g).
Proof. unfold gGetTok. split; gcbn; [reflexivity|apply getTok_lab]. Qed.
Lemma s_next g k : inv g -> gtok g = k -> k <> EOFtok -> valued k = false -> inv (gGetTok g) /\ got g [TSym k] [] (gGetTok g).
Proof.
  intros I T N V. unfold gtok in T. split; [apply inv_wE; [exact I|apply good_getTok; exact (i_good _ I)]|].
  constructor; unfold gGetTok; gcbn; rewrite ?getTok_lab, ?getTok_out; cbn; rewrite ?app_nil_r; [|lia|reflexivity|reflexivity].
  exact (view_sym _ _ (i_good _ I) T N V).
Qed.
Lemma gChkTok_ok k g g' : gChkTok k g = POk g' -> gtok g = k /\ g' = gGetTok g.
Proof.
  unfold gChkTok. destruct (chkTok k (ge g)) as [e| | |] eqn:E; cbn [pbind]; try discriminate. intros H. injection H as <-.
  apply chkTok_ok in E. destruct E as [E ->]. split; [exact E|reflexivity].
Qed.
Lemma gIsTok_ok k g g' : gIsTok k g = Some g' -> gtok g = k /\ g' = gGetTok g.
Proof.
  unfold gIsTok. destruct (isTok k (ge g)) as [e|] eqn:E; try discriminate. intros H. injection H as <-.
  apply isTok_ok in E. destruct E as [E ->]. split; [exact E|reflexivity].
Qed.
Lemma gIsTok_none k g : gIsTok k g = None -> gtok g <> k.
Proof. unfold gIsTok, isTok, gtok. destruct (Z.eqb_spec (tok (ge g)) k); [discriminate|auto]. Qed.
Lemma s_chk k g g' : inv g -> gChkTok k g = POk g' -> k <> EOFtok -> valued k = false ->
  gtok g = k /\ inv g' /\ got g [TSym k] [] g' /\ quiet g g'.
Proof.
  intros I H N V. apply gChkTok_ok in H. destruct H as [T ->]. destruct (s_next g k I T N V). split; [exact T|].
  split; [assumption|]. split; [assumption|apply quiet_next].
Qed.

(* ---- expressions ---- *)
Definition afterE (g g' : gs) (e : ast) : Prop := envOf g' = Env (gnt g) (clab (ge g) + nstr e) (curCnt g) (maxCnt g) (curDim g).
Definition sameE (g g' : gs) : Prop := g' = wE g (ge g').
Lemma s_expr g w g' : inv g -> gExpr g = POk (w, g') ->
  inv g' /\ sameE g g' /\ (sign (gtok g') = true -> exists e ts, got g ts (strings e) g' /\ derives 0 e ts /\
    has (gnt g) (clab (ge g)) e (wt w) (wd w) (lhs w) (tr w) /\ 0 <= wd w /\ afterE g g' e).
Proof.
  intros I H. unfold gExpr in H. destruct (getExpr (gnt g) (ge g)) as [[w1 e1]| | |] eqn:E; cbn [pbind] in H; try discriminate.
  injection H as -> <-.
  destruct (getExpr_sound (gnt g) (fun i => dimsOk_at _ i (i_dims _ I)) (ge g) w e1 (i_good _ I) E) as [G R].
  split; [apply inv_wE; assumption|]. split; [reflexivity|]. intros S. destruct (R S) as (e & ts & V & D & HH & W & L & O).
  exists e, ts. split; [constructor; gcbn; auto|]. split; [exact D|]. split; [exact HH|]. split; [exact W|].
  unfold afterE, envOf. gcbn. rewrite L. reflexivity.
Qed.
Lemma s_asExpr g w g' : inv g -> gAsExpr g = POk (w, g') ->
  inv g' /\ sameE g g' /\ (sign (gtok g') = true -> exists e ts, got g ts (strings e) g' /\ derives 1 e ts /\
    has (gnt g) (clab (ge g)) e (wt w) (wd w) (lhs w) (tr w) /\ 0 <= wd w /\ afterE g g' e).
Proof.
  intros I H. unfold gAsExpr in H. destruct (getAsExpr (gnt g) (ge g)) as [[w1 e1]| | |] eqn:E; cbn [pbind] in H; try discriminate.
  injection H as -> <-.
  destruct (getAsExprF_sound (gnt g) (fun i => dimsOk_at _ i (i_dims _ I)) _ (ge g) w e1 (i_good _ I) E) as [G R].
  split; [apply inv_wE; assumption|]. split; [reflexivity|]. intros S. destruct (R S) as (e & ts & V & D & HH & W & L & O).
  exists e, ts. split; [constructor; gcbn; auto|]. split; [exact D|]. split; [exact HH|]. split; [exact W|].
  unfold afterE, envOf. gcbn. rewrite L. reflexivity.
Qed.

(* ---- types and declarations ---- *)
Lemma view_nameS s : good s -> tok s = LxNAME -> view (its s) = TName (lxGetStr s) :: view (its (getTok s)).
Proof.
  intros [C _] T. destruct (tok_cons s LxNAME T ltac:(discriminate)) as (i & r & E & K). unfold getTok, lxGetStr. rewrite E in *.
  cbn [clean] in C. cbn [view]. destruct (Z.eqb_spec (tokOf i) LxFILE); [contradiction|].
  destruct (Z.eqb_spec (tokOf i) EOFtok) as [X|X]; [rewrite K in X; discriminate X|]. cbn [its].
  rewrite skipFile_view. destruct i as [[[t v] st] ln]. cbn in K. subst t. reflexivity.
Qed.
Lemma typeOf_name nt s : good s -> typeOf nt s <> TyNON ->
  exists t, typeOf nt s = tyCode nt t /\ view (its s) = tyTok t :: view (its (getTok s)).
Proof.
  intros G N. unfold typeOf in *.
  destruct (Z.eqb_spec (tok s) LxINT) as [T|_]; [exists TnInt; split; [reflexivity|apply view_sym; auto; discriminate]|].
  destruct (Z.eqb_spec (tok s) LxCHAR) as [T|_]; [exists TnChar; split; [reflexivity|apply view_sym; auto; discriminate]|].
  destruct (Z.eqb_spec (tok s) LxVOID) as [T|_]; [exists TnVoid; split; [reflexivity|apply view_sym; auto; discriminate]|].
  destruct (Z.eqb_spec (tok s) LxBOOL) as [T|_]; [exists TnBool; split; [reflexivity|apply view_sym; auto; discriminate]|].
  destruct (Z.eqb_spec (tok s) LxINTR) as [T|_]; [exists TnIntr; split; [reflexivity|apply view_sym; auto; discriminate]|].
  destruct (Z.eqb_spec (tok s) LxNAME) as [T|_]; [|congruence].
  exists (TnUser (lxGetStr s)). split; [reflexivity|apply view_nameS; assumption].
Qed.
Definition typed (g g' : gs) : Prop := g' = wDim (wType (wE g (ge g')) (curType g')) (curDim g').
Lemma s_type g g' : inv g -> gGetType g = POk g' -> exists t d,
  inv g' /\ got g (tyTok t :: brackets d) [] g' /\ typed g g' /\ clab (ge g') = clab (ge g) /\
  curType g' = tyCode (gnt g) t /\ curDim g' = Z.of_nat d /\ curType g' <> TyNON.
Proof.
  intros I H. unfold gGetType, getType in H. destruct (Z.eqb_spec (typeOf (gnt g) (ge g)) TyNON) as [N|N]; [discriminate H|].
  destruct (dimLoop (fuelOf (getTok (ge g))) 0 (getTok (ge g))) as [[d s]| | |] eqn:E; cbn [pbind] in H; try discriminate.
  injection H as <-. pose proof (good_getTok _ (i_good _ I)) as G1.
  destruct (dimLoop_sound _ _ _ _ _ G1 E) as (G2 & n & -> & V & L & O & _).
  destruct (typeOf_name _ _ (i_good _ I) N) as (t & TC & V0). exists t, n.
  rewrite getTok_lab in L. rewrite getTok_out in O.
  split; [destruct I; constructor; gcbn; assumption|]. split.
  { constructor; gcbn; cbn [List.length strOut]; rewrite ?app_nil_r; [|lia|exact O|reflexivity]. rewrite V0, V. reflexivity. }
  split; [reflexivity|]. gcbn. split; [exact L|]. split; [exact TC|]. split; [lia|exact N].
Qed.

Lemma s_name g i g' : inv g -> 0 <= curDim g -> getName krn false g = POk (i, g') -> exists nm,
  inv g' /\ curType g <> TyINTR /\ ~ (curType g = TyVOID /\ curDim g = 0) /\
  ntDefName (gnt g) nm ScLVAR (curType g) (curDim g) (curCnt g) false = NOk (gnt g', i) /\
  g' = wNt (wE g (ge g')) (gnt g') /\ clab (ge g') = clab (ge g) /\ (sign (gtok g') = true -> got g [TName nm] [] g').
Proof.
  intros I DG H. unfold getName in H. destruct (gChkTok LxNAME g) as [g1| | |] eqn:C; cbn [pbind] in H; try discriminate.
  apply gChkTok_ok in C. destruct C as [T ->]. unfold gGetTok in H. gcbn. rewrite (i_scope _ I) in H.
  change (ScLVAR =? ScPROT) with false in H. cbn [negb andb] in H.
  destruct ((curType g =? TyVOID) && (curDim g =? 0)) eqn:TV; [discriminate|].
  destruct (Z.eqb_spec (curType g) TyINTR) as [TI|TI]; [discriminate|]. cbn [andb] in H.
  destruct (ntDefName _ _ _ _ _ _ _) as [[t j]|] eqn:DN; [|discriminate]. injection H as <- <-.
  exists (lxGetStr (getTok (ge g))). gcbn.
  destruct (def_app _ _ _ _ _ _ _ _ _ DN) as [-> _].
  pose proof (good_getTok _ (i_good _ I)) as G1.
  split. { destruct I as [G D N S F In Rt Rd]. constructor; gcbn; auto.
    - apply dimsOk_app. split; [exact D|]. constructor; [exact DG|constructor].
    - rewrite size_app. cbn [List.length]. lia.
    - rewrite typeAt_app; assumption.
    - rewrite dimAt_app; assumption. }
  split; [exact TI|]. split. { intros [A B]. rewrite A, B in TV. discriminate TV. }
  split; [exact DN|]. split; [reflexivity|]. split; [apply getTok_lab|]. intros SG. constructor; gcbn; rewrite ?getTok_lab, ?getTok_out; cbn; rewrite ?app_nil_r; try reflexivity; [|lia].
  apply view_name; [exact (i_good _ I)|exact T|exact SG].
Qed.

Lemma inv_wCnt g c : inv g -> inv (wCnt g c).
Proof. intros []. constructor; gcbn; assumption. Qed.
Lemma inv_wMax g c : inv g -> inv (wMax g c).
Proof. intros []. constructor; gcbn; assumption. Qed.
Lemma inv_wType g c : inv g -> inv (wType g c).
Proof. intros []. constructor; gcbn; assumption. Qed.
Lemma inv_wLast g c : inv g -> inv (wLast g c).
Proof. intros []. constructor; gcbn; assumption. Qed.
Lemma inv_wDepth g c : inv g -> 0 <= c -> inv (wDepth g c).
Proof. intros [] H. constructor; gcbn; assumption. Qed.
Lemma inv_void g k : inv g -> inv (wNt g (ntSetVoid (gnt g) k)).
Proof.
  intros []. constructor; gcbn; rewrite ?size_setVoid, ?typeAt_setVoid, ?dimAt_setVoid; try assumption. apply dims_setVoid. assumption.
Qed.

(* what declarations leave alone *)
Definition decls (g g' : gs) : Prop := curType g' = curType g /\ curDim g' = curDim g /\ maxCnt g' = maxCnt g /\ lastStat g' = lastStat g.
Lemma s_lvar g x g' : inv g -> 0 <= curDim g -> getLVar krn g = POk (x, g') ->
  inv g' /\ decls g g' /\ (curType g <> TyINTR /\ ~ (curType g = TyVOID /\ curDim g = 0)) /\
  (sign (gtok g') = true -> exists v ts, got g ts (stringsO (snd v)) g' /\ derives_var v ts /\
     okVar (curType g) (curDim g) (envOf g) v x (envOf g')).
Proof.
  intros I DG H. unfold getLVar in H. cbv zeta in H. set (g0 := wCnt g (curCnt g + 1)) in *.
  destruct (getName krn false g0) as [[i g1]| | |] eqn:E; cbn [pbind] in H; try discriminate.
  destruct (s_name g0 i g1 (inv_wCnt _ _ I) DG E) as (nm & I1 & NI & NV & DN & Q & L & GT). unfold g0 in *. gcbn.
  destruct (gIsTok cEQ g1) as [g2|] eqn:TE.
  - apply gIsTok_ok in TE. destruct TE as [TE ->]. destruct (s_next g1 cEQ I1 TE ltac:(discriminate) eq_refl) as [I2 G2].
    specialize (GT ltac:(rewrite TE; reflexivity)).
    destruct (gAsExpr (gGetTok g1)) as [[w g3]| | |] eqn:E3; cbn [pbind] in H; try discriminate.
    destruct (s_asExpr _ _ _ I2 E3) as (I3 & SE & R). destruct (chkCmpat w (curType g3) (curDim g3)) as [w'| | |] eqn:CC; cbn [pbind] in H; try discriminate.
    injection H as <- <-. split; [exact I3|].
    assert (curType g3 = curType g /\ curDim g3 = curDim g /\ maxCnt g3 = maxCnt g /\ lastStat g3 = lastStat g) as (K1 & K2 & K3 & K4)
      by (rewrite SE; unfold gGetTok; gcbn; rewrite Q; gcbn; auto).
    split; [unfold decls; auto|]. split; [auto|]. intros SG. destruct (R SG) as (e & ts & G3 & DE & HH & W & A).
    apply chkCmpat_ok in CC. destruct CC as [FT TR]. exists (nm, Some e), (TName nm :: TSym cEQ :: ts). split; [|split].
    + apply (got_from _ (wCnt g (curCnt g + 1))); [|reflexivity|reflexivity]. cbn [snd stringsO].
      exact (got_trans _ _ _ _ _ _ _ GT (got_trans _ _ _ _ _ _ _ G2 G3)).
    + constructor. exact DE.
    + rewrite A. unfold gGetTok in HH |- *. gcbn. rewrite getTok_lab in *. rewrite L in *. rewrite TR, K1, K2 in *.
      rewrite Q. gcbn. cbn [catS]. eapply ov_init; [exact DN|exact HH|exact FT].
  - injection H as <- <-. split; [exact I1|].
    split; [unfold decls; rewrite Q; gcbn; auto|]. split; [auto|]. intros SG. exists (nm, None), [TName nm]. split; [|split].
    + exact (got_from g _ _ _ _ (GT SG) eq_refl eq_refl).
    + constructor.
    + unfold envOf. rewrite L. rewrite Q. gcbn. apply ov_plain. exact DN.
Qed.

Definition moreVars (vs : list (list Z * option ast)) (ts : list stok) : Prop :=
  vs = [] /\ ts = [] \/ exists tr, ts = TSym cCOMMA :: tr /\ derives_vars vs tr.
Lemma more_vars v r tv tm : derives_var v tv -> moreVars r tm -> derives_vars (v :: r) (tv ++ tm).
Proof. intros D [[-> ->]|(tr & -> & M)]; [rewrite app_nil_r; constructor; exact D|constructor; assumption]. Qed.
Lemma s_lvars f : forall sta g x g', inv g -> 0 <= curDim g -> lvarsLoop krn f sta g = POk (x, g') ->
  inv g' /\ decls g g' /\ (sign (gtok g') = true -> sign (gtok g) = true /\ exists vs ts,
     got g ts (flat_map (fun v => stringsO (snd v)) vs) g' /\ moreVars vs ts /\
     okVars (curType g) (curDim g) (envOf g) sta vs x (envOf g')).
Proof.
  induction f as [|f IH]; intros sta g x g' I DG H; [discriminate H|]. cbn [lvarsLoop] in H.
  destruct (gIsTok cCOMMA g) as [g1|] eqn:TC.
  - apply gIsTok_ok in TC. destruct TC as [TC ->]. destruct (s_next g cCOMMA I TC ltac:(discriminate) eq_refl) as [I1 G1].
    destruct (getLVar krn (gGetTok g)) as [[s g2]| | |] eqn:E; cbn [pbind] in H; try discriminate.
    destruct (s_lvar _ _ _ I1 DG E) as (I2 & (K1 & K2 & K3 & K4) & _ & R2). unfold gGetTok in K1, K2, K3, K4. gcbn.
    destruct (IH (catS sta s) g2 x g' I2 ltac:(rewrite K2; exact DG) H) as (I3 & (M1 & M2 & M3 & M4) & R3).
    split; [exact I3|]. split; [unfold decls; repeat split; congruence|]. intros SG. destruct (R3 SG) as (SG2 & vs & ts & G3 & MV & OV).
    destruct (R2 SG2) as (v & tv & G2 & DV & OK). split; [rewrite TC; reflexivity|].
    exists (v :: vs), (TSym cCOMMA :: tv ++ ts). split; [|split].
    + exact (got_trans _ _ _ _ _ _ _ G1 (got_trans _ _ _ _ _ _ _ G2 G3)).
    + right. eexists. split; [reflexivity|]. apply more_vars; assumption.
    + rewrite (quiet_env _ _ (quiet_next g)) in OK. unfold gGetTok in OK. gcbn. rewrite K1, K2 in OV. econstructor; [exact OK|exact OV].
  - injection H as <- <-. split; [exact I|]. split; [unfold decls; auto|]. intros SG. split; [exact SG|]. exists [], [].
    split; [apply got_refl|]. split; [left; auto|constructor].
Qed.
Lemma s_decl g x g' : inv g -> getLVars krn g = POk (x, g') ->
  inv g' /\ lastStat g' = lastStat g /\ (sign (gtok g') = true -> exists d ts,
     got g ts (stringsD d) g' /\ derives_decl d ts /\ okDecl (envOf g) d x (envOf g')).
Proof.
  intros I H. unfold getLVars in H. destruct (gGetType g) as [g1| | |] eqn:E1; cbn [pbind] in H; try discriminate.
  destruct (s_type _ _ I E1) as (t & d & I1 & G1 & TY & L1 & CT & CD & NN). assert (0 <= curDim g1) as DG by lia.
  destruct (getLVar krn g1) as [[s2 g2]| | |] eqn:E2; cbn [pbind] in H; try discriminate.
  destruct (s_lvar _ _ _ I1 DG E2) as (I2 & (K1 & K2 & K3 & K4) & (NI & NV) & R2).
  destruct (lvarsLoop krn (gfuel g2) s2 g2) as [[s3 g3]| | |] eqn:E3; cbn [pbind] in H; try discriminate.
  destruct (s_lvars _ _ _ _ _ I2 ltac:(rewrite K2; exact DG) E3) as (I3 & (M1 & M2 & M3 & M4) & R3).
  assert (lastStat g1 = lastStat g /\ envOf g1 = Env (gnt g) (clab (ge g)) (curCnt g) (maxCnt g) (curDim g1)) as [LS EE].
  { rewrite TY. unfold envOf. gcbn. rewrite L1. split; reflexivity. }
  injection H as <- <-. set (g4 := if maxCnt g3 <? curCnt g3 then wMax g3 (curCnt g3) else g3).
  assert (inv g4) as I4 by (unfold g4; destruct (_ <? _); [apply inv_wMax|]; exact I3).
  assert (ge g4 = ge g3 /\ depth g4 = depth g3 /\ lastStat g4 = lastStat g3) as (F1 & F2 & F3) by (unfold g4; destruct (_ <? _); auto).
  assert (envOf g4 = Env (gnt g3) (clab (ge g3)) (curCnt g3) (Z.max (maxCnt g3) (curCnt g3)) (curDim g3)) as F4.
  { unfold g4, envOf. destruct (Z.ltb_spec (maxCnt g3) (curCnt g3)); gcbn; f_equal; lia. }
  split; [exact I4|]. split; [congruence|]. unfold gtok. rewrite F1. intros SG. destruct (R3 SG) as (SG2 & vs & ts & G3 & MV & OV).
  destruct (R2 SG2) as (v & tv & G2 & DV & OK). exists (Decl t d (v :: vs)), ((tyTok t :: brackets d) ++ tv ++ ts). split; [|split].
  - apply (got_to _ _ _ g3); [|exact F1|exact F2]. exact (got_trans _ _ _ _ _ _ _ G1 (got_trans _ _ _ _ _ _ _ G2 G3)).
  - constructor. apply more_vars; assumption.
  - rewrite F4. constructor; unfold envOf at 1; gcbn; rewrite <- CT, <- CD.
    + unfold varType. auto.
    + rewrite EE in OK. econstructor; [exact OK|]. rewrite K1, K2 in OV. cbn [chain]. exact OV.
Qed.

(* ---- statements ---- *)
Ltac nrm := cbn [app]; repeat (rewrite <- app_assoc; cbn [app]).
Lemma s_cond g x g' : inv g -> getCond g = POk (x, g') ->
  inv g' /\ lastStat g' = lastStat g /\ exists c ts, got g (TSym cLP :: ts ++ [TSym cRP]) (strings c) g' /\ derives 0 c ts /\
     okCond (envOf g) (Some c) x (envOf g').
Proof.
  intros I H. unfold getCond in H. destruct (gChkTok cLP g) as [g1| | |] eqn:E1; cbn [pbind] in H; try discriminate.
  destruct (s_chk _ _ _ I E1 ltac:(discriminate) eq_refl) as (T1 & I1 & G1 & Q1).
  destruct (gExpr g1) as [[w g2]| | |] eqn:E2; cbn [pbind] in H; try discriminate.
  destruct (s_expr _ _ _ I1 E2) as (I2 & S2 & R2).
  destruct (chkType w TyBOOL) as [w'| | |] eqn:CT; cbn [pbind] in H; try discriminate.
  destruct (gChkTok cRP g2) as [g3| | |] eqn:E3; cbn [pbind] in H; try discriminate.
  destruct (s_chk _ _ _ I2 E3 ltac:(discriminate) eq_refl) as (T3 & I3 & G3 & Q3). injection H as <- <-.
  destruct (R2 ltac:(rewrite T3; reflexivity)) as (e & ts & G2 & D & HH & W & A).
  split; [exact I3|]. split; [destruct Q3 as [-> _]; rewrite S2; destruct Q1 as [-> _]; reflexivity|].
  exists e, ts. split; [|split; [exact D|]].
  - eapply got_eq; [exact (got_trans _ _ _ _ _ _ _ G1 (got_trans _ _ _ _ _ _ _ G2 G3))|reflexivity|]. rewrite app_nil_r. reflexivity.
  - rewrite (quiet_env _ _ Q3), A. rewrite <- (quiet_env _ _ Q1). unfold envOf at 1.
    destruct (chkType_bool _ _ CT W) as (T & DD & ->). rewrite T, DD in HH. econstructor. exact HH.
Qed.

(* the contract of the statement parser *)
Definition goodS (inl : bool) (g : gs) (x : stmt) (g' : gs) : Prop :=
  inv g' /\ exists s ts, got g ts (stringsS s) g' /\ sder (gtok g' =? LxELSE) s ts /\ okS rt rd inl (envOf g) s x (envOf g') /\
    (lastStat g' =? LxRETURN) = match s with BReturn _ => true | _ => false end.
Definition soundS (stat : sparser) : Prop := forall g x g', inv g -> stat g = POk (x, g') -> goodS (0 <? depth g) g x g'.

Section Stat.
Variable stat : sparser.
Hypothesis HS : soundS stat.

Lemma s_body g x g' : inv g -> body stat g = POk (x, g') ->
  inv g' /\ exists s ts, got g ts (stringsS s) g' /\ sder (gtok g' =? LxELSE) s ts /\ okS rt rd true (envOf g) s x (envOf g').
Proof.
  intros I H. unfold body in H. pose proof (i_depth _ I) as D0.
  destruct (stat (wDepth g (depth g + 1))) as [[b g1]| | |] eqn:E; cbn [pbind] in H; try discriminate. injection H as <- <-.
  destruct (HS _ _ _ (inv_wDepth _ (depth g + 1) I ltac:(lia)) E) as (I1 & s & ts & G & SD & OK & _). gcbn.
  destruct (Z.ltb_spec 0 (depth g + 1)); [|lia]. pose proof (t_depth _ _ _ _ G) as DE. gcbn.
  split; [apply inv_wDepth; [exact I1|lia]|]. exists s, ts. split; [|auto].
  destruct G as [V L O _]. constructor; gcbn; auto. lia.
Qed.
Ltac chk H I := let g1 := fresh "g" in let E := fresh "E" in
  match type of H with pbind (gChkTok ?k ?g) _ = _ =>
    destruct (gChkTok k g) as [g1| | |] eqn:E; cbn [pbind] in H; try discriminate H;
    let T := fresh "T" in let I1 := fresh "I" in let G := fresh "G" in let Q := fresh "Q" in
    destruct (s_chk _ _ _ I E ltac:(discriminate) eq_refl) as (T & I1 & G & Q)
  end.

(* statements without their first token: kw is it *)
Definition goodR (inl : bool) (g : gs) (kw : Z) (x : stmt) (g' : gs) : Prop :=
  inv g' /\ exists s ts, got g ts (stringsS s) g' /\ sder (gtok g' =? LxELSE) s (TSym kw :: ts) /\
    okS rt rd inl (envOf g) s x (envOf g') /\ (kw =? LxRETURN) = match s with BReturn _ => true | _ => false end.
Lemma sder_any k s ts : sder true s ts -> sder k s ts.
Proof. destruct k; [auto|apply sd_any]. Qed.

Lemma s_if g x g' : inv g -> getIf stat g = POk (x, g') -> goodR (0 <? depth g) g LxIF x g'.
Proof.
  intros I H. unfold getIf in H. destruct (getCond g) as [[c g1]| | |] eqn:E1; cbn [pbind] in H; try discriminate.
  destruct (s_cond _ _ _ I E1) as (I1 & LS & ce & tc & G1 & DC & OC).
  destruct (stat g1) as [[b g2]| | |] eqn:E2; cbn [pbind] in H; try discriminate.
  destruct (HS _ _ _ I1 E2) as (I2 & s & ts & G2 & SD & OK & _). rewrite (t_depth _ _ _ _ G1) in OK.
  destruct (gIsTok LxELSE g2) as [g3|] eqn:TE.
  - apply gIsTok_ok in TE. destruct TE as [TE ->]. destruct (s_next g2 _ I2 TE ltac:(discriminate) eq_refl) as [I3 G3].
    destruct (stat (gGetTok g2)) as [[b2 g4]| | |] eqn:E4; cbn [pbind] in H; try discriminate. injection H as <- <-.
    destruct (HS _ _ _ I3 E4) as (I4 & s2 & t2 & G4 & SD2 & OK2 & _).
    rewrite (t_depth _ _ _ _ G3), (t_depth _ _ _ _ G2), (t_depth _ _ _ _ G1) in OK2.
    split; [exact I4|]. exists (BIfElse ce s s2). eexists. split; [|split; [|split; [|reflexivity]]].
    + exact (got_trans _ _ _ _ _ _ _ G1 (got_trans _ _ _ _ _ _ _ G2 (got_trans _ _ _ _ _ _ _ G3 G4))).
    + rewrite TE in SD. nrm. apply sd_else; assumption.
    + rewrite (quiet_env _ _ (quiet_next g2)) in OK2. econstructor; eassumption.
  - injection H as <- <-. apply gIsTok_none in TE. split; [exact I2|]. exists (BIf ce s). eexists. split; [|split; [|split; [|reflexivity]]].
    + exact (got_trans _ _ _ _ _ _ _ G1 G2).
    + destruct (Z.eqb_spec (gtok g2) LxELSE); [contradiction|]. nrm. apply sd_if; assumption.
    + econstructor; eassumption.
Qed.
Lemma s_while b g x g' : inv g -> getWhile stat g = POk (x, g') -> goodR b g LxWHILE x g'.
Proof.
  intros I H. unfold getWhile in H. destruct (getCond g) as [[c g1]| | |] eqn:E1; cbn [pbind] in H; try discriminate.
  destruct (s_cond _ _ _ I E1) as (I1 & LS & ce & tc & G1 & DC & OC).
  destruct (body stat g1) as [[y g2]| | |] eqn:E2; cbn [pbind] in H; try discriminate. injection H as <- <-.
  destruct (s_body _ _ _ I1 E2) as (I2 & s & ts & G2 & SD & OK).
  split; [exact I2|]. exists (BWhile ce s). eexists. split; [|split; [|split; [|reflexivity]]].
  - exact (got_trans _ _ _ _ _ _ _ G1 G2).
  - nrm. apply sd_while; assumption.
  - econstructor; eassumption.
Qed.
Lemma sder_drop k s ts : sder k s ts -> sder false s ts.
Proof. destruct k; [apply sd_any|auto]. Qed.
Lemma s_do b g x g' : inv g -> getDoWhile stat g = POk (x, g') -> goodR b g LxDO x g'.
Proof.
  intros I H. unfold getDoWhile in H. destruct (body stat g) as [[y g1]| | |] eqn:E1; cbn [pbind] in H; try discriminate.
  destruct (s_body _ _ _ I E1) as (I1 & s & ts & G1 & SD & OK). chk H I1.
  destruct (getCond g0) as [[c g3]| | |] eqn:E3; cbn [pbind] in H; try discriminate.
  destruct (s_cond _ _ _ I0 E3) as (I3 & LS & ce & tc & G3 & DC & OC). chk H I3. injection H as <- <-.
  split; [assumption|]. exists (BDo s ce). eexists. split; [|split; [|split; [|reflexivity]]].
  - eapply got_eq; [exact (got_trans _ _ _ _ _ _ _ G1 (got_trans _ _ _ _ _ _ _ G (got_trans _ _ _ _ _ _ _ G3 G0)))|reflexivity|].
    cbn [stringsS app]. rewrite app_nil_r. reflexivity.
  - nrm. apply sder_any. apply sd_do; [exact (sder_drop _ _ _ SD)|exact DC].
  - rewrite (quiet_env _ _ Q0). rewrite (quiet_env _ _ Q) in OC. econstructor; eassumption.
Qed.
Lemma s_ini g x g' : inv g ->
  (if gtok g =? cSEMI then POk (SNull, g)
   else let '(ty, g) := gIsType g in
        if (ty : bool) then getLVars krn g
        else let+ (w, g) := gExpr g in POk (SExpr (tr w), g)) = POk (x, g') ->
  inv g' /\ (sign (gtok g') = true -> exists i ts, got g ts (stringsI i) g' /\ derives_ini i ts /\ okIni (envOf g) i x (envOf g')).
Proof.
  intros I H. destruct (Z.eqb_spec (gtok g) cSEMI).
  { injection H as <- <-. split; [exact I|]. intros _. exists INo, []. split; [apply got_refl|]. split; constructor. }
  unfold gIsType in H. pose proof (inv_wType _ (typeOf (gnt g) (ge g)) I) as I0. destruct (isType (gnt g) (ge g)).
  - destruct (s_decl _ _ _ I0 H) as (I1 & _ & R). split; [exact I1|]. intros SG. destruct (R SG) as (d & ts & G & D & O).
    exists (IDecl d), ts. split; [exact (got_from g _ _ _ _ G eq_refl eq_refl)|]. split; [constructor; exact D|]. constructor. exact O.
  - destruct (gExpr (wType g (typeOf (gnt g) (ge g)))) as [[w g2]| | |] eqn:E2; cbn [pbind] in H; try discriminate. injection H as <- <-.
    destruct (s_expr _ _ _ I0 E2) as (I2 & S2 & R2). split; [exact I2|]. intros SG. destruct (R2 SG) as (e & ts & G2 & D & HH & W & A).
    exists (IExp e), ts. split; [exact (got_from g _ _ _ _ G2 eq_refl eq_refl)|]. split; [constructor; exact D|]. rewrite A. econstructor. exact HH.
Qed.
Lemma s_cnd g x g' : inv g ->
  (if gtok g =? cSEMI then POk (ENull, g)
     else let+ (w, g) := gExpr g in
          let+ w := chkType w TyBOOL in POk (tr w, g)) = POk (x, g') ->
  inv g' /\ (sign (gtok g') = true -> exists c ts, got g ts (stringsO c) g' /\ derives_opt c ts /\ okCond (envOf g) c x (envOf g')).
Proof.
  intros I H. destruct (Z.eqb_spec (gtok g) cSEMI).
  { injection H as <- <-. split; [exact I|]. intros _. exists None, []. split; [apply got_refl|]. split; constructor. }
  destruct (gExpr g) as [[w g2]| | |] eqn:E2; cbn [pbind] in H; try discriminate.
  destruct (s_expr _ _ _ I E2) as (I2 & S2 & R2).
  destruct (chkType w TyBOOL) as [w'| | |] eqn:CT; cbn [pbind] in H; try discriminate. injection H as <- <-.
  split; [exact I2|]. intros SG. destruct (R2 SG) as (e & ts & G2 & D & HH & W & A).
  exists (Some e), ts. split; [exact G2|]. split; [constructor; exact D|]. rewrite A.
  destruct (chkType_bool _ _ CT W) as (T & DD & ->). rewrite T, DD in HH. econstructor. exact HH.
Qed.
Lemma s_opt g x g' : inv g ->
  (if gtok g =? cRP then POk (ENull, g)
     else let+ (w, g) := gExpr g in POk (tr w, g)) = POk (x, g') ->
  inv g' /\ (sign (gtok g') = true -> exists c ts, got g ts (stringsO c) g' /\ derives_opt c ts /\ okOpt (envOf g) c x (envOf g')).
Proof.
  intros I H. destruct (Z.eqb_spec (gtok g) cRP).
  { injection H as <- <-. split; [exact I|]. intros _. exists None, []. split; [apply got_refl|]. split; constructor. }
  destruct (gExpr g) as [[w g2]| | |] eqn:E2; cbn [pbind] in H; try discriminate. injection H as <- <-.
  destruct (s_expr _ _ _ I E2) as (I2 & S2 & R2). split; [exact I2|]. intros SG. destruct (R2 SG) as (e & ts & G2 & D & HH & W & A).
  exists (Some e), ts. split; [exact G2|]. split; [constructor; exact D|]. rewrite A. econstructor. exact HH.
Qed.
Lemma s_for b g x g' : inv g -> getFor krn stat g = POk (x, g') -> goodR b g LxFOR x g'.
Proof.
  intros I H. unfold getFor in H. cbv zeta in H. chk H I.
  match type of H with pbind ?c _ = _ => destruct c as [[xi g2]| | |] eqn:E1; cbn [pbind] in H; try discriminate end.
  destruct (s_ini _ _ _ I0 E1) as (I2 & R1). chk H I2. destruct (R1 ltac:(rewrite T0; reflexivity)) as (i & ti & G2 & DI & OI).
  match type of H with pbind ?c _ = _ => destruct c as [[xc g4]| | |] eqn:E3; cbn [pbind] in H; try discriminate end.
  destruct (s_cnd _ _ _ I1 E3) as (I4 & R3). chk H I4. destruct (R3 ltac:(rewrite T1; reflexivity)) as (c & tc & G4 & DC & OC).
  match type of H with pbind ?c _ = _ => destruct c as [[xr g6]| | |] eqn:E5; cbn [pbind] in H; try discriminate end.
  destruct (s_opt _ _ _ I3 E5) as (I6 & R5). chk H I6. destruct (R5 ltac:(rewrite T2; reflexivity)) as (r & tsr & G6 & DR & OR).
  destruct (body stat g5) as [[y g8]| | |] eqn:E7; cbn [pbind] in H; try discriminate. injection H as <- <-.
  destruct (s_body _ _ _ I5 E7) as (I8 & s & ts & G8 & SD & OK).
  split; [apply inv_wCnt, inv_void; exact I8|]. exists (BFor i c r s). eexists. split; [|split; [|split; [|reflexivity]]].
  - apply (got_to _ _ _ g8); [|reflexivity|reflexivity].
    refine (got_eq _ _ _ _ _ _ (got_trans _ _ _ _ _ _ _ G (got_trans _ _ _ _ _ _ _ G2 (got_trans _ _ _ _ _ _ _ G0 (got_trans _ _ _ _ _ _ _ G4
      (got_trans _ _ _ _ _ _ _ G1 (got_trans _ _ _ _ _ _ _ G6 (got_trans _ _ _ _ _ _ _ G3 G8))))))) eq_refl _). reflexivity.
  - nrm. unfold gtok. gcbn. apply sd_for; assumption.
  - rewrite (quiet_env _ _ Q) in OI. rewrite (quiet_env _ _ Q0) in OC. rewrite (quiet_env _ _ Q1) in OR. rewrite (quiet_env _ _ Q2) in OK.
    exact (os_for _ _ _ _ _ _ _ _ _ _ _ _ _ _ _ _ OI OC OR OK).
Qed.
Lemma s_break g x g' : inv g -> getBreak g = POk (x, g') -> goodR (0 <? depth g) g LxBREAK x g'.
Proof.
  intros I H. unfold getBreak in H. destruct (Z.leb_spec (depth g) 0) as [D|D]; [discriminate|]. chk H I. injection H as <- <-.
  split; [assumption|]. exists BBreak, [TSym cSEMI]. split; [exact G|]. split; [apply sder_any; constructor|].
  destruct (Z.ltb_spec 0 (depth g)); [|lia]. rewrite (quiet_env _ _ Q). split; [constructor|reflexivity].
Qed.
Lemma s_cont g x g' : inv g -> getCont g = POk (x, g') -> goodR (0 <? depth g) g LxCONTINUE x g'.
Proof.
  intros I H. unfold getCont in H. destruct (Z.leb_spec (depth g) 0) as [D|D]; [discriminate|]. chk H I. injection H as <- <-.
  split; [assumption|]. exists BContinue, [TSym cSEMI]. split; [exact G|]. split; [apply sder_any; constructor|].
  destruct (Z.ltb_spec 0 (depth g)); [|lia]. rewrite (quiet_env _ _ Q). split; [constructor|reflexivity].
Qed.
Lemma valued_fn_b t d : negb (t =? TyINTR) && (negb (t =? TyVOID) || negb (d =? 0)) = true <-> valued_fn t d.
Proof.
  unfold valued_fn. destruct (Z.eqb_spec t TyINTR), (Z.eqb_spec t TyVOID), (Z.eqb_spec d 0); cbn; split; intros K; try discriminate K; try tauto.
Qed.
Lemma s_return b g x g' : inv g -> getReturn g = POk (x, g') -> goodR b g LxRETURN x g'.
Proof.
  intros I H. unfold getReturn in H. cbv zeta in H. rewrite (i_func _ I), (i_rt _ I), (i_rd _ I) in H.
  destruct (negb (rt =? TyINTR) && (negb (rt =? TyVOID) || negb (rd =? 0))) eqn:VF.
  - apply valued_fn_b in VF. destruct (gExpr g) as [[w g2]| | |] eqn:E2; cbn [pbind] in H; try discriminate.
    destruct (s_expr _ _ _ I E2) as (I2 & S2 & R2).
    destruct (chkCmpat w rt rd) as [w'| | |] eqn:CT; cbn [pbind] in H; try discriminate.
    chk H I2. injection H as <- <-. destruct (R2 ltac:(rewrite T; reflexivity)) as (e & ts & G2 & D & HH & W & A).
    apply chkCmpat_ok in CT. destruct CT as [F TR]. rewrite TR.
    split; [assumption|]. exists (BReturn (Some e)). eexists. split; [|split; [|split; [|reflexivity]]].
    + eapply got_eq; [exact (got_trans _ _ _ _ _ _ _ G2 G)|reflexivity|]. rewrite app_nil_r. reflexivity.
    + apply sder_any. constructor. constructor. exact D.
    + rewrite (quiet_env _ _ Q), A. econstructor; [exact VF|exact HH|exact F].
  - cbn [pbind] in H. chk H I. injection H as <- <-. split; [assumption|]. exists (BReturn None), [TSym cSEMI]. split; [exact G|].
    split; [apply sder_any; exact (sd_return None [] do_none)|]. split; [|reflexivity]. rewrite (quiet_env _ _ Q). constructor.
    intros K. apply valued_fn_b in K. congruence.
Qed.
Lemma chain_catS a b : catS a b = chain a b. Proof. reflexivity. Qed.
Lemma s_blockLoop f : forall lv g x g', inv g -> blockLoop krn stat f lv g = POk (x, g') ->
  inv g' /\ (gtok g' = cRC \/ gtok g' = EOFtok) /\ exists q ts, got g ts (stringsQ q) g' /\ qder q ts /\
    okQ rt rd (0 <? depth g) (envOf g) lv q x (envOf g') /\ (lastStat g' =? LxRETURN) = endsReturn q (lastStat g =? LxRETURN).
Proof.
  induction f as [|f IH]; intros lv g x g' I H; [discriminate H|]. cbn [blockLoop] in H.
  destruct ((gtok g =? cRC) || (gtok g =? EOFtok)) eqn:TT.
  { injection H as <- <-. split; [exact I|]. apply orb_true_iff in TT. rewrite !Z.eqb_eq in TT. split; [exact TT|].
    exists QNil, []. split; [apply got_refl|]. split; [constructor|]. split; [constructor|reflexivity]. }
  clear TT. unfold gIsType in H. pose proof (inv_wType _ (typeOf (gnt g) (ge g)) I) as I0. set (g0 := wType g (typeOf (gnt g) (ge g))) in *.
  destruct (isType (gnt g) (ge g)).
  - destruct (getLVars krn g0) as [[r g1]| | |] eqn:E1; cbn [pbind] in H; try discriminate.
    destruct (s_decl _ _ _ I0 E1) as (I1 & LS & R).
    destruct (gChkTok cSEMI g1) as [g2| | |] eqn:E2; cbn [pbind] in H; try discriminate.
    destruct (s_chk _ _ _ I1 E2 ltac:(discriminate) eq_refl) as (T2 & I2 & G2 & Q2).
    destruct (R ltac:(rewrite T2; reflexivity)) as (d & td & G1 & DD & OD).
    destruct (IH _ _ _ _ I2 H) as (I3 & TE & q & tq & G3 & QD & OQ & LR). split; [exact I3|]. split; [exact TE|].
    pose proof (got_from g _ _ _ _ G1 eq_refl eq_refl) as G1'.
    exists (QDecl d q). eexists. split; [|split; [|split]].
    + exact (got_trans _ _ _ _ _ _ _ G1' (got_trans _ _ _ _ _ _ _ G2 G3)).
    + apply qd_decl; assumption.
    + rewrite (t_depth _ _ _ _ G2), (t_depth _ _ _ _ G1'), (quiet_env _ _ Q2) in OQ. econstructor; [exact OD|exact OQ].
    + rewrite LR. cbn [endsReturn]. f_equal. destruct Q2 as [-> _]. gcbn. rewrite LS. reflexivity.
  - destruct (stat g0) as [[r g1]| | |] eqn:E1; cbn [pbind] in H; try discriminate.
    destruct (HS _ _ _ I0 E1) as (I1 & s & ts & G1 & SD & OS & LS). pose proof (got_from g _ _ _ _ G1 eq_refl eq_refl) as G1'.
    destruct (IH _ _ _ _ I1 H) as (I3 & TE & q & tq & G3 & QD & OQ & LR). split; [exact I3|]. split; [exact TE|].
    exists (QStat s q). eexists. split; [|split; [|split]].
    + exact (got_trans _ _ _ _ _ _ _ G1' G3).
    + apply qd_stat; [exact (sder_drop _ _ _ SD)|exact QD].
    + rewrite (t_depth _ _ _ _ G1') in OQ. econstructor; [exact OS|exact OQ].
    + rewrite LR. cbn [endsReturn]. rewrite LS. reflexivity.
Qed.
(* after the opening brace *)
Lemma s_seq g x g' : inv g -> getBlock krn stat g = POk (x, g') ->
  inv g' /\ exists q ts y E, got g (ts ++ [TSym cRC]) (stringsQ q) g' /\ qder q ts /\ x = block y /\ envOf g' = leave (envOf g) E /\
    okQ rt rd (0 <? depth g) (envOf g) SNull q y E /\ (lastStat g' =? LxRETURN) = endsReturn q (lastStat g =? LxRETURN).
Proof.
  intros I H. unfold getBlock in H. cbv zeta in H. destruct (blockLoop krn stat (gfuel g) SNull g) as [[y g1]| | |] eqn:E1; cbn [pbind] in H; try discriminate.
  destruct (s_blockLoop _ _ _ _ _ I E1) as (I1 & _ & q & ts & G1 & QD & OQ & LR).
  chk H I1. injection H as <- <-. split; [apply inv_wCnt, inv_void; assumption|]. exists q, ts, y, (envOf g1). split; [|split; [|split; [|split; [|split]]]].
  - apply (got_to _ _ _ g0); [|reflexivity|reflexivity]. eapply got_eq; [exact (got_trans _ _ _ _ _ _ _ G1 G)|reflexivity|apply app_nil_r].
  - exact QD.
  - reflexivity.
  - rewrite <- (quiet_env _ _ Q). reflexivity.
  - exact OQ.
  - gcbn. rewrite <- LR. destruct Q as [-> _]. reflexivity.
Qed.
Lemma s_block g x g' : inv g -> getBlock krn stat g = POk (x, g') -> goodR (0 <? depth g) g cLC x g'.
Proof.
  intros I H. destruct (s_seq _ _ _ I H) as (I1 & q & ts & y & E & G & QD & -> & EE & OQ & _). split; [exact I1|].
  exists (BBlock q). eexists. split; [exact G|]. split; [apply sder_any; constructor; exact QD|]. split; [|reflexivity].
  rewrite EE. econstructor. exact OQ.
Qed.
End Stat.

Lemma goodR_done inl g kw x g' : inv g -> gtok g = kw -> kw <> EOFtok -> valued kw = false ->
  goodR inl (gGetTok g) kw x g' -> goodS inl g x (wLast g' kw).
Proof.
  intros I T N V (I' & s & ts & G & SD & OK & LR). destruct (s_next g kw I T N V) as [_ G0]. split; [apply inv_wLast; exact I'|].
  exists s, (TSym kw :: ts). split; [|split; [exact SD|split; [|exact LR]]].
  - apply (got_to _ _ _ g'); [|reflexivity|reflexivity]. exact (got_trans _ _ _ _ _ _ _ G0 G).
  - rewrite (quiet_env _ _ (quiet_next g)) in OK. exact OK.
Qed.
Lemma s_statF f : soundS (getStatF krn f).
Proof.
  induction f as [|f IH]; intros g x g' I H; [discriminate H|]. cbn [getStatF] in H. cbv zeta in H.
  match type of H with pbind ?c _ = _ => destruct c as [[s0 g1]| | |] eqn:E1; cbn [pbind] in H; try discriminate end.
  injection H as <- <-. set (kw := gtok g) in *.
  destruct (Z.eqb_spec kw LxIF) as [K|_]; [apply goodR_done; auto; try (rewrite K; try discriminate; reflexivity); rewrite K|].
  { destruct (s_next g kw I eq_refl ltac:(rewrite K; discriminate) ltac:(rewrite K; reflexivity)) as [I1 G1].
    change (depth g) with (depth (gGetTok g)). apply (s_if _ IH); assumption. }
  destruct (Z.eqb_spec kw LxWHILE) as [K|_]; [apply goodR_done; auto; try (rewrite K; try discriminate; reflexivity); rewrite K|].
  { destruct (s_next g kw I eq_refl ltac:(rewrite K; discriminate) ltac:(rewrite K; reflexivity)) as [I1 G1]. apply (s_while _ IH); assumption. }
  destruct (Z.eqb_spec kw LxDO) as [K|_]; [apply goodR_done; auto; try (rewrite K; try discriminate; reflexivity); rewrite K|].
  { destruct (s_next g kw I eq_refl ltac:(rewrite K; discriminate) ltac:(rewrite K; reflexivity)) as [I1 G1]. apply (s_do _ IH); assumption. }
  destruct (Z.eqb_spec kw LxFOR) as [K|_]; [apply goodR_done; auto; try (rewrite K; try discriminate; reflexivity); rewrite K|].
  { destruct (s_next g kw I eq_refl ltac:(rewrite K; discriminate) ltac:(rewrite K; reflexivity)) as [I1 G1]. apply (s_for _ IH); assumption. }
  destruct (Z.eqb_spec kw LxRETURN) as [K|NR]; [apply goodR_done; auto; try (rewrite K; try discriminate; reflexivity); rewrite K|].
  { destruct (s_next g kw I eq_refl ltac:(rewrite K; discriminate) ltac:(rewrite K; reflexivity)) as [I1 G1]. apply s_return; assumption. }
  destruct (Z.eqb_spec kw LxBREAK) as [K|_]; [apply goodR_done; auto; try (rewrite K; try discriminate; reflexivity); rewrite K|].
  { destruct (s_next g kw I eq_refl ltac:(rewrite K; discriminate) ltac:(rewrite K; reflexivity)) as [I1 G1].
    change (depth g) with (depth (gGetTok g)). apply s_break; assumption. }
  destruct (Z.eqb_spec kw LxCONTINUE) as [K|_]; [apply goodR_done; auto; try (rewrite K; try discriminate; reflexivity); rewrite K|].
  { destruct (s_next g kw I eq_refl ltac:(rewrite K; discriminate) ltac:(rewrite K; reflexivity)) as [I1 G1].
    change (depth g) with (depth (gGetTok g)). apply s_cont; assumption. }
  destruct (Z.eqb_spec kw cLC) as [K|_]; [apply goodR_done; auto; try (rewrite K; try discriminate; reflexivity); rewrite K|].
  { destruct (s_next g kw I eq_refl ltac:(rewrite K; discriminate) ltac:(rewrite K; reflexivity)) as [I1 G1].
    change (depth g) with (depth (gGetTok g)). apply (s_block _ IH); assumption. }
  destruct (Z.eqb_spec kw cSEMI) as [K|_].
  { apply goodR_done; auto; try (rewrite K; try discriminate; reflexivity). rewrite K.
    destruct (s_next g kw I eq_refl ltac:(rewrite K; discriminate) ltac:(rewrite K; reflexivity)) as [I1 G1]. injection E1 as <- <-.
    split; [exact I1|]. exists BEmpty, []. split; [apply got_refl|]. split; [apply sder_any; constructor|]. split; [constructor|reflexivity]. }
  destruct (gExpr g) as [[w g2]| | |] eqn:E2; cbn [pbind] in E1; try discriminate. destruct (s_expr _ _ _ I E2) as (I2 & S2 & R2).
  destruct (gChkTok cSEMI g2) as [g3| | |] eqn:E3; cbn [pbind] in E1; try discriminate. injection E1 as <- <-.
  destruct (s_chk _ _ _ I2 E3 ltac:(discriminate) eq_refl) as (T3 & I3 & G3 & Q3).
  destruct (R2 ltac:(rewrite T3; reflexivity)) as (e & ts & G2 & D & HH & W & A).
  split; [apply inv_wLast; exact I3|]. exists (BExpr e). eexists. split; [|split; [|split]].
  - apply (got_to _ _ _ g3); [|reflexivity|reflexivity]. eapply got_eq; [exact (got_trans _ _ _ _ _ _ _ G2 G3)|reflexivity|apply app_nil_r].
  - apply sder_any. constructor. exact D.
  - change (envOf (wLast g3 kw)) with (envOf g3). rewrite (quiet_env _ _ Q3), A. econstructor. exact HH.
  - gcbn. apply Z.eqb_neq. exact NR.
Qed.
Lemma s_stat : soundS (getStat krn).
Proof. intros g x g' I H. exact (s_statF _ g x g' I H). Qed.
End Sound.

(* ---- no stray break or continue ---- *)
Scheme okS_min := Minimality for okS Sort Prop with okQ_min := Minimality for okQ Sort Prop.
Combined Scheme ok_mutind from okS_min, okQ_min.
Lemma ok_stray rt rd :
  (forall b E s x E', okS rt rd b E s x E' -> b = false -> stray s = false) /\
  (forall b E a q x E', okQ rt rd b E a q x E' -> b = false -> strayQ q = false).
Proof.
  apply ok_mutind; intros; cbn [stray strayQ]; try reflexivity; try discriminate; auto.
  - rewrite H1 by assumption. rewrite H3 by assumption. reflexivity.
  - rewrite H0 by assumption. rewrite H2 by assumption. reflexivity.
Qed.
