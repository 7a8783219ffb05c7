(* The trees that the parser makes have no holes. *)
From Coq Require Import ZArith Bool Lia List.
From Verif Require Import Lexer NameTable SyTree OpTree VmCode Parser ParserStmt ParseSpec ParseLabs ProgInv SyTable SyTableRep SyTableBuild.
Import ListNotations.
Open Scope Z_scope.

Definition good (e : expr) : bool := present e && wholeE e && noSemi e.
Definition gd : (watch * es) -> Prop := fun r => good (tr (fst r)) = true.
Lemma good_parts e : good e = true <-> present e = true /\ wholeE e = true /\ noSemi e = true.
Proof. unfold good. rewrite !andb_true_iff. tauto. Qed.
Lemma good_2 o l r : op2_eqb o SEMI = false -> good l = true -> good r = true -> good (E2 o l r) = true.
Proof.
  intros O L R. apply good_parts in L. apply good_parts in R. destruct L as [L1 [L2 L3]], R as [R1 [R2 R3]]. apply good_parts.
  cbn [present wholeE noSemi]. rewrite L1, L2, L3, R1, R2, R3, O. auto.
Qed.
Lemma good_1 o e : good e = true -> good (E1 o e) = true.
Proof. intros L. apply good_parts in L. destruct L as [L1 [L2 L3]]. apply good_parts. cbn [present wholeE noSemi]. rewrite L1, L2. auto. Qed.
Lemma good_f f a : wholeE a = true -> good (EFunc f a) = true.
Proof. intros L. apply good_parts. cbn [present wholeE noSemi]. auto. Qed.

Section G.
Variable nt : table.
Variables asExpr expr : parser.
Hypothesis HA : forall s, ac (asExpr s) gd.
Hypothesis HE : forall s, ac (expr s) gd.
Lemma gd_post f : forall w s, good (tr w) = true -> ac (postLoop nt asExpr f w s) gd.
Proof.
  induction f as [|f IH]; intros w s H; [exact I|]. cbn [postLoop]. destruct (isTok cLB s).
  - eapply (ac_bind _ _ gd); [|intros [w2 s2] H2; apply IH; exact H2].
    unfold getIdxOP. destruct (wd w <=? 0); [exact I|]. eapply ac_bind; [apply HA|]. intros [w2 s2] G2.
    eapply ac_bind; [apply ac_skip|]. intros s3 _. destruct (_ || _); [exact I|].
    apply (ac_bind _ _ (fun op => op2_eqb op SEMI = false)).
    + repeat match goal with |- ac (if ?c then _ else _) _ => destruct c end; try exact I; reflexivity.
    + intros op Ho. unfold gd. cbn [ac fst tr]. apply good_2; [exact Ho|exact H|exact G2].
  - destruct (isTok cDOT s); [|exact H].
    eapply (ac_bind _ _ gd); [|intros [w2 s2] H2; apply IH; exact H2].
    unfold getDotOP. destruct (_ || _); [exact I|]. eapply ac_bind; [apply ac_skip|]. intros s3 _. destruct (ntSrcField _ _ _); try exact I.
    unfold gd. cbn [ac fst tr]. apply good_2; [reflexivity|exact H|reflexivity].
Qed.
Lemma cat_whole a b : wholeE a = true -> wholeE b = true -> wholeE (catE a b) = true.
Proof.
  intros A B. destruct a; [exact B| | | |]; destruct b; try exact A; cbn [catE wholeE present andb] in *; rewrite ?A, ?B; auto.
Qed.
Lemma gd_argsLoop f : forall i last lst s, wholeE lst = true -> ac (argsLoop nt asExpr f i last lst s) (fun r => wholeE (snd (fst r)) = true).
Proof.
  induction f as [|f IH]; intros i last lst s H; [exact I|]. cbn [argsLoop]. eapply ac_bind; [apply HA|]. intros [w s1] G1. unfold gd in G1. cbn [fst] in G1.
  destruct (last <? i); [exact I|].
  apply (ac_bind _ _ (fun r => tr (fst r) = tr w)).
  - destruct (negb _).
    + eapply ac_bind; [apply ac_chkCmpat|]. cbn beta. intros w' E. exact E.
    + destruct (_ && _); [exact I|reflexivity].
  - intros [w' i'] E. cbn [fst] in E. cbv zeta. rewrite E.
    assert (K : wholeE (catE lst (tr w)) = true). { apply cat_whole; [exact H|]. apply good_parts in G1. tauto. }
    destruct (isTok cCOMMA s1); [apply IH; exact K|exact K].
Qed.
Lemma gd_call n s : ac (getCall nt asExpr n s) gd.
Proof.
  unfold getCall. eapply ac_bind; [apply ac_skip|]. intros s1 _. destruct (_ =? _); [exact I|].
  apply (ac_bind _ _ (fun r => wholeE (fst r) = true)).
  - unfold getArgs. cbv zeta. apply (ac_bind _ _ (fun r => wholeE (snd (fst r)) = true)).
    + destruct (negb _); [apply gd_argsLoop; reflexivity|reflexivity].
    + intros [[i l] s2] H. eapply ac_bind; [apply ac_skip|]. intros s3 _. destruct (_ && _); [exact I|exact H].
  - intros [a s2] H. unfold gd. cbn [ac fst tr]. apply good_f. exact H.
Qed.
Lemma gd_parens s : ac (inParens expr s) gd.
Proof.
  unfold inParens. eapply ac_bind; [apply ac_skip|]. intros s1 _. eapply ac_bind; [apply HE|]. intros [w s2] H.
  eapply ac_bind; [apply ac_skip|]. intros s3 _. exact H.
Qed.
Lemma gd_factor s : ac (getFactor nt asExpr expr s) gd.
Proof.
  unfold getFactor. eapply (ac_bind _ _ gd); [|intros [w s1] H; apply gd_post; exact H].
  repeat match goal with |- ac (if ?c then _ else _) _ => destruct c end; try exact I; try reflexivity.
  - eapply ac_bind; [apply HE|]. intros [w s2] H. eapply ac_bind; [apply ac_skip|]. intros s3 _. exact H.
  - unfold getIdent. destruct (ntSrcName _ _); [|exact I]. cbv zeta.
    repeat match goal with |- ac (if ?c then _ else _) _ => destruct c end; try exact I; try reflexivity. apply gd_call.
  - unfold getSizeof. eapply ac_bind; [apply ac_skip|]. intros s1 _. eapply ac_bind; [apply ac_skip|]. intros [[t d] s2] _. destruct (_ && _); [exact I|].
    eapply ac_bind; [apply ac_skip|]. intros s3 _. reflexivity.
  - unfold getAddrof. eapply ac_bind; [apply ac_skip|]. intros s1 _. eapply ac_bind; [apply ac_skip|]. intros s2 _. destruct (ntSrcName _ _); [|exact I]. destruct (isGlob _); [|exact I].
    eapply ac_bind; [apply ac_skip|]. intros s3 _. reflexivity.
  - unfold getOrd. eapply ac_bind; [apply gd_parens|]. intros [w s2] H. destruct (_ || _); [exact I|exact H].
  - unfold getChr. eapply ac_bind; [apply gd_parens|]. intros [w s2] H. destruct (_ || _); [exact I|exact (good_1 CHR _ H)].
  - unfold getBool. eapply ac_bind; [apply gd_parens|]. intros [w s2] H. destruct (_ || _); [exact I|exact (good_1 BOOL _ H)].
Qed.
Lemma gd_uni f : forall s, ac (getUniExpr nt asExpr expr f s) gd.
Proof.
  induction f as [|f IH]; intros s; [exact I|]. cbn [getUniExpr].
  do 4 (destruct (_ =? _); [eapply ac_bind; [apply IH|]; intros [w s2] H; eapply ac_bind; [apply ac_chkType|]; cbn beta; intros w' E;
    unfold gd, mk1 in *; cbn [ac fst tr] in *; rewrite ?E; first [exact H|apply good_1; exact H]|]).
  apply gd_factor.
Qed.
Definition plain (ops : opTable) : bool := forallb (fun p => negb (op2_eqb (snd p) SEMI)) ops.
Lemma plain_op ops t o : plain ops = true -> opOf ops t = Some o -> op2_eqb o SEMI = false.
Proof.
  induction ops as [|[k o'] ops IH]; intros P E; [discriminate|]. cbn [plain forallb snd] in P. apply andb_prop in P. destruct P as [P1 P2].
  cbn [opOf] in E. destruct (t =? k); [injection E as <-; apply negb_true_iff; exact P1|apply IH; assumption].
Qed.
Definition keepsG (act : op2 -> watch -> watch -> pres watch) : Prop :=
  forall o a b, op2_eqb o SEMI = false -> good (tr a) = true -> good (tr b) = true -> ac (act o a b) (fun w => good (tr w) = true).
Lemma gd_bin ops act next : plain ops = true -> keepsG act -> (forall s, ac (next s) gd) -> forall s, ac (binExpr ops act next s) gd.
Proof.
  intros P HC HN s. unfold binExpr. eapply ac_bind; [apply HN|]. intros [w s1] M. generalize (fuelOf s1) as f. intros f. revert w s1 M.
  induction f as [|f IH]; intros w s1 M; [exact I|]. cbn [binLoop]. destruct (opOf ops (tok s1)) as [o|] eqn:E; [|exact M].
  eapply ac_bind; [apply HN|]. intros [w2 s2] M2. eapply ac_bind; [apply HC; [exact (plain_op _ _ _ P E)|exact M|exact M2]|]. cbn beta. intros w3 E3. apply IH. exact E3.
Qed.
Lemma gd_cal2 t : keepsG (cal2 t).
Proof.
  intros o a b O A B. unfold cal2. eapply ac_bind; [apply ac_chkType|]. cbn beta. intros a' Ea. eapply ac_bind; [apply ac_chkType|]. cbn beta. intros b' Eb.
  unfold mk2; cbn [ac tr]. rewrite Ea, Eb. apply good_2; assumption.
Qed.
Lemma gd_cmp : keepsG calCmp.
Proof. intros o a b O A B. unfold calCmp. eapply ac_bind; [apply gd_cal2; assumption|]. cbn beta. intros w H. exact H. Qed.
Lemma gd_equ : keepsG calEqu.
Proof.
  intros o a b O A B. unfold calEqu. eapply ac_bind; [apply ac_chkCmpat|]. cbn beta. intros w H. unfold mk2; cbn [ac tr].
  apply good_2; [exact O| |].
  - destruct (wt a =? TyCHAR); exact A.
  - rewrite H. destruct (wt b =? TyCHAR); exact B.
Qed.
Lemma gd_or s : ac (getLogOrExpr nt asExpr expr s) gd.
Proof.
  revert s. unfold getLogOrExpr, getLogAndExpr, getOrExpr, getXorExpr, getAndExpr, getEquExpr, getCmpExpr, getSftExpr, getAddExpr, getMulExpr.
  repeat (apply gd_bin; [reflexivity|first [apply gd_cal2|apply gd_cmp|apply gd_equ]|]). intros s. apply gd_uni.
Qed.
End G.
Lemma gd_comma asExpr : (forall s, ac (asExpr s) gd) -> forall s, ac (commaExpr asExpr s) gd.
Proof.
  intros HA s. unfold commaExpr. eapply ac_bind; [apply HA|]. intros [w s1] M. generalize (fuelOf s1) as f. intros f. revert w s1 M.
  induction f as [|f IH]; intros w s1 M; [exact I|]. cbn [commaLoop]. destruct (isTok cCOMMA s1) as [s2|]; [|exact M].
  eapply ac_bind; [apply HA|]. intros [w2 s3] M2. apply IH. unfold gd. unfold mk2; cbn [fst tr]. apply good_2; [reflexivity|exact M|exact M2].
Qed.
Lemma gd_asF nt f : forall s, ac (getAsExprF nt f s) gd.
Proof.
  induction f as [|f IH]; intros s; [exact I|]. cbn [getAsExprF]. eapply ac_bind; [apply gd_or; [exact IH|apply gd_comma; exact IH]|]. intros [w s1] M.
  destruct (isTok cEQ s1); [|exact M]. eapply ac_bind; [apply IH|]. intros [w2 s3] M2. eapply ac_bind; [apply ac_chkCmpat|]. cbn beta. intros w3 E.
  destruct (negb _); [exact I|]. unfold gd. unfold mk2; cbn [ac fst tr]. rewrite E. apply good_2; [reflexivity|exact M|exact M2].
Qed.
Lemma gd_as nt s : ac (getAsExpr nt s) gd.
Proof. apply gd_asF. Qed.
Lemma gd_expr nt s : ac (getExpr nt s) gd.
Proof. unfold getExpr. apply gd_comma. intros. apply gd_asF. Qed.

(* ---- statements ---- *)
Definition gdG : (watch * gs) -> Prop := fun r => good (tr (fst r)) = true.
Lemma gd_gExpr g : ac (gExpr g) gdG.
Proof. unfold gExpr. eapply ac_bind; [apply gd_expr|]. intros [w e] H. exact H. Qed.
Lemma gd_gAsExpr g : ac (gAsExpr g) gdG.
Proof. unfold gAsExpr. eapply ac_bind; [apply gd_as|]. intros [w e] H. exact H. Qed.
Definition ws : (stmt * gs) -> Prop := fun r => wholeS (fst r) = true.
Definition we : (expr * gs) -> Prop := fun r => present (fst r) = true /\ wholeE (fst r) = true.
Lemma ws_cat a b : wholeS a = true -> wholeS b = true -> wholeS (catS a b) = true.
Proof. intros A B. destruct a; [exact B| | | | | | | | | | |]; (destruct b; [exact A| | | | | | | | | | |]; unfold catS; match goal with |- wholeS (SSemi ?x ?y) = true => change (presentS x && wholeS x && presentS y && wholeS y = true); rewrite ?A, ?B; reflexivity end). Qed.
Lemma ws_blk a : wholeS a = true -> wholeS (toBlk a) = true.
Proof.
  intros A. destruct a; try exact A. cbn [toBlk wholeS] in *. apply andb_prop in A. destruct A as [A B]. apply andb_prop in A. destruct A as [A C].
  apply andb_prop in A. destruct A as [_ A]. rewrite A, B. reflexivity.
Qed.
Lemma we_cond g : ac (getCond g) we.
Proof.
  unfold getCond. eapply ac_bind; [apply ac_skip|]. intros g1 _. eapply ac_bind; [apply gd_gExpr|]. intros [w g2] H. unfold gdG in H. cbn [fst] in H.
  eapply ac_bind; [apply ac_chkType|]. cbn beta. intros w' E. eapply ac_bind; [apply ac_skip|]. intros g3 _. unfold we. cbn [ac fst]. rewrite E.
  apply good_parts in H. tauto.
Qed.
Section K.
Variable krnFlag : bool.
Lemma ws_lvar g : ac (getLVar krnFlag g) ws.
Proof.
  unfold getLVar. cbv zeta. eapply ac_bind; [apply ac_skip|]. intros [i g1] _. destruct (gIsTok cEQ g1); [|reflexivity].
  eapply ac_bind; [apply gd_gAsExpr|]. intros [w g2] H. eapply ac_bind; [apply ac_chkCmpat|]. cbn beta. intros w' E. unfold ws. cbn [ac fst]. rewrite E.
  apply ws_cat; [reflexivity|]. exact (good_2 ASS (ELeaf (LLoc i)) _ eq_refl eq_refl H).
Qed.
Lemma ws_lvarsLoop f : forall s g, wholeS s = true -> ac (lvarsLoop krnFlag f s g) ws.
Proof.
  induction f as [|f IH]; intros s g H; [exact I|]. cbn [lvarsLoop]. destruct (gIsTok cCOMMA g); [|exact H].
  eapply ac_bind; [apply ws_lvar|]. intros [s2 g2] H2. apply IH. apply ws_cat; assumption.
Qed.
Lemma ws_lvars g : ac (getLVars krnFlag g) ws.
Proof.
  unfold getLVars. eapply ac_bind; [apply ac_skip|]. intros g1 _. eapply ac_bind; [apply ws_lvar|]. intros [s2 g2] H2.
  eapply ac_bind; [apply ws_lvarsLoop; exact H2|]. intros [s3 g3] H3. exact H3.
Qed.
Section St.
Variable stat : sparser.
Hypothesis HS : forall g, ac (stat g) ws.
Lemma ws_body g : ac (body stat g) ws.
Proof. unfold body. eapply ac_bind; [apply HS|]. intros [b g1] H. exact H. Qed.
Ltac both H1 H2 := unfold ws, we in *; cbn [ac fst wholeS] in *; repeat match goal with H : _ /\ _ |- _ => destruct H end;
  repeat match goal with H : _ = true |- _ => rewrite H; clear H end; reflexivity.
Lemma ws_if g : ac (getIf stat g) ws.
Proof.
  unfold getIf. eapply ac_bind; [apply we_cond|]. intros [c g1] H1. eapply ac_bind; [apply HS|]. intros [b g2] H2. destruct (gIsTok LxELSE g2).
  - eapply ac_bind; [apply HS|]. intros [b2 g3] H3. both H1 H2.
  - both H1 H2.
Qed.
Lemma ws_while g : ac (getWhile stat g) ws.
Proof. unfold getWhile. eapply ac_bind; [apply we_cond|]. intros [c g1] H1. eapply ac_bind; [apply ws_body|]. intros [b g2] H2. both H1 H2. Qed.
Lemma ws_do g : ac (getDoWhile stat g) ws.
Proof.
  unfold getDoWhile. eapply ac_bind; [apply ws_body|]. intros [b g2] H2. eapply ac_bind; [apply ac_skip|]. intros g3 _.
  eapply ac_bind; [apply we_cond|]. intros [c g1] H1. eapply ac_bind; [apply ac_skip|]. intros g4 _. both H1 H2.
Qed.
Lemma ws_for g : ac (getFor krnFlag stat g) ws.
Proof.
  unfold getFor. cbv zeta. eapply ac_bind; [apply ac_skip|]. intros g1 _. apply (ac_bind _ _ ws).
  { destruct (_ =? _); [reflexivity|]. destruct (gIsType g1) as [ty g2]. destruct ty; [apply ws_lvars|].
    eapply ac_bind; [apply gd_gExpr|]. intros [w g3] H. exact H. }
  intros [ini g2] H1. eapply ac_bind; [apply ac_skip|]. intros g3 _. apply (ac_bind _ _ (fun r => wholeE (fst r) = true)).
  { destruct (_ =? _); [reflexivity|]. eapply ac_bind; [apply gd_gExpr|]. intros [w g4] H. eapply ac_bind; [apply ac_chkType|]. cbn beta. intros w' E.
    cbn [ac fst]. rewrite E. apply good_parts in H. tauto. }
  intros [cnd g4] H2. eapply ac_bind; [apply ac_skip|]. intros g5 _. apply (ac_bind _ _ (fun r => wholeE (fst r) = true)).
  { destruct (_ =? _); [reflexivity|]. eapply ac_bind; [apply gd_gExpr|]. intros [w g6] H. cbn [ac fst]. apply good_parts in H. tauto. }
  intros [rini g6] H3. eapply ac_bind; [apply ac_skip|]. intros g7 _. eapply ac_bind; [apply ws_body|]. intros [b g8] H4. both H1 H2.
Qed.
Lemma ws_blockLoop f : forall s g, wholeS s = true -> ac (blockLoop krnFlag stat f s g) ws.
Proof.
  induction f as [|f IH]; intros s g H; [exact I|]. cbn [blockLoop]. destruct (_ || _); [exact H|].
  apply (ac_bind _ _ ws).
  - destruct (gIsType g) as [ty g1]. destruct ty; [|apply HS]. eapply ac_bind; [apply ws_lvars|]. intros [r g2] H2.
    eapply ac_bind; [apply ac_skip|]. intros g3 _. exact H2.
  - intros [r g2] H2. apply IH. apply ws_cat; assumption.
Qed.
Lemma ws_block g : ac (getBlock krnFlag stat g) ws.
Proof.
  unfold getBlock. cbv zeta. eapply ac_bind; [apply ws_blockLoop; reflexivity|]. intros [s g1] H. eapply ac_bind; [apply ac_skip|]. intros g2 _.
  unfold ws. cbn [ac fst]. apply ws_blk. exact H.
Qed.
End St.
Lemma ws_return g : ac (getReturn g) ws.
Proof.
  unfold getReturn. cbv zeta. apply (ac_bind _ _ (fun r => wholeE (fst r) = true)).
  - destruct (_ && _); [|reflexivity]. eapply ac_bind; [apply gd_gExpr|]. intros [w g1] H. eapply ac_bind; [apply ac_chkCmpat|]. cbn beta. intros w' E.
    cbn [ac fst]. rewrite E. apply good_parts in H. tauto.
  - intros [e g1] H. eapply ac_bind; [apply ac_skip|]. intros g2 _. exact H.
Qed.
Lemma ws_statF f : forall g, ac (getStatF krnFlag f g) ws.
Proof.
  induction f as [|f IH]; intros g; [exact I|]. cbn [getStatF]. apply (ac_bind _ _ ws); [|intros [s g1] H; exact H].
  destruct (_ =? _); [apply ws_if; exact IH|]. destruct (_ =? _); [apply ws_while; exact IH|]. destruct (_ =? _); [apply ws_do; exact IH|].
  destruct (_ =? _); [apply ws_for; exact IH|]. destruct (_ =? _); [apply ws_return|].
  destruct (_ =? _). { unfold getBreak. destruct (_ <=? _); [exact I|]. eapply ac_bind; [apply ac_skip|]. intros g2 _. reflexivity. }
  destruct (_ =? _). { unfold getCont. destruct (_ <=? _); [exact I|]. eapply ac_bind; [apply ac_skip|]. intros g2 _. reflexivity. }
  destruct (_ =? _); [apply ws_block; exact IH|]. destruct (_ =? _); [reflexivity|].
  eapply ac_bind; [apply gd_gExpr|]. intros [w g1] H. eapply ac_bind; [apply ac_skip|]. intros g2 _. exact H.
Qed.
Lemma parsed_whole g s g' : getBlock krnFlag (getStat krnFlag) g = POk (s, g') -> wholeS s = true.
Proof. intros E. exact (ac_get _ ws _ (ws_block (getStat krnFlag) (fun g0 => ws_statF _ g0) g) E). Qed.
End K.
