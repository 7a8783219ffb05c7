(* What the parser does to the label counter, the output and the trees: strings are the
   only thing expressions emit, and every string label in a tree has been placed. *)
From Coq Require Import ZArith Bool Lia List.
From Verif Require Import Lexer NameTable SyTree OpTree ExprSem OptSpec VM VmCode Parser ParserStmt ParseSpec.
Import ListNotations.
Open Scope Z_scope.

(* Q holds if the result is accepted *)
Definition ac {A} (r : pres A) (Q : A -> Prop) : Prop := match r with POk a => Q a | _ => True end.
Lemma ac_bind {A B} (r : pres A) (f : A -> pres B) (P : A -> Prop) (Q : B -> Prop) :
  ac r P -> (forall a, P a -> ac (f a) Q) -> ac (pbind r f) Q.
Proof. destruct r; cbn [ac pbind]; auto. Qed.
Lemma ac_mono {A} (r : pres A) (P Q : A -> Prop) : ac r P -> (forall a, P a -> Q a) -> ac r Q.
Proof. destruct r; cbn [ac]; auto. Qed.
Lemma ac_skip {A} (r : pres A) : ac r (fun _ => True).
Proof. destruct r; exact I. Qed.
Lemma ac_get {A} (r : pres A) Q a : ac r Q -> r = POk a -> Q a.
Proof. intros H ->. exact H. Qed.

(* what a tree refers to: strings, variables, objects, functions *)
Inductive ref := RStr (l : Z) | RGlb (i : Z) | RAddr (i : Z) | RLoc (i : Z) | RPrm (i : Z) | RFun (i : Z).
Definition refsL (k : leaf) : list ref :=
  match k with
  | LCnst _ => [] | LGlb i => [RGlb i] | LAddr i => [RAddr i] | LLoc i => [RLoc i] | LPrm i => [RPrm i] | LStr l => [RStr l]
  end.
Fixpoint refsE (e : expr) : list ref :=
  match e with
  | ENull => []
  | ELeaf k => refsL k
  | E1 _ a => refsE a
  | E2 _ a b => refsE a ++ refsE b
  | EFunc f a => RFun f :: refsE a
  end.
Fixpoint refsS (s : stmt) : list ref :=
  match s with
  | SExpr e | SRet e => refsE e
  | SIf c b => refsE c ++ refsS b
  | SEls c a b => refsE c ++ refsS a ++ refsS b
  | SWhl c b r => refsE c ++ refsS b ++ refsE r
  | SDo b c => refsS b ++ refsE c
  | SSemi a b | SBlk a b => refsS a ++ refsS b
  | _ => []
  end.
(* strings have labels in the range, names stand for entries of the right kind *)
Definition okRef (nt : table) (n n' : Z) (r : ref) : Prop :=
  match r with
  | RStr l => n < l <= n'
  | RGlb i => scopeAt nt i = ScCOMM \/ scopeAt nt i = ScGVAR
  | RAddr i => isGlob (scopeAt nt i) = true
  | RLoc i => scopeAt nt i = ScLVAR
  | RPrm i => scopeAt nt i = ScPRM
  | RFun i => scopeAt nt i = ScPROT \/ scopeAt nt i = ScFUNC
  end.
Definition within (nt : table) (n n' : Z) (ls : list ref) : Prop := forall r, In r ls -> okRef nt n n' r.
Lemma within_nil nt n n' : within nt n n' []. Proof. intros l []. Qed.
Lemma within_app nt n n' a b : within nt n n' a -> within nt n n' b -> within nt n n' (a ++ b).
Proof. intros A B l H. apply in_app_or in H. destruct H; auto. Qed.
Lemma okRef_mono nt n n' m m' r : okRef nt n n' r -> m <= n -> n' <= m' -> okRef nt m m' r.
Proof. destruct r; cbn [okRef]; try (intros; assumption). lia. Qed.
Lemma within_mono nt n n' m m' a : within nt n n' a -> m <= n -> n' <= m' -> within nt m m' a.
Proof. intros A L1 L2 l H. exact (okRef_mono _ _ _ _ _ _ (A l H) L1 L2). Qed.

(* from s to t tokens were read and only strings were emitted *)
Definition tailOf (t s : list item) : Prop := exists a, s = a ++ t.
Lemma tail_refl l : tailOf l l. Proof. exists []. reflexivity. Qed.
Lemma tail_tran a b c : tailOf a b -> tailOf b c -> tailOf a c.
Proof. intros [x ->] [y ->]. exists (y ++ x). apply app_assoc. Qed.
Lemma tail_tl i a b : tailOf a b -> tailOf a (i :: b).
Proof. intros [x ->]. exists (i :: x). reflexivity. Qed.
Lemma tail_incl a b : tailOf a b -> incl a b.
Proof. intros [x ->]. apply incl_appr, incl_refl. Qed.
Definition strs (s t : es) : Prop :=
  tailOf (its t) (its s) /\ exists ss, clab t = clab s + Z.of_nat (List.length ss) /\ outp t = outp s ++ strOut (clab s) ss.
Lemma strOut_app l a b : strOut l (a ++ b) = strOut l a ++ strOut (l + Z.of_nat (List.length a)) b.
Proof.
  revert l. induction a as [|x a IH]; intros l; cbn [strOut app List.length]; [rewrite Z.add_0_r; reflexivity|].
  rewrite IH. replace (l + 1 + Z.of_nat (List.length a)) with (l + Z.of_nat (S (List.length a))) by lia. reflexivity.
Qed.
Lemma strs_refl s : strs s s.
Proof. split; [apply tail_refl|]. exists []. cbn [List.length strOut]. rewrite app_nil_r. split; [lia|reflexivity]. Qed.
Lemma strs_trans a b c : strs a b -> strs b c -> strs a c.
Proof.
  intros (I1 & x & H1 & H2) (I2 & y & H3 & H4). split; [exact (tail_tran _ _ _ I2 I1)|]. exists (x ++ y). rewrite app_length, H4, H3, H2, H1, <- app_assoc, strOut_app. split; [lia|reflexivity].
Qed.
Lemma strs_le a b : strs a b -> clab a <= clab b.
Proof. intros (_ & x & H & _). lia. Qed.
Lemma getTok_incl s : tailOf (its (getTok s)) (its s).
Proof.
  unfold getTok. destruct (its s) as [|i r] eqn:E; [rewrite E; apply tail_refl|]. destruct (_ =? _); [rewrite E; apply tail_refl|]. cbn [its].
  apply tail_tl. clear. induction r as [|a r IH]; cbn [skipFile]; [apply tail_refl|]. destruct (_ =? _); [apply tail_tl; exact IH|apply tail_refl].
Qed.
Lemma strs_getTok s : strs s (getTok s).
Proof.
  split; [apply getTok_incl|]. exists []. cbn [List.length strOut]. rewrite app_nil_r. unfold getTok. destruct (its s) as [|i r]; [split; [lia|reflexivity]|].
  destruct (tokOf i =? EOFtok); cbn [clab outp]; split; [lia|reflexivity|lia|reflexivity].
Qed.
Lemma strs_isTok k s s' : isTok k s = Some s' -> strs s s'.
Proof. unfold isTok. destruct (tok s =? k); [|discriminate]. intros H. injection H as <-. apply strs_getTok. Qed.
Lemma ac_chkTok k s : ac (chkTok k s) (fun s' => strs s s').
Proof. unfold chkTok. destruct (tok s =? k); [apply strs_getTok|exact I]. Qed.

(* an expression read since s *)
Definition made (nt : table) (s : es) : (watch * es) -> Prop := fun r => strs s (snd r) /\ within nt (clab s) (clab (snd r)) (refsE (tr (fst r))).
Lemma made_more nt s w t t' : made nt s (w, t) -> strs t t' -> made nt s (w, t').
Proof. intros [A B] C. split; [exact (strs_trans _ _ _ A C)|]. cbn [fst snd] in *. eapply within_mono; [exact B|lia|exact (strs_le _ _ C)]. Qed.
Lemma made_back nt s s0 r : strs s0 s -> made nt s r -> made nt s0 r.
Proof.
  intros C [A B]. split; [exact (strs_trans _ _ _ C A)|]. eapply within_mono; [exact B|exact (strs_le _ _ C)|lia].
Qed.
(* two expressions one after the other *)
Lemma made_two nt s w t w2 t2 l : made nt s (w, t) -> made nt t (w2, t2) -> incl l (refsE (tr w) ++ refsE (tr w2)) ->
  strs s t2 /\ within nt (clab s) (clab t2) l.
Proof.
  intros M1 [A2 B2] I. destruct (made_more nt _ _ _ t2 M1 A2) as [A B]. cbn [fst snd] in *. split; [exact A|].
  intros x H. apply I in H. apply in_app_or in H. destruct H as [H|H]; [exact (B x H)|].
  exact (okRef_mono _ _ _ _ _ _ (B2 x H) (strs_le _ _ (proj1 M1)) (Z.le_refl _)).
Qed.

Lemma ac_chkType w t : ac (chkType w t) (fun w' => tr w' = tr w).
Proof.
  assert (tr (autoCast w t 0) = tr w) as E by (unfold autoCast; destruct (_ || _); [reflexivity|]; destruct (_ && _); reflexivity).
  unfold chkType. cbv zeta. repeat (match goal with |- ac (if ?c then _ else _) _ => destruct c end; [exact I|]). exact E.
Qed.
Lemma ac_chkCmpat w t d : ac (chkCmpat w t d) (fun w' => tr w' = tr w).
Proof.
  assert (tr (autoCast w t d) = tr w) as E by (unfold autoCast; destruct (_ || _); [reflexivity|]; destruct (_ && _); reflexivity).
  unfold chkCmpat. cbv zeta. match goal with |- ac (if ?c then _ else _) _ => destruct c end; [exact I|exact E].
Qed.
Lemma ac_cal2 t o w1 w2 : ac (cal2 t o w1 w2) (fun w => refsE (tr w) = refsE (tr w1) ++ refsE (tr w2)).
Proof.
  unfold cal2. eapply ac_bind; [apply ac_chkType|]. cbn beta. intros a Ea. eapply ac_bind; [apply ac_chkType|]. cbn beta. intros b Eb.
  cbn [ac tr mk2 refsE]. unfold mk2. cbn [refsE]. congruence.
Qed.
Lemma ac_calCmp o w1 w2 : ac (calCmp o w1 w2) (fun w => refsE (tr w) = refsE (tr w1) ++ refsE (tr w2)).
Proof. unfold calCmp. eapply ac_bind; [apply ac_cal2|]. cbn beta. intros w H. exact H. Qed.
Lemma ac_calEqu o w1 w2 : ac (calEqu o w1 w2) (fun w => refsE (tr w) = refsE (tr w1) ++ refsE (tr w2)).
Proof.
  unfold calEqu. eapply ac_bind; [apply ac_chkCmpat|]. cbn beta. intros w H. cbn [ac tr]. unfold mk2. cbn [refsE]. rewrite H.
  destruct (wt w1 =? TyCHAR), (wt w2 =? TyCHAR); reflexivity.
Qed.
Lemma refsE_cat a b : refsE (catE a b) = refsE a ++ refsE b.
Proof. unfold catE. destruct a; try reflexivity; destruct b; cbn [refsE]; rewrite ?app_nil_r; reflexivity. Qed.
Lemma incl_same {A} (l : list A) a : l = a -> incl l a.
Proof. intros ->. apply incl_refl. Qed.

Section Expr.
Variable nt : table.
Variables asExpr expr : parser.
Hypothesis HA : forall s, ac (asExpr s) (made nt s).
Hypothesis HE : forall s, ac (expr s) (made nt s).

Lemma ac_getIdxOP s0 w s : made nt s0 (w, s) -> ac (getIdxOP asExpr w s) (made nt s0).
Proof.
  intros M. unfold getIdxOP. destruct (wd w <=? 0); [exact I|]. eapply ac_bind; [apply HA|]. intros [w2 s2] M2.
  eapply ac_bind; [apply ac_chkTok|]. cbn beta. intros s3 T. pose proof (made_more _ _ _ _ _ M2 T) as M3.
  destruct (_ || _); [exact I|]. eapply ac_bind; [apply ac_skip|]. intros op _. unfold made. cbn [ac fst snd tr mk2]. unfold mk2. cbn [refsE].
  eapply made_two; [exact M|exact M3|apply incl_refl].
Qed.
Lemma ac_getDotOP s0 w s : made nt s0 (w, s) -> ac (getDotOP nt w s) (made nt s0).
Proof.
  intros M. unfold getDotOP. destruct (_ || _); [exact I|]. eapply ac_bind; [apply ac_chkTok|]. cbn beta. intros s3 T.
  destruct (ntSrcField _ _ _); try exact I. destruct (made_more _ _ _ _ _ M T) as [A B]. unfold made. cbn [ac fst snd tr refsE] in *.
  rewrite app_nil_r. split; assumption.
Qed.
Lemma ac_postLoop f : forall s0 w s, made nt s0 (w, s) -> ac (postLoop nt asExpr f w s) (made nt s0).
Proof.
  induction f as [|f IH]; intros s0 w s M; [exact I|]. cbn [postLoop].
  destruct (isTok cLB s) as [s1|] eqn:E.
  { apply strs_isTok in E. eapply ac_bind; [apply ac_getIdxOP; exact (made_more _ _ _ _ _ M E)|]. intros [w2 s2] M2. apply IH. exact M2. }
  destruct (isTok cDOT s) as [s1|] eqn:E2; [|exact M].
  apply strs_isTok in E2. eapply ac_bind; [apply ac_getDotOP; exact (made_more _ _ _ _ _ M E2)|]. intros [w2 s2] M2. apply IH. exact M2.
Qed.
Lemma ac_argsLoop f : forall s0 i last lst s, strs s0 s -> within nt (clab s0) (clab s) (refsE lst) ->
  ac (argsLoop nt asExpr f i last lst s) (fun r => strs s0 (snd r) /\ within nt (clab s0) (clab (snd r)) (refsE (snd (fst r)))).
Proof.
  induction f as [|f IH]; intros s0 i last lst s T B; [exact I|]. cbn [argsLoop].
  eapply ac_bind; [apply HA|]. intros [w s1] M. destruct (last <? i); [exact I|].
  eapply (ac_bind _ _ (fun r => tr (fst r) = tr w)).
  { destruct (negb _). - eapply ac_bind; [apply ac_chkCmpat|]. cbn beta. intros w2 Hw. exact Hw.
    - destruct (_ && _); [exact I|reflexivity]. }
  intros [w2 i2] Hw. cbn [fst] in Hw.
  assert (strs s0 s1 /\ within nt (clab s0) (clab s1) (refsE (catE lst (tr w2)))) as [T1 B1].
  { rewrite refsE_cat, Hw. split; [exact (strs_trans _ _ _ T (proj1 M))|].
    apply within_app.
    - eapply within_mono; [exact B|lia|exact (strs_le _ _ (proj1 M))].
    - eapply within_mono; [exact (proj2 M)|exact (strs_le _ _ T)|cbn [snd]; lia]. }
  cbv zeta. destruct (isTok cCOMMA s1) as [s2|] eqn:E; [|split; assumption].
  apply strs_isTok in E. apply IH; [exact (strs_trans _ _ _ T1 E)|]. eapply within_mono; [exact B1|lia|exact (strs_le _ _ E)].
Qed.
Lemma ac_getArgs f s : ac (getArgs nt asExpr f s) (fun r => strs s (snd r) /\ within nt (clab s) (clab (snd r)) (refsE (fst r))).
Proof.
  unfold getArgs. cbv zeta. eapply (ac_bind _ _ (fun r => strs s (snd r) /\ within nt (clab s) (clab (snd r)) (refsE (snd (fst r))))).
  { destruct (negb _); [apply ac_argsLoop; [apply strs_refl|apply within_nil]|]. split; [apply strs_refl|apply within_nil]. }
  intros [[i lst] s1] [T B]. cbn [fst snd] in *. eapply ac_bind; [apply ac_chkTok|]. cbn beta. intros s2 T2.
  destruct (_ && _); [exact I|]. cbn [ac fst snd]. split; [exact (strs_trans _ _ _ T T2)|]. eapply within_mono; [exact B|lia|exact (strs_le _ _ T2)].
Qed.
Lemma ac_getCall f s : scopeAt nt f = ScPROT \/ scopeAt nt f = ScFUNC -> ac (getCall nt asExpr f s) (made nt s).
Proof.
  intros SC. unfold getCall. eapply ac_bind; [apply ac_chkTok|]. cbn beta. intros s1 T. destruct (_ =? _); [exact I|].
  eapply ac_bind; [apply ac_getArgs|]. cbn beta. intros [a s2] [T2 B2]. apply (made_back _ _ _ _ T). split; [exact T2|].
  intros r [<-|H]; [exact SC|exact (B2 r H)].
Qed.
Lemma ac_dimLoop f : forall d s, ac (dimLoop f d s) (fun r => strs s (snd r)).
Proof.
  induction f as [|f IH]; intros d s; [exact I|]. cbn [dimLoop]. destruct (isTok cLB s) as [s1|] eqn:E; [|apply strs_refl].
  apply strs_isTok in E. eapply ac_bind; [apply ac_chkTok|]. cbn beta. intros s2 T.
  eapply ac_mono; [apply IH|]. cbn beta. intros [d2 s3] T3. exact (strs_trans _ _ _ E (strs_trans _ _ _ T T3)).
Qed.
Lemma ac_getType s : ac (getType nt s) (fun r => strs s (snd r)).
Proof.
  unfold getType. destruct (_ =? _); [exact I|]. eapply ac_bind; [apply ac_dimLoop|]. cbn beta. intros [d s1] T.
  exact (strs_trans _ _ _ (strs_getTok s) T).
Qed.
Lemma made_leaf s s1 w : strs s s1 -> refsE (tr w) = [] -> made nt s (w, s1).
Proof. intros T E. split; [exact T|]. cbn [fst]. rewrite E. apply within_nil. Qed.
Lemma made_one s s1 w r : strs s s1 -> refsE (tr w) = [r] -> okRef nt (clab s) (clab s1) r -> made nt s (w, s1).
Proof. intros T E O. split; [exact T|]. cbn [fst]. rewrite E. intros x [<-|[]]. exact O. Qed.
Lemma ac_getSizeof s : ac (getSizeof nt s) (made nt s).
Proof.
  unfold getSizeof. eapply ac_bind; [apply ac_chkTok|]. cbn beta. intros s1 T1. eapply ac_bind; [apply ac_getType|]. cbn beta. intros [[t d] s2] T2.
  destruct (_ && _); [exact I|]. eapply ac_bind; [apply ac_chkTok|]. cbn beta. intros s3 T3. apply made_leaf; [|reflexivity].
  exact (strs_trans _ _ _ T1 (strs_trans _ _ _ T2 T3)).
Qed.
Lemma ac_getAddrof s : ac (getAddrof nt s) (made nt s).
Proof.
  unfold getAddrof. eapply ac_bind; [apply ac_chkTok|]. cbn beta. intros s1 T1. eapply ac_bind; [apply ac_chkTok|]. cbn beta. intros s2 T2.
  destruct (ntSrcName _ _); [|exact I]. destruct (isGlob _) eqn:IG; [|exact I]. eapply ac_bind; [apply ac_chkTok|]. cbn beta. intros s3 T3.
  eapply made_one; [|reflexivity|exact IG]. exact (strs_trans _ _ _ T1 (strs_trans _ _ _ T2 T3)).
Qed.
Lemma ac_inParens s : ac (inParens expr s) (made nt s).
Proof.
  unfold inParens. eapply ac_bind; [apply ac_chkTok|]. cbn beta. intros s1 T1. eapply ac_bind; [apply HE|]. intros [w s2] M.
  eapply ac_bind; [apply ac_chkTok|]. cbn beta. intros s3 T3. apply (made_back _ _ _ _ T1). exact (made_more _ _ _ _ _ M T3).
Qed.
Lemma ac_getFactor s : ac (getFactor nt asExpr expr s) (made nt s).
Proof.
  unfold getFactor. eapply (ac_bind _ _ (made nt s)); [|intros [w s1] M; apply ac_postLoop; exact M].
  pose proof (strs_getTok s) as T0.
  assert (forall r, ac r (made nt (getTok s)) -> ac r (made nt s)) as BK by (intros r H; eapply ac_mono; [exact H|]; intros a; apply made_back; exact T0).
  assert (forall w, refsE (tr w) = [] -> ac (POk (w, getTok s)) (made nt s)) as LF by (intros w E; apply made_leaf; assumption).
  destruct (_ =? _).
  { apply BK. eapply ac_bind; [apply HE|]. intros [w s2] M. eapply ac_bind; [apply ac_chkTok|]. cbn beta. intros s3 T3. exact (made_more _ _ _ _ _ M T3). }
  destruct (_ =? _).
  { apply BK. unfold getIdent. destruct (ntSrcName _ _); [|exact I]. cbv zeta.
    destruct (_ || _) eqn:C1; [apply ac_getCall; apply orb_prop in C1; destruct C1 as [C1|C1]; apply Z.eqb_eq in C1; auto|].
    clear C1. destruct (_ || _) eqn:C2; [eapply made_one; [apply strs_refl|reflexivity|]; apply orb_prop in C2; destruct C2 as [C2|C2]; apply Z.eqb_eq in C2; cbn [okRef]; auto|].
    clear C2. destruct (_ =? _) eqn:C3; [eapply made_one; [apply strs_refl|reflexivity|apply Z.eqb_eq; exact C3]|].
    clear C3. destruct (_ =? _) eqn:C4; [eapply made_one; [apply strs_refl|reflexivity|apply Z.eqb_eq; exact C4]|exact I]. }
  do 3 (destruct (_ =? _); [apply LF; reflexivity|]).
  destruct (_ =? _).
  { apply BK. unfold genStr, made. cbn [ac fst snd tr refsE]. split.
    - split; [apply tail_refl|]. exists [lxGetStr (getTok s)]. cbn [clab outp List.length strOut]. split; [lia|reflexivity].
    - intros l [<-|[]]. cbn [okRef clab]. lia. }
  destruct (_ =? _); [apply LF; reflexivity|]. destruct (_ =? _); [apply BK, ac_getSizeof|]. destruct (_ =? _); [apply BK, ac_getAddrof|].
  destruct (_ =? _). { apply BK. unfold getOrd. eapply ac_bind; [apply ac_inParens|]. intros [w s2] M. destruct (_ || _); [exact I|exact M]. }
  destruct (_ =? _). { apply BK. unfold getChr. eapply ac_bind; [apply ac_inParens|]. intros [w s2] M. destruct (_ || _); [exact I|exact M]. }
  destruct (_ =? _). { apply BK. unfold getBool. eapply ac_bind; [apply ac_inParens|]. intros [w s2] M. destruct (_ || _); [exact I|exact M]. }
  exact I.
Qed.
Lemma ac_getUniExpr f : forall s, ac (getUniExpr nt asExpr expr f s) (made nt s).
Proof.
  induction f as [|f IH]; intros s; [exact I|]. cbn [getUniExpr].
  assert (forall t (k : watch -> watch), (forall w, refsE (tr (k w)) = refsE (tr w)) ->
    ac (pbind (getUniExpr nt asExpr expr f (getTok s)) (fun r => let '(w, s) := r in let+ w := chkType w t in POk (k w, s))) (made nt s)) as ST.
  { intros t k K. eapply ac_bind; [apply IH|]. intros [w s2] M. apply (made_back _ _ _ _ (strs_getTok s)) in M.
    eapply ac_bind; [apply ac_chkType|]. cbn beta. intros w' E. destruct M as [A B]. split; [exact A|]. cbn [fst snd] in *. rewrite K, E. exact B. }
  destruct (_ =? _); [apply (ST TyINT (fun w => W (wt w) (wd w) false (tr w))); reflexivity|].
  destruct (_ =? _); [apply (ST TyINT (fun w => W (wt w) (wd w) false (mk1 NEG w))); reflexivity|].
  destruct (_ =? _); [apply (ST TyBOOL (fun w => W (wt w) (wd w) false (mk1 NOT w))); reflexivity|].
  destruct (_ =? _); [apply (ST TyINT (fun w => W (wt w) (wd w) false (mk1 BNOT w))); reflexivity|].
  apply ac_getFactor.
Qed.
Lemma ac_binExpr ops act next :
  (forall o a b, ac (act o a b) (fun w => refsE (tr w) = refsE (tr a) ++ refsE (tr b))) ->
  (forall s, ac (next s) (made nt s)) -> forall s, ac (binExpr ops act next s) (made nt s).
Proof.
  intros HC HN s. unfold binExpr. eapply ac_bind; [apply HN|]. intros [w s1] M. revert w s1 M. generalize (fuelOf) as F. intros F w s1.
  generalize (F s1) as f. intros f. revert w s1. induction f as [|f IH]; intros w s1 M; [exact I|]. cbn [binLoop].
  destruct (opOf ops (tok s1)) as [o|]; [|exact M]. eapply ac_bind; [apply HN|]. intros [w2 s2] M2.
  apply (made_back _ _ _ _ (strs_getTok s1)) in M2. eapply ac_bind; [apply HC|]. cbn beta. intros w3 E. apply IH.
  unfold made. cbn [fst snd]. eapply made_two; [exact M|exact M2|]. apply incl_same. exact E.
Qed.
Lemma ac_getLogOrExpr s : ac (getLogOrExpr nt asExpr expr s) (made nt s).
Proof.
  revert s. unfold getLogOrExpr, getLogAndExpr, getOrExpr, getXorExpr, getAndExpr, getEquExpr, getCmpExpr, getSftExpr, getAddExpr, getMulExpr.
  repeat (apply ac_binExpr; [intros; first [apply ac_cal2|apply ac_calCmp|apply ac_calEqu]|]). intros s. apply ac_getUniExpr.
Qed.
End Expr.
Lemma ac_commaExpr nt asExpr : (forall s, ac (asExpr s) (made nt s)) -> forall s, ac (commaExpr asExpr s) (made nt s).
Proof.
  intros HA s. unfold commaExpr. eapply ac_bind; [apply HA|]. intros [w s1] M. generalize (fuelOf s1) as f. intros f. revert w s1 M.
  induction f as [|f IH]; intros w s1 M; [exact I|]. cbn [commaLoop]. destruct (isTok cCOMMA s1) as [s2|] eqn:E; [|exact M].
  apply strs_isTok in E. eapply ac_bind; [apply HA|]. intros [w2 s3] M3. apply (made_back _ _ _ _ E) in M3. apply IH.
  unfold made. cbn [fst snd]. eapply made_two; [exact M|exact M3|]. apply incl_same. reflexivity.
Qed.
Lemma ac_getAsExprF nt f : forall s, ac (getAsExprF nt f s) (made nt s).
Proof.
  induction f as [|f IH]; intros s; [exact I|]. cbn [getAsExprF].
  eapply ac_bind; [apply ac_getLogOrExpr; [exact IH|apply ac_commaExpr; exact IH]|]. intros [w s1] M.
  destruct (isTok cEQ s1) as [s2|] eqn:E; [|exact M]. apply strs_isTok in E. eapply ac_bind; [apply IH|]. intros [w2 s3] M3. apply (made_back _ _ _ _ E) in M3.
  eapply ac_bind; [apply ac_chkCmpat|]. cbn beta. intros w3 E3. destruct (negb _); [exact I|]. unfold made. cbn [ac fst snd].
  eapply made_two; [exact M|exact M3|]. apply incl_same. cbn [tr]. unfold mk2. cbn [refsE]. rewrite E3. reflexivity.
Qed.
Lemma ac_getAsExpr nt s : ac (getAsExpr nt s) (made nt s).
Proof. apply ac_getAsExprF. Qed.
Lemma ac_getExpr nt s : ac (getExpr nt s) (made nt s).
Proof. unfold getExpr. apply ac_commaExpr. intros; apply ac_getAsExpr. Qed.
