(* The parser stops on every token sequence. *)
From Coq Require Import ZArith Bool Lia List.
From Verif Require Import Lexer NameTable SyTree OpTree ExprSem VM VmCode Parser ParserStmt.
Import ListNotations.
Open Scope Z_scope.

(* the result is not PFuel, and Q holds if it is accepted *)
Definition wp {A} (r : pres A) (Q : A -> Prop) : Prop :=
  match r with POk a => Q a | PFuel => False | _ => True end.
Lemma wp_bind {A B} (r : pres A) (f : A -> pres B) (P : A -> Prop) (Q : B -> Prop) :
  wp r P -> (forall a, P a -> wp (f a) Q) -> wp (pbind r f) Q.
Proof. destruct r; cbn [wp pbind]; auto. Qed.
Lemma wp_mono {A} (r : pres A) (P Q : A -> Prop) : wp r P -> (forall a, P a -> Q a) -> wp r Q.
Proof. destruct r; cbn [wp]; auto. Qed.

Definition len (s : es) : nat := List.length (its s).
Definition eats (m : nat) : (watch * es) -> Prop := fun r => (len (snd r) < m)%nat.

Lemma skipFile_len' l : (List.length (skipFile l) <= List.length l)%nat.
Proof. induction l as [|i r IH]; cbn [skipFile]; [lia|]. destruct (tokOf i =? LxFILE); cbn [List.length]; lia. Qed.
Lemma getTok_le s : (len (getTok s) <= len s)%nat.
Proof.
  unfold len, getTok. destruct (its s) as [|i r] eqn:E; [rewrite E; cbn; lia|].
  destruct (tokOf i =? EOFtok); cbn [its]; [rewrite E; lia|]. pose proof (skipFile_len' r). cbn [List.length]. lia.
Qed.
Lemma getTok_lt s : tok s <> EOFtok -> (len (getTok s) < len s)%nat.
Proof.
  unfold len, getTok, tok. destruct (its s) as [|i r] eqn:E; [intros H; contradiction|]. intros H.
  destruct (Z.eqb_spec (tokOf i) EOFtok); [contradiction|]. cbn [its List.length]. pose proof (skipFile_len' r). lia.
Qed.
Lemma wp_chkTok k s : k <> EOFtok -> wp (chkTok k s) (fun s' => (len s' < len s)%nat).
Proof. intros N. unfold chkTok. destruct (Z.eqb_spec (tok s) k); cbn [wp]; [apply getTok_lt; congruence|exact I]. Qed.
Lemma isTok_lt k s s' : k <> EOFtok -> isTok k s = Some s' -> (len s' < len s)%nat.
Proof.
  intros N. unfold isTok. destruct (Z.eqb_spec (tok s) k); [|discriminate]. intros H. injection H as <-. apply getTok_lt. congruence.
Qed.
Ltac neof := unfold cLP, cRP, cSTAR, cPLUS, cCOMMA, cMINUS, cDOT, cSLASH, cSEMI, cLT, cEQ, cGT, cLB, cRB, cHAT, cLC, cBAR, cRC,
  cTILDE, cBANG, cPERCENT, cAMP, EOFtok; discriminate.

Lemma wp_dimLoop f : forall d s, (len s < f)%nat -> wp (dimLoop f d s) (fun r => (len (snd r) <= len s)%nat).
Proof.
  induction f as [|f IH]; intros d s L; [lia|]. cbn [dimLoop]. destruct (isTok cLB s) as [s1|] eqn:E; [|cbn; lia].
  apply isTok_lt in E; [|neof]. eapply wp_bind; [apply wp_chkTok; neof|]. cbn beta. intros s2 L2.
  eapply wp_mono; [apply IH; lia|]. cbn beta. intros [d' s3] L3. cbn [snd] in *. lia.
Qed.
Lemma typeOf_eof nt s : typeOf nt s <> TyNON -> tok s <> EOFtok.
Proof. unfold typeOf. intros H E. rewrite E in H. apply H. reflexivity. Qed.
Lemma wp_getType nt s : wp (getType nt s) (fun r => (len (snd r) < len s)%nat).
Proof.
  unfold getType. destruct (Z.eqb_spec (typeOf nt s) TyNON); [exact I|].
  pose proof (getTok_lt s (typeOf_eof nt s n)) as L.
  eapply wp_bind; [apply wp_dimLoop; unfold fuelOf, len; lia|]. cbn beta. intros [d s1] L1. cbn [snd wp] in *. lia.
Qed.
Lemma wp_chkType w t : wp (chkType w t) (fun _ => True).
Proof. unfold chkType. cbv zeta. repeat (match goal with |- wp (if ?c then _ else _) _ => destruct c end; [exact I|]). exact I. Qed.
Lemma wp_chkCmpat w t d : wp (chkCmpat w t d) (fun _ => True).
Proof. unfold chkCmpat. cbv zeta. repeat (match goal with |- wp (if ?c then _ else _) _ => destruct c end; try exact I). Qed.
Lemma wp_cal2 t o w1 w2 : wp (cal2 t o w1 w2) (fun _ => True).
Proof. unfold cal2. eapply wp_bind; [apply wp_chkType|]. intros w _. eapply wp_bind; [apply wp_chkType|]. intros; exact I. Qed.
Lemma wp_calCmp o w1 w2 : wp (calCmp o w1 w2) (fun _ => True).
Proof. unfold calCmp. eapply wp_bind; [apply wp_cal2|]. intros; exact I. Qed.
Lemma wp_calEqu o w1 w2 : wp (calEqu o w1 w2) (fun _ => True).
Proof. unfold calEqu. eapply wp_bind; [apply wp_chkCmpat|]. intros; exact I. Qed.

Section Total.
Variable nt : table.
Variable n : nat.
Variables asExpr expr : parser.
Hypothesis HA : forall s, (len s < n)%nat -> wp (asExpr s) (eats (len s)).
Hypothesis HE : forall s, (len s < n)%nat -> wp (expr s) (eats (len s)).

Lemma wp_getIdxOP w s : (len s < n)%nat -> wp (getIdxOP asExpr w s) (eats (len s)).
Proof.
  intros L. unfold getIdxOP. destruct (wd w <=? 0); [exact I|].
  eapply wp_bind; [apply HA; exact L|]. cbn beta. intros [w2 s2] L2. unfold eats in L2. cbn [snd] in L2.
  eapply wp_bind; [apply wp_chkTok; neof|]. cbn beta. intros s3 L3.
  destruct (_ || _); [exact I|].
  repeat match goal with |- wp (pbind (if ?c then _ else _) _) _ => destruct c; cbn [pbind wp]; try exact I; try (unfold eats; cbn [snd]; lia) end.
Qed.
Lemma wp_getDotOP w s : wp (getDotOP nt w s) (eats (len s)).
Proof.
  unfold getDotOP. destruct (_ || _); [exact I|]. eapply wp_bind; [apply wp_chkTok; discriminate|]. cbn beta. intros s3 L3.
  destruct (ntSrcField _ _ _); cbn [wp]; [unfold eats; cbn [snd]; lia|exact I|exact I].
Qed.
Lemma wp_postLoop f : forall w s, (len s < f)%nat -> (len s <= n)%nat -> wp (postLoop nt asExpr f w s) (fun r => (len (snd r) <= len s)%nat).
Proof.
  induction f as [|f IH]; intros w s L LN; [lia|]. cbn [postLoop].
  destruct (isTok cLB s) as [s1|] eqn:E.
  { apply isTok_lt in E; [|neof]. eapply wp_bind; [apply wp_getIdxOP; lia|]. intros [w2 s2] L2. unfold eats in L2. cbn [snd] in L2.
    eapply wp_mono; [apply IH; lia|]. cbn beta. intros [w3 s3] L3. cbn [snd] in *. lia. }
  destruct (isTok cDOT s) as [s1|] eqn:E2; [|cbn; lia].
  apply isTok_lt in E2; [|neof]. eapply wp_bind; [apply wp_getDotOP|]. intros [w2 s2] L2. unfold eats in L2. cbn [snd] in L2.
  eapply wp_mono; [apply IH; lia|]. cbn beta. intros [w3 s3] L3. cbn [snd] in *. lia.
Qed.
Lemma wp_argsLoop f : forall i last lst s, (len s < f)%nat -> (len s < n)%nat ->
  wp (argsLoop nt asExpr f i last lst s) (fun r => (len (snd r) < len s)%nat).
Proof.
  induction f as [|f IH]; intros i last lst s L LN; [lia|]. cbn [argsLoop].
  eapply wp_bind; [apply HA; exact LN|]. intros [w s1] L1. unfold eats in L1. cbn [snd] in L1.
  destruct (last <? i); [exact I|].
  eapply (wp_bind _ _ (fun _ => True)).
  { destruct (negb (typeAt nt i =? TyDOTDOTDOT)).
    - eapply wp_bind; [apply wp_chkCmpat|]. intros; exact I.
    - destruct (_ && _); exact I. }
  intros [w2 i2] _. destruct (isTok cCOMMA s1) as [s2|] eqn:E; [|cbn [wp snd]; lia].
  apply isTok_lt in E; [|neof]. eapply wp_mono; [apply IH; lia|]. cbn beta. intros [[? ?] s3] L3. cbn [snd] in *. lia.
Qed.
Lemma wp_getArgs f s : (len s < n)%nat -> wp (getArgs nt asExpr f s) (fun r => (len (snd r) < len s)%nat).
Proof.
  intros LN. unfold getArgs. eapply (wp_bind _ _ (fun r => (len (snd r) <= len s)%nat)).
  { destruct (negb (tok s =? cRP)); [|cbn [wp snd]; lia].
    eapply wp_mono; [apply wp_argsLoop; [unfold fuelOf, len; lia|exact LN]|]. cbn beta. intros; lia. }
  intros [[i lst] s1] L1. cbn [snd] in L1. eapply wp_bind; [apply wp_chkTok; neof|]. cbn beta. intros s2 L2.
  destruct (_ && _); cbn [wp snd]; [exact I|lia].
Qed.
Lemma wp_getCall f s : (len s <= n)%nat -> wp (getCall nt asExpr f s) (eats (len s)).
Proof.
  intros LN. unfold getCall. eapply wp_bind; [apply wp_chkTok; neof|]. cbn beta. intros s1 L1.
  destruct (_ =? _); [exact I|]. eapply wp_bind; [apply wp_getArgs; lia|]. cbn beta. intros [a s2] L2. cbn [snd] in L2. unfold eats. cbn [wp snd]. lia.
Qed.
Lemma wp_getSizeof s : wp (getSizeof nt s) (eats (len s)).
Proof.
  unfold getSizeof. eapply wp_bind; [apply wp_chkTok; neof|]. cbn beta. intros s1 L1.
  eapply wp_bind; [apply wp_getType|]. intros [[t d] s2] L2. cbn [snd] in L2. destruct (_ && _); [exact I|].
  eapply wp_bind; [apply wp_chkTok; neof|]. cbn beta. intros s3 L3. unfold eats. cbn [wp snd]. lia.
Qed.
Lemma wp_getAddrof s : wp (getAddrof nt s) (eats (len s)).
Proof.
  unfold getAddrof. eapply wp_bind; [apply wp_chkTok; neof|]. cbn beta. intros s1 L1.
  eapply wp_bind; [apply wp_chkTok; discriminate|]. cbn beta. intros s2 L2.
  destruct (ntSrcName _ _); [|exact I]. destruct (isGlob _); [|exact I].
  eapply wp_bind; [apply wp_chkTok; neof|]. cbn beta. intros s3 L3. unfold eats. cbn [wp snd]. lia.
Qed.
Lemma wp_inParens s : (len s <= n)%nat -> wp (inParens expr s) (eats (len s)).
Proof.
  intros LN. unfold inParens. eapply wp_bind; [apply wp_chkTok; neof|]. cbn beta. intros s1 L1.
  eapply wp_bind; [apply HE; lia|]. intros [w s2] L2. unfold eats in L2. cbn [snd] in L2.
  eapply wp_bind; [apply wp_chkTok; neof|]. cbn beta. intros s3 L3. unfold eats. cbn [wp snd]. lia.
Qed.
Lemma wp_getFactor s : (len s <= n)%nat -> wp (getFactor nt asExpr expr s) (eats (len s)).
Proof.
  intros LN. unfold getFactor.
  eapply (wp_bind _ _ (eats (len s))).
  2:{ intros [w s1] L1. unfold eats in L1. cbn [snd] in L1.
      eapply wp_mono; [apply wp_postLoop; [unfold fuelOf, len; lia|lia]|]. cbn beta. intros [w2 s2] L2. cbn [snd] in L2. unfold eats. cbn [snd]. lia. }
  destruct (Z.eq_dec (tok s) EOFtok) as [E|N].
  { rewrite E. exact I. }
  pose proof (getTok_lt s N) as L.
  assert (forall w, wp (POk (w, getTok s)) (eats (len s))) as LIT by (intros w; unfold eats; cbn [wp snd]; exact L).
  assert (forall w, wp (pbind (inParens expr (getTok s)) w) (eats (len s)) \/ True) as _ by auto.
  destruct (tok s =? cLP).
  { eapply wp_bind; [apply HE; lia|]. intros [w s2] L2. unfold eats in L2. cbn [snd] in L2.
    eapply wp_bind; [apply wp_chkTok; neof|]. cbn beta. intros s3 L3. unfold eats. cbn [wp snd]. lia. }
  destruct (tok s =? LxNAME).
  { unfold getIdent. destruct (ntSrcName nt _); [|exact I]. cbv zeta.
    destruct (_ || _). { eapply wp_mono; [apply wp_getCall; lia|]. unfold eats. intros [w s2]. cbn [snd]. lia. }
    destruct (_ || _); [apply LIT|]. destruct (_ =? _); [apply LIT|]. destruct (_ =? _); [apply LIT|exact I]. }
  destruct (tok s =? LxINTEGER); [apply LIT|]. destruct (tok s =? LxCHARACTER); [apply LIT|]. destruct (tok s =? LxLOGICAL); [apply LIT|].
  destruct (tok s =? LxSTRING). { unfold genStr, eats. cbn [wp snd]. unfold len in *. cbn [its]. exact L. }
  destruct (tok s =? LxNUL); [apply LIT|].
  assert (forall A (r : pres (A * es)), wp r (fun q => (len (snd q) < len (getTok s))%nat) -> wp r (fun q => (len (snd q) < len s)%nat)) as WK.
  { intros A r H. eapply wp_mono; [exact H|]. cbn beta. intros; lia. }
  destruct (tok s =? LxSIZEOF); [apply WK, wp_getSizeof|]. destruct (tok s =? LxADDROF); [apply WK, wp_getAddrof|].
  destruct (tok s =? LxORD).
  { unfold getOrd. eapply wp_bind; [apply wp_inParens; lia|]. intros [w s2] L2. unfold eats in L2. cbn [snd] in L2.
    destruct (_ || _); unfold eats; cbn [wp snd]; [exact I|lia]. }
  destruct (tok s =? LxCHR).
  { unfold getChr. eapply wp_bind; [apply wp_inParens; lia|]. intros [w s2] L2. unfold eats in L2. cbn [snd] in L2.
    destruct (_ || _); unfold eats; cbn [wp snd]; [exact I|lia]. }
  destruct (tok s =? LxBOL).
  { unfold getBool. eapply wp_bind; [apply wp_inParens; lia|]. intros [w s2] L2. unfold eats in L2. cbn [snd] in L2.
    destruct (_ || _); unfold eats; cbn [wp snd]; [exact I|lia]. }
  exact I.
Qed.
Lemma wp_getUniExpr f : forall s, (len s < f)%nat -> (len s <= n)%nat -> wp (getUniExpr nt asExpr expr f s) (eats (len s)).
Proof.
  induction f as [|f IH]; intros s L LN; [lia|]. cbn [getUniExpr].
  assert (forall t (k : watch -> watch), tok s <> EOFtok ->
    wp (pbind (getUniExpr nt asExpr expr f (getTok s)) (fun r => let '(w, s) := r in let+ w := chkType w t in POk (k w, s))) (eats (len s))) as ST.
  { intros t k N. pose proof (getTok_lt s N) as L1. eapply wp_bind; [apply IH; lia|]. intros [w s2] L2. unfold eats in L2. cbn [snd] in L2.
    eapply wp_bind; [apply wp_chkType|]. intros w' _. unfold eats. cbn [wp snd]. lia. }
  destruct (Z.eqb_spec (tok s) cPLUS) as [E|_]; [apply (ST TyINT (fun w => W (wt w) (wd w) false (tr w))); rewrite E; neof|].
  destruct (Z.eqb_spec (tok s) cMINUS) as [E|_]; [apply (ST TyINT (fun w => W (wt w) (wd w) false (mk1 NEG w))); rewrite E; neof|].
  destruct (Z.eqb_spec (tok s) cBANG) as [E|_]; [apply (ST TyBOOL (fun w => W (wt w) (wd w) false (mk1 NOT w))); rewrite E; neof|].
  destruct (Z.eqb_spec (tok s) cTILDE) as [E|_]; [apply (ST TyINT (fun w => W (wt w) (wd w) false (mk1 BNOT w))); rewrite E; neof|].
  apply wp_getFactor. exact LN.
Qed.
Lemma opOf_eof ops s o : Forall (fun p => fst p <> EOFtok) ops -> opOf ops (tok s) = Some o -> tok s <> EOFtok.
Proof.
  induction 1 as [|[k p] ops N F IH]; cbn [opOf]; [discriminate|]. destruct (Z.eqb_spec (tok s) k) as [E|_]; [|exact IH].
  intros _. rewrite E. exact N.
Qed.
Lemma wp_binExpr ops act next : Forall (fun p => fst p <> EOFtok) ops ->
  (forall o a b, wp (act o a b) (fun _ => True)) ->
  (forall s, (len s <= n)%nat -> wp (next s) (eats (len s))) ->
  forall s, (len s <= n)%nat -> wp (binExpr ops act next s) (eats (len s)).
Proof.
  intros F HA' HN s LN. unfold binExpr. eapply wp_bind; [apply HN; exact LN|]. intros [w s1] L1. unfold eats in L1. cbn [snd] in L1.
  assert (forall f w s1, (len s1 < f)%nat -> (len s1 <= n)%nat -> wp (binLoop ops act next f w s1) (fun r => (len (snd r) <= len s1)%nat)) as B.
  { induction f as [|f IH]; intros w0 s0 L LL; [lia|]. cbn [binLoop]. destruct (opOf ops (tok s0)) as [o|] eqn:E; [|cbn [wp snd]; lia].
    apply (opOf_eof _ _ _ F) in E. pose proof (getTok_lt s0 E) as L2.
    eapply wp_bind; [apply HN; lia|]. intros [w2 s2] L3. unfold eats in L3. cbn [snd] in L3.
    eapply wp_bind; [apply HA'|]. intros w3 _. eapply wp_mono; [apply IH; lia|]. cbn beta. intros [w4 s4] L4. cbn [snd] in *. lia. }
  eapply wp_mono; [apply B; [unfold fuelOf, len; lia|lia]|]. cbn beta. intros [w4 s4] L4. cbn [snd] in L4. unfold eats. cbn [snd]. lia.
Qed.
Ltac opsf := repeat constructor; discriminate.
Lemma wp_getLogOrExpr s : (len s <= n)%nat -> wp (getLogOrExpr nt asExpr expr s) (eats (len s)).
Proof.
  revert s. unfold getLogOrExpr, getLogAndExpr, getOrExpr, getXorExpr, getAndExpr, getEquExpr, getCmpExpr, getSftExpr, getAddExpr, getMulExpr.
  repeat (apply wp_binExpr; [opsf|intros; first [apply wp_cal2|apply wp_calCmp|apply wp_calEqu]|]).
  intros s L. unfold uni. apply wp_getUniExpr; [unfold fuelOf, len; lia|exact L].
Qed.
End Total.

Lemma wp_commaExpr n asExpr : (forall s, (len s < n)%nat -> wp (asExpr s) (eats (len s))) ->
  forall s, (len s < n)%nat -> wp (commaExpr asExpr s) (eats (len s)).
Proof.
  intros HA s L. unfold commaExpr. eapply wp_bind; [apply HA; exact L|]. intros [w s1] L1. unfold eats in L1. cbn [snd] in L1.
  assert (forall f w s1, (len s1 < f)%nat -> (len s1 < n)%nat -> wp (commaLoop asExpr f w s1) (fun r => (len (snd r) <= len s1)%nat)) as B.
  { induction f as [|f IH]; intros w0 s0 LF LL; [lia|]. cbn [commaLoop]. destruct (isTok cCOMMA s0) as [s2|] eqn:E; [|cbn [wp snd]; lia].
    apply isTok_lt in E; [|neof]. eapply wp_bind; [apply HA; lia|]. intros [w2 s3] L3. unfold eats in L3. cbn [snd] in L3.
    eapply wp_mono; [apply IH; lia|]. cbn beta. intros [w4 s4] L4. cbn [snd] in *. lia. }
  eapply wp_mono; [apply B; [unfold fuelOf, len; lia|lia]|]. cbn beta. intros [w4 s4] L4. cbn [snd] in L4. unfold eats. cbn [snd]. lia.
Qed.
Lemma wp_getAsExprF nt f : forall s, (len s < f)%nat -> wp (getAsExprF nt f s) (eats (len s)).
Proof.
  induction f as [|f IH]; intros s L; [lia|]. cbn [getAsExprF].
  eapply wp_bind; [apply (wp_getLogOrExpr nt f); [exact IH|apply wp_commaExpr; exact IH|lia]|].
  intros [w s1] L1. unfold eats in L1. cbn [snd] in L1.
  destruct (isTok cEQ s1) as [s2|] eqn:E; [|unfold eats; cbn [wp snd]; lia].
  apply isTok_lt in E; [|neof]. eapply wp_bind; [apply IH; lia|]. intros [w2 s3] L3. unfold eats in L3. cbn [snd] in L3.
  eapply wp_bind; [apply wp_chkCmpat|]. intros w3 _. destruct (negb (lhs w)); unfold eats; cbn [wp snd]; [exact I|lia].
Qed.
Lemma wp_getAsExpr nt s : wp (getAsExpr nt s) (eats (len s)).
Proof. unfold getAsExpr. apply wp_getAsExprF. unfold fuelOf, len. lia. Qed.
Lemma wp_getExpr nt s : wp (getExpr nt s) (eats (len s)).
Proof. unfold getExpr. apply (wp_commaExpr (S (len s))); [intros s1 _; apply wp_getAsExpr|lia]. Qed.

(* ==== declarations, statements, functions, data, the source ==== *)
Definition glen (g : gs) : nat := len (ge g).
Definition eatG (m : nat) : gs -> Prop := fun g => (glen g < m)%nat.
Definition eatS {A} (m : nat) : (A * gs) -> Prop := fun r => (glen (snd r) < m)%nat.
Ltac gl := unfold eatG, eatS, glen, len in *; cbn [snd ge wE wNt wScope wType wDim wCnt wPub wFunc wMax wDepth wLast wLabs its] in *.
Ltac glia := gl; try lia.

Lemma wp_gChkTok k g : k <> EOFtok -> wp (gChkTok k g) (eatG (glen g)).
Proof. intros N. unfold gChkTok. eapply wp_bind; [apply wp_chkTok; exact N|]. cbn beta. intros e L. unfold wp. glia. Qed.
Lemma gIsTok_lt k g g' : k <> EOFtok -> gIsTok k g = Some g' -> (glen g' < glen g)%nat.
Proof.
  intros N. unfold gIsTok. destruct (isTok k (ge g)) eqn:E; [|discriminate]. intros H. injection H as <-. apply isTok_lt in E; [|exact N]. glia.
Qed.
Lemma wp_gExpr g : wp (gExpr g) (eatS (glen g)).
Proof. unfold gExpr. eapply wp_bind; [apply wp_getExpr|]. intros [w e] L. unfold eats in L. unfold wp. glia. Qed.
Lemma wp_gAsExpr g : wp (gAsExpr g) (eatS (glen g)).
Proof. unfold gAsExpr. eapply wp_bind; [apply wp_getAsExpr|]. intros [w e] L. unfold eats in L. unfold wp. glia. Qed.
Lemma wp_gGetType g : wp (gGetType g) (eatG (glen g)).
Proof. unfold gGetType. eapply wp_bind; [apply wp_getType|]. intros [[t d] e] L. unfold wp. glia. Qed.
Lemma wp_perr_if b e : wp (perr_if b e) (fun _ => True).
Proof. unfold perr_if. destruct b; exact I. Qed.
Lemma gGetTok_lt g : gtok g <> EOFtok -> (glen (gGetTok g) < glen g)%nat.
Proof. unfold gtok, gGetTok. intros H. apply getTok_lt in H. glia. Qed.
Lemma wp_lift {A} (r : res A) : wp (lift_opt r) (fun _ => True).
Proof. destruct r; exact I. Qed.

(* one step of a monadic proof; leaves the new length in the context *)
Ltac ifs := match goal with
  | |- wp (if ?c then _ else _) _ => destruct c
  | |- wp (let '(_, _) := ?p in _) _ => destruct p
  end.
Ltac istok H := match goal with |- wp (match gIsTok ?k ?g with _ => _ end) _ =>
    destruct (gIsTok k g) eqn:H; [apply gIsTok_lt in H; [|first [neof|discriminate]]|clear H] end.
Ltac wchk L := eapply wp_bind; [apply wp_gChkTok; first [neof|discriminate]|]; let g := fresh "g" in intros g L.
Ltac done := try exact I; cbn [wp]; glia.

Section TotalS.
Variables optFlag krnFlag : bool.
Lemma wp_getName pub g : wp (getName krnFlag pub g) (eatS (glen g)).
Proof.
  unfold getName. wchk L. repeat (ifs; [exact I|]). destruct (ntDefName _ _ _ _ _ _ _) as [[t i]|]; done.
Qed.
Lemma wp_nameCnt g : wp (nameCnt krnFlag g) (eatG (glen g)).
Proof. unfold nameCnt. eapply wp_bind; [apply wp_getName|]. intros [i g1] L. done. Qed.
Lemma wp_fieldNames f : forall g, (glen g < f)%nat -> wp (fieldNames krnFlag f g) (fun g' => (glen g' <= glen g)%nat).
Proof.
  induction f as [|f IH]; intros g L; [lia|]. cbn [fieldNames]. istok E; [|done].
  eapply wp_bind; [apply wp_nameCnt|]. intros g1 L1. eapply wp_mono; [apply IH|cbn beta; intros g2 L2]; glia.
Qed.
Lemma wp_getFieldLine g : wp (getFieldLine krnFlag g) (eatG (glen g)).
Proof.
  unfold getFieldLine. eapply wp_bind; [apply wp_gGetType|]. intros g1 L1. eapply wp_bind; [apply wp_nameCnt|]. intros g2 L2.
  eapply wp_bind; [apply wp_fieldNames; unfold gfuel, fuelOf; glia|]. cbn beta. intros g3 L3.
  eapply wp_mono; [apply wp_gChkTok; neof|]. intros g4 L4. glia.
Qed.
Lemma wp_fieldLines f : forall g, (glen g < f)%nat -> wp (fieldLines krnFlag f g) (fun g' => (glen g' <= glen g)%nat).
Proof.
  induction f as [|f IH]; intros g L; [lia|]. cbn [fieldLines]. istok E; [done|].
  eapply wp_bind; [apply wp_getFieldLine|]. intros g1 L1. eapply wp_mono; [apply IH|cbn beta; intros g2 L2]; glia.
Qed.
Lemma wp_getStruct g : wp (getStruct krnFlag g) (eatG (glen g)).
Proof.
  unfold getStruct. wchk L. cbv zeta. eapply wp_bind; [apply wp_getFieldLine|]. intros g1 L1.
  eapply wp_bind; [apply wp_fieldLines; unfold gfuel, fuelOf; glia|]. cbn beta. intros g2 L2. wchk L3. done.
Qed.
Lemma wp_getLVar g : wp (getLVar krnFlag g) (eatS (glen g)).
Proof.
  unfold getLVar. cbv zeta. eapply wp_bind; [apply wp_getName|]. intros [i g1] L1. istok E; [|done].
  eapply wp_bind; [apply wp_gAsExpr|]. intros [w g2] L2. eapply wp_bind; [apply wp_chkCmpat|]. intros w2 _. done.
Qed.
Lemma wp_lvarsLoop f : forall s g, (glen g < f)%nat -> wp (lvarsLoop krnFlag f s g) (fun r => (glen (snd r) <= glen g)%nat).
Proof.
  induction f as [|f IH]; intros s g L; [lia|]. cbn [lvarsLoop]. istok E; [|done].
  eapply wp_bind; [apply wp_getLVar|]. intros [i g1] L1. eapply wp_mono; [apply IH|cbn beta; intros [j g2] L2]; glia.
Qed.
Lemma wp_getLVars g : wp (getLVars krnFlag g) (eatS (glen g)).
Proof.
  unfold getLVars. eapply wp_bind; [apply wp_gGetType|]. intros g1 L1. eapply wp_bind; [apply wp_getLVar|]. intros [s g2] L2.
  eapply wp_bind; [apply wp_lvarsLoop; unfold gfuel, fuelOf; glia|]. cbn beta. intros [s3 g3] L3.
  cbn [wp]. destruct (_ <? _); glia.
Qed.

Lemma wp_getCond g : wp (getCond g) (eatS (glen g)).
Proof.
  unfold getCond. wchk L. eapply wp_bind; [apply wp_gExpr|]. intros [w g2] L2. eapply wp_bind; [apply wp_chkType|]. intros w2 _. wchk L3. done.
Qed.
Section Stat.
Variable n : nat.
Variable stat : sparser.
Hypothesis HS : forall g, (glen g < n)%nat -> wp (stat g) (eatS (glen g)).
Lemma wp_body g : (glen g < n)%nat -> wp (body stat g) (eatS (glen g)).
Proof. intros L. unfold body. eapply wp_bind; [apply HS; glia|]. intros [b g1] L1. done. Qed.
Lemma wp_getIf g : (glen g < n)%nat -> wp (getIf stat g) (eatS (glen g)).
Proof.
  intros L. unfold getIf. eapply wp_bind; [apply wp_getCond|]. intros [c g1] L1. eapply wp_bind; [apply HS; glia|]. intros [b g2] L2.
  istok E; [|done]. eapply wp_bind; [apply HS; glia|]. intros [b2 g3] L3. done.
Qed.
Lemma wp_getWhile g : (glen g < n)%nat -> wp (getWhile stat g) (eatS (glen g)).
Proof.
  intros L. unfold getWhile. eapply wp_bind; [apply wp_getCond|]. intros [c g1] L1. eapply wp_bind; [apply wp_body; glia|]. intros [b g2] L2. done.
Qed.
Lemma wp_getDoWhile g : (glen g < n)%nat -> wp (getDoWhile stat g) (eatS (glen g)).
Proof.
  intros L. unfold getDoWhile. eapply wp_bind; [apply wp_body; glia|]. intros [b g2] L2. wchk L3.
  eapply wp_bind; [apply wp_getCond|]. intros [c g4] L4. wchk L5. done.
Qed.
Lemma wp_getFor g : (glen g < n)%nat -> wp (getFor krnFlag stat g) (eatS (glen g)).
Proof.
  intros L. unfold getFor. cbv zeta. wchk L1.
  eapply (wp_bind _ _ (fun r => (glen (snd r) <= glen g0)%nat)).
  { ifs; [done|]. unfold gIsType. ifs; [eapply wp_mono; [apply wp_getLVars|]; intros [i g2] L2; glia|].
    eapply wp_bind; [apply wp_gExpr|]. intros [w g2] L2. done. }
  intros [ini g2] L2. wchk L3.
  eapply (wp_bind _ _ (fun r => (glen (snd r) <= glen g1)%nat)).
  { ifs; [done|]. eapply wp_bind; [apply wp_gExpr|]. intros [w g4] L4. eapply wp_bind; [apply wp_chkType|]. intros w2 _. done. }
  intros [cnd g4] L4. wchk L5.
  eapply (wp_bind _ _ (fun r => (glen (snd r) <= glen g3)%nat)).
  { ifs; [done|]. eapply wp_bind; [apply wp_gExpr|]. intros [w g6] L6. done. }
  intros [rini g6] L6. wchk L7. eapply wp_bind; [apply wp_body; glia|]. intros [b g8] L8. done.
Qed.
Lemma wp_getReturn g : wp (getReturn g) (eatS (glen g)).
Proof.
  unfold getReturn. cbv zeta. eapply (wp_bind _ _ (fun r => (glen (snd r) <= glen g)%nat)).
  { ifs; [|done]. eapply wp_bind; [apply wp_gExpr|]. intros [w g2] L2. eapply wp_bind; [apply wp_chkCmpat|]. intros w2 _. done. }
  intros [e g2] L2. wchk L3. done.
Qed.
Lemma wp_blockLoop f : forall lv g, (glen g < f)%nat -> (glen g < n)%nat -> wp (blockLoop krnFlag stat f lv g) (fun r => (glen (snd r) <= glen g)%nat).
Proof.
  induction f as [|f IH]; intros lv g L LN; [lia|]. cbn [blockLoop]. ifs; [done|].
  eapply (wp_bind _ _ (eatS (glen g))).
  { unfold gIsType. ifs.
    - eapply wp_bind; [apply wp_getLVars|]. intros [r g1] L1. wchk L2. done.
    - eapply wp_mono; [apply HS|intros [r g1] L1]; glia. }
  intros [r g1] L1. eapply wp_mono; [apply IH|cbn beta; intros [j g2] L2]; glia.
Qed.
Lemma wp_getBlock g : (glen g < n)%nat -> wp (getBlock krnFlag stat g) (eatS (glen g)).
Proof.
  intros L. unfold getBlock. cbv zeta. eapply wp_bind; [apply wp_blockLoop; [unfold gfuel, fuelOf; glia|exact L]|]. cbn beta.
  intros [lv g1] L1. wchk L2. done.
Qed.
End Stat.
Lemma wp_getStatF f : forall g, (glen g < f)%nat -> wp (getStatF krnFlag f g) (eatS (glen g)).
Proof.
  induction f as [|f IH]; intros g L; [lia|]. cbn [getStatF]. cbv zeta.
  eapply (wp_bind _ _ (eatS (glen g))); [|intros [s g1] L1; done].
  destruct (Z.eq_dec (gtok g) EOFtok) as [E|N].
  { rewrite E. cbn [Z.eqb EOFtok LxIF LxWHILE]. 
    repeat (match goal with |- wp (if ?a =? ?b then _ else _) _ => replace (a =? b) with false by reflexivity end).
    eapply wp_bind; [apply wp_gExpr|]. intros [w g1] L1. wchk L2. done. }
  pose proof (gGetTok_lt g N) as LT.
  assert (forall A (r : pres (A * gs)), wp r (eatS (glen (gGetTok g))) -> wp r (eatS (glen g))) as WK.
  { intros A r H. eapply wp_mono; [exact H|]. intros a La. glia. }
  assert (glen (gGetTok g) < f)%nat as LF by lia.
  ifs; [apply WK, (wp_getIf f); assumption|]. ifs; [apply WK, (wp_getWhile f); assumption|].
  ifs; [apply WK, (wp_getDoWhile f); assumption|]. ifs; [apply WK, (wp_getFor f); assumption|].
  ifs; [apply WK, wp_getReturn|].
  ifs; [unfold getBreak; ifs; [exact I|]; wchk L2; done|]. ifs; [unfold getCont; ifs; [exact I|]; wchk L2; done|].
  ifs; [apply WK, (wp_getBlock f); assumption|]. ifs; [done|].
  eapply wp_bind; [apply wp_gExpr|]. intros [w g1] L1. wchk L2. done.
Qed.
Lemma wp_getStat g : wp (getStat krnFlag g) (eatS (glen g)).
Proof. unfold getStat. apply wp_getStatF. unfold gfuel, fuelOf. glia. Qed.

Lemma wp_paramsLoop f : forall idx last g, (glen g < f)%nat -> wp (paramsLoop krnFlag f idx last g) (fun r => (glen (snd r) <= glen g)%nat).
Proof.
  induction f as [|f IH]; intros idx last g L; [lia|]. cbn [paramsLoop]. unfold gIsType. ifs; [|done].
  eapply wp_bind; [apply wp_gGetType|]. intros g1 L1.
  eapply (wp_bind _ _ (fun _ => True)). { ifs; [apply wp_perr_if|exact I]. } intros _ _.
  eapply wp_bind; [apply wp_getName|]. intros [i g2] L2. istok E; [|done].
  eapply wp_mono; [apply IH|cbn beta; intros [j g3] L3]; glia.
Qed.
Lemma wp_getParams idx g : wp (getParams krnFlag idx g) (eatG (glen g)).
Proof.
  unfold getParams. eapply wp_bind; [apply wp_paramsLoop; unfold gfuel, fuelOf; glia|]. cbn beta. intros [last g1] L1.
  eapply (wp_bind _ _ (fun g' => (glen g' <= glen g1)%nat)).
  { destruct last; [|done]. istok E; [|done].
    eapply (wp_bind _ _ (fun _ => True)). { ifs; [apply wp_perr_if|exact I]. } intros _ _.
    destruct (ntDefName _ _ _ _ _ _ _) as [[t i]|]; done. }
  intros g2 L2. eapply wp_mono; [apply wp_gChkTok; neof|]. intros g3 L3. glia.
Qed.
Lemma wp_compileBody root g : wp (compileBody optFlag krnFlag root g) (fun g' => glen g' = glen g).
Proof.
  unfold compileBody. eapply (wp_bind _ _ (fun _ => True)). { ifs; [apply wp_lift|exact I]. } intros r _.
  destruct (VmCode.genFunc _ _ _ _ _ _) as [[c l]|]; done.
Qed.
Lemma wp_perr b e A (r : pres A) Q : wp r Q -> wp (let+ _ := perr_if b e in r) Q.
Proof. intros H. unfold perr_if. destruct b; [exact I|exact H]. Qed.
Lemma wp_getFunc g : wp (getFunc optFlag krnFlag g) (eatG (glen g)).
Proof.
  unfold getFunc. cbv zeta. do 3 apply wp_perr.
  eapply wp_bind; [apply wp_getParams|]. intros g1 L1.
  assert (glen g1 < glen g)%nat as L2.
  { pose proof (getTok_le (ge g)). glia. unfold gGetTok in L1. glia. }
  clear L1. do 2 apply wp_perr.
  eapply (wp_bind _ _ (eatG (glen g))).
  { istok E.
    - apply wp_perr.
      eapply wp_bind; [apply (wp_getBlock (S (glen g0))); [intros g3 _; apply wp_getStat|]|].
      { match goal with |- context [if ?c then _ else _] => destruct c end; glia. }
      intros [root g3] L3. apply wp_perr. eapply wp_mono; [apply wp_compileBody|]. cbn beta. intros g4 L4.
      match type of L3 with context [if ?c then _ else _] => destruct c end; glia.
    - eapply wp_mono; [apply wp_gChkTok; neof|]. intros g3 L3. glia. }
  intros g4 L4. cbn [wp]. match goal with |- context [if ?c then _ else _] => destruct c end; glia.
Qed.

Lemma wp_getCnst {W : word} t g : wp (getCnst t g) (eatS (glen g)).
Proof.
  unfold getCnst. eapply wp_bind; [apply wp_gAsExpr|]. intros [w g1] L1. eapply wp_bind; [apply wp_chkCmpat|]. intros w2 _.
  eapply wp_bind; [apply wp_lift|]. intros e _. destruct e as [|k| | |]; try exact I. destruct k; try exact I; done.
Qed.
Lemma wp_getArray0 {W : word} f : forall dim g, (glen g < f)%nat -> wp (getArray0 f dim g) (eatS (glen g)).
Proof.
  induction f as [|f IH]; intros dim g L; [lia|]. cbn [getArray0]. ifs; [exact I|].
  eapply wp_bind; [apply wp_getCnst|]. intros [d g1] L1. ifs; [exact I|]. istok E; [|done].
  eapply wp_bind; [apply IH; glia|]. intros [l g3] L3. done.
Qed.
Lemma wp_getArray {W : word} dim g : wp (getArray dim g) (eatS (glen g)).
Proof.
  unfold getArray. wchk L. eapply wp_bind; [apply wp_getArray0; unfold gfuel, fuelOf; glia|]. intros [d g1] L1. wchk L2. done.
Qed.
Lemma wp_fieldInit {W : word} i g : wp (fieldInit i g) (eatS (glen g)).
Proof.
  unfold fieldInit. cbv zeta. ifs; [wchk L; done|]. destruct (_ <? _).
  - istok E; [destruct (_ || _); [exact I|]; unfold gStr, genStr; done|]. istok E; [done|exact I].
  - repeat (ifs; [apply wp_getCnst|]). exact I.
Qed.
Lemma wp_structLoop {W : word} f : forall i node g, (glen g < f)%nat -> wp (structLoop f i node g) (eatS (glen g)).
Proof.
  induction f as [|f IH]; intros i node g L; [lia|]. cbn [structLoop]. ifs; [exact I|].
  eapply wp_bind; [apply wp_fieldInit|]. intros [d g1] L1. istok E; [|ifs; [exact I|done]].
  eapply wp_mono; [apply IH|intros [j g3] L3]; glia.
Qed.
Lemma wp_getStructInit {W : word} g : wp (getStructInit g) (eatS (glen g)).
Proof.
  unfold getStructInit. istok E; [done|]. wchk L. unfold getStructInit0.
  eapply wp_bind; [apply wp_structLoop; unfold gfuel, fuelOf; glia|]. intros [d g1] L1. wchk L2. done.
Qed.
Lemma wp_itemLoop n item : (forall g, (glen g < n)%nat -> wp (item g) (eatS (glen g))) ->
  forall f node g, (glen g < f)%nat -> (glen g < n)%nat -> wp (itemLoop item f node g) (eatS (glen g)).
Proof.
  intros HI. induction f as [|f IH]; intros node g L LN; [lia|]. cbn [itemLoop].
  eapply wp_bind; [apply HI; exact LN|]. intros [d g1] L1. cbv zeta. istok E; [|done].
  eapply wp_mono; [apply IH|intros [j g3] L3]; glia.
Qed.
Lemma wp_getGArrayInitF {W : word} f : forall dim g, (glen g < f)%nat -> wp (getGArrayInitF f dim g) (eatS (glen g)).
Proof.
  induction f as [|f IH]; intros dim g L; [lia|]. cbn [getGArrayInitF]. istok E.
  - eapply (wp_bind _ _ (eatS (glen g0))).
    + unfold getGArrayInit0. eapply (wp_bind _ _ (eatS (glen g0))); [|intros [d g1] L1; done].
      assert (glen g0 < f)%nat as L0 by lia.
      ifs; [ifs; [|ifs; [|exact I]]|].
      * apply (wp_itemLoop f); [intros; apply wp_getStructInit|unfold gfuel, fuelOf; glia|exact L0].
      * apply (wp_itemLoop f); [intros; apply wp_getCnst|unfold gfuel, fuelOf; glia|exact L0].
      * apply (wp_itemLoop f); [intros; apply IH; assumption|unfold gfuel, fuelOf; glia|exact L0].
    + intros [d g1] L1. wchk L2. done.
  - istok E; [ifs; [exact I|]; unfold gStr, genStr; done|]. istok E; [eapply wp_mono; [apply wp_getArray|intros [j g3] L3; glia]|].
    istok E; [done|exact I].
Qed.
Lemma wp_getGVar g : wp (getGVar g) (fun g' => (glen g' <= glen g)%nat).
Proof.
  unfold getGVar. cbv zeta. eapply (wp_bind _ _ (fun g' => (glen g' <= glen g)%nat)); [|intros g1 L1; apply wp_perr; done].
  istok E.
  - eapply (wp_bind _ _ (eatS (glen g0))).
    + ifs; [unfold getGArrayInit; eapply wp_mono; [apply wp_getGArrayInitF; unfold gfuel, fuelOf; glia|intros [j g3] L3; glia]|].
      ifs; [eapply wp_mono; [apply wp_getCnst|intros [j g3] L3; glia]|].
      ifs; [eapply wp_mono; [apply wp_getStructInit|intros [j g3] L3; glia]|exact I].
    + intros [d g1] L1. destruct (genData _ _ _ _) as [[c l]|]; [|exact I]. ifs; [ifs; [exact I|]|]; done.
  - ifs; [ifs; [|exact I]; done|]. unfold emit. done.
Qed.
Lemma wp_gvarsLoop f : forall g, (glen g < f)%nat -> wp (gvarsLoop krnFlag f g) (fun g' => (glen g' <= glen g)%nat).
Proof.
  induction f as [|f IH]; intros g L; [lia|]. cbn [gvarsLoop]. istok E; [|done].
  eapply wp_bind; [apply wp_getName|]. intros [i g1] L1. eapply wp_bind; [apply wp_getGVar|]. cbn beta. intros g2 L2.
  eapply wp_mono; [apply IH|cbn beta; intros g3 L3]; glia.
Qed.
Lemma wp_getGVars g : wp (getGVars krnFlag g) (eatG (glen g)).
Proof.
  unfold getGVars. eapply wp_bind; [apply wp_getGVar|]. cbn beta. intros g1 L1.
  eapply wp_bind; [apply wp_gvarsLoop; unfold gfuel, fuelOf; glia|]. cbn beta. intros g2 L2.
  eapply wp_mono; [apply wp_gChkTok; neof|]. intros g3 L3. glia.
Qed.
Lemma wp_getProg g : wp (getProg optFlag krnFlag g) (eatG (glen g)).
Proof.
  unfold getProg. cbv zeta.
  set (g1 := match gIsTok LxPUBLIC (wPub g false) with Some g => wPub g true | None => wPub g false end).
  assert (glen g1 <= glen g)%nat as L.
  { unfold g1. destruct (gIsTok _ _) eqn:E; [apply gIsTok_lt in E; [|discriminate]|]; glia. }
  clearbody g1.
  istok E. { ifs; [exact I|]. eapply wp_bind; [apply wp_getName|]. intros [i g2] L2. eapply wp_mono; [apply wp_getStruct|]. intros g3 L3. glia. }
  istok E. { ifs; [exact I|]. eapply wp_bind; [apply wp_getName|]. intros [i g2] L2. eapply wp_mono; [apply wp_gChkTok; neof|]. intros g3 L3. glia. }
  eapply wp_bind; [apply wp_gGetType|]. intros g2 L2. eapply wp_bind; [apply wp_getName|]. intros [i g3] L3.
  ifs; [eapply wp_mono; [apply wp_getFunc|]; intros g4 L4; glia|].
  ifs; [exact I|]. ifs; [exact I|]. eapply wp_mono; [apply wp_getGVars|]. intros g4 L4. glia.
Qed.
Lemma wp_progLoop f : forall g, (glen g < f)%nat -> wp (progLoop optFlag krnFlag f g) (fun _ => True).
Proof.
  induction f as [|f IH]; intros g L; [lia|]. cbn [progLoop]. ifs; [exact I|].
  eapply wp_bind; [apply wp_getProg|]. intros g1 L1. apply IH. glia.
Qed.
Lemma wp_psGetSrc l : wp (psGetSrc optFlag krnFlag l) (fun _ => True).
Proof. unfold psGetSrc. apply wp_progLoop. unfold gInit, glen, len. cbn [ge its]. pose proof (skipFile_len' l). lia. Qed.
End TotalS.

Theorem compile_total opt krn file : compile opt krn file <> CStuck.
Proof.
  unfold compile. destruct (lexAll file) as [l| |]; try discriminate. pose proof (wp_psGetSrc opt krn l) as H. destruct (psGetSrc _ _ _); try discriminate. destruct H.
Qed.
