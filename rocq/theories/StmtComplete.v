(* Every statement of the grammar that obeys the rules is accepted, with the tree the rules
   give. *)
From Coq Require Import ZArith Bool Lia List.
From Verif Require Import Lexer LexProofs NameTable NameProofs SyTree OpTree VM VmCode Parser ParserStmt ParseSpec ParseSound ParseComplete ParseTotal ProgInv StmtSpec StmtSound.
Import ListNotations.
Open Scope Z_scope.

Lemma zeqb_list_refl n : zeqb_list n n = true.
Proof. apply zeqb_list_eq. reflexivity. Qed.
(* ---- names of types and of other things are different ---- *)
Definition sep (t : table) : Prop := forall a b, In a t -> In b t -> nScope a = ScSTRC -> ScPROT <= nScope b -> nName a <> nName b.
Lemma sep_def t n sc ty d c p t' i : ntDefName t n sc ty d c p = NOk (t', i) -> sep t -> sep t'.
Proof.
  unfold ntDefName. destruct (_ <=? _); [discriminate|]. destruct (Z.leb_spec 0 (ntChkName t n sc)) as [L|L]; [discriminate|].
  intros H S. injection H as <- <-.
  assert (forall e, In e t -> clashes n sc e = false) as NC.
  { unfold ntChkName in L. pose proof (scan_find (clashes n sc) t 0) as F. destruct (scan (clashes n sc) t 0) as [k|] eqn:E; [exfalso; lia|].
    apply (scan_none _ _ 0). exact E. }
  intros a b A B SA SB EQ. apply in_app_iff in A, B. destruct A as [A|[<-|[]]], B as [B|[<-|[]]].
  - exact (S a b A B SA SB EQ).
  - specialize (NC a A). unfold clashes in NC. cbn [nName] in EQ. rewrite SA, EQ, zeqb_list_refl in NC.
    change (ScSTRC =? ScSTRC) with true in NC. change (ScSTRC =? ScVOID) with false in NC. rewrite orb_true_r in NC. discriminate NC.
  - specialize (NC b B). unfold clashes in NC. cbn [nName nScope] in *. rewrite SA, <- EQ, zeqb_list_refl in NC.
    destruct (Z.eqb_spec (nScope b) ScVOID) as [V|V]; [exfalso; rewrite V in SB; unfold ScVOID, ScPROT in SB; lia|].
    change (ScSTRC =? ScSTRC) with true in NC. discriminate NC.
  - cbn [nScope] in *. rewrite SA in SB. unfold ScSTRC, ScPROT in SB. lia.
Qed.
Lemma sep_void t k : sep t -> sep (ntSetVoid t k).
Proof.
  intros S a b A B SA SB. unfold ntSetVoid in A, B. rewrite <- (firstn_skipn (Z.to_nat k) t) in S.
  apply in_app_iff in A, B. destruct A as [A|A]; [|apply in_map_iff in A; destruct A as (u & <- & _); discriminate SA].
  destruct B as [B|B]; [|apply in_map_iff in B; destruct B as (u & <- & _); cbn [voided nScope] in SB; unfold ScVOID, ScPROT in SB; lia].
  apply S; auto; apply in_app_iff; auto.
Qed.
Lemma srcName_in n t : forall i k, srcName n t i = Some k -> exists e, In e t /\ ScPROT <= nScope e /\ nName e = n.
Proof.
  induction t as [|e t IH]; intros i k H; [discriminate H|]. cbn [srcName] in H. destruct (srcName n t (i + 1)) as [j|] eqn:E.
  - destruct (IH _ _ E) as (u & A & B & C). exists u. split; [right; exact A|auto].
  - destruct ((ScPROT <=? nScope e) && zeqb_list (nName e) n) eqn:X; [|discriminate H]. apply andb_true_iff in X. destruct X as [X Y].
    exists e. split; [left; reflexivity|]. split; [apply Z.leb_le; exact X|apply zeqb_list_eq; exact Y].
Qed.
Lemma sep_name t n i : sep t -> ntSrcName t n = Some i -> ntSrcStruct t n = TyNON.
Proof.
  intros S H. destruct (srcName_in _ _ _ _ H) as (e & A & B & C). unfold ntSrcStruct.
  set (p := fun e => (nScope e =? ScSTRC) && zeqb_list (nName e) n). pose proof (scan_find p t 0) as F.
  destruct (scan p t 0) as [k|] eqn:E; [|reflexivity]. exfalso.
  assert (exists u, In u t /\ p u = true) as (u & U & P).
  { destruct F as (_ & u & _ & P & FU). exists u. split; [exact (proj1 (find_some _ _ FU))|exact P]. }
  apply andb_true_iff in P. destruct P as [P1 P2]. apply Z.eqb_eq in P1. apply zeqb_list_eq in P2.
  apply (S u e U A P1 B). congruence.
Qed.

(* ---- how expressions and statements begin ---- *)
Definition exprStart : list Z := [cPLUS; cMINUS; cBANG; cTILDE; cLP; LxNUL; LxSIZEOF; LxADDROF; LxORD; LxCHR; LxBOL].
Definition firstE (e : ast) (x : stok) : Prop :=
  match x with
  | TSym c => In c exprStart
  | TName n => forall nt l t d lv y, has nt l e t d lv y -> exists i, ntSrcName nt n = Some i
  | _ => True
  end.
Lemma firstE_sub a b x : (forall nt l t d lv y, has nt l b t d lv y -> exists l2 t2 d2 lv2 y2, has nt l2 a t2 d2 lv2 y2) -> firstE a x -> firstE b x.
Proof.
  intros H. destruct x; cbn; auto. intros F nt l t d lv y K. destruct (H _ _ _ _ _ _ K) as (l2 & t2 & d2 & lv2 & y2 & K2). exact (F _ _ _ _ _ _ K2).
Qed.
Lemma derives_first k e ts : derives k e ts -> exists x r, ts = x :: r /\ firstE e x.
Proof.
  induction 1;
  repeat match goal with IH : exists x r, ?t = x :: r /\ _ |- _ => let x := fresh "x" in let r := fresh "r" in let F := fresh "F" in destruct IH as (x & r & -> & F) end;
  try (eexists; eexists; split; [reflexivity|]; cbn; auto 20; fail).
  1: eauto.
  1-3: eexists; eexists; split; [reflexivity|]; apply (firstE_sub a); [|assumption]; intros nt l t0 d lv y K; inversion K; subst; eauto 10.
  - eexists. eexists. split; [reflexivity|]. destruct u; cbn; auto 20.
  - eexists; eexists; split; [reflexivity|]; apply (firstE_sub a); [|assumption]. intros nt l t0 d lv y K; inversion K; subst; eauto 10.
  - eexists; eexists; split; [reflexivity|]; apply (firstE_sub a); [|assumption]. intros nt l t0 d lv y K; inversion K; subst; eauto 10.
  - eexists; eexists; split; [reflexivity|]. cbn. intros nt l t d lv y K. inversion K; subst; eauto.
  - eexists; eexists; split; [reflexivity|]. cbn. intros nt l t d lv y K. inversion K; subst; eauto.
  - eexists; eexists; split; [reflexivity|]. cbn. intros nt l t d lv y K. inversion K; subst; eauto.
Qed.
Definition statStart : list Z := [LxIF; LxWHILE; LxDO; LxFOR; LxRETURN; LxBREAK; LxCONTINUE; cLC; cSEMI].
Lemma sder_first k s ts : sder k s ts -> exists x r, ts = x :: r /\
  ((exists c, x = TSym c /\ In c statStart) \/ exists e, s = BExpr e /\ firstE e x).
Proof.
  induction 1; try (eexists; eexists; split; [reflexivity|]; left; eexists; split; [reflexivity|]; cbn; auto 20; fail).
  - exact IHsder.
  - destruct (derives_first _ _ _ H) as (x & r & -> & F). eexists; eexists; split; [reflexivity|]. right. eauto.
Qed.

(* ---- tokens ---- *)
Lemma next_tok s x r : good s -> view (its s) = x :: r -> x <> TSym EOFtok -> good (getTok s) /\ view (its (getTok s)) = r.
Proof.
  intros G V N. split; [apply good_getTok; exact G|].
  destruct (view_head _ _ _ G V) as (i & O & T & l & E & VL). unfold getTok. rewrite E.
  destruct (Z.eqb_spec (tokOf i) EOFtok) as [X|X]; [|cbn [its]; rewrite skipFile_view; exact VL].
  exfalso. apply N. rewrite <- O, <- X. apply own_sym. rewrite X. reflexivity.
Qed.
Lemma typeOf_tok nt ty s r : good s -> view (its s) = tyTok ty :: r -> typeOf nt s = tyCode nt ty.
Proof.
  intros G V. destruct (view_head _ _ _ G V) as (i & O & T & l & E & VL).
  unfold typeOf. rewrite T. destruct ty; cbn [tyTok] in O; apply own_val in O; try (rewrite O; reflexivity).
  destruct O as [O1 O2]. rewrite O1. cbn [tyCode]. unfold lxGetStr. rewrite E. destruct i as [[[t v] st] ln]. cbn in O2. rewrite O2. reflexivity.
Qed.
(* tokens that do not begin a type *)
Definition noType (nt : table) (x : stok) : Prop :=
  match x with
  | TSym c => In c statStart \/ In c exprStart
  | TName n => ntSrcStruct nt n = TyNON
  | _ => True
  end.
Lemma typeOf_no nt x s r : good s -> view (its s) = x :: r -> noType nt x -> typeOf nt s = TyNON.
Proof.
  intros G V N. destruct (view_head _ _ _ G V) as (i & O & T & l & E & VL).
  unfold typeOf. rewrite T. apply own_val in O. destruct x as [nn|vv|vv|vv|vv|cc]; try (rewrite (proj1 O); reflexivity).
  - destruct O as [O1 O2]. rewrite O1. unfold lxGetStr. rewrite E. destruct i as [[[t v] st] ln]. cbn in O2. rewrite O2. exact N.
  - rewrite O. cbn in N. destruct N as [N|N]; repeat (destruct N as [<-|N]; [reflexivity|]); contradiction.
Qed.
Lemma dims_complete d : forall F c s rest, good s -> view (its s) = brackets d ++ rest -> (forall r, rest <> TSym cLB :: r) -> (List.length (its s) < F)%nat ->
  exists s', dimLoop F c s = POk (c + Z.of_nat d, s') /\ good s' /\ view (its s') = rest /\ clab s' = clab s /\ outp s' = outp s.
Proof.
  induction d as [|d IH]; intros F c s rest G V NB LF; (destruct F as [|F]; [lia|]); cbn [dimLoop].
  - rewrite isTok_no. { exists s. rewrite Z.add_0_r. auto 6. }
    intros T. apply (NB (view (its (getTok s)))). cbn [brackets app] in V. rewrite <- V. apply view_sym; auto; discriminate.
  - cbn [brackets app] in V. rewrite (isTok_yes _ _ (head_sym _ _ _ G V)).
    destruct (next_sym _ _ _ G V ltac:(discriminate)) as (G1 & V1 & L1).
    rewrite (chkTok_yes _ _ (head_sym _ _ _ G1 V1)). cbn [pbind].
    destruct (next_sym _ _ _ G1 V1 ltac:(discriminate)) as (G2 & V2 & L2).
    destruct (IH F (c + 1) _ rest G2 V2 NB ltac:(lia)) as (s' & -> & G' & V' & L & O).
    exists s'. split; [f_equal; f_equal; lia|]. rewrite !getTok_lab in L. rewrite !getTok_out in O. auto.
Qed.

Scheme sder_min := Minimality for sder Sort Prop with qder_min := Minimality for qder Sort Prop.
Combined Scheme der_mutind from sder_min, qder_min.

Section Complete.
Variables (krn : bool) (fi rt rd : Z).
Notation inv := (inv fi rt rd).
Definition inv2 (g : gs) : Prop := inv g /\ sep (gnt g).
Definition gview (g : gs) : list stok := view (its (ge g)).
Lemma got_rest g ts ss g' rest : got g ts ss g' -> gview g = ts ++ rest -> gview g' = rest.
Proof. intros [V _ _ _] W. unfold gview in *. rewrite V in W. exact (app_inv_head _ _ _ W). Qed.
(* the result of a parser that reads ts *)
Definition reads {A} (r : pres (A * gs)) (g : gs) (x : A) (ts : list stok) (ss : list (list Z)) (E : env) (P : gs -> Prop) : Prop :=
  exists g', r = POk (x, g') /\ inv2 g' /\ got g ts ss g' /\ envOf g' = E /\ P g'.

Lemma c_next g k r : inv2 g -> gview g = TSym k :: r -> k <> EOFtok -> valued k = false ->
  gtok g = k /\ inv2 (gGetTok g) /\ got g [TSym k] [] (gGetTok g) /\ envOf (gGetTok g) = envOf g /\ gview (gGetTok g) = r /\ (glen (gGetTok g) < glen g)%nat.
Proof.
  intros [I S] V N VA. pose proof (head_sym _ _ _ (i_good _ _ _ _ I) V) as T. split; [exact T|].
  destruct (s_next fi rt rd g k I T N VA) as [I1 G1]. split; [split; [exact I1|exact S]|]. split; [exact G1|].
  split; [exact (quiet_env _ _ (quiet_next g))|]. split; [exact (got_rest _ [TSym k] _ _ r G1 V)|].
  destruct (next_sym _ _ _ (i_good _ _ _ _ I) V N) as (_ & _ & L). exact L.
Qed.
Lemma gChkTok_yes k g : gtok g = k -> gChkTok k g = POk (gGetTok g).
Proof. intros T. unfold gChkTok. rewrite (chkTok_yes _ _ T). reflexivity. Qed.
Lemma gIsTok_yes k g : gtok g = k -> gIsTok k g = Some (gGetTok g).
Proof. intros T. unfold gIsTok. rewrite (isTok_yes _ _ T). reflexivity. Qed.
Lemma gIsTok_no k g : gtok g <> k -> gIsTok k g = None.
Proof. intros T. unfold gIsTok. rewrite (isTok_no _ _ T). reflexivity. Qed.

Lemma c_expr g e ts rest t d lv x : inv2 g -> derives 0 e ts -> gview g = ts ++ rest -> stops 0 rest ->
  has (gnt g) (clab (ge g)) e t d lv x ->
  reads (gExpr g) g (W t d lv x) ts (strings e) (Env (gnt g) (clab (ge g) + nstr e) (curCnt g) (maxCnt g) (curDim g)) (fun g' => sameE g g').
Proof.
  intros [I S] D V ST HH. destruct (getExpr_complete (gnt g) e ts (ge g) rest t d lv x D (i_good _ _ _ _ I) V ST HH) as (s & E & G & W & L & O & LE).
  exists (wE g s). unfold gExpr. rewrite E. cbn [pbind]. split; [reflexivity|]. split; [split; [apply inv_wE; assumption|exact S]|].
  split; [constructor; gcbn; [rewrite W; exact V|exact L|exact O|reflexivity]|]. split; [unfold envOf; gcbn; rewrite L; reflexivity|reflexivity].
Qed.
Lemma c_asExpr g e ts rest t d lv x : inv2 g -> derives 1 e ts -> gview g = ts ++ rest -> stops 1 rest ->
  has (gnt g) (clab (ge g)) e t d lv x ->
  reads (gAsExpr g) g (W t d lv x) ts (strings e) (Env (gnt g) (clab (ge g) + nstr e) (curCnt g) (maxCnt g) (curDim g)) (fun g' => sameE g g').
Proof.
  intros [I S] D V ST HH. destruct (getAsExpr_complete (gnt g) e ts (ge g) rest t d lv x D (i_good _ _ _ _ I) V ST HH) as (s & E & G & W & L & O & LE).
  exists (wE g s). unfold gAsExpr. rewrite E. cbn [pbind]. split; [reflexivity|]. split; [split; [apply inv_wE; assumption|exact S]|].
  split; [constructor; gcbn; [rewrite W; exact V|exact L|exact O|reflexivity]|]. split; [unfold envOf; gcbn; rewrite L; reflexivity|reflexivity].
Qed.

(* ---- declarations ---- *)
Lemma c_type g t d rest : inv2 g -> gview g = tyTok t :: brackets d ++ rest -> (forall r, rest <> TSym cLB :: r) -> tyCode (gnt g) t <> TyNON ->
  exists g', gGetType g = POk g' /\ inv2 g' /\ got g (tyTok t :: brackets d) [] g' /\ envOf g' = Env (gnt g) (clab (ge g)) (curCnt g) (maxCnt g) (Z.of_nat d) /\
    curType g' = tyCode (gnt g) t /\ curDim g' = Z.of_nat d /\ lastStat g' = lastStat g.
Proof.
  intros [I S] V NB N. pose proof (i_good _ _ _ _ I) as G. unfold gGetType, getType. rewrite (typeOf_tok _ _ _ _ G V).
  destruct (Z.eqb_spec (tyCode (gnt g) t) TyNON); [contradiction|].
  destruct (next_tok _ _ _ G V ltac:(destruct t; discriminate)) as (G1 & V1).
  destruct (dims_complete d (fuelOf (getTok (ge g))) 0 _ rest G1 V1 NB ltac:(unfold fuelOf; lia)) as (s & E & G2 & V2 & L & O).
  rewrite E. cbn [pbind]. eexists. split; [reflexivity|]. rewrite getTok_lab in L. rewrite getTok_out in O.
  split; [split; [destruct I; constructor; gcbn; assumption|exact S]|].
  split; [constructor; gcbn; cbn [List.length strOut]; rewrite ?app_nil_r; [rewrite V2; exact V|lia|exact O|reflexivity]|].
  split; [unfold envOf; gcbn; rewrite L; reflexivity|]. gcbn. auto.
Qed.
Lemma c_name g nm n' i c r : inv2 g -> 0 <= curDim g -> gview g = TName nm :: TSym c :: r -> sign c = true ->
  curType g <> TyINTR -> ~ (curType g = TyVOID /\ curDim g = 0) ->
  ntDefName (gnt g) nm ScLVAR (curType g) (curDim g) (curCnt g) false = NOk (n', i) ->
  exists g', getName krn false g = POk (i, g') /\ inv2 g' /\ got g [TName nm] [] g' /\ g' = wNt (wE g (ge g')) n' /\ clab (ge g') = clab (ge g).
Proof.
  intros [I S] DG V SG NI NV DN. destruct (next_val _ _ _ _ (i_good _ _ _ _ I) V SG ltac:(discriminate)) as (it & O & T & G1 & V1 & ST & _ & L).
  apply own_val in O. destruct O as [O1 O2]. rewrite O1 in T. unfold getName. rewrite gChkTok_yes by exact T. cbn [pbind].
  unfold gGetTok. gcbn. rewrite (i_scope _ _ _ _ I). change (ScLVAR =? ScPROT) with false. cbn [negb andb].
  destruct ((curType g =? TyVOID) && (curDim g =? 0)) eqn:TV; [apply andb_true_iff in TV; rewrite !Z.eqb_eq in TV; contradiction|].
  destruct (Z.eqb_spec (curType g) TyINTR) as [X|X]; [contradiction|]. cbn [andb]. rewrite ST, O2, DN.
  eexists. split; [reflexivity|]. pose proof (sep_def _ _ _ _ _ _ _ _ _ DN S) as S'. destruct (def_app _ _ _ _ _ _ _ _ _ DN) as [-> _].
  split. { split; [|exact S']. destruct I as [G D N SC F In Rt Rd]. constructor; gcbn; auto.
    - apply dimsOk_app. split; [exact D|]. constructor; [exact DG|constructor].
    - rewrite size_app. cbn [List.length]. lia.
    - rewrite typeAt_app; assumption.
    - rewrite dimAt_app; assumption. }
  gcbn. split; [|split; [reflexivity|apply getTok_lab]].
  constructor; gcbn; rewrite ?getTok_lab, ?getTok_out; cbn; rewrite ?app_nil_r; try reflexivity; [|lia]. rewrite V1. exact V.
Qed.
Lemma inv2_wCnt g c : inv2 g -> inv2 (wCnt g c).
Proof. intros [I S]. split; [apply inv_wCnt; exact I|exact S]. Qed.
Lemma inv2_wMax g c : inv2 g -> inv2 (wMax g c).
Proof. intros [I S]. split; [apply inv_wMax; exact I|exact S]. Qed.
Lemma inv2_wType g c : inv2 g -> inv2 (wType g c).
Proof. intros [I S]. split; [apply inv_wType; exact I|exact S]. Qed.
Lemma inv2_wLast g c : inv2 g -> inv2 (wLast g c).
Proof. intros [I S]. split; [apply inv_wLast; exact I|exact S]. Qed.
Lemma inv2_wDepth g c : inv2 g -> 0 <= c -> inv2 (wDepth g c).
Proof. intros [I S] H. split; [apply inv_wDepth; assumption|exact S]. Qed.
Lemma inv2_void g k : inv2 g -> inv2 (wNt g (ntSetVoid (gnt g) k)).
Proof. intros [I S]. split; [apply inv_void; exact I|apply sep_void; exact S]. Qed.

Lemma stops1_sign c r : stops 1 (TSym c :: r) -> sign c = true /\ c <> cEQ.
Proof. intros (c' & r' & E & S & N). injection E as <- <-. split; [exact S|]. intros ->. apply N. right; right; right; left. auto. Qed.
Lemma c_lvar g v ts rest x E : inv2 g -> 0 <= curDim g -> derives_var v ts -> gview g = ts ++ rest -> stops 1 rest ->
  curType g <> TyINTR -> ~ (curType g = TyVOID /\ curDim g = 0) ->
  okVar (curType g) (curDim g) (envOf g) v x E ->
  reads (getLVar krn g) g x ts (stringsO (snd v)) E (decls g).
Proof.
  intros I DG DV V ST NI NV OK. unfold getLVar. cbv zeta. set (g0 := wCnt g (curCnt g + 1)).
  assert (exists n' i, ntDefName (gnt g) (fst v) ScLVAR (curType g) (curDim g) (curCnt g + 1) false = NOk (n', i)) as (n' & i & DN)
    by (unfold envOf in OK; inversion OK; subst; eauto).
  assert (exists c r, ts ++ rest = TName (fst v) :: TSym c :: r /\ sign c = true) as (c & r & EV & SG).
  { inversion DV; subst; cbn [fst app].
    - destruct ST as (c & r & -> & S & _). eauto.
    - eauto. }
  rewrite EV in V. destruct (c_name g0 (fst v) n' i c r (inv2_wCnt _ _ I) DG V SG NI NV DN) as (g1 & -> & I1 & G1 & Q1 & L1). cbn [pbind].
  assert (gview g1 = TSym c :: r) as V1 by exact (got_rest _ _ _ _ _ G1 V).
  pose proof (head_sym _ _ _ (i_good _ _ _ _ (proj1 I1)) V1) as T1. change (tok (ge g1)) with (gtok g1) in T1.
  assert (curType g1 = curType g /\ curDim g1 = curDim g /\ maxCnt g1 = maxCnt g /\ lastStat g1 = lastStat g /\ gnt g1 = n' /\ curCnt g1 = curCnt g + 1) as (K1 & K2 & K3 & K4 & K5 & K6)
    by (rewrite Q1; unfold g0; gcbn; auto 8).
  inversion DV as [n|n e te DE]; subst v ts; cbn [app fst snd] in *.
  - injection EV as ->. destruct (stops1_sign _ _ ST) as [_ NE]. rewrite gIsTok_no by (rewrite T1; exact NE).
    unfold envOf in OK. inversion OK; subst. match goal with K1 : ?A = NOk (?a, ?b), K2 : ?A = NOk (?c, ?d) |- _ => assert (a = c /\ b = d) as [EN EI] by (rewrite K1 in K2; injection K2; auto) end. subst.
    exists g1. split; [reflexivity|]. split; [exact I1|]. split; [exact (got_from g _ _ _ _ G1 eq_refl eq_refl)|].
    split; [unfold envOf; rewrite L1, K2, K3, K6; reflexivity|unfold decls; auto].
  - injection EV as <- <-. rewrite gIsTok_yes by exact T1.
    destruct (c_next g1 cEQ _ I1 V1 ltac:(discriminate) eq_refl) as (_ & I2 & G2 & E2 & V2 & _).
    unfold envOf in OK. inversion OK; subst. match goal with K1 : ?A = NOk (?a, ?b), K2 : ?A = NOk (?c, ?d) |- _ => assert (a = c /\ b = d) as [EN EI] by (rewrite K1 in K2; injection K2; auto) end. subst.
    destruct (c_asExpr (gGetTok g1) e te rest t2 d2 lv x0 I2 DE V2 ST) as (g3 & -> & I3 & G3 & E3 & S3).
    { unfold gGetTok. gcbn. rewrite getTok_lab, L1. unfold g0. gcbn. assumption. }
    cbn [pbind]. assert (curType g3 = curType g /\ curDim g3 = curDim g /\ maxCnt g3 = maxCnt g /\ lastStat g3 = lastStat g) as (M1 & M2 & M3 & M4)
      by (rewrite S3; unfold gGetTok; gcbn; auto).
    rewrite M1, M2. destruct (chkCmpat_yes (W t2 d2 lv x0) (curType g) (curDim g) ltac:(assumption)) as (w' & -> & TR). cbn [pbind tr] in *. rewrite TR.
    exists g3. split; [reflexivity|]. split; [exact I3|]. split; [|split].
    + apply (got_from _ g0); [|reflexivity|reflexivity]. exact (got_trans _ _ _ _ _ _ _ G1 (got_trans _ _ _ _ _ _ _ G2 G3)).
    + rewrite E3. unfold gGetTok. gcbn. rewrite getTok_lab, L1, K2, K3, K6. reflexivity.
    + unfold decls. auto.
Qed.
Lemma derives_var_nonempty v ts : derives_var v ts -> exists x r, ts = x :: r /\ x <> TSym cSEMI /\ x <> TSym cLB.
Proof. intros H. inversion H; subst; eexists; eexists; (split; [reflexivity|split; discriminate]). Qed.
Lemma derives_vars_head vs ts : derives_vars vs ts -> exists n r, ts = TName n :: r.
Proof. intros H. inversion H; subst; match goal with K : derives_var _ _ |- _ => inversion K; subst end; eexists; eexists; reflexivity. Qed.
Lemma stops_semi k r : stops k (TSym cSEMI :: r).
Proof.
  apply stops_c; [reflexivity|]. destruct k as [|k]; [reflexivity|]. do 12 (destruct k as [|k]; [reflexivity|]). reflexivity.
Qed.
Lemma c_lvars vs ts : moreVars vs ts -> forall F sta g rest x E, inv2 g -> 0 <= curDim g ->
  gview g = ts ++ TSym cSEMI :: rest -> curType g <> TyINTR -> ~ (curType g = TyVOID /\ curDim g = 0) ->
  okVars (curType g) (curDim g) (envOf g) sta vs x E -> (glen g < F)%nat ->
  reads (lvarsLoop krn F sta g) g x ts (flat_map (fun v => stringsO (snd v)) vs) E (decls g).
Proof.
  revert ts. induction vs as [|v vs IH]; intros ts M F sta g rest x E I DG V NI NV OK LF; (destruct F as [|F]; [lia|]); cbn [lvarsLoop].
  - destruct M as [[_ ->]|(tr & _ & M)]; [|inversion M]. cbn [app] in V.
    pose proof (head_sym _ _ _ (i_good _ _ _ _ (proj1 I)) V) as T. rewrite gIsTok_no by (unfold gtok; rewrite T; discriminate).
    inversion OK; subst. exists g. split; [reflexivity|]. split; [exact I|]. split; [apply got_refl|]. split; [reflexivity|unfold decls; auto].
  - destruct M as [[X _]|(tr & -> & M)]; [discriminate X|]. cbn [app] in V.
    destruct (c_next g cCOMMA _ I V ltac:(discriminate) eq_refl) as (T & I1 & G1 & E1 & V1 & L1). rewrite gIsTok_yes by exact T.
    inversion OK as [|E0 a v0 r0 y E2 z E3 OV OVS]; subst.
    assert (exists tv tm, tr = tv ++ tm /\ derives_var v tv /\ moreVars vs tm) as (tv & tm & -> & DV & MV).
    { inversion M; subst; [exists tr, []; rewrite app_nil_r; repeat split; [assumption|left; auto]|].
      eexists; eexists; split; [reflexivity|]. split; [assumption|]. right. eauto. }
    rewrite <- app_assoc in V1.
    assert (stops 1 (tm ++ TSym cSEMI :: rest)) as ST.
    { destruct MV as [[_ ->]|(tr' & -> & _)]; [apply stops_semi|apply stops_c; reflexivity]. }
    destruct (c_lvar (gGetTok g) v tv _ y E2 I1 DG DV V1 ST NI NV ltac:(rewrite E1; exact OV)) as (g2 & EQ2 & I2 & G2 & E2' & (K1 & K2 & K3 & K4)).
    pose proof (wp_getLVar krn (gGetTok g)) as W. rewrite EQ2 in *. cbn [pbind wp] in *. unfold eatS in W. cbn [snd] in W. unfold gGetTok in K1, K2, K3, K4. gcbn.
    destruct (IH tm MV F (catS sta y) g2 rest x E I2 ltac:(rewrite K2; exact DG) (got_rest _ _ _ _ _ G2 V1) ltac:(rewrite K1; exact NI) ltac:(rewrite K1, K2; exact NV)
                ltac:(rewrite K1, K2, E2'; exact OVS) ltac:(lia)) as (g3 & EQ3 & I3 & G3 & E3' & (M1 & M2 & M3 & M4)).
    exists g3. split; [exact EQ3|]. split; [exact I3|]. split; [|split; [exact E3'|unfold decls; repeat split; congruence]].
    exact (got_trans _ _ _ _ _ _ _ G1 (got_trans _ _ _ _ _ _ _ G2 G3)).
Qed.
Lemma c_decl g d ts rest x E : inv2 g -> derives_decl d ts -> gview g = ts ++ TSym cSEMI :: rest -> okDecl (envOf g) d x E ->
  reads (getLVars krn g) g x ts (stringsD d) E (fun g' => lastStat g' = lastStat g).
Proof.
  intros I DD V OK. inversion OK as [E0 t n vs y nn l c m k VT OV]; subst. inversion DD as [t' n' vs' tv DV]; subst.
  cbn [eN envOf] in VT, OV. unfold envOf in VT, OV. gcbn. destruct VT as (NN & NI & NV).
  destruct (derives_vars_head _ _ DV) as (nm & tr & ET).
  cbn [app] in V. rewrite <- app_assoc in V.
  destruct (c_type g t n (tv ++ TSym cSEMI :: rest) I V ltac:(rewrite ET; discriminate) NN) as (g1 & EQ1 & I1 & G1 & E1 & CT & CD & LS).
  unfold getLVars. rewrite EQ1. cbn [pbind].
  assert (gview g1 = tv ++ TSym cSEMI :: rest) as V1.
  { apply (got_rest _ (tyTok t :: brackets n) _ _ _ G1). exact V. }
  destruct vs as [|v vs]; [inversion DV|].
  assert (exists t1 tm, tv = t1 ++ tm /\ derives_var v t1 /\ moreVars vs tm) as (t1 & tm & -> & DV1 & MV).
  { inversion DV; subst; [eexists; exists []; rewrite app_nil_r; split; [reflexivity|split; [eassumption|left; auto]]|].
    eexists; eexists; split; [reflexivity|]. split; [assumption|]. right. eauto. }
  rewrite <- app_assoc in V1. inversion OV as [|E0 a v0 r0 s2 E2 z E3 OV1 OVS]; subst. rewrite <- CT, <- CD in *.
  assert (stops 1 (tm ++ TSym cSEMI :: rest)) as ST.
  { destruct MV as [[_ ->]|(tr' & -> & _)]; [apply stops_semi|apply stops_c; reflexivity]. }
  destruct (c_lvar g1 v t1 _ s2 E2 I1 ltac:(lia) DV1 V1 ST NI NV ltac:(rewrite E1; exact OV1)) as (g2 & -> & I2 & G2 & E2' & (K1 & K2 & K3 & K4)). cbn [pbind].
  destruct (c_lvars vs tm MV (gfuel g2) s2 g2 rest x (Env nn l c m k) I2 ltac:(rewrite K2; lia) (got_rest _ _ _ _ _ G2 V1) ltac:(rewrite K1; exact NI) ltac:(rewrite K1, K2; exact NV)
     ltac:(rewrite K1, K2, E2'; exact OVS) ltac:(unfold gfuel, fuelOf, glen, len; lia)) as (g3 & -> & I3 & G3 & E3' & (M1 & M2 & M3 & M4)). cbn [pbind].
  set (g4 := if maxCnt g3 <? curCnt g3 then wMax g3 (curCnt g3) else g3).
  assert (inv2 g4) as I4 by (unfold g4; destruct (_ <? _); [apply inv2_wMax|]; exact I3).
  assert (ge g4 = ge g3 /\ depth g4 = depth g3 /\ lastStat g4 = lastStat g3) as (F1 & F2 & F3) by (unfold g4; destruct (_ <? _); auto).
  exists g4. split; [reflexivity|]. split; [exact I4|]. split; [|split; [|congruence]].
  - apply (got_to _ _ _ g3); [|exact F1|exact F2]. exact (got_trans _ _ _ _ _ _ _ G1 (got_trans _ _ _ _ _ _ _ G2 G3)).
  - unfold envOf in E3'. injection E3' as <- <- <- <- <-. unfold g4, envOf. destruct (Z.ltb_spec (maxCnt g3) (curCnt g3)); gcbn; f_equal; lia.
Qed.

(* ---- statements ---- *)
Lemma tok_not g x r k : inv2 g -> gview g = x :: r -> x <> TSym k -> valued k = false -> gtok g <> k.
Proof.
  intros [I _] V N VA T. destruct (view_head _ _ _ (i_good _ _ _ _ I) V) as (i & O & T2 & _). apply N. rewrite <- O.
  unfold gtok in T. rewrite T in T2. rewrite T2. apply own_sym. rewrite <- T2. exact VA.
Qed.
Lemma firstE_not e x k : firstE e x -> existsb (Z.eqb k) exprStart = false -> x <> TSym k.
Proof.
  intros F N ->. cbn [firstE] in F. assert (existsb (Z.eqb k) exprStart = true) as C; [|congruence].
  apply existsb_exists. exists k. split; [exact F|apply Z.eqb_refl].
Qed.
Lemma noType_expr nt e x l t d lv y : sep nt -> firstE e x -> has nt l e t d lv y -> noType nt x.
Proof.
  intros S F H. destruct x; cbn in *; auto. destruct (F _ _ _ _ _ _ H) as (i & K). exact (sep_name _ _ _ S K).
Qed.
Lemma isType_no g x r : inv2 g -> gview g = x :: r -> noType (gnt g) x -> gIsType g = (false, wType g TyNON).
Proof. intros [I _] V N. unfold gIsType, isType. rewrite (typeOf_no _ _ _ _ (i_good _ _ _ _ I) V N). reflexivity. Qed.
Lemma isType_yes g t r : inv2 g -> gview g = tyTok t :: r -> tyCode (gnt g) t <> TyNON -> gIsType g = (true, wType g (tyCode (gnt g) t)).
Proof.
  intros [I _] V N. unfold gIsType, isType. rewrite (typeOf_tok _ _ _ _ (i_good _ _ _ _ I) V).
  destruct (Z.eqb_spec (tyCode (gnt g) t) TyNON); [contradiction|reflexivity].
Qed.
Lemma wp_len {A} (r : pres (A * gs)) m x g' : wp r (eatS m) -> r = POk (x, g') -> (glen g' < m)%nat.
Proof. intros H ->. exact H. Qed.
Lemma reads_from {A} (r : pres (A * gs)) g h x ts ss E P : reads r h x ts ss E P -> ge h = ge g -> depth h = depth g -> reads r g x ts ss E P.
Proof. intros (g' & H & I & G & R) A1 A2. exists g'. split; [exact H|]. split; [exact I|]. split; [exact (got_from _ _ _ _ _ G A1 A2)|exact R]. Qed.
Lemma stops0_rp r : stops 0 (TSym cRP :: r).
Proof. apply stops_c; reflexivity. Qed.

Ltac next g k I V := let T := fresh "T" in let I1 := fresh "I" in let G := fresh "G" in let EE := fresh "EE" in let V1 := fresh "V" in let L := fresh "L" in
  destruct (c_next g k _ I V ltac:(discriminate) eq_refl) as (T & I1 & G & EE & V1 & L); rewrite ?(gChkTok_yes k g T), ?(gIsTok_yes k g T); cbn [pbind].
Ltac nrm := cbn [app]; repeat (rewrite <- app_assoc; cbn [app]).
Ltac nrmin V := cbn [app] in V; repeat (rewrite <- app_assoc in V; cbn [app] in V).

Lemma c_cond g c tc rest x E : inv2 g -> derives 0 c tc -> gview g = TSym cLP :: tc ++ TSym cRP :: rest -> okCond (envOf g) (Some c) x E ->
  reads (getCond g) g x (TSym cLP :: tc ++ [TSym cRP]) (strings c) E (fun g' => gview g' = rest).
Proof.
  intros I D V OK. unfold getCond. next g cLP I V. inversion OK; subst.
  destruct (c_expr (gGetTok g) c tc _ TyBOOL 0 lv x I0 D V0 (stops0_rp _)) as (g2 & -> & I2 & G2 & E2 & S2).
  { unfold gGetTok. gcbn. rewrite getTok_lab. assumption. }
  cbn [pbind]. rewrite chkType_bool_ok by reflexivity. cbn [pbind].
  pose proof (got_rest _ _ _ _ _ G2 V0) as V2. next g2 cRP I2 V2. cbn [tr].
  eexists. split; [reflexivity|]. split; [assumption|]. split; [|split; [|assumption]].
  - eapply got_eq; [exact (got_trans _ _ _ _ _ _ _ G (got_trans _ _ _ _ _ _ _ G2 G0))|reflexivity|]. apply app_nil_r.
  - rewrite EE0, E2. unfold gGetTok. gcbn. rewrite getTok_lab. reflexivity.
Qed.
Lemma c_ini g i ti rest x E : inv2 g -> derives_ini i ti -> gview g = ti ++ TSym cSEMI :: rest -> okIni (envOf g) i x E ->
  reads (if gtok g =? cSEMI then POk (SNull, g)
         else let '(ty, g) := gIsType g in
              if (ty : bool) then getLVars krn g
              else let+ (w, g) := gExpr g in POk (SExpr (tr w), g)) g x ti (stringsI i) E (fun g' => gview g' = TSym cSEMI :: rest /\ (glen g' <= glen g)%nat).
Proof.
  intros I D V OK. inversion D as [|e te DE|d td DD]; subst; cbn [app stringsI] in *.
  - inversion OK; subst. next g cSEMI I V. rewrite T. cbn [Z.eqb]. rewrite Z.eqb_refl. exists g. split; [reflexivity|]. split; [exact I|]. split; [apply got_refl|]. auto.
  - inversion OK; subst. destruct (derives_first _ _ _ DE) as (x & r & ET & F).
    assert (gview g = x :: r ++ TSym cSEMI :: rest) as VX by (rewrite V, ET; reflexivity).
    destruct (Z.eqb_spec (gtok g) cSEMI) as [T|_]. { exfalso. exact (tok_not _ _ _ cSEMI I VX (firstE_not _ _ cSEMI F eq_refl) eq_refl T). }
    rewrite (isType_no _ _ _ I VX (noType_expr _ _ _ _ _ _ _ _ (proj2 I) F ltac:(eassumption))).
    destruct (c_expr (wType g TyNON) e ti _ t d lv x0 (inv2_wType _ _ I) DE V (stops_semi _ _) ltac:(assumption)) as (g2 & EQ & I2 & G2 & E2 & S2).
    pose proof (wp_len _ _ _ _ (wp_gExpr _) EQ) as LN. rewrite EQ. cbn [pbind tr]. exists g2. split; [reflexivity|]. split; [exact I2|].
    split; [exact (got_from g _ _ _ _ G2 eq_refl eq_refl)|]. split; [exact E2|]. split; [exact (got_rest _ _ _ _ _ G2 V)|]. change (glen (wType g TyNON)) with (glen g) in LN. lia.
  - inversion OK; subst. match goal with K : okDecl _ _ _ _ |- _ => rename K into OD end.
    assert (exists t r, ti = tyTok t :: r /\ tyCode (gnt g) t <> TyNON) as (t & r & ET & NN).
    { inversion OD as [E0 t n vs y nn l c m k VT OV]; subst. inversion DD; subst. eexists. eexists. split; [reflexivity|]. exact (proj1 VT). }
    assert (gview g = tyTok t :: r ++ TSym cSEMI :: rest) as VX by (rewrite V, ET; reflexivity).
    destruct (Z.eqb_spec (gtok g) cSEMI) as [T|_]. { exfalso. exact (tok_not _ _ _ cSEMI I VX ltac:(destruct t; discriminate) eq_refl T). }
    rewrite (isType_yes _ _ _ I VX NN).
    destruct (c_decl (wType g (tyCode (gnt g) t)) d ti rest x E (inv2_wType _ _ I) DD V OD) as (g2 & EQ & I2 & G2 & E2 & _).
    pose proof (wp_len _ _ _ _ (wp_getLVars krn _) EQ) as LN. exists g2. split; [exact EQ|]. split; [exact I2|].
    split; [exact (got_from g _ _ _ _ G2 eq_refl eq_refl)|]. split; [exact E2|]. split; [exact (got_rest _ _ _ _ _ G2 V)|]. change (glen (wType g (tyCode (gnt g) t))) with (glen g) in LN. lia.
Qed.
Lemma c_cnd g c tc rest x E : inv2 g -> derives_opt c tc -> gview g = tc ++ TSym cSEMI :: rest -> okCond (envOf g) c x E ->
  reads (if gtok g =? cSEMI then POk (ENull, g)
         else let+ (w, g) := gExpr g in
              let+ w := chkType w TyBOOL in POk (tr w, g)) g x tc (stringsO c) E (fun g' => gview g' = TSym cSEMI :: rest /\ (glen g' <= glen g)%nat).
Proof.
  intros I D V OK. inversion D as [|e te DE]; subst; cbn [app stringsO] in *.
  - inversion OK; subst. next g cSEMI I V. rewrite T. rewrite Z.eqb_refl. exists g. split; [reflexivity|]. split; [exact I|]. split; [apply got_refl|]. auto.
  - inversion OK; subst. destruct (derives_first _ _ _ DE) as (y & r & ET & F).
    assert (gview g = y :: r ++ TSym cSEMI :: rest) as VX by (rewrite V, ET; reflexivity).
    destruct (Z.eqb_spec (gtok g) cSEMI) as [T|_]. { exfalso. exact (tok_not _ _ _ cSEMI I VX (firstE_not _ _ cSEMI F eq_refl) eq_refl T). }
    destruct (c_expr g e tc _ TyBOOL 0 lv x I DE V (stops_semi _ _) ltac:(assumption)) as (g2 & EQ & I2 & G2 & E2 & S2).
    pose proof (wp_len _ _ _ _ (wp_gExpr _) EQ) as LN. rewrite EQ. cbn [pbind]. rewrite chkType_bool_ok by reflexivity. cbn [pbind tr].
    exists g2. split; [reflexivity|]. split; [exact I2|]. split; [exact G2|]. split; [exact E2|]. split; [exact (got_rest _ _ _ _ _ G2 V)|]. lia.
Qed.
Lemma c_opt g c tc rest x E : inv2 g -> derives_opt c tc -> gview g = tc ++ TSym cRP :: rest -> okOpt (envOf g) c x E ->
  reads (if gtok g =? cRP then POk (ENull, g)
         else let+ (w, g) := gExpr g in POk (tr w, g)) g x tc (stringsO c) E (fun g' => gview g' = TSym cRP :: rest /\ (glen g' <= glen g)%nat).
Proof.
  intros I D V OK. inversion D as [|e te DE]; subst; cbn [app stringsO] in *.
  - inversion OK; subst. next g cRP I V. rewrite T. rewrite Z.eqb_refl. exists g. split; [reflexivity|]. split; [exact I|]. split; [apply got_refl|]. auto.
  - inversion OK; subst. destruct (derives_first _ _ _ DE) as (y & r & ET & F).
    assert (gview g = y :: r ++ TSym cRP :: rest) as VX by (rewrite V, ET; reflexivity).
    destruct (Z.eqb_spec (gtok g) cRP) as [T|_]. { exfalso. exact (tok_not _ _ _ cRP I VX (firstE_not _ _ cRP F eq_refl) eq_refl T). }
    destruct (c_expr g e tc _ t d lv x I DE V (stops0_rp _) ltac:(assumption)) as (g2 & EQ & I2 & G2 & E2 & S2).
    pose proof (wp_len _ _ _ _ (wp_gExpr _) EQ) as LN. rewrite EQ. cbn [pbind tr].
    exists g2. split; [reflexivity|]. split; [exact I2|]. split; [exact G2|]. split; [exact E2|]. split; [exact (got_rest _ _ _ _ _ G2 V)|]. lia.
Qed.

Definition elseFirst (rest : list stok) : Prop := exists r, rest = TSym LxELSE :: r.
Definition isRet (s : sast) : bool := match s with BReturn _ => true | _ => false end.
Definition fullS (k : bool) (s : sast) (ts : list stok) : Prop :=
  forall f g rest b x E, inv2 g -> gview g = ts ++ rest -> (k = false -> ~ elseFirst rest) ->
    okS rt rd b (envOf g) s x E -> (b = true -> 0 < depth g) -> (glen g < f)%nat ->
    reads (getStatF krn f g) g x ts (stringsS s) E (fun g' => (lastStat g' =? LxRETURN) = isRet s).
(* stat is the statement parser on texts shorter than n *)
Definition stats (n : nat) (stat : sparser) : Prop := forall g, (glen g < n)%nat -> exists f, (glen g < f)%nat /\ stat g = getStatF krn f g.
Lemma stats_fuel f : stats f (getStatF krn f).
Proof. intros g L. exists f. auto. Qed.
Lemma stats_top n : stats n (getStat krn).
Proof. intros g _. exists (gfuel g). split; [unfold gfuel, fuelOf, glen, len; lia|reflexivity]. Qed.
Definition fullQ (q : sseq) (ts : list stok) : Prop :=
  forall f stat F a g rest b x E, inv2 g -> gview g = ts ++ TSym cRC :: rest ->
    okQ rt rd b (envOf g) a q x E -> (b = true -> 0 < depth g) -> stats f stat -> (glen g < f)%nat -> (glen g < F)%nat ->
    reads (blockLoop krn stat F a g) g x ts (stringsQ q) E (fun g' => (lastStat g' =? LxRETURN) = endsReturn q (lastStat g =? LxRETURN)).

Lemma c_body k s ts f g rest x E : fullS k s ts -> inv2 g -> gview g = ts ++ rest -> (k = false -> ~ elseFirst rest) ->
  okS rt rd true (envOf g) s x E -> (glen g < f)%nat ->
  reads (body (getStatF krn f) g) g x ts (stringsS s) E (fun g' => (glen g' < glen g)%nat).
Proof.
  intros H I V EL OK L. unfold body. pose proof (i_depth _ _ _ _ (proj1 I)) as D0.
  destruct (H f (wDepth g (depth g + 1)) rest true x E (inv2_wDepth g (depth g + 1) I ltac:(lia)) V EL OK ltac:(gcbn; lia) L) as (g1 & EQ & I1 & G1 & E1 & _).
  pose proof (wp_len _ _ _ _ (wp_getStatF krn f (wDepth g (depth g + 1)) L) EQ) as LN. rewrite EQ. cbn [pbind].
  pose proof (t_depth _ _ _ _ G1) as DE. gcbn. eexists. split; [reflexivity|]. split; [apply inv2_wDepth; [exact I1|lia]|].
  split; [|split; [exact E1|exact LN]]. destruct G1 as [W LL O _]. constructor; gcbn; auto. lia.
Qed.
Lemma reads_kw (r : pres (stmt * gs)) g kw x ts ss E (P : gs -> Prop) k : inv2 g -> gview g = TSym kw :: k -> kw <> EOFtok -> valued kw = false ->
  reads r (gGetTok g) x ts ss E P -> reads (let+ (s, h) := r in POk (s, wLast h kw)) g x (TSym kw :: ts) ss E (fun g' => lastStat g' = kw).
Proof.
  intros I V N VA (g' & -> & I' & G & E' & _). destruct (c_next g kw k I V N VA) as (T & I1 & G1 & EE & V1 & L1). cbn [pbind].
  exists (wLast g' kw). split; [reflexivity|]. split; [apply inv2_wLast; exact I'|]. split; [|split; [exact E'|reflexivity]].
  apply (got_to _ _ _ g'); [|reflexivity|reflexivity]. exact (got_trans _ _ _ _ _ _ _ G1 G).
Qed.
Lemma reads_weak {A} (r : pres (A * gs)) g x ts ss E (P Q : gs -> Prop) : reads r g x ts ss E P -> (forall g', P g' -> Q g') -> reads r g x ts ss E Q.
Proof. intros (g' & H & I & G & E' & K) W. exists g'. auto 6. Qed.
Lemma reads_eq {A} (r : pres (A * gs)) g x ts ts' ss ss' E (P : gs -> Prop) : reads r g x ts ss E P -> ts = ts' -> ss = ss' -> reads r g x ts' ss' E P.
Proof. intros H <- <-. exact H. Qed.
Ltac kw f g KW V I :=
  destruct f as [|f]; [lia|]; cbn [getStatF]; cbv zeta;
  let T := fresh "T" in let I1 := fresh "J" in let G := fresh "G" in let EE := fresh "EE" in let V1 := fresh "V" in let L := fresh "L" in
  destruct (c_next g KW _ I V ltac:(discriminate) eq_refl) as (T & I1 & G & EE & V1 & L); rewrite T;
  repeat match goal with |- context [?a =? ?b] => let u := eval vm_compute in (a =? b) in change (a =? b) with u; cbv iota end;
  apply (reads_weak _ _ _ _ _ _ (fun g' => lastStat g' = KW)); [eapply (reads_kw _ g KW _ _ _ _ (fun _ => True) _ I V ltac:(discriminate) eq_refl)|intros ? ->; reflexivity].

Lemma qder_noelse q tq r : qder q tq -> ~ elseFirst (tq ++ TSym cRC :: r).
Proof.
  intros H (r' & E). inversion H as [|s l ts tl SD QD|d l ts tl DD QD]; subst; cbn [app] in E.
  - discriminate E.
  - destruct (sder_first _ _ _ SD) as (x & r2 & -> & K). cbn [app] in E. injection E as -> _.
    destruct K as [(c & K & IN)|(e & _ & F)].
    + injection K as <-. cbn in IN. repeat (destruct IN as [IN|IN]; [discriminate IN|]). contradiction.
    + cbn in F. repeat (destruct F as [F|F]; [discriminate F|]). contradiction.
  - inversion DD as [t d' vs tv DV]; subst. destruct t; discriminate E.
Qed.
Lemma c_if k c s tc ts : derives 0 c tc -> fullS false s ts -> k = false -> fullS k (BIf c s) (TSym LxIF :: TSym cLP :: tc ++ TSym cRP :: ts).
Proof.
  intros D H KF f g rest b x E I V EL OK DP L. nrmin V. inversion OK as [| |b0 E0 c0 s0 xc E1 y E2 OC OS| | | | | | | | |]; subst.
  kw f g LxIF V I. unfold getIf. rewrite <- EE in OC.
  destruct (c_cond (gGetTok g) c tc _ xc E1 J D V0 OC) as (g1 & EQ1 & I1 & G1 & EE1 & V1).
  pose proof (wp_len _ _ _ _ (wp_getCond _) EQ1) as L1. rewrite EQ1. cbn [pbind]. rewrite <- EE1 in OS.
  assert (b = true -> 0 < depth g1) as DP1 by (rewrite (t_depth _ _ _ _ G1); exact DP).
  destruct (H f g1 rest b y E I1 V1 (fun _ => EL eq_refl) OS DP1 ltac:(lia)) as (g2 & EQ2 & I2 & G2 & EE2 & _).
  rewrite EQ2. cbn [pbind]. pose proof (got_rest _ _ _ _ _ G2 V1) as V2.
  rewrite gIsTok_no. 2:{ intros T2. apply (EL eq_refl). exists (gview (gGetTok g2)). rewrite <- V2. apply view_sym; [exact (i_good _ _ _ _ (proj1 I2))|exact T2|discriminate|reflexivity]. }
  exists g2. split; [reflexivity|]. split; [exact I2|]. split; [|split; [exact EE2|exact Logic.I]].
  eapply got_eq; [exact (got_trans _ _ _ _ _ _ _ G1 G2)| |reflexivity]. nrm. reflexivity.
Qed.
Lemma c_else k c s1 s2 tc t1 t2 : derives 0 c tc -> fullS true s1 t1 -> fullS k s2 t2 ->
  fullS k (BIfElse c s1 s2) (TSym LxIF :: TSym cLP :: tc ++ TSym cRP :: t1 ++ TSym LxELSE :: t2).
Proof.
  intros D H1 H2 f g rest b x E I V EL OK DP L. nrmin V. inversion OK as [| | |b0 E0 c0 sa sb xc E1 y1 E2 y2 E3 OC OS1 OS2| | | | | | | |]; subst.
  kw f g LxIF V I. unfold getIf. rewrite <- EE in OC.
  destruct (c_cond (gGetTok g) c tc _ xc E1 J D V0 OC) as (g1 & EQ1 & I1 & G1 & EE1 & V1).
  pose proof (wp_len _ _ _ _ (wp_getCond _) EQ1) as L1. rewrite EQ1. cbn [pbind]. rewrite <- EE1 in OS1.
  assert (b = true -> 0 < depth g1) as DP1 by (rewrite (t_depth _ _ _ _ G1); exact DP).
  destruct (H1 f g1 _ b y1 E2 I1 V1 ltac:(discriminate) OS1 DP1 ltac:(lia)) as (g2 & EQ2 & I2 & G2 & EE2 & _).
  pose proof (wp_len _ _ _ _ (wp_getStatF krn f g1 ltac:(lia)) EQ2) as L2.
  rewrite EQ2. cbn [pbind]. pose proof (got_rest _ _ _ _ _ G2 V1) as V2.
  destruct (c_next g2 LxELSE _ I2 V2 ltac:(discriminate) eq_refl) as (T3 & I3 & G3 & EE3 & V3 & L3). rewrite (gIsTok_yes LxELSE g2 T3).
  assert (b = true -> 0 < depth (gGetTok g2)) as DP3 by (change (depth (gGetTok g2)) with (depth g2); rewrite (t_depth _ _ _ _ G2); exact DP1).
  rewrite <- EE2, <- EE3 in OS2.
  destruct (H2 f (gGetTok g2) rest b y2 E I3 V3 EL OS2 DP3 ltac:(lia)) as (g4 & EQ4 & I4 & G4 & EE4 & _).
  rewrite EQ4. cbn [pbind]. exists g4. split; [reflexivity|]. split; [exact I4|]. split; [|split; [exact EE4|exact Logic.I]].
  eapply got_eq; [exact (got_trans _ _ _ _ _ _ _ G1 (got_trans _ _ _ _ _ _ _ G2 (got_trans _ _ _ _ _ _ _ G3 G4)))| |reflexivity]. nrm. reflexivity.
Qed.
Lemma c_while k c s tc ts : derives 0 c tc -> fullS k s ts -> fullS k (BWhile c s) (TSym LxWHILE :: TSym cLP :: tc ++ TSym cRP :: ts).
Proof.
  intros D H f g rest b x E I V EL OK DP L. nrmin V. inversion OK as [| | | |b0 E0 c0 s0 xc E1 y E2 OC OS| | | | | | |]; subst.
  kw f g LxWHILE V I. unfold getWhile. rewrite <- EE in OC.
  destruct (c_cond (gGetTok g) c tc _ xc E1 J D V0 OC) as (g1 & EQ1 & I1 & G1 & EE1 & V1).
  pose proof (wp_len _ _ _ _ (wp_getCond _) EQ1) as L1. rewrite EQ1. cbn [pbind]. rewrite <- EE1 in OS.
  destruct (c_body k s ts f g1 rest y E H I1 V1 EL OS ltac:(lia)) as (g2 & EQ2 & I2 & G2 & EE2 & _).
  rewrite EQ2. cbn [pbind]. exists g2. split; [reflexivity|]. split; [exact I2|]. split; [|split; [exact EE2|exact Logic.I]].
  eapply got_eq; [exact (got_trans _ _ _ _ _ _ _ G1 G2)| |reflexivity]. nrm. reflexivity.
Qed.
Lemma c_do s c ts tc : fullS false s ts -> derives 0 c tc ->
  fullS true (BDo s c) (TSym LxDO :: ts ++ TSym LxWHILE :: TSym cLP :: tc ++ [TSym cRP; TSym cSEMI]).
Proof.
  intros H D f g rest b x E I V EL OK DP L. nrmin V. inversion OK as [| | | | |b0 E0 c0 s0 y E1 xc E2 OS OC| | | | | |]; subst.
  kw f g LxDO V I. unfold getDoWhile. rewrite <- EE in OS.
  destruct (c_body false s ts f (gGetTok g) _ y E1 H J V0 ltac:(intros _ (r & X); discriminate X) OS ltac:(lia)) as (g1 & EQ1 & I1 & G1 & EE1 & L1).
  rewrite EQ1. cbn [pbind]. pose proof (got_rest _ _ _ _ _ G1 V0) as V1.
  destruct (c_next g1 LxWHILE _ I1 V1 ltac:(discriminate) eq_refl) as (T2 & I2 & G2 & EE2 & V2 & L2). rewrite (gChkTok_yes LxWHILE g1 T2). cbn [pbind].
  rewrite <- EE1, <- EE2 in OC.
  destruct (c_cond (gGetTok g1) c tc _ xc E I2 D V2 OC) as (g3 & EQ3 & I3 & G3 & EE3 & V3).
  rewrite EQ3. cbn [pbind].
  destruct (c_next g3 cSEMI _ I3 V3 ltac:(discriminate) eq_refl) as (T4 & I4 & G4 & EE4 & V4 & L4). rewrite (gChkTok_yes cSEMI g3 T4). cbn [pbind].
  eexists. split; [reflexivity|]. split; [exact I4|]. split; [|split; [congruence|exact Logic.I]].
  eapply got_eq; [exact (got_trans _ _ _ _ _ _ _ G1 (got_trans _ _ _ _ _ _ _ G2 (got_trans _ _ _ _ _ _ _ G3 G4)))| |]; [nrm; reflexivity|].
  cbn [app stringsS]. rewrite app_nil_r. reflexivity.
Qed.
Lemma c_for k i c r s ti tc tr ts : derives_ini i ti -> derives_opt c tc -> derives_opt r tr -> fullS k s ts ->
  fullS k (BFor i c r s) (TSym LxFOR :: TSym cLP :: ti ++ TSym cSEMI :: tc ++ TSym cSEMI :: tr ++ TSym cRP :: ts).
Proof.
  intros DI DC DR H f g rest b x E I V EL OK DP L. nrmin V.
  inversion OK as [| | | | | |b0 E0 i0 c0 r0 s0 xi E1 xc E2 xr E3 y E4 OI OC OR OS| | | | |]; subst.
  kw f g LxFOR V I. unfold getFor. cbv zeta.
  destruct (c_next (gGetTok g) cLP _ J V0 ltac:(discriminate) eq_refl) as (T1 & I1 & G1 & EE1 & V1 & L1). rewrite (gChkTok_yes cLP (gGetTok g) T1). cbn [pbind].
  set (g1 := gGetTok (gGetTok g)) in *. rewrite <- EE, <- EE1 in OI.
  destruct (c_ini g1 i ti _ xi E1 I1 DI V1 OI) as (g2 & -> & I2 & G2 & EE2 & V2 & L2). cbn [pbind].
  destruct (c_next g2 cSEMI _ I2 V2 ltac:(discriminate) eq_refl) as (T3 & I3 & G3 & EE3 & V3 & L3). rewrite (gChkTok_yes cSEMI g2 T3). cbn [pbind].
  set (g3 := gGetTok g2) in *. rewrite <- EE2, <- EE3 in OC.
  destruct (c_cnd g3 c tc _ xc E2 I3 DC V3 OC) as (g4 & -> & I4 & G4 & EE4 & V4 & L4). cbn [pbind].
  destruct (c_next g4 cSEMI _ I4 V4 ltac:(discriminate) eq_refl) as (T5 & I5 & G5 & EE5 & V5 & L5). rewrite (gChkTok_yes cSEMI g4 T5). cbn [pbind].
  set (g5 := gGetTok g4) in *. rewrite <- EE4, <- EE5 in OR.
  destruct (c_opt g5 r tr _ xr E3 I5 DR V5 OR) as (g6 & -> & I6 & G6 & EE6 & V6 & L6). cbn [pbind].
  destruct (c_next g6 cRP _ I6 V6 ltac:(discriminate) eq_refl) as (T7 & I7 & G7 & EE7 & V7 & L7). rewrite (gChkTok_yes cRP g6 T7). cbn [pbind].
  set (g7 := gGetTok g6) in *. rewrite <- EE6, <- EE7 in OS.
  destruct (c_body k s ts f g7 rest y E4 H I7 V7 EL OS ltac:(lia)) as (g8 & -> & I8 & G8 & EE8 & _). cbn [pbind].
  eexists. split; [reflexivity|]. split; [apply inv2_wCnt, inv2_void; exact I8|]. split; [|split; [|exact Logic.I]].
  - apply (got_to _ _ _ g8); [|reflexivity|reflexivity].
    eapply got_eq; [exact (got_trans _ _ _ _ _ _ _ G1 (got_trans _ _ _ _ _ _ _ G2 (got_trans _ _ _ _ _ _ _ G3 (got_trans _ _ _ _ _ _ _ G4
      (got_trans _ _ _ _ _ _ _ G5 (got_trans _ _ _ _ _ _ _ G6 (got_trans _ _ _ _ _ _ _ G7 G8)))))))|nrm; reflexivity|reflexivity].
  - rewrite <- EE8. reflexivity.
Qed.
Lemma c_simple kwd s x : (kwd = LxBREAK /\ s = BBreak /\ x = SBrk) \/ (kwd = LxCONTINUE /\ s = BContinue /\ x = SCnt) -> fullS true s [TSym kwd; TSym cSEMI].
Proof.
  intros C f g rest b y E I V EL OK DP L. nrmin V. destruct C as [(-> & -> & ->)|(-> & -> & ->)]; inversion OK; subst.
  - kw f g LxBREAK V I. unfold getBreak. specialize (DP eq_refl). change (depth (gGetTok g)) with (depth g).
    destruct (Z.leb_spec (depth g) 0); [lia|]. next (gGetTok g) cSEMI J V0.
    eexists. split; [reflexivity|]. split; [assumption|]. split; [assumption|]. split; [congruence|exact Logic.I].
  - kw f g LxCONTINUE V I. unfold getCont. specialize (DP eq_refl). change (depth (gGetTok g)) with (depth g).
    destruct (Z.leb_spec (depth g) 0); [lia|]. next (gGetTok g) cSEMI J V0.
    eexists. split; [reflexivity|]. split; [assumption|]. split; [assumption|]. split; [congruence|exact Logic.I].
Qed.
Lemma c_return e ts : derives_opt e ts -> fullS true (BReturn e) (TSym LxRETURN :: ts ++ [TSym cSEMI]).
Proof.
  intros D f g rest b x E I V EL OK DP L. nrmin V. kw f g LxRETURN V I. unfold getReturn. cbv zeta.
  destruct (proj1 J) as [JG JD JP JS JF JI JT JR]. rewrite JF, JT, JR. inversion OK; subst.
  - inversion D; subst. cbn [app] in V0.
    destruct (negb (rt =? TyINTR) && (negb (rt =? TyVOID) || negb (rd =? 0))) eqn:VF; [apply valued_fn_b in VF; contradiction|].
    cbn [pbind]. next (gGetTok g) cSEMI J V0. eexists. split; [reflexivity|]. split; [assumption|]. split; [assumption|]. split; [congruence|exact Logic.I].
  - inversion D as [|e1 te DE]; subst.
    destruct (negb (rt =? TyINTR) && (negb (rt =? TyVOID) || negb (rd =? 0))) eqn:VF.
    2:{ match goal with K : valued_fn _ _ |- _ => apply valued_fn_b in K; congruence end. }
    destruct (c_expr (gGetTok g) _ _ _ t d lv x0 J DE V0 (stops_semi _ _)) as (g2 & -> & I2 & G2 & E2 & S2).
    { unfold gGetTok. gcbn. rewrite getTok_lab. assumption. }
    cbn [pbind]. destruct (chkCmpat_yes (W t d lv x0) rt rd ltac:(assumption)) as (w' & -> & TR). cbn [pbind tr] in *. rewrite TR.
    pose proof (got_rest _ _ _ _ _ G2 V0) as V2. next g2 cSEMI I2 V2. eexists. split; [reflexivity|]. split; [assumption|]. split; [|split; [|exact Logic.I]].
    + eapply got_eq; [exact (got_trans _ _ _ _ _ _ _ G2 G0)|reflexivity|apply app_nil_r].
    + rewrite EE0, E2. unfold gGetTok. gcbn. rewrite getTok_lab. reflexivity.
Qed.
Lemma c_empty : fullS true BEmpty [TSym cSEMI].
Proof.
  intros f g rest b x E I V EL OK DP L. inversion OK; subst. kw f g cSEMI V I. exists (gGetTok g). split; [reflexivity|]. split; [exact J|].
  split; [apply got_refl|]. split; [exact EE|exact Logic.I].
Qed.
Lemma c_estat e ts : derives 0 e ts -> fullS true (BExpr e) (ts ++ [TSym cSEMI]).
Proof.
  intros D f g rest b x E I V EL OK DP L. nrmin V. destruct f as [|f]; [lia|]. cbn [getStatF]. cbv zeta. inversion OK; subst.
  destruct (derives_first _ _ _ D) as (y & r & ET & F).
  assert (gview g = y :: r ++ TSym cSEMI :: rest) as VX by (rewrite V, ET; reflexivity).
  assert (forall k, existsb (Z.eqb k) exprStart = false -> valued k = false -> gtok g =? k = false) as NK.
  { intros k N VA. apply Z.eqb_neq. exact (tok_not _ _ _ _ I VX (firstE_not _ _ _ F N) VA). }
  rewrite (NK LxIF), (NK LxWHILE), (NK LxDO), (NK LxFOR), (NK LxRETURN), (NK LxBREAK), (NK LxCONTINUE), (NK cLC), (NK cSEMI) by reflexivity.
  destruct (c_expr g e ts _ t d lv x0 I D V (stops_semi _ _) ltac:(assumption)) as (g2 & -> & I2 & G2 & E2 & S2). cbn [pbind].
  pose proof (got_rest _ _ _ _ _ G2 V) as V2. next g2 cSEMI I2 V2. eexists. split; [reflexivity|]. split; [apply inv2_wLast; assumption|]. split; [|split].
  - apply (got_to _ _ _ (gGetTok g2)); [|reflexivity|reflexivity]. eapply got_eq; [exact (got_trans _ _ _ _ _ _ _ G2 G)|reflexivity|apply app_nil_r].
  - change (envOf (wLast (gGetTok g2) (gtok g))) with (envOf (gGetTok g2)). congruence.
  - gcbn. apply NK; reflexivity.
Qed.
Lemma c_seq f stat q ts g rest b x E : fullQ q ts -> inv2 g -> gview g = ts ++ TSym cRC :: rest -> okQ rt rd b (envOf g) SNull q x E ->
  (b = true -> 0 < depth g) -> stats f stat -> (glen g < f)%nat ->
  reads (getBlock krn stat g) g (block x) (ts ++ [TSym cRC]) (stringsQ q) (leave (envOf g) E)
    (fun g' => (lastStat g' =? LxRETURN) = endsReturn q (lastStat g =? LxRETURN)).
Proof.
  intros H I V OK DP ST L. unfold getBlock. cbv zeta.
  destruct (H f stat (gfuel g) SNull g rest b x E I V OK DP ST L ltac:(unfold gfuel, fuelOf, glen, len; lia)) as (g1 & -> & I1 & G1 & E1 & LR). cbn [pbind].
  pose proof (got_rest _ _ _ _ _ G1 V) as V1. next g1 cRC I1 V1. eexists. split; [reflexivity|]. split; [apply inv2_wCnt, inv2_void; assumption|].
  split; [|split].
  - apply (got_to _ _ _ (gGetTok g1)); [|reflexivity|reflexivity]. eapply got_eq; [exact (got_trans _ _ _ _ _ _ _ G1 G)|reflexivity|apply app_nil_r].
  - rewrite <- E1, <- EE. reflexivity.
  - exact LR.
Qed.
Lemma c_block q ts : fullQ q ts -> fullS true (BBlock q) (TSym cLC :: ts ++ [TSym cRC]).
Proof.
  intros H f g rest b x E I V EL OK DP L. nrmin V. inversion OK as [| | | | | | | | | | |b0 E0 q0 y E1 OQ]; subst. kw f g cLC V I.
  rewrite <- EE in OQ. rewrite <- EE. eapply reads_weak; [eapply (c_seq f (getStatF krn f) q ts (gGetTok g) rest b y E1 H J V0 OQ DP (stats_fuel f)); lia|auto].
Qed.
Lemma c_qnil : fullQ QNil [].
Proof.
  intros f stat F a g rest b x E I V OK DP SF L LF. destruct F as [|F]; [lia|]. cbn [blockLoop]. cbn [app] in V.
  pose proof (head_sym _ _ _ (i_good _ _ _ _ (proj1 I)) V) as T. unfold gtok. rewrite T. change ((cRC =? cRC) || (cRC =? EOFtok)) with true.
  inversion OK; subst. exists g. split; [reflexivity|]. split; [exact I|]. split; [apply got_refl|]. split; reflexivity.
Qed.
Lemma c_qstat s q ts tq : sder false s ts -> qder q tq -> fullS false s ts -> fullQ q tq -> fullQ (QStat s q) (ts ++ tq).
Proof.
  intros SD QD H HQ f stat F a g rest b x E I V OK DP SF L LF. destruct F as [|F]; [lia|]. cbn [blockLoop]. nrmin V.
  inversion OK as [|b0 E0 a0 s0 y E1 r0 z E2 OS OQ|]; subst.
  destruct (sder_first _ _ _ SD) as (t & r & ET & K).
  assert (gview g = t :: r ++ tq ++ TSym cRC :: rest) as VX by (rewrite V, ET; reflexivity).
  assert (t <> TSym cRC /\ t <> TSym EOFtok /\ noType (gnt g) t) as (N1 & N2 & N3).
  { destruct K as [(c & -> & IN)|(e & -> & FE)].
    - assert (noType (gnt g) (TSym c)) by (left; exact IN). split; [|split; [|assumption]]; intros X; injection X as ->;
      cbn in IN; repeat (destruct IN as [IN|IN]; [discriminate IN|]); contradiction.
    - split; [exact (firstE_not _ _ cRC FE eq_refl)|]. split; [exact (firstE_not _ _ EOFtok FE eq_refl)|].
      inversion OS; subst. exact (noType_expr _ _ _ _ _ _ _ _ (proj2 I) FE ltac:(eassumption)). }
  rewrite (proj2 (Z.eqb_neq _ _) (tok_not _ _ _ cRC I VX N1 eq_refl)), (proj2 (Z.eqb_neq _ _) (tok_not _ _ _ EOFtok I VX N2 eq_refl)). cbn [orb].
  rewrite (isType_no _ _ _ I VX N3).
  destruct (SF (wType g TyNON) L) as (f1 & LF1 & ->).
  destruct (H f1 (wType g TyNON) _ b y E1 (inv2_wType _ _ I) V (fun _ => qder_noelse _ _ _ QD) OS DP LF1) as (g1 & EQ1 & I1 & G1 & EE1 & LS).
  pose proof (wp_len _ _ _ _ (wp_getStatF krn f1 (wType g TyNON) LF1) EQ1) as L1. change (glen (wType g TyNON)) with (glen g) in L1.
  rewrite EQ1. cbn [pbind]. pose proof (got_from g _ _ _ _ G1 eq_refl eq_refl) as G1'. rewrite <- EE1 in OQ.
  assert (b = true -> 0 < depth g1) as DP1 by (rewrite (t_depth _ _ _ _ G1'); exact DP).
  destruct (HQ f stat F (catS a y) g1 rest b x E I1 (got_rest _ _ _ _ _ G1' V) OQ DP1 SF ltac:(lia) ltac:(lia)) as (g2 & EQ2 & I2 & G2 & EE2 & LR).
  exists g2. split; [exact EQ2|]. split; [exact I2|]. split; [exact (got_trans _ _ _ _ _ _ _ G1' G2)|]. split; [exact EE2|].
  rewrite LR, LS. reflexivity.
Qed.
Lemma c_qdecl d q ts tq : derives_decl d ts -> fullQ q tq -> fullQ (QDecl d q) (ts ++ TSym cSEMI :: tq).
Proof.
  intros DD HQ f stat F a g rest b x E I V OK DP SF L LF. destruct F as [|F]; [lia|]. cbn [blockLoop]. nrmin V.
  inversion OK as [| |b0 E0 a0 d0 y E1 r0 z E2 OD OQ]; subst.
  assert (exists t r, ts = tyTok t :: r /\ tyCode (gnt g) t <> TyNON) as (t & r & ET & NN).
  { inversion OD as [E0 t n vs y' nn l c m kk VT OV]; subst. inversion DD; subst. eexists. eexists. split; [reflexivity|]. exact (proj1 VT). }
  assert (gview g = tyTok t :: r ++ TSym cSEMI :: tq ++ TSym cRC :: rest) as VX by (rewrite V, ET; reflexivity).
  rewrite (proj2 (Z.eqb_neq _ _) (tok_not _ _ _ cRC I VX ltac:(destruct t; discriminate) eq_refl)), (proj2 (Z.eqb_neq _ _) (tok_not _ _ _ EOFtok I VX ltac:(destruct t; discriminate) eq_refl)). cbn [orb].
  rewrite (isType_yes _ _ _ I VX NN).
  destruct (c_decl (wType g (tyCode (gnt g) t)) d ts _ y E1 (inv2_wType _ _ I) DD V OD) as (g1 & EQ1 & I1 & G1 & EE1 & LS).
  pose proof (wp_len _ _ _ _ (wp_getLVars krn _) EQ1) as L1. change (glen (wType g (tyCode (gnt g) t))) with (glen g) in L1.
  rewrite EQ1. cbn [pbind]. pose proof (got_from g _ _ _ _ G1 eq_refl eq_refl) as G1'. pose proof (got_rest _ _ _ _ _ G1' V) as V1.
  destruct (c_next g1 cSEMI _ I1 V1 ltac:(discriminate) eq_refl) as (T2 & I2 & G2 & EE2 & V2 & L2). rewrite (gChkTok_yes cSEMI g1 T2). cbn [pbind].
  rewrite <- EE1, <- EE2 in OQ.
  assert (b = true -> 0 < depth (gGetTok g1)) as DP1 by (change (depth (gGetTok g1)) with (depth g1); rewrite (t_depth _ _ _ _ G1'); exact DP).
  destruct (HQ f stat F (catS a y) (gGetTok g1) rest b x E I2 V2 OQ DP1 SF ltac:(lia) ltac:(lia)) as (g3 & EQ3 & I3 & G3 & EE3 & LR).
  exists g3. split; [exact EQ3|]. split; [exact I3|]. split; [exact (got_trans _ _ _ _ _ _ _ G1' (got_trans _ _ _ _ _ _ _ G2 G3))|]. split; [exact EE3|].
  rewrite LR. change (lastStat (gGetTok g1)) with (lastStat g1). rewrite LS. reflexivity.
Qed.
Lemma full : (forall k s ts, sder k s ts -> fullS k s ts) /\ (forall q ts, qder q ts -> fullQ q ts).
Proof.
  apply der_mutind; intros.
  - intros f g rest b x E I V EL OK DP L. apply (H0 f g rest b x E I V ltac:(discriminate) OK DP L).
  - apply c_empty.
  - apply c_estat; assumption.
  - apply c_if; auto.
  - apply c_else; assumption.
  - apply c_while; assumption.
  - apply c_do; assumption.
  - apply c_for; assumption.
  - apply (c_simple _ _ SBrk). auto.
  - apply (c_simple _ _ SCnt). auto.
  - apply c_return; assumption.
  - apply c_block; assumption.
  - apply c_qnil.
  - apply c_qstat; assumption.
  - apply c_qdecl; assumption.
Qed.
End Complete.
