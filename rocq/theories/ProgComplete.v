(* Every source file of the grammar that obeys the rules is accepted, with the output the
   rules give. *)
From Coq Require Import ZArith Bool Lia List.
From Verif Require Import Lexer LexProofs NameTable NameProofs SyTree OpTree VM VmCode Parser ParserStmt ParseSpec ParseSound ParseComplete ParseTotal ParseLabs ParseShow ProgInv ProgTop StmtSpec StmtSound StmtComplete ProgGram ProgSound.
Import ListNotations.
Open Scope Z_scope.

(* ---- tokens ---- *)
Definition sameE := ProgSound.sameE.
Definition able (g : gs) : Prop := fine g /\ sep (gnt g).
Lemma y_next g k r : fine g -> gview g = TSym k :: r -> k <> EOFtok ->
  gtok g = k /\ fine (gGetTok g) /\ sameE g (gGetTok g) /\ clab (ge (gGetTok g)) = clab (ge g) /\ outp (ge (gGetTok g)) = outp (ge g) /\
  gview (gGetTok g) = r /\ (glen (gGetTok g) < glen g)%nat.
Proof.
  intros [G D] V N. pose proof (head_sym _ _ _ G V) as T. destruct (next_sym _ _ _ G V N) as (G1 & V1 & L1).
  split; [exact T|]. split; [split; [exact G1|exact D]|]. split; [destruct g; reflexivity|].
  split; [apply getTok_lab|]. split; [apply getTok_out|]. split; [exact V1|exact L1].
Qed.
Lemma y_not g x r k : fine g -> gview g = x :: r -> x <> TSym k -> valued k = false -> gIsTok k g = None.
Proof.
  intros [G D] V N VA. apply gIsTok_no. intros T. destruct (view_head _ _ _ G V) as (i & O & E & _). apply N.
  unfold gtok in T. rewrite E in T. rewrite <- O, <- T. apply own_sym. rewrite T. exact VA.
Qed.
Lemma stops_sym k c r : sign c = true -> ~ continues k c -> stops k (TSym c :: r).
Proof. intros S N. exists c, r. auto. Qed.
(* ---- the result of a parser of initial values ---- *)
Definition yields (r : pres (dat * gs)) (g : gs) (d : dat) (l' : Z) (ss : list (list Z)) (rest : list stok) : Prop :=
  exists g', r = POk (d, g') /\ fine g' /\ sameE g g' /\ clab (ge g') = l' /\ outp (ge g') = outp (ge g) ++ strOut (clab (ge g)) ss /\ gview g' = rest.
Lemma y_cnst {WS : word} typ g e ts rest a : fine g -> derives 1 e ts -> gview g = ts ++ rest -> stops 1 rest -> okConst (gnt g) typ (clab (ge g)) e a ->
  yields (getCnst typ g) g a (clab (ge g) + nstr e) (strings e) rest.
Proof.
  intros [G D] DE V ST OC.
  assert (exists t d lv x, has (gnt g) (clab (ge g)) e t d lv x /\ fits t d typ 0 /\
    ((exists v, wOptExp x = Ok (Cnst v) /\ a = DCnst v) \/ (exists v, wOptExp x = Ok (ELeaf (LAddr v)) /\ a = DAddr v) \/ (exists v, wOptExp x = Ok (ELeaf (LStr v)) /\ a = DStr v)))
    as (t & d & lv & x & HH & FI & K).
  { inversion OC; subst; exists t2, d2, lv, x; eauto 10. }
  destruct (getAsExpr_complete (gnt g) e ts (ge g) rest t d lv x DE G V ST HH) as (s & E & G1 & W1 & L & O & LE).
  exists (wE g s). unfold getCnst, gAsExpr. rewrite E. cbn [pbind].
  destruct (chkCmpat_yes (W t d lv x) typ 0 FI) as (w' & -> & TR). cbn [pbind tr] in *. rewrite TR.
  split.
  { destruct K as [(v & -> & ->)|[(v & -> & ->)|(v & -> & ->)]]; reflexivity. }
  split; [split; [exact G1|exact D]|]. split; [destruct g; reflexivity|]. gcbn. auto.
Qed.
Lemma yields_len r g d l ss rest n : yields r g d l ss rest -> wp r (eatS n) -> exists g', r = POk (d, g') /\ fine g' /\ sameE g g' /\ clab (ge g') = l /\
  outp (ge g') = outp (ge g) ++ strOut (clab (ge g)) ss /\ gview g' = rest /\ (glen g' < n)%nat.
Proof. intros (g' & E & A & B & C & O & V) W. exists g'. repeat (split; [assumption|]). exact (wp_len _ _ _ _ W E). Qed.
Lemma same_N a b : sameE a b -> gnt b = gnt a.
Proof. intros H. apply same_fields in H. tauto. Qed.
Lemma same_T a b : sameE a b -> curType b = curType a.
Proof. intros H. apply same_fields in H. tauto. Qed.
Lemma stop_comma r : stops 1 (TSym cCOMMA :: r).
Proof. apply stops_sym; [reflexivity|]. intros [H|[H|[(j & o & J & I)|[[K H]|[K H]]]]]; try discriminate; try lia. do 12 (destruct j as [|j]; [cbn in I; repeat (destruct I as [I|I]; [discriminate I|]); destruct I|]). destruct I. Qed.
Lemma stop_rp r : stops 1 (TSym cRP :: r).
Proof. apply (stops_le 0); [lia|apply stops0_rp]. Qed.
Lemma stop_rc r : stops 1 (TSym cRC :: r).
Proof. apply stops_sym; [reflexivity|]. intros [H|[H|[(j & o & J & I)|[[K H]|[K H]]]]]; try discriminate; try lia. do 12 (destruct j as [|j]; [cbn in I; repeat (destruct I as [I|I]; [discriminate I|]); destruct I|]). destruct I. Qed.
Lemma strOut_len l a b : strOut l (a ++ b) = strOut l a ++ strOut (l + Z.of_nat (List.length a)) b.
Proof. apply strOut_app. Qed.
Lemma same_tr a b c : sameE a b -> sameE b c -> sameE a c.
Proof. apply same_trans. Qed.
Lemma y_array0 {WS : word} ns ts : commas (derives 1) ns ts -> forall F dim g rest a l', fine g -> gview g = ts ++ TSym cRP :: rest ->
  okSizes (gnt g) dim (clab (ge g)) ns a l' -> (glen g < F)%nat -> yields (getArray0 F dim g) g a l' (flat_map strings ns) (TSym cRP :: rest).
Proof.
  induction 1 as [e ts DE|e r te tr DE C IH]; intros F dim g rest a l' I V OK LF; (destruct F as [|F]; [lia|]); cbn [getArray0].
  - inversion OK as [d l e0 x D OC P|d l e0 r x b l2 D OC P NE OR]; subst; [|contradiction]. destruct (Z.leb_spec dim 0); [lia|].
    destruct (y_cnst TyINT g e ts (TSym cRP :: rest) a I DE V (stop_rp _) OC) as (g1 & -> & I1 & S1 & L1 & O1 & V1). cbn [pbind].
    destruct (Z.leb_spec (dLVal a) 0); [lia|]. rewrite (y_not _ _ _ cCOMMA I1 V1) by (discriminate || reflexivity).
    exists g1. cbn [flat_map]. rewrite app_nil_r. auto 10.
  - inversion OK as [d l e0 x D OC P|d l e0 r0 x b l2 D OC P NE OR]; subst; [inversion C|]. destruct (Z.leb_spec dim 0); [lia|].
    rewrite <- app_assoc in V. cbn [app] in V.
    destruct (yields_len _ _ _ _ _ _ _ (y_cnst TyINT g e te _ x I DE V (stop_comma _) OC) (wp_getCnst _ _)) as (g1 & -> & I1 & S1 & L1 & O1 & V1 & LN1). cbn [pbind].
    destruct (Z.leb_spec (dLVal x) 0); [lia|]. destruct (y_next _ _ _ I1 V1 ltac:(discriminate)) as (T2 & I2 & S2 & L2 & O2 & V2 & LN2).
    rewrite (gIsTok_yes _ _ T2). pose proof (same_tr _ _ _ S1 S2) as S12.
    destruct (IH F (dim - 1) (gGetTok g1) rest b l' I2 V2) as (g3 & -> & I3 & S3 & L3 & O3 & V3); [|lia|].
    { rewrite (same_N _ _ S12), L2, L1. exact OR. }
    cbn [pbind]. exists g3. split; [reflexivity|]. split; [exact I3|]. split; [exact (same_tr _ _ _ S12 S3)|]. split; [exact L3|]. split; [|exact V3].
    cbn [flat_map]. rewrite O3, O2, L2, L1, O1, strOut_len, app_assoc. reflexivity.
Qed.
Lemma y_array {WS : word} g ns ts rest dim a l' : fine g -> commas (derives 1) ns ts -> gview g = TSym cLP :: ts ++ TSym cRP :: rest -> okSizes (gnt g) dim (clab (ge g)) ns a l' ->
  yields (getArray dim g) g (DArry a (byteDim (curType g) dim)) l' (flat_map strings ns) rest.
Proof.
  intros I C V OK. unfold getArray. destruct (y_next _ _ _ I V ltac:(discriminate)) as (T1 & I1 & S1 & L1 & O1 & V1 & LN1).
  rewrite (gChkTok_yes _ _ T1). cbn [pbind].
  destruct (y_array0 _ _ C (gfuel (gGetTok g)) dim (gGetTok g) rest a l' I1 V1) as (g2 & -> & I2 & S2 & L2 & O2 & V2);
    [rewrite (same_N _ _ S1), L1; exact OK|unfold gfuel, fuelOf, glen, len; lia|]. cbn [pbind].
  destruct (y_next _ _ _ I2 V2 ltac:(discriminate)) as (T3 & I3 & S3 & L3 & O3 & V3 & _). rewrite (gChkTok_yes _ _ T3). cbn [pbind].
  pose proof (same_tr _ _ _ (same_tr _ _ _ S1 S2) S3) as S. exists (gGetTok g2). rewrite (same_T _ _ S).
  split; [reflexivity|]. split; [exact I3|]. split; [exact S|]. split; [congruence|]. split; [|exact V3]. rewrite O3, O2, O1, L1. reflexivity.
Qed.
Lemma y_str g s rest : fine g -> gview g = TStr s :: rest -> stops 1 rest ->
  exists g1, gIsTok LxSTRING g = Some g1 /\ sameE g g1 /\ exists l g', gStr g1 = (l, g') /\ l = clab (ge g) + 1 /\ fine g' /\ sameE g g' /\ clab (ge g') = clab (ge g) + 1 /\
    outp (ge g') = outp (ge g) ++ strOut (clab (ge g)) [s] /\ gview g' = rest.
Proof.
  intros [G D] V (c & r & -> & SG & _). destruct (next_val _ _ _ _ G V SG ltac:(discriminate)) as (it & O & T & G1 & V1 & ST & _ & L).
  apply own_val in O. destruct O as [O1 O2]. rewrite O1 in T. exists (gGetTok g). split; [apply gIsTok_yes; exact T|].
  split; [destruct g; reflexivity|]. unfold gStr, genStr, gGetTok. gcbn. rewrite ST, O2. cbv zeta. eexists. eexists. split; [reflexivity|].
  rewrite getTok_lab. split; [reflexivity|]. split; [split; [exact G1|exact D]|]. split; [destruct g; reflexivity|]. gcbn. cbn [clab outp its]. rewrite getTok_out.
  split; [reflexivity|]. split; [reflexivity|exact V1].
Qed.
Lemma y_null g rest : fine g -> gview g = TSym LxNUL :: rest -> gIsTok LxNUL g = Some (gGetTok g) /\ gChkTok LxNUL g = POk (gGetTok g) /\
  yields (POk (DCnst 0, gGetTok g)) g (DCnst 0) (clab (ge g)) [] rest.
Proof.
  intros I V. destruct (y_next _ _ _ I V ltac:(discriminate)) as (T1 & I1 & S1 & L1 & O1 & V1 & LN1). split; [apply gIsTok_yes; exact T1|]. split; [apply gChkTok_yes; exact T1|].
  exists (gGetTok g). cbn [strOut]. rewrite app_nil_r. auto 10.
Qed.
Lemma derives1_first e ts : derives 1 e ts -> exists x r, ts = x :: r /\ firstE e x.
Proof. apply derives_first. Qed.
Lemma base_b t : base t -> (t =? TyINT) || (t =? TyCHAR) || (t =? TyBOOL) = true /\ 0 < t.
Proof. intros [->|[->| ->]]; (split; [reflexivity|reflexivity]). Qed.
Lemma y_field {WS : word} i g x ts rest a l' : fine g -> derives_gini x ts -> gview g = ts ++ rest -> stops 1 rest -> okField (gnt g) i (clab (ge g)) x a l' ->
  yields (fieldInit i g) g a l' (stringsG x) rest.
Proof.
  intros I DG V ST OK. unfold fieldInit. inversion OK; subst.
  - inversion DG; subst. cbn [app] in V. destruct (y_null _ _ I V) as (_ & -> & Y). cbn [pbind]. destruct (Z.leb_spec (typeAt (gnt g) i) 0); [exact Y|lia].
  - inversion DG; subst. cbn [app] in V. destruct (y_null _ _ I V) as (E & _ & Y). destruct (Z.leb_spec (typeAt (gnt g) i) 0); [lia|].
    destruct (Z.ltb_spec 0 (dimAt (gnt g) i)); [|lia]. destruct (gIsTok LxSTRING g) as [z|] eqn:Z.
    { exfalso. apply gIsTok_ok in Z. destruct Z as [Z _]. pose proof (head_sym _ _ _ (proj1 I) V) as T. unfold gtok in Z. rewrite T in Z. discriminate Z. }
    rewrite E. exact Y.
  - inversion DG; subst. cbn [app] in V. destruct (y_str _ _ _ I V ST) as (g1 & E & S1 & l & g2 & GS & -> & I2 & S2 & L2 & O2 & V2).
    match goal with H : typeAt _ _ = TyCHAR, K : dimAt _ _ = 1 |- _ => rewrite H, K end. change (TyCHAR <=? 0) with false. change (0 <? 1) with true. cbn iota.
    rewrite E. rewrite (same_N _ _ S1). match goal with K : dimAt _ _ = 1 |- _ => rewrite K end. change (negb (1 =? 1) || negb (TyCHAR =? TyCHAR)) with false. cbn iota.
    rewrite GS. exists g2. auto 10.
  - inversion DG; subst.
    assert (yields (getCnst (typeAt (gnt g) i) g) g a (clab (ge g) + nstr e) (strings e) rest) as Y by (eapply y_cnst; eassumption).
    match goal with H : base _ |- _ => destruct H as [B|[B|B]] end; rewrite B in Y |- *; match goal with |- context [?k <=? 0] => change (k <=? 0) with false end; cbn iota;
      (destruct (Z.ltb_spec 0 (dimAt (gnt g) i)); [lia|]); exact Y.
Qed.
Lemma lab_field {WS : word} n i l x a l' : okField n i l x a l' -> l' = l + Z.of_nat (List.length (stringsG x)).
Proof. intros H. inversion H; subst; cbn [stringsG List.length]; unfold nstr; lia. Qed.
Lemma lab_fields {WS : word} n i l acc xs a l' : okFields n i l acc xs a l' -> l' = l + Z.of_nat (List.length (flat_map stringsG xs)).
Proof.
  induction 1 as [i l acc x b l2 IF OF NF|i l acc x b l1 r y l2 IF OF NE OR IH]; cbn [flat_map]; apply lab_field in OF; rewrite app_length; cbn [List.length]; lia.
Qed.
Lemma lab_sizes {WS : word} n d l ns a l' : okSizes n d l ns a l' -> l' = l + Z.of_nat (List.length (flat_map strings ns)).
Proof. induction 1; cbn [flat_map]; rewrite app_length; unfold nstr in *; cbn [List.length]; lia. Qed.
Scheme okIn_min := Minimality for okIn Sort Prop with okIns_min := Minimality for okIns Sort Prop.
Combined Scheme okIn_both from okIn_min, okIns_min.
Lemma lab_in {WS : word} n t : (forall d l x a l', okIn n t d l x a l' -> l' = l + Z.of_nat (List.length (stringsG x))) /\
  (forall d l acc xs a l', okIns n t d l acc xs a l' -> l' = l + Z.of_nat (List.length (flat_map stringsG xs))).
Proof.
  apply (okIn_both WS n t (fun d l x a l' => l' = l + Z.of_nat (List.length (stringsG x))) (fun d l acc xs a l' => l' = l + Z.of_nat (List.length (flat_map stringsG xs))));
    intros; cbn [stringsG flat_map List.length]; rewrite ?app_length; unfold nstr; try lia.
  - eapply lab_fields; eassumption.
  - eapply lab_sizes; eassumption.
Qed.
Lemma y_structLoop {WS : word} xs ts : derives_ginis xs ts -> forall F i node g rest a l', fine g -> gview g = ts ++ TSym cRC :: rest ->
  okFields (gnt g) i (clab (ge g)) node xs a l' -> (glen g < F)%nat -> yields (structLoop F i node g) g a l' (flat_map stringsG xs) (TSym cRC :: rest).
Proof.
  induction 1 as [x ts DG|x r tx tr DG C IH]; intros F i node g rest a l' I V OK LF; (destruct F as [|F]; [lia|]); cbn [structLoop].
  - inversion OK as [i0 l acc x0 b l2 IF OF NF|]; subst; [|contradiction]. rewrite (proj2 (isField_b _ _) IF).
    destruct (y_field _ _ _ _ _ _ _ I DG V (stop_rc _) OF) as (g1 & -> & I1 & S1 & L1 & O1 & V1). cbn [pbind].
    rewrite (y_not _ _ _ cCOMMA I1 V1) by (discriminate || reflexivity). rewrite (same_N _ _ S1).
    destruct ((i + 1 <? ntGetSize (gnt g)) && (scopeAt (gnt g) (i + 1) =? ScVOID)) eqn:B; [apply isField_b2 in B; contradiction|].
    exists g1. cbn [flat_map]. rewrite app_nil_r. auto 10.
  - inversion OK as [|i0 l acc x0 b l1 r0 y l2 IF OF NE OR]; subst; [inversion C|]. rewrite (proj2 (isField_b _ _) IF).
    rewrite <- app_assoc in V. cbn [app] in V.
    destruct (yields_len _ _ _ _ _ _ _ (y_field _ _ _ _ _ _ _ I DG V (stop_comma _) OF) (wp_fieldInit _ _)) as (g1 & -> & I1 & S1 & L1 & O1 & V1 & LN1). cbn [pbind].
    destruct (y_next _ _ _ I1 V1 ltac:(discriminate)) as (T2 & I2 & S2 & L2 & O2 & V2 & LN2).
    rewrite (gIsTok_yes _ _ T2). pose proof (same_tr _ _ _ S1 S2) as S12.
    destruct (IH F (i + 1) (catD node b) (gGetTok g1) rest a l' I2 V2) as (g3 & -> & I3 & S3 & L3 & O3 & V3); [|lia|].
    { rewrite (same_N _ _ S12), L2, L1. exact OR. }
    exists g3. split; [reflexivity|]. split; [exact I3|]. split; [exact (same_tr _ _ _ S12 S3)|]. split; [exact L3|]. split; [|exact V3].
    cbn [flat_map]. rewrite O3, O2, L2, O1, strOut_len, app_assoc. f_equal. f_equal. apply lab_field in OF. lia.
Qed.
Lemma y_structInit {WS : word} g x ts rest a l' : fine g -> curType g <= 0 -> derives_gini x ts -> gview g = ts ++ rest -> okIn (gnt g) (curType g) 0 (clab (ge g)) x a l' ->
  yields (getStructInit g) g a l' (stringsG x) rest.
Proof.
  intros I T DG V OK. unfold getStructInit. inversion OK; subst; try lia.
  - exfalso. match goal with H : base _ |- _ => apply base_b in H end. lia.
  - inversion DG; subst. cbn [app] in V. destruct (y_null _ _ I V) as (-> & _ & Y). exact Y.
  - inversion DG; subst. cbn [app] in V. rewrite <- app_assoc in V. cbn [app] in V.
    rewrite (y_not _ _ _ LxNUL I V) by (discriminate || reflexivity). destruct (y_next _ _ _ I V ltac:(discriminate)) as (T1 & I1 & S1 & L1 & O1 & V1 & LN1).
    rewrite (gChkTok_yes _ _ T1). cbn [pbind]. unfold getStructInit0. rewrite (same_T _ _ S1).
    match goal with H : derives_ginis xs ?t, K : okFields _ _ _ _ _ ?y _ |- _ => destruct (y_structLoop _ _ H (gfuel (gGetTok g)) (- curType g + 1) DNull (gGetTok g) rest y l' I1 V1) as (g2 & -> & I2 & S2 & L2 & O2 & V2);
      [rewrite (same_N _ _ S1), L1; exact K|unfold gfuel, fuelOf, glen, len; lia|] end. cbn [pbind].
    destruct (y_next _ _ _ I2 V2 ltac:(discriminate)) as (T3 & I3 & S3 & L3 & O3 & V3 & _). rewrite (gChkTok_yes _ _ T3). cbn [pbind].
    exists (gGetTok g2). split; [reflexivity|]. split; [exact I3|]. split; [exact (same_tr _ _ _ (same_tr _ _ _ S1 S2) S3)|]. split; [congruence|]. split; [|exact V3].
    rewrite O3, O2, O1, L1. reflexivity.
Qed.
Lemma y_items {WS : word} n t d item m xs ts : (forall g x ts rest a l', fine g -> gnt g = n -> curType g = t -> (glen g < m)%nat -> derives_gini x ts -> gview g = ts ++ rest -> stops 1 rest ->
    okIn n t d (clab (ge g)) x a l' -> yields (item g) g a l' (stringsG x) rest) -> (forall g, (glen g < m)%nat -> wp (item g) (eatS (glen g))) ->
  derives_ginis xs ts -> forall F acc g rest a l', fine g -> gnt g = n -> curType g = t -> gview g = ts ++ TSym cRC :: rest ->
  okIns n t d (clab (ge g)) acc xs a l' -> (glen g < m)%nat -> (glen g < F)%nat -> yields (itemLoop item F acc g) g a l' (flat_map stringsG xs) (TSym cRC :: rest).
Proof.
  intros HI HW. induction 1 as [x ts DG|x r tx tr DG C IH]; intros F acc g rest a l' I EN ET V OK LM LF; (destruct F as [|F]; [lia|]); cbn [itemLoop];
    inversion OK as [|d0 l acc0 x0 b l1 r0 y l2 OI OR]; subst d0 l acc0 x0 r0 y l2.
  - inversion OR; subst. destruct (HI g x ts (TSym cRC :: rest) b l' I eq_refl eq_refl LM DG V (stop_rc _) OI) as (g1 & -> & I1 & S1 & L1 & O1 & V1). cbn [pbind].
    rewrite (y_not _ _ _ cCOMMA I1 V1) by (discriminate || reflexivity). exists g1. cbn [flat_map]. rewrite app_nil_r. auto 10.
  - rewrite <- app_assoc in V. cbn [app] in V.
    destruct (yields_len _ _ _ _ _ _ _ (HI g x tx _ b l1 I EN ET LM DG V (stop_comma _) OI) (HW g LM)) as (g1 & -> & I1 & S1 & L1 & O1 & V1 & LN1). cbn [pbind].
    destruct (y_next _ _ _ I1 V1 ltac:(discriminate)) as (T2 & I2 & S2 & L2 & O2 & V2 & LN2).
    rewrite (gIsTok_yes _ _ T2). pose proof (same_tr _ _ _ S1 S2) as S12.
    destruct (IH F (catD acc b) (gGetTok g1) rest a l' I2) as (g3 & -> & I3 & S3 & L3 & O3 & V3); try lia.
    { rewrite (same_N _ _ S12). exact EN. } { rewrite (same_T _ _ S12). exact ET. } { exact V2. } { rewrite L2, L1. exact OR. }
    exists g3. split; [reflexivity|]. split; [exact I3|]. split; [exact (same_tr _ _ _ S12 S3)|]. split; [exact L3|]. split; [|exact V3].
    cbn [flat_map]. rewrite O3, O2, L2, O1, strOut_len, app_assoc. f_equal. f_equal. apply (proj1 (lab_in n t)) in OI. lia.
Qed.
Lemma wp_item {WS : word} t g : wp (getCnst t g) (eatS (glen g)).
Proof. apply wp_getCnst. Qed.
Lemma y_garray {WS : word} F : forall dim g x ts rest a l', fine g -> 0 < dim -> derives_gini x ts -> gview g = ts ++ rest -> stops 1 rest ->
  okIn (gnt g) (curType g) dim (clab (ge g)) x a l' -> (glen g < F)%nat -> yields (getGArrayInitF F dim g) g a l' (stringsG x) rest.
Proof.
  induction F as [|F IH]; intros dim g x ts rest a l' I DM DG V ST OK LF; [lia|]. cbn [getGArrayInitF]. inversion OK; subst; try lia.
  - inversion DG; subst. cbn [app] in V. destruct (y_null _ _ I V) as (E & _ & Y).
    rewrite (y_not _ _ _ cLC I V), (y_not _ _ _ LxARRAY I V) by (discriminate || reflexivity).
    destruct (gIsTok LxSTRING g) as [z|] eqn:Z.
    { exfalso. apply gIsTok_ok in Z. destruct Z as [Z _]. pose proof (head_sym _ _ _ (proj1 I) V) as T. unfold gtok in Z. rewrite T in Z. discriminate Z. }
    rewrite E. exact Y.
  - inversion DG; subst. cbn [app] in V. destruct (y_str _ _ _ I V ST) as (g1 & E & S1 & l & g2 & GS & -> & I2 & S2 & L2 & O2 & V2).
    rewrite (y_not _ _ _ cLC I V) by (discriminate || reflexivity). rewrite E, (same_T _ _ S1). match goal with H : _ = TyCHAR |- _ => rewrite H end.
    change (negb (TyCHAR =? TyCHAR) || negb (1 =? 1)) with false. cbn iota. rewrite GS. exists g2. auto 10.
  - inversion DG; subst. cbn [app] in V. rewrite <- app_assoc in V. cbn [app] in V.
    rewrite (y_not _ _ _ cLC I V) by (discriminate || reflexivity). destruct (y_next _ _ _ I V ltac:(discriminate)) as (T1 & I1 & S1 & L1 & O1 & V1 & LN1).
    destruct (gIsTok LxSTRING g) as [z|] eqn:Z.
    { exfalso. apply gIsTok_ok in Z. destruct Z as [Z _]. rewrite T1 in Z. discriminate Z. }
    rewrite (gIsTok_yes _ _ T1). rewrite <- (same_T _ _ S1).
    match goal with H : commas _ _ _, K : okSizes _ _ _ _ ?b _ |- _ => destruct (y_array (gGetTok g) ns _ rest dim b l' I1 H V1) as (g2 & -> & I2 & S2 & L2 & O2 & V2); [rewrite (same_N _ _ S1), L1; exact K|] end.
    exists g2. split; [reflexivity|]. split; [exact I2|]. split; [exact (same_tr _ _ _ S1 S2)|]. split; [exact L2|]. split; [|exact V2]. rewrite O2, O1, L1. reflexivity.
  - inversion DG; subst. cbn [app] in V. rewrite <- app_assoc in V. cbn [app] in V.
    destruct (y_next _ _ _ I V ltac:(discriminate)) as (T1 & I1 & S1 & L1 & O1 & V1 & LN1). rewrite (gIsTok_yes _ _ T1).
    unfold getGArrayInit0. rewrite (same_T _ _ S1). set (g1 := gGetTok g) in *. set (t := curType g) in *.
    assert (gnt g1 = gnt g) as N1 by exact (same_N _ _ S1). assert (curType g1 = t) as C1 by exact (same_T _ _ S1).
    match goal with H : derives_ginis _ ?u, K : okIns _ _ _ _ _ _ ?w _ |- _ => rename H into HG; rename K into HK; set (tx0 := u) in *; set (y0 := w) in * end.
    assert (exists item, (if dim <=? 1 then if t <=? 0 then itemLoop getStructInit (gfuel g1) DNull g1
        else if (t =? TyINT) || (t =? TyCHAR) || (t =? TyBOOL) then itemLoop (getCnst t) (gfuel g1) DNull g1 else PErr XBug
        else itemLoop (getGArrayInitF F (dim - 1)) (gfuel g1) DNull g1) = itemLoop item (gfuel g1) DNull g1 /\
      (forall h x ts rest a l', fine h -> gnt h = gnt g -> curType h = t -> (glen h < F)%nat -> derives_gini x ts -> gview h = ts ++ rest -> stops 1 rest ->
        okIn (gnt g) t (dim - 1) (clab (ge h)) x a l' -> yields (item h) h a l' (stringsG x) rest) /\
      (forall h, (glen h < F)%nat -> wp (item h) (eatS (glen h)))) as (item & EI & HI & HW).
    { destruct (Z.leb_spec dim 1) as [L|L].
      - replace (dim - 1) with 0 in * by lia.
        assert (t <= 0 \/ base t) as [TT|TT].
        { inversion HG; subst; inversion HK; subst; match goal with H : okIn _ _ _ _ _ _ _ |- _ => inversion H; subst; auto; lia end. }
        + destruct (Z.leb_spec t 0); [|lia]. exists getStructInit. split; [reflexivity|]. split; [|intros h _; apply wp_getStructInit].
          intros h x1 ts1 rest1 a1 l1 Ih En Et _ Dx Vx _ Ox. apply (y_structInit h x1 ts1); [exact Ih|rewrite Et; exact TT|exact Dx|exact Vx|rewrite En, Et; exact Ox].
        + destruct (base_b _ TT) as [B P]. destruct (Z.leb_spec t 0); [lia|]. rewrite B. exists (getCnst t). split; [reflexivity|]. split; [|intros h _; apply wp_getCnst].
          intros h x1 ts1 rest1 a1 l1 Ih En Et _ Dx Vx Sx Ox. inversion Ox; subst; try lia.
          inversion Dx; subst. eapply y_cnst; eauto. rewrite En. assumption.
      - exists (getGArrayInitF F (dim - 1)). split; [reflexivity|]. split; [|intros h Lh; apply wp_getGArrayInitF; exact Lh].
        intros h x1 ts1 rest1 a1 l1 Ih En Et Lh Dx Vx Sx Ox. apply (IH (dim - 1) h x1 ts1); [exact Ih|lia|exact Dx|exact Vx|exact Sx|rewrite En, Et; exact Ox|exact Lh]. }
    rewrite EI.
    destruct (y_items (gnt g) t (dim - 1) item F xs tx0 HI HW HG (gfuel g1) DNull g1 rest y0 l' I1 N1 C1 V1) as (g2 & -> & I2 & S2 & L2 & O2 & V2); [rewrite L1; exact HK|lia|unfold gfuel, fuelOf, glen, len; lia|].
    cbn [pbind]. destruct (y_next _ _ _ I2 V2 ltac:(discriminate)) as (T3 & I3 & S3 & L3 & O3 & V3 & _). rewrite (gChkTok_yes _ _ T3). cbn [pbind].
    rewrite (same_T _ _ S2), C1. exists (gGetTok g2). split; [reflexivity|]. split; [exact I3|]. split; [exact (same_tr _ _ _ (same_tr _ _ _ S1 S2) S3)|]. split; [congruence|]. split; [|exact V3].
    rewrite O3, O2, O1, L1. reflexivity.
Qed.
Lemma y_gini {WS : word} g x ts rest a l' : fine g -> 0 <= curDim g -> derives_gini x ts -> gview g = ts ++ rest -> stops 1 rest ->
  okIn (gnt g) (curType g) (curDim g) (clab (ge g)) x a l' ->
  yields (if 0 <? curDim g then getGArrayInit (curDim g) g
   else if (curType g =? TyINT) || (curType g =? TyCHAR) || (curType g =? TyBOOL) then getCnst (curType g) g
   else if curType g <=? 0 then getStructInit g else PErr XBug) g a l' (stringsG x) rest.
Proof.
  intros I D DG V ST OK. destruct (Z.ltb_spec 0 (curDim g)) as [L|L].
  - apply (y_garray _ _ _ _ ts); auto.
  - replace (curDim g) with 0 in OK by lia. assert (curType g <= 0 \/ base (curType g)) as [TT|TT] by (inversion OK; subst; auto; lia).
    + destruct (_ || _) eqn:B.
      { exfalso. apply orb_true_iff in B. destruct B as [B|B]; [apply orb_true_iff in B; destruct B as [B|B]|]; apply Z.eqb_eq in B; rewrite B in TT; unfold TyINT, TyCHAR, TyBOOL in TT; lia. }
      destruct (Z.leb_spec (curType g) 0); [|lia]. apply (y_structInit g x ts); assumption.
    + destruct (base_b _ TT) as [B P]. rewrite B. inversion OK; subst; try lia. inversion DG; subst. eapply y_cnst; eassumption.
Qed.
(* ==== names ==== *)
Lemma nameOk_yes krn g : nameOk krn g -> negb (curScope g =? ScPROT) && (curType g =? TyVOID) && (curDim g =? 0) = false /\
  negb (curScope g =? ScPROT) && (curType g =? TyINTR) = false /\ (curType g =? TyINTR) && negb krn = false.
Proof.
  intros [A B]. split; [|split].
  - destruct (Z.eqb_spec (curScope g) ScPROT); [reflexivity|]. destruct (A n) as [X _]. destruct (Z.eqb_spec (curType g) TyVOID); [|reflexivity]. destruct (Z.eqb_spec (curDim g) 0); [|reflexivity]. exfalso. auto.
  - destruct (Z.eqb_spec (curScope g) ScPROT); [reflexivity|]. destruct (A n) as [_ X]. destruct (Z.eqb_spec (curType g) TyINTR); [contradiction|reflexivity].
  - destruct (Z.eqb_spec (curType g) TyINTR) as [E|E]; [rewrite (B E); reflexivity|reflexivity].
Qed.
Lemma y_name krn pub g nm n' i c r : able g -> 0 <= curDim g -> gview g = TName nm :: TSym c :: r -> sign c = true -> nameOk krn g ->
  ntDefName (gnt g) nm (curScope g) (curType g) (curDim g) (curCnt g) pub = NOk (n', i) ->
  exists g', getName krn pub g = POk (i, g') /\ able g' /\ g' = wNt (wE g (ge g')) n' /\ clab (ge g') = clab (ge g) /\ outp (ge g') = outp (ge g) /\
    gview g' = TSym c :: r /\ (glen g' < glen g)%nat.
Proof.
  intros [[G D] S] DG V SG NO DN. destruct (next_val _ _ _ _ G V SG ltac:(discriminate)) as (it & O & T & G1 & V1 & ST & _ & L).
  apply own_val in O. destruct O as [O1 O2]. rewrite O1 in T. unfold getName. rewrite gChkTok_yes by exact T. cbn [pbind].
  unfold gGetTok. gcbn. destruct (nameOk_yes _ _ NO) as (-> & -> & ->). rewrite ST, O2, DN.
  eexists. split; [reflexivity|]. split; [split; [split; gcbn; [exact G1|exact (dims_def _ _ _ _ _ _ _ _ _ DN DG D)]|exact (sep_def _ _ _ _ _ _ _ _ _ DN S)]|].
  gcbn. split; [reflexivity|]. split; [apply getTok_lab|]. split; [apply getTok_out|]. split; [exact V1|exact L].
Qed.
Lemma y_type g t d rest : able g -> gview g = tyTok t :: brackets d ++ rest -> (forall r, rest <> TSym cLB :: r) -> tyCode (gnt g) t <> TyNON ->
  exists g', gGetType g = POk g' /\ able g' /\ g' = wDim (wType (wE g (ge g')) (tyCode (gnt g) t)) (Z.of_nat d) /\ clab (ge g') = clab (ge g) /\ outp (ge g') = outp (ge g) /\
    gview g' = rest /\ (glen g' < glen g)%nat.
Proof.
  intros [[G D] S] V NB N.
  assert (exists g', gGetType g = POk g' /\ able g' /\ g' = wDim (wType (wE g (ge g')) (tyCode (gnt g) t)) (Z.of_nat d) /\ clab (ge g') = clab (ge g) /\ outp (ge g') = outp (ge g) /\ gview g' = rest)
    as (g' & E & A & Q & L & O & W).
  { unfold gGetType, getType. rewrite (typeOf_tok _ _ _ _ G V).
    destruct (Z.eqb_spec (tyCode (gnt g) t) TyNON); [contradiction|].
    destruct (next_tok _ _ _ G V ltac:(destruct t; discriminate)) as (G1 & V1).
    destruct (dims_complete d (fuelOf (getTok (ge g))) 0 _ rest G1 V1 NB ltac:(unfold fuelOf; lia)) as (s & E & G2 & V2 & L & O).
    rewrite E. cbn [pbind]. eexists. split; [reflexivity|]. rewrite getTok_lab in L. rewrite getTok_out in O.
    split; [split; [split; gcbn; assumption|exact S]|]. gcbn. split; [reflexivity|]. auto. }
  exists g'. repeat (split; [assumption|]). pose proof (wp_gGetType g) as WP. rewrite E in WP. exact WP.
Qed.

Section Top.
Variables opt krn : bool.
(* ==== structs ==== *)
Definition fstate (g : gs) : Prop := able g /\ 0 <= curDim g /\ curScope g = ScFLD.
Definition more {A} (f : A -> list stok) (l : list A) : list stok := flat_map (fun n => TSym cCOMMA :: f n) l.
Lemma commas_more {A} (der : A -> list stok -> Prop) (f : A -> list stok) : (forall x ts, der x ts -> ts = f x) ->
  forall l ts, commas der l ts -> exists x r, l = x :: r /\ ts = f x ++ more f r.
Proof.
  intros H l ts C. induction C as [x ts D|x r tx tr D C (y & q & -> & ->)].
  - exists x, []. split; [reflexivity|]. rewrite (H _ _ D). cbn. symmetry. apply app_nil_r.
  - exists x, (y :: q). split; [reflexivity|]. rewrite (H _ _ D). reflexivity.
Qed.
Lemma y_nameCnt g nm n1 i c r : fstate g -> gview g = TName nm :: TSym c :: r -> sign c = true -> ~ (curType g = TyVOID /\ curDim g = 0) -> curType g <> TyINTR ->
  ntDefName (gnt g) nm ScFLD (curType g) (curDim g) (curCnt g) false = NOk (n1, i) ->
  exists g', nameCnt krn g = POk g' /\ fstate g' /\ g' = wCnt (wNt (wE g (ge g')) n1) (curCnt g + 1) /\ clab (ge g') = clab (ge g) /\ outp (ge g') = outp (ge g) /\
    gview g' = TSym c :: r /\ (glen g' < glen g)%nat.
Proof.
  intros (A & D & S) V SG NV NI DN. destruct (y_name krn false g nm n1 i c r A D V SG) as (g1 & E & A1 & Q & L & O & V1 & LN).
  { split; [intros _; auto|intros X; contradiction]. } { rewrite S. exact DN. }
  unfold nameCnt. rewrite E. cbn [pbind]. eexists. split; [reflexivity|].
  assert (curDim g1 = curDim g /\ curScope g1 = curScope g /\ curCnt g1 = curCnt g) as (K1 & K2 & K3) by (rewrite Q; gcbn; auto).
  split; [split; [exact A1|gcbn; split; congruence]|]. split; [rewrite K3; rewrite Q at 1; reflexivity|]. gcbn. auto.
Qed.
Lemma y_fieldNames ns : forall F g rest n' c', fstate g -> gview g = more (fun n => [TName n]) ns ++ TSym cSEMI :: rest -> ~ (curType g = TyVOID /\ curDim g = 0) -> curType g <> TyINTR ->
  okNames (curType g) (curDim g) (gnt g) (curCnt g) ns n' c' -> (glen g < F)%nat ->
  exists g', fieldNames krn F g = POk g' /\ fstate g' /\ g' = wCnt (wNt (wE g (ge g')) n') c' /\ clab (ge g') = clab (ge g) /\ outp (ge g') = outp (ge g) /\ gview g' = TSym cSEMI :: rest.
Proof.
  induction ns as [|nm ns IH]; intros F g rest n' c' A V NV NI OK LF; (destruct F as [|F]; [lia|]); cbn [fieldNames].
  - cbn [more flat_map app] in V. rewrite (y_not _ _ _ cCOMMA (proj1 (proj1 A)) V) by (discriminate || reflexivity). inversion OK; subst.
    exists g. split; [reflexivity|]. split; [exact A|]. split; [destruct g; reflexivity|]. auto.
  - unfold more in V. cbn [flat_map app] in V. fold (more (fun n => [TName n]) ns) in V.
    destruct (y_next _ _ _ (proj1 (proj1 A)) V ltac:(discriminate)) as (T1 & I1 & S1 & L1 & O1 & V1 & LN1). rewrite (gIsTok_yes _ _ T1).
    assert (fstate (gGetTok g)) as A1 by (split; [split; [exact I1|rewrite (same_N _ _ S1); exact (proj2 (proj1 A))]|exact (proj2 A)]).
    inversion OK; subst.
    assert (exists c r, more (fun n => [TName n]) ns ++ TSym cSEMI :: rest = TSym c :: r /\ sign c = true) as (c & r & EV & SG) by (destruct ns; cbn; eauto).
    rewrite EV in V1. match goal with H : ntDefName _ _ _ _ _ _ _ = _ |- _ => destruct (y_nameCnt (gGetTok g) nm n1 i c r A1 V1 SG NV NI H) as (g2 & -> & A2 & Q2 & L2 & O2 & V2 & LN2) end. cbn [pbind].
    assert (curType g2 = curType g /\ curDim g2 = curDim g /\ gnt g2 = n1 /\ curCnt g2 = curCnt g + 1) as (K1 & K2 & K3 & K4) by (rewrite Q2; unfold gGetTok; gcbn; auto).
    rewrite <- EV in V2. destruct (IH F g2 rest n' c' A2 V2) as (g3 & E3 & A3 & Q3 & L3 & O3 & V3).
    { rewrite K1, K2. exact NV. } { rewrite K1. exact NI. } { rewrite K1, K2, K3, K4. assumption. } { lia. }
    exists g3. split; [exact E3|]. split; [exact A3|]. split; [rewrite Q3, Q2; unfold gGetTok; reflexivity|]. split; [congruence|]. split; [congruence|exact V3].
Qed.
Lemma y_fieldLine f ts g rest n' c' : fstate g -> derives_fline f ts -> gview g = ts ++ rest -> varType (tyCode (gnt g) (flT f)) (Z.of_nat (flD f)) ->
  okNames (tyCode (gnt g) (flT f)) (Z.of_nat (flD f)) (gnt g) (curCnt g) (flN f) n' c' ->
  exists g', getFieldLine krn g = POk g' /\ fstate g' /\ (exists ty, g' = wCnt (wNt (wDim (wType (wE g (ge g')) ty) (Z.of_nat (flD f))) n') c') /\
    clab (ge g') = clab (ge g) /\ outp (ge g') = outp (ge g) /\ gview g' = rest.
Proof.
  intros A DF V (NN & NI & NV) OK. destruct DF as [t d ns tn C]. cbn [flT flD flN] in *. destruct (commas_more derives_name (fun n => [TName n]) (fun x ts H => H) _ _ C) as (nm & ms & -> & ->).
  cbn [app] in V. repeat (rewrite <- app_assoc in V; cbn [app] in V).
  unfold getFieldLine. destruct (y_type g t d _ (proj1 A) V ltac:(discriminate) NN) as (g1 & -> & A1 & Q1 & L1 & O1 & V1 & LN1). cbn [pbind].
  assert (curType g1 = tyCode (gnt g) t /\ curDim g1 = Z.of_nat d /\ gnt g1 = gnt g /\ curCnt g1 = curCnt g /\ curScope g1 = curScope g) as (K1 & K2 & K3 & K4 & K5) by (rewrite Q1; gcbn; auto 8).
  assert (fstate g1) as F1 by (split; [exact A1|split; [lia|rewrite K5; exact (proj2 (proj2 A))]]).
  assert (exists c r, more (fun n => [TName n]) ms ++ TSym cSEMI :: rest = TSym c :: r /\ sign c = true) as (c & r & EV & SG) by (destruct ms; cbn; eauto).
  rewrite EV in V1. inversion OK; subst.
  match goal with H : ntDefName _ _ _ _ _ _ _ = _ |- _ => destruct (y_nameCnt g1 nm n1 i c r F1 V1 SG) as (g2 & -> & F2 & Q2 & L2 & O2 & V2 & LN2);
    [rewrite K1, K2; exact NV|rewrite K1; exact NI|rewrite K1, K2, K3, K4; exact H|] end. cbn [pbind].
  assert (curType g2 = curType g1 /\ curDim g2 = curDim g1 /\ gnt g2 = n1 /\ curCnt g2 = curCnt g + 1) as (M1 & M2 & M3 & M4) by (rewrite Q2; gcbn; rewrite K4; auto).
  rewrite <- EV in V2. destruct (y_fieldNames ms (gfuel g2) g2 rest n' c' F2 V2) as (g3 & -> & F3 & Q3 & L3 & O3 & V3).
  { rewrite M1, M2, K1, K2. exact NV. } { rewrite M1, K1. exact NI. } { rewrite M1, M2, M3, M4, K1, K2. assumption. } { unfold gfuel, fuelOf, glen, len. lia. }
  cbn [pbind]. destruct (y_next _ _ _ (proj1 (proj1 F3)) V3 ltac:(discriminate)) as (T4 & I4 & S4 & L4 & O4 & V4 & LN4). rewrite (gChkTok_yes _ _ T4).
  eexists. split; [reflexivity|]. split.
  { split; [split; [exact I4|rewrite (same_N _ _ S4); exact (proj2 (proj1 F3))]|]. destruct (same_fields _ _ S4) as (_ & _ & -> & -> & _). exact (proj2 F3). }
  split; [exists (tyCode (gnt g) t); rewrite S4, Q3, Q2, Q1; reflexivity|]. split; [congruence|]. split; [congruence|exact V4].
Qed.
Lemma y_fieldLines fs ts : (fs = [] /\ ts = [] \/ derives_flines fs ts) -> forall F g rest n' c' d', fstate g -> gview g = ts ++ TSym cRC :: rest ->
  okFlines (gnt g) (curCnt g) (curDim g) fs n' c' d' -> (glen g < F)%nat ->
  exists g', fieldLines krn F g = POk g' /\ fstate g' /\ (exists ty, g' = wCnt (wNt (wDim (wType (wE g (ge g')) ty) d') n') c') /\
    clab (ge g') = clab (ge g) /\ outp (ge g') = outp (ge g) /\ gview g' = rest.
Proof.
  revert ts. induction fs as [|f fs IH]; intros ts HD F g rest n' c' d' A V OK LF; (destruct F as [|F]; [lia|]); cbn [fieldLines].
  - destruct HD as [[_ ->]|HD]; [|inversion HD]. cbn [app] in V. destruct (y_next _ _ _ (proj1 (proj1 A)) V ltac:(discriminate)) as (T1 & I1 & S1 & L1 & O1 & V1 & LN1).
    rewrite (gIsTok_yes _ _ T1). inversion OK; subst. eexists. split; [reflexivity|].
    split; [split; [split; [exact I1|exact (proj2 (proj1 A))]|exact (proj2 A)]|]. split; [exists (curType g); unfold gGetTok; destruct g; reflexivity|]. auto.
  - destruct HD as [[X _]|HD]; [discriminate X|].
    assert (exists tf tr, ts = tf ++ tr /\ derives_fline f tf /\ (fs = [] /\ tr = [] \/ derives_flines fs tr)) as (tf & tr & -> & DF & DR).
    { inversion HD; subst; [exists ts, []; rewrite app_nil_r; auto|eauto 10]. }
    rewrite <- app_assoc in V.
    assert (exists t r, tf = tyTok t :: r) as (t & r & ETF) by (destruct DF; eauto).
    assert (gIsTok cRC g = None) as NT.
    { eapply y_not; [exact (proj1 (proj1 A))|rewrite ETF in V; exact V|destruct t; discriminate|reflexivity]. }
    rewrite NT. inversion OK as [|n c d0 t0 d ns r0 n1 c1 n2 c2 d2 VT ON OR]; subst f n c d0 r0 n2 c2 d2.
    destruct (y_fieldLine _ _ g _ n1 c1 A DF V VT ON) as (g1 & E1 & F1 & (ty & Q1) & L1 & O1 & V1). rewrite E1. cbn [pbind].
    pose proof (wp_getFieldLine krn g) as WP. rewrite E1 in WP.
    assert (gnt g1 = n1 /\ curCnt g1 = c1 /\ curDim g1 = Z.of_nat d) as (K1 & K2 & K3) by (rewrite Q1; gcbn; auto).
    destruct (IH tr DR F g1 rest n' c' d' F1 V1) as (g2 & E2 & F2 & (ty2 & Q2) & L2 & O2 & V2).
    { rewrite K1, K2, K3. exact OR. } { unfold wp, eatG in WP. lia. }
    exists g2. split; [exact E2|]. split; [exact F2|]. split; [exists ty2; rewrite Q2, Q1; reflexivity|]. split; [congruence|]. split; [congruence|exact V2].
Qed.
Lemma in_upd (f : entry -> entry) : forall (l : table) k x, In x (upd f l k) -> In x l \/ exists y, nth_error l k = Some y /\ x = f y.
Proof.
  induction l as [|y l IH]; intros [|k] x H; cbn [upd] in H; try contradiction.
  - destruct H as [<-|H]; [right; exists y; auto|left; right; exact H].
  - destruct H as [<-|H]; [left; left; reflexivity|]. destruct (IH k x H) as [K|(z & K & E)]; [left; right; exact K|right; exists z; auto].
Qed.
Lemma sep_setCnt t i c : sep t -> sep (ntSetCnt t i c).
Proof.
  intros S a b A B SA SB. unfold ntSetCnt in A, B.
  assert (forall x, In x (upd (fun e => Ent (nName e) (nScope e) (nType e) (nDim e) c (nPub e)) t (Z.to_nat i)) -> exists y, In y t /\ nName y = nName x /\ nScope y = nScope x) as K.
  { intros x X. apply in_upd in X. destruct X as [X|(y & Y & ->)]; [exists x; auto|]. exists y. split; [exact (nth_error_In _ _ Y)|]. auto. }
  destruct (K a A) as (a' & A' & NA & CA). destruct (K b B) as (b' & B' & NB & CB). rewrite <- NA, <- NB. apply S; congruence.
Qed.
Lemma sep_setScope t i s : sep t -> ScPROT <= s -> ScPROT <= scopeAt t i -> sep (ntSetScope t i s).
Proof.
  intros S P Q a b A B SA SB. unfold ntSetScope in A, B.
  assert (forall x, In x (upd (fun e => Ent (nName e) s (nType e) (nDim e) (nCnt e) (nPub e)) t (Z.to_nat i)) -> exists y, In y t /\ nName y = nName x /\
    (nScope y = nScope x \/ ScPROT <= nScope x /\ ScPROT <= nScope y)) as K.
  { intros x X. apply in_upd in X. destruct X as [X|(y & Y & ->)]; [exists x; auto|]. exists y. split; [exact (nth_error_In _ _ Y)|]. cbn [nName nScope]. split; [reflexivity|]. right. split; [exact P|].
    unfold scopeAt, ent in Q. destruct (Z.ltb_spec i 0); [exfalso; revert Q; unfold ScPROT, ScVOID; cbn; lia|]. rewrite Y in Q. exact Q. }
  destruct (K a A) as (a' & A' & NA & CA). destruct (K b B) as (b' & B' & NB & CB). rewrite <- NA, <- NB. apply S; auto.
  - destruct CA as [CA|[CA _]]; [congruence|]. rewrite SA in CA. unfold ScSTRC, ScPROT in CA. lia.
  - destruct CB as [CB|[_ CB]]; [congruence|exact CB].
Qed.
Lemma sep_undef t i : sep t -> sep (ntUndefName t i).
Proof.
  intros S a b A B. unfold ntUndefName in A, B. assert (forall k (x : entry), In x (firstn k t) -> In x t) as K.
  { intros k x X. rewrite <- (firstn_skipn k t). apply in_app_iff. auto. }
  apply S; eapply K; eassumption.
Qed.
Lemma flines_split fs ts : derives_flines fs ts -> exists f r tf tr, fs = f :: r /\ ts = tf ++ tr /\ derives_fline f tf /\ (r = [] /\ tr = [] \/ derives_flines r tr).
Proof.
  intros H. destruct H as [f ts H|f r tf tr H K].
  - exists f, [], ts, []. rewrite app_nil_r. auto 10.
  - exists f, r, tf, tr. auto 10.
Qed.
Definition atRest (g : gs) : Prop := able g /\ 0 <= curDim g /\ depth g = 0.
Lemma y_struct n nm i g fs ts rst n2 c2 d2 : atRest g -> ntDefName n nm ScSTRC TySTRUC (curDim g) (curCnt g) false = NOk (gnt g, i) -> derives_flines fs ts ->
  gview g = TSym cLC :: ts ++ TSym cRC :: TSym cSEMI :: rst -> okFlines (gnt g) 0 (curDim g) fs n2 c2 d2 ->
  exists g', getStruct krn g = POk g' /\ atRest g' /\ gview g' = rst /\
    topOf g' = TEnv (ntSetCnt (ntSetVoid n2 (i + 1)) i (ntGetSize n2 - i - 1)) (clab (ge g)) c2 d2 (brkLab g) (cntLab g) (outp (ge g)).
Proof.
  intros (A & D & DP) DN DF V OK. destruct (def_app _ _ _ _ _ _ _ _ _ DN) as [EN EI]. unfold getStruct.
  destruct (y_next _ _ _ (proj1 A) V ltac:(discriminate)) as (T1 & I1 & S1 & L1 & O1 & V1 & LN1). rewrite (gChkTok_yes _ _ T1). cbn [pbind]. cbv zeta.
  set (g1 := wCnt (wScope (gGetTok g) ScFLD) 0). assert (fstate g1) as F1 by (split; [split; [exact I1|exact (proj2 A)]|split; [exact D|reflexivity]]).
  assert (ntGetSize (gnt (gGetTok g)) = i + 1) as SZ. { change (gnt (gGetTok g)) with (gnt g). rewrite EN, EI, StmtSound.size_app. reflexivity. }
  rewrite SZ. clear SZ.
  destruct (flines_split _ _ DF) as (f & r & tf & tr & -> & -> & D1 & DR).
  rewrite <- app_assoc in V1.
  inversion OK as [|n0 c d0 t0 d ns r0 n1 c1 n3 c3 d3 VT ON OR]; subst f n0 c d0 r0 n3 c3 d3.
  destruct (y_fieldLine _ _ g1 _ n1 c1 F1 D1 V1 VT ON) as (g2 & -> & F2 & (ty & Q2) & L2 & O2 & V2). cbn [pbind flD] in *.
  assert (gnt g2 = n1 /\ curCnt g2 = c1 /\ curDim g2 = Z.of_nat d) as (K1 & K2 & K3) by (rewrite Q2; gcbn; auto).
  destruct (y_fieldLines r tr DR (gfuel g2) g2 (TSym cSEMI :: rst) n2 c2 d2 F2 V2) as (g3 & -> & F3 & (ty3 & Q3) & L3 & O3 & V3).
  { rewrite K1, K2, K3. exact OR. } { unfold gfuel, fuelOf, glen, len. lia. }
  cbn [pbind]. destruct (y_next _ _ _ (proj1 (proj1 F3)) V3 ltac:(discriminate)) as (T4 & I4 & S4 & L4 & O4 & V4 & LN4). rewrite (gChkTok_yes _ _ T4). cbn [pbind].
  eexists. split; [reflexivity|]. change (gnt (gGetTok g3)) with (gnt g3).
  assert (gnt g3 = n2 /\ curCnt g3 = c2 /\ curDim g3 = d2 /\ depth g3 = depth g /\ brkLab g3 = brkLab g /\ cntLab g3 = cntLab g) as (M1 & M2 & M3 & M4 & M5 & M6)
    by (rewrite Q3, Q2; unfold g1, gGetTok; gcbn; auto 10).
  destruct F3 as ((I3 & S3) & D3 & _). rewrite M1 in *. split.
  { split; [split; [split; [exact (proj1 I4)|gcbn; apply dims_setCnt, dims_setVoid; rewrite <- M1; exact (proj2 I3)]|gcbn; apply sep_setCnt, sep_void; exact S3]|].
    unfold gGetTok. gcbn. split; [lia|congruence]. }
  split; [exact V4|]. unfold topOf, gGetTok. gcbn. rewrite getTok_lab, getTok_out, M2, M3, M5, M6.
  replace (clab (ge g3)) with (clab (ge g)) by (rewrite L3, L2; symmetry; exact L1). replace (outp (ge g3)) with (outp (ge g)) by (rewrite O3, O2; symmetry; exact O1).
  f_equal. replace (i + 1 - 1) with i by lia. f_equal. rewrite StmtSound.size_setVoid. lia.
Qed.
(* ==== global variables ==== *)
Lemma agrees_no n i t d pub : agrees n i t d pub -> negb (typeAt n i =? t) || negb (dimAt n i =? d) || negb (Bool.eqb (pubAt n i) pub) = false.
Proof. intros (-> & -> & ->). rewrite !Z.eqb_refl, Bool.eqb_reflx. reflexivity. Qed.
Lemma y_gvar pub T nm oi ts g rest T' : newVar pub T nm g -> sep (tN T) -> derives_gvar (nm, oi) (TName nm :: ts) -> gview g = ts ++ rest -> stops 1 rest ->
  okGVar (curType g) (curDim g) pub T (nm, oi) T' ->
  exists g', getGVar g = POk g' /\ able g' /\ keep g g' /\ curType g' = curType g /\ curDim g' = curDim g /\ topOf g' = T' /\ gview g' = rest.
Proof.
  intros [I D P DN ET] SP DG V ST OK. destruct T as [n l c k b kk o]. cbn [tN tC] in *. injection ET as EL EC EK EB EKK EO. subst l c k b kk o.
  destruct (def_app _ _ _ _ _ _ _ _ _ DN) as [EN _]. unfold getGVar. cbv zeta. rewrite EN. rewrite size_snoc, srcGlob_snoc. cbn [nName].
  assert (forall i, prior n nm = Some i -> 0 <= i < ntGetSize n) as PL by (intros i; apply prior_lt).
  assert (dimsOk n) as DN0. { destruct I as [_ DI]. rewrite EN in DI. apply dimsOk_app in DI. apply DI. }
  inversion DG as [|? x tx DI]; subst.
  - (* no value *)
    cbn [app] in V. assert (gIsTok cEQ g = None) as NE.
    { destruct ST as (cc & r & -> & SG & NC). destruct (stops1_sign cc r) as [_ NE]; [exists cc, r; auto|]. apply (y_not _ _ _ cEQ I V); [|reflexivity]. intros X. injection X as X. contradiction. }
    rewrite NE. inversion OK as [? ? ? ? ? ? ? ? n1 ci DN1 PR|? ? ? ? ? ? ? ? n1 ci i DN1 PR SC AG| |]; subst.
    + rewrite PR. change (0 <=? -1) with false. cbn iota. cbn [pbind andb perr_if].
      rewrite DN in DN1. injection DN1 as <- <-. eexists. split; [reflexivity|].
      split; [split; [exact I|exact (sep_def _ _ _ _ _ _ _ _ _ DN SP)]|]. split; [repeat split|]. split; [reflexivity|]. split; [reflexivity|]. split; [reflexivity|first [exact V|reflexivity]].
    + rewrite PR. pose proof (PL i PR) as PI. destruct (Z.leb_spec 0 i) as [_|]; [|lia]. rewrite ProgInv.scopeAt_app_l, undef_snoc by lia.
      assert ((scopeAt n i =? ScCOMM) || (scopeAt n i =? ScGVAR) = true) as -> by (destruct SC as [-> | ->]; reflexivity). cbn [pbind andb]. gcbn.
      rewrite (agrees_no _ _ _ _ _ AG). cbn [perr_if pbind]. eexists. split; [reflexivity|].
      split; [split; [split; [exact (proj1 I)|exact DN0]|exact SP]|]. split; [repeat split|]. split; [reflexivity|]. split; [reflexivity|]. split; [reflexivity|first [exact V|reflexivity]].
  - cbn [app] in V. destruct (y_next _ _ _ I V ltac:(discriminate)) as (T1 & I1 & S1 & L1 & O1 & V1 & LN1). rewrite (gIsTok_yes _ _ T1).
    change (gnt (gGetTok g)) with (gnt g). rewrite EN, setScope_snoc. cbn [nName nType nDim nCnt nPub].
    set (n1 := n ++ [Ent nm ScGVAR (curType g) (curDim g) (curCnt g) (pubFlag g)]). set (g2 := wNt (gGetTok g) n1).
    assert (fine g2) as I2. { split; [exact (proj1 I1)|]. unfold g2. gcbn. unfold n1. apply dimsOk_app. split; [exact DN0|]. constructor; [exact D|constructor]. }
    assert (ntDefName n nm ScGVAR (curType g) (curDim g) (curCnt g) (pubFlag g) = NOk (n1, ntGetSize n)) as DN1 by (apply (def_glob _ _ ScCOMM ScGVAR _ _ _ _ _ _ ltac:(change ScLVAR with 4; change ScCOMM with 2; lia) ltac:(change ScLVAR with 4; change ScGVAR with 3; lia) DN)).
    assert (exists a l1 code l2, okIn n1 (curType g) (curDim g) (clab (ge g)) x a l1 /\ genData (ntGetSize n) (curDim g) a l1 = Some (code, l2) /\
      ((prior n nm = None /\ T' = TEnv n1 l2 (curCnt g) (curDim g) (brkLab g) (cntLab g) (outp (ge g) ++ strOut (clab (ge g)) (stringsG x) ++ code)) \/
       exists i, prior n nm = Some i /\ scopeAt n i = ScCOMM /\ agrees n i (curType g) (curDim g) (pubFlag g) /\
         T' = TEnv (ntSetScope n i ScGVAR) l2 (curCnt g) (curDim g) (brkLab g) (cntLab g) (outp (ge g) ++ strOut (clab (ge g)) (stringsG x) ++ code))) as (a & l1 & code & l2 & OI & GD & CS).
    { inversion OK as [| |? ? ? ? ? ? ? ? m ci ? a l1 code l2 DM PR OI GD|? ? ? ? ? ? ? ? m ci i ? a l1 code l2 DM PR SC AG OI GD]; subst;
        rewrite DN1 in DM; injection DM as <- <-; exists a, l1, code, l2; (split; [exact OI|split; [exact GD|]]); [left; auto|right; exists i; auto]. }
    clear OK. destruct (y_gini g2 x tx rest a l1 I2 D DI V1 ST) as (g3 & E3 & I3 & S3 & L3 & O3 & V3).
    { change (clab (ge g2)) with (clab (ge (gGetTok g))). rewrite L1. exact OI. }
    rewrite E3. cbn [pbind]. rewrite (same_N _ _ S3). change (gnt g2) with n1. replace (dimAt n1 (ntGetSize n)) with (curDim g) by (unfold n1; rewrite dimAt_snoc; reflexivity).
    rewrite L3, GD. gcbn. destruct (same_fields _ _ S3) as (N3 & CT3 & CD3 & CS3 & CC3). change (gnt g2) with n1 in N3. change (curType g2) with (curType g) in CT3. change (curDim g2) with (curDim g) in CD3.
    change (curScope g2) with (curScope g) in CS3. change (curCnt g2) with (curCnt g) in CC3. pose proof (same_keep _ _ S3) as (K1 & K2 & K3 & K4 & K5).
    change (pubFlag g2) with (pubFlag g) in K2. change (depth g2) with (depth g) in K3. change (brkLab g2) with (brkLab g) in K4. change (cntLab g2) with (cntLab g) in K5.
    assert (outp (ge g3) = outp (ge g) ++ strOut (clab (ge g)) (stringsG x)) as OO. { rewrite O3. change (outp (ge g2)) with (outp (ge (gGetTok g))). change (clab (ge g2)) with (clab (ge (gGetTok g))). rewrite O1, L1. reflexivity. }
    destruct CS as [(PR & ->)|(i & PR & SC & AG & ->)]; rewrite PR.
    + change (0 <=? -1) with false. cbn iota. cbn [pbind andb perr_if]. eexists. split; [reflexivity|].
      split; [split; [exact I3|gcbn; rewrite N3; exact (sep_def _ _ _ _ _ _ _ _ _ DN1 SP)]|]. split; [repeat split; assumption|]. gcbn. split; [exact CT3|]. split; [exact CD3|]. split; [|exact V3].
      unfold topOf. gcbn. cbn [clab outp]. rewrite N3, CC3, CD3, K4, K5, OO, <- app_assoc. reflexivity.
    + pose proof (PL i PR) as PI. destruct (Z.leb_spec 0 i) as [_|]; [|lia]. rewrite N3.
      replace (scopeAt n1 i) with (scopeAt n i) by (unfold n1; rewrite ProgInv.scopeAt_app_l by lia; reflexivity). rewrite SC. change (negb (ScCOMM =? ScCOMM)) with false. cbn iota. cbn [pbind andb].
      unfold n1. rewrite setScope_app by lia. rewrite <- (size_setScope n i ScGVAR), undef_snoc. gcbn.
      rewrite CT3, CD3, K2, (agrees_no _ _ _ _ _ (proj2 (agrees_setScope n i ScGVAR i _ _ _) AG)). cbn [perr_if pbind]. eexists. split; [reflexivity|].
      split; [split; [split; [exact (proj1 I3)|apply dims_setScope; exact DN0]|]|].
      { gcbn. apply sep_setScope; [exact SP|unfold ScPROT, ScGVAR; lia|rewrite SC; unfold ScPROT, ScCOMM; lia]. }
      split; [repeat split; assumption|]. gcbn. split; [exact CT3|]. split; [exact CD3|]. split; [|exact V3].
      unfold topOf. gcbn. cbn [clab outp]. rewrite CC3, CD3, K4, K5, OO, <- app_assoc. reflexivity.
Qed.
Lemma y_newVar pub g nm c r n1 i : able g -> 0 <= curDim g -> curScope g = ScCOMM -> pubFlag g = pub -> gview g = TName nm :: TSym c :: r -> sign c = true -> 
  ~ (curType g = TyVOID /\ curDim g = 0) -> curType g <> TyINTR -> ntDefName (gnt g) nm ScCOMM (curType g) (curDim g) (curCnt g) pub = NOk (n1, i) ->
  exists g', getName krn pub g = POk (i, g') /\ newVar pub (topOf g) nm g' /\ curScope g' = ScCOMM /\ curType g' = curType g /\ curDim g' = curDim g /\ depth g' = depth g /\
    gview g' = TSym c :: r /\ (glen g' < glen g)%nat.
Proof.
  intros A D S P V SG NV NI DN. destruct (y_name krn pub g nm n1 i c r A D V SG) as (g1 & E & A1 & Q & L & O & V1 & LN).
  { split; [intros _; auto|intros X; contradiction]. } { rewrite S. exact DN. }
  assert (curType g1 = curType g /\ curDim g1 = curDim g /\ curScope g1 = curScope g /\ pubFlag g1 = pubFlag g /\ gnt g1 = n1 /\ curCnt g1 = curCnt g /\ brkLab g1 = brkLab g /\ cntLab g1 = cntLab g /\ depth g1 = depth g)
    as (K1 & K2 & K3 & K4 & K5 & K6 & K7 & K8 & K9) by (rewrite Q; gcbn; auto 12).
  exists g1. split; [exact E|]. split; [|split; [congruence|auto 8]]. destruct (def_app _ _ _ _ _ _ _ _ _ DN) as [_ EI]. constructor.
  - exact (proj1 A1).
  - lia.
  - congruence.
  - unfold topOf. cbn [tN tC]. rewrite K1, K2, K5, <- EI. exact DN.
  - unfold topOf. cbn [tN]. rewrite L, O, K2, K6, K7, K8. reflexivity.
Qed.
Lemma okGVar_def t d pub T nm oi T' : okGVar t d pub T (nm, oi) T' -> exists n1 i, ntDefName (tN T) nm ScCOMM t d (tC T) pub = NOk (n1, i).
Proof.
  intros H. inversion H; subst; cbn [tN tC]; eauto.
  - eexists. eexists. eapply (def_glob _ _ ScGVAR ScCOMM _ _ _ _ _ _ ltac:(change ScLVAR with 4; change ScGVAR with 3; lia) ltac:(change ScLVAR with 4; change ScCOMM with 2; lia)); eassumption.
  - eexists. eexists. eapply (def_glob _ _ ScGVAR ScCOMM _ _ _ _ _ _ ltac:(change ScLVAR with 4; change ScGVAR with 3; lia) ltac:(change ScLVAR with 4; change ScCOMM with 2; lia)); eassumption.
Qed.
Definition moreV (vs : list (list Z * option gini)) (ts : list stok) : Prop := moreC derives_gvar vs ts.
Lemma moreV_head vs ts rest : moreV vs ts -> stops 1 (ts ++ TSym cSEMI :: rest).
Proof. intros [[-> ->]|(tr & -> & _)]; cbn [app]; [apply (stops_le 0); [lia|apply stops_semi]|apply stop_comma]. Qed.
Lemma gvar_toks nm oi ts : derives_gvar (nm, oi) ts -> exists r, ts = TName nm :: r /\ forall rest, stops 1 rest -> exists c q, r ++ rest = TSym c :: q /\ sign c = true.
Proof.
  intros H. inversion H; subst; eexists; (split; [reflexivity|]); intros rest ST.
  - destruct ST as (c & q & -> & SG & _). exists c, q. auto.
  - eexists. eexists. split; reflexivity.
Qed.
Lemma y_gvarsLoop pub vs : forall ts, moreV vs ts -> forall F g rest T', able g -> 0 <= curDim g -> curScope g = ScCOMM -> pubFlag g = pub ->
  ~ (curType g = TyVOID /\ curDim g = 0) -> curType g <> TyINTR -> gview g = ts ++ TSym cSEMI :: rest ->
  okGVars (curType g) (curDim g) pub (topOf g) vs T' -> (glen g < F)%nat ->
  exists g', gvarsLoop krn F g = POk g' /\ able g' /\ keep g g' /\ curDim g' = curDim g /\ topOf g' = T' /\ gview g' = TSym cSEMI :: rest.
Proof.
  induction vs as [|[nm oi] vs IH]; intros ts M F g rest T' A D S P NV NI V OK LF; (destruct F as [|F]; [lia|]); cbn [gvarsLoop].
  - destruct M as [[_ ->]|(tr & _ & M)]; [|inversion M]. cbn [app] in V. rewrite (y_not _ _ _ cCOMMA (proj1 A) V) by (discriminate || reflexivity). inversion OK; subst.
    exists g. split; [reflexivity|]. split; [exact A|]. split; [apply keep_refl|]. auto.
  - destruct M as [[X _]|(tr & -> & M)]; [discriminate X|].
    assert (exists tv tm, tr = tv ++ tm /\ derives_gvar (nm, oi) tv /\ moreV vs tm) as (tv & tm & -> & DV & MV).
    { inversion M; subst; [exists tr, []; rewrite app_nil_r; split; [reflexivity|]; split; [assumption|left; auto]|]. eexists. eexists. split; [reflexivity|]. split; [assumption|]. right. eauto. }
    inversion OK as [|? ? T1 ? ? OV OR]; subst.
    cbn [app] in V. rewrite <- app_assoc in V. destruct (y_next _ _ _ (proj1 A) V ltac:(discriminate)) as (T2 & I2 & S2 & L2 & O2 & V2 & LN2). rewrite (gIsTok_yes _ _ T2).
    destruct (gvar_toks _ _ _ DV) as (tq & -> & HS). pose proof (moreV_head _ _ rest MV) as ST. destruct (HS _ ST) as (c & q & EV & SG).
    destruct (okGVar_def _ _ _ _ _ _ _ OV) as (n1 & i & DN). unfold topOf in DN. cbn [tN tC] in DN.
    cbn [app] in V2. rewrite EV in V2.
    destruct (y_newVar (pubFlag g) (gGetTok g) nm c q n1 i) as (g3 & E3 & NV3 & K1 & K2 & K3 & K4 & V3 & LN3); try assumption; try reflexivity.
    { split; [exact I2|exact (proj2 A)]. }
    change (pubFlag (gGetTok g)) with (pubFlag g). rewrite E3. cbn [pbind].
    rewrite <- EV in V3. change (curType (gGetTok g)) with (curType g) in K2. change (curDim (gGetTok g)) with (curDim g) in K3.
    assert (topOf (gGetTok g) = topOf g) as TT by (unfold topOf; rewrite L2, O2; reflexivity).
    destruct (y_gvar (pubFlag g) (topOf (gGetTok g)) nm oi tq g3 (tm ++ TSym cSEMI :: rest) T1 NV3 (proj2 A) DV V3 ST) as (g4 & E4 & A4 & (M1 & M2 & M3 & M4 & M5) & CT4 & CD4 & ET4 & V4).
    { rewrite TT, K2, K3. exact OV. }
    rewrite E4. cbn [pbind]. pose proof (wp_getGVar g3) as WP. rewrite E4 in WP. cbn [wp] in WP.
    pose proof (same_keep _ _ S2) as (Q1 & Q2 & Q3 & Q4 & Q5).
    pose proof (nv_pub _ _ _ _ NV3) as P3. pose proof (nv_top _ _ _ _ NV3) as TP3. rewrite TT in TP3. unfold topOf in TP3. cbn [tN] in TP3. injection TP3 as X1 X2 X3 X4 X5 X6.
    assert (~ (curType g4 = TyVOID /\ curDim g4 = 0)) as NV4 by (rewrite CT4, CD4, K2, K3; exact NV).
    assert (okGVars (curType g4) (curDim g4) (pubFlag g) (topOf g4) vs T') as OR4 by (rewrite CT4, CD4, K2, K3, ET4; exact OR).
    destruct (IH tm MV F g4 rest T' A4 ltac:(lia) ltac:(congruence) ltac:(congruence) NV4 ltac:(congruence) V4 OR4 ltac:(lia)) as (g5 & E5 & A5 & (R1 & R2 & R3 & R4 & R5) & CD5 & ET5 & V5).
    exists g5. split; [exact E5|]. split; [exact A5|]. split; [|split; [congruence|auto]].
    change (depth (gGetTok g)) with (depth g) in K4. split; [congruence|]. split; [congruence|]. split; [congruence|]. split; congruence.
Qed.
Lemma y_getGVars pub T nm oi vs ts g rest T' : newVar pub T nm g -> sep (tN T) -> curScope g = ScCOMM -> commas derives_gvar ((nm, oi) :: vs) (TName nm :: ts) -> gview g = ts ++ TSym cSEMI :: rest ->
  ~ (curType g = TyVOID /\ curDim g = 0) -> curType g <> TyINTR -> okGVars (curType g) (curDim g) pub T ((nm, oi) :: vs) T' -> depth g = 0 ->
  exists g', getGVars krn g = POk g' /\ atRest g' /\ topOf g' = T' /\ gview g' = rest.
Proof.
  intros NV SP SC C V NVD NI OK DP. unfold getGVars.
  assert (exists tv tm, ts = tv ++ tm /\ derives_gvar (nm, oi) (TName nm :: tv) /\ moreV vs tm) as (tv & tm & -> & DV & MV).
  { inversion C as [? ? DG E1 E2|? ? tx tr DG M E1 E2]; subst; [exists ts, []; rewrite app_nil_r; split; [reflexivity|]; split; [assumption|left; auto]|].
    destruct (gvar_toks _ _ _ DG) as (tq & -> & _). cbn [app] in E2. injection E2 as <-. eexists. eexists. split; [reflexivity|]. split; [assumption|]. right. eauto. }
  inversion OK as [|? ? T1 ? ? OV OR]; subst. rewrite <- app_assoc in V.
  destruct (y_gvar pub T nm oi tv g (tm ++ TSym cSEMI :: rest) T1 NV SP DV V (moreV_head _ _ _ MV) OV) as (g4 & -> & A4 & (M1 & M2 & M3 & M4 & M5) & CT4 & CD4 & ET4 & V4). cbn [pbind].
  pose proof (nv_dim _ _ _ _ NV) as D. pose proof (nv_pub _ _ _ _ NV) as P.
  assert (~ (curType g4 = TyVOID /\ curDim g4 = 0)) as NV4 by (rewrite CT4, CD4; exact NVD).
  assert (okGVars (curType g4) (curDim g4) pub (topOf g4) vs T') as OR4 by (rewrite CT4, CD4, ET4; exact OR).
  destruct (y_gvarsLoop pub vs tm MV (gfuel g4) g4 rest T' A4 ltac:(lia) ltac:(congruence) ltac:(congruence) NV4 ltac:(congruence) V4 OR4 ltac:(unfold gfuel, fuelOf, glen, len; lia))
    as (g5 & -> & A5 & (R1 & R2 & R3 & R4 & R5) & CD5 & ET5 & V5).
  cbn [pbind]. destruct (y_next _ _ _ (proj1 A5) V5 ltac:(discriminate)) as (T6 & I6 & S6 & L6 & O6 & V6 & LN6). rewrite (gChkTok_yes _ _ T6).
  eexists. split; [reflexivity|]. split; [split; [split; [exact I6|exact (proj2 A5)]|]|split; [|exact V6]].
  - change (curDim (gGetTok g5)) with (curDim g5). change (depth (gGetTok g5)) with (depth g5). split; [lia|congruence].
  - rewrite <- ET5. unfold topOf. rewrite L6, O6. reflexivity.
Qed.
(* ==== functions ==== *)
Lemma y_like prev g : (forall i, prev = Some i -> 0 <= i) -> likePrev (gnt g) prev (curCnt g) (curType g) (curDim g) ->
  (if 1 <=? idxOf prev then chkParam g (idxOf prev + curCnt g) else POk tt) = POk tt.
Proof.
  intros PP H. unfold likePrev in H. destruct prev as [i|]; [|reflexivity]. specialize (PP i eq_refl). unfold idxOf. destruct (Z.leb_spec 1 (i + 1)); [|reflexivity].
  destruct H as [A B]. unfold chkParam, perr_if. rewrite A, B, !Z.eqb_refl. reflexivity.
Qed.
Lemma isType_sym g c r : fine g -> gview g = TSym c :: r -> c = cRP \/ c = LxDOTDOTDOT -> gIsType g = (false, wType g TyNON).
Proof.
  intros [G _] V C. pose proof (head_sym _ _ _ G V) as T. unfold gIsType. assert (typeOf (gnt g) (ge g) = TyNON) as E by (unfold typeOf; rewrite T; destruct C as [-> | ->]; reflexivity).
  unfold isType. rewrite E. reflexivity.
Qed.
Definition pstate (g : gs) : Prop := able g /\ 0 <= curDim g /\ curScope g = ScPRM.
(* one parameter *)
Lemma y_param prev g t d nm n1 i c r F last : (forall i, prev = Some i -> 0 <= i) -> pstate g -> gview g = paramToks (t, d, nm) ++ TSym c :: r -> sign c = true ->
  varType (tyCode (gnt g) t) (Z.of_nat d) -> likePrev (gnt g) prev (curCnt g) (tyCode (gnt g) t) (Z.of_nat d) ->
  ntDefName (gnt g) nm ScPRM (tyCode (gnt g) t) (Z.of_nat d) (curCnt g) false = NOk (n1, i) ->
  exists g', paramsLoop krn (S F) (idxOf prev) last g = match gIsTok cCOMMA g' with
      | Some g => paramsLoop krn F (idxOf prev) true (wCnt g (curCnt g + 1))
      | None => POk (false, g')
      end /\ pstate g' /\ keepP g g' /\ gnt g' = n1 /\ curCnt g' = curCnt g /\ curDim g' = Z.of_nat d /\ clab (ge g') = clab (ge g) /\ outp (ge g') = outp (ge g) /\
    gview g' = TSym c :: r /\ (glen g' < glen g)%nat.
Proof.
  intros PP (A & D & S) V SG (NN & NI & NV) LP DN. cbn [paramToks] in V. cbn [app] in V. rewrite <- app_assoc in V. cbn [app] in V.
  assert (gIsType g = (true, wType g (tyCode (gnt g) t))) as IT.
  { unfold gIsType, isType. rewrite (typeOf_tok _ _ _ _ (proj1 (proj1 A)) V). destruct (Z.eqb_spec (tyCode (gnt g) t) TyNON); [contradiction|reflexivity]. }
  cbn [paramsLoop]. rewrite IT. set (g0 := wType g (tyCode (gnt g) t)).
  destruct (y_type g0 t d _ A V ltac:(discriminate) NN) as (g1 & -> & A1 & Q1 & L1 & O1 & V1 & LN1). cbn [pbind].
  assert (curType g1 = tyCode (gnt g) t /\ curDim g1 = Z.of_nat d /\ gnt g1 = gnt g /\ curCnt g1 = curCnt g /\ curScope g1 = ScPRM /\ keepP g g1) as (K1 & K2 & K3 & K4 & K5 & K6)
    by (rewrite Q1; unfold g0; gcbn; repeat split; auto).
  rewrite y_like by (try exact PP; rewrite K1, K2, K3, K4; exact LP). cbn [pbind].
  destruct (y_name krn false g1 nm n1 i c r A1 ltac:(lia) V1 SG) as (g2 & -> & A2 & Q2 & L2 & O2 & V2 & LN2).
  { split; [intros _; rewrite K1, K2; auto|intros X; rewrite K1 in X; contradiction]. } { rewrite K1, K2, K3, K4, K5. exact DN. }
  cbn [pbind]. exists g2. split; [reflexivity|].
  assert (curDim g2 = curDim g1 /\ gnt g2 = n1 /\ curCnt g2 = curCnt g1 /\ curScope g2 = curScope g1 /\ keepP g1 g2) as (M2 & M3 & M4 & M5 & M6)
    by (rewrite Q2; gcbn; repeat split; auto).
  split; [split; [exact A2|split; [lia|congruence]]|]. split; [exact (keepP_trans _ _ _ K6 M6)|].
  change (clab (ge g0)) with (clab (ge g)) in L1. change (outp (ge g0)) with (outp (ge g)) in O1. change (glen g0) with (glen g) in LN1.
  repeat split; try congruence; try assumption. lia.
Qed.
Lemma y_paramsLoop prev ps k ts : (forall i, prev = Some i -> 0 <= i) -> derives_params ps k ts -> forall F g rest n' c' d', pstate g -> gview g = ts ++ TSym cRP :: rest ->
  okParams prev (gnt g) (curCnt g) (curDim g) ps k n' c' d' -> (glen g < F)%nat ->
  exists g', pbind (paramsLoop krn F (idxOf prev) true g) (dots (idxOf prev)) = POk g' /\ pstate g' /\ keepP g g' /\ gnt g' = n' /\ curCnt g' = c' /\ curDim g' = d' /\
    clab (ge g') = clab (ge g) /\ outp (ge g') = outp (ge g) /\ gview g' = TSym cRP :: rest.
Proof.
  intros PP. induction 1 as [| |p|p|p ps k ts NE DP IH]; intros F g rest n' c' d' A V OK LF; (destruct F as [|F]; [lia|]).
  - cbn [app] in V. pose proof (isType_sym _ _ _ (proj1 (proj1 A)) V (or_introl eq_refl)) as IT. cbn [paramsLoop]. rewrite IT. cbn [pbind dots].
    rewrite (y_not (wType g TyNON) _ _ LxDOTDOTDOT (proj1 (proj1 A)) V) by (discriminate || reflexivity). inversion OK; subst.
    eexists. split; [reflexivity|]. split; [exact A|]. repeat split. exact V.
  - cbn [app] in V. pose proof (isType_sym _ _ _ (proj1 (proj1 A)) V (or_intror eq_refl)) as IT. cbn [paramsLoop]. rewrite IT. cbn [pbind dots].
    destruct (y_next (wType g TyNON) _ _ (proj1 (proj1 A)) V ltac:(discriminate)) as (T1 & I1 & S1 & L1 & O1 & V1 & LN1). rewrite (gIsTok_yes _ _ T1). cbv zeta.
    inversion OK as [|n c d0 m i LP DN| | |]; subst.
    set (g1 := wDim (wType (gGetTok (wType g TyNON)) TyDOTDOTDOT) 0). rewrite y_like by (try exact PP; exact LP). cbn [pbind].
    destruct A as (A & D & S). change (gnt g1) with (gnt g). change (curScope g1) with (curScope g). change (curCnt g1) with (curCnt g). rewrite S, DN.
    eexists. split; [reflexivity|]. split; [split; [split; [split; gcbn; [exact (proj1 I1)|exact (dims_def _ _ _ _ _ _ _ _ _ DN ltac:(lia) (proj2 (proj1 A)))]|exact (sep_def _ _ _ _ _ _ _ _ _ DN (proj2 A))]|split; [unfold g1; gcbn; lia|exact S]]|].
    split; [repeat split|]. split; [reflexivity|]. split; [reflexivity|]. split; [reflexivity|]. split; [exact L1|]. split; [exact O1|exact V1].
  - inversion OK as [| |n c d0 t d nm m i VT LP DN| |n c d0 t d nm ps0 k0 n1 i m c1 d1 VT LP DN NE OP]; subst; [|destruct NE as [NE|NE]; [contradiction|discriminate]].
    destruct (y_param prev g t d nm n' i cRP rest F true PP A V eq_refl VT LP DN) as (g1 & -> & A1 & K1 & N1 & C1 & D1 & L1 & O1 & V1 & LN1).
    rewrite (y_not _ _ _ cCOMMA (proj1 (proj1 A1)) V1) by (discriminate || reflexivity). cbn [pbind dots]. exists g1. split; [reflexivity|]. split; [exact A1|]. repeat (split; [assumption|]). exact V1.
  - inversion OK as [| | |n c d0 t d nm m i VT LP DN|n c d0 t d nm ps0 k0 n1 i m c1 d1 VT LP DN NE OP]; subst; [|destruct NE as [NE|NE]; [contradiction|discriminate]].
    rewrite <- app_assoc in V. cbn [app] in V.
    destruct (y_param prev g t d nm n' i cCOMMA _ F true PP A V eq_refl VT LP DN) as (g1 & -> & A1 & K1 & N1 & C1 & D1 & L1 & O1 & V1 & LN1).
    destruct (y_next _ _ _ (proj1 (proj1 A1)) V1 ltac:(discriminate)) as (T2 & I2 & S2 & L2 & O2 & V2 & LN2). rewrite (gIsTok_yes _ _ T2).
    set (g2 := wCnt (gGetTok g1) (curCnt (gGetTok g1) + 1)). destruct F as [|F]; [lia|]. cbn [paramsLoop].
    rewrite (isType_sym g2 _ _ I2 V2 (or_introl eq_refl)). cbn [pbind dots]. rewrite (y_not (wType g2 TyNON) _ _ LxDOTDOTDOT I2 V2) by (discriminate || reflexivity).
    eexists. split; [reflexivity|]. destruct A1 as ((I1 & S1) & X1 & X2). split; [split; [split; [exact I2|exact S1]|split; [exact X1|exact X2]]|]. unfold g2, gGetTok. gcbn.
    split; [exact (keepP_trans _ _ _ K1 (keepP_refl g1))|]. split; [exact N1|]. split; [congruence|]. split; [exact D1|]. rewrite getTok_lab, getTok_out. split; [exact L1|]. split; [exact O1|exact V2].
  - inversion OK as [| | | |n c d0 t d nm ps0 k0 n1 i m c1 d1 VT LP DN NE2 OP]; subst; try (destruct NE as [NE|NE]; [contradiction|discriminate]).
    rewrite <- app_assoc in V. cbn [app] in V.
    destruct (y_param prev g t d nm n1 i cCOMMA _ F true PP A V eq_refl VT LP DN) as (g1 & -> & A1 & K1 & N1 & C1 & D1 & L1 & O1 & V1 & LN1).
    destruct (y_next _ _ _ (proj1 (proj1 A1)) V1 ltac:(discriminate)) as (T2 & I2 & S2 & L2 & O2 & V2 & LN2). rewrite (gIsTok_yes _ _ T2).
    set (g2 := wCnt (gGetTok g1) (curCnt (gGetTok g1) + 1)). destruct A1 as ((I1 & S1) & X1 & X2).
    assert (pstate g2) as A2 by (split; [split; [exact I2|exact S1]|split; [exact X1|exact X2]]).
    destruct (IH F g2 rest n' c' d' A2 V2) as (g3 & -> & A3 & K3 & N3 & C3 & D3 & L3 & O3 & V3).
    { unfold g2, gGetTok. gcbn. rewrite N1, C1, D1. exact OP. } { change (glen g2) with (glen (gGetTok g1)). lia. }
    exists g3. split; [reflexivity|]. split; [exact A3|]. split; [exact (keepP_trans _ _ _ K1 K3)|]. split; [exact N3|]. split; [exact C3|]. split; [exact D3|].
    change (clab (ge g2)) with (clab (ge (gGetTok g1))) in L3. change (outp (ge g2)) with (outp (ge (gGetTok g1))) in O3. split; [congruence|]. split; [congruence|exact V3].
Qed.
Lemma y_params prev g ps k ts rest n' c' d' : (forall i, prev = Some i -> 0 <= i) -> pstate g -> derives_params ps k ts -> gview g = ts ++ TSym cRP :: rest ->
  okParams prev (gnt g) 0 (curDim g) ps k n' c' d' ->
  exists g', getParams krn (idxOf prev) g = POk g' /\ pstate g' /\ keepP g g' /\ gnt g' = n' /\ curCnt g' = c' /\ curDim g' = d' /\
    clab (ge g') = clab (ge g) /\ outp (ge g') = outp (ge g) /\ gview g' = rest.
Proof.
  intros PP A DP V OK. unfold getParams.
  destruct (y_paramsLoop prev ps k ts PP DP (gfuel g) (wCnt g 0) rest n' c' d' A V OK ltac:(unfold gfuel, fuelOf, glen, len; gcbn; lia)) as (g1 & E & A1 & K1 & N1 & C1 & D1 & L1 & O1 & V1).
  destruct (paramsLoop _ _ _ _ _) as [[l g0]| | |]; cbn [pbind] in E |- *; try discriminate E. unfold dots in E.
  match goal with |- context [pbind ?r _] => assert (r = POk g1) as -> by exact E end. cbn [pbind].
  destruct (y_next _ _ _ (proj1 (proj1 A1)) V1 ltac:(discriminate)) as (T2 & I2 & S2 & L2 & O2 & V2 & LN2). rewrite (gChkTok_yes _ _ T2).
  eexists. split; [reflexivity|]. destruct A1 as ((I1 & S1) & X1 & X2). split; [split; [split; [exact I2|exact S1]|split; [exact X1|exact X2]]|].
  split; [exact (keepP_trans g (wCnt g 0) _ (keepP_refl g) (keepP_trans _ g1 _ K1 (keepP_refl g1)))|]. change (gnt (gGetTok g1)) with (gnt g1). change (curCnt (gGetTok g1)) with (curCnt g1). change (curDim (gGetTok g1)) with (curDim g1).
  repeat (split; [assumption|]). split; [rewrite L2; exact L1|]. split; [rewrite O2; exact O1|exact V2].
Qed.
Lemma scope_setScope t i s k : ScPROT <= s -> ScPROT <= scopeAt t k -> ScPROT <= scopeAt (ntSetScope t i s) k.
Proof.
  intros P H. unfold scopeAt, ent, ntSetScope in *. destruct (k <? 0); [exact H|]. rewrite upd_nth. destruct (Nat.eqb _ _); [|exact H].
  destruct (nth_error t (Z.to_nat k)); cbn [option_map nScope] in *; [exact P|exact H].
Qed.
Lemma sep_enter prev fi n : sep n -> ScPROT <= scopeAt n fi -> (forall i, prev = Some i -> ScPROT <= scopeAt n i) -> sep (enter prev fi n).
Proof.
  intros S F P. unfold enter. assert (ScPROT <= ScFUNC) as L by (unfold ScPROT, ScFUNC; lia). destruct prev as [i|].
  - apply sep_setScope; [apply sep_setScope; auto|exact L|apply scope_setScope; auto].
  - apply sep_setScope; auto.
Qed.
Lemma scopeAt_snoc0 t e : scopeAt (t ++ [e]) (ntGetSize t) = nScope e.
Proof. unfold scopeAt, ent, ntGetSize. destruct (Z.ltb_spec (Z.of_nat (List.length t)) 0); [lia|]. rewrite Nat2Z.id, nth_error_app2, Nat.sub_diag by lia. reflexivity. Qed.
Lemma sep_settle prev fi prm loc n : sep n -> sep (settle prev fi prm loc n).
Proof. intros S. unfold settle. destruct prev; [apply sep_undef; exact S|apply sep_void, sep_undef; exact S]. Qed.
(* what the rules say of a function *)
Definition okFunc n l c0 b k o pub t d nm ps e bd T' : Prop := exists prev n2 c d2 prm, okHead krn n c0 pub (tyCode n t) (Z.of_nat d) nm ps e prev (ntGetSize n) n2 c d2 prm /\
  match bd with
  | None => T' = TEnv (settle prev (ntGetSize n) (ntGetSize n + 1) (ntGetSize n2) (ntSetCnt n2 (ntGetSize n) prm)) l c d2 b k o
  | Some q => exists x E' root code lb,
    let E := Env (enter prev (ntGetSize n) (ntSetCnt n2 (ntGetSize n) prm)) l 0 0 d2 in
    (forall i, prev = Some i -> scopeAt n i = ScPROT) /\ okQ (tyCode n t) (Z.of_nat d) false E SNull q x E' /\
    (valued_fn (tyCode n t) (Z.of_nat d) -> endsReturn q false = true) /\
    (if opt then optTree (block x) = Ok root else root = block x) /\
    genFunc (namesOf (eN (leave E E'))) root (eM E') krn (tyCode n t =? TyINTR) (Labs (eL E') b k (-1)) = Some (code, lb) /\
    T' = TEnv (settle prev (ntGetSize n) (ntGetSize n + 1) (ntGetSize n2) (eN (leave E E'))) (cur lb) 0 (eD E') (brk lb) (cnt lb)
            (o ++ strOut l (stringsQ q) ++ [ANam (ntGetSize n); ACode (map (printed (eN (leave E E'))) code)])
  end.
Lemma okTop_func n l c0 d0 b k o pub t d nm ps e bd T' : okTop opt krn (TEnv n l c0 d0 b k o) (PFunc pub t d nm ps e bd) T' -> okFunc n l c0 b k o pub t d nm ps e bd T'.
Proof.
  intros H. inversion H as [| | |? ? ? ? ? ? ? ? ? ? ? ? ? prev fi n2 c d2 prm HD|? ? ? ? ? ? ? ? ? ? ? ? ? prev fi n2 c d2 prm q x E E' root code lb HD PR EE OQ VR OP GF]; subst.
  - assert (fi = ntGetSize n) as -> by (destruct HD as [_ _ _ (n1 & DN & _) _ _]; apply (def_app _ _ _ _ _ _ _ _ _ DN)). exists prev, n2, c, d2, prm. auto.
  - assert (fi = ntGetSize n) as -> by (destruct HD as [_ _ _ (n1 & DN & _) _ _]; apply (def_app _ _ _ _ _ _ _ _ _ DN)). exists prev, n2, c, d2, prm.
    split; [exact HD|]. exists x, E', root, code, lb. cbv zeta. auto 8.
Qed.
Lemma y_func n nm pub t d c0 g ps e tp bd tb rst T' : atRest g -> sep n -> pubFlag g = pub -> curType g = tyCode n t -> curDim g = Z.of_nat d ->
  ntDefName n nm ScPROT (curType g) (curDim g) c0 pub = NOk (gnt g, ntGetSize n) -> derives_params ps e tp -> derives_body bd tb ->
  gview g = TSym cLP :: tp ++ TSym cRP :: tb ++ rst ->
  okFunc n (clab (ge g)) c0 (brkLab g) (cntLab g) (outp (ge g)) pub t d nm ps e bd T' ->
  exists g', getFunc opt krn g = POk g' /\ atRest g' /\ topOf g' = T' /\ gview g' = rst.
Proof.
  intros (A & D & DP) SN P CT CD DN DPS DB V (prev & n2 & c & d2 & prm & HD & HB). destruct (def_app _ _ _ _ _ _ _ _ _ DN) as [EN _].
  pose proof (ProgInv.size_nonneg n) as PN.
  assert (ntGetSize (gnt g) - 1 = ntGetSize n) as SZ by (rewrite EN; apply size_snoc).
  destruct HD as [[NN NI] EP HS (n1 & DN1 & OP) EC HM]. rewrite <- CT, <- CD in *. rewrite DN in DN1. injection DN1 as <-.
  unfold getFunc. cbv zeta. rewrite SZ. gcbn.
  set (idx := ntSrcGlob (gnt g) (ntGetSize n)).
  assert (idx = match prev with Some i => i | None => -1 end) as EI by (unfold idx; rewrite EN, srcGlob_snoc, EP; reflexivity).
  assert (idx + 1 = idxOf prev) as EI1 by (rewrite EI; destruct prev; reflexivity).
  assert (forall i, prev = Some i -> 0 <= i < ntGetSize n) as PL by (intros i X; rewrite EP in X; exact (prior_lt _ _ _ X)).
  assert (forall i, prev = Some i -> (0 <=? idx) = true /\ idx = i) as PI.
  { intros i E. rewrite EI, E. split; [|reflexivity]. apply Z.leb_le. apply PL. exact E. }
  assert (prev = None -> (0 <=? idx) = false) as PNO by (intros X; rewrite EI, X; reflexivity).
  assert (forall (b : bool), (forall i, prev = Some i -> b = false) -> (0 <=? idx) && b = false) as CK.
  { intros b X. destruct prev as [i|]; [rewrite (X i eq_refl), andb_false_r|rewrite (PNO eq_refl)]; reflexivity. }
  rewrite CK. 2:{ intros i E. destruct (PI i E) as [_ ->]. specialize (PL i E). rewrite EN, ProgInv.scopeAt_app_l by lia. destruct (HS i E) as (X & Y & _).
    destruct (Z.eqb_spec (scopeAt n i) ScCOMM); [contradiction|]. destruct (Z.eqb_spec (scopeAt n i) ScGVAR); [contradiction|reflexivity]. }
  cbn [perr_if pbind]. rewrite CK. 2:{ intros i E. destruct (PI i E) as [_ ->]. specialize (PL i E). destruct (HS i E) as (_ & _ & AG). rewrite <- P in AG. apply agrees_no. rewrite EN. apply agrees_app; [lia|exact AG]. }
  cbn [perr_if pbind].
  assert ((curType g =? TyINTR) && negb (curDim g =? 0) = false) as -> .
  { destruct (Z.eqb_spec (curType g) TyINTR) as [X|]; [|reflexivity]. destruct (NI X) as (_ & -> & _). reflexivity. }
  cbn [perr_if pbind].
  destruct (y_next _ _ _ (proj1 A) V ltac:(discriminate)) as (T1 & I1 & S1 & L1 & O1 & V1 & LN1). unfold gGetTok in I1, L1, O1, V1 |- *. gcbn.
  set (g1 := wScope (wLast (wE (wFunc g (ntGetSize n)) (getTok (ge g))) LxNONTOK) ScPRM).
  assert (pstate g1) as A1 by (split; [split; [exact I1|exact (proj2 A)]|split; [exact D|reflexivity]]).
  rewrite EI1.
  destruct (y_params prev g1 ps e tp (tb ++ rst) n2 c d2 (fun i E => proj1 (PL i E)) A1 DPS V1 OP) as (g2 & -> & (A2 & D2 & SC2) & ((K1 & K2 & K3 & K4 & K5) & K6 & K7) & N2 & C2 & CD2 & L2 & O2 & V2).
  cbn [pbind]. unfold g1 in K1, K2, K3, K4, K5, K6, K7, L2, O2. gcbn. rewrite L1 in L2. rewrite O1 in O2. rewrite N2.
  destruct (okParams_app _ _ _ _ _ _ _ _ _ OP) as [r ER].
  assert (ntGetSize (gnt g) = ntGetSize n + 1) as SZ1 by lia.
  assert (ntGetSize n2 = ntGetSize n + 1 + Z.of_nat (List.length r)) as SZ2 by (rewrite ER, StmtSound.size_app; lia).
  rewrite SZ1. replace (ntGetSize n2 - (ntGetSize n + 1)) with prm by lia.
  assert (typeAt n2 (ntGetSize n) = curType g) as TA.
  { rewrite ER, StmtSound.typeAt_app by lia. rewrite EN, typeAt_snoc. reflexivity. }
  assert (dimAt n2 (ntGetSize n) = curDim g) as DA.
  { rewrite ER, StmtSound.dimAt_app by lia. rewrite EN, dimAt_snoc. reflexivity. }
  assert (scopeAt n2 (ntGetSize n) = ScPROT) as SA.
  { rewrite ER, ProgInv.scopeAt_app_l by lia. rewrite EN, scopeAt_snoc0. reflexivity. }
  assert (forall i, prev = Some i -> scopeAt n2 i = scopeAt n i) as SI.
  { intros i E. specialize (PL i E). rewrite ER, ProgInv.scopeAt_app_l by lia. rewrite EN, ProgInv.scopeAt_app_l by lia. reflexivity. }
  rewrite TA.
  assert ((curType g =? TyINTR) && negb (prm =? 0) = false) as -> .
  { destruct (Z.eqb_spec (curType g) TyINTR) as [X|]; [|reflexivity]. destruct (NI X) as (_ & _ & ->). reflexivity. }
  cbn [perr_if pbind]. gcbn. rewrite (cntAt_setCnt n2 (ntGetSize n) prm) by lia.
  rewrite CK. 2:{ intros i E. destruct (PI i E) as [_ ->]. specialize (PL i E). apply negb_false_iff, Z.eqb_eq. rewrite <- (HM i E). unfold cntAt. rewrite ent_setCnt_other by lia.
    rewrite ER, ProgInv.ent_app_l by lia. rewrite EN, ProgInv.ent_app_l by lia. reflexivity. }
  cbn [perr_if pbind]. set (n3 := ntSetCnt n2 (ntGetSize n) prm) in *. set (g3 := wNt g2 n3).
  assert (able g3) as A3. { destruct A2 as [[X1 X2] X3]. rewrite N2 in *. split; [split; [exact X1|unfold g3, n3; gcbn; apply dims_setCnt; exact X2]|unfold g3, n3; gcbn; apply sep_setCnt; exact X3]. }
  assert (ntGetSize n3 = ntGetSize n2) as SZ3 by apply size_setCnt.
  rewrite SZ3.
  assert (forall g7, exists g', (if 0 <=? idx then wNt g7 (ntUndefName (gnt g7) (ntGetSize n)) else wNt g7 (ntSetVoid (ntUndefName (gnt g7) (ntGetSize n2)) (ntGetSize n + 1))) = g' /\
    topOf g' = TEnv (settle prev (ntGetSize n) (ntGetSize n + 1) (ntGetSize n2) (gnt g7)) (clab (ge g7)) (curCnt g7) (curDim g7) (brkLab g7) (cntLab g7) (outp (ge g7)) /\
    gview g' = gview g7 /\ (able g7 -> 0 <= curDim g7 -> depth g7 = 0 -> atRest g')) as FIN.
  { intros g7. eexists. split; [reflexivity|]. destruct prev as [i|]; [destruct (PI i eq_refl) as [X Y]; rewrite X|rewrite (PNO eq_refl)]; (split; [reflexivity|]); (split; [reflexivity|]);
      intros [[X1 X2] X3] X4 X5; (split; [|split; [exact X4|exact X5]]); (split; [split; [exact X1|]|]); gcbn.
    - apply dims_undef; exact X2.
    - apply sep_undef; exact X3.
    - apply dims_setVoid, dims_undef; exact X2.
    - apply sep_void, sep_undef; exact X3. }
  inversion DB as [|q ts QD]; subst bd tb; cbn [app] in V2.
  - rewrite (y_not g3 _ _ cLC (proj1 A3) V2) by (discriminate || reflexivity).
    destruct (y_next g3 _ _ (proj1 A3) V2 ltac:(discriminate)) as (T4 & I4 & S4 & L4 & O4 & V4 & LN4). rewrite (gChkTok_yes _ _ T4). cbn [pbind].
    destruct (FIN (gGetTok g3)) as (g' & -> & ET & EV & AR). exists g'. split; [reflexivity|]. split; [apply AR|].
    + split; [exact I4|exact (proj2 A3)].
    + change (curDim (gGetTok g3)) with (curDim g2). exact D2.
    + change (depth (gGetTok g3)) with (depth g2). congruence.
    + split; [|rewrite EV; exact V4]. rewrite ET, HB, L4, O4. unfold g3, gGetTok. gcbn. rewrite L2, O2, K4, K5, C2, CD2. reflexivity.
  - destruct HB as (x & E' & root & code & lb & PR & OQ & VR & OPT & GF & ->). rewrite <- app_assoc in V2. cbn [app] in V2.
    destruct (y_next g3 _ _ (proj1 A3) V2 ltac:(discriminate)) as (T4 & I4 & S4 & L4 & O4 & V4 & LN4). rewrite (gIsTok_yes _ _ T4).
    unfold gGetTok in I4, L4, O4, V4, LN4 |- *. unfold g3 in I4, L4, O4, V4, LN4 |- *. gcbn. rewrite CK.
    2:{ intros i E. destruct (PI i E) as [_ ->]. unfold n3. rewrite scopeAt_setCnt, (SI i E), (PR i E). reflexivity. }
    cbn [perr_if pbind].
    match goal with |- context [getBlock _ _ ?gg] => set (g5 := gg) end.
    assert (gnt g5 = enter prev (ntGetSize n) n3 /\ ge g5 = getTok (ge g2) /\ curScope g5 = ScLVAR /\ curCnt g5 = 0 /\ maxCnt g5 = 0 /\ curDim g5 = curDim g2 /\ depth g5 = depth g2 /\
            funcIdx g5 = funcIdx g2 /\ lastStat g5 = lastStat g2 /\ brkLab g5 = brkLab g2 /\ cntLab g5 = cntLab g2) as (N5 & E5 & SC5 & CC5 & M5 & CD5 & DP5 & FX5 & LS5 & BL5 & CL5).
    { unfold g5. destruct prev as [i|]; [destruct (PI i eq_refl) as [X Y]; rewrite X, Y|rewrite (PNO eq_refl)]; gcbn; unfold enter; repeat split. }
    clearbody g5.
    assert (typeAt (gnt g5) (ntGetSize n) = curType g /\ dimAt (gnt g5) (ntGetSize n) = curDim g /\ ntGetSize (gnt g5) = ntGetSize n2 /\ dimsOk (gnt g5)) as (TA5 & DA5 & SZ5 & DO5).
    { rewrite N5. unfold enter. rewrite typeAt_setScope, dimAt_setScope, size_setScope. destruct prev; rewrite ?typeAt_setScope, ?dimAt_setScope, ?size_setScope; unfold n3; rewrite typeAt_setCnt, dimAt_setCnt, size_setCnt; (split; [exact TA|]); (split; [exact DA|]); (split; [reflexivity|]);
        repeat apply dims_setScope; exact (proj2 (proj1 A3)). }
    assert (sep (gnt g5)) as SP5.
    { rewrite N5. apply sep_enter; [exact (proj2 A3)|unfold n3; rewrite scopeAt_setCnt, SA; lia|]. intros i E. unfold n3. rewrite scopeAt_setCnt, (SI i E), (PR i E). lia. }
    assert (StmtSound.inv (ntGetSize n) (curType g) (curDim g) g5) as IV.
    { constructor; [rewrite E5; exact (proj1 I4)|exact DO5|lia|exact SC5|congruence|lia|exact TA5|exact DA5]. }
    assert (envOf g5 = Env (enter prev (ntGetSize n) n3) (clab (ge g)) 0 0 d2) as EV5.
    { unfold envOf. rewrite N5, CC5, M5, CD5, E5, L4, L2, CD2. reflexivity. }
    set (E := Env (enter prev (ntGetSize n) n3) (clab (ge g)) 0 0 d2) in *. rewrite <- EV5 in OQ.
    assert (gview g5 = ts ++ TSym cRC :: rst) as V5 by (unfold gview; rewrite E5; exact V4).
    destruct (c_seq krn (ntGetSize n) (curType g) (curDim g) (S (glen g5)) (getStat krn) q ts g5 rst false x E' (proj2 (full krn _ _ _) q ts QD) (conj IV SP5) V5 OQ ltac:(discriminate) (stats_top krn _) ltac:(lia))
      as (g6 & E6 & [IV6 SP6] & G6 & EE & LR).
    pose proof (ac_get _ _ _ (fr_block krn _ (fun h => fr_stat krn (gfuel h) h) g5) E6) as (F6 & F6' & F6''). cbn [snd] in F6, F6', F6''.
    rewrite E6. cbn [pbind]. destruct IV6 as [GO6 DO6 DP6 SC6 FX6 SZ6 TA6 DA6]. rewrite TA6, DA6.
    assert (lastStat g5 =? LxRETURN = false) as LN by (rewrite LS5, K7; reflexivity). rewrite LN in LR.
    assert ((negb (curType g =? TyVOID) || negb (curDim g =? 0)) && negb (curType g =? TyINTR) && negb (lastStat g6 =? LxRETURN) = false) as ->.
    { destruct ((negb (curType g =? TyVOID) || negb (curDim g =? 0)) && negb (curType g =? TyINTR)) eqn:VF; [|reflexivity]. apply valued_b in VF. rewrite LR, (VR VF). reflexivity. }
    cbn [perr_if pbind]. unfold compileBody.
    assert ((if opt then lift_opt (optTree (block x)) else POk (block x)) = POk root) as -> by (clear - OPT; destruct opt; [rewrite OPT; reflexivity|rewrite OPT; reflexivity]).
    cbn [pbind]. cbv zeta. rewrite FX6, TA6. rewrite EV5 in EE. 
    assert (gnt g6 = eN (leave E E')) as EN6 by exact (f_equal eN EE). assert (clab (ge g6) = eL E') as EL6 by exact (f_equal eL EE).
    assert (curCnt g6 = 0) as EC6 by exact (f_equal eC EE). assert (maxCnt g6 = eM E') as EM6 by exact (f_equal eM EE). assert (curDim g6 = eD E') as ED6 by exact (f_equal eD EE).
    pose proof (t_depth _ _ _ _ G6) as DD6. pose proof (got_out _ _ _ _ G6) as OO6. rewrite E5 in OO6. rewrite O4, O2, L4, L2 in OO6.
    rewrite EN6, EL6, EM6. replace (brkLab g6) with (brkLab g) by congruence. replace (cntLab g6) with (cntLab g) by congruence. rewrite GF. cbn [pbind].
    match goal with |- context [POk (if 0 <=? idx then wNt ?gg _ else _)] => destruct (FIN gg) as (g' & EQ & ET & EVW & AR) end.
    gcbn. rewrite EQ. exists g'. split; [reflexivity|]. split; [apply AR|].
    + split; [split; [exact GO6|exact DO6]|exact SP6].
    + apply F6''. rewrite CD5. exact D2.
    + congruence.
    + split.
      * rewrite ET. cbn [clab outp]. rewrite OO6, EC6, ED6, EN6, <- app_assoc. reflexivity.
      * rewrite EVW. pose proof (got_rest g5 (ts ++ [TSym cRC]) _ _ rst G6) as RR. apply RR. rewrite V5, <- app_assoc. reflexivity.
Qed.
(* ==== the source ==== *)
Lemma tyTok_not t k : k = LxPUBLIC \/ k = LxSTRUCT \/ k = LxTYPEDEF -> tyTok t <> TSym k.
Proof. intros [-> |[-> | ->]]; destruct t; discriminate. Qed.
Lemma y_public pub g t r : atRest g -> gview g = pubToks pub ++ tyTok t :: r ->
  let g0 := match gIsTok LxPUBLIC (wPub g false) with Some g => wPub g true | None => wPub g false end in
  atRest g0 /\ pubFlag g0 = pub /\ topOf g0 = topOf g /\ gview g0 = tyTok t :: r.
Proof.
  intros ((I & SP) & D & DP) V. destruct pub; cbn [pubToks app] in V.
  - destruct (y_next (wPub g false) _ _ I V ltac:(discriminate)) as (T1 & I1 & S1 & L1 & O1 & V1 & LN1). rewrite (gIsTok_yes _ _ T1). cbv zeta.
    split; [split; [split; [exact I1|exact SP]|split; [exact D|exact DP]]|]. split; [reflexivity|]. split; [|exact V1]. unfold topOf, gGetTok. gcbn. rewrite getTok_lab, getTok_out. reflexivity.
  - rewrite (y_not (wPub g false) _ _ LxPUBLIC I V) by (auto using tyTok_not || reflexivity). cbv zeta.
    split; [split; [split; [exact I|exact SP]|split; [exact D|exact DP]]|]. split; [reflexivity|]. split; [reflexivity|exact V].
Qed.
Lemma commas_gvar_head vs ts : commas derives_gvar vs ts -> exists nm oi vr tr, vs = (nm, oi) :: vr /\ ts = TName nm :: tr.
Proof.
  intros C. inversion C as [[nm oi] ? DG|[nm oi] ? ? ? DG]; subst; inversion DG; subst; cbn [app]; repeat eexists.
Qed.
Lemma y_getProg g x tx rst T' : atRest g -> derives_top x tx -> gview g = tx ++ rst -> okTop opt krn (topOf g) x T' ->
  exists g', getProg opt krn g = POk g' /\ atRest g' /\ topOf g' = T' /\ gview g' = rst.
Proof.
  intros R DT V OT. unfold getProg. cbv zeta. destruct DT as [nm fs ts DF|nm|pub t d nm ps e bd tp tb DPS DB|pub t d vs ts DV].
  - destruct R as ((I & SP) & D & DP). cbn [app] in V. rewrite <- app_assoc in V. cbn [app] in V.
    rewrite (y_not (wPub g false) _ _ LxPUBLIC I V) by (discriminate || reflexivity).
    destruct (y_next (wPub g false) _ _ I V ltac:(discriminate)) as (T1 & I1 & S1 & L1 & O1 & V1 & LN1). rewrite (gIsTok_yes _ _ T1). gcbn.
    change (pubFlag (gGetTok (wPub g false))) with false. cbn iota.
    set (g2 := wType (wScope (gGetTok (wPub g false)) ScSTRC) TySTRUC).
    inversion OT as [n l c d b k o ? ? n1 i n2 c2 d2 DN OF| | | |]; subst.
    assert (able g2) as A2 by (split; [exact I1|exact SP]).
    destruct (y_name krn false g2 nm n1 i cLC _ A2 D V1 eq_refl) as (g3 & -> & A3 & Q & L3 & O3 & V3 & LN3).
    { split; intros X; unfold g2 in *; gcbn; [split; [intros [Y _]; discriminate Y|discriminate]|discriminate X]. } { exact DN. }
    cbn [pbind]. assert (curDim g3 = curDim g /\ curCnt g3 = curCnt g /\ depth g3 = 0 /\ brkLab g3 = brkLab g /\ cntLab g3 = cntLab g /\ gnt g3 = n1) as (CD3 & CC3 & DP3 & BL3 & CL3 & N3)
      by (rewrite Q; unfold g2, gGetTok; gcbn; repeat split; congruence).
    rewrite <- N3, <- CD3 in OF. rewrite <- N3, <- CD3, <- CC3 in DN.
    assert (atRest g3) as R3 by (split; [exact A3|split; [lia|exact DP3]]).
    destruct (y_struct _ _ _ g3 fs ts rst n2 c2 d2 R3 DN DF V3 OF) as (g4 & E4 & R4 & V4 & T4). exists g4. split; [exact E4|]. split; [exact R4|]. split; [|exact V4].
    rewrite T4, L3, O3, BL3, CL3. unfold g2. gcbn. change (clab (ge (gGetTok (wPub g false)))) with (clab (getTok (ge g))). change (outp (ge (gGetTok (wPub g false)))) with (outp (getTok (ge g))).
    rewrite getTok_lab, getTok_out. reflexivity.
  - destruct R as ((I & SP) & D & DP). cbn [app] in V.
    rewrite (y_not (wPub g false) _ _ LxPUBLIC I V) by (discriminate || reflexivity). rewrite (y_not (wPub g false) _ _ LxSTRUCT I V) by (discriminate || reflexivity).
    destruct (y_next (wPub g false) _ _ I V ltac:(discriminate)) as (T1 & I1 & S1 & L1 & O1 & V1 & LN1). rewrite (gIsTok_yes _ _ T1). gcbn.
    change (pubFlag (gGetTok (wPub g false))) with false. cbn iota.
    set (g2 := wType (wScope (gGetTok (wPub g false)) ScSTRC) TyREF).
    inversion OT as [|n l c d b k o ? n1 i DN| | |]; subst.
    assert (able g2) as A2 by (split; [exact I1|exact SP]).
    destruct (y_name krn false g2 nm n1 i cSEMI _ A2 D V1 eq_refl) as (g3 & -> & A3 & Q & L3 & O3 & V3 & LN3).
    { split; intros X; unfold g2 in *; gcbn; [split; [intros [Y _]; discriminate Y|discriminate]|discriminate X]. } { exact DN. }
    cbn [pbind]. assert (curDim g3 = curDim g /\ curCnt g3 = curCnt g /\ depth g3 = 0 /\ brkLab g3 = brkLab g /\ cntLab g3 = cntLab g /\ gnt g3 = n1) as (CD3 & CC3 & DP3 & BL3 & CL3 & N3)
      by (rewrite Q; unfold g2, gGetTok; gcbn; repeat split; congruence).
    destruct (y_next _ _ _ (proj1 A3) V3 ltac:(discriminate)) as (T4 & I4 & S4 & L4 & O4 & V4 & LN4). rewrite (gChkTok_yes _ _ T4).
    eexists. split; [reflexivity|]. split; [split; [split; [exact I4|exact (proj2 A3)]|split; [change (curDim (gGetTok g3)) with (curDim g3); lia|exact DP3]]|]. split; [|exact V4].
    unfold topOf. rewrite L4, O4, L3, O3. unfold gGetTok, g2. gcbn. change (clab (ge (gGetTok (wPub g false)))) with (clab (getTok (ge g))). change (outp (ge (gGetTok (wPub g false)))) with (outp (getTok (ge g))).
    rewrite getTok_lab, getTok_out, CD3, CC3, BL3, CL3, N3. reflexivity.
  - rewrite <- app_assoc in V. cbn [app] in V. rewrite <- app_assoc in V. cbn [app] in V. rewrite <- app_assoc in V. cbn [app] in V.
    destruct (y_public _ _ _ _ R V) as (R0 & P0 & T0 & V0). cbv zeta in *. set (g0 := match gIsTok LxPUBLIC (wPub g false) with Some g => wPub g true | None => wPub g false end) in *. clearbody g0. clear V R.
    rewrite <- T0 in OT. clear T0. destruct R0 as ((I & SP) & D & DP).
    rewrite (y_not g0 _ _ LxSTRUCT I V0) by (auto using tyTok_not || reflexivity). rewrite (y_not g0 _ _ LxTYPEDEF I V0) by (auto using tyTok_not || reflexivity).
    apply okTop_func in OT. pose proof OT as (prev & n2 & c & d2 & prm & HD & _). destruct HD as [[NN NI] EP HS (n1 & DN1 & OP) EC HM].
    destruct (y_type (wScope g0 ScPROT) t d _ (conj I SP) V0 ltac:(discriminate) NN) as (g1 & -> & A1 & Q1 & L1 & O1 & V1 & LN1). cbn [pbind].
    assert (curType g1 = tyCode (gnt g0) t /\ curDim g1 = Z.of_nat d /\ gnt g1 = gnt g0 /\ curCnt g1 = curCnt g0 /\ curScope g1 = ScPROT /\ pubFlag g1 = pub /\ depth g1 = 0 /\ brkLab g1 = brkLab g0 /\ cntLab g1 = cntLab g0)
      as (K1 & K2 & K3 & K4 & K5 & K6 & K7 & K8 & K9) by (rewrite Q1; gcbn; auto 12).
    rewrite K6.
    destruct (y_name krn pub g1 nm n1 (ntGetSize (gnt g0)) cLP _ A1 ltac:(lia) V1 eq_refl) as (g2 & -> & A2 & Q2 & L2 & O2 & V2 & LN2).
    { split; [intros X; exfalso; apply X; exact K5|]. intros X. apply NI. congruence. }
    { rewrite K1, K2, K3, K4, K5. exact DN1. }
    cbn [pbind]. unfold gtok. rewrite (head_sym _ _ _ (proj1 (proj1 A2)) V2). change (cLP =? cLP) with true. cbn iota.
    assert (curType g2 = curType g1 /\ curDim g2 = curDim g1 /\ gnt g2 = n1 /\ depth g2 = depth g1 /\ pubFlag g2 = pubFlag g1 /\ brkLab g2 = brkLab g1 /\ cntLab g2 = cntLab g1) as (M1 & M2 & M3 & M4 & M5 & M6 & M7) by (rewrite Q2; gcbn; auto 12).
    apply (y_func (gnt g0) nm pub t d (curCnt g0) g2 ps e tp bd tb rst T').
    + split; [exact A2|split; [lia|congruence]].
    + exact SP.
    + congruence.
    + congruence.
    + congruence.
    + rewrite M1, M2, K1, K2, M3. exact DN1.
    + exact DPS.
    + exact DB.
    + exact V2.
    + rewrite L2, O2, L1, O1, M6, M7, K8, K9. exact OT.
  - rewrite <- app_assoc in V. cbn [app] in V. rewrite <- !app_assoc in V. cbn [app] in V.
    destruct (y_public _ _ _ _ R V) as (R0 & P0 & T0 & V0). cbv zeta in *. set (g0 := match gIsTok LxPUBLIC (wPub g false) with Some g => wPub g true | None => wPub g false end) in *. clearbody g0. clear V R.
    rewrite <- T0 in OT. clear T0. destruct R0 as ((I & SP) & D & DP).
    rewrite (y_not g0 _ _ LxSTRUCT I V0) by (auto using tyTok_not || reflexivity). rewrite (y_not g0 _ _ LxTYPEDEF I V0) by (auto using tyTok_not || reflexivity).
    inversion OT as [| |n l c d0 b k o ? ? ? ? ? VT OV| |]; subst. pose proof VT as (NN & NI & NV).
    destruct (commas_gvar_head _ _ DV) as (nm & oi & vr & tr & -> & ->).
    assert (exists cc q, tr ++ TSym cSEMI :: rst = TSym cc :: q /\ sign cc = true /\ cc <> cLP) as (cc & q & EV & SG & NL).
    { assert (exists tv tm, tr = tv ++ tm /\ derives_gvar (nm, oi) (TName nm :: tv) /\ moreV vr tm) as (tv & tm & -> & DG & MV).
      { inversion DV as [? ? DG E1 E2|? ? tx tq DG M E1 E2]; subst; [exists tr, []; rewrite app_nil_r; split; [reflexivity|]; split; [assumption|left; auto]|].
        destruct (gvar_toks _ _ _ DG) as (ty & -> & _). cbn [app] in E2. injection E2 as <-. eexists. eexists. split; [reflexivity|]. split; [assumption|]. right. eauto. }
      inversion DG; subst; cbn [app]; [destruct MV as [[-> ->]|(tq & -> & _)]|]; cbn [app]; do 2 eexists; (split; [reflexivity|split; [reflexivity|discriminate]]). }
    inversion OV as [|? ? T1 ? ? OV1 OVR]; subst. destruct (okGVar_def _ _ _ _ _ _ _ OV1) as (n1 & i & DN). cbn [tN tC] in DN.
    destruct (def_app _ _ _ _ _ _ _ _ _ DN) as [EN EI].
    set (n0 := gnt g0 ++ [Ent nm ScPROT (tyCode (gnt g0) t) (Z.of_nat d) (curCnt g0) (pubFlag g0)]).
    assert (ntDefName (gnt g0) nm ScPROT (tyCode (gnt g0) t) (Z.of_nat d) (curCnt g0) (pubFlag g0) = NOk (n0, ntGetSize (gnt g0))) as DN0
      by (rewrite <- EI; exact (def_glob _ _ ScCOMM ScPROT _ _ _ _ _ _ ltac:(change ScLVAR with 4; change ScCOMM with 2; lia) ltac:(change ScLVAR with 4; change ScPROT with 0; lia) DN)).
    cbn [app] in V0. rewrite EV in V0.
    destruct (y_type (wScope g0 ScPROT) t d _ (conj I SP) V0 ltac:(discriminate) NN) as (g1 & -> & A1 & Q1 & L1 & O1 & V1 & LN1). cbn [pbind].
    assert (curType g1 = tyCode (gnt g0) t /\ curDim g1 = Z.of_nat d /\ gnt g1 = gnt g0 /\ curCnt g1 = curCnt g0 /\ curScope g1 = ScPROT /\ pubFlag g1 = pubFlag g0 /\ depth g1 = 0 /\ brkLab g1 = brkLab g0 /\ cntLab g1 = cntLab g0)
      as (K1 & K2 & K3 & K4 & K5 & K6 & K7 & K8 & K9) by (rewrite Q1; gcbn; auto 12).
    rewrite K6.
    destruct (y_name krn (pubFlag g0) g1 nm n0 (ntGetSize (gnt g0)) cc _ A1 ltac:(lia) V1 SG) as (g2 & -> & A2 & Q2 & L2 & O2 & V2 & LN2).
    { split; [intros X; exfalso; apply X; exact K5|]. intros X. rewrite K1 in X. contradiction. }
    { rewrite K1, K2, K3, K4, K5. exact DN0. }
    cbn [pbind]. unfold gtok. rewrite (head_sym _ _ _ (proj1 (proj1 A2)) V2). destruct (Z.eqb_spec cc cLP) as [|_]; [contradiction|].
    assert (curType g2 = curType g1 /\ curDim g2 = curDim g1 /\ gnt g2 = n0 /\ depth g2 = depth g1 /\ pubFlag g2 = pubFlag g1 /\ brkLab g2 = brkLab g1 /\ cntLab g2 = cntLab g1 /\ curCnt g2 = curCnt g1) as (M1 & M2 & M3 & M4 & M5 & M6 & M7 & M8) by (rewrite Q2; gcbn; auto 12).
    rewrite M3. unfold n0. rewrite size_snoc, setScope_snoc. cbn [nName nType nDim nCnt nPub]. rewrite <- EN. gcbn.
    rewrite M1, M2, K1, K2.
    assert ((tyCode (gnt g0) t =? TyVOID) && (Z.of_nat d =? 0) = false) as ->.
    { destruct (Z.eqb_spec (tyCode (gnt g0) t) TyVOID) as [X|]; [|reflexivity]. destruct (Z.eqb_spec (Z.of_nat d) 0) as [Y|]; [exfalso; auto|reflexivity]. }
    destruct (Z.eqb_spec (tyCode (gnt g0) t) TyINTR) as [|_]; [contradiction|]. set (g3 := wScope (wNt g2 n1) ScCOMM).
    rewrite <- EV in V2.
    assert (newVar (pubFlag g0) (TEnv (gnt g0) (clab (ge g0)) (curCnt g0) (Z.of_nat d) (brkLab g0) (cntLab g0) (outp (ge g0))) nm g3) as NW.
    { constructor.
      - split; [exact (proj1 (proj1 A2))|]. exact (dims_def _ _ _ _ _ _ _ _ _ DN ltac:(lia) (proj2 I)).
      - unfold g3. gcbn. lia.
      - unfold g3. gcbn. congruence.
      - cbn [tN tC]. unfold g3. gcbn. rewrite M1, M2, K1, K2, <- EI. exact DN.
      - cbn [tN]. unfold g3. gcbn. rewrite L2, O2, L1, O1, M2, M6, M7, M8, K2, K4, K8, K9. reflexivity. }
    assert (curType g3 = tyCode (gnt g0) t /\ curDim g3 = Z.of_nat d) as (X1 & X2) by (unfold g3; gcbn; split; congruence).
    apply (y_getGVars (pubFlag g0) _ nm oi vr tr g3 rst T' NW); [exact SP|reflexivity|exact DV|exact V2| | | |].
    + rewrite X1, X2. exact NV.
    + rewrite X1. exact NI.
    + rewrite X1, X2. exact OV.
    + unfold g3. gcbn. congruence.
Qed.
Lemma y_progLoop p tp : derives_prog p tp -> forall F g rst T', atRest g -> gview g = tp ++ TSym EOFtok :: rst -> okProg opt krn (topOf g) p T' -> (glen g < F)%nat ->
  exists g', progLoop opt krn F g = POk g' /\ topOf g' = T'.
Proof.
  induction 1 as [|x p tx tp DT DP IH]; intros F g rst T' R V OP L; (destruct F as [|F]; [lia|]); cbn [progLoop].
  - cbn [app] in V. unfold gtok. rewrite (head_sym _ _ _ (proj1 (proj1 (proj1 R))) V). inversion OP; subst. exists g. split; reflexivity.
  - inversion OP as [|? ? T1 ? ? OT OPR]; subst. rewrite <- app_assoc in V.
    destruct (y_getProg g x tx _ T1 R DT V OT) as (g1 & E1 & R1 & TT & V1).
    pose proof (wp_getProg opt krn g) as WP. rewrite E1 in WP. cbn [wp] in WP. unfold eatG in WP.
    assert (gtok g <> EOFtok) as NE.
    { pose proof (noeof_prog [x] (tx ++ []) ltac:(constructor; [exact DT|constructor])) as NO. rewrite app_nil_r in NO. intros X.
      destruct tx as [|y tx]; [inversion DT; destruct pub; discriminate|]. cbn [app] in V. destruct (view_head _ _ _ (proj1 (proj1 (proj1 R))) V) as (i & O & E & _). unfold gtok in X. rewrite E in X.
      rewrite (proj2 (own_eof i) X) in O. subst y. discriminate NO. }
    destruct (Z.eqb_spec (gtok g) EOFtok) as [|_]; [contradiction|]. rewrite E1. cbn [pbind]. rewrite <- TT in OPR.
    exact (IH F g1 rst T' R1 V1 OPR ltac:(lia)).
Qed.
End Top.
Theorem compile_complete opt krn file l p ts T : lexAll file = LOk l -> unmarked l -> view l = ts ++ [TSym EOFtok] -> derives_prog p ts ->
  okProg opt krn tenv0 p T -> compile opt krn file = COut (tO T).
Proof.
  intros LX U V DP OP. unfold compile. rewrite LX.
  assert (atRest (gInit l)) as R.
  { split; [split; [split; [apply (good_init l 0 []), (lexAll_steady _ _ LX U)|constructor]|intros a b []]|]. cbn. split; [lia|reflexivity]. }
  destruct (y_progLoop opt krn p ts DP (S (List.length l)) (gInit l) [] T R) as (g' & E & TT).
  - unfold gview, gInit. gcbn. cbn [its]. rewrite skipFile_view. exact V.
  - exact OP.
  - unfold gInit, glen, len. gcbn. cbn [its]. pose proof (skipFile_len l). lia.
  - unfold psGetSrc. rewrite E, <- TT. reflexivity.
Qed.
