(* The C translator prints what CSourceSpec.v says. *)
From Coq Require Import ZArith Bool Lia String Ascii List Permutation.
From Verif Require Import Lexer LexProofs NameTable NameProofs SyTree OpTree COpTree OptLabs COptLabs VM VmCode Parser ParserStmt ParseSpec ParseSound ParseComplete ParseLabs ParseShow ProgInv ProgSpec ProgData ProgTop StmtSpec StmtSound StmtComplete ProgGram ProgSound DataSpec DataProofs DataParse CCode AsmText CFile CDataSpec CDataProofs CFileSpec CFileProofs CFileTop CSourceSpec CSourceRefs CSourceText.
Import ListNotations.
Open Scope Z_scope.
Notation depth := ParserStmt.depth.
Notation rest := ProgSound.rest.
Notation fine := ProgSound.fine.
Notation count := CSourceSpec.count.
Notation okS := StmtSpec.okS.

(* ---- printing ---- *)
Lemma put_text x p x' o : textOf (cps x) = Some o -> put x p = POk x' ->
  inhib x' = inhib x /\ CFile.nstr x' = CFile.nstr x /\ ntmp x' = ntmp x /\
  exists w, textOf (cps x') = Some (o ++ w) /\ (if inhib x then w = [] else pieceText p = Some w).
Proof.
  intros T H. unfold put in H. destruct (inhib x) eqn:IN.
  - injection H as <-. do 3 (split; [first [exact IN|reflexivity]|]). exists []. rewrite app_nil_r. split; [exact T|reflexivity].
  - destruct (pieceText p) as [w|] eqn:P; [|discriminate H]. injection H as <-. cbn [inhib CFile.nstr ntmp cps]. do 3 (split; [reflexivity|]). exists w. split; [exact (textOf_snoc _ _ _ _ T P)|reflexivity].
Qed.
Lemma putStrs_text g0 g x ss x' f o : outp (ge g) = outp (ge g0) ++ strOut (clab (ge g0)) ss -> textOf (cps x) = Some o -> putStrs g0 g x = (x', f) ->
  inhib x' = inhib x /\ CFile.nstr x' = CFile.nstr x + adds (inhib x) (count ss) /\ ntmp x' = ntmp x /\
  textOf (cps x') = Some (o ++ shown (inhib x) (cStrs (CFile.nstr x) ss)) /\
  (inhib x = false -> f = rank (numbered (clab (ge g0)) ss) (CFile.nstr x)).
Proof.
  intros E T H. unfold putStrs in H. rewrite E, skipn_app, Nat.sub_diag in H.
  replace (skipn (List.length (outp (ge g0))) (outp (ge g0))) with (@nil asm) in H by (symmetry; apply skipn_all). cbn [skipn app] in H.
  rewrite strsOf_strOut in H. unfold adds, shown. destruct (inhib x) eqn:IN; injection H as <- <-; cbn [inhib CFile.nstr ntmp cps].
  - rewrite IN. do 3 (split; [first [reflexivity|lia]|]). rewrite app_nil_r. split; [exact T|discriminate].
  - split; [reflexivity|]. rewrite numbered_len. split; [reflexivity|]. split; [reflexivity|]. split; [|reflexivity]. rewrite textOf_app, T, defines_text. reflexivity.
Qed.

Section Top.
Variables opt krn : bool.
(* ---- global variables ---- *)
Definition stateC (g : gs) (x : cst) (o : list Z) : cenv := CE (gnt g) (clab (ge g)) (curCnt g) (curDim g) (CFile.nstr x) (ntmp x) o.
Record newVarC (pub : bool) (T : cenv) (nm : list Z) (g : gs) (x : cst) : Prop := NewVarC {
  nc_fine : fine g; nc_dim : 0 <= curDim g; nc_pub : pubFlag g = pub;
  nc_def : ntDefName (cN T) nm ScCOMM (curType g) (curDim g) (cC T) pub = NOk (gnt g, ntGetSize (cN T));
  nc_top : T = CE (cN T) (clab (ge g)) (curCnt g) (curDim g) (CFile.nstr x) (ntmp x) (cO T);
  nc_text : textOf (cps x) = Some (cO T) }.
Lemma y_gvar n0 t d pub T nm g x g' x' : ext n0 (cN T) -> curType g = tyCode n0 t -> curDim g = Z.of_nat d -> newVarC pub T nm g x -> getGVarC g x = POk (g', x') ->
  fine g' /\ keep g g' /\ curType g' = curType g /\ curDim g' = curDim g /\ curCnt g' = curCnt g /\ inhib x' = inhib x /\ ext n0 (gnt g') /\
  exists o, textOf (cps x') = Some o /\
  (sign (gtok g') = true -> sign (gtok g) = true /\ exists oi ts, vgot g ts g' /\ derives_gvar (nm, oi) (TName nm :: ts) /\
     trGVar (inhib x) t (tyCode n0 t) d pub T (nm, oi) (stateC g' x' o)).
Proof.
  intros X0 TY DY [I D P DN ET TX] H. destruct T as [n l c k s m o]. cbn [cN cC cO] in *. injection ET as EL EC EK ES EM. subst l c k s m.
  destruct (StmtSound.def_app _ _ _ _ _ _ _ _ _ DN) as [EN _]. unfold getGVarC in H. cbv zeta in H. rewrite EN in H. rewrite size_snoc, srcGlob_snoc in H. cbn [nName] in H.
  set (idx := match prior n nm with Some i => i | None => -1 end) in H.
  assert (forall i, prior n nm = Some i -> 0 <= i < ntGetSize n) as PL by (intros i; apply prior_lt).
  assert (dimsOk n) as DN0. { destruct I as [_ DI]. rewrite EN in DI. apply dimsOk_app in DI. apply DI. }
  destruct (gIsTok cEQ g) as [g1|] eqn:TE.
  - destruct (x_is _ _ _ I TE ltac:(discriminate) eq_refl) as (T & I1 & G1 & S1 & L1). destruct (same_fields _ _ S1) as (N1 & CT1 & CD1 & CS1 & CC1).
    rewrite N1, EN, setScope_snoc in H. cbn [nName nType nDim nCnt nPub] in H.
    set (n1 := n ++ [Ent nm ScGVAR (curType g) (curDim g) (curCnt g) pub]) in H. set (g2 := wNt g1 n1) in H.
    assert (fine g2) as I2.
    { split; [exact (proj1 I1)|]. unfold g2. gcbn. unfold n1. apply dimsOk_app. split; [exact DN0|]. constructor; [exact D|constructor]. }
    match type of H with pbind (pbind ?r _) _ = _ => destruct r as [[a g3]| | |] eqn:E; cbn [pbind] in H; try discriminate H end.
    assert (curDim g2 = curDim g) as CD2 by exact CD1. assert (curType g2 = curType g) as CT2 by exact CT1.
    destruct (x_gini _ _ _ I2 ltac:(lia) E) as (I3 & S3 & R3). destruct (same_fields _ _ S3) as (N3 & CT3 & CD3 & CS3 & CC3).
    pose proof (ac_get _ _ _ (ac_init_of g2 ltac:(lia)) E) as [(_ & _ & _) (RQ & i0 & EI & TYI)]. cbn [fst snd] in *.
    rewrite CT2, CD2 in TYI.
    assert (exists sx, outp (ge g3) = outp (ge g) ++ strOut (clab (ge g)) sx /\ clab (ge g3) = clab (ge g) + count sx) as (sx & SX & SC).
    { destruct RQ as (_ & _ & sx & A & B). exists sx. change (ge g2) with (ge g1) in A, B. rewrite L1 in A, B. rewrite (got_out _ _ _ _ G1) in B. cbn [strOut] in B. rewrite app_nil_r in B. split; assumption. }
    assert (gnt g3 = n1) as N3' by exact N3. rewrite N3' in H. replace (dimAt n1 (ntGetSize n)) with (curDim g) in H by (unfold n1; rewrite dimAt_snoc; reflexivity).
    replace (typeAt n1 (ntGetSize n)) with (curType g) in H by (unfold n1; rewrite typeAt_snoc; reflexivity).
    destruct (putStrs g g3 x) as [x1 f] eqn:PS. destruct (putStrs_text _ _ _ _ _ _ _ SX TX PS) as (IN1 & NS1 & NT1 & TX1 & RK).
    match type of H with pbind (pbind ?r _) _ = _ => destruct r as [x2| | |] eqn:EX; cbn [pbind] in H; try discriminate H end.
    assert (ext n n1) as XN1 by apply ext_app. pose proof (ext_trans _ _ _ X0 XN1) as X1.
    assert (ntDefName n nm ScGVAR (curType g) (curDim g) (curCnt g) pub = NOk (n1, ntGetSize n)) as DN1 by (apply (def_glob _ _ ScCOMM ScGVAR _ _ _ _ _ _ ltac:(change ScLVAR with 4; change ScCOMM with 2; lia) ltac:(change ScLVAR with 4; change ScGVAR with 3; lia) DN)).
    (* what was printed *)
    assert (inhib x2 = inhib x /\ CFile.nstr x2 = CFile.nstr x + adds (inhib x) (count sx) /\ exists ds v w, textOf (cps x2) = Some (o ++ w) /\
      ((forall k, In k (strsD a) -> clab (ge g) < k <= clab (ge g) + count sx) ->
       if inhib x then w = [] /\ ntmp x2 = ntmp x
       else describes (tyCode n0 t) d (ntmp x) ds v (renumber (strNo (clab (ge g)) (CFile.nstr x)) i0) /\ ntmp x2 = ntmp x + Z.of_nat (List.length ds) /\
            w = cStrs (CFile.nstr x) sx ++ cData (nameAt n1) pub t d nm ds v)) as (IN2 & NS2 & ds & v & w & TX2 & PR).
    { rewrite IN1 in EX. destruct (inhib x) eqn:IN.
      - injection EX as <-. split; [exact IN1|]. split; [exact NS1|]. exists [], (IcNum 0), []. split; [exact TX1|]. intros _. split; [reflexivity|exact NT1].
      - destruct (dataC _ _ _ _) as [[[ds v] l2]|] eqn:DC in EX; [|discriminate EX].
        destruct (put x1 _) as [x3| | |] eqn:PT in EX; try discriminate EX. cbn [pbind] in EX. injection EX as <-. cbn [inhib CFile.nstr ntmp cps].
        destruct (put_text _ _ _ _ TX1 PT) as (J1 & J2 & J3 & w & J4 & J5). rewrite IN1 in J5. split; [congruence|]. split; [congruence|]. exists ds, v. eexists. rewrite <- app_assoc in J4. split; [exact J4|].
        intros RG. rewrite DY, TY, NT1 in DC. destruct (dataC_describes _ _ _ _ _ _ _ _ _ EI DC) as [DS ->]. split; [|split; [reflexivity|]].
        + rewrite (RK eq_refl) in DS. rewrite <- (renumber_ext (rank (numbered (clab (ge g)) sx) (CFile.nstr x))); [exact DS|]. intros k K. apply rank_range. apply RG.
          apply inits_strs. rewrite EI. cbn [flat_map]. rewrite app_nil_r. exact K.
        + cbn [shown]. f_equal. assert (at_ n1 (ntGetSize n) nm (tyCode n0 t) (Z.of_nat d) pub) as AT. { rewrite <- TY, <- DY. exact (at_def _ _ _ _ _ _ _ _ _ n1 DN1 (ext_refl _)). }
          exact (dataText_ok _ _ _ _ _ _ _ _ _ _ X1 AT J5). }
    clear EX TX1 PS.
    assert (keep g g3) as K3 by exact (keep_trans _ _ _ (same_keep _ _ S1) (keep_trans g1 g2 g3 (conj eq_refl (conj eq_refl (conj eq_refl (conj eq_refl eq_refl)))) (same_keep _ _ S3))).
    assert (forall t0, dimsOk t0 -> fine (wNt g3 t0)) as FI. { intros t0 Dt. split; gcbn; [exact (proj1 I3)|exact Dt]. }
    assert (forall z, POk z = POk (g', x') -> z = (g', x')) as INJ by (intros z Hz; injection Hz; auto).
    assert (sign (gtok g3) = true -> exists y ts, vgot g (TSym cEQ :: ts) g3 /\ derives_gini y ts /\ okIn (W := W32) n1 (curType g) (curDim g) (clab (ge g)) y a (clab (ge g3)) /\ stringsG y = sx) as R.
    { intros SG. destruct (R3 SG) as (y & ts & G3 & DG & OI). exists y, ts. split; [|split; [exact DG|split]].
      - pose proof (t_view _ _ _ _ G1) as V1. pose proof (t_view _ _ _ _ G3) as V3. unfold g2 in V3. gcbn. unfold vgot. rewrite V1, V3. reflexivity.
      - unfold g2 in OI. gcbn. rewrite CT1, CD1, L1 in OI. exact OI.
      - pose proof (got_out _ _ _ _ G3) as O3. unfold g2 in O3. gcbn. rewrite L1 in O3. rewrite (got_out _ _ _ _ G1) in O3. cbn [strOut] in O3. rewrite app_nil_r, SX in O3. apply app_inv_head in O3.
        clear - O3. revert O3. generalize (clab (ge g)). generalize (stringsG y) as b. induction sx as [|u sx IH]; intros [|v b] z E; try discriminate E; [reflexivity|]. cbn [strOut] in E. injection E as -> E. f_equal. exact (IH _ _ E). }
    assert (forall n2, match prior n nm with None => n2 = n1 | Some j => scopeAt n j = ScCOMM /\ agrees n j (curType g) (curDim g) pub /\ n2 = ntSetScope n j ScGVAR end ->
      sign (gtok g3) = true -> sign (gtok g) = true /\ exists oi ts, vgot g ts g3 /\ derives_gvar (nm, oi) (TName nm :: ts) /\
        trGVar (inhib x) t (tyCode n0 t) d pub (CE n (clab (ge g)) (curCnt g) (curDim g) (CFile.nstr x) (ntmp x) o) (nm, oi)
          (CE n2 (clab (ge g3)) (curCnt g) (curDim g) (CFile.nstr x2) (ntmp x2) (o ++ w))) as FIN.
    { intros n2 PN SG. split; [rewrite T; reflexivity|]. destruct (R SG) as (y & ts & V & DG & OI & <-). exists (Some y), (TSym cEQ :: ts). split; [exact V|]. split; [constructor; exact DG|].
      rewrite NS2. rewrite DY, TY in *. eapply (tg_init (inhib x) t (tyCode n0 t) d pub n (clab (ge g)) (curCnt g) (Z.of_nat d) (CFile.nstr x) (ntmp x) o nm n1 (ntGetSize n) y a (clab (ge g3)) i0 ds v n2 (ntmp x2) w);
        [exact DN1|exact PN|exact OI|exact SC|exact EI|rewrite Nat2Z.id in TYI; exact TYI|]. apply PR.
      destruct (proj1 (drng_in _ _) _ _ _ _ _ OI) as [_ RG]. rewrite <- SC. exact RG. }
    clear PR. destruct K3 as (K1 & K2 & K3 & K4 & K5).
    destruct (prior n nm) as [i|] eqn:PRI; unfold idx in H.
    + specialize (PL i eq_refl). destruct (Z.leb_spec 0 i) as [_|]; [|lia]. cbn [andb] in H.
      replace (scopeAt n1 i) with (scopeAt n i) in H by (unfold n1; rewrite ProgInv.scopeAt_app_l by lia; reflexivity).
      destruct (Z.eqb_spec (scopeAt n i) ScCOMM) as [SCO|]; cbn [negb pbind] in H; [|discriminate H].
      unfold n1 in H. rewrite setScope_app in H by lia. rewrite <- (size_setScope n i ScGVAR), undef_snoc in H. gcbn.
      destruct (perr_if _ _) as [u| | |] eqn:PE; cbn [pbind] in H; try discriminate H. apply INJ in H. injection H as <- <-.
      assert (agrees n i (curType g) (curDim g) pub) as AG.
      { apply (agrees_setScope n i ScGVAR). apply agrees_b. unfold perr_if in PE. match type of PE with (if ?b then _ else _) = _ => destruct b eqn:B; [discriminate PE|] end. gcbn.
        rewrite CT3, CD3, K2, P in B. unfold g2 in B. gcbn. rewrite CT1, CD1 in B. exact B. }
      split; [apply FI, dims_setScope; exact DN0|]. split; [repeat split; gcbn; assumption|]. gcbn. split; [congruence|]. split; [congruence|].
      split; [rewrite CC3; unfold g2; gcbn; congruence|]. split; [exact IN2|]. split; [apply (ext_trans _ _ _ X0), ext_core, core_setScope|].
      exists (o ++ w). split; [exact TX2|]. unfold stateC. gcbn. replace (curCnt g3) with (curCnt g) by (rewrite CC3; unfold g2; gcbn; congruence). rewrite CD3, CD2.
      apply FIN. split; [exact SCO|]. split; [exact AG|reflexivity].
    + cbn [pbind andb] in H. change (0 <=? -1) with false in H. cbn [pbind andb perr_if] in H. apply INJ in H. injection H as <- <-.
      split; [split; [exact (proj1 I3)|exact (proj2 I3)]|]. split; [repeat split; gcbn; assumption|]. gcbn. split; [congruence|]. split; [congruence|].
      split; [rewrite CC3; unfold g2; gcbn; congruence|]. split; [exact IN2|]. split; [rewrite N3'; exact X1|].
      exists (o ++ w). split; [exact TX2|]. unfold stateC. gcbn. replace (curCnt g3) with (curCnt g) by (rewrite CC3; unfold g2; gcbn; congruence). rewrite CD3, CD2, N3'.
      apply FIN. reflexivity.
  - destruct (prior n nm) as [i|] eqn:PR; unfold idx in H.
    + specialize (PL i eq_refl). destruct (Z.leb_spec 0 i) as [_|]; [|lia]. rewrite ProgInv.scopeAt_app_l, undef_snoc in H by lia.
      destruct (_ || _) eqn:B in H; cbn [pbind] in H; [|discriminate H]. gcbn. cbn [andb] in H.
      destruct (perr_if _ _) as [u| | |] eqn:PE; cbn [pbind] in H; try discriminate H. injection H as <- <-.
      assert (agrees n i (curType g) (curDim g) pub) as AG.
      { apply agrees_b. unfold perr_if in PE. match type of PE with (if ?b then _ else _) = _ => destruct b eqn:B2; [discriminate PE|] end.  rewrite P in B2. exact B2. }
      split; [split; gcbn; [exact (proj1 I)|exact DN0]|]. split; [repeat split|]. gcbn. split; [reflexivity|]. split; [reflexivity|]. split; [reflexivity|]. split; [reflexivity|]. split; [exact X0|].
      exists o. split; [exact TX|].
      intros SG. split; [exact SG|]. exists None, []. split; [reflexivity|]. split; [constructor|]. unfold stateC. gcbn. rewrite DY, TY in *.
      eapply tg_again; [exact DN|exact PR| |exact AG]. apply orb_true_iff in B. destruct B as [B|B]; apply Z.eqb_eq in B; auto.
    + change (0 <=? -1) with false in H. cbn [pbind andb perr_if] in H.
      destruct (put x _) as [x1| | |] eqn:PT; cbn [pbind] in H; try discriminate H. injection H as <- <-. destruct (put_text _ _ _ _ TX PT) as (J1 & J2 & J3 & w & J4 & J5).
      pose proof (ext_trans _ _ _ X0 (ext_def _ _ _ _ _ _ _ _ _ DN)) as X1.
      split; [exact I|]. split; [repeat split|]. split; [reflexivity|]. split; [reflexivity|]. split; [reflexivity|]. split; [exact J1|]. split; [exact X1|].
      exists (o ++ w). split; [exact J4|].
      intros SG. split; [exact SG|]. exists None, []. split; [reflexivity|]. split; [constructor|]. unfold stateC. rewrite J2, J3.
      assert (w = shown (inhib x) (cDecl pub t d nm ++ codes ";" ++ nl)) as ->.
      { unfold shown. destruct (inhib x); [exact J5|]. cbn [pieceText] in J5. unfold bssText in J5. apply cat_some in J5. destruct J5 as (p & q & PG & PQ & ->). apply some_inj in PQ. subst q.
        assert (at_ (gnt g) (ntGetSize n) nm (tyCode n0 t) (Z.of_nat d) pub) as AT. { rewrite <- TY, <- DY. exact (at_def _ _ _ _ _ _ _ _ _ _ DN (ext_refl _)). }
        rewrite <- EN in PG. destruct (globDcl_word _ _ _ _ _ _ _ _ X1 AT PG) as [-> _]. reflexivity. }
      rewrite DY, TY in *. eapply tg_new; [exact DN|exact PR].
Qed.
Lemma y_gvarsLoop n0 t d pub F : forall g x g' x' o, fine g -> curType g = tyCode n0 t -> curDim g = Z.of_nat d -> curScope g = ScCOMM -> pubFlag g = pub -> ext n0 (gnt g) -> textOf (cps x) = Some o ->
  gvarsLoopC krn F g x = POk (g', x') ->
  fine g' /\ keep g g' /\ curType g' = curType g /\ curDim g' = curDim g /\ inhib x' = inhib x /\ ext n0 (gnt g') /\ exists o', textOf (cps x') = Some o' /\
  (sign (gtok g') = true -> sign (gtok g) = true /\ exists vs ts, vgot g ts g' /\ moreC derives_gvar vs ts /\
     trGVars (inhib x) t (tyCode n0 t) d pub (stateC g x o) vs (stateC g' x' o')).
Proof.
  induction F as [|F IH]; intros g x g' x' o I TY DY S P X0 TX H; [discriminate H|]. cbn [gvarsLoopC] in H. destruct (gIsTok cCOMMA g) as [g1|] eqn:TC.
  - destruct (x_is _ _ _ I TC ltac:(discriminate) eq_refl) as (T & I1 & G1 & S1 & L1). destruct (same_fields _ _ S1) as (N1 & CT1 & CD1 & CS1 & CC1).
    pose proof (same_keep _ _ S1) as K1.
    destruct (getName krn (pubFlag g1) g1) as [[i g2]| | |] eqn:E2; cbn [pbind] in H; try discriminate.
    destruct (x_name _ _ _ _ _ I1 ltac:(lia) E2) as (nm & I2 & _ & DN & Q & L & O & GT).
    assert (keep g1 g2 /\ curDim g2 = curDim g1 /\ curType g2 = curType g1 /\ curCnt g2 = curCnt g1) as (K2 & CD2 & CT2 & CC2) by (rewrite Q; gcbn; repeat split).
    destruct (getGVarC g2 x) as [[g3 x3]| | |] eqn:E3; cbn [pbind] in H; try discriminate.
    assert (newVarC pub (stateC g x o) nm g2 x) as NV.
    { pose proof K1 as (A1 & A2 & A3 & A4 & A5). pose proof K2 as (B1 & B2 & B3 & B4 & B5).
      constructor; [exact I2|lia|congruence| | |exact TX].
      - cbn [stateC cN cC]. destruct (StmtSound.def_app _ _ _ _ _ _ _ _ _ DN) as [_ EI]. rewrite EI, CS1, S, CT1, CD1, CC1, N1, A2, P in DN. rewrite CT2, CD2, CT1, CD1. exact DN.
      - unfold stateC. cbn [cN cO]. rewrite L, L1, CC2, CC1, CD2, CD1. reflexivity. }
    destruct (y_gvar n0 t d pub (stateC g x o) nm g2 x g3 x3 X0 ltac:(congruence) ltac:(congruence) NV E3) as (I3 & K3 & CT3 & CD3 & CC3 & IN3 & X3 & o3 & TX3 & R3).
    pose proof (keep_trans _ _ _ (keep_trans _ _ _ K1 K2) K3) as K13. pose proof K13 as (A1 & A2 & _).
    destruct (IH g3 x3 g' x' o3 I3 ltac:(congruence) ltac:(congruence) ltac:(congruence) ltac:(congruence) X3 TX3 H) as (I4 & K4 & CT4 & CD4 & IN4 & X4 & o4 & TX4 & R4).
    split; [exact I4|]. split; [exact (keep_trans _ _ _ K13 K4)|]. split; [congruence|]. split; [congruence|]. split; [congruence|]. split; [exact X4|]. exists o4. split; [exact TX4|].
    intros SG. destruct (R4 SG) as (SG3 & vs & ts & V4 & M & OV). destruct (R3 SG3) as (SG2 & oi & ti & V3 & DV & OG). split; [rewrite T; reflexivity|].
    exists ((nm, oi) :: vs), (TSym cCOMMA :: (TName nm :: ti) ++ ts). split; [|split].
    + exact (vgot_trans _ _ _ _ _ (got_v _ _ _ _ G1) (vgot_trans _ _ _ _ _ (vgot_trans _ _ _ _ _ (got_v _ _ _ _ (GT SG2)) V3) V4)).
    + right. eexists. split; [reflexivity|]. apply more_commas; [exact DV|exact M].
    + rewrite IN3 in OV. econstructor; [exact OG|exact OV].
  - injection H as <- <-. split; [exact I|]. split; [apply keep_refl|]. split; [reflexivity|]. split; [reflexivity|]. split; [reflexivity|]. split; [exact X0|]. exists o. split; [exact TX|]. intros SG. split; [exact SG|].
    exists [], []. split; [reflexivity|]. split; [left; auto|constructor].
Qed.
Lemma y_getGVars n0 t d pub T nm g x g' x' : ext n0 (cN T) -> curType g = tyCode n0 t -> curDim g = Z.of_nat d -> newVarC pub T nm g x -> curScope g = ScCOMM -> getGVarsC krn g x = POk (g', x') ->
  fine g' /\ keep g g' /\ curDim g' = curDim g /\ sign (gtok g) = true /\ inhib x' = inhib x /\ exists o, textOf (cps x') = Some o /\
  exists vs ts, vgot g (ts ++ [TSym cSEMI]) g' /\ ProgGram.commas derives_gvar vs (TName nm :: ts) /\ trGVars (inhib x) t (tyCode n0 t) d pub T vs (stateC g' x' o).
Proof.
  intros X0 TY DY NV SC H. unfold getGVarsC in H. destruct (getGVarC g x) as [[g1 x1]| | |] eqn:E1; cbn [pbind] in H; try discriminate.
  destruct (y_gvar _ _ _ _ _ _ _ _ _ _ X0 TY DY NV E1) as (I1 & K1 & CT1 & CD1 & CC1 & IN1 & X1 & o1 & TX1 & R1). pose proof K1 as (A1 & A2 & _). pose proof (nc_pub _ _ _ _ _ NV).
  destruct (gvarsLoopC krn (gfuel g1) g1 x1) as [[g2 x2]| | |] eqn:E2; cbn [pbind] in H; try discriminate.
  destruct (y_gvarsLoop n0 t d pub _ _ _ _ _ _ I1 ltac:(congruence) ltac:(congruence) ltac:(congruence) ltac:(congruence) X1 TX1 E2) as (I2 & K2 & CT2 & CD2 & IN2 & X2 & o2 & TX2 & R2).
  destruct (gChkTok cSEMI g2) as [g3| | |] eqn:E3; cbn [pbind] in H; try discriminate. injection H as <- <-.
  destruct (x_chk _ _ _ I2 E3 ltac:(discriminate) eq_refl) as (T3 & I3 & G3 & S3 & L3).
  destruct (R2 ltac:(rewrite T3; reflexivity)) as (SG1 & vs & ts & V2 & M & OV). destruct (R1 SG1) as (SG & oi & ti & V1 & DV & OG).
  destruct (same_fields _ _ S3) as (N3 & CT3 & CD3 & CS3 & CC3). pose proof (same_keep _ _ S3) as K3.
  split; [exact I3|]. split; [exact (keep_trans _ _ _ (keep_trans _ _ _ K1 K2) K3)|]. split; [congruence|]. split; [exact SG|]. split; [congruence|]. exists o2. split; [exact TX2|].
  exists ((nm, oi) :: vs), (ti ++ ts). split; [|split].
  - rewrite <- app_assoc. exact (vgot_trans _ _ _ _ _ V1 (vgot_trans _ _ _ _ _ V2 (got_v _ _ _ _ G3))).
  - exact (more_commas derives_gvar (nm, oi) vs (TName nm :: ti) ts DV M).
  - replace (stateC g3 x2 o2) with (stateC g2 x2 o2). { rewrite IN1 in OV. econstructor; [exact OG|exact OV]. }
    unfold stateC. rewrite N3, L3, CC3, CD3. reflexivity.
Qed.
Lemma y_func n nm pub t d0 c0 g x g' x' o : rest g -> gtok g = cLP -> pubFlag g = pub -> nameOk krn g -> curType g <> TyNON -> curType g = tyCode n t ->
  forall d, curDim g = Z.of_nat d -> ntDefName n nm ScPROT (curType g) (curDim g) c0 pub = NOk (gnt g, ntGetSize n) ->
  curScope g = ScPROT -> textOf (cps x) = Some o ->
  getFuncC opt krn g x = POk (g', x') ->
  rest g' /\ inhib x' = inhib x /\ exists o', textOf (cps x') = Some o' /\ exists ps e bd tp tb, vgot g (TSym cLP :: tp ++ TSym cRP :: tb) g' /\ derives_params ps e tp /\ derives_body bd tb /\
    trTop opt krn (inhib x) (CE n (clab (ge g)) c0 d0 (CFile.nstr x) (ntmp x) o) (PFunc pub t d nm ps e bd) (stateC g' x' o').
Proof.
  intros (I & D & DP) TK P [_ NI] NN CT d CD DN SC TX H. destruct (def_app _ _ _ _ _ _ _ _ _ DN) as [EN _].
  pose proof (ProgInv.size_nonneg n) as PN.
  assert (ntGetSize (gnt g) - 1 = ntGetSize n) as SZ by (rewrite EN; apply size_snoc).
  unfold getFuncC in H. cbv zeta in H. rewrite SZ in H. gcbn.
  set (prev := prior n nm). set (idx := ntSrcGlob (gnt g) (ntGetSize n)) in H.
  assert (idx = match prev with Some i => i | None => -1 end) as EI by (unfold idx; rewrite EN, srcGlob_snoc; reflexivity).
  assert (idx + 1 = idxOf prev) as EI1 by (rewrite EI; destruct prev; reflexivity).
  assert (forall i, prev = Some i -> 0 <= i < ntGetSize n) as PL by (intros i; apply prior_lt).
  assert (forall i, prev = Some i -> (0 <=? idx) = true /\ idx = i) as PI.
  { intros i E. rewrite EI, E. split; [|reflexivity]. apply Z.leb_le. apply PL. exact E. }
  match type of H with pbind ?r _ = _ => destruct r as [u1| | |] eqn:B1; cbn [pbind] in H; try discriminate H end.
  match type of H with pbind ?r _ = _ => destruct r as [u2| | |] eqn:B2; cbn [pbind] in H; try discriminate H end.
  match type of H with pbind ?r _ = _ => destruct r as [u3| | |] eqn:B3; cbn [pbind] in H; try discriminate H end.
  apply perr_ok in B1, B2, B3.
  destruct (x_next g cLP I TK ltac:(discriminate) eq_refl) as [I1 G1]. unfold gGetTok in H, I1, G1. gcbn.
  set (g1 := wScope (wLast (wE (wFunc g (ntGetSize n)) (getTok (ge g))) LxNONTOK) ScPRM) in H.
  assert (fine g1) as I1' by exact I1.
  rewrite EI1 in H.
  match type of H with pbind ?r _ = _ => destruct r as [g2| | |] eqn:E2; cbn [pbind] in H; try discriminate H end.
  destruct (x_params krn prev g1 g2 (fun i E => proj1 (PL i E)) I1' D eq_refl E2) as (I2 & D2 & ((K1 & K2 & K3 & K4 & K5) & K6 & K7) & ps & e & tp & G2 & DPS & OP).
  unfold g1 in K1, K2, K3, K4, K5, K6, K7, OP. gcbn.
  destruct (okParams_app _ _ _ _ _ _ _ _ _ OP) as [r ER].
  assert (ntGetSize (gnt g) = ntGetSize n + 1) as SZ1 by lia.
  assert (ntGetSize (gnt g2) = ntGetSize n + 1 + Z.of_nat (List.length r)) as SZ2 by (rewrite ER, StmtSound.size_app; lia).
  rewrite SZ1 in H. set (prm := ntGetSize (gnt g2) - ntGetSize n - 1).
  replace (ntGetSize (gnt g2) - (ntGetSize n + 1)) with prm in H by (unfold prm; lia).
  assert (typeAt (gnt g2) (ntGetSize n) = curType g) as TA.
  { rewrite ER, StmtSound.typeAt_app by lia. rewrite EN, typeAt_snoc. reflexivity. }
  assert (dimAt (gnt g2) (ntGetSize n) = curDim g) as DA.
  { rewrite ER, StmtSound.dimAt_app by lia. rewrite EN, dimAt_snoc. reflexivity. }
  rewrite TA in H.
  match type of H with pbind ?r _ = _ => destruct r as [u4| | |] eqn:B4; cbn [pbind] in H; try discriminate H end.
  match type of H with pbind ?r _ = _ => destruct r as [u5| | |] eqn:B5; cbn [pbind] in H; try discriminate H end.
  apply perr_ok in B4, B5. gcbn. rewrite (cntAt_setCnt (gnt g2) (ntGetSize n) prm) in B5 by lia.
  assert (okHead krn n c0 pub (tyCode n t) (Z.of_nat d) nm ps e prev (ntGetSize n) (gnt g2) (curCnt g2) (curDim g2) prm) as HD.
  { constructor.
    - rewrite <- CT, <- CD. split; [exact NN|]. intros X. split; [exact (NI X)|]. rewrite X, Z.eqb_refl in B3, B4. cbn [andb] in B3, B4.
      apply negb_false_iff, Z.eqb_eq in B3, B4. split; assumption.
    - reflexivity.
    - intros i E. destruct (PI i E) as [X Y]. specialize (PL i E). rewrite X, Y in B1, B2. cbn [andb] in B1, B2.
      apply orb_false_iff in B1. destruct B1 as [B1 B1']. apply Z.eqb_neq in B1, B1'. rewrite EN, ProgInv.scopeAt_app_l in B1, B1' by lia.
      split; [exact B1|]. split; [exact B1'|]. rewrite P in B2. apply agrees_b in B2. rewrite EN in B2. apply agrees_app in B2; [|lia]. rewrite <- CT, <- CD. exact B2.
    - exists (gnt g). split; [rewrite <- CT, <- CD; exact DN|]. rewrite <- CD. exact OP.
    - reflexivity.
    - intros i E. destruct (PI i E) as [X Y]. specialize (PL i E). rewrite X, Y in B5. cbn [andb] in B5. apply negb_false_iff, Z.eqb_eq in B5. rewrite <- B5.
      unfold cntAt. rewrite ent_setCnt_other by lia. rewrite ER, ProgInv.ent_app_l by lia. rewrite EN, ProgInv.ent_app_l by lia. reflexivity. }
  assert (got g (TSym cLP :: tp ++ [TSym cRP]) [] g2) as G12.
  { exact (got_trans g [TSym cLP] [] (wE g (getTok (ge g))) _ _ _ G1 (got_from (wE g (getTok (ge g))) g1 _ _ _ G2 eq_refl eq_refl)). }
  assert (clab (ge g2) = clab (ge g)) as L2 by (rewrite (got_clab _ _ _ _ G12); cbn [List.length]; lia).
  assert (outp (ge g2) = outp (ge g)) as O2 by (rewrite (got_out _ _ _ _ G12); cbn [strOut]; apply app_nil_r).
  set (n3 := ntSetCnt (gnt g2) (ntGetSize n) prm) in *. set (g3 := wNt g2 n3) in *.
  assert (fine g3) as I3 by (split; [exact (proj1 I2)|unfold g3, n3; gcbn; apply dims_setCnt; exact (proj2 I2)]).
  assert (ntGetSize n3 = ntGetSize (gnt g2)) as SZ3 by apply size_setCnt.
  rewrite SZ3 in H.
  assert (exists g7, g' = (if 0 <=? idx then wNt g7 (ntUndefName (gnt g7) (ntGetSize n)) else wNt g7 (ntSetVoid (ntUndefName (gnt g7) (ntGetSize (gnt g2))) (ntGetSize n + 1))) /\
    (let gg0 := g in match gIsTok cLC g3 with
     | Some g =>
       let g := wScope g ScLVAR in
       let+ _ := perr_if ((0 <=? idx) && negb (scopeAt (gnt g) idx =? ScPROT)) XFuncTwice in
       let g := if 0 <=? idx then wNt g (ntSetScope (gnt g) idx ScFUNC) else g in
       let g := wNt g (ntSetScope (gnt g) (ntGetSize n) ScFUNC) in
       let g := wCnt (wMax g 0) 0 in
       let+ (root, g) := getBlock krn (getStat krn) g in
       let+ _ := perr_if ((negb (typeAt (gnt g) (ntGetSize n) =? TyVOID) || negb (dimAt (gnt g) (ntGetSize n) =? 0)) &&
                          negb (typeAt (gnt g) (ntGetSize n) =? TyINTR) && negb (lastStat g =? LxRETURN)) XNoReturn in
       let+ root := (if opt then lift_opt (cOptTree root) else POk root) in
       let (x, f) := putStrs gg0 g x in
       let+ x := put x (PFun (gnt g) (ntGetSize n) (renS f root)) in
       POk (g, x)
     | None =>
       let+ g := gChkTok cSEMI g3 in
       let+ x := put x (PProto (gnt g) (ntGetSize n)) in
       POk (g, x)
     end) = POk (g7, x')) as (g7 & EG' & H7).
  { match type of H with pbind ?r _ = _ => destruct r as [[g7 x7]| | |] eqn:E7; cbn [pbind] in H; try discriminate H end. injection H as <- <-. exists g7. split; [reflexivity|first [exact E7|reflexivity]]. }
  clear H.
  assert (ge g' = ge g7 /\ curDim g' = curDim g7 /\ depth g' = depth g7 /\ gnt g' = settle prev (ntGetSize n) (ntGetSize n + 1) (ntGetSize (gnt g2)) (gnt g7) /\
    curCnt g' = curCnt g7 /\ brkLab g' = brkLab g7 /\ cntLab g' = cntLab g7) as (GE & GD & GDP & GN & GC & GB & GK).
  { rewrite EG'. unfold settle. destruct prev as [i|] eqn:EP; [destruct (PI i eq_refl) as [X Y]; rewrite X; repeat split|]. rewrite EI. repeat split. }
  clear EG'.
  assert (fine g7 -> 0 <= curDim g7 -> depth g7 = 0 -> rest g') as RS.
  { intros [X1 X2] X3 X4. split; [split; [rewrite GE; exact X1|rewrite GN; unfold settle; destruct prev; [apply dims_undef|apply dims_setVoid, dims_undef]; exact X2]|]. split; [lia|congruence]. }
  assert (vgot g (TSym cLP :: tp ++ [TSym cRP]) g2) as V2 by exact (t_view _ _ _ _ G12).
  destruct (gIsTok cLC g3) as [g4|] eqn:TL.
  - destruct (x_is _ _ _ I3 TL ltac:(discriminate) eq_refl) as (T4 & I4 & G4 & S4 & L4). destruct (same_fields _ _ S4) as (N4 & CT4 & CD4 & CS4 & CC4).
    assert (brkLab g4 = brkLab g3 /\ cntLab g4 = cntLab g3 /\ depth g4 = depth g3 /\ funcIdx g4 = funcIdx g3 /\ lastStat g4 = lastStat g3) as (BL4 & CL4 & DP4 & FX4 & LS4) by (rewrite S4; repeat split; auto).
    cbv zeta in H7. gcbn. rewrite N4 in H7. unfold g3 in N4. gcbn.
    match type of H7 with pbind ?r _ = _ => destruct r as [u6| | |] eqn:B6; cbn [pbind] in H7; try discriminate H7 end. apply perr_ok in B6.
    assert (forall i, prev = Some i -> scopeAt n i = ScPROT) as PROT.
    { intros i E. destruct (PI i E) as [X Y]. specialize (PL i E). rewrite X, Y in B6. cbn [andb] in B6. apply negb_false_iff, Z.eqb_eq in B6.
      unfold g3, n3 in B6. gcbn. rewrite scopeAt_setCnt, ER, ProgInv.scopeAt_app_l in B6 by lia. rewrite EN, ProgInv.scopeAt_app_l in B6 by lia. exact B6. }
    match type of H7 with pbind (getBlock _ _ ?gg) _ = _ => set (g5 := gg) in H7 end.
    assert (gnt g5 = enter prev (ntGetSize n) n3 /\ ge g5 = ge g4 /\ curScope g5 = ScLVAR /\ curCnt g5 = 0 /\ maxCnt g5 = 0 /\ curDim g5 = curDim g4 /\ depth g5 = depth g4 /\
            funcIdx g5 = funcIdx g4 /\ lastStat g5 = lastStat g4 /\ brkLab g5 = brkLab g4 /\ cntLab g5 = cntLab g4) as (N5 & E5 & SC5 & CC5 & M5 & CD5 & DP5 & FX5 & LS5 & BL5 & CL5).
    { unfold g5. destruct prev as [i|] eqn:EP.
      - destruct (PI i eq_refl) as [X Y]. rewrite X, Y. gcbn. unfold g3. gcbn. repeat split.
      - rewrite EI. change (0 <=? -1) with false. cbn iota. gcbn. unfold g3. gcbn. rewrite N4. repeat split. }
    clearbody g5.
    assert (typeAt (gnt g5) (ntGetSize n) = curType g /\ dimAt (gnt g5) (ntGetSize n) = curDim g /\ ntGetSize (gnt g5) = ntGetSize (gnt g2) /\ dimsOk (gnt g5)) as (TA5 & DA5 & SZ5 & DO5).
    { rewrite N5. unfold enter. rewrite typeAt_setScope, dimAt_setScope, size_setScope. destruct prev; rewrite ?typeAt_setScope, ?dimAt_setScope, ?size_setScope; unfold n3; rewrite typeAt_setCnt, dimAt_setCnt, size_setCnt; (split; [exact TA|]); (split; [exact DA|]); (split; [reflexivity|]);
        repeat apply dims_setScope; apply dims_setCnt; exact (proj2 I2). }
    assert (StmtSound.inv (ntGetSize n) (curType g) (curDim g) g5) as IV.
    { constructor; [rewrite E5; exact (proj1 I4)|exact DO5| |exact SC5| |lia|exact TA5|exact DA5].
      - rewrite DP5, DP4. unfold g3. gcbn. lia.
      - rewrite FX5, FX4. unfold g3. gcbn. exact K6. }
    destruct (getBlock krn (getStat krn) g5) as [[root0 g6]| | |] eqn:E6; cbn [pbind] in H7; try discriminate H7.
    destruct (s_seq krn _ _ _ _ (s_stat krn _ _ _) _ _ _ IV E6) as (IV6 & q & ts & y & E' & G6 & QD & -> & EE & OQ & LR).
    pose proof (ac_get _ _ _ (fr_block krn _ (fun h => fr_stat krn (gfuel h) h) g5) E6) as (F6 & F6' & F6''). cbn [snd] in F6, F6', F6''.
    destruct IV6 as [GO6 DO6 DP6 SC6 FX6 SZ6 TA6 DA6]. rewrite TA6, DA6 in H7.
    match type of H7 with pbind ?r _ = _ => destruct r as [u7| | |] eqn:B7; cbn [pbind] in H7; try discriminate H7 end. apply perr_ok in B7.
    assert (lastStat g5 =? LxRETURN = false) as LN. { rewrite LS5, LS4. unfold g3. gcbn. rewrite K7. reflexivity. }
    rewrite LN in LR.
    assert (0 <? depth g5 = false) as LD. { apply Z.ltb_ge. rewrite DP5, DP4. unfold g3. gcbn. lia. }
    rewrite LD in OQ.
    assert (envOf g5 = Env (enter prev (ntGetSize n) n3) (clab (ge g)) 0 0 (curDim g2)) as EV5.
    { unfold envOf. rewrite N5, CC5, M5, CD5, CD4, E5, L4. unfold g3. gcbn. rewrite L2. reflexivity. }
    set (E := Env (enter prev (ntGetSize n) n3) (clab (ge g)) 0 0 (curDim g2)) in *. rewrite EV5 in EE, OQ.
    destruct (if opt then lift_opt (cOptTree (StmtSpec.block y)) else POk (StmtSpec.block y)) as [root| | |] eqn:OR; cbn [pbind] in H7; try discriminate H7.
    injection EE as EN6 EL6 EC6 EM6 ED6.
    destruct (putStrs g g6 x) as [x1 f] eqn:PS in H7. destruct (put x1 _) as [x2| | |] eqn:PT in H7; cbn [pbind] in H7; try discriminate H7. injection H7 as <- <-.
    assert (outp (ge g6) = outp (ge g) ++ strOut (clab (ge g)) (stringsQ q)) as OUT.
    { rewrite (got_out _ _ _ _ G6), E5, (got_out _ _ _ _ G4). unfold g3. gcbn. rewrite L4. unfold g3. gcbn. rewrite O2, L2. cbn [strOut]. rewrite app_nil_r. reflexivity. }
    destruct (putStrs_text _ _ _ _ _ _ _ OUT TX PS) as (IN1 & NS1 & NT1 & TX1 & FR). destruct (put_text _ _ _ _ TX1 PT) as (IN2 & NS2 & NT2 & w & TX2 & WT).
    assert (clab (ge g6) = clab (ge g) + count (stringsQ q)) as CL6.
    { rewrite (got_clab _ _ _ _ G6), E5, L4. unfold g3. gcbn. rewrite L2. reflexivity. }
    rewrite CT, CD in OQ, B7.
    assert (if opt then cOptTree (StmtSpec.block y) = Ok root else root = StmtSpec.block y) as RO.
    { clear - OR. destruct opt; [|injection OR; auto]. destruct (cOptTree (StmtSpec.block y)); [injection OR as ->; reflexivity|discriminate OR]. }
    assert (inhib x = false -> renS f root = renS (strNo (clab (ge g)) (CFile.nstr x)) root) as RN.
    { intros HI. rewrite (FR HI). apply renS_ext. intros k K. apply rank_range.
      assert (In (RStr k) (refsS y)) as KY.
      { rewrite <- refs_block. clear - RO K. destruct opt; [apply (cOptTree_labs _ _ RO); exact K|subst root; exact K]. }
      pose proof (proj2 (rng_stmt _ _) _ _ _ _ _ _ OQ (clab (ge g)) ltac:(unfold E; cbn [eL]; lia) (rng_nil _ _) k KY) as KR.
      rewrite <- EL6, CL6 in KR. exact KR. }
    assert (ext (gnt g2) (eN (leave E E')) /\ cntAt (eN (leave E E')) (ntGetSize n) = prm) as [XL CN].
    { pose proof (more_leave _ _ (proj2 (more_stmt _ _) _ _ _ _ _ _ OQ)) as [r1 R1]. split.
      - rewrite R1. apply (ext_trans _ (eN E)); [|apply ext_app]. unfold E. cbn [eN]. apply (ext_trans _ n3); [apply ext_core; unfold n3; apply core_setCnt|apply ext_enter].
      - rewrite R1. unfold cntAt. assert (ntGetSize (eN E) = ntGetSize (gnt g2)) as SE by (unfold E; cbn [eN]; rewrite <- N5; exact SZ5). rewrite ProgInv.ent_app_l by lia. fold (cntAt (eN E) (ntGetSize n)).
        unfold E. cbn [eN]. unfold enter. rewrite cntAt_setScope. destruct prev; rewrite ?cntAt_setScope; unfold n3; apply cntAt_setCnt; lia. }
    split.
    { apply RS; [split; assumption| |].
      - apply F6''. rewrite CD5, CD4. unfold g3. gcbn. exact D2.
      - rewrite (t_depth _ _ _ _ G6), DP5, DP4. unfold g3. gcbn. congruence. }
    split; [congruence|]. eexists. split; [exact TX2|].
    exists ps, e, (Some q), tp, (TSym cLC :: ts ++ [TSym cRC]). split; [|split; [exact DPS|split; [constructor; exact QD|]]].
    + pose proof (t_view _ _ _ _ G4) as V4. pose proof (t_view _ _ _ _ G6) as V6. rewrite E5 in V6. unfold g3 in V4. gcbn. unfold vgot in *. rewrite GE.
      rewrite V2, V4, V6. repeat (rewrite <- app_assoc || rewrite <- app_comm_cons || cbn [app]); reflexivity.
    + unfold stateC. rewrite GE, GN, GC, GD, EL6, EC6, ED6, EN6, NS2, NS1, NT2, NT1, <- app_assoc.
      change (eC (leave E E')) with 0. change (eD (leave E E')) with (eD E'). change (eL (leave E E')) with (eL E').
      eapply (tt_func opt krn (inhib x) n (clab (ge g)) c0 d0 (CFile.nstr x) (ntmp x) o pub t d nm ps e prev (ntGetSize n) (gnt g2) (curCnt g2) (curDim g2) prm q y E E' root);
        [exact HD| |exact PROT|reflexivity|exact OQ| |exact RO|].
      * intros TI. destruct (inhib x) eqn:HI; [reflexivity|exfalso]. rewrite IN1 in WT. cbn [pieceText] in WT. unfold funcText in WT. apply cat_some in WT. destruct WT as (w1 & w2 & W1 & _ & _).
        rewrite EN6 in W1. apply (funcDcl_ok _ _ _ _ _ _ _ _ _ _ _ _ _ _ _ _ _ HD XL CN) in W1. destruct W1 as [_ W1]. exact (W1 TI).
      * intros VF. apply valued_b in VF. rewrite VF in B7. cbn [andb] in B7. apply negb_false_iff in B7. rewrite <- LR. exact B7.
      * rewrite IN1 in WT. unfold shown. destruct (inhib x) eqn:HI; [subst w; reflexivity|]. cbn [pieceText] in WT. unfold funcText in WT. apply cat_some in WT. destruct WT as (w1 & w2 & W1 & W2 & ->).
        rewrite EN6 in W1, W2. apply (funcDcl_ok _ _ _ _ _ _ _ _ _ _ _ _ _ _ _ _ _ HD XL CN) in W1. destruct W1 as [-> _]. rewrite (RN eq_refl) in W2. exists w2. split; [exact W2|reflexivity].
  - destruct (gChkTok cSEMI g3) as [g4| | |] eqn:E4 in H7; cbn [pbind] in H7; try discriminate H7.
    destruct (put x _) as [x2| | |] eqn:PT in H7; cbn [pbind] in H7; try discriminate H7. injection H7 as <- <-.
    destruct (x_chk _ _ _ I3 E4 ltac:(discriminate) eq_refl) as (T4 & I4 & G4 & S4 & L4). destruct (same_fields _ _ S4) as (N4 & CT4 & CD4 & CS4 & CC4).
    pose proof (same_keep _ _ S4) as (_ & _ & DP4 & BL4 & CL4).
    destruct (put_text _ _ _ _ TX PT) as (IN2 & NS2 & NT2 & w & TX2 & WT).
    split.
    { apply RS; [exact I4|rewrite CD4; exact D2|rewrite DP4; unfold g3; gcbn; congruence]. }
    split; [exact IN2|]. eexists. split; [exact TX2|].
    assert (inhib x = false -> w = cHead pub t d nm ps e ++ codes ";" ++ nl /\ t <> TnIntr) as WH.
    { intros HI. rewrite HI in WT. cbn [pieceText] in WT. unfold protoText in WT. apply cat_some in WT. destruct WT as (w1 & w2 & W1 & W2 & ->). rewrite N4 in W1.
      apply (funcDcl_ok _ _ _ _ _ _ _ _ _ _ _ _ _ _ _ _ _ HD) in W1; [|apply ext_core; unfold g3, n3; gcbn; apply core_setCnt|unfold g3, n3; gcbn; apply cntAt_setCnt; lia].
      destruct W1 as [-> W1]. split; [|exact W1]. f_equal. apply some_inj in W2. exact W2. }
    exists ps, e, None, tp, [TSym cSEMI]. split; [|split; [exact DPS|split; [constructor|]]].
    + pose proof (t_view _ _ _ _ G4) as V4. unfold g3 in V4. gcbn. unfold vgot in *. rewrite GE, V2, V4. repeat (rewrite <- app_assoc || rewrite <- app_comm_cons || cbn [app]); reflexivity.
    + unfold stateC. rewrite GE, GN, GC, GD, N4, L4, CC4, CD4, NS2, NT2. unfold g3, n3. gcbn. rewrite L2.
      replace w with (shown (inhib x) (cHead pub t d nm ps e ++ codes ";" ++ nl)).
      2:{ unfold shown. destruct (inhib x) eqn:HI; [symmetry; exact WT|]. symmetry. exact (proj1 (WH eq_refl)). }
      eapply tt_proto; [exact HD|]. intros TI. destruct (inhib x) eqn:HI; [reflexivity|exfalso]. exact (proj2 (WH eq_refl) TI).
Qed.
(* which kind of declaration the first token tells *)
Lemma pub_ty p t r1 p' k r2 : (k = LxSTRUCT \/ k = LxTYPEDEF) -> pubToks p ++ tyTok t :: r1 = pubToks p' ++ TSym k :: r2 -> False.
Proof.
  intros K E. assert (k <> LxPUBLIC /\ tyTok t <> TSym k /\ tyTok t <> TSym LxPUBLIC) as (A & B & C) by (destruct K; subst k; destruct t; repeat split; discriminate).
  destruct p, p'; cbn [pubToks app] in E; injection E as E; congruence.
Qed.
Lemma top_struct y ts pub r r' : derives_top y ts -> ts ++ r' = pubToks pub ++ TSym LxSTRUCT :: r -> exists nm fs, y = PStruct nm fs.
Proof.
  intros D E. destruct D; [eauto| | |]; exfalso.
  - destruct pub; discriminate E.
  - rewrite <- app_assoc in E. exact (pub_ty _ _ _ _ _ _ (or_introl eq_refl) E).
  - rewrite <- app_assoc in E. exact (pub_ty _ _ _ _ _ _ (or_introl eq_refl) E).
Qed.
Lemma top_typedef y ts pub r r' : derives_top y ts -> ts ++ r' = pubToks pub ++ TSym LxTYPEDEF :: r -> exists nm, y = PTypedef nm.
Proof.
  intros D E. destruct D; [|eauto| |]; exfalso.
  - destruct pub; discriminate E.
  - rewrite <- app_assoc in E. exact (pub_ty _ _ _ _ _ _ (or_intror eq_refl) E).
  - rewrite <- app_assoc in E. exact (pub_ty _ _ _ _ _ _ (or_intror eq_refl) E).
Qed.
Lemma inv_struct T nm fs T' : okTop opt krn T (PStruct nm fs) T' -> exists n1 i n2, ntDefName (tN T) nm ScSTRC TySTRUC (tD T) (tC T) false = NOk (n1, i) /\ okFlines n1 0 (tD T) fs n2 (tC T') (tD T') /\
  tN T' = ntSetCnt (ntSetVoid n2 (i + 1)) i (ntGetSize n2 - i - 1) /\ tL T' = tL T.
Proof. intros H. inversion H; subst. cbn [tN tC tD tL]. eauto 8. Qed.
Lemma inv_typedef T nm T' : okTop opt krn T (PTypedef nm) T' -> exists i, ntDefName (tN T) nm ScSTRC TyREF (tD T) (tC T) false = NOk (tN T', i) /\ tL T' = tL T /\ tC T' = tC T /\ tD T' = tD T.
Proof. intros H. inversion H; subst. cbn [tN tC tD tL]. eauto 8. Qed.
Lemma y_getProg g x g' x' o : rest g -> textOf (cps x) = Some o -> getProgC opt krn g x = POk (g', x') ->
  rest g' /\ inhib x' = inhib x /\ exists o', textOf (cps x') = Some o' /\ exists y ts, vgot g ts g' /\ derives_top y ts /\
    trTop opt krn (inhib x) (stateC g x o) y (stateC g' x' o').
Proof.
  intros R0 TX H. pose proof R0 as (I & D & DP). unfold getProgC in H. cbv zeta in H.
  set (g0 := match gIsTok LxPUBLIC (wPub g false) with Some g => wPub g true | None => wPub g false end) in H.
  assert (exists pub, fine g0 /\ got g (pubToks pub) [] g0 /\ pubFlag g0 = pub /\ gnt g0 = gnt g /\ clab (ge g0) = clab (ge g) /\ curCnt g0 = curCnt g /\ curDim g0 = curDim g /\
    brkLab g0 = brkLab g /\ cntLab g0 = cntLab g /\ outp (ge g0) = outp (ge g) /\ depth g0 = depth g) as (pub & I0 & G0 & P0 & N0 & L0 & C0 & D0 & B0 & K0 & O0 & DP0).
  { assert (fine (wPub g false)) as I' by exact I. unfold g0. destruct (gIsTok LxPUBLIC (wPub g false)) as [g1|] eqn:T.
    - destruct (x_is _ _ _ I' T ltac:(discriminate) eq_refl) as (_ & I1 & G1 & S1 & L1). exists true. rewrite S1. gcbn.
      pose proof (got_out _ _ _ _ G1) as O1. cbn [strOut] in O1. rewrite app_nil_r in O1. split; [split; [exact (proj1 I1)|exact (proj2 I)]|].
      split; [apply (got_to _ _ _ g1); [exact (got_from g (wPub g false) _ _ _ G1 eq_refl eq_refl)|rewrite S1; reflexivity|rewrite S1; reflexivity]|]. repeat split; assumption.
    - exists false. split; [exact I|]. split; [exact (got_from g (wPub g false) _ _ _ (got_refl _) eq_refl eq_refl)|]. repeat split. }
  clearbody g0.
  destruct (gIsTok LxSTRUCT g0) as [g1|] eqn:TS.
  { destruct (x_is _ _ _ I0 TS ltac:(discriminate) eq_refl) as (_ & _ & G1 & _). pose proof (got_v _ _ _ _ (got_trans _ _ _ _ _ _ _ G0 G1)) as VS.
    destruct (getProg opt krn g) as [g2| | |] eqn:E2; cbn [pbind] in H; try discriminate H. destruct (put x _) as [x2| | |] eqn:PT in H; cbn [pbind] in H; try discriminate H. injection H as <- <-.
    destruct (x_getProg _ _ _ _ R0 E2) as (R' & y & ts & V & DT & OT). destruct (put_text _ _ _ _ TX PT) as (IN2 & NS2 & NT2 & w & TX2 & WT).
    unfold vgot in VS. rewrite <- app_assoc in VS. unfold vgot in V. rewrite V in VS. destruct (top_struct _ _ _ _ _ DT VS) as (nm & fs & ->).
    split; [exact R'|]. split; [exact IN2|]. eexists. split; [exact TX2|]. exists (PStruct nm fs), ts. split; [exact V|]. split; [exact DT|].
    destruct (inv_struct _ _ _ _ OT) as (n1 & i & n2 & DN & OF & GN & GL). cbn [topOf tN tC tD tL] in DN, OF, GN, GL. unfold stateC. rewrite NS2, NT2, GL.
    replace w with (shown (inhib x) (cStruct nm fs)); [rewrite GN; econstructor; eassumption|].
    unfold shown. destruct (inhib x); [symmetry; exact WT|]. cbn [pieceText] in WT. symmetry.
    destruct (StmtSound.def_app _ _ _ _ _ _ _ _ _ DN) as [EN EI]. rewrite <- EI, GN in WT.
    destruct (okFlines_ok _ _ _ _ _ _ _ OF) as [X1 _].
    eapply strucText_ok; [exact DN|exact OF| | |exact WT].
    - apply ext_core. rewrite core_setCnt. apply core_setVoid.
    - apply cntAt_setCnt. assert (ntGetSize n1 = i + 1) as SZ by (rewrite EN, StmtSound.size_app, EI; reflexivity). pose proof (ProgInv.size_nonneg (gnt g)).
      unfold ntGetSize. unfold ntSetVoid. rewrite app_length, map_length, <- app_length, firstn_skipn. fold (ntGetSize n2).
      destruct X1 as [r X1]. apply (f_equal (@List.length _)) in X1. rewrite app_length, !map_length in X1. unfold ntGetSize in *. lia. }
  destruct (gIsTok LxTYPEDEF g0) as [g1|] eqn:TT.
  { destruct (x_is _ _ _ I0 TT ltac:(discriminate) eq_refl) as (_ & _ & G1 & _). pose proof (got_v _ _ _ _ (got_trans _ _ _ _ _ _ _ G0 G1)) as VS.
    destruct (getProg opt krn g) as [g2| | |] eqn:E2; cbn [pbind] in H; try discriminate H. injection H as <- <-.
    destruct (x_getProg _ _ _ _ R0 E2) as (R' & y & ts & V & DT & OT).
    unfold vgot in VS. rewrite <- app_assoc in VS. unfold vgot in V. rewrite V in VS. destruct (top_typedef _ _ _ _ _ DT VS) as (nm & ->).
    split; [exact R'|]. split; [reflexivity|]. exists o. split; [exact TX|]. exists (PTypedef nm), ts. split; [exact V|]. split; [exact DT|].
    destruct (inv_typedef _ _ _ OT) as (i & DN & GL & GC & GD). cbn [topOf tN tC tD tL] in DN, GL, GC, GD. unfold stateC. rewrite GL, GC, GD. econstructor; exact DN. }
  set (g1 := wScope g0 ScPROT) in H. assert (fine g1) as I1 by exact I0.
  destruct (gGetType g1) as [g2| | |] eqn:E2; cbn [pbind] in H; try discriminate H.
  destruct (x_type _ _ I1 E2) as (t & d & I2 & G2 & TY & L2 & O2 & CT & CD & NN). destruct (typed_fields2 _ _ TY) as ((A1 & A2 & A3 & A4 & A5) & N2 & CC2 & _).
  unfold g1 in A1, A2, A3, A4, A5, N2, CC2, CT, L2, O2. gcbn. rewrite N0 in CT.
  destruct (getName krn (pubFlag g2) g2) as [[i g3]| | |] eqn:E3; cbn [pbind] in H; try discriminate H.
  destruct (x_name _ _ _ _ _ I2 ltac:(lia) E3) as (nm & I3 & NO & DN & Q & L3 & O3 & GT).
  assert (curDim g3 = Z.of_nat d /\ curType g3 = tyCode (gnt g) t /\ curCnt g3 = curCnt g /\ depth g3 = 0 /\ brkLab g3 = brkLab g /\ cntLab g3 = cntLab g /\ pubFlag g3 = pub /\ curScope g3 = ScPROT)
    as (CD3 & CT3 & CC3 & DP3 & BL3 & CL3 & PF3 & SC3) by (rewrite Q; gcbn; repeat split; congruence).
  rewrite A1, A2, P0, CT, CD, CC2, C0, N2, N0 in DN. destruct (def_app _ _ _ _ _ _ _ _ _ DN) as [EN EI]. rewrite EI in DN.
  assert (sign (gtok g3) = true -> vgot g (pubToks pub ++ tyTok t :: brackets d ++ [TName nm]) g3) as VG.
  { intros SG. assert (got g0 ((tyTok t :: brackets d) ++ [TName nm]) [] g3) as G3 by exact (got_trans _ _ _ _ _ _ _ (got_from g0 g1 _ _ _ G2 eq_refl eq_refl) (GT SG)).
    exact (got_v _ _ _ _ (got_trans _ _ _ _ _ _ _ G0 G3)). }
  destruct (Z.eqb_spec (gtok g3) cLP) as [TK|TK].
  - assert (rest g3) as R3 by (split; [exact I3|split; [lia|exact DP3]]).
    destruct (y_func (gnt g) nm pub t (curDim g) (curCnt g) g3 x g' x' o R3 TK PF3) with (d := d) as (R' & IN' & o' & TX' & ps & e & bd & tp & tb & V & D1 & D2 & OT).
    + destruct NO as [NO1 NO2]. split; [intros X; congruence|]. intros X. apply NO2. congruence.
    + congruence.
    + exact CT3.
    + exact CD3.
    + rewrite CT3, CD3. exact DN.
    + exact SC3.
    + exact TX.
    + exact H.
    + split; [exact R'|]. split; [exact IN'|]. exists o'. split; [exact TX'|]. exists (PFunc pub t d nm ps e bd). eexists. split; [|split; [constructor; eassumption|]].
      2:{ unfold stateC at 1. replace (clab (ge g)) with (clab (ge g3)) by lia. exact OT. }
      unfold vgot. rewrite (VG ltac:(rewrite TK; reflexivity)), V. repeat (rewrite <- app_assoc || rewrite <- app_comm_cons || cbn [app]); reflexivity.
  - rewrite EN, size_snoc in H. rewrite setScope_snoc in H. cbn [nName nType nDim nCnt nPub] in H.
    set (g4 := wScope (wNt g3 _) ScCOMM) in H. gcbn.
    match type of H with (if ?b then _ else _) = _ => destruct b eqn:B1; [discriminate H|] end.
    match type of H with (if ?b then _ else _) = _ => destruct b eqn:B2; [discriminate H|] end.
    unfold g4 in B1, B2. gcbn. rewrite CT3 in B1, B2. rewrite CD3 in B1.
    assert (ntDefName (gnt g) nm ScCOMM (tyCode (gnt g) t) (Z.of_nat d) (curCnt g) pub = NOk (gnt g4, ntGetSize (gnt g))) as DN4.
    { exact (def_glob _ _ ScPROT ScCOMM _ _ _ _ _ _ ltac:(change ScLVAR with 4; change ScPROT with 0; lia) ltac:(change ScLVAR with 4; change ScCOMM with 2; lia) DN). }
    assert (fine g4) as I4.
    { split; [exact (proj1 I3)|]. eapply dims_def; [exact DN4|lia|]. destruct I as [_ X]. exact X. }
    assert (newVarC pub (CE (gnt g) (clab (ge g)) (curCnt g) (Z.of_nat d) (CFile.nstr x) (ntmp x) o) nm g4 x) as NV.
    { constructor; [exact I4|unfold g4; gcbn; lia|exact PF3| | |exact TX].
      - cbn [cN cC]. unfold g4 at 1 2. gcbn. rewrite CT3, CD3. exact DN4.
      - cbn [cN cO]. unfold g4. gcbn. rewrite CC3, CD3. replace (clab (ge g3)) with (clab (ge g)) by lia. reflexivity. }
    destruct (y_getGVars (gnt g) t d pub (CE (gnt g) (clab (ge g)) (curCnt g) (Z.of_nat d) (CFile.nstr x) (ntmp x) o) nm g4 x g' x' (ext_refl _)) as (I5 & (_ & _ & K3 & _) & CD5 & SG & IN5 & o5 & TX5 & vs & ts & V & DV & OV);
      [exact CT3|exact CD3|exact NV|reflexivity|exact H|].
    unfold g4 in K3, CD5, SG, V. gcbn. split; [split; [exact I5|split; [lia|congruence]]|]. split; [exact IN5|]. exists o5. split; [exact TX5|].
    exists (PVars pub t d vs). eexists. split; [|split; [constructor; exact DV|]].
    + unfold vgot in *. gcbn. rewrite (VG SG), V. repeat (rewrite <- app_assoc || rewrite <- app_comm_cons || cbn [app]); reflexivity.
    + unfold stateC at 1. apply tt_vars; [|exact OV].
      split; [rewrite <- CT; exact NN|]. split; [apply Z.eqb_neq; exact B2|]. intros [X Y]. rewrite X, Y in B1. discriminate B1.
Qed.
End Top.
