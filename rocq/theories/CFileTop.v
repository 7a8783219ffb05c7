(* The C translator over a whole file: what was printed is right (CFileSpec.v). *)
From Coq Require Import ZArith Bool Lia String Ascii List Permutation.
From Verif Require Import Lexer NameTable SyTree OpTree COpTree OptLabs COptLabs VM VmCode Parser ParserStmt ParseSpec ParseLabs ProgSpec ProgData ProgInv ProgTop DataSpec DataProofs DataParse CCode CFile CDataSpec CDataProofs CFileSpec CFileProofs TextGrow.
Import ListNotations.
Open Scope Z_scope.

Section Top.
Variables opt krn : bool.
Variable l0 : list item.
Notation TI := (TI opt krn l0).
Notation XS := (XS opt krn).
(* the invariant between declarations *)
Definition INV (r : gs * cst) : Prop := TI (fst r) /\ exists ss, lits ss (fst r) /\ XS (snd r).
Lemma TI_strs g g' : TI (wNt g []) -> strs (ge g) (ge g') -> 0 <= curDim g' -> ParserStmt.depth g' = 0 -> TI (wNt g' []).
Proof.
  intros [A B C D F G] S CD DP. constructor; cbn [wNt gnt curDim ParserStmt.depth ge] in *; try assumption.
  - exact (tail_tran _ _ _ (proj1 S) D).
  - intros L. destruct (F L) as [F1 F2]. split; [exact (strs_good _ _ S F1)|exact (strs_uses _ _ S F2)].
  - exact (segs_strs _ _ _ _ S G).
Qed.
Lemma bodyStrs_in r l : In l (bodyStrs r) <-> In (RStr l) (refsS r).
Proof.
  unfold bodyStrs. rewrite in_flat_map. split.
  - intros (x & A & B). destruct x; cbn in B; try destruct B as [B|B]; try destruct B. exact A.
  - intros H. exists (RStr l). split; [exact H|left; reflexivity].
Qed.
(* only strings are printed since g0 *)
Definition since (ss : list (list Z)) (g0 : gs) (r : gs * cst) : Prop :=
  strs (ge g0) (ge (fst r)) /\ exists ss', lits (ss ++ ss') (fst r) /\ XS (snd r).
Lemma ac_getFuncC ss g x : TI g -> gnt g <> [] -> lits ss g -> XS x -> ac (getFuncC opt krn g x) INV.
Proof.
  intros T NE LI XX. unfold getFuncC. set (fi := ntGetSize (gnt g) - 1). set (g1 := wFunc g fi). set (idx := ntSrcGlob (gnt g1) fi).
  eapply ac_bind; [apply ac_skip|]. intros _ _. eapply ac_bind; [apply ac_skip|]. intros _ _. eapply ac_bind; [apply ac_skip|]. intros _ _.
  set (g2 := wScope (wLast (gGetTok g1) LxNONTOK) ScPRM). set (pI := ntGetSize (gnt g2)). cbv zeta.
  assert (strs (ge g) (ge g2)) as SG2 by exact (proj2 (reads_quiet _ _ (quiet_getTok g1))).
  assert (TI g2) as T2.
  { apply (TI_set _ _ _ (gGetTok g1)); try reflexivity. apply (TI_reads _ _ _ g1); [apply reads_quiet, quiet_getTok|]. apply (TI_set _ _ _ g); try reflexivity. exact T. }
  assert (0 <= fi < pI) as FI by (unfold fi, pI; pose proof (size_pos _ NE); change (gnt g2) with (gnt g); unfold ntGetSize in *; lia).
  eapply ac_bind; [apply (ac_getParams _ _ g2 (i_dim _ _ _ _ T2)); reflexivity|]. intros g3 (r & P3). pose proof (pinv_TI _ _ _ _ _ _ T2 P3) as T3.
  pose proof (strs_trans _ _ _ SG2 (n_str _ _ _ P3)) as SG3.
  eapply ac_bind; [apply ac_skip|]. intros _ _. set (pc := ntGetSize (gnt g3) - pI). set (g4 := wNt g3 (ntSetCnt (gnt g3) fi pc)).
  eapply ac_bind; [apply ac_skip|]. intros _ _.
  set (T4 := ntSetCnt (gnt g2) fi pc).
  assert (gnt g4 = T4 ++ r) as N4.
  { unfold g4, T4. cbn [wNt gnt]. rewrite (n_nt _ _ _ P3). unfold ntSetCnt. apply upd_app. unfold pI, ntGetSize in FI. lia. }
  assert (ntGetSize T4 = pI) as S4 by (unfold T4, ntSetCnt, ntGetSize; rewrite upd_length; reflexivity).
  assert (cntAt T4 fi = pc) as C4 by (unfold T4; apply cntAt_setCnt; exact FI).
  assert (pc = ntGetSize r) as PC by (unfold pc; rewrite (n_nt _ _ _ P3), size_app; unfold pI; lia).
  assert (Forall glob T4) as G4 by (apply glob_setCnt; exact (i_tab _ _ _ _ T2)).
  eapply ac_bind with (P := fun q => since ss g q /\ TI (wNt (fst q) []) /\ exists T' x, gnt (fst q) = T' ++ r ++ x /\ Forall glob T' /\ ntGetSize T' = pI).
  - destruct (gIsTok cLC g4) as [g5|] eqn:K.
    + apply quiet_isTok in K. destruct (quiet_fields _ _ K) as (E1 & E2 & E3 & E4 & E5 & E6 & E7 & E8 & E9 & E10 & E11 & E12).
      assert (strs (ge g) (ge g5)) as SG5 by exact (strs_trans _ _ _ SG3 (proj2 (reads_quiet _ _ K))).
      assert (TI (wNt g5 [])) as T5.
      { destruct K as (e & -> & A & B & C). destruct T3 as [I1 I2 I3 I4 I5 I6]. constructor; cbn [wNt wE gnt curDim ParserStmt.depth ge] in *; try assumption; rewrite ?A, ?B; try assumption. exact (tail_tran _ _ _ C I4). }
      eapply ac_bind; [apply ac_skip|]. intros _ _.
      match goal with |- ac (pbind (getBlock _ _ ?G) _) _ => set (g6 := G) end.
      assert (exists T6, gnt g6 = T6 ++ r /\ Forall glob T6 /\ ntGetSize T6 = pI /\ cntAt T6 fi = pc) as (T6 & N6 & G6 & S6 & C6).
      { assert (forall t0 t j, t0 = t ++ r -> Forall glob t -> ntGetSize t = pI -> cntAt t fi = pc -> 0 <= j < pI -> exists t', ntSetScope t0 j ScFUNC = t' ++ r /\ Forall glob t' /\ ntGetSize t' = pI /\ cntAt t' fi = pc) as ST.
        { intros t0 t j A B C CN D. exists (ntSetScope t j ScFUNC). rewrite A. unfold ntSetScope at 1. rewrite upd_app by (unfold ntGetSize in C; lia). split; [reflexivity|].
          split; [apply glob_setScope; [discriminate|discriminate|exact B]|]. rewrite cntAt_setScope. split; [|exact CN]. unfold ntSetScope, ntGetSize in *. rewrite upd_length. exact C. }
        assert (gnt g5 = T4 ++ r) as N5 by (rewrite E5; exact N4).
        unfold g6. clear g6. destruct (0 <=? idx) eqn:IX.
        - apply Z.leb_le in IX. pose proof (srcGlob_lt _ _ (proj1 FI) : idx < fi) as IL. destruct (ST _ _ idx N5 G4 S4 C4 ltac:(lia)) as (t & A & B & C & CC).
          destruct (ST _ _ fi A B C CC FI) as (t' & A' & B' & C'). exists t'. split; [exact A'|split; assumption].
        - destruct (ST _ _ fi N5 G4 S4 C4 FI) as (t' & A' & B' & C'). exists t'. split; [exact A'|split; assumption]. }
      assert (strs (ge g) (ge g6)) as SG6 by (unfold g6; destruct (0 <=? idx); exact SG5).
      assert (TI (wNt g6 []) /\ curScope g6 = ScLVAR /\ curCnt g6 = 0 /\ maxCnt g6 = 0 /\ funcIdx g6 = fi /\ ParserStmt.depth g6 = 0 /\ lastStat g6 = LxNONTOK) as (T6' & Q1 & Q2 & Q3 & Q4 & Q5 & Q6).
      { destruct P3 as [_ _ (_ & P1 & P2 & P6 & _) _ _]. pose proof (i_dep _ _ _ _ T2) as D2.
        unfold g6. split; [destruct (0 <=? idx); apply (TI_set _ _ _ (wNt g5 [])); try reflexivity; exact T5|].
        destruct (0 <=? idx); cbn [wCnt wMax wNt wScope curScope curCnt maxCnt funcIdx ParserStmt.depth lastStat]; rewrite E7, E6, E8; unfold g4; cbn [wNt ParserStmt.depth lastStat funcIdx]; rewrite P1, P2, P6;
          repeat (split; [first [reflexivity|exact D2]|]); reflexivity. }
      clearbody g6.
      assert (fin (ntGetSize T6) (ntGetSize T6 + ntGetSize r) (bodyV g6) (maxCnt g6) g6) as F6.
      { rewrite Q3. apply fin_start; try assumption; [exact (n_prm _ _ _ P3)|]. rewrite Q4, S6. exact FI. }
      assert (ac (getBlock krn (getStat krn) g6) (fun q => okS (ntGetSize T6) (ntGetSize T6 + ntGetSize r) (bodyV g6) g6 q)) as AB.
      { eapply ac_mono; [apply (ac_getBlock krn (ntGetSize T6) (ntGetSize T6 + ntGetSize r) (bodyV g6) (getStat krn)); [|exact F6|]|].
        - intros g' F'. eapply ac_mono; [apply (ac_getStatF krn _ _ _ _ g' F')|]. intros y [A _]. exact A.
        - intros g' F'. eapply ac_mono; [apply (ac_getStatF krn _ _ _ _ g' F')|]. intros y [_ A]. exact A.
        - intros y [A _]. exact A. }
      destruct (getBlock krn (getStat krn) g6) as [[root g7]| | |] eqn:GB; try exact I. cbn [pbind]. cbn [ac] in AB. destruct AB as [P7 _]. cbn [fst snd] in P7.
      eapply ac_bind; [apply ac_perr_if|]. intros u V7. clear V7.
      destruct (p_step _ _ _ _ _ _ P7) as ((_ & _ & Q7 & _ & _ & D7) & SG7 & (y & N7) & _ & CD).
      eapply ac_bind with (P := fun r => if opt then cOptTree root = Ok r else r = root).
      { destruct opt; [|reflexivity]. destruct (cOptTree root); [reflexivity|exact I]. }
      intros root' OP. pose proof (strs_trans _ _ _ SG6 SG7) as SG.
      destruct (lits_strs _ _ _ LI SG) as (ss' & LI' & EO). destruct (putStrs g g7 x) as [x1 f] eqn:PS.
      destruct (putStrs_ok _ _ _ _ _ _ _ _ _ LI LI' EO XX PS) as (X1 & IN & HS).
      assert (forall l, In l (bodyStrs root') -> clab (ge g) < l <= clab (ge g7)) as RG.
      { intros l L. apply bodyStrs_in in L.
        assert (In (RStr l) (refsS root)) as L2 by (destruct opt; [exact (cOptTree_labs _ _ OP _ L)|rewrite <- OP; exact L]).
        pose proof (p_ref _ _ _ _ _ _ P7 _ L2) as W. cbn in W. pose proof (strs_le _ _ SG6). lia. }
      eapply ac_bind; [apply (put_ok opt krn); [exact X1| |reflexivity|reflexivity]|].
      * intros IH1. rewrite IN in IH1.
        assert (printed g7 f (bodyStrs root') (cps x1)) as PR by (intros l L; exact (HS IH1 l (RG l L))).
        split.
        { cbn [CFileSpec.right]. exists g6, g7, root, root', f. split; [exact GB|]. split; [reflexivity|]. split; [exact Q4|]. split; [exact OP|]. split; [reflexivity|exact PR]. }
        { cbn [usesStr]. rewrite renS_refs. exact (printed_uses _ _ _ _ PR). }
      * intros x2 X2. cbn [ac fst snd]. split; [|split].
        { split; [exact SG|]. exists ss'. split; [exact LI'|exact X2]. }
        { apply (TI_strs g6); [exact T6'|exact SG7|exact (CD (i_dim _ _ _ _ T6'))|rewrite D7; exact Q5]. }
        { exists T6, y. rewrite N7, N6, app_assoc. split; [reflexivity|split; assumption]. }
    + eapply ac_bind; [apply ac_tok|]. intros g5 Q. pose proof (strs_trans _ _ _ SG3 (proj2 Q)) as SG5.
      destruct (lits_strs _ _ _ LI SG5) as (ss' & LI' & _). pose proof XX as X1.
      eapply ac_bind; [apply (put_ok opt krn); [exact X1| |reflexivity|reflexivity]|].
      * intros _. split; [exact I|apply incl_nil_l].
      * intros x2 X2. cbn [ac fst snd]. split; [|split].
        { split; [exact SG5|]. exists ss'. split; [exact LI'|exact X2]. }
        { apply (TI_reads _ _ _ (wNt g4 [])); [|exact T3]. destruct Q as [-> S]. split; [reflexivity|exact S]. }
        { exists T4, []. rewrite app_nil_r. split; [|split; assumption]. destruct Q as [-> _]. exact N4. }
  - intros [g5 x5] ((_ & ss' & LI' & X5) & T5 & T' & y & N5 & G5 & S5). cbn [ac fst snd] in *. split; cbn [fst snd].
    + destruct (_ <=? _); apply TI_tab; try exact T5; rewrite N5.
      * apply final_undef; [exact G5|lia].
      * rewrite N4, <- S5. replace (ntGetSize (T4 ++ r)) with (ntGetSize (T' ++ r)) by (rewrite !size_app; lia). apply final_void; [exact G5|exact (n_prm _ _ _ P3)].
    + exists (ss ++ ss'). split; [|exact X5]. destruct (_ <=? _); exact LI'.
Qed.
Lemma dimAt_keep t i s : dimAt (ntSetScope t i s) i = dimAt t i. Proof. apply dimAt_setScope. Qed.
Definition lastTy (g : gs) : Prop := exists t e, gnt g = t ++ [e] /\ nDim e = curDim g /\ nType e = curType g.
Lemma lastTy_dim g : lastTy g -> lastDim g. Proof. intros (t & e & A & B & _). exists t, e. auto. Qed.
Lemma lastTy_at g : lastTy g -> typeAt (gnt g) (ntGetSize (gnt g) - 1) = curType g.
Proof.
  intros (t & e & E & _ & D). rewrite E. unfold typeAt. rewrite size_app. change (ntGetSize [e]) with 1. replace (ntGetSize t + 1 - 1) with (ntGetSize t) by lia.
  rewrite ent_app_r by lia. rewrite Z.sub_diag. exact D.
Qed.
Lemma typeAt_setScope t i s k : typeAt (ntSetScope t i s) k = typeAt t k.
Proof.
  unfold typeAt, NameTable.ent, ntSetScope. destruct (k <? 0); [reflexivity|]. rewrite upd_nth. destruct (Nat.eqb _ _); [|reflexivity]. destruct (nth_error t (Z.to_nat k)); reflexivity.
Qed.
Lemma ac_init_of g : 0 <= curDim g -> ac (readInit g) (fun r => dpost (Z.to_nat (curDim g + 1)) g r /\ tpost (one (typed (curType g) (Z.to_nat (curDim g)))) g r).
Proof.
  intros CD. unfold readInit. destruct (Z.ltb_spec 0 (curDim g)) as [D|D].
  - unfold getGArrayInit. apply ac_both.
    + eapply ac_mono; [apply ac_getGArrayInitF; lia|]. intros r. replace (S (Z.to_nat (curDim g))) with (Z.to_nat (curDim g + 1)) by lia. auto.
    + replace (curDim g) with (Z.of_nat (S (Z.to_nat (curDim g - 1)))) at 1 by lia.
      eapply ac_mono; [apply (ty_getGArrayInitF _ _ _ _ eq_refl)|]. intros r. apply tpost_mono. replace (S (Z.to_nat (curDim g - 1))) with (Z.to_nat (curDim g)) by lia. auto.
  - assert (curDim g = 0) as -> by lia. change (Z.to_nat 0) with O. destruct (_ || _) eqn:B.
    + apply ac_both; [eapply ac_mono; [apply ac_getCnst|]; intros r; apply dpost_mono; lia|].
      eapply ac_mono; [apply ty_getCnst|]. intros r. apply tpost_mono. intros l (i & -> & S). exists i. split; [reflexivity|]. apply T_scalar; [|exact S].
      apply orb_true_iff in B. rewrite orb_true_iff, !Z.eqb_eq in B. destruct B as [[->| ->]| ->]; reflexivity.
    + destruct (Z.leb_spec (curType g) 0) as [T0|]; [|exact I]. apply ac_both; [|apply (ty_getStructInit _ _ eq_refl T0)].
      eapply ac_mono; [apply ac_getStructInit|]. intros r. apply dpost_mono. lia.
Qed.
(* the variables of a declaration *)
Definition inC (r : gs * cst) : Prop := INV r /\ curScope (fst r) = ScCOMM.
Lemma ac_getGVarC ss g x : TI g -> curScope g = ScCOMM -> lastTy g -> lits ss g -> XS x -> ac (getGVarC g x) inC.
Proof.
  intros T EC LD LI XX. unfold getGVarC. cbv zeta.
  eapply ac_bind with (P := inC); [|intros [g1 x1] H; eapply ac_bind; [apply ac_skip|]; intros _ _; exact H].
  destruct (gIsTok cEQ g) as [g1|] eqn:K.
  - apply reads_isTok in K. pose proof (TI_reads _ _ _ _ _ K T) as T1. pose proof (proj1 K) as K1.
    assert (gnt g1 = gnt g /\ curDim g1 = curDim g /\ curType g1 = curType g /\ curScope g1 = curScope g) as (E1 & E2 & E3 & E4) by (rewrite K1; repeat split).
    set (ci := ntGetSize (gnt g) - 1). set (g2 := wNt g1 (ntSetScope (gnt g1) ci ScGVAR)).
    assert (TI g2) as T2 by (apply TI_nt; [apply glob_setScope; [discriminate|discriminate|exact (i_tab _ _ _ _ T1)]|exact T1]).
    assert (dimAt (gnt g2) ci = curDim g2) as DD. { cbn [g2 wNt gnt curDim]. rewrite dimAt_setScope, E1, E2. exact (lastDim_at _ (lastTy_dim _ LD)). }
    assert (typeAt (gnt g2) ci = curType g2) as DT. { cbn [g2 wNt gnt curType]. rewrite typeAt_setScope, E1, E3. exact (lastTy_at _ LD). }
    pose proof (ac_init_of g2 (i_dim _ _ _ _ T2)) as AI. fold (readInit g2).
    destruct (readInit g2) as [[d g3]| | |] eqn:RI; try exact I. cbn [pbind]. cbn [ac] in AI.
    destruct AI as [(R & L & _) (_ & i & EI & TY)]. cbn [fst snd] in *. pose proof (TI_reads _ _ _ _ _ R T2) as T3. pose proof (proj1 R) as R1.
    assert (gnt g3 = gnt g2 /\ curScope g3 = curScope g2) as (A1 & A3) by (rewrite R1; repeat split).
    pose proof (strs_trans _ _ _ (proj2 K) (proj2 R : strs (ge g1) (ge g3))) as SG.
    destruct (lits_strs _ _ _ LI SG) as (ss' & LI' & EO). destruct (putStrs g g3 x) as [x1 f] eqn:PS.
    destruct (putStrs_ok _ _ _ _ _ _ _ _ _ LI LI' EO XX PS) as (X1 & IN & HS).
    eapply ac_bind with (P := XS).
    { destruct (inhib x1) eqn:IH1; [exact X1|]. destruct (dataC _ _ _ _) as [[[ds v] l]|] eqn:DC; [|exact I].
      rewrite A1, DD, DT in DC.
      assert (printed g3 f (strsD d) (cps x1)) as PR.
      { intros k Hk. apply HS; [congruence|]. specialize (L k Hk). pose proof (strs_le _ _ (proj2 K)). change (ge g2) with (ge g1) in L. lia. }
      destruct (dataC_consec _ _ _ _ _ _ _ DC) as [[C1 C2] US]. rewrite renD_strs in US.
      unfold put. rewrite IH1. destruct (pieceText _) eqn:PT; [|exact I]. cbn [pbind ac cps inhib nstr].
      apply (XI_snoc _ _ _ _ _ _ _ _ X1); cbn [definesStr definesTmp usesStr nstr ntmp].
      - rewrite PT. discriminate.
      - cbn [CFileSpec.right]. exists g2, g3, d, i, f. split; [exact RI|]. split; [exact EI|]. split; [reflexivity|]. rewrite A1. do 2 (split; [symmetry; assumption|]). split; [exact TY|]. split; [|split].
        + intros k Hk. apply PR. apply inits_strs. rewrite EI. cbn [flat_map]. rewrite app_nil_r. exact Hk.
        + intros PL. replace (curDim g2) with (Z.of_nat (Z.to_nat (curDim g2))) in DC by (pose proof (i_dim _ _ _ _ T2); lia).
          assert (inits (renD f d) = [renumber f i]) as EI' by (rewrite renD_inits, EI; reflexivity).
          exact (proj2 (dataC_ok _ _ _ _ _ _ _ _ EI' (plain_ren _ _ _ _ PL) DC)).
        + intros j ->. clear - DC EI. destruct d; cbn [renD dataC inits] in *; try discriminate EI; try discriminate DC. injection EI as ->. injection DC as <- <- _. split; reflexivity.
      - intros y Y. exact (printed_uses _ _ _ _ PR _ (US y Y)).
      - rewrite Z.sub_diag. reflexivity.
      - lia.
      - rewrite C1. f_equal. lia.
      - lia. }
    intros x2 X2.
    assert (inC (g3, x2)) as H3.
    { split; [split; [exact T3|exists (ss ++ ss'); split; assumption]|]. cbn [fst]. rewrite A3. cbn [g2 wNt curScope]. congruence. }
    destruct (0 <=? _); [|exact H3]. destruct (negb _); [exact I|]. cbn [ac]. destruct H3 as ((_ & H3) & S3). split; [split; [|exact H3]|exact S3]. cbn [fst].
    apply TI_nt; [|exact T3]. apply glob_undef, glob_setScope; [discriminate|discriminate|exact (i_tab _ _ _ _ T3)].
  - destruct (0 <=? _).
    + destruct (_ || _); [|exact I]. cbn [ac]. split; [split|exact EC]; cbn [fst snd].
      * apply TI_nt; [|exact T]. apply glob_undef, (i_tab _ _ _ _ T).
      * exists ss. split; [exact LI|exact XX].
    + eapply ac_bind; [apply (put_ok opt krn); [exact XX| |reflexivity|reflexivity]|].
      * intros _. split; [exact I|apply incl_nil_l].
      * intros x2 X2. cbn [ac]. split; [split; [exact T|exists ss; split; assumption]|exact EC].
Qed.
Lemma lits_out ss g g' : outp (ge g') = outp (ge g) -> clab (ge g') = clab (ge g) -> lits ss g -> lits ss g'.
Proof. intros A B [C D]. split; congruence. Qed.
Lemma lits_quiet ss g g' : quiet g g' -> lits ss g -> lits ss g'.
Proof. intros (e & -> & A & B & _). apply lits_out; assumption. Qed.
Lemma name_lits pub g i g' ss : getName krn pub g = POk (i, g') -> lits ss g -> lits ss g'.
Proof. intros H. destruct (ac_get _ _ _ (ac_named krn pub g) H) as (n & g1 & Q & E). cbn [snd] in E. subst g'. exact (lits_quiet _ _ _ Q). Qed.
Lemma ac_gvarsLoopC f : forall g x, inC (g, x) -> ac (gvarsLoopC krn f g x) inC.
Proof.
  induction f as [|f IH]; intros g x H; [exact I|]. cbn [gvarsLoopC]. destruct (gIsTok cCOMMA g) as [g1|] eqn:K; [|exact H].
  destruct H as ((T & ss & LI & XX) & E). cbn [fst snd] in *. pose proof (quiet_isTok _ _ _ K) as Q. apply reads_isTok in K. pose proof (TI_reads _ _ _ _ _ K T) as T1.
  assert (curScope g1 = ScCOMM) as E1 by (destruct K as [-> _]; exact E).
  pose proof (TI_name opt krn l0 (pubFlag g1) g1 T1 ltac:(rewrite E1; discriminate) ltac:(rewrite E1; discriminate)) as N.
  destruct (getName krn (pubFlag g1) g1) as [[i g2]| | |] eqn:GN; try exact I. cbn [pbind ac snd] in *. destruct N as (T2 & E2 & D2 & (n & N2)).
  assert (curType g2 = curType g1) as CT.
  { destruct (ac_get _ _ _ (ac_named krn _ g1) GN) as (n' & g' & Q' & EE). cbn [snd] in EE. subst g2. exact (proj1 (proj2 (proj2 (quiet_fields _ _ Q')))). }
  eapply ac_bind; [apply (ac_getGVarC ss g2 x)|].
  - exact T2.
  - congruence.
  - eexists (gnt g1), _. split; [exact N2|]. cbn [nDim nType]. split; [symmetry; exact D2|symmetry; exact CT].
  - exact (name_lits _ _ _ _ _ GN (lits_quiet _ _ _ Q LI)).
  - exact XX.
  - intros [g3 x3] H3. exact (IH _ _ H3).
Qed.
Lemma INV_quiet g g' x : quiet g g' -> INV (g, x) -> INV (g', x).
Proof.
  intros Q (T & ss & LI & XX). split; [exact (TI_reads _ _ _ _ _ (reads_quiet _ _ Q) T)|]. exists ss. split; [exact (lits_quiet _ _ _ Q LI)|exact XX].
Qed.
Lemma ac_getGVarsC ss g x : TI g -> curScope g = ScCOMM -> lastTy g -> lits ss g -> XS x -> ac (getGVarsC krn g x) INV.
Proof.
  intros T E LD LI XX. unfold getGVarsC. eapply ac_bind; [apply (ac_getGVarC ss g x T E LD LI XX)|]. intros [g1 x1] H1.
  eapply ac_bind; [apply ac_gvarsLoopC; exact H1|]. intros [g2 x2] [H2 _].
  eapply ac_bind; [apply ac_gChkTok|]. intros g3 Q. exact (INV_quiet _ _ _ Q H2).
Qed.

(* structures and type names print no strings *)
Definition still (g g' : gs) : Prop := outp (ge g') = outp (ge g) /\ clab (ge g') = clab (ge g).
Lemma still_trans a b c : still a b -> still b c -> still a c. Proof. intros [A B] [C D]. split; congruence. Qed.
Lemma still_quiet g g' : quiet g g' -> still g g'. Proof. intros (e & -> & A & B & _). split; assumption. Qed.
Lemma still_chk k g g' : gChkTok k g = POk g' -> still g g'. Proof. intros H. apply still_quiet. exact (ac_get _ _ _ (ac_gChkTok k g) H). Qed.
Lemma still_is k g g' : gIsTok k g = Some g' -> still g g'. Proof. intros H. apply still_quiet. exact (quiet_isTok _ _ _ H). Qed.
Lemma still_name pub g i g' : getName krn pub g = POk (i, g') -> still g g'.
Proof. intros H. destruct (ac_get _ _ _ (ac_named krn pub g) H) as (n & g1 & Q & E). cbn [snd] in E. subst g'. exact (still_quiet _ _ Q). Qed.
Lemma still_type g g' : gGetType g = POk g' -> still g g'.
Proof. intros H. destruct (ac_get _ _ _ (ac_gGetType g) H) as (_ & g1 & Q & ->). exact (still_quiet _ _ Q). Qed.
Lemma still_nameCnt g g' : nameCnt krn g = POk g' -> still g g'.
Proof. unfold nameCnt. intros H. apply bind_ok in H. destruct H as ([i g1] & A & H). injection H as <-. exact (still_name _ _ _ _ A). Qed.
Lemma still_fieldNames f : forall g g', fieldNames krn f g = POk g' -> still g g'.
Proof.
  induction f as [|f IH]; intros g g' H; [discriminate H|]. cbn [fieldNames] in H. destruct (gIsTok cCOMMA g) as [g1|] eqn:K; [|injection H as <-; split; reflexivity].
  apply bind_ok in H. destruct H as (g2 & A & H). exact (still_trans _ _ _ (still_is _ _ _ K) (still_trans _ _ _ (still_nameCnt _ _ A) (IH _ _ H))).
Qed.
Lemma still_fieldLine g g' : getFieldLine krn g = POk g' -> still g g'.
Proof.
  unfold getFieldLine. intros H. apply bind_ok in H. destruct H as (g1 & A & H). apply bind_ok in H. destruct H as (g2 & B & H). apply bind_ok in H. destruct H as (g3 & C & H).
  exact (still_trans _ _ _ (still_type _ _ A) (still_trans _ _ _ (still_nameCnt _ _ B) (still_trans _ _ _ (still_fieldNames _ _ _ C) (still_chk _ _ _ H)))).
Qed.
Lemma still_fieldLines f : forall g g', fieldLines krn f g = POk g' -> still g g'.
Proof.
  induction f as [|f IH]; intros g g' H; [discriminate H|]. cbn [fieldLines] in H. destruct (gIsTok cRC g) as [g1|] eqn:K; [injection H as <-; exact (still_is _ _ _ K)|].
  apply bind_ok in H. destruct H as (g2 & A & H). exact (still_trans _ _ _ (still_fieldLine _ _ A) (IH _ _ H)).
Qed.
Lemma still_struct g g' : getStruct krn g = POk g' -> still g g'.
Proof.
  unfold getStruct. cbv zeta. intros H. apply bind_ok in H. destruct H as (g1 & A & H). apply bind_ok in H. destruct H as (g2 & B & H). apply bind_ok in H. destruct H as (g3 & C & H). apply bind_ok in H. destruct H as (g4 & D & H).
  injection H as <-. apply (still_trans _ g1); [exact (still_chk _ _ _ A)|]. apply (still_trans _ g2); [exact (still_fieldLine _ _ B)|].
  apply (still_trans _ g3); [exact (still_fieldLines _ _ _ C)|]. exact (still_chk _ _ _ D).
Qed.
Lemma ac_getProgC g x : INV (g, x) -> ac (getProgC opt krn g x) INV.
Proof.
  intros H. destruct H as (T & ss & LI & XX). cbn [fst snd] in *. unfold getProgC. cbv zeta.
  set (g1 := match gIsTok LxPUBLIC (wPub g false) with Some g => wPub g true | None => wPub g false end).
  assert (still g g1) as E1 by (unfold g1; destruct (gIsTok LxPUBLIC (wPub g false)) as [g0|] eqn:K; [exact (still_is _ _ _ K)|split; reflexivity]).
  pose proof (lits_out _ _ _ (proj1 E1) (proj2 E1) LI) as LI1.
  pose proof (ac_getProg opt krn l0 g T) as TP.
  destruct (gIsTok LxSTRUCT g1) as [g2|] eqn:K2; [|destruct (gIsTok LxTYPEDEF g1) as [g2|] eqn:K3].
  - destruct (getProg opt krn g) as [g3| | |] eqn:A; try exact I. cbn [pbind ac] in *.
    unfold getProg in A. cbv zeta in A. fold g1 in A. rewrite K2 in A. destruct (pubFlag _); [discriminate A|]. apply bind_ok in A. destruct A as ([i g4] & N & A).
    assert (lits ss g3) as L3.
    { destruct (still_trans _ _ _ (still_is _ _ _ K2) (still_trans _ _ _ (still_name _ (wType (wScope g2 ScSTRC) TySTRUC) _ _ N : still g2 g4) (still_struct _ _ A))) as [O C]. exact (lits_out _ _ _ O C LI1). }
    eapply ac_bind; [apply (put_ok opt krn); [exact XX| |reflexivity|reflexivity]|].
    + intros _. split; [exact I|apply incl_nil_l].
    + intros x2 X2. split; [exact TP|]. exists ss. split; assumption.
  - destruct (getProg opt krn g) as [g3| | |] eqn:A; try exact I. cbn [pbind ac] in *.
    unfold getProg in A. cbv zeta in A. fold g1 in A. rewrite K2, K3 in A. destruct (pubFlag _); [discriminate A|]. apply bind_ok in A. destruct A as ([i g4] & N & A).
    split; [exact TP|]. exists ss. split; [|exact XX].
    destruct (still_trans _ _ _ (still_is _ _ _ K3) (still_trans _ _ _ (still_name _ (wType (wScope g2 ScSTRC) TyREF) _ _ N : still g2 g4) (still_chk _ _ _ A))) as [O C]. exact (lits_out _ _ _ O C LI1).
  - assert (TI g1) as T1.
    { unfold g1. assert (TI (wPub g false)) as T0 by (apply (TI_set _ _ _ g); try reflexivity; exact T). destruct (gIsTok LxPUBLIC (wPub g false)) as [g'|] eqn:K; [|exact T0].
      apply (TI_set _ _ _ g'); try reflexivity. exact (TI_isTok _ _ _ _ _ _ K T0). }
    assert (TI (wScope g1 ScPROT)) as T2 by (apply (TI_set _ _ _ g1); try reflexivity; exact T1).
    pose proof (ac_gGetType (wScope g1 ScPROT)) as Y. destruct (gGetType (wScope g1 ScPROT)) as [g3| | |] eqn:GT; try exact I. cbn [pbind ac] in *.
    pose proof (typed_TI _ _ _ _ _ Y T2) as T3. destruct (typed_fields _ _ Y) as (SC & _).
    pose proof (still_type _ _ GT : still g1 g3) as S3. pose proof (lits_out _ _ _ (proj1 S3) (proj2 S3) LI1) as LI3.
    assert (curScope g3 <> ScLVAR /\ curScope g3 <> ScPRM) as [SA SB] by (rewrite SC; split; discriminate).
    pose proof (TI_name opt krn l0 (pubFlag g3) g3 T3 SA SB) as N.
    destruct (getName krn (pubFlag g3) g3) as [[i g4]| | |] eqn:GN; try exact I. cbn [pbind ac snd] in *. destruct N as (T4 & E4 & D4 & (n & N4)).
    pose proof (name_lits _ _ _ _ _ GN LI3) as LI4.
    assert (curType g4 = curType g3) as CT.
    { destruct (ac_get _ _ _ (ac_named krn _ g3) GN) as (n' & g' & Q' & EE). cbn [snd] in EE. subst g4. exact (proj1 (proj2 (proj2 (quiet_fields _ _ Q')))). }
    destruct (_ =? cLP).
    { apply (ac_getFuncC ss _ _ T4); [|exact LI4|exact XX]. rewrite N4. intros H. apply app_eq_nil in H. destruct H as [_ H]. discriminate H. }
    match goal with |- ac (if ?x then _ else _) _ => destruct x end; [exact I|]. match goal with |- ac (if ?x then _ else _) _ => destruct x end; [exact I|].
    apply (ac_getGVarsC ss).
    + apply (TI_set _ _ _ (wNt g4 (ntSetScope (gnt g4) (ntGetSize (gnt g4) - 1) ScCOMM))); try reflexivity. apply TI_nt; [|exact T4].
      apply glob_setScope; [discriminate|discriminate|exact (i_tab _ _ _ _ T4)].
    + reflexivity.
    + unfold lastTy. rewrite N4. cbn [wScope wNt gnt curDim curType]. eexists (gnt g3), _. split.
      * unfold ntSetScope. rewrite size_app. replace (Z.to_nat _) with (List.length (gnt g3)) by (unfold ntGetSize; cbn [List.length]; lia). apply upd_last.
      * cbn [nDim nType]. split; [symmetry; exact D4|symmetry; exact CT].
    + exact LI4.
    + exact XX.
Qed.
Lemma genDirect_XS i x : XS x -> XS (genDirect i x).
Proof.
  intros X. unfold genDirect. destruct i as [[[k ln] fn] s]. destruct (_ && _); [|exact X]. destruct (ln =? 1); [|unfold CFileProofs.XS; cbn [cps nstr ntmp]; rewrite app_nil_r; exact X].
  apply (XI_snoc _ _ _ _ _ _ _ _ X); cbn [nstr ntmp definesStr definesTmp usesStr]; rewrite ?Z.sub_diag; try reflexivity; try lia; try exact I; try discriminate; try apply incl_nil_l.
Qed.
Lemma ac_transLoop all f : forall g x, INV (g, x) -> ac (transLoop opt krn all f g x) INV.
Proof.
  induction f as [|f IH]; intros g x H; [exact I|]. cbn [transLoop].
  set (x1 := fold_left _ _ x).
  assert (INV (g, x1)) as H1.
  { destruct H as (T & ss & LI & XX). split; [exact T|]. exists ss. split; [exact LI|]. cbn [fst snd] in *. unfold x1. generalize (marks all (its (ge g))) as ms. intros ms. revert x XX x1.
    induction ms as [|m ms IHm]; intros x XX x1; cbn [fold_left]; [exact XX|]. apply IHm. apply genDirect_XS. exact XX. }
  clearbody x1. destruct (_ =? _); [exact H1|]. eapply ac_bind; [apply ac_getProgC; exact H1|]. intros [g2 x2] H2. exact (IH _ _ H2).
Qed.
End Top.
Theorem pieces_right opt krn file ps : pieces opt krn file = Some ps ->
  exists n m, XI opt krn ps n m.
Proof.
  unfold pieces. destruct (lexAll file) as [l| |]; try discriminate.
  pose proof (ac_transLoop opt krn l l (S (List.length l)) (gInit l) (CSt [] false 0 0)) as H.
  destruct (transLoop opt krn l (S (List.length l)) (gInit l) (CSt [] false 0 0)) as [[g x]| | |]; try discriminate. intros E. injection E as <-.
  destruct H as (_ & ss & _ & X); [|exists (nstr x), (ntmp x); exact X].
  split; [apply TI_init|]. exists []. split; [split; reflexivity|]. constructor; cbn [cps nstr ntmp snd].
  - split; [reflexivity|lia].
  - constructor.
  - split; [reflexivity|lia].
  - intros [|y a] p b E; discriminate E.
Qed.
