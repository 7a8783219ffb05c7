(* The whole of a function: prologue, body, epilogue. *)
From Coq Require Import ZArith Bool Lia List.
From Verif Require Import Word WordProofs SyTree ExprSem VM VmCode VmBase TacSpec Tac TacSafe TacInv TacInv2 TacSim TacRun TacFrame.
Import ListNotations.
Open Scope Z_scope.

Section Func.
Variable M : machine.
Variable Hw : hw M.

Lemma entry_run : forall e d (t : mst M), 0 <= d -> (exists d', e = IEntry d' \/ e = IEntryK d' \/ e = IEntryI d') ->
  let F := sp t - saved e - 2 in
  exists t', Ex M Hw (entryCode e d) t t' /\ fp t' = F /\ tg t' = tg t /\ sp t' = F - 2 * d /\
    (forall r, 3 <= r -> gr t' r = gr t r) /\
    (forall i, 0 <= i < rvSz d -> sm t' (F - frSz d - 2 - 2 * i) = gr t (i + 3)) /\
    sm t' F = fp t /\
    (forall a, F - frSz d <= a < F \/ sp t <= a -> sm t' a = sm t a) /\
    (isIntr e = true -> sm t' (F + 2) = gr t 2 /\ sm t' (F + 4) = gr t 1 /\ sm t' (F + 6) = gr t 0).
Proof.
  intros e d t Hd Ie F. destruct Ie as [d' [-> | [-> | ->]]]; cbn [isIntr entryCode].
  - destruct (frame_run M Hw d t Hd) as [t1 [X [A [B [C [D [E [G K]]]]]]]]. pose proof (sizes d Hd) as (Z1 & Z2 & Z3 & Z4 & _).
    assert (F = sp t - 2) as HF by (unfold F; change (saved (IEntry d')) with 0; lia). rewrite <- HF in *.
    destruct (hjunk Hw t1) as [[[jr js] z] l] eqn:Hj.
    exists (Mst (fun r => if r =? 0 then jr 0 else gr t1 r) (fp t1) (sp t1) (fun a => if a <? sp t1 then js a else sm t1 a) z l (tg t1)).
    cbn [gr fp sp sm tg]. split; [|split; [exact B|split; [exact C|split; [exact D|split; [|split; [|split; [|split]]]]]]].
    + apply (Ex_app _ _ _ _ _ X). apply Ex1. simpl. rewrite Hj. reflexivity.
    + intros r Hr. destruct (Z.eqb_spec r 0); [lia|]. rewrite A. reflexivity.
    + intros i Hi. rewrite D. destruct (Z.ltb_spec (F - frSz d - 2 - 2 * i) (F - 2 * d)); [lia|]. apply E. exact Hi.
    + rewrite D. destruct (Z.ltb_spec F (F - 2 * d)); [lia|]. exact G.
    + intros a Ha. rewrite D. destruct (Z.ltb_spec a (F - 2 * d)); [lia|]. apply K; lia.
    + discriminate.
  - destruct (frame_run M Hw d t Hd) as [t1 [X [A [B [C [D [E [G K]]]]]]]]. pose proof (sizes d Hd) as (Z1 & Z2 & Z3 & Z4 & _).
    assert (F = sp t - 2) as HF by (unfold F; change (saved (IEntryK d')) with 0; lia). rewrite <- HF in *.
    exists t1. split; [exact X|split; [exact B|split; [exact C|split; [exact D|split; [|split; [exact E|split; [exact G|split]]]]]]].
    + intros r _. rewrite A. reflexivity.
    + intros a Ha. apply K; lia.
    + discriminate.
  - set (t0 := push M (push M (push M t (gr t 0)) (gr t 1)) (gr t 2)).
    destruct (frame_run M Hw d t0 Hd) as [t1 [X [A [B [C [D [E [G K]]]]]]]]. pose proof (sizes d Hd) as (Z1 & Z2 & Z3 & Z4 & _).
    assert (Sp : sp t0 = sp t - 6) by (cbn [t0 push setsm setsp sp]; lia).
    assert (F = sp t0 - 2) as HF by (rewrite Sp; unfold F; change (saved (IEntryI d')) with 6; lia). rewrite <- HF in *.
    assert (Sm : forall a, sm t0 a = if a =? sp t - 6 then gr t 2 else if a =? sp t - 4 then gr t 1 else if a =? sp t - 2 then gr t 0 else sm t a).
    { intros a. cbn [t0 push setsm setsp sp sm gr]. unfold upd. replace (sp t - 2 - 2 - 2) with (sp t - 6) by lia. replace (sp t - 2 - 2) with (sp t - 4) by lia. reflexivity. }
    exists t1. split; [|split; [exact B|split; [exact C|split; [exact D|split; [|split; [|split; [|split]]]]]]].
    + apply (Ex_app M Hw [TPush 0; TPush 1; TPush 2] t t0); [|exact X]. do 3 (eapply Ex_one; [reflexivity|]). apply Ex_nil.
    + intros r _. rewrite A. reflexivity.
    + intros i Hi. rewrite E by exact Hi. reflexivity.
    + rewrite G. reflexivity.
    + intros a Ha. rewrite K by lia. rewrite Sm.
      destruct (Z.eqb_spec a (sp t - 6)); [lia|]. destruct (Z.eqb_spec a (sp t - 4)); [lia|]. destruct (Z.eqb_spec a (sp t - 2)); [lia|]. reflexivity.
    + intros _. rewrite !K by lia. rewrite !Sm. replace (F + 2) with (sp t - 6) by lia. replace (F + 4) with (sp t - 4) by lia. replace (F + 6) with (sp t - 2) by lia.
      rewrite !Z.eqb_refl. destruct (Z.eqb_spec (sp t - 4) (sp t - 6)); [lia|]. destruct (Z.eqb_spec (sp t - 2) (sp t - 6)); [lia|].
      destruct (Z.eqb_spec (sp t - 2) (sp t - 4)); [lia|]. auto.
Qed.

Variable ord : bool.
Variables (depth np : Z).
Hypothesis Hfl : flat M.
Hypothesis Hhw : hwOk M Hw ord.

Theorem function_run : forall n e p, safe ord depth np n e p = true ->
  exists C s', tac false ord depth np (VI e :: p) (tinit n) = Some (C, s') /\
  forall t0 m0 k cf, begins M e depth np t0 m0 ->
    fsteps M (expand (VI e :: p)) k (Cfg 0 [] [] None m0) cf -> at_ret M (expand (VI e :: p)) cf ->
    exists kt t', treaches M Hw C (TCfg 0 t0) (TCfg kt t') /\
      nth_error C kt = Some (if isIntr e then TRetI else TRet) /\
      returned M e np (reg cf) (mem cf) t0 t'.
Proof.
  intros n e p Sf. unfold safe in Sf. apply andb_true_iff in Sf. destruct Sf as [Sf Hc].
  apply andb_true_iff in Sf. destruct Sf as [Sf Hres]. apply andb_true_iff in Sf. destruct Sf as [Sf Hnd]. apply nodupb_NoDup in Hnd.
  apply andb_true_iff in Sf. destruct Sf as [He Hops].
  destruct (vm true ord depth np (VI e) (tinit n)) as [[cE sE]|] eqn:VE; [|discriminate Hc].
  destruct (tac true ord depth np p sE) as [[cp sF]|] eqn:Tp; [|discriminate Hc].
  apply andb_true_iff in Hc. destruct Hc as [Hnt Hjoin]. apply nodupb_NoDup in Hnt.
  exists (cE ++ cp), sF. split.
  { apply le_tac. cbn [tac]. unfold andThen. rewrite VE, Tp. reflexivity. }
  intros t0 m0 k cf Bg Fs Ar.
  destruct (entry_inv _ _ _ _ _ _ _ _ He VE) as [Hd [EcE EsE]].
  assert (Ie : exists d', e = IEntry d' \/ e = IEntryK d' \/ e = IEntryI d') by (destruct e; try discriminate He; eauto).
  destruct (entry_run e depth t0 Hd Ie) as [t1 [X1 [Hf [Hg [Hs [Hr [Hsv [Hfp [Hsm Hin]]]]]]]]].
  set (F := sp t0 - saved e - 2) in *.
  pose proof (sizes depth Hd) as (Z1 & Z2 & Z3 & Z4 & Z5 & Z6).
  assert (WE : WF sE) by (rewrite EsE; apply (WF_same (tinit n)); try reflexivity; apply tinit_WF).
  assert (Np : isIntr e = true -> np = 0).
  { destruct e; try discriminate He; intros Q; try discriminate Q. unfold entryOK in He. apply andb_true_iff in He. apply Z.eqb_eq. exact (proj2 He). }
  assert (Prm : forall j, 0 <= j < np -> F + (j + 2) * 2 = sp t0 + 2 + 2 * j).
  { intros j Hj. unfold F, saved. destruct (isIntr e) eqn:Ii; [specialize (Np eq_refl); lia|lia]. }
  assert (Sav : sp t0 = F + saved e + 2) by (unfold F; lia).
  assert (Sv0 : saved e = 0 \/ saved e = 6) by (unfold saved; destruct (isIntr e); auto).
  assert (S0 : SIM M F depth np (gr t0) (sm t1) ord sE [] [] m0 t1).
  { rewrite EsE. split; cbn [set_frm tinit vst lay fv length Z.of_nat]; try (now constructor).
    - destruct Bg as [Bg1 Bg2 Bg3 Bg4]. split.
      + exact Hf.
      + congruence.
      + intros j J1 J2. rewrite Hr by lia. auto.
      + intros j J1. rewrite Hsm by lia. rewrite <- Bg4 by exact J1. f_equal. unfold F. lia.
      + intros j J1. rewrite Prm by exact J1. rewrite Hsm by lia. auto.
      + intros r R1 R2. apply Hr. lia.
      + reflexivity.
    - rewrite Hs. unfold base. lia.
    - intros i []. }
  set (P := expand (VI e :: p)) in *. set (C := cE ++ cp) in *.
  assert (NdP : NoDup (defs (e :: expand p))) by (destruct e; try discriminate He; exact Hnd).
  (* the entry instruction *)
  assert (St : step M P (Cfg 0 [] [] None m0) = Some (Cfg 1 [] [] None m0)).
  { unfold P. destruct Ie as [d' [-> | [-> | ->]]]; reflexivity. }
  destruct (fs_next _ _ _ _ _ _ Fs Ar St) as [k' [-> [_ Fs']]].
  destruct (run_main M Hw F depth np (gr t0) (sm t1) ord Hd Hfl Hhw e p sE sF cE cp (isIntr e) Tp WE Hops NdP Hnt Hjoin Hres P C eq_refl eq_refl
    k' [] p [] sE [] [] None m0 t1 cf) as [cc [Tr En]].
  { split; [reflexivity|split; [reflexivity|split; [exact S0|split; [left; reflexivity|exact Fs']]]]. }
  { exact Ar. }
  destruct En as [q1 [i [q2 [cq [sr [t [Eq [Hi [Tq [-> [Sm Hg0]]]]]]]]]]].
  destruct (split_at depth np ord e p sE sF cE cp (isIntr e) Tp WE Hops P C eq_refl eq_refl q1 (VI i) q2 cq sr Eq Tq) as [cv [s2 [c2 [V [_ [Wr [_ [Ok [Ec _]]]]]]]]].
  assert (Fr : rv sr = rvSz depth /\ fr sr = frSz depth).
  { assert (O1 : forallb (opOK (isIntr e)) q1 = true) by (rewrite Eq, forallb_app in Hops; apply andb_true_iff in Hops; exact (proj1 Hops)).
    destruct (tac_frame _ _ _ _ _ _ _ _ _ O1 WE Tq) as [Q1 Q2]. rewrite EsE in Q1, Q2. exact (conj Q1 Q2). }
  destruct Fr as [Rv Fr].
  assert (Ev : exists s3, cancelFrame true sr = Some (unframe depth, s3) /\ vst sr = [] /\ lay sr = [] /\
     cv = unframe depth ++ (if isIntr e then [TPop 2; TPop 1; TPop 0; TRetI] else [TRet]) /\ (isIntr e = true -> i = IRetI)).
  { assert (Q : forall c0 s3, cancelFrame true sr = Some (c0, s3) -> c0 = unframe depth /\ vst sr = [] /\ lay sr = []).
    { intros c0 s3 Cf. destruct (cancel_inv _ _ _ Cf) as [A [B [_ D]]]. rewrite Rv, Fr in D. auto. }
    destruct Hi as [-> | ->]; simpl in Ok; cbn [vm] in V; seqi V as c3 s3 Cf c4; inv1 V; destruct (Q _ _ Cf) as [-> [V0 L0]]; exists s3;
      (split; [exact Cf|split; [exact V0|split; [exact L0|]]]).
    - apply negb_true_iff in Ok. rewrite Ok. split; [reflexivity|discriminate].
    - rewrite Ok. split; [reflexivity|reflexivity]. }
  destruct Ev as [s3 [_ [V0 [L0 [Ecv Hii]]]]].
  destruct Sm as [Fm Sp _ _ _ _ _ _]. rewrite L0 in Sp. cbn [length Z.of_nat] in Sp. unfold base in Sp.
  destruct Fm as [M1 M2 M3 M4 M5 M6 M7]. unfold base in M7.
  destruct (unframe_run M Hw depth t F Hd M1 ltac:(lia)) as [t2 [X2 [U1 [U2 [U3 [U4 [U5 U6]]]]]]].
  assert (Kp : forall a, F - 2 * depth <= a -> a < F - frSz depth \/ F <= a -> (forall j, 0 <= j < np -> a <> F + (j + 2) * 2) -> sm t a = sm t1 a).
  { intros a A1 A2 A3. apply M7; [exact A1| |exact A3]. intros j J ->. specialize (Z5 ltac:(lia)). lia. }
  assert (Tr1 : treaches M Hw C (TCfg 0 t0) (TCfg (length (cE ++ cq) + length (unframe depth)) t2)).
  { apply (treaches_trans M Hw _ _ (TCfg (length (cE ++ [])) t1)).
    - rewrite app_nil_r. unfold C in *. rewrite EcE in *. apply (Ex_run M Hw _ _ _ X1 [] cp). exact Hnt.
    - apply (treaches_trans M Hw _ _ _ _ Tr). 
      assert (Ec2 : C = (cE ++ cq) ++ unframe depth ++ ((if isIntr e then [TPop 2; TPop 1; TPop 0; TRetI] else [TRet]) ++ c2)) by (rewrite Ec, Ecv, <- !app_assoc; reflexivity).
      rewrite Ec2. apply (Ex_run M Hw _ _ _ X2). rewrite <- Ec2. exact Hnt. }
  assert (Reg : forall r, 3 <= r < 12 -> gr t2 r = gr t0 r).
  { intros r Hr2. destruct (Z.ltb_spec r (rvSz depth + 3)).
    - replace r with ((r - 3) + 3) by lia. rewrite U5 by lia. rewrite Kp; [apply Hsv; lia|lia|lia|intros j J; lia].
    - rewrite U6 by lia. apply M6; [lia|]. destruct (Z.ltb_spec 9 depth).
      + unfold rvSz in *. destruct (Z.ltb_spec 9 depth); lia.
      + destruct (Z6 ltac:(lia)). lia. }
  assert (Fp2 : fp t2 = fp t0).
  { rewrite U2. rewrite Kp; [exact Hfp|lia|lia|intros j J; lia]. }
  destruct (isIntr e) eqn:Ii.
  - assert (Sv : saved e = 6) by (unfold saved; rewrite Ii; reflexivity).
    set (t3 := setsp M (setr M t2 2 (sm t2 (sp t2))) (sp t2 + 2)).
    set (t4 := setsp M (setr M t3 1 (sm t3 (sp t3))) (sp t3 + 2)).
    set (t5 := setsp M (setr M t4 0 (sm t4 (sp t4))) (sp t4 + 2)).
    exists (length (cE ++ cq) + length (unframe depth) + 3)%nat, t5. split; [|split].
    + apply (treaches_trans M Hw _ _ _ _ Tr1).
      assert (Ec3 : C = ((cE ++ cq) ++ unframe depth) ++ [TPop 2; TPop 1; TPop 0] ++ ([TRetI] ++ c2)) by (rewrite Ec, Ecv, <- !app_assoc; reflexivity).
      assert (X3 : Ex M Hw [TPop 2; TPop 1; TPop 0] t2 t5) by (do 3 (eapply Ex_one; [reflexivity|]); apply Ex_nil).
      rewrite <- app_length. rewrite Ec3. apply (Ex_run M Hw _ _ _ X3). rewrite <- Ec3. exact Hnt.
    + rewrite Ec, Ecv. rewrite <- Nat.add_assoc. apply at_mid. rewrite nth_error_app2 by lia.
      replace (length (unframe depth) + 3 - length (unframe depth))%nat with 3%nat by lia. reflexivity.
    + destruct (Hin eq_refl) as [I1 [I2 I3]].
      assert (Np0 : forall j, ~ (0 <= j < np)) by (rewrite (Np eq_refl); lia).
      assert (K2 : forall a, F <= a -> sm t a = sm t1 a) by (intros a Ha; apply Kp; [lia|lia|intros j J; elim (Np0 j J)]).
      assert (Sp5 : sp t5 = F + 8) by (cbn [t5 t4 t3 setsp setr sp]; lia).
      split; cbn [t5 t4 t3 setsp setr sp sm fp tg gr].
      * congruence.
      * intros Q; congruence.
      * rewrite Ii. intros r Hr2. unfold upd. destruct (Z.eqb_spec r 0) as [->|].
        { rewrite U1. rewrite U3. replace (F + 2 + 2 + 2) with (F + 6) by lia. rewrite K2 by lia. exact I3. }
        destruct (Z.eqb_spec r 1) as [->|]. { rewrite U1. rewrite U3. replace (F + 2 + 2) with (F + 4) by lia. rewrite K2 by lia. exact I2. }
        destruct (Z.eqb_spec r 2) as [->|]. { rewrite U1. rewrite U3. rewrite K2 by lia. exact I1. }
        apply Reg. lia.
      * exact Fp2.
      * lia.
      * intros a Ha _. rewrite U1. rewrite K2 by lia. apply Hsm. lia.
  - assert (Sv : saved e = 0) by (unfold saved; rewrite Ii; reflexivity).
    exists (length (cE ++ cq) + length (unframe depth))%nat, t2. split; [exact Tr1|split].
    + rewrite Ec, Ecv. apply at_mid. rewrite nth_error_app2 by lia. rewrite Nat.sub_diag. reflexivity.
    + split.
      * congruence.
      * intros _ v Hv. rewrite U6 by lia. exact (Hg0 v Hv).
      * rewrite Ii. exact Reg.
      * exact Fp2.
      * lia.
      * intros a Ha Hp. rewrite U1. rewrite Kp; [apply Hsm; lia|lia|lia|].
        intros j J. rewrite Prm by exact J. exact (Hp j J).
Qed.
End Func.
