(* Pending operands and taken-over accumulators; power-of-two operands. *)
From Coq Require Import ZArith Bool Lia List.
From Verif Require Import Word WordProofs SyTree ExprSem VM VmCode VmBase TacSpec Tac TacSafe TacInv TacInv2 TacSim TacRun TacFrame TacFunc.
Import ListNotations.
Open Scope Z_scope.

(* the value an entry of the virtual stack stands for while the machine is in
   state t: k is the condition under which the flags mean true. None: the value
   is on the real stack. *)
Definition entVal M (k : cc) (t : mst M) (e : ent) : option Z :=
  match e with
  | XStk => None
  | XFlg _ => Some (if holds k (zf t) (lf t) then 1 else 0)
  | _ => match opdOf e with Some o => Some (opd_val M o t) | None => None end
  end.

Lemma takeover : forall M (Hw : hw M) strict s c s' (t : mst M), WF s -> outStk strict s = Some (c, s') ->
  exists o e a v t', nth_error (vst s) o = Some e /\ accOf e = Some a /\
    entVal M (fcc s) t e = Some v /\ vst s' = put (vst s) o XStk /\
    Ex M Hw c t t' /\ sp t' = sp t - 2 /\ sm t' (sp t - 2) = v /\
    (forall x, x <> sp t - 2 -> sm t' x = sm t x) /\
    (forall r, r <> a -> gr t' r = gr t r) /\ fp t' = fp t /\ tg t' = tg t /\ zf t' = zf t /\ lf t' = lf t.
Proof.
  intros M Hw strict s c s' t Wf H.
  destruct (outStk_inv _ _ _ _ H) as [o [e [a [c1 [s1 [Sr [E [Fa [Ra [K [-> ->]]]]]]]]]]].
  cbn [set_vst set_acc set_lay vst]. exists o, e, a.
  assert (Fin : forall t1 v, Ex M Hw c1 t t1 -> vst s1 = vst s -> gr t1 a = v -> entVal M (fcc s) t e = Some v ->
     (forall r, r <> a -> gr t1 r = gr t r) -> sp t1 = sp t -> sm t1 = sm t -> fp t1 = fp t -> tg t1 = tg t -> zf t1 = zf t -> lf t1 = lf t ->
     exists v t', nth_error (vst s) o = Some e /\ accOf e = Some a /\
       entVal M (fcc s) t e = Some v /\ put (vst s1) o XStk = put (vst s) o XStk /\
       Ex M Hw (c1 ++ [TPush a]) t t' /\ sp t' = sp t - 2 /\ sm t' (sp t - 2) = v /\
       (forall x, x <> sp t - 2 -> sm t' x = sm t x) /\
       (forall r, r <> a -> gr t' r = gr t r) /\ fp t' = fp t /\ tg t' = tg t /\ zf t' = zf t /\ lf t' = lf t).
  { intros t1 v X V G Ev Ro Sp Sm Fp Tg Zf Lf. exists v, (push M t1 (gr t1 a)).
    split; [exact E|]. split; [exact Fa|]. split; [exact Ev|]. split; [rewrite V; reflexivity|].
    split; [apply (Ex_app _ _ _ _ _ X); apply Ex1; reflexivity|]. cbn [push setsm setsp sp sm gr fp tg zf lf].
    rewrite Sp, Sm. split; [reflexivity|]. split; [unfold upd; rewrite Z.eqb_refl; exact G|].
    split; [intros x Hx; unfold upd; destruct (Z.eqb_spec x (sp t - 2)); [contradiction|reflexivity]|].
    split; [exact Ro|]. auto. }
  destruct (isACC e) eqn:Ia.
  - destruct K as [-> ->]. destruct e; try discriminate Ia. simpl in Fa. injection Fa as ->.
    apply (Fin t (gr t a)); try reflexivity. apply Ex_nil.
  - assert (Ld : forall q, c1 = [TLd a q] -> opdOf e = Some q -> entVal M (fcc s) t e = Some (opd_val M q t) -> vst s1 = vst s ->
       exists v t', nth_error (vst s) o = Some e /\ accOf e = Some a /\
       entVal M (fcc s) t e = Some v /\ put (vst s1) o XStk = put (vst s) o XStk /\
       Ex M Hw (c1 ++ [TPush a]) t t' /\ sp t' = sp t - 2 /\ sm t' (sp t - 2) = v /\
       (forall x, x <> sp t - 2 -> sm t' x = sm t x) /\
       (forall r, r <> a -> gr t' r = gr t r) /\ fp t' = fp t /\ tg t' = tg t /\ zf t' = zf t /\ lf t' = lf t).
    { intros q -> Oq Ev Vs. apply (Fin (setr M t a (opd_val M q t)) (opd_val M q t)); try reflexivity; try assumption.
      - apply Ex1. reflexivity.
      - cbn [setr gr]. unfold upd. rewrite Z.eqb_refl. reflexivity.
      - intros r Hr. cbn [setr gr]. unfold upd. destruct (Z.eqb_spec r a); [contradiction|reflexivity]. }
    unfold loadReg in K. inv1 K. rewrite E in E0. injection E0 as <-.
    destruct e; try discriminate Fa; try discriminate Ia; cbn [opdOf] in *.
    + destruct (andThen_inv _ _ _ _ _ K) as [d1 [s2 [d2 [A [B ->]]]]]. unfold bug in A. simpl in A. injection A as <- <-.
      unfold calReg in B. inv1 B. rewrite E in E0. injection E0 as <-. cbn [opdOf] in B. inv1 B. apply (Ld (OWnd r)); reflexivity.
    + destruct (andThen_inv _ _ _ _ _ K) as [d1 [s2 [d2 [A [B ->]]]]]. unfold bug in A. simpl in A. injection A as <- <-.
      unfold calReg in B. inv1 B. rewrite E in E0. injection E0 as <-. cbn [opdOf] in B. inv1 B. apply (Ld (OByt r)); reflexivity.
    + destruct (andThen_inv _ _ _ _ _ K) as [d1 [s2 [d2 [A [B ->]]]]]. inv1 B. rewrite app_nil_r in *.
      destruct (loadFlg_inv _ _ _ _ _ A) as [_ [_ [-> ->]]].
      apply (Fin (if holds (fcc s) (zf t) (lf t) then setr M t a 1 else setr M (setr M t a 1) a 0) (if holds (fcc s) (zf t) (lf t) then 1 else 0));
        try reflexivity; try (destruct (holds (fcc s) (zf t) (lf t)); reflexivity).
      * apply Ex_flg. apply Ex_nil.
      * destruct (holds (fcc s) (zf t) (lf t)); cbn [setr gr]; unfold upd; rewrite Z.eqb_refl; reflexivity.
      * intros r0 Hr. destruct (holds (fcc s) (zf t) (lf t)); cbn [setr gr]; unfold upd; destruct (Z.eqb_spec r0 a); try contradiction; reflexivity.
Qed.

(* straight-line code: every entry stands for the value the virtual machine has *)
Section Straight.
Variable M : machine.
Variable Hw : hw M.
Variables (ord : bool) (depth np : Z).
Hypothesis Hfl : flat M.
Hypothesis Hhw : hwOk M Hw ord.

Lemma straight_run : forall F GR0 SMS P p s c s' k n vs va r m t cf, 0 <= depth ->
  forallb straight p = true -> tac true ord depth np (map VI p) s = Some (c, s') -> WF s -> Forall slotOk (map VI p) ->
  SIM M F depth np GR0 SMS ord s vs va m t -> code_at P k p -> n = length p ->
  fsteps M P n (Cfg k vs va r m) cf ->
  exists t', Ex M Hw c t t' /\ SIM M F depth np GR0 SMS ord s' (stk cf) (args cf) (mem cf) t'.
Proof.
  intros F GR0 SMS P. induction p as [|i p IH]; intros s c s' k n vs va r m t cf Hd St Tc Wf So Sm Ca -> Fs.
  - cbn [map tac] in Tc. inv1 Tc. cbn [length fsteps] in Fs. subst cf. exists t. split; [apply Ex_nil|exact Sm].
  - cbn [map tac] in Tc. destruct (andThen_inv _ _ _ _ _ Tc) as [c1 [s1 [c2 [A [B ->]]]]].
    cbn [forallb] in St. apply andb_true_iff in St. destruct St as [St1 St2]. cbn [map] in So. inversion So as [|? ? So1 So2]; subst.
    cbn [length fsteps] in Fs. destruct Fs as [Fi [d [Sd Fs]]].
    destruct d as [k' vs' va' r' m']. pose proof (code_at_hd _ _ _ _ Ca) as Ni.
    unfold fineAt in Fi. cbn [pc stk] in Fi. rewrite Ni in Fi.
    destruct (straight_SIM M Hw F depth np GR0 SMS ord Hd Hfl Hhw i s c1 s1 P k vs va r m vs' va' r' m' k' t St1 Wf Sm A Ni Sd Fi) as [-> [t1 [X [S1 _]]]].
    destruct (IH s1 c2 s' (S k) (length p) vs' va' r' m' t1 cf Hd St2 B (vm_WF' _ _ _ _ _ _ _ _ So1 Wf A) So2 S1 (code_at_tl _ _ _ _ Ca) eq_refl Fs) as [t2 [X2 S2]].
    exists t2. split; [exact (Ex_app _ _ _ _ _ X _ _ X2)|exact S2].
Qed.
End Straight.

(* the beginning of a function *)
Lemma begin_SIM : forall M (Hw : hw M) ord depth np n e cE sE t0 m0,
  entryOK depth np e = true -> vm true ord depth np (VI e) (tinit n) = Some (cE, sE) -> begins M e depth np t0 m0 ->
  0 <= depth /\ WF sE /\ exists F SMS t1, Ex M Hw cE t0 t1 /\ SIM M F depth np (gr t0) SMS ord sE [] [] m0 t1.
Proof.
  intros M Hw ord depth np n e cE sE t0 m0 He VE Bg.
  destruct (entry_inv _ _ _ _ _ _ _ _ He VE) as [Hd [EcE EsE]]. split; [exact Hd|].
  assert (WE : WF sE) by (rewrite EsE; apply (WF_same (tinit n)); try reflexivity; apply tinit_WF). split; [exact WE|].
  assert (Ie : exists d', e = IEntry d' \/ e = IEntryK d' \/ e = IEntryI d') by (destruct e; try discriminate He; eauto).
  destruct (entry_run M Hw e depth t0 Hd Ie) as [t1 [X1 [Hf [Hg [Hs [Hr [Hsv [Hfp [Hsm Hin]]]]]]]]].
  set (F := sp t0 - saved e - 2) in *.
  pose proof (sizes depth Hd) as (Z1 & Z2 & Z3 & Z4 & Z5 & Z6).
  assert (Np : isIntr e = true -> np = 0).
  { destruct e; try discriminate He; intros Q; try discriminate Q. unfold entryOK in He. apply andb_true_iff in He. apply Z.eqb_eq. exact (proj2 He). }
  assert (Prm : forall j, 0 <= j < np -> F + (j + 2) * 2 = sp t0 + 2 + 2 * j).
  { intros j Hj. unfold F, saved. destruct (isIntr e) eqn:Ii; [specialize (Np eq_refl); lia|lia]. }
  exists F, (sm t1), t1. split; [rewrite EcE; exact X1|].
  rewrite EsE. split; cbn [set_frm tinit vst lay fv length Z.of_nat]; try (now constructor).
  - destruct Bg as [Bg1 Bg2 Bg3 Bg4]. split.
    + exact Hf.
    + congruence.
    + intros j J1 J2. rewrite Hr by lia. auto.
    + intros j J1. rewrite Hsm by lia. rewrite <- Bg4 by exact J1. f_equal. unfold F. lia.
    + intros j J1. rewrite Prm by exact J1. rewrite Hsm by lia. auto.
    + intros r R1 R2. apply Hr. lia.
    + reflexivity.
  - rewrite Hs. unfold base. lia.
  - intros i [].
Qed.

Lemma opdOf_entVal : forall M k (t : mst M) e v, (match opdOf e with Some o => opd_val M o t = v | None => isFlg e = true -> v = b2w (holds k (zf t) (lf t)) end) ->
  e = XStk \/ entVal M k t e = Some v.
Proof.
  intros M k t e v H. destruct e; cbn [opdOf entVal] in *; try (left; reflexivity); right; rewrite H; reflexivity.
Qed.

Lemma pending : forall M (Hw : hw M) ord depth np n e p c s t0 m0 cf,
  flat M -> hwOk M Hw ord -> entryOK depth np e = true -> forallb straight p = true -> Forall slotOk (map VI p) ->
  tac true ord depth np (VI e :: map VI p) (tinit n) = Some (c, s) -> begins M e depth np t0 m0 ->
  fsteps M (e :: p) (S (length p)) (Cfg 0 [] [] None m0) cf ->
  exists t', Ex M Hw c t0 t' /\ Forall2 (fun x v => x = XStk \/ entVal M (fcc s) t' x = Some v) (vst s) (stk cf).
Proof.
  intros M Hw ord depth np n e p c s t0 m0 cf Hfl Hhw He St So Tc Bg Fs.
  cbn [tac] in Tc. destruct (andThen_inv _ _ _ _ _ Tc) as [cE [sE [cp [A [B ->]]]]].
  destruct (begin_SIM M Hw ord depth np n e cE sE t0 m0 He A Bg) as [Hd [WE [F [SMS [t1 [X1 S1]]]]]].
  cbn [fsteps] in Fs. destruct Fs as [_ [d [Sd Fs]]].
  assert (d = Cfg 1 [] [] None m0) by (destruct e; try discriminate He; cbn in Sd; injection Sd as <-; reflexivity). subst d.
  assert (Ca : code_at (e :: p) 1 p) by (exists [e], []; rewrite app_nil_r; split; reflexivity).
  destruct (straight_run M Hw ord depth np Hfl Hhw F (gr t0) SMS (e :: p) p sE cp s 1 (length p) [] [] None m0 t1 cf Hd St B WE So S1 Ca eq_refl Fs) as [t2 [X2 S2]].
  exists t2. split; [exact (Ex_app _ _ _ _ _ X1 _ _ X2)|].
  pose proof (s_den _ _ _ _ _ _ _ _ _ _ _ _ S2) as D. clear - D.
  induction D as [|x v xs vs [_ H] _ IH]; constructor; [exact (opdOf_entVal _ _ _ _ _ H)|exact IH].
Qed.

(* ---- constants that are powers of two ---- *)
Lemma upto14 : forall n, 1 <= n <= 14 -> n = 1 \/ n = 2 \/ n = 3 \/ n = 4 \/ n = 5 \/ n = 6 \/ n = 7 \/ n = 8 \/ n = 9 \/ n = 10 \/ n = 11 \/ n = 12 \/ n = 13 \/ n = 14.
Proof. lia. Qed.
Definition xc (n : Z) (o : op2) : list vop := [VI (ILdPrm 0); VI (ILdCns (2 ^ n)); VI (IBin o)].
Definition cx (n : Z) (o : op2) : list vop := [VI (ILdCns (2 ^ n)); VI (ILdPrm 0); VI (IBin o)].
Lemma pow_code : forall ord depth np k n, 1 <= n <= 14 ->
  (exists s, tac false ord depth np (xc n MUL) (tinit k) = Some ([TLd 0 (OFp 4); TAlu AShl 0 (OImm n)], s) /\ vst s = [XAcc 0]) /\
  (exists s, tac false ord depth np (cx n MUL) (tinit k) = Some ([TLd 0 (OFp 4); TAlu AShl 0 (OImm n)], s) /\ vst s = [XAcc 0]) /\
  (exists s, tac false ord depth np (xc n DIV) (tinit k) = Some ([TLd 0 (OFp 4); TAlu AShr 0 (OImm n)], s) /\ vst s = [XAcc 0]) /\
  (exists s, tac false ord depth np (xc n MOD) (tinit k) = Some ([TLd 0 (OFp 4); TAlu AAnd 0 (OImm (2 ^ n - 1))], s) /\ vst s = [XAcc 0]).
Proof.
  intros ord depth np k n Hn.
  apply upto14 in Hn. destruct Hn as [->|[->|[->|[->|[->|[->|[->|[->|[->|[->|[->|[->|[-> | ->]]]]]]]]]]]]];
    (split; [|split; [|split]]); (eexists; split; [vm_compute; reflexivity|reflexivity]).
Qed.
Lemma two_run : forall M (Hw : hw M) a q (t : mst M), exists t',
  treaches M Hw [TLd 0 (OFp 4); TAlu a 0 (OImm q)] (TCfg 0 t) (TCfg 2 t') /\ gr t' 0 = alu_val M Hw a (sm t (fp t + 4)) (w16 q).
Proof.
  intros M Hw a q t.
  set (t1 := setr M t 0 (opd_val M (OFp 4) t)).
  set (v := alu_val M Hw a (gr t1 0) (opd_val M (OImm q) t1)).
  exists (setf M (setr M t1 0 v) (v =? 0) (hlt Hw a (gr t1 0) (opd_val M (OImm q) t1))). split; [|reflexivity].
  assert (X : Ex M Hw [TLd 0 (OFp 4); TAlu a 0 (OImm q)] t (setf M (setr M t1 0 v) (v =? 0) (hlt Hw a (gr t1 0) (opd_val M (OImm q) t1)))).
  { apply (Ex_one M Hw _ _ _ t1); [reflexivity|]. apply Ex1. reflexivity. }
  apply (Ex_run M Hw _ _ _ X [] []). constructor.
Qed.
Lemma quot_pow : forall x n, is_word x -> 1 <= n <= 14 ->
  (w_div x (2 ^ n) = Some (w16 (sval x / 2 ^ n)) <-> x < 32768 \/ x mod 2 ^ n = 0).
Proof.
  intros x n Hx Hn.
  assert (P : 2 <= 2 ^ n <= 16384).
  { apply upto14 in Hn. destruct Hn as [->|[->|[->|[->|[->|[->|[->|[->|[->|[->|[->|[->|[-> | ->]]]]]]]]]]]]]; vm_compute; split; discriminate. }
  assert (D : 65536 mod 2 ^ n = 0).
  { apply upto14 in Hn. destruct Hn as [->|[->|[->|[->|[->|[->|[->|[->|[->|[->|[->|[->|[-> | ->]]]]]]]]]]]]]; reflexivity. }
  set (d := 2 ^ n) in *. unfold w_div. destruct (Z.eqb_spec d 0); [lia|].
  assert (Sd : sval d = d) by (unfold sval; destruct (Z.ltb_spec d 32768); lia). rewrite Sd.
  unfold is_word in Hx. unfold sval. destruct (Z.ltb_spec x 32768).
  - rewrite Z.quot_div_nonneg by lia. split; auto.
  - assert (M1 : (x - 65536) mod d = x mod d).
    { rewrite Zminus_mod, D, Z.sub_0_r. apply Z.mod_mod. lia. }
    pose proof (Z.quot_opp_l (65536 - x) d ltac:(lia)) as Q. replace (- (65536 - x)) with (x - 65536) in Q by lia.
    rewrite (Z.quot_div_nonneg (65536 - x) d) in Q by lia.
    pose proof (Z.div_mod (x - 65536) d ltac:(lia)) as E1. pose proof (Z.div_mod (65536 - x) d ltac:(lia)) as E2.
    pose proof (Z.mod_pos_bound (x - 65536) d ltac:(lia)) as B1. pose proof (Z.mod_pos_bound (65536 - x) d ltac:(lia)) as B2.
    assert (R1 : -32768 <= (x - 65536) / d < 0) by (split; [apply Z.div_le_lower_bound; lia|apply Z.div_lt_upper_bound; lia]).
    assert (R2 : 0 <= (65536 - x) / d <= 32768) by (split; [apply Z.div_pos; lia|apply Z.div_le_upper_bound; lia]).
    assert (W : forall a b, -40000 <= a <= 0 -> -40000 <= b <= 0 -> w16 a = w16 b -> a = b).
    { unfold w16. intros a b Ha Hb Hab. pose proof (Z.div_mod a 65536 ltac:(lia)). pose proof (Z.div_mod b 65536 ltac:(lia)).
      assert (-1 <= a / 65536 <= 0) by (split; [apply Z.div_le_lower_bound; lia|apply Z.div_le_upper_bound; lia]).
      assert (-1 <= b / 65536 <= 0) by (split; [apply Z.div_le_lower_bound; lia|apply Z.div_le_upper_bound; lia]). lia. }
    rewrite Q. set (q1 := (x - 65536) / d) in *. set (q2 := (65536 - x) / d) in *.
    assert (Sum : d * (q1 + q2) + ((x - 65536) mod d + (65536 - x) mod d) = 0) by (rewrite Z.mul_add_distr_l; lia).
    split.
    + intros H1. injection H1 as H1. apply W in H1; [|lia|lia]. right. rewrite <- M1.
      replace (q1 + q2) with 0 in Sum by lia. lia.
    + intros [H1|H1]; [lia|]. rewrite <- M1 in H1. f_equal. f_equal. rewrite H1 in Sum.
      assert (-1 < q1 + q2 < 1) by (split; nia). lia.
Qed.
Lemma rem_pow : forall x n, is_word x -> 1 <= n <= 14 ->
  (w_mod x (2 ^ n) = Some (Z.land x (2 ^ n - 1)) <-> x < 32768 \/ x mod 2 ^ n = 0).
Proof.
  intros x n Hx Hn.
  assert (P : 2 <= 2 ^ n <= 16384).
  { apply upto14 in Hn. destruct Hn as [->|[->|[->|[->|[->|[->|[->|[->|[->|[->|[->|[->|[-> | ->]]]]]]]]]]]]]; vm_compute; split; discriminate. }
  assert (D : 65536 mod 2 ^ n = 0).
  { apply upto14 in Hn. destruct Hn as [->|[->|[->|[->|[->|[->|[->|[->|[->|[->|[->|[->|[-> | ->]]]]]]]]]]]]]; reflexivity. }
  replace (2 ^ n - 1) with (Z.ones n) by (rewrite Z.ones_equiv; lia). rewrite Z.land_ones by lia.
  set (d := 2 ^ n) in *. unfold w_mod. destruct (Z.eqb_spec d 0); [lia|].
  assert (Sd : sval d = d) by (unfold sval; destruct (Z.ltb_spec d 32768); lia). rewrite Sd.
  unfold is_word in Hx. unfold sval. pose proof (Z.mod_pos_bound x d ltac:(lia)) as Bx. destruct (Z.ltb_spec x 32768).
  - rewrite Z.rem_mod_nonneg by lia. unfold w16. rewrite (Z.mod_small (x mod d)) by lia. split; auto.
  - assert (M1 : (x - 65536) mod d = x mod d).
    { rewrite Zminus_mod, D, Z.sub_0_r. apply Z.mod_mod. lia. }
    pose proof (Z.rem_opp_l (65536 - x) d ltac:(lia)) as Q. replace (- (65536 - x)) with (x - 65536) in Q by lia.
    rewrite (Z.rem_mod_nonneg (65536 - x) d) in Q by lia. rewrite Q.
    pose proof (Z.mod_pos_bound (65536 - x) d ltac:(lia)) as B2.
    destruct (Z.eq_dec ((65536 - x) mod d) 0) as [Z0|NZ].
    + assert (x mod d = 0). { rewrite <- M1. replace (x - 65536) with (- (65536 - x)) by lia. apply Z.mod_opp_l_z; [lia|exact Z0]. }
      rewrite Z0. rewrite H0. split; auto.
    + assert (x mod d <> 0). { rewrite <- M1. replace (x - 65536) with (- (65536 - x)) by lia. rewrite (Z.mod_opp_l_nz (65536 - x) d); [lia|lia|exact NZ]. }
      unfold w16. set (r := (65536 - x) mod d) in *. set (q := x mod d) in *. clear D M1 Q Sd n0 Hn. clearbody r q d.
      replace (- r) with ((65536 - r) + (-1) * 65536) by lia.
      rewrite Z.mod_add by lia. rewrite Z.mod_small by lia. split; intros K; exfalso; [assert (K2 : 65536 - r = q) by congruence; lia|lia].
Qed.
