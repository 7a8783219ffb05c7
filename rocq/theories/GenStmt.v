(* Simulation: the code generated for a statement runs like the statement. *)
From Coq Require Import ZArith Bool List Lia.
From Verif Require Import Word SyTree ExprSem StmtSem VM VmCode VmBase GenLabels GenLabels2 GenExpr GenSim.
Import ListNotations.
Open Scope Z_scope.

Section Sim.
Variable M : machine.
Variable N : names.
Variable p : code.
Hypothesis ND : NoDup (defs p).
Hypothesis CL : forall l, In l (uses p) -> In l (defs p).
Notation eval := (eval M N cg_order).
Notation test := (test M N cg_order).
Notation effect := (effect M N cg_order).
Notation run := (run M N cg_order).
Notation whl := (whl M N cg_order).
Notation dowhl := (dowhl M N cg_order).
Notation reaches := (reaches M p).
Notation step := (step M p).
Notation steps := (steps M p).
Notation genS := (genS N).

(* the machine can take n steps *)
Definition can (n : nat) (c : cfg M) : Prop := exists c', steps n c c'.

Lemma can_le : forall m n c, can n c -> (m <= n)%nat -> can m c.
Proof.
  intros m n c (c' & H) L. replace n with (m + (n - m))%nat in H by lia.
  exact (steps_prefix _ _ _ _ _ _ H).
Qed.
Lemma can_pre : forall n a b, reaches a b -> can n b -> can n a.
Proof.
  intros n a b (j & H) (c' & K). apply (can_le n (j + n)%nat); [|lia].
  exists c'. exact (steps_app _ _ _ _ _ _ _ H K).
Qed.
Lemma can_step : forall n a b, step a = Some b -> can n b -> can (S n) a.
Proof. intros n a b H (c' & K). exists c', b. auto. Qed.
Lemma can_O : forall c, can O c.
Proof. intro c. exists c. reflexivity. Qed.

(* a statement ending in a jump does not end normally *)
Lemma jmpBlock_no_norm : forall s n m m', jmpBlock s = true -> run s n m = Done ONorm m' -> False.
Proof.
  induction s; intros n m m' J H; try discriminate.
  - cbn [StmtSem.run] in H. destruct e; try (destruct (eval _ m) as [(?, ?)|]); discriminate.
  - cbn [StmtSem.run] in H. cbn [jmpBlock] in J.
    destruct (run s1 n m) as [o m1| |]; try discriminate. destruct o; try discriminate.
    exact (IHs2 _ _ _ J H).
Qed.

Definition fin (ps : pos) (g' : labs) (kend : nat) (n : nat) (stk a : list Z) (r : option Z)
    (C0 : cfg M) (res : result M) : Prop :=
  match res with
  | Done ONorm m' => reaches C0 (Cfg kend stk a r m')
  | Done OBrk m' => exists k', brk g' <> -1 /\ find (brk g') p = Some k' /\ reaches C0 (Cfg k' stk a r m')
  | Done OCnt m' => exists k', cnt g' <> -1 /\ find (cnt g') p = Some k' /\ reaches C0 (Cfg k' stk a r m')
  | Done (ORet v) m' =>
      exists k', reaches C0 (Cfg k' stk a (match v with Some _ => v | None => r end) m') /\
        (ps <> PInner /\ k' = kend \/ ret g' <> -1 /\ find (ret g') p = Some k')
  | Stuck => True
  | Timeout => can n C0
  end.

Definition Ssim (s : stmt) : Prop :=
  forall ps g c g' k stk a r m n, genS s ps g = Some (c, g') -> wfg g -> code_at p k c ->
  fin ps g' (k + length c) n stk a r (Cfg k stk a r m) (run s n m).

(* later labels *)
Definition later (g g' : labs) : Prop :=
  (brk g <> -1 -> brk g' = brk g) /\ (cnt g <> -1 -> cnt g' = cnt g) /\ (ret g <> -1 -> ret g' = ret g).
Lemma later_refl : forall g, later g g.
Proof. intro g. repeat split. Qed.
Lemma genS_later : forall s ps g c g', genS s ps g = Some (c, g') -> wfg g -> later g g'.
Proof.
  intros s ps g c g' H W. destruct (genS_labs N s ps g c g' H W) as (_ & A & B & C & _).
  split; [|split]; intro X; eapply ext_keep; eauto.
Qed.

Lemma fin_pre : forall ps g' ke n stk a r C0 C1 res, reaches C0 C1 ->
  fin ps g' ke n stk a r C1 res -> fin ps g' ke n stk a r C0 res.
Proof.
  intros ps g' ke n stk a r C0 C1 res R F. destruct res as [[| | |v] m'| |]; cbn [fin] in *.
  - exact (reaches_trans _ _ _ _ _ R F).
  - destruct F as (k' & A & B & C). exists k'. split; [exact A|]. split; [exact B|]. exact (reaches_trans _ _ _ _ _ R C).
  - destruct F as (k' & A & B & C). exists k'. split; [exact A|]. split; [exact B|]. exact (reaches_trans _ _ _ _ _ R C).
  - destruct F as (k' & A & B). exists k'. split; [exact (reaches_trans _ _ _ _ _ R A)|exact B].
  - exact I.
  - exact (can_pre _ _ _ R F).
Qed.

(* a part of a statement: everything but normal completion leaves it *)
Lemma fin_part : forall ps ps' g1 g' ke ke' n stk a r C0 res, later g1 g' ->
  (forall m', res = Done ONorm m' -> reaches C0 (Cfg ke stk a r m') -> reaches C0 (Cfg ke' stk a r m')) ->
  (ps <> PInner -> ps' <> PInner /\ forall s a r m, reaches (Cfg ke s a r m) (Cfg ke' s a r m)) ->
  fin ps g1 ke n stk a r C0 res -> fin ps' g' ke' n stk a r C0 res.
Proof.
  intros ps ps' g1 g' ke ke' n stk a r C0 res (L1 & L2 & L3) HN HR F.
  destruct res as [[| | |v] m'| |]; cbn [fin] in *.
  - exact (HN _ eq_refl F).
  - destruct F as (k' & A & B & C). rewrite (L1 A). eauto.
  - destruct F as (k' & A & B & C). rewrite (L2 A). eauto.
  - destruct F as (k' & A & [(B & ->)|(B & B')]).
    + destruct (HR B) as (X & Y). exists ke'. split; [|left; auto].
      exact (reaches_trans _ _ _ _ _ A (Y _ _ _ _)).
    + exists k'. split; [exact A|]. right. rewrite (L3 B). auto.
  - exact I.
  - exact F.
Qed.

Lemma test_cnd : forall e tf j n c j' n' k stk a r m b m', genCnd N e tf j n = Some (c, j', n') ->
  0 <= n -> no j <= n -> left j = 0 -> code_at p k c -> test e m = Some (b, m') ->
  if Bool.eqb tf b then
    exists k', reaches (Cfg k stk a r m) (Cfg k' stk a r m') /\ no j' <> -1 /\ find (no j') p = Some k'
  else reaches (Cfg k stk a r m) (Cfg (k + length c) stk a r m').
Proof.
  intros e tf j n c j' n' k stk a r m b m' G P Q L C T.
  assert (E : exists v, eval e m = Some (v, m') /\ b = negb (v =? 0)).
  { unfold StmtSem.test in T. destruct e.
    - unfold genCnd in G. cbn in G. discriminate.
    - destruct (eval _ m) as [(v, s)|]; [|discriminate]. injection T as <- <-. eauto.
    - destruct (eval _ m) as [(v, s)|]; [|discriminate]. injection T as <- <-. eauto.
    - destruct (eval _ m) as [(v, s)|]; [|discriminate]. injection T as <- <-. eauto.
    - destruct (eval _ m) as [(v, s)|]; [|discriminate]. injection T as <- <-. eauto. }
  destruct E as (v & E & ->).
  exact (genCnd_sim M N p ND CL e tf j n c j' n' k stk a r m v m' G P Q L C E).
Qed.

Lemma jump : forall k l stk a r m k', code_at p k [IJmp l] -> find l p = Some k' ->
  reaches (Cfg k stk a r m) (Cfg k' stk a r m).
Proof. exact (jmp_to M p). Qed.
Lemma jump_find : forall k l, code_at p k [IJmp l] -> exists k', find l p = Some k'.
Proof. intros k l C. exact (jmp_find p CL k _ l C (or_introl eq_refl)). Qed.
Lemma mreg_at : forall k v s a r m, code_at p k [IMReg] ->
  reaches (Cfg k (v :: s) a r m) (Cfg (S k) s a (Some v) m).
Proof. intros k v s a r m C. apply reaches_one. unfold VM.step. rewrite (code_at_hd _ _ _ _ C). reflexivity. Qed.

Lemma ret_fin : forall ps g c n g' c0 k stk a r m v m',
  (match ps with
   | PInner => let l := if ret g =? -1 then n + 1 else ret g in
               let n' := if ret g =? -1 then n + 1 else n in
               Some (c ++ [IJmp l], Labs n' (brk g) (cnt g) l)
   | _ => Some (c, set_cur g n) end) = Some (c0, g') -> 0 <= n -> code_at p k c0 ->
  reaches (Cfg k stk a r m) (Cfg (k + length c) stk a v m') ->
  exists k', reaches (Cfg k stk a r m) (Cfg k' stk a v m') /\
    (ps <> PInner /\ k' = (k + length c0)%nat \/ ret g' <> -1 /\ find (ret g') p = Some k').
Proof.
  intros ps g c n g' c0 k stk a r m v m' H P C R.
  destruct ps; [injection H as <- <-|injection H as <- <-|].
  - eexists. split; [exact R|]. left. split; [discriminate|reflexivity].
  - eexists. split; [exact R|]. left. split; [discriminate|reflexivity].
  - cbv zeta in H. injection H as <- <-.
    destruct (jump_find _ _ (code_at_r _ _ _ _ C)) as (k' & F). exists k'.
    split; [exact (reaches_trans _ _ _ _ _ R (jump _ _ _ _ _ _ _ (code_at_r _ _ _ _ C) F))|].
    right. cbn [ret]. split; [|exact F]. destruct (ret g =? -1) eqn:Z; [lia|apply Z.eqb_neq; exact Z].
Qed.

Lemma genX_le : forall e n c n', genX N e n = Some (c, n') -> 0 <= n -> n <= n'.
Proof. intros e n c n' G P. destruct (genX_good N _ _ _ _ G P) as ((A & _) & _). exact A. Qed.

Lemma effect_sim : forall re n c n' k stk a r m m', re <> ENull -> genX N re n = Some (c, n') -> 0 <= n ->
  code_at p k c -> effect re m = Some m' -> reaches (Cfg k stk a r m) (Cfg (k + length c) stk a r m').
Proof.
  intros re n c n' k stk a r m m' NE G P C E.
  assert (X : exists v, eval re m = Some (v, m')).
  { unfold StmtSem.effect in E. destruct re; [contradiction| | | |];
      (destruct (eval _ m) as [(v, s)|]; [|discriminate]); injection E as <-; eauto. }
  destruct X as (v & X). exact (genX_sim M N p ND CL re n c n' k stk a r m v m' G P C X).
Qed.

Lemma whl_loop : forall cnd re (body : state M -> result M) n stk a r k ke ps (g' : labs),
  (* one turn of the loop *)
  (forall m, step (Cfg k stk a r m) = Some (Cfg (S k) stk a r m)) ->
  (forall m b m', test cnd m = Some (b, m') ->
    if b then exists k2, reaches (Cfg (S k) stk a r m) (Cfg k2 stk a r m') /\
      match body m' with
      | Done ONorm m1 | Done OCnt m1 => forall m2, effect re m1 = Some m2 ->
            reaches (Cfg k2 stk a r m') (Cfg k stk a r m2)
      | Done OBrk m1 => reaches (Cfg k2 stk a r m') (Cfg ke stk a r m1)
      | Done (ORet v) m1 => exists k', reaches (Cfg k2 stk a r m') (Cfg k' stk a (match v with Some _ => v | None => r end) m1) /\
           ret g' <> -1 /\ find (ret g') p = Some k'
      | Stuck => True
      | Timeout => can n (Cfg k2 stk a r m')
      end
    else reaches (Cfg (S k) stk a r m) (Cfg ke stk a r m')) ->
  forall j m, (j <= n)%nat -> fin ps g' ke j stk a r (Cfg k stk a r m) (whl cnd re body j m).
Proof.
  intros cnd re body n stk a r k ke ps g' HS HT.
  induction j as [|j IH]; intros m L; cbn [StmtSem.whl].
  - apply can_O.
  - specialize (HS m). specialize (HT m).
    destruct (test cnd m) as [([|], m')|]; [| |exact I].
    + destruct (HT _ _ eq_refl) as (k2 & R & HB). clear HT.
      assert (R0 : reaches (Cfg k stk a r m) (Cfg k2 stk a r m')) by exact (reaches_step _ _ _ _ _ HS R).
      assert (GO : forall m1, (forall m2, effect re m1 = Some m2 -> reaches (Cfg k2 stk a r m') (Cfg k stk a r m2)) ->
        fin ps g' ke (S j) stk a r (Cfg k stk a r m)
          match effect re m1 with Some s2 => whl cnd re body j s2 | None => Stuck end).
      { intros m1 HE. destruct (effect re m1) as [m2|]; [|exact I]. specialize (HE _ eq_refl).
        assert (F := IH m2 ltac:(lia)).
        assert (R1 := reaches_trans _ _ _ _ _ R HE).
        destruct (whl cnd re body j m2) as [[| | |v] m3| |] eqn:W; cbn [fin] in *.
        - exact (reaches_step _ _ _ _ _ HS (reaches_trans _ _ _ _ _ R1 F)).
        - destruct F as (q & A & B & C). exists q. split; [exact A|]. split; [exact B|].
          exact (reaches_step _ _ _ _ _ HS (reaches_trans _ _ _ _ _ R1 C)).
        - destruct F as (q & A & B & C). exists q. split; [exact A|]. split; [exact B|].
          exact (reaches_step _ _ _ _ _ HS (reaches_trans _ _ _ _ _ R1 C)).
        - destruct F as (q & A & B). exists q. split; [|exact B].
          exact (reaches_step _ _ _ _ _ HS (reaches_trans _ _ _ _ _ R1 A)).
        - exact I.
        - apply can_step with (b := Cfg (S k) stk a r m); [exact HS|]. exact (can_pre _ _ _ R1 F). }
      destruct (body m') as [[| | |v] m1| |].
      * apply GO. exact HB.
      * cbn [fin]. exact (reaches_trans _ _ _ _ _ R0 HB).
      * apply GO. exact HB.
      * destruct HB as (q & A & B). exists q. split; [exact (reaches_trans _ _ _ _ _ R0 A)|]. right. exact B.
      * exact I.
      * cbn [fin]. apply (can_le (S j) n); [|lia]. exact (can_pre _ _ _ R0 HB).
    + cbn [fin]. exact (reaches_step _ _ _ _ _ HS (HT _ _ eq_refl)).
Qed.

Lemma dowhl_loop : forall cnd (body : state M -> result M) n stk a r k ke ps (g' : labs),
  (forall m, step (Cfg k stk a r m) = Some (Cfg (S k) stk a r m)) ->
  (forall m, match body m with
      | Done ONorm m1 | Done OCnt m1 => forall b m2, test cnd m1 = Some (b, m2) ->
            reaches (Cfg (S k) stk a r m) (Cfg (if b then k else ke) stk a r m2)
      | Done OBrk m1 => reaches (Cfg (S k) stk a r m) (Cfg ke stk a r m1)
      | Done (ORet v) m1 => exists k', reaches (Cfg (S k) stk a r m) (Cfg k' stk a (match v with Some _ => v | None => r end) m1) /\
           ret g' <> -1 /\ find (ret g') p = Some k'
      | Stuck => True
      | Timeout => can n (Cfg (S k) stk a r m)
      end) ->
  forall j m, (j <= n)%nat -> fin ps g' ke j stk a r (Cfg k stk a r m) (dowhl cnd body j m).
Proof.
  intros cnd body n stk a r k ke ps g' HS HT.
  induction j as [|j IH]; intros m L; cbn [StmtSem.dowhl].
  - apply can_O.
  - specialize (HS m). specialize (HT m).
    assert (GO : forall m1, (forall b m2, test cnd m1 = Some (b, m2) ->
            reaches (Cfg (S k) stk a r m) (Cfg (if b then k else ke) stk a r m2)) ->
        fin ps g' ke (S j) stk a r (Cfg k stk a r m)
          match test cnd m1 with
          | Some (true, s2) => dowhl cnd body j s2
          | Some (false, s2) => Done ONorm s2
          | None => Stuck end).
    { intros m1 HE. destruct (test cnd m1) as [([|], m2)|]; [| |exact I].
      - assert (R1 := HE _ _ eq_refl). cbn iota in R1. assert (F := IH m2 ltac:(lia)).
        destruct (dowhl cnd body j m2) as [[| | |v] m3| |] eqn:W; cbn [fin] in *.
        + exact (reaches_step _ _ _ _ _ HS (reaches_trans _ _ _ _ _ R1 F)).
        + destruct F as (q & A & B & C). exists q. split; [exact A|]. split; [exact B|].
          exact (reaches_step _ _ _ _ _ HS (reaches_trans _ _ _ _ _ R1 C)).
        + destruct F as (q & A & B & C). exists q. split; [exact A|]. split; [exact B|].
          exact (reaches_step _ _ _ _ _ HS (reaches_trans _ _ _ _ _ R1 C)).
        + destruct F as (q & A & B). exists q. split; [|exact B].
          exact (reaches_step _ _ _ _ _ HS (reaches_trans _ _ _ _ _ R1 A)).
        + exact I.
        + apply can_step with (b := Cfg (S k) stk a r m); [exact HS|]. exact (can_pre _ _ _ R1 F).
      - cbn [fin]. exact (reaches_step _ _ _ _ _ HS (HE _ _ eq_refl)). }
    destruct (body m) as [[| | |v] m1| |].
    + apply GO. exact HT.
    + cbn [fin]. exact (reaches_step _ _ _ _ _ HS HT).
    + apply GO. exact HT.
    + destruct HT as (q & A & B). exists q. split; [exact (reaches_step _ _ _ _ _ HS A)|]. right. exact B.
    + exact I.
    + cbn [fin]. apply can_step with (b := Cfg (S k) stk a r m); [exact HS|]. apply (can_le j n); [exact HT|lia].
Qed.

Lemma later_ret : forall g1 g' b c n, later g1 g' -> later g1 (Labs n b c (ret g')) ->
  ret g1 <> -1 -> ret g' = ret g1.
Proof. intros g1 g' b c n (_ & _ & L) _ X. exact (L X). Qed.

Lemma wfg_set : forall g n, wfg g -> cur g <= n -> wfg (set_cur g n).
Proof. intros g n W L. unfold wfg, sep in *. cbn [set_cur cur brk cnt ret] in *. lia. Qed.

Lemma seq_sim : forall l r ps g cl g1 cr g2 k stk a rg m n,
  Ssim l -> Ssim r -> genS l PInner g = Some (cl, g1) -> genS r (right_of ps) g1 = Some (cr, g2) ->
  wfg g -> code_at p k (cl ++ cr) ->
  fin ps g2 (k + length (cl ++ cr)) n stk a rg (Cfg k stk a rg m)
    (match run l n m with Done ONorm s1 => run r n s1 | x => x end).
Proof.
  intros l r ps g cl g1 cr g2 k stk a rg m n IHl IHr GL GR W C.
  assert (W1 : wfg g1) by (destruct (genS_labs N _ _ _ _ _ GL W) as (_ & _ & _ & _ & X & _); exact X).
  assert (LT := genS_later _ _ _ _ _ GR W1).
  assert (FL := IHl _ _ _ _ k stk a rg m n GL W (code_at_l _ _ _ _ C)).
  rewrite app_length, Nat.add_assoc.
  assert (OTHER : forall x, x = run l n m -> (forall m', x <> Done ONorm m') ->
    fin ps g2 (k + length cl + length cr) n stk a rg (Cfg k stk a rg m) x).
  { intros x -> NN. refine (fin_part _ _ _ _ _ _ _ _ _ _ _ _ LT _ _ FL).
    - intros m' E. exfalso. exact (NN _ E).
    - intro X. contradiction. }
  destruct (run l n m) as [[| | |v] m1| |] eqn:RL; try (apply OTHER; [reflexivity|discriminate]).
  cbn [fin] in FL. eapply fin_pre; [exact FL|].
  assert (FR := IHr _ _ _ _ _ stk a rg m1 n GR W1 (code_at_r _ _ _ _ C)).
  refine (fin_part _ _ _ _ _ _ _ _ _ _ _ _ (later_refl g2) _ _ FR).
  - intros m' _ R. exact R.
  - intro X. split; [intro Y; subst ps; apply X; reflexivity|]. intros. apply reaches_refl.
Qed.

Lemma stmt_sim : forall s, Ssim s.
Proof.
  induction s as [|e|i|e b IHb|e b1 IH1 b2 IH2|e b IHb re|b IHb e| | |e|l IHl r IHr|l IHl r IHr];
    intros ps g c g' k stk a rg m n H W C; assert (P : 0 <= cur g) by apply W; cbn [VmCode.genS] in H.
  - injection H as <- <-. cbn. rewrite Nat.add_0_r. apply reaches_refl.
  - destruct (genX N e (cur g)) as [(c0, n0)|] eqn:G; [|discriminate]. injection H as <- <-.
    cbn [StmtSem.run]. destruct (eval e m) as [(v, m')|] eqn:E; [|exact I].
    cbn [fin]. exact (genX_sim M N p ND CL _ _ _ _ _ _ _ _ _ _ _ G P C E).
  - injection H as <- <-. cbn. rewrite Nat.add_0_r. apply reaches_refl.
  - (* if *)
    destruct (genCnd N e false (newLabel 0) (cur g)) as [((c0, lb), n0)|] eqn:G; [|discriminate].
    destruct (genS b (right_of ps) (set_cur g n0)) as [(cb, g1)|] eqn:GB; [|discriminate]. injection H as <- <-.
    cbn [StmtSem.run].
    destruct (genCnd_good _ _ _ _ _ _ _ _ G P ltac:(simpl; lia)) as (G1 & _).
    assert (W0 : wfg (set_cur g n0)) by (apply wfg_set; [exact W|destruct G1; assumption]).
    assert (C1 := code_at_r _ _ _ _ C). assert (C2 := code_at_r _ _ _ _ C1).
    destruct (test e m) as [(tb, m1)|] eqn:T; [|exact I].
    assert (TC := test_cnd _ _ _ _ _ _ _ k stk a rg _ _ _ G P ltac:(simpl; lia) eq_refl (code_at_l _ _ _ _ C) T).
    rewrite !app_length, !Nat.add_assoc.
    destruct tb; cbn [Bool.eqb] in TC.
    + eapply fin_pre; [exact TC|].
      assert (FB := IHb _ _ _ _ _ stk a rg m1 n GB W0 (code_at_l _ _ _ _ C1)).
      refine (fin_part _ _ _ _ _ _ _ _ _ _ _ _ (later_refl g1) _ _ FB).
      * intros m' _ R. exact (reaches_trans _ _ _ _ _ R (printLab_sim M p _ _ _ _ _ _ C2)).
      * intro X. split; [intro Y; subst ps; apply X; reflexivity|]. intros. apply printLab_sim. exact C2.
    + destruct TC as (k' & R & NZ & F). cbn [fin].
      eapply reaches_trans; [exact R|].
      rewrite (printLab_find p ND _ _ C2 NZ) in F. injection F as <-. apply printLab_sim. exact C2.
  - (* else *)
    destruct (genCnd N e false (newLabel 0) (cur g)) as [((c0, lb), n0)|] eqn:G; [|discriminate].
    destruct (genS b1 PInner (set_cur g n0)) as [(cb1, g1)|] eqn:GB1; [|discriminate].
    cbv zeta in H.
    set (il := if jmpBlock b1 then -1 else cur g1 + 1) in *.
    set (g2 := if jmpBlock b1 then g1 else set_cur g1 (cur g1 + 1)) in *.
    set (jc := if jmpBlock b1 then [] else [IJmp il]) in *.
    destruct (genS b2 (right_of ps) g2) as [(cb2, g3)|] eqn:GB2; [|discriminate]. injection H as <- <-.
    cbn [StmtSem.run].
    destruct (genCnd_good _ _ _ _ _ _ _ _ G P ltac:(simpl; lia)) as (G1 & _).
    assert (W0 : wfg (set_cur g n0)) by (apply wfg_set; [exact W|destruct G1; assumption]).
    assert (W1 : wfg g1) by (destruct (genS_labs N _ _ _ _ _ GB1 W0) as (_ & _ & _ & _ & X & _); exact X).
    assert (W2 : wfg g2) by (unfold g2; destruct (jmpBlock b1); [exact W1|apply wfg_set; [exact W1|lia]]).
    assert (LT2 := genS_later _ _ _ _ _ GB2 W2).
    assert (LT : later g1 g3) by (unfold g2 in LT2; destruct (jmpBlock b1); exact LT2).
    assert (C1 := code_at_r _ _ _ _ C). assert (C2 := code_at_r _ _ _ _ C1).
    assert (C3 := code_at_r _ _ _ _ C2). assert (C4 := code_at_r _ _ _ _ C3). assert (C5 := code_at_r _ _ _ _ C4).
    destruct (test e m) as [(tb, m1)|] eqn:T; [|exact I].
    assert (TC := test_cnd _ _ _ _ _ _ _ k stk a rg _ _ _ G P ltac:(simpl; lia) eq_refl (code_at_l _ _ _ _ C) T).
    rewrite !app_length, !Nat.add_assoc.
    destruct tb; cbn [Bool.eqb] in TC.
    + eapply fin_pre; [exact TC|].
      assert (FB := IH1 _ _ _ _ _ stk a rg m1 n GB1 W0 (code_at_l _ _ _ _ C1)).
      refine (fin_part _ _ _ _ _ _ _ _ _ _ _ _ LT _ _ FB).
      * intros m' E R. eapply reaches_trans; [exact R|].
        unfold jc, il in *. destruct (jmpBlock b1) eqn:JB; [exfalso; exact (jmpBlock_no_norm _ _ _ _ JB E)|].
        assert (NZ : cur g1 + 1 <> -1) by (assert (0 <= cur g1) by apply W1; lia).
        eapply reaches_trans; [exact (jump _ _ _ _ _ _ _ (code_at_l _ _ _ _ C2) (printLab_find p ND _ _ C5 NZ))|].
        apply printLab_sim. exact C5.
      * intro X. contradiction.
    + destruct TC as (k' & R & NZ & F).
      rewrite (printLab_find p ND _ _ (code_at_l _ _ _ _ C3) NZ) in F. injection F as <-.
      eapply fin_pre; [exact R|].
      eapply fin_pre; [apply printLab_sim; exact (code_at_l _ _ _ _ C3)|].
      assert (FB := IH2 _ _ _ _ _ stk a rg m1 n GB2 W2 (code_at_l _ _ _ _ C4)).
      refine (fin_part _ _ _ _ _ _ _ _ _ _ _ _ (later_refl g3) _ _ FB).
      * intros m' _ R'. exact (reaches_trans _ _ _ _ _ R' (printLab_sim M p _ _ _ _ _ _ C5)).
      * intro X. split; [intro Y; subst ps; apply X; reflexivity|]. intros. apply printLab_sim. exact C5.
  - (* while *)
    cbv zeta in H.
    match type of H with match ?X with _ => _ end = _ => destruct X as [((c0, bl), n1)|] eqn:HC; [|discriminate] end.
    destruct (genS b PInner (Labs n1 bl match re with ENull => cur g + 1 | _ => -1 end (ret g))) as [(cb, g1)|] eqn:GB; [|discriminate].
    match type of H with match ?X with _ => _ end = _ => destruct X as [((cre, jb), n2)|] eqn:HR; [|discriminate] end.
    injection H as <- <-.
    set (cl := match re with ENull => cur g + 1 | _ => -1 end) in *.
    set (jc := if jb then [] else [IJmp (cur g + 1)]) in *.
    assert (CLV : cl = cur g + 1 \/ cl = -1) by (unfold cl; destruct re; auto).
    assert (C0 : cur g + 1 <= n1 /\ (bl = -1 \/ cur g + 1 < bl <= n1)).
    { destruct e; try (destruct (genCnd N _ false (newLabel 0) (cur g + 1)) as [((c1, lb), nn)|] eqn:G; [|discriminate];
        injection HC as <- <- <-; apply genCnd_good in G; [|lia|simpl; lia];
        destruct G as ((G1 & _) & G2 & _); split; [exact G1|]; destruct G2 as [G2|(_ & G2 & _)]; [left; exact G2|right; exact G2]).
      injection HC as <- <- <-. lia. }
    assert (W1 : wfg (Labs n1 bl cl (ret g))).
    { clear - W C0 CLV. unfold wfg, sep in *. cbn [cur brk cnt ret] in *. lia. }
    assert (LT := genS_later _ _ _ _ _ GB W1). unfold later in LT. cbn [brk cnt ret] in LT.
    assert (WG1 : wfg g1) by (destruct (genS_labs N _ _ _ _ _ GB W1) as (_ & _ & _ & _ & X & _); exact X).
    assert (LOOP := code_at_find _ _ _ _ C ND).
    change (ILab (cur g + 1) :: c0 ++ cb ++ cre ++ jc ++ printLab (brk g1))
      with ([ILab (cur g + 1)] ++ c0 ++ cb ++ cre ++ jc ++ printLab (brk g1)) in *.
    assert (K0 : code_at p k [ILab (cur g + 1)]) by exact (code_at_l _ _ _ _ C).
    assert (C1 := code_at_r _ _ _ _ C). assert (C2 := code_at_r _ _ _ _ C1).
    assert (C3 := code_at_r _ _ _ _ C2). assert (C4 := code_at_r _ _ _ _ C3). assert (C5 := code_at_r _ _ _ _ C4).
    rewrite !app_length, !Nat.add_assoc. rewrite len1 in *. cbn [length] in *.
    assert (BRK : forall k' m', brk g1 <> -1 -> find (brk g1) p = Some k' ->
       reaches (Cfg k' stk a rg m') (Cfg (S k + length c0 + length cb + length cre + length jc + length (printLab (brk g1))) stk a rg m')).
    { intros k' m' NZ F. rewrite (printLab_find p ND _ _ C5 NZ) in F. injection F as <-. apply printLab_sim. exact C5. }
    (* after the body: back to the loop label *)
    assert (BACK : forall m1 m2 kk, effect re m1 = Some m2 ->
       (jmpBlock b = false /\ kk = (S k + length c0 + length cb)%nat \/ cnt g1 <> -1 /\ find (cnt g1) p = Some kk) ->
       reaches (Cfg kk stk a rg m1) (Cfg k stk a rg m2)).
    { intros m1 m2 kk E KK.
      assert (JMP : jb = false -> reaches (Cfg (S k + length c0 + length cb + length cre) stk a rg m2) (Cfg k stk a rg m2)).
      { intros ->. apply jump with (l := cur g + 1); [exact (code_at_l _ _ _ _ C4)|exact LOOP]. }
      assert (NONNULL : re <> ENull ->
        (if negb (jmpBlock b) || negb (cnt g1 =? -1) then
                  do (cr, n2) <- genX N re (cur g1); Some (printLab (cnt g1) ++ cr, false, n2)
                else Some ([], jmpBlock b, cur g1)) = Some (cre, jb, n2) ->
        reaches (Cfg kk stk a rg m1) (Cfg k stk a rg m2)).
      { intros NE HR'.
        replace (negb (jmpBlock b) || negb (cnt g1 =? -1)) with true in HR'.
        2: { symmetry. apply orb_true_iff. destruct KK as [(KK & _)|(KK & _)];
             [left; rewrite KK; reflexivity|right; apply negb_true_iff, Z.eqb_neq; exact KK]. }
        destruct (genX N re (cur g1)) as [(cr, n3)|] eqn:GX; [|discriminate]. injection HR' as <- <- <-.
        assert (PL := code_at_l _ _ _ _ C3).
        assert (KE : kk = (S k + length c0 + length cb)%nat).
        { destruct KK as [(_ & KK)|(NZ & F)]; [exact KK|].
          rewrite (printLab_find p ND _ _ (code_at_l _ _ _ _ PL) NZ) in F. congruence. }
        subst kk. eapply reaches_trans; [apply printLab_sim; exact (code_at_l _ _ _ _ PL)|].
        eapply reaches_trans; [exact (effect_sim _ _ _ _ _ _ _ _ _ _ NE GX ltac:(apply WG1) (code_at_r _ _ _ _ PL) E)|].
        rewrite app_length, Nat.add_assoc in JMP. exact (JMP eq_refl). }
      destruct re as [|?|?|?|?]; try (apply NONNULL; [discriminate|exact HR]).
      injection HR as <- <- <-. cbn [StmtSem.effect] in E. injection E as <-. cbn [length] in JMP. rewrite Nat.add_0_r in JMP.
      destruct KK as [(J & ->)|(NZ & F)]; [exact (JMP J)|].
      destruct LT as (_ & LT & _). cbn [cnt] in LT. assert (cl <> -1) as NC by (unfold cl; lia). rewrite (LT NC) in F. unfold cl in F.
      rewrite LOOP in F. injection F as <-. apply reaches_refl. }
    cbn [StmtSem.run].
    refine (whl_loop e re (run b n) n stk a rg k _ ps _ _ _ n m (le_n n)).
    + intro m0. unfold VM.step. rewrite (code_at_hd _ _ _ _ K0). reflexivity.
    + intros m0 tb m1 T.
      assert (TT : if tb then reaches (Cfg (S k) stk a rg m0) (Cfg (S k + length c0) stk a rg m1)
         else reaches (Cfg (S k) stk a rg m0) (Cfg (S k + length c0 + length cb + length cre + length jc + length (printLab (brk g1))) stk a rg m1)).
      { destruct e; try (
          destruct (genCnd N _ false (newLabel 0) (cur g + 1)) as [((c1, lb), nn)|] eqn:G; [|discriminate];
          injection HC as <- <- <-;
          assert (TC := test_cnd _ _ _ _ _ _ _ (S k) stk a rg _ _ _ G ltac:(lia) ltac:(simpl; lia) eq_refl (code_at_l _ _ _ _ C1) T);
          destruct tb; cbn [Bool.eqb] in TC; [exact TC|];
          destruct TC as (k' & R & NZ & F); eapply reaches_trans; [exact R|];
          destruct LT as (LT & _); rewrite <- (LT NZ) in F; apply BRK; [rewrite (LT NZ); exact NZ|exact F]).
        cbn [StmtSem.test] in T. injection T as <- <-. injection HC as <- <- <-.
        cbn [length]. rewrite Nat.add_0_r. apply reaches_refl. }
      destruct tb; [|exact TT].
      exists (S k + length c0)%nat. split; [exact TT|].
      assert (FB := IHb _ _ _ _ _ stk a rg m1 n GB W1 (code_at_l _ _ _ _ C2)).
      destruct (run b n m1) as [[| | |v] m2| |] eqn:RB; cbn [fin] in FB.
      * intros m3 E. eapply reaches_trans; [exact FB|]. apply BACK with (1 := E). left. split; [|reflexivity].
        destruct (jmpBlock b) eqn:JB; [exfalso; exact (jmpBlock_no_norm _ _ _ _ JB RB)|reflexivity].
      * destruct FB as (k' & NZ & F & R). exact (reaches_trans _ _ _ _ _ R (BRK _ _ NZ F)).
      * intros m3 E. destruct FB as (k' & NZ & F & R). eapply reaches_trans; [exact R|]. apply BACK with (1 := E). right. auto.
      * destruct FB as (k' & R & [(X & _)|X]); [contradiction|]. exists k'. auto.
      * exact I.
      * exact FB.
  - (* do *)
    cbv zeta in H.
    destruct (genS b PInner (Labs (cur g + 1) (-1) (-1) (ret g))) as [(cb, g1)|] eqn:GB; [|discriminate].
    destruct (genCnd N e true (Label (cur g + 1) 0) (cur g1)) as [((c0, lb), n1)|] eqn:G; [|discriminate].
    injection H as <- <-.
    assert (W1 : wfg (Labs (cur g + 1) (-1) (-1) (ret g))).
    { clear - W. unfold wfg, sep in *. cbn [cur brk cnt ret] in *. lia. }
    assert (WG1 : wfg g1) by (destruct (genS_labs N _ _ _ _ _ GB W1) as (_ & _ & _ & _ & X & _); exact X).
    assert (LE : cur g + 1 <= cur g1) by (destruct (genS_labs N _ _ _ _ _ GB W1) as ((X & _) & _); exact X).
    assert (LOOP := code_at_find _ _ _ _ C ND).
    change (ILab (cur g + 1) :: cb ++ printLab (cnt g1) ++ c0 ++ printLab (brk g1))
      with ([ILab (cur g + 1)] ++ cb ++ printLab (cnt g1) ++ c0 ++ printLab (brk g1)) in *.
    assert (K0 : code_at p k [ILab (cur g + 1)]) by exact (code_at_l _ _ _ _ C).
    assert (C1 := code_at_r _ _ _ _ C). assert (C2 := code_at_r _ _ _ _ C1).
    assert (C3 := code_at_r _ _ _ _ C2). assert (C4 := code_at_r _ _ _ _ C3).
    rewrite !app_length, !Nat.add_assoc. rewrite len1 in *. cbn [length] in *.
    assert (NOL : no lb = cur g + 1).
    { destruct (genCnd_good _ _ _ _ _ _ _ _ G ltac:(lia) ltac:(simpl; lia)) as (_ & X & _).
      rewrite (ext_keep _ _ _ _ _ X); simpl; lia. }
    assert (TST : forall m1 tb m2, test e m1 = Some (tb, m2) ->
      reaches (Cfg (S k + length cb + length (printLab (cnt g1))) stk a rg m1)
        (Cfg (if tb then k else (S k + length cb + length (printLab (cnt g1)) + length c0 + length (printLab (brk g1)))%nat) stk a rg m2)).
    { intros m1 tb m2 T.
      assert (TC := test_cnd _ _ _ _ _ _ _ _ stk a rg _ _ _ G ltac:(lia) ltac:(simpl; lia) eq_refl (code_at_l _ _ _ _ C3) T).
      destruct tb; cbn [Bool.eqb] in TC.
      - destruct TC as (k' & R & NZ & F). rewrite NOL, LOOP in F. injection F as <-. exact R.
      - eapply reaches_trans; [exact TC|]. apply printLab_sim. exact C4. }
    cbn [StmtSem.run].
    refine (dowhl_loop e (run b n) n stk a rg k _ ps _ _ _ n m (le_n n)).
    + intro m0. unfold VM.step. rewrite (code_at_hd _ _ _ _ K0). reflexivity.
    + intro m0.
      assert (FB := IHb _ _ _ _ _ stk a rg m0 n GB W1 (code_at_l _ _ _ _ C1)).
      destruct (run b n m0) as [[| | |v] m2| |] eqn:RB; cbn [fin] in FB.
      * intros tb m3 T. eapply reaches_trans; [exact FB|].
        eapply reaches_trans; [apply printLab_sim; exact (code_at_l _ _ _ _ C2)|]. exact (TST _ _ _ T).
      * destruct FB as (k' & NZ & F & R). eapply reaches_trans; [exact R|].
        rewrite (printLab_find p ND _ _ C4 NZ) in F. injection F as <-. apply printLab_sim. exact C4.
      * intros tb m3 T. destruct FB as (k' & NZ & F & R). eapply reaches_trans; [exact R|].
        rewrite (printLab_find p ND _ _ (code_at_l _ _ _ _ C2) NZ) in F. injection F as <-.
        eapply reaches_trans; [apply printLab_sim; exact (code_at_l _ _ _ _ C2)|]. exact (TST _ _ _ T).
      * destruct FB as (k' & R & [(X & _)|X]); [contradiction|]. exists k'. auto.
      * exact I.
      * exact FB.
  - (* break *)
    cbv zeta in H. injection H as <- <-. cbn [StmtSem.run fin brk].
    destruct (jump_find _ _ C) as (k' & F). exists k'.
    split; [|split; [exact F|exact (jump _ _ _ _ _ _ _ C F)]].
    destruct (brk g =? -1) eqn:Z; [lia|apply Z.eqb_neq; exact Z].
  - cbv zeta in H. injection H as <- <-. cbn [StmtSem.run fin cnt].
    destruct (jump_find _ _ C) as (k' & F). exists k'.
    split; [|split; [exact F|exact (jump _ _ _ _ _ _ _ C F)]].
    destruct (cnt g =? -1) eqn:Z; [lia|apply Z.eqb_neq; exact Z].
  - (* return *)
    match type of H with match ?X with _ => _ end = _ => destruct X as [(c0, n0)|] eqn:HX; [|discriminate] end.
    assert (VAL : e <> ENull -> (do (c, n) <- genE N e (cur g); Some (c ++ [IMReg], n)) = Some (c0, n0) ->
       fin ps g' (k + length c) n stk a rg (Cfg k stk a rg m)
         (match eval e m with Some (v, s1) => Done (ORet (Some v)) s1 | None => Stuck end)).
    { intros NE HX'. destruct (genE N e (cur g)) as [(ce, n1)|] eqn:GE; [|discriminate]. injection HX' as <- <-.
      destruct (eval e m) as [(v, m1)|] eqn:E; [|exact I]. cbn [fin].
      assert (LE := toE_le N _ _ _ _ GE P).
      assert (CC : code_at p k (ce ++ [IMReg])).
      { destruct ps; [injection H as <- <-; exact C|injection H as <- <-; exact C|].
        cbv zeta in H. injection H as <- <-. exact (code_at_l _ _ _ _ C). }
      refine (ret_fin ps g _ _ g' c k stk a rg m (Some v) m1 H ltac:(lia) C _).
      eapply reaches_trans; [exact (genE_sim M N p ND CL e _ _ _ k stk a rg m v m1 GE P (code_at_l _ _ _ _ CC) E)|].
      rewrite app_length, Nat.add_assoc, len1. apply mreg_at. exact (code_at_r _ _ _ _ CC). }
    destruct e as [|?|?|?|?]; try (apply VAL; [discriminate|exact HX]).
    injection HX as <- <-. cbn [StmtSem.run fin].
    refine (ret_fin ps g _ _ g' c k stk a rg m rg m H ltac:(lia) C _).
    cbn [length]. rewrite Nat.add_0_r. apply reaches_refl.
  - destruct (genS l PInner g) as [(cl, g1)|] eqn:GL; [|discriminate].
    destruct (genS r (right_of ps) g1) as [(cr, g2)|] eqn:GR; [|discriminate]. injection H as <- <-.
    exact (seq_sim l r ps g cl g1 cr g2 k stk a rg m n IHl IHr GL GR W C).
  - destruct (genS l PInner g) as [(cl, g1)|] eqn:GL; [|discriminate].
    destruct (genS r (right_of ps) g1) as [(cr, g2)|] eqn:GR; [|discriminate]. injection H as <- <-.
    exact (seq_sim l r ps g cl g1 cr g2 k stk a rg m n IHl IHr GL GR W C).
Qed.
End Sim.
