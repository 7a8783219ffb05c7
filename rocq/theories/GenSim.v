(* Simulation: the code generated for an expression, placed anywhere in a
   program, computes the expression. *)
From Coq Require Import ZArith Bool List Lia.
From Verif Require Import Word SyTree ExprSem VM VmCode VmBase GenLabels GenExpr.
Import ListNotations.
Open Scope Z_scope.

Section Sim.
Variable M : machine.
Variable N : names.
Variable p : code.
Hypothesis ND : NoDup (defs p).
Hypothesis CL : forall l, In l (uses p) -> In l (defs p).
Notation eval := (eval M N cg_order).
Notation ev := (ev M N cg_order).
Notation genB := (genB N).
Notation genL := (genL N).
Notation reaches := (reaches M p).
Notation step := (step M p).

(* what the operand of the given place occupies on the stack *)
Definition shape (pl : place) (v : Z) (x : list Z) (m : state M) : Prop :=
  match pl with
  | INVAL => x = []
  | CNST c => x = [] /\ v = w16 c
  | GVAR i => x = [] /\ v = w16 (ldg M (gs m) i)
  | LVAR i => x = [] /\ v = w16 (locs m (lcl M i))
  | PRM i => x = [] /\ v = w16 (prms m (pcl M i))
  | STR l => x = [] /\ v = w16 (lab M l)
  | LABL i => x = [] /\ v = w16 (adr M i)
  | STKD => x = [v]
  | STKW => exists b i, x = [i; b] /\ v = w16 (ldw M (gs m) b i)
  | STKB => exists b i, x = [i; b] /\ v = w_chr (ldb M (gs m) b i)
  end.

Lemma len1 : forall (k : nat) i, (k + length [i : instr])%nat = S k.
Proof. intros. simpl. lia. Qed.

Lemma step1 : forall k i s a r m c', code_at p k [i] ->
  (nth_error p k = Some i -> step (Cfg k s a r m) = Some c') -> reaches (Cfg k s a r m) c'.
Proof. intros k i s a r m c' C H. apply reaches_one. apply H. exact (code_at_hd _ _ _ _ C). Qed.

Ltac st C := apply (step1 _ _ _ _ _ _ _ C); rewrite ?len1;
  let H := fresh in intro H; unfold VM.step; rewrite H; try reflexivity.

Lemma load_sim : forall pl v x m ld k s a r, shape pl v x m -> load pl = Some ld ->
  code_at p k ld -> reaches (Cfg k (x ++ s) a r m) (Cfg (k + length ld) (v :: s) a r m).
Proof.
  intros pl v x m ld k s a r S L C.
  destruct pl; cbn [load] in L; try discriminate; injection L as <-; cbn [shape] in S;
    try (destruct S as (-> & ->); cbn [app]; st C).
  - subst x. replace (k + length (@nil instr))%nat with k by (simpl; lia). apply reaches_refl.
  - destruct S as (b & i & -> & ->). cbn [app]. st C.
  - destruct S as (b & i & -> & ->). cbn [app]. st C.
Qed.

Lemma pop_sim : forall pl v x m k s a r, shape pl v x m ->
  code_at p k (pop pl) -> reaches (Cfg k (x ++ s) a r m) (Cfg (k + length (pop pl)) s a r m).
Proof.
  intros pl v x m k s a r SH C.
  assert (Z0 : forall k, reaches (Cfg k ([] ++ s) a r m) (Cfg (k + 0)%nat s a r m))
    by (intro; rewrite Nat.add_0_r; apply reaches_refl).
  assert (Z2 : forall u w, code_at p k [IPop; IPop] ->
    reaches (Cfg k ([u; w] ++ s) a r m) (Cfg (k + 2)%nat s a r m)).
  { intros u w K. eapply reaches_trans with (b := Cfg (S k) (w :: s) a r m).
    - assert (K1 := code_at_l _ _ [IPop] [IPop] K). cbn [app]. st K1.
    - assert (K2 := code_at_r _ _ [IPop] [IPop] K). rewrite len1 in K2.
      replace (k + 2)%nat with (S (S k)) by lia. st K2. }
  destruct pl; cbn [shape] in SH; cbn [pop length]; cbn [pop] in C;
    try (destruct SH as (-> & _); apply Z0); try (subst x; apply Z0).
  - subst x. cbn [app]. replace (k+1)%nat with (S k) by lia. st C.
  - destruct SH as (b & i & -> & _). apply Z2. exact C.
  - destruct SH as (b & i & -> & _). apply Z2. exact C.
Qed.

Definition Esim (g : genE_t) (e : expr) : Prop :=
  forall n c n' k s a r m v m', g n = Some (c, n') -> 0 <= n -> code_at p k c ->
  eval e m = Some (v, m') -> reaches (Cfg k s a r m) (Cfg (k + length c) (v :: s) a r m').

Definition Bsim (e : expr) : Prop :=
  forall n c pl n' k s a r m v m', genB e n = Some (c, pl, n') -> 0 <= n -> code_at p k c ->
  eval e m = Some (v, m') ->
  exists x, reaches (Cfg k s a r m) (Cfg (k + length c) (x ++ s) a r m') /\ shape pl v x m'.

(* the value decides the expression at the operator o *)
Definition dec (o : op2) (v : Z) : bool := if is_or o then negb (v =? 0) else v =? 0.

Definition tgt (l l' : label) (lf : Z) (kend k : nat) : Prop :=
  (left l = lf /\ k = kend) \/ (no l' <> -1 /\ find (no l') p = Some k).

Definition Lsim (e : expr) : Prop :=
  forall lf l1 l2 n c l1' l2' n' k s a r m v m',
  genL e lf l1 l2 n = Some (c, l1', l2', n') -> 0 <= n -> no l1 <= n -> no l2 <= n ->
  sep (no l1) (no l2) -> 2 <= lf -> left l1 <= lf -> left l2 <= lf ->
  (left l1 = lf /\ left l2 < lf \/ left l2 = lf /\ left l1 < lf) ->
  code_at p k c -> eval e m = Some (v, m') ->
  exists k', reaches (Cfg k s a r m) (Cfg k' s a r m') /\
    if dec (log_op e) v then tgt l1 l1' lf (k + length c) k' else tgt l2 l2' lf (k + length c) k'.

Definition Vsim (e : expr) : Prop :=
  forall l1 l2 n c l1' l2' n' k s a r m v m',
  genL e 1 l1 l2 n = Some (c, l1', l2', n') -> 0 <= n -> no l1 <= n -> no l2 <= n ->
  sep (no l1) (no l2) -> left l1 <= 1 -> left l2 <= 1 ->
  code_at p k c -> eval e m = Some (v, m') ->
  exists k' s', reaches (Cfg k s a r m) (Cfg k' s' a r m') /\
    ((k' = k + length c)%nat /\ s' = v :: s \/
     s' = s /\ (v = 0 \/ v = 1) /\
     (let l := if dec (log_op e) v then l1' else l2' in no l <> -1 /\ find (no l) p = Some k')).

Definition Asim (e : expr) : Prop :=
  forall n c j n' k s a r m vs m', genArgs genB e n = Some (c, j, n') -> 0 <= n -> code_at p k c ->
  evargs M N cg_order e m = Some (vs, m') ->
  reaches (Cfg k s a r m) (Cfg (k + length c) s (vs ++ a) r m') /\ length vs = j.

Lemma toE_sim : forall e, Bsim e -> Esim (toE (genB e)) e.
Proof.
  intros e H n c n' k s a r m v m' G P C E. red in H. unfold toE in G.
  destruct (genB e n) as [((cb, pl), n1)|] eqn:GB; [|discriminate].
  destruct (load pl) as [ld|] eqn:L; [|discriminate]. injection G as <- <-.
  destruct (H _ _ _ _ k s a r m v m' GB P (code_at_l _ _ _ _ C) E) as (x & R & S).
  eapply reaches_trans; [exact R|]. rewrite app_length, Nat.add_assoc.
  exact (load_sim _ _ _ _ _ _ _ _ _ S L (code_at_r _ _ _ _ C)).
Qed.

Lemma jmp_find : forall k i l, code_at p k [i] -> (i = IJmp l \/ i = IJT l \/ i = IJF l) ->
  exists k', find l p = Some k'.
Proof.
  intros k i l C H. apply find_total, CL. exact (in_uses _ _ _ _ (code_at_hd _ _ _ _ C) H).
Qed.

(* a conditional jump *)
Lemma boolJmp_sim : forall tf l n c l' n' k v s a r m, boolJmp tf l n = (c, l', n') ->
  0 <= n -> no l <= n -> code_at p k c ->
  if Bool.eqb tf (negb (v =? 0)) then
    exists k', reaches (Cfg k (v :: s) a r m) (Cfg k' s a r m) /\ no l' <> -1 /\ find (no l') p = Some k'
  else reaches (Cfg k (v :: s) a r m) (Cfg (k + length c) s a r m).
Proof.
  intros tf l n c l' n' k v s a r m H P Q C.
  assert (X : c = [if tf then IJT (no l') else IJF (no l')]).
  { unfold boolJmp in H. destruct (no l =? -1); injection H as <- <- <-; reflexivity. }
  destruct (boolJmp_ok _ _ _ _ _ _ H P Q) as (_ & _ & _ & NZ & _).
  subst c. destruct tf.
  - destruct (jmp_find _ _ _ C (or_intror (or_introl eq_refl))) as (k' & F).
    destruct (v =? 0) eqn:V; cbn [negb Bool.eqb].
    + st C. rewrite V. reflexivity.
    + exists k'. split; [|auto]. st C. rewrite V. unfold goto. rewrite F. reflexivity.
  - destruct (jmp_find _ _ _ C (or_intror (or_intror eq_refl))) as (k' & F).
    destruct (v =? 0) eqn:V; cbn [negb Bool.eqb].
    + exists k'. split; [|auto]. st C. rewrite V. unfold goto. rewrite F. reflexivity.
    + st C. rewrite V. reflexivity.
Qed.

(* passing a label *)
Lemma printLab_sim : forall l k s a r m, code_at p k (printLab l) ->
  reaches (Cfg k s a r m) (Cfg (k + length (printLab l)) s a r m).
Proof.
  intros l k s a r m C. unfold printLab in *. destruct (l =? -1).
  - simpl. rewrite Nat.add_0_r. apply reaches_refl.
  - st C.
Qed.
Lemma printLab_find : forall l k, code_at p k (printLab l) -> l <> -1 -> find l p = Some k.
Proof.
  intros l k C H. unfold printLab in C. destruct (l =? -1) eqn:E; [apply Z.eqb_eq in E; contradiction|].
  exact (code_at_find _ _ _ _ C ND).
Qed.

Definition log2 (o : op2) : Prop := o = AND \/ o = OR.

Lemma dec_other : forall o o' v, log2 o -> log2 o' -> op2_eqb o' o = false -> dec o' v = negb (dec o v).
Proof.
  intros o o' v [->| ->] [->| ->] H; try discriminate; unfold dec; cbn [is_or op2_eqb];
  destruct (v =? 0); reflexivity.
Qed.
Lemma is_log_op : forall e, is_log e = true -> log2 (log_op e).
Proof. intros [| | |[] | ] H; try discriminate; cbn; unfold log2; auto. Qed.
Lemma op2_eqb_true : forall a b, op2_eqb a b = true -> a = b.
Proof. intros [] []; simpl; intro H; try discriminate; reflexivity. Qed.
Lemma dec_eqb : forall o v, log2 o -> Bool.eqb (is_or o) (negb (v =? 0)) = dec o v.
Proof. intros o v [->| ->]; unfold dec; cbn; destruct (v =? 0); reflexivity. Qed.
Lemma dec_eqb' : forall o v, log2 o -> Bool.eqb (negb (is_or o)) (negb (v =? 0)) = negb (dec o v).
Proof. intros o v [->| ->]; unfold dec; cbn; destruct (v =? 0); reflexivity. Qed.

(* the left operand of && or || *)
Lemma left_sim : forall o l lf l1 n cl l1a n1 k s a r m v m',
  log2 o -> Esim (toE (genB l)) l -> Lsim l ->
  (if is_log l then
       if op2_eqb (log_op l) o then
         do (c, lab1', labN, n') <- genL l (lf + 1) l1 (newLabel (lf + 1)) n;
         Some (c ++ printLab (no labN), lab1', n')
       else
         do (c, labN, lab1', n') <- genL l (lf + 1) (newLabel (lf + 1)) l1 n;
         Some (c ++ printLab (no labN), lab1', n')
     else
       do (c, n1) <- toE (genB l) n;
       let '(j, lab1', n2) := boolJmp (is_or o) l1 n1 in
       Some (c ++ j, lab1', n2)) = Some (cl, l1a, n1) ->
  0 <= n -> no l1 <= n -> 1 <= lf -> left l1 <= lf ->
  code_at p k cl -> eval l m = Some (v, m') ->
  if dec o v then
    exists k', reaches (Cfg k s a r m) (Cfg k' s a r m') /\ no l1a <> -1 /\ find (no l1a) p = Some k'
  else reaches (Cfg k s a r m) (Cfg (k + length cl) s a r m').
Proof.
  intros o l lf l1 n cl l1a n1 k s a r m v m' O HE HL H P Q LF LL C E.
  red in HE, HL. destruct (is_log l) eqn:IL.
  - assert (S1 : sep (no l1) (no (newLabel (lf + 1)))) by (intro X; exact X).
    assert (S2 : sep (no (newLabel (lf + 1))) (no l1)) by (intro X; reflexivity).
    assert (NL : no (newLabel (lf + 1)) <= n) by (simpl; lia).
    destruct (op2_eqb (log_op l) o) eqn:OO.
    + apply op2_eqb_true in OO. rewrite OO in HL.
      destruct (genL l (lf + 1) l1 (newLabel (lf + 1)) n) as [(((c, lab1'), labN), n')|] eqn:G; [|discriminate].
      injection H as <- <- <-.
      destruct (HL _ _ _ _ _ _ _ _ k s a r m v m' G P Q NL S1 ltac:(lia) ltac:(lia) ltac:(simpl; lia)
                 ltac:(simpl; lia) (code_at_l _ _ _ _ C) E) as (k' & R & T).
      destruct (dec o v).
      * exists k'. split; [exact R|]. destruct T as [(T & _)|T]; [lia|exact T].
      * rewrite app_length, Nat.add_assoc. apply code_at_r in C.
        eapply reaches_trans; [exact R|].
        replace k' with (k + length c)%nat.
        { apply printLab_sim. exact C. }
        destruct T as [(_ & T)|(T1 & T2)]; [symmetry; exact T|].
        rewrite (printLab_find _ _ C T1) in T2. congruence.
    + assert (HL' := HL). clear HL.
      destruct (genL l (lf + 1) (newLabel (lf + 1)) l1 n) as [(((c, labN), lab1'), n')|] eqn:G; [|discriminate].
      injection H as <- <- <-.
      destruct (HL' _ _ _ _ _ _ _ _ k s a r m v m' G P NL Q S2 ltac:(lia) ltac:(simpl; lia) ltac:(lia)
                 ltac:(simpl; lia) (code_at_l _ _ _ _ C) E) as (k' & R & T).
      rewrite (dec_other o (log_op l) v O (is_log_op _ IL) OO) in T.
      destruct (dec o v); cbn [negb] in T.
      * exists k'. split; [exact R|]. destruct T as [(T & _)|T]; [lia|exact T].
      * rewrite app_length, Nat.add_assoc. apply code_at_r in C.
        eapply reaches_trans; [exact R|].
        replace k' with (k + length c)%nat.
        { apply printLab_sim. exact C. }
        destruct T as [(_ & T)|(T1 & T2)]; [symmetry; exact T|].
        rewrite (printLab_find _ _ C T1) in T2. congruence.
  - destruct (toE (genB l) n) as [(c, n2)|] eqn:G; [|discriminate].
    destruct (boolJmp (is_or o) l1 n2) as ((j, l1'), n3) eqn:J. injection H as <- <- <-.
    destruct (toE_ok _ (proj1 (gen_ok N l)) _ _ _ G P) as ((G1 & _) & _).
    assert (R := HE _ _ _ k s a r m v m' G P (code_at_l _ _ _ _ C) E).
    assert (B := boolJmp_sim _ _ _ _ _ _ (k + length c) v s a r m' J ltac:(lia) ltac:(lia) (code_at_r _ _ _ _ C)).
    rewrite (dec_eqb o v O) in B. destruct (dec o v).
    + destruct B as (k' & B1 & B2). exists k'. split; [|exact B2]. exact (reaches_trans _ _ _ _ _ R B1).
    + rewrite app_length, Nat.add_assoc. exact (reaches_trans _ _ _ _ _ R B).
Qed.

Lemma eval_log : forall o l r m v m', log2 o -> eval (E2 o l r) m = Some (v, m') ->
  exists vl ml, eval l m = Some (vl, ml) /\
    if dec o vl then v = b2w (is_or o) /\ m' = ml else eval r ml = Some (v, m').
Proof.
  intros o l r m v m' [->| ->] E; [rewrite eval_and in E|rewrite eval_or in E];
  (destruct (eval l m) as [(vl, ml)|]; [|discriminate]); exists vl, ml; (split; [reflexivity|]);
  unfold dec; cbn [is_or op2_eqb]; destruct (vl =? 0); cbn [negb]; try exact E; inv E; auto.
Qed.
Lemma dec_b2w : forall o, log2 o -> dec o (b2w (is_or o)) = true.
Proof. intros o [->| ->]; reflexivity. Qed.

Lemma logBody_simL : forall o l r, log2 o -> Esim (toE (genB l)) l -> Lsim l ->
  Esim (toE (genB r)) r -> Lsim r -> Lsim (E2 o l r).
Proof.
  intros o l r O HEl HLl HEr HLr lf l1 l2 n c l1' l2' n' k s a ra m v m' H P Q1 Q2 SP LF LL1 LL2 LX C E.
  assert (OK := gen_ok N (E2 o l r)). destruct OK as (_ & OK & _).
  destruct (OK _ _ _ _ _ _ _ _ H P Q1 Q2 SP ltac:(lia)) as (_ & _ & _ & _ & _ & _ & _ & N1 & _). clear OK.
  assert (H' : logBody o l r (toE (genB l)) (toE (genB r)) (genL l) (genL r) lf l1 l2 n = Some (c, l1', l2', n'))
    by (destruct O as [-> | ->]; exact H).
  clear H. unfold logBody in H'. cbn [log_op].
  match type of H' with match ?X with _ => _ end = _ => destruct X as [((cl, l1a), n1)|] eqn:HL; [|discriminate] end.
  destruct (eval_log _ _ _ _ _ _ O E) as (vl & ml & El & Er).
  (* facts on the labels after the left operand *)
  assert (LA : n <= n1 /\ ext (no l1) (no l1a) n n1 cl /\ left l1a = left l1 /\ no l1a <> -1).
  { clear - HL P Q1 LF. destruct (is_log l).
    - destruct (gen_ok N l) as (_ & OK & _).
      destruct (op2_eqb (log_op l) o).
      + destruct (genL l (lf + 1) l1 (newLabel (lf + 1)) n) as [(((c, x), y), z)|] eqn:G; [|discriminate].
        injection HL as <- <- <-.
        destruct (OK _ _ _ _ _ _ _ _ G P Q1 ltac:(simpl; lia) ltac:(intro; assumption) ltac:(lia))
          as ((A1 & _) & A2 & A3 & A4 & A5 & A6 & A7 & A8 & A9).
        split; [exact A1|]. split; [|auto]. apply ext_print; [exact A2|].
        intro X. symmetry in X. exfalso. assert (Y := A4 X). congruence.
      + destruct (genL l (lf + 1) (newLabel (lf + 1)) l1 n) as [(((c, x), y), z)|] eqn:G; [|discriminate].
        injection HL as <- <- <-.
        destruct (OK _ _ _ _ _ _ _ _ G P ltac:(simpl; lia) Q1 ltac:(intro; reflexivity) ltac:(lia))
          as ((A1 & _) & A2 & A3 & A4 & A5 & A6 & A7 & A8 & A9).
        split; [exact A1|]. split; [|split; [auto|exact (A9 ltac:(lia) eq_refl)]]. apply ext_print; [exact A3|exact A4].
    - destruct (toE (genB l) n) as [(c, n2)|] eqn:G; [|discriminate].
      destruct (boolJmp (is_or o) l1 n2) as ((j, x), y) eqn:J. injection HL as <- <- <-.
      destruct (toE_ok _ (proj1 (gen_ok N l)) _ _ _ G P) as (G1 & _).
      assert (n <= n2) by (destruct G1; assumption).
      destruct (boolJmp_ok _ _ _ _ _ _ J ltac:(lia) ltac:(lia)) as (J1 & J2 & J3 & J4 & J5 & _).
      split; [destruct J1; lia|]. split; [|auto]. apply ext_appr with (n1 := n2); auto. }
  destruct LA as (LA1 & LA2 & LA3 & LA4).
  assert (CCL : code_at p k cl).
  { destruct (is_log r); [destruct (op2_eqb (log_op r) o)|].
    - destruct (genL r lf l1a l2 n1) as [(((?, ?), ?), ?)|]; [|discriminate]. inv H'. exact (code_at_l _ _ _ _ C).
    - destruct (genL r lf l2 l1a n1) as [(((?, ?), ?), ?)|]; [|discriminate]. inv H'. exact (code_at_l _ _ _ _ C).
    - destruct (toE (genB r) n1) as [(?, ?)|]; [|discriminate].
      destruct (2 <=? lf); [destruct (left l1a =? lf)|].
      + destruct (boolJmp _ _ _) as ((?, ?), ?). inv H'. exact (code_at_l _ _ _ _ C).
      + destruct (boolJmp _ _ _) as ((?, ?), ?). inv H'. exact (code_at_l _ _ _ _ C).
      + inv H'. exact (code_at_l _ _ _ _ C). }
  assert (LS := left_sim o l lf l1 n cl l1a n1 k s a ra m vl ml O HEl HLl HL P Q1 ltac:(lia) LL1 CCL El).
  assert (SA : sep (no l1a) (no l2)).
  { intro X. destruct LA2 as [Y|(Y1 & Y2 & Y3)]; [rewrite Y in X |- *; exact (SP X)|]. lia. }
  assert (LE1 : no l1a <= n1) by (exact (ext_le _ _ _ _ _ LA2 Q1 LA1)).
  assert (KEEP : no l1' = no l1a).
  { destruct (is_log r); [destruct (op2_eqb (log_op r) o)|].
    - destruct (genL r lf l1a l2 n1) as [(((?, ?), ?), ?)|] eqn:G; [|discriminate]. inv H'.
      destruct (proj1 (proj2 (gen_ok N r)) _ _ _ _ _ _ _ _ G ltac:(lia) LE1 ltac:(lia) SA ltac:(lia)) as (_ & X & _).
      exact (ext_keep _ _ _ _ _ X LA4).
    - destruct (genL r lf l2 l1a n1) as [(((?, ?), ?), ?)|] eqn:G; [|discriminate]. inv H'.
      assert (SA' : sep (no l2) (no l1a)) by (intro X; rewrite X; apply SA; congruence).
      destruct (proj1 (proj2 (gen_ok N r)) _ _ _ _ _ _ _ _ G ltac:(lia) ltac:(lia) LE1 SA' ltac:(lia)) as (_ & _ & X & _).
      exact (ext_keep _ _ _ _ _ X LA4).
    - destruct (toE (genB r) n1) as [(?, ?)|]; [|discriminate].
      destruct (2 <=? lf); [destruct (left l1a =? lf)|].
      + destruct (boolJmp _ _ _) as ((?, ?), ?). inv H'. reflexivity.
      + unfold boolJmp in H'. destruct (no l1a =? -1) eqn:X; [apply Z.eqb_eq in X; contradiction|]. inv H'. reflexivity.
      + inv H'. reflexivity. }
  destruct (dec o vl) eqn:DV.
  { (* decided by the left operand *)
    destruct LS as (k' & R & F). destruct Er as (-> & ->). exists k'. split; [exact R|].
    rewrite (dec_b2w o O). right. rewrite KEEP. exact F. }
  (* go on with the right operand *)
  destruct (is_log r) eqn:IR; [destruct (op2_eqb (log_op r) o) eqn:OO|].
  - destruct (genL r lf l1a l2 n1) as [(((c2, x), y), z)|] eqn:G; [|discriminate]. injection H' as <- <- <- <-.
    destruct (HLr _ _ _ _ _ _ _ _ (k + length cl)%nat s a ra ml v m' G ltac:(lia) LE1 ltac:(lia) SA LF ltac:(lia) LL2
                ltac:(lia) (code_at_r _ _ _ _ C) Er) as (k' & R & T).
    exists k'. split; [exact (reaches_trans _ _ _ _ _ LS R)|]. rewrite app_length, Nat.add_assoc.
    apply op2_eqb_true in OO. rewrite OO in T. unfold tgt in *. rewrite LA3 in T. exact T.
  - destruct (genL r lf l2 l1a n1) as [(((c2, x), y), z)|] eqn:G; [|discriminate]. injection H' as <- <- <- <-.
    assert (SA' : sep (no l2) (no l1a)) by (intro X; rewrite X; apply SA; congruence).
    destruct (HLr _ _ _ _ _ _ _ _ (k + length cl)%nat s a ra ml v m' G ltac:(lia) ltac:(lia) LE1 SA' LF LL2 ltac:(lia)
                ltac:(lia) (code_at_r _ _ _ _ C) Er) as (k' & R & T).
    exists k'. split; [exact (reaches_trans _ _ _ _ _ LS R)|]. rewrite app_length, Nat.add_assoc.
    rewrite (dec_other o (log_op r) v O (is_log_op _ IR) OO) in T. unfold tgt in *. rewrite LA3 in T.
    destruct (dec o v); exact T.
  - destruct (toE (genB r) n1) as [(c2, n2)|] eqn:G; [|discriminate].
    destruct (toE_ok _ (proj1 (gen_ok N r)) _ _ _ G ltac:(lia)) as ((G1 & _) & _).
    replace (2 <=? lf) with true in H' by (symmetry; apply Z.leb_le; exact LF).
    destruct (left l1a =? lf) eqn:LL.
    + apply Z.eqb_eq in LL.
      destruct (boolJmp (negb (is_or o)) l2 n2) as ((j, x), y) eqn:J. injection H' as <- <- <- <-.
      assert (C2 := code_at_r _ _ _ _ C).
      assert (R := HEr _ _ _ _ s a ra ml v m' G ltac:(lia) (code_at_l _ _ _ _ C2) Er).
      assert (B := boolJmp_sim _ _ _ _ _ _ _ v s a ra m' J ltac:(lia) ltac:(lia) (code_at_r _ _ _ _ C2)).
      rewrite (dec_eqb' o v O) in B. destruct (dec o v); cbn [negb] in B.
      * exists (k + length cl + length c2 + length j)%nat. split.
        -- exact (reaches_trans _ _ _ _ _ LS (reaches_trans _ _ _ _ _ R B)).
        -- left. split; [congruence|]. rewrite !app_length. lia.
      * destruct B as (k' & B1 & B2). exists k'. split; [|right; exact B2].
        exact (reaches_trans _ _ _ _ _ LS (reaches_trans _ _ _ _ _ R B1)).
    + apply Z.eqb_neq in LL.
      destruct (boolJmp (is_or o) l1a n2) as ((j, x), y) eqn:J. injection H' as <- <- <- <-.
      assert (C2 := code_at_r _ _ _ _ C).
      assert (R := HEr _ _ _ _ s a ra ml v m' G ltac:(lia) (code_at_l _ _ _ _ C2) Er).
      assert (B := boolJmp_sim _ _ _ _ _ _ _ v s a ra m' J ltac:(lia) ltac:(lia) (code_at_r _ _ _ _ C2)).
      rewrite (dec_eqb o v O) in B. destruct (dec o v).
      * destruct B as (k' & B1 & B2). exists k'. split; [|right; exact B2].
        exact (reaches_trans _ _ _ _ _ LS (reaches_trans _ _ _ _ _ R B1)).
      * exists (k + length cl + length c2 + length j)%nat. split.
        -- exact (reaches_trans _ _ _ _ _ LS (reaches_trans _ _ _ _ _ R B)).
        -- left. split; [lia|]. rewrite !app_length. lia.
Qed.

Lemma logBody_simV : forall o l r, log2 o -> Esim (toE (genB l)) l -> Lsim l ->
  Esim (toE (genB r)) r -> Vsim r -> Vsim (E2 o l r).
Proof.
  intros o l r O HEl HLl HEr HLr l1 l2 n c l1' l2' n' k s a ra m v m' H P Q1 Q2 SP LL1 LL2 C E.
  assert (H' : logBody o l r (toE (genB l)) (toE (genB r)) (genL l) (genL r) 1 l1 l2 n = Some (c, l1', l2', n'))
    by (destruct O as [-> | ->]; exact H).
  clear H. unfold logBody in H'. cbn [log_op].
  match type of H' with match ?X with _ => _ end = _ => destruct X as [((cl, l1a), n1)|] eqn:HL; [|discriminate] end.
  destruct (eval_log _ _ _ _ _ _ O E) as (vl & ml & El & Er).
  assert (LA : n <= n1 /\ ext (no l1) (no l1a) n n1 cl /\ left l1a = left l1 /\ no l1a <> -1).
  { clear - HL P Q1. destruct (is_log l).
    - destruct (gen_ok N l) as (_ & OK & _).
      destruct (op2_eqb (log_op l) o).
      + destruct (genL l (1 + 1) l1 (newLabel (1 + 1)) n) as [(((c, x), y), z)|] eqn:G; [|discriminate].
        injection HL as <- <- <-.
        destruct (OK _ _ _ _ _ _ _ _ G P Q1 ltac:(simpl; lia) ltac:(intro; assumption) ltac:(lia))
          as ((A1 & _) & A2 & A3 & A4 & A5 & A6 & A7 & A8 & A9).
        split; [exact A1|]. split; [|auto]. apply ext_print; [exact A2|].
        intro X. symmetry in X. exfalso. assert (Y := A4 X). congruence.
      + destruct (genL l (1 + 1) (newLabel (1 + 1)) l1 n) as [(((c, x), y), z)|] eqn:G; [|discriminate].
        injection HL as <- <- <-.
        destruct (OK _ _ _ _ _ _ _ _ G P ltac:(simpl; lia) Q1 ltac:(intro; reflexivity) ltac:(lia))
          as ((A1 & _) & A2 & A3 & A4 & A5 & A6 & A7 & A8 & A9).
        split; [exact A1|]. split; [|split; [auto|exact (A9 ltac:(lia) eq_refl)]]. apply ext_print; [exact A3|exact A4].
    - destruct (toE (genB l) n) as [(c, n2)|] eqn:G; [|discriminate].
      destruct (boolJmp (is_or o) l1 n2) as ((j, x), y) eqn:J. injection HL as <- <- <-.
      destruct (toE_ok _ (proj1 (gen_ok N l)) _ _ _ G P) as (G1 & _).
      assert (n <= n2) by (destruct G1; assumption).
      destruct (boolJmp_ok _ _ _ _ _ _ J ltac:(lia) ltac:(lia)) as (J1 & J2 & J3 & J4 & J5 & _).
      split; [destruct J1; lia|]. split; [|auto]. apply ext_appr with (n1 := n2); auto. }
  destruct LA as (LA1 & LA2 & LA3 & LA4).
  assert (SA : sep (no l1a) (no l2)).
  { intro X. destruct LA2 as [Y|(Y1 & Y2 & Y3)]; [rewrite Y in X |- *; exact (SP X)|]. lia. }
  assert (LE1 : no l1a <= n1) by (exact (ext_le _ _ _ _ _ LA2 Q1 LA1)).
  assert (SA' : sep (no l2) (no l1a)) by (intro X; rewrite X; apply SA; congruence).
  assert (CCL : code_at p k cl).
  { destruct (is_log r); [destruct (op2_eqb (log_op r) o)|].
    - destruct (genL r 1 l1a l2 n1) as [(((?, ?), ?), ?)|]; [|discriminate]. inv H'. exact (code_at_l _ _ _ _ C).
    - destruct (genL r 1 l2 l1a n1) as [(((?, ?), ?), ?)|]; [|discriminate]. inv H'. exact (code_at_l _ _ _ _ C).
    - destruct (toE (genB r) n1) as [(?, ?)|]; [|discriminate]. inv H'. exact (code_at_l _ _ _ _ C). }
  assert (LS := left_sim o l 1 l1 n cl l1a n1 k s a ra m vl ml O HEl HLl HL P Q1 ltac:(lia) LL1 CCL El).
  assert (KEEP : no l1' = no l1a).
  { destruct (is_log r); [destruct (op2_eqb (log_op r) o)|].
    - destruct (genL r 1 l1a l2 n1) as [(((?, ?), ?), ?)|] eqn:G; [|discriminate]. inv H'.
      destruct (proj1 (proj2 (gen_ok N r)) _ _ _ _ _ _ _ _ G ltac:(lia) LE1 ltac:(lia) SA ltac:(lia)) as (_ & X & _).
      exact (ext_keep _ _ _ _ _ X LA4).
    - destruct (genL r 1 l2 l1a n1) as [(((?, ?), ?), ?)|] eqn:G; [|discriminate]. inv H'.
      destruct (proj1 (proj2 (gen_ok N r)) _ _ _ _ _ _ _ _ G ltac:(lia) ltac:(lia) LE1 SA' ltac:(lia)) as (_ & _ & X & _).
      exact (ext_keep _ _ _ _ _ X LA4).
    - destruct (toE (genB r) n1) as [(?, ?)|]; [|discriminate]. inv H'. reflexivity. }
  destruct (dec o vl) eqn:DV.
  { destruct LS as (k' & R & F). destruct Er as (-> & ->). exists k', s. split; [exact R|].
    right. split; [reflexivity|]. split; [destruct (is_or o); auto|].
    rewrite (dec_b2w o O). cbv zeta. rewrite KEEP. exact F. }
  destruct (is_log r) eqn:IR; [destruct (op2_eqb (log_op r) o) eqn:OO|].
  - destruct (genL r 1 l1a l2 n1) as [(((c2, x), y), z)|] eqn:G; [|discriminate]. injection H' as <- <- <- <-.
    destruct (HLr _ _ _ _ _ _ _ (k + length cl)%nat s a ra ml v m' G ltac:(lia) LE1 ltac:(lia) SA ltac:(lia) LL2
                (code_at_r _ _ _ _ C) Er) as (k' & s' & R & T).
    exists k', s'. split; [exact (reaches_trans _ _ _ _ _ LS R)|]. rewrite app_length, Nat.add_assoc.
    apply op2_eqb_true in OO. rewrite OO in T. exact T.
  - destruct (genL r 1 l2 l1a n1) as [(((c2, x), y), z)|] eqn:G; [|discriminate]. injection H' as <- <- <- <-.
    destruct (HLr _ _ _ _ _ _ _ (k + length cl)%nat s a ra ml v m' G ltac:(lia) ltac:(lia) LE1 SA' LL2 ltac:(lia)
                (code_at_r _ _ _ _ C) Er) as (k' & s' & R & T).
    exists k', s'. split; [exact (reaches_trans _ _ _ _ _ LS R)|]. rewrite app_length, Nat.add_assoc.
    rewrite (dec_other o (log_op r) v O (is_log_op _ IR) OO) in T. 
    destruct (dec o v); exact T.
  - destruct (toE (genB r) n1) as [(c2, n2)|] eqn:G; [|discriminate]. injection H' as <- <- <- <-.
    assert (C2 := code_at_r _ _ _ _ C).
    assert (R := HEr _ _ _ _ s a ra ml v m' G ltac:(lia) C2 Er).
    exists (k + length (cl ++ c2))%nat, (v :: s). split; [|left; auto].
    rewrite app_length, Nat.add_assoc. exact (reaches_trans _ _ _ _ _ LS R).
Qed.

(* the macro instructions BOOLOR and BOOLAND *)
Definition mac (x y l1 l2 l3 : Z) : code :=
  [IJmp l3; ILab l1; ILdCns x]
  ++ (if l2 =? -1 then [] else [IJmp l3; ILab l2; ILdCns y]) ++ [ILab l3].

Lemma jmp_to : forall k l s a r m k', code_at p k [IJmp l] -> find l p = Some k' ->
  reaches (Cfg k s a r m) (Cfg k' s a r m).
Proof. intros k l s a r m k' C F. st C. unfold goto. rewrite F. reflexivity. Qed.
Lemma lab_at : forall k l s a r m, code_at p k [ILab l] ->
  reaches (Cfg k s a r m) (Cfg (S k) s a r m).
Proof. intros k l s a r m C. st C. Qed.
Lemma cns_at : forall k x s a r m, code_at p k [ILdCns x] ->
  reaches (Cfg k s a r m) (Cfg (S k) (w16 x :: s) a r m).
Proof. intros k x s a r m C. st C. Qed.

Lemma mac_sim : forall x y l1 l2 l3 k s a r m, code_at p k (mac x y l1 l2 l3) ->
  let fin := (k + length (mac x y l1 l2 l3))%nat in
  (forall v, reaches (Cfg k (v :: s) a r m) (Cfg fin (v :: s) a r m)) /\
  (forall k', find l1 p = Some k' -> reaches (Cfg k' s a r m) (Cfg fin (w16 x :: s) a r m)) /\
  (forall k', l2 <> -1 -> find l2 p = Some k' -> reaches (Cfg k' s a r m) (Cfg fin (w16 y :: s) a r m)).
Proof.
  intros x y l1 l2 l3 k s a r m C fin.
  set (mid := if l2 =? -1 then [] else [IJmp l3; ILab l2; ILdCns y]) in *.
  assert (L : length (mac x y l1 l2 l3) = (3 + length mid + 1)%nat)
    by (unfold mac; fold mid; rewrite !app_length; reflexivity).
  assert (FIN : fin = (S (k + 3 + length mid))%nat) by (unfold fin; rewrite L; lia).
  assert (C0 : code_at p k [IJmp l3]) by (apply (code_at_l _ _ _ ([ILab l1; ILdCns x] ++ mid ++ [ILab l3])); exact C).
  assert (C1 := code_at_r _ _ [IJmp l3] ([ILab l1; ILdCns x] ++ mid ++ [ILab l3]) C). rewrite len1 in C1.
  assert (C2 := code_at_r _ _ [ILab l1] ([ILdCns x] ++ mid ++ [ILab l3]) C1). rewrite len1 in C2.
  assert (C3 := code_at_r _ _ [ILdCns x] (mid ++ [ILab l3]) C2). rewrite len1 in C3.
  assert (C4 := code_at_r _ _ mid [ILab l3] C3).
  assert (F3 := code_at_find _ _ _ _ C4 ND).
  assert (TOEND : forall v, reaches (Cfg (S (S (S k)) + length mid) (v :: s) a r m) (Cfg fin (v :: s) a r m)).
  { intro v. rewrite FIN. replace (S (k + 3 + length mid)) with (S (S (S (S k)) + length mid)) by lia.
    apply lab_at with (l := l3). exact C4. }
  split; [|split].
  - intro v. exact (reaches_trans _ _ _ _ _ (jmp_to _ _ _ _ _ _ _ C0 F3) (TOEND v)).
  - intros k' F. assert (F1 := code_at_find _ _ _ _ C1 ND). rewrite F in F1. injection F1 as ->.
    eapply reaches_trans; [apply lab_at with (l := l1); exact (code_at_l _ _ [ILab l1] _ C1)|].
    eapply reaches_trans; [apply cns_at with (x := x); exact (code_at_l _ _ [ILdCns x] _ C2)|].
    unfold mid in *. destruct (l2 =? -1).
    + assert (T := TOEND (w16 x)). simpl in T. rewrite Nat.add_0_r in T. exact T.
    + eapply reaches_trans; [apply jmp_to with (l := l3); [|exact F3]|apply TOEND].
      exact (code_at_l _ _ [IJmp l3] ([ILab l2; ILdCns y] ++ [ILab l3]) C3).
  - intros k' NZ F. unfold mid in *. apply Z.eqb_neq in NZ. rewrite NZ in *.
    assert (C5 := code_at_r _ _ [IJmp l3] ([ILab l2; ILdCns y] ++ [ILab l3]) C3). rewrite len1 in C5.
    assert (C6 := code_at_r _ _ [ILab l2] ([ILdCns y] ++ [ILab l3]) C5). rewrite len1 in C6.
    assert (F1 := code_at_find _ _ _ _ C5 ND). rewrite F in F1. injection F1 as ->.
    eapply reaches_trans; [apply lab_at with (l := l2); exact (code_at_l _ _ [ILab l2] _ C5)|].
    eapply reaches_trans; [apply cns_at with (x := y); exact (code_at_l _ _ [ILdCns y] _ C6)|].
    assert (T := TOEND (w16 y)). simpl length in T.
    replace (S (S (S k)) + 3)%nat with (S (S (S (S (S (S k)))))) in T by lia. exact T.
Qed.

Lemma w16_1 : w16 1 = 1. Proof. reflexivity. Qed.
Lemma w16_0 : w16 0 = 0. Proof. reflexivity. Qed.

Lemma log_value_sim : forall o l r, log2 o -> Vsim (E2 o l r) -> Bsim (E2 o l r).
Proof.
  intros o l r O V n c pl n' k s a ra m v m' G P C E.
  set (xo := if is_or o then 1 else 0). set (yo := if is_or o then 0 else 1).
  assert (G' : (do (c, lab2, lab1, n1) <- genL (E2 o l r) 1 (newLabel 1) (newLabel 0) (n + 1);
     Some (c ++ mac xo yo (no lab2) (no lab1) (n + 1), STKD, n1)) = Some (c, pl, n')).
  { destruct O as [-> | ->]; [rewrite genB_and in G|rewrite genB_or in G]; exact G. }
  clear G.
  destruct (genL (E2 o l r) 1 (newLabel 1) (newLabel 0) (n + 1)) as [(((c1, lab2), lab1), n1)|] eqn:GL; [|discriminate].
  injection G' as <- <- <-. red in V.
  destruct (V _ _ _ _ _ _ _ k s a ra m v m' GL ltac:(lia) ltac:(simpl; lia) ltac:(simpl; lia)
    ltac:(intro; reflexivity) ltac:(simpl; lia) ltac:(simpl; lia) (code_at_l _ _ _ _ C) E) as (k' & s' & R & T).
  destruct (mac_sim _ _ _ _ _ _ s a ra m' (code_at_r _ _ _ _ C)) as (T0 & T1 & T2).
  exists [v]. split; [|reflexivity]. rewrite app_length, Nat.add_assoc.
  eapply reaches_trans; [exact R|].
  destruct T as [(-> & ->)|(-> & VV & T)]; [apply T0|]. cbv zeta in T. cbn [log_op app] in *.
  destruct (dec o v) eqn:D.
  - destruct T as (_ & F). specialize (T1 _ F).
    replace (w16 xo) with v in T1; [exact T1|]. unfold xo, dec in *.
    destruct (is_or o); [apply negb_true_iff, Z.eqb_neq in D; rewrite w16_1; lia|apply Z.eqb_eq in D; exact D].
  - destruct T as (F0 & F). specialize (T2 _ F0 F).
    replace (w16 yo) with v in T2; [exact T2|]. unfold yo, dec in *.
    destruct (is_or o); [apply negb_false_iff, Z.eqb_eq in D; exact D|apply Z.eqb_neq in D; rewrite w16_1; lia].
Qed.

Lemma bin_at : forall k o s a r m x y v, code_at p k [IBin o] -> op2_val o x y = Some v ->
  reaches (Cfg k (y :: x :: s) a r m) (Cfg (S k) (v :: s) a r m).
Proof. intros k o s a r m x y v C H. st C. rewrite H. reflexivity. Qed.
Lemma un_at : forall k o s a r m x, code_at p k [IUn o] ->
  reaches (Cfg k (x :: s) a r m) (Cfg (S k) (op1_val o x :: s) a r m).
Proof. intros. st H. Qed.
Lemma arg_at : forall k s a r m x, code_at p k [IArg] ->
  reaches (Cfg k (x :: s) a r m) (Cfg (S k) s (x :: a) r m).
Proof. intros. st H. Qed.

Lemma firstn_exact : forall (A : Type) (vs a : list A), firstn (length vs) (vs ++ a) = vs.
Proof. intros A vs a. rewrite firstn_app, Nat.sub_diag, firstn_all, firstn_O, app_nil_r. reflexivity. Qed.
Lemma skipn_exact : forall (A : Type) (vs a : list A), skipn (length vs) (vs ++ a) = a.
Proof. intros A vs a. rewrite skipn_app, Nat.sub_diag, skipn_all. reflexivity. Qed.

Lemma callF_at : forall k f vs s a r m x g, code_at p k [ICallF (length vs) f] ->
  call M f vs (gs m) = Some (x, g) ->
  reaches (Cfg k s (vs ++ a) r m) (Cfg (S k) (w16 x :: s) a r (set_g M m g)).
Proof. intros. st H. rewrite firstn_exact, H0, skipn_exact. reflexivity. Qed.
Lemma callP_at : forall k f vs s a r m x g, code_at p k [ICallP (length vs) f] ->
  call M f vs (gs m) = Some (x, g) ->
  reaches (Cfg k s (vs ++ a) r m) (Cfg (S k) s a r (set_g M m g)).
Proof. intros. st H. rewrite firstn_exact, H0, skipn_exact. reflexivity. Qed.

Lemma one_single : forall x v s, one M x = Some (v, s) -> x = Some ([v], s).
Proof. intros [([|y [|z t]], s0)|] v s H; try discriminate. simpl in H. congruence. Qed.

Lemma args_sim1 : forall e, Bsim e ->
  (match e with E2 SEMI _ _ | ENull => False | _ => True end) -> Asim e.
Proof.
  intros e B X n c j n' k s a r m vs m' G P C E.
  assert (G' : (do (c, n1) <- toE (genB e) n; Some (c ++ [IArg], 1%nat, n1)) = Some (c, j, n'))
    by (destruct e as [| | |[] | ]; try contradiction; exact G).
  assert (E' : ev e m = Some (vs, m')) by (destruct e; try contradiction; exact E).
  destruct (ev_single M N cg_order _ _ _ _ E') as (v & ->).
  { destruct e as [| | |[] | ]; try contradiction; exact I. }
  destruct (toE (genB e) n) as [(c1, n1)|] eqn:T; [|discriminate]. injection G' as <- <- <-.
  split; [|reflexivity].
  assert (EV : eval e m = Some (v, m')) by (unfold ExprSem.eval; rewrite E'; reflexivity).
  assert (R := toE_sim e B _ _ _ k s a r m v m' T P (code_at_l _ _ _ _ C) EV).
  eapply reaches_trans; [exact R|]. rewrite app_length, Nat.add_assoc, len1.
  apply arg_at. exact (code_at_r _ _ _ _ C).
Qed.

Lemma toE_le : forall e n c n', toE (genB e) n = Some (c, n') -> 0 <= n -> n <= n'.
Proof. intros e n c n' G P. destruct (toE_ok _ (proj1 (gen_ok N e)) _ _ _ G P) as ((A & _) & _). exact A. Qed.
Lemma genB_le : forall e n c q n', genB e n = Some (c, q, n') -> 0 <= n -> n <= n'.
Proof. intros e n c q n' G P. destruct (proj1 (gen_ok N e) _ _ _ _ G P) as ((A & _) & _). exact A. Qed.

(* two operands in sequence *)
Lemma two_sim : forall e1 e2 n c1 n1 c2 n2 k s a r m v1 m1 v2 m2, Bsim e1 -> Bsim e2 ->
  toE (genB e1) n = Some (c1, n1) -> toE (genB e2) n1 = Some (c2, n2) -> 0 <= n ->
  code_at p k (c1 ++ c2) -> eval e1 m = Some (v1, m1) -> eval e2 m1 = Some (v2, m2) ->
  reaches (Cfg k s a r m) (Cfg (k + length (c1 ++ c2)) (v2 :: v1 :: s) a r m2).
Proof.
  intros e1 e2 n c1 n1 c2 n2 k s a r m v1 m1 v2 m2 B1 B2 G1 G2 P C E1 E2.
  assert (R1 := toE_sim _ B1 _ _ _ k s a r m v1 m1 G1 P (code_at_l _ _ _ _ C) E1).
  assert (R2 := toE_sim _ B2 _ _ _ (k + length c1)%nat (v1 :: s) a r m1 v2 m2 G2
      (Z.le_trans _ _ _ P (toE_le _ _ _ _ G1 P)) (code_at_r _ _ _ _ C) E2).
  rewrite app_length, Nat.add_assoc. exact (reaches_trans _ _ _ _ _ R1 R2).
Qed.

Lemma bin_sim : forall o l r n c pl n' k s a ra m v m', strict2 o = true -> Bsim l -> Bsim r ->
  (if isCommutativeOp o && (evalDepth l <? evalDepth r) then
            do (cr, n1) <- toE (genB r) n;
            do (cl, n2) <- toE (genB l) n1;
            Some (cr ++ cl ++ [IBin (mirror o)], STKD, n2)
          else
            do (cl, n1) <- toE (genB l) n;
            do (cr, n2) <- toE (genB r) n1;
            Some (cl ++ cr ++ [IBin o], STKD, n2)) = Some (c, pl, n') ->
  0 <= n -> code_at p k c -> eval (E2 o l r) m = Some (v, m') ->
  exists x, reaches (Cfg k s a ra m) (Cfg (k + length c) (x ++ s) a ra m') /\ shape pl v x m'.
Proof.
  intros o l r n c pl n' k s a ra m v m' SO Bl Br G P C E.
  rewrite (eval_strict M N cg_order o l r m SO) in E.
  assert (EO : either_order o = isCommutativeOp o) by (destruct o; reflexivity). rewrite EO in E.
  change (cg_order o l r) with (evalDepth l <? evalDepth r) in E.
  destruct (isCommutativeOp o && (evalDepth l <? evalDepth r)) eqn:SW.
  - apply andb_prop in SW. destruct SW as (CO & _).
    destruct (toE (genB r) n) as [(cr, n1)|] eqn:G1; [|discriminate].
    destruct (toE (genB l) n1) as [(cl, n2)|] eqn:G2; [|discriminate]. injection G as <- <- <-.
    destruct (eval r m) as [(b, s1)|] eqn:E1; [|discriminate].
    destruct (eval l s1) as [(x, s2)|] eqn:E2; [|discriminate].
    destruct (op2_val o x b) as [w|] eqn:OV; [|discriminate]. injection E as <- <-.
    exists [w]. split; [|reflexivity]. rewrite app_assoc in C |- *.
    eapply reaches_trans; [exact (two_sim _ _ _ _ _ _ _ _ _ _ _ _ _ _ _ _ Br Bl G1 G2 P (code_at_l _ _ _ _ C) E1 E2)|].
    rewrite (app_length (cr ++ cl)), Nat.add_assoc, len1. apply bin_at with (o := mirror o).
    + exact (code_at_r _ _ _ _ C).
    + rewrite <- (op2_comm o x b CO). exact OV.
  - destruct (toE (genB l) n) as [(cl, n1)|] eqn:G1; [|discriminate].
    destruct (toE (genB r) n1) as [(cr, n2)|] eqn:G2; [|discriminate]. injection G as <- <- <-.
    destruct (eval l m) as [(x, s1)|] eqn:E1; [|discriminate].
    destruct (eval r s1) as [(b, s2)|] eqn:E2; [|discriminate].
    destruct (op2_val o x b) as [w|] eqn:OV; [|discriminate]. injection E as <- <-.
    exists [w]. split; [|reflexivity]. rewrite app_assoc in C |- *.
    eapply reaches_trans; [exact (two_sim _ _ _ _ _ _ _ _ _ _ _ _ _ _ _ _ Bl Br G1 G2 P (code_at_l _ _ _ _ C) E1 E2)|].
    rewrite (app_length (cl ++ cr)), Nat.add_assoc, len1. apply bin_at with (o := o).
    + exact (code_at_r _ _ _ _ C).
    + exact OV.
Qed.

Lemma store_at : forall k s a r m v i,
  (code_at p k [IStLoc i] -> reaches (Cfg k (v :: s) a r m) (Cfg (S k) (v :: s) a r (set_loc M m (lcl M i) v))) /\
  (code_at p k [IStPrm i] -> reaches (Cfg k (v :: s) a r m) (Cfg (S k) (v :: s) a r (set_prm M m (pcl M i) v))) /\
  (code_at p k [IStGlb i] -> reaches (Cfg k (v :: s) a r m) (Cfg (S k) (v :: s) a r (set_g M m (stg M (gs m) i v)))).
Proof. intros. repeat split; intro C; st C. Qed.
Lemma store_el : forall k s a r m v b i,
  (code_at p k [IStWrd] -> reaches (Cfg k (i :: b :: v :: s) a r m) (Cfg (S k) (v :: s) a r (set_g M m (stw M (gs m) b i v)))) /\
  (code_at p k [IStByt] -> reaches (Cfg k (i :: b :: v :: s) a r m) (Cfg (S k) (v :: s) a r (set_g M m (stb M (gs m) b i v)))).
Proof. intros. repeat split; intro C; st C. Qed.

(* the operands of an array element or a field *)
Definition Sub (e : expr) : Prop := match e with
  | E2 _ b i => Bsim b /\ Bsim i
  | _ => True end.

Lemma ass_sim : forall l r, Sub l -> Bsim r -> Bsim (E2 ASS l r).
Proof.
  intros l r SB Br n c pl n' k s a ra m v m' G P C E.
  cbn [VmCode.genB] in G.
  destruct (toE (genB r) n) as [(cr, n1)|] eqn:G1; [|discriminate].
  destruct (genB l n1) as [((cl, q), n2)|] eqn:G2; [|discriminate].
  destruct (store q) as [sq|] eqn:SQ; [|discriminate]. injection G as <- <- <-.
  destruct (eval_ass _ _ _ _ _ _ _ _ E) as (s0 & ER & H).
  assert (P1 : 0 <= n1) by exact (Z.le_trans _ _ _ P (toE_le _ _ _ _ G1 P)).
  assert (R := toE_sim _ Br _ _ _ k s a ra m v s0 G1 P (code_at_l _ _ _ _ C) ER).
  assert (C1 := code_at_r _ _ _ _ C).
  exists [v]. split; [|reflexivity]. eapply reaches_trans; [exact R|]. clear R.
  rewrite app_length, Nat.add_assoc. cbn [app].
  destruct H as [(i & -> & ->)|[(i & -> & ->)|[(i & -> & ->)|[(b & f & x & s1 & -> & E1 & ->)|
    [(o & b & i & x & s1 & kk & s2 & -> & O & E1 & E2 & ->)|(o & b & i & x & s1 & kk & s2 & -> & O & E1 & E2 & ->)]]]]].
  - injection G2 as <- <- <-. injection SQ as <-. cbn [app] in *. rewrite len1.
    exact (proj1 (store_at _ _ _ _ _ _ _) C1).
  - injection G2 as <- <- <-. injection SQ as <-. cbn [app] in *. rewrite len1.
    exact (proj1 (proj2 (store_at _ _ _ _ _ _ _)) C1).
  - injection G2 as <- <- <-. injection SQ as <-. cbn [app] in *. rewrite len1.
    exact (proj2 (proj2 (store_at _ _ _ _ _ _ _)) C1).
  - cbn [VmCode.genB] in G2. destruct (toE (genB b) n1) as [(cb, n3)|] eqn:G3; [|discriminate].
    injection G2 as <- <- <-. injection SQ as <-. destruct SB as (Bb & _).
    rewrite <- app_assoc in C1 |- *.
    assert (R := toE_sim _ Bb _ _ _ _ (v :: s) a ra s0 x s1 G3 P1 (code_at_l _ _ _ _ C1) E1).
    assert (C2 := code_at_r _ _ _ _ C1).
    eapply reaches_trans; [exact R|].
    eapply reaches_trans; [exact (cns_at _ _ _ _ _ _ (code_at_l _ _ _ _ C2))|].
    assert (C3 := code_at_r _ _ _ _ C2). rewrite len1 in C3.
    assert (R2 := proj1 (store_el _ s a ra s1 v x (w16 (slot N f))) C3).
    replace (k + length cr + length (cb ++ [ILdCns (slot N f)] ++ [IStWrd]))%nat
      with (S (S (k + length cr + length cb))) by (rewrite !app_length; simpl; lia).
    exact R2.
  - destruct SB as (Bb & Bi).
    assert (G3 : (do (cl, n1) <- toE (genB b) n1; do (cr, n2) <- toE (genB i) n1; Some (cl ++ cr, STKW, n2)) = Some (cl, q, n2))
      by (destruct O as [-> | ->]; exact G2).
    destruct (toE (genB b) n1) as [(cb, n3)|] eqn:G4; [|discriminate].
    destruct (toE (genB i) n3) as [(ci, n4)|] eqn:G5; [|discriminate].
    injection G3 as <- <- <-. injection SQ as <-.
    eapply reaches_trans; [exact (two_sim _ _ _ _ _ _ _ _ _ _ _ _ _ _ _ _ Bb Bi G4 G5 P1 (code_at_l _ _ _ _ C1) E1 E2)|].
    rewrite (app_length (cb ++ ci)), Nat.add_assoc, len1.
    apply (proj1 (store_el _ s a ra s2 v x kk)). exact (code_at_r _ _ _ _ C1).
  - destruct SB as (Bb & Bi).
    assert (G3 : (do (cl, n1) <- toE (genB b) n1; do (cr, n2) <- toE (genB i) n1; Some (cl ++ cr, STKB, n2)) = Some (cl, q, n2))
      by (destruct O as [-> | ->]; exact G2).
    destruct (toE (genB b) n1) as [(cb, n3)|] eqn:G4; [|discriminate].
    destruct (toE (genB i) n3) as [(ci, n4)|] eqn:G5; [|discriminate].
    injection G3 as <- <- <-. injection SQ as <-.
    eapply reaches_trans; [exact (two_sim _ _ _ _ _ _ _ _ _ _ _ _ _ _ _ _ Bb Bi G4 G5 P1 (code_at_l _ _ _ _ C1) E1 E2)|].
    rewrite (app_length (cb ++ ci)), Nat.add_assoc, len1.
    apply (proj2 (store_el _ s a ra s2 v x kk)). exact (code_at_r _ _ _ _ C1).
Qed.

Lemma nolog_L : forall e, is_log e = false -> Lsim e /\ Vsim e.
Proof.
  intros e H. split.
  - intros lf l1 l2 n c l1' l2' n' k s a r m v m' G. destruct e as [| | |[] | ]; discriminate.
  - intros l1 l2 n c l1' l2' n' k s a r m v m' G. destruct e as [| | |[] | ]; discriminate.
Qed.

Definition All (e : expr) : Prop := Bsim e /\ Lsim e /\ Vsim e /\ Asim e /\ Sub e.

Lemma all_nolog : forall e, is_log e = false -> Bsim e -> Asim e -> Sub e -> All e.
Proof. intros e H B A S. destruct (nolog_L e H). repeat (split; [assumption|]); assumption. Qed.

Lemma idx_sim : forall o l r, Bsim l -> Bsim r -> o = IDXR \/ o = IDXI \/ o = IDXC \/ o = IDXB -> Bsim (E2 o l r).
Proof.
  intros o l r Bl Br O n c pl n' k s a ra m v m' G P C E.
  assert (G' : (do (cl, n1) <- toE (genB l) n; do (cr, n2) <- toE (genB r) n1;
     Some (cl ++ cr, (match o with IDXR | IDXI => STKW | _ => STKB end), n2)) = Some (c, pl, n')).
  { destruct O as [-> |[-> |[-> | ->]]]; exact G. }
  clear G. destruct (toE (genB l) n) as [(cl, n1)|] eqn:G1; [|discriminate].
  destruct (toE (genB r) n1) as [(cr, n2)|] eqn:G2; [|discriminate]. injection G' as <- <- <-.
  assert (W : forall x s1 b, eval l m = Some (x, s1) -> eval r s1 = Some (b, m') ->
    reaches (Cfg k s a ra m) (Cfg (k + length (cl ++ cr)) ([b; x] ++ s) a ra m')).
  { intros x s1 b E1 E2. exact (two_sim _ _ _ _ _ _ _ _ _ _ _ _ _ _ _ _ Bl Br G1 G2 P C E1 E2). }
  assert (WRD : o = IDXR \/ o = IDXI -> exists x, reaches (Cfg k s a ra m) (Cfg (k + length (cl ++ cr)) (x ++ s) a ra m') /\ shape STKW v x m').
  { intro O'. rewrite (eval_idxw M N cg_order o l r m O') in E.
    destruct (eval l m) as [(x, s1)|] eqn:E1; [|discriminate].
    destruct (eval r s1) as [(b, s2)|] eqn:E2; [|discriminate]. injection E as <- <-.
    exists [b; x]. split; [exact (W _ _ _ eq_refl E2)|]. exists x, b. auto. }
  assert (BYT : o = IDXC \/ o = IDXB -> exists x, reaches (Cfg k s a ra m) (Cfg (k + length (cl ++ cr)) (x ++ s) a ra m') /\ shape STKB v x m').
  { intro O'. destruct (eval_idxb M N cg_order o l r m v m' O' E) as (x & s1 & b & E1 & E2 & V).
    exists [b; x]. split; [exact (W _ _ _ E1 E2)|]. exists x, b. auto. }
  destruct O as [-> |[-> |[-> | ->]]]; auto.
Qed.

Lemma sim : forall e, All e.
Proof.
  induction e as [|kf|o e1 IH|o l IHl r IHr|f e1 IH].
  - apply all_nolog; [reflexivity| | |exact I].
    + intros n c pl n' k s a r m v m' G. discriminate.
    + intros n c j n' k s a r m vs m' G P C E. injection G as <- <- <-. injection E as <- <-.
      split; [|reflexivity]. simpl. rewrite Nat.add_0_r. apply reaches_refl.
  - assert (B : Bsim (ELeaf kf)).
    { intros n c pl n' k s a r m v m' G P C E. cbn [VmCode.genB] in G. injection G as <- <- <-.
      destruct (eval_leaf _ _ _ _ _ _ _ E) as (-> & V). exists []. split.
      - simpl. rewrite Nat.add_0_r. apply reaches_refl.
      - destruct kf; cbn [leaf_place shape]; auto. }
    apply all_nolog; [reflexivity|exact B|apply args_sim1; [exact B|exact I]|exact I].
  - destruct IH as (B1 & _).
    assert (B : Bsim (E1 o e1)).
    { intros n c pl n' k s a r m v m' G P C E. cbn [VmCode.genB] in G.
      destruct (toE (genB e1) n) as [(c1, n1)|] eqn:G1; [|discriminate]. injection G as <- <- <-.
      rewrite eval_un in E. destruct (eval e1 m) as [(v1, s1)|] eqn:E1; [|discriminate]. injection E as <- <-.
      exists [op1_val o v1]. split; [|reflexivity].
      eapply reaches_trans; [exact (toE_sim _ B1 _ _ _ _ _ _ _ _ _ _ G1 P (code_at_l _ _ _ _ C) E1)|].
      rewrite app_length, Nat.add_assoc, len1. apply un_at. exact (code_at_r _ _ _ _ C). }
    apply all_nolog; [reflexivity|exact B|apply args_sim1; [exact B|exact I]|exact I].
  - destruct IHl as (Bl & Ll & Vl & Al & Sl). destruct IHr as (Br & Lr & Vr & Ar & Sr).
    assert (SB : Sub (E2 o l r)) by (split; assumption).
    assert (STR : strict2 o = true -> Bsim (E2 o l r)).
    { intros SO n c pl n' k s a ra m v m' G P C E.
      refine (bin_sim o l r n c pl n' k s a ra m v m' SO Bl Br _ P C E).
      destruct o; try discriminate SO; exact G. }
    assert (LOG : log2 o -> All (E2 o l r)).
    { intro O. assert (V := logBody_simV o l r O (toE_sim _ Bl) Ll (toE_sim _ Br) Vr).
      assert (L := logBody_simL o l r O (toE_sim _ Bl) Ll (toE_sim _ Br) Lr).
      assert (B := log_value_sim o l r O V).
      split; [exact B|]. split; [exact L|]. split; [exact V|]. split; [|exact SB].
      apply args_sim1; [exact B|]. destruct O as [-> | ->]; exact I. }
    assert (FIN : is_log (E2 o l r) = false -> o <> SEMI -> Bsim (E2 o l r) -> All (E2 o l r)).
    { intros H NS B. apply all_nolog; auto. apply args_sim1; [exact B|]. destruct o; try exact I. contradiction. }
    destruct o; try (apply FIN; [reflexivity|discriminate|apply STR; reflexivity]);
      try (apply LOG; unfold log2; auto; fail).
    all: try (apply FIN; [reflexivity|discriminate|]).
    all: try (apply ass_sim; assumption).
    all: try (apply idx_sim; auto; fail).
    + (* DOT *)
      intros n c pl n' k s a ra m v m' G P C E. cbn [VmCode.genB] in G.
      destruct r as [|[f|j|j|j|qq|j]|o' e|o' b' i'|f e]; try discriminate.
      destruct (toE (genB l) n) as [(cl, n1)|] eqn:G1; [|discriminate]. injection G as <- <- <-.
      destruct (eval_dot _ _ _ _ _ _ _ _ E) as (x & E1 & V).
      exists [w16 (slot N f); x]. split; [|exists x, (w16 (slot N f)); auto].
      eapply reaches_trans; [exact (toE_sim _ Bl _ _ _ _ s a ra _ _ _ G1 P (code_at_l _ _ _ _ C) E1)|].
      rewrite app_length, Nat.add_assoc, len1. apply cns_at. exact (code_at_r _ _ _ _ C).
    + (* COMM *)
      intros n c pl n' k s a ra m v m' G P C E. cbn [VmCode.genB] in G.
      destruct (genB l n) as [((cl, q), n1)|] eqn:G1; [|discriminate].
      destruct (genB r n1) as [((cr, q'), n2)|] eqn:G2; [|discriminate]. injection G as <- <- <-.
      rewrite eval_comm in E. destruct (eval l m) as [(v1, s1)|] eqn:E1; [|discriminate].
      destruct (Bl _ _ _ _ k s a ra m v1 s1 G1 P (code_at_l _ _ _ _ C) E1) as (x & R1 & SH).
      assert (C1 := code_at_r _ _ _ _ C).
      assert (R2 := pop_sim _ _ _ _ _ s a ra SH (code_at_l _ _ _ _ C1)).
      destruct (Br _ _ _ _ _ s a ra s1 v m' G2 (Z.le_trans _ _ _ P (genB_le _ _ _ _ _ G1 P)) (code_at_r _ _ _ _ C1) E) as (y & R3 & SH').
      exists y. split; [|exact SH'].
      eapply reaches_trans; [exact R1|]. eapply reaches_trans; [exact R2|].
      rewrite !app_length, !Nat.add_assoc. exact R3.
    + (* SEMI *) apply all_nolog; [reflexivity| | |exact SB].
      { intros n c pl n' k s a ra m v m' G. discriminate. }
      intros n c j n' k s a ra m vs m' G P C E.
      change (genArgs genB (E2 SEMI l r) n) with
        (do (c, n1) <- toE (genB r) n; do (c', k, n2) <- genArgs genB l n1; Some (c ++ [IArg] ++ c', S k, n2)) in G.
      change (evargs M N cg_order (E2 SEMI l r) m) with
        (match one M (ev r m) with
         | Some (v, s) => match ev l s with Some (vs, s') => Some (vs ++ [v], s') | None => None end
         | None => None end) in E.
      destruct (toE (genB r) n) as [(cr, n1)|] eqn:G1; [|discriminate].
      destruct (genArgs genB l n1) as [((cl, j1), n2)|] eqn:G2; [|discriminate]. injection G as <- <- <-.
      destruct (one M (ev r m)) as [(v, s1)|] eqn:E1; [|discriminate].
      destruct (ev l s1) as [(vs1, s2)|] eqn:E2; [|discriminate]. injection E as <- <-.
      assert (R := toE_sim _ Br _ _ _ k s a ra m v s1 G1 P (code_at_l _ _ _ _ C) E1).
      change (IArg :: cl) with ([IArg] ++ cl) in *.
      assert (C1 := code_at_r _ _ _ _ C). assert (C2 := code_at_r _ _ _ _ C1).
      assert (E2' : evargs M N cg_order l s1 = Some (vs1, s2)) by (destruct l; [discriminate|exact E2..]).
      destruct (Al _ _ _ _ _ s (v :: a) ra s1 vs1 s2 G2 (Z.le_trans _ _ _ P (toE_le _ _ _ _ G1 P)) C2 E2') as (R2 & LN).
      split.
      * eapply reaches_trans; [exact R|].
        eapply reaches_trans; [apply arg_at; exact (code_at_l _ _ _ _ C1)|].
        rewrite <- app_assoc. rewrite len1 in R2. rewrite !app_length.
        replace (k + (length cr + (length [IArg] + length cl)))%nat with (S (k + length cr) + length cl)%nat by (simpl; lia).
        exact R2.
      * rewrite app_length. simpl. lia.
  - destruct IH as (_ & _ & _ & A1 & _).
    assert (B : Bsim (EFunc f e1)).
    { intros n c pl n' k s a r m v m' G P C E. cbn [VmCode.genB] in G.
      destruct (genArgs genB e1 n) as [((c1, j), n1)|] eqn:G1; [|discriminate].
      destruct (eval_func _ _ _ _ _ _ _ _ E) as (vs & s1 & x & g & E1 & CC & -> & ->).
      destruct (is_void N f); injection G as <- <- <-.
      - destruct (A1 _ _ _ _ _ s a r m vs s1 G1 P (code_at_l _ _ _ _ C) E1) as (R & <-).
        exists []. split; [|reflexivity]. eapply reaches_trans; [exact R|].
        rewrite app_length, Nat.add_assoc, len1. eapply callP_at; [exact (code_at_r _ _ _ _ C)|exact CC].
      - destruct (A1 _ _ _ _ _ s a r m vs s1 G1 P (code_at_l _ _ _ _ C) E1) as (R & <-).
        exists [w16 x]. split; [|reflexivity]. eapply reaches_trans; [exact R|].
        rewrite app_length, Nat.add_assoc, len1. eapply callF_at; [exact (code_at_r _ _ _ _ C)|exact CC]. }
    apply all_nolog; [reflexivity|exact B|apply args_sim1; [exact B|exact I]|exact I].
Qed.

Lemma genE_sim : forall e, Esim (genE N e) e.
Proof. intros e. apply toE_sim. apply sim. Qed.

Lemma genX_sim : forall e n c n' k s a r m v m', genX N e n = Some (c, n') -> 0 <= n -> code_at p k c ->
  eval e m = Some (v, m') -> reaches (Cfg k s a r m) (Cfg (k + length c) s a r m').
Proof.
  intros e n c n' k s a r m v m' G P C E. unfold genX in G.
  destruct (genB e n) as [((cb, q), n1)|] eqn:G1; [|discriminate]. injection G as <- <-.
  destruct (proj1 (sim e) _ _ _ _ k s a r m v m' G1 P (code_at_l _ _ _ _ C) E) as (x & R & SH).
  eapply reaches_trans; [exact R|]. rewrite app_length, Nat.add_assoc.
  exact (pop_sim _ _ _ _ _ s a r SH (code_at_r _ _ _ _ C)).
Qed.

(* conditional jump: to the label if the condition has truth value tf *)
Lemma genCnd_sim : forall e tf j n c j' n' k s a r m v m', genCnd N e tf j n = Some (c, j', n') ->
  0 <= n -> no j <= n -> left j = 0 -> code_at p k c -> eval e m = Some (v, m') ->
  if Bool.eqb tf (negb (v =? 0)) then
    exists k', reaches (Cfg k s a r m) (Cfg k' s a r m') /\ no j' <> -1 /\ find (no j') p = Some k'
  else reaches (Cfg k s a r m) (Cfg (k + length c) s a r m').
Proof.
  intros e tf j n c j' n' k s a r m v m' G P Q LJ C E. unfold genCnd in G.
  assert (HL := proj1 (proj2 (sim e))). red in HL.
  destruct (is_log e) eqn:IL.
  - assert (O := is_log_op _ IL).
    assert (DE : dec (log_op e) v = Bool.eqb (is_or (log_op e)) (negb (v =? 0))) by (symmetry; apply dec_eqb; exact O).
    destruct (Bool.eqb (is_or (log_op e)) tf) eqn:T.
    + apply eqb_prop in T. rewrite <- T.
      destruct (genL e 2 j (newLabel 2) n) as [(((c1, x), y), z)|] eqn:G1; [|discriminate]. injection G as <- <- <-.
      destruct (HL _ _ _ _ _ _ _ _ k s a r m v m' G1 P Q ltac:(simpl; lia) ltac:(intro; assumption)
        ltac:(lia) ltac:(lia) ltac:(simpl; lia) ltac:(simpl; lia) (code_at_l _ _ _ _ C) E) as (k' & R & TG).
      rewrite DE in TG. destruct (Bool.eqb (is_or (log_op e)) (negb (v =? 0))).
      * destruct TG as [(X & _)|TG]; [lia|]. exists k'. auto.
      * rewrite app_length, Nat.add_assoc. apply code_at_r in C.
        eapply reaches_trans; [exact R|].
        replace k' with (k + length c1)%nat; [apply printLab_sim; exact C|].
        destruct TG as [(_ & X)|(T1 & T2)]; [symmetry; exact X|].
        rewrite (printLab_find _ _ C T1) in T2. congruence.
    + assert (T' : tf = negb (is_or (log_op e))) by (destruct tf, (is_or (log_op e)); try discriminate; reflexivity).
      destruct (genL e 2 (newLabel 2) j n) as [(((c1, y), x), z)|] eqn:G1; [|discriminate]. injection G as <- <- <-.
      destruct (HL _ _ _ _ _ _ _ _ k s a r m v m' G1 P ltac:(simpl; lia) Q ltac:(intro; reflexivity)
        ltac:(lia) ltac:(simpl; lia) ltac:(lia) ltac:(simpl; lia) (code_at_l _ _ _ _ C) E) as (k' & R & TG).
      rewrite DE in TG. rewrite T'.
      replace (Bool.eqb (negb (is_or (log_op e))) (negb (v =? 0))) with (negb (Bool.eqb (is_or (log_op e)) (negb (v =? 0))))
        by (destruct (is_or (log_op e)), (v =? 0); reflexivity).
      destruct (Bool.eqb (is_or (log_op e)) (negb (v =? 0))); cbn [negb].
      * rewrite app_length, Nat.add_assoc. apply code_at_r in C.
        eapply reaches_trans; [exact R|].
        replace k' with (k + length c1)%nat; [apply printLab_sim; exact C|].
        destruct TG as [(_ & X)|(T1 & T2)]; [symmetry; exact X|].
        rewrite (printLab_find _ _ C T1) in T2. congruence.
      * destruct TG as [(X & _)|TG]; [lia|]. exists k'. auto.
  - destruct (genE N e n) as [(c1, n1)|] eqn:G1; [|discriminate].
    destruct (boolJmp tf j n1) as ((jc, x), z) eqn:J. injection G as <- <- <-.
    rewrite <- app_assoc in C.
    assert (LE := toE_le _ _ _ _ G1 P).
    assert (R := genE_sim e _ _ _ k s a r m v m' G1 P (code_at_l _ _ _ _ C) E).
    assert (C1 := code_at_r _ _ _ _ C).
    assert (B := boolJmp_sim _ _ _ _ _ _ _ v s a r m' J ltac:(lia) ltac:(lia) (code_at_l _ _ _ _ C1)).
    destruct (Bool.eqb tf (negb (v =? 0))).
    + destruct B as (k' & B1 & B2). exists k'. split; [exact (reaches_trans _ _ _ _ _ R B1)|exact B2].
    + cbn [newLabel no printLab Z.eqb]. rewrite !app_length. change (length (printLab (-1))) with 0%nat.
      rewrite Nat.add_0_r, Nat.add_assoc. exact (reaches_trans _ _ _ _ _ R B).
Qed.
End Sim.
