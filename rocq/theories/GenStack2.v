(* Consistent heights imply that execution never underflows and leaves the
   caller's part of the stack and argument area alone. *)
From Coq Require Import ZArith Bool List Lia Arith.
From Verif Require Import Word SyTree ExprSem VM VmCode VmBase GenLabels GenLabels2 GenFunc StackSpec GenStack OptSpec.
Import ListNotations.
Open Scope Z_scope.

(* the height with which position j of c is entered *)
Definition height_at (E : Z -> height) (c : code) (j : nat) : option height :=
  match chk E (firstn j c) (Some (0, 0)%nat) with
  | Some (Some h) => Some h
  | Some None => match nth_error c j with Some (ILab l) => Some (E l) | _ => None end
  | None => None
  end.

Lemma chk_split : forall E c x y j i, chk E c x = Some y -> nth_error c j = Some i ->
  exists z w, chk E (firstn j c) x = Some z /\ chk1 E i z = Some w /\
              chk E (firstn (S j) c) x = Some w /\ chk E (skipn (S j) c) w = Some y.
Proof.
  intros E c. induction c as [|i0 c IH]; intros x y j i H N; [destruct j; discriminate|].
  cbn [chk] in H. destruct (chk1 E i0 x) as [w|] eqn:C1; [|discriminate].
  destruct j as [|j].
  - injection N as <-. exists x, w. cbn [firstn skipn chk]. rewrite C1. auto.
  - cbn [nth_error] in N. destruct (IH _ _ _ _ H N) as (z & w' & A & B & C & D).
    exists z, w'. change (firstn (S (S j)) (i0 :: c)) with (i0 :: firstn (S j) c).
    cbn [firstn chk] in *. rewrite C1. auto.
Qed.

(* the position of a label of c *)
Lemma find_pos : forall p k c l k', code_at p k c -> NoDup (defs p) -> In l (defs c) -> find l p = Some k' ->
  exists j, k' = (k + j)%nat /\ nth_error c j = Some (ILab l).
Proof.
  intros p k c l k' C ND I F.
  assert (X : exists j, nth_error c j = Some (ILab l)).
  { clear - I. induction c as [|i c IH]; [destruct I|].
    destruct i; cbn [defs In] in I; try (destruct (IH I) as (j & J); exists (S j); exact J).
    destruct I as [<-|I]; [exists O; reflexivity|]. destruct (IH I) as (j & J). exists (S j). exact J. }
  destruct X as (j & J). exists j. split; [|exact J].
  destruct (nth_error_split c j J) as (a & b & -> & LN).
  apply code_at_r in C. rewrite LN in C. rewrite (code_at_find _ _ _ _ C ND) in F. congruence.
Qed.

Section Run.
Variable M : machine.

Lemma chk1_height : forall E c j i z w h, chk E c (Some (0, 0)%nat) = Some None ->
  nth_error c j = Some i -> height_at E c j = Some h ->
  chk E (firstn j c) (Some (0, 0)%nat) = Some z -> chk1 E i z = Some w ->
  chk1 E i (Some h) = Some w.
Proof.
  intros E c j i z w h _ N H Z W. unfold height_at in H. rewrite Z in H.
  destruct z as [h'|]; [congruence|]. rewrite N in H. destruct i; try discriminate.
  injection H as <-. cbn [chk1] in *. rewrite heq_refl. exact W.
Qed.

Lemma next_height : forall E c j w, chk E c (Some (0, 0)%nat) = Some None ->
  chk E (firstn (S j) c) (Some (0, 0)%nat) = Some (Some w) -> height_at E c (S j) = Some w.
Proof. intros E c j w _ H. unfold height_at. rewrite H. reflexivity. Qed.
Lemma next_inside : forall E c j w, chk E c (Some (0, 0)%nat) = Some None ->
  chk E (firstn (S j) c) (Some (0, 0)%nat) = Some (Some w) -> (S j < length c)%nat.
Proof.
  intros E c j w H W. destruct (le_lt_dec (length c) (S j)) as [L|L]; [|exact L].
  rewrite firstn_all2 in W by exact L. congruence.
Qed.

Definition inv (E : Z -> height) (k : nat) (c : code) (s0 a0 : list Z) (x : cfg M) : Prop :=
  exists j h t u, pc x = (k + j)%nat /\ (j < length c)%nat /\ height_at E c j = Some h /\
    stk x = t ++ s0 /\ length t = fst h /\ args x = u ++ a0 /\ length u = snd h.

Lemma lab_height : forall E c j l, chk E c (Some (0, 0)%nat) = Some None ->
  nth_error c j = Some (ILab l) -> height_at E c j = Some (E l).
Proof.
  intros E c j l H N. destruct (chk_split _ _ _ _ _ _ H N) as (z & w & A & B & _).
  unfold height_at. rewrite A, N. destruct z as [h|]; [|reflexivity].
  cbn [chk1] in B. destruct (heq (E l) h) eqn:Q; [|discriminate]. apply heq_eq in Q. congruence.
Qed.

Lemma code_at_nth : forall p k c j i, code_at p k c -> nth_error c j = Some i -> nth_error p (k + j) = Some i.
Proof.
  intros p k c j i C N. destruct (nth_error_split c j N) as (a & b & -> & LN).
  apply code_at_r in C. rewrite LN in C. exact (code_at_hd _ _ _ _ C).
Qed.

(* what can stop the machine *)
Definition stops (p : code) (x : cfg M) : Prop :=
  match nth_error p (pc x) with
  | Some IRet | Some IRetI => True
  | Some (IBin o) => exists v b s, stk x = b :: v :: s /\ op2_val o v b = None
  | Some (ICallF n f) | Some (ICallP n f) =>
      (n <= length (args x))%nat /\ call M f (firstn n (args x)) (gs (mem x)) = None
  | _ => False
  end.

Lemma inv_step : forall E p k c s0 a0 x,
  NoDup (defs p) -> code_at p k c -> closed c -> chk E c (Some (0, 0)%nat) = Some None ->
  inv E k c s0 a0 x ->
  match step M p x with Some y => inv E k c s0 a0 y | None => stops p x end.
Proof.
  intros E p k c s0 a0 x ND C CL H (j & h & t & u & PC & LT & HH & ST & LT' & AR & LU).
  destruct x as [pc0 s a r m]. cbn [pc stk args mem reg] in *. subst pc0 s a.
  destruct (nth_error c j) as [i|] eqn:N; [|apply nth_error_None in N; lia].
  destruct (chk_split _ _ _ _ _ _ H N) as (z & w & A & B & W & _).
  assert (B' := chk1_height E c j i z w h H N HH A B). clear z A B.
  assert (NP := code_at_nth _ _ _ _ _ C N).
  assert (NEXT : forall w' t' u' m' r', w = Some w' -> length t' = fst w' -> length u' = snd w' ->
    inv E k c s0 a0 (Cfg (S (k + j)) (t' ++ s0) (u' ++ a0) r' m')).
  { intros w' t' u' m' r' -> L1 L2. exists (S j), w', t', u'. cbn [pc stk args].
    split; [lia|]. split; [exact (next_inside _ _ _ _ H W)|]. split; [exact (next_height _ _ _ _ H W)|]. auto. }
  assert (JUMP : forall l t' h', In l (uses c) -> E l = h' -> length t' = fst h' -> length u = snd h' ->
    match goto M p l (t' ++ s0) (u ++ a0) r m with Some y => inv E k c s0 a0 y | None => False end).
  { intros l t' h' U EL L1 L2. destruct (CL l U) as [D|([] & _)].
    assert (DP : In l (defs p)).
    { destruct C as (pre & post & -> & _). rewrite !defs_app. apply in_or_app. right. apply in_or_app. left. exact D. }
    destruct (find_total _ _ DP) as (k' & F). unfold goto. rewrite F.
    destruct (find_pos _ _ _ _ _ C ND D F) as (j' & -> & N').
    exists j', h', t', u. cbn [pc stk args]. split; [reflexivity|].
    split; [apply nth_error_Some; congruence|]. split; [rewrite <- EL; apply lab_height; assumption|]. auto. }
  assert (USE : forall l, i = IJmp l \/ i = IJT l \/ i = IJF l -> In l (uses c)) by (intros l D; exact (in_uses c j l i N D)).
  unfold stops. cbn [pc stk args mem]. rewrite NP. cbn [step]. rewrite NP.
  destruct h as (hs, ha). cbn [fst snd] in *.
  destruct i; cbn [chk1 eff] in B'; cbn beta iota.
  - (* label *) destruct (heq (E l) (hs, ha)); [|discriminate]. injection B' as <-. apply (NEXT _ _ _ _ _ eq_refl); cbn [length fst snd] in *; auto; lia.
  - (* jmp *) destruct (heq (E l) (hs, ha)) eqn:Q; [|discriminate]. apply heq_eq in Q.
    assert (J := JUMP l t (hs, ha) (USE l (or_introl eq_refl)) Q LT' LU). destruct (goto M p l _ _ r m); [exact J|destruct J].
  - destruct hs as [|hs]; [discriminate|]. destruct (heq (E l) (hs, ha)) eqn:Q; [|discriminate]. apply heq_eq in Q.
    destruct t as [|v t]; [discriminate|]. cbn [length] in LT'. injection LT' as LT'. cbn [app]. injection B' as <-.
    destruct (v =? 0); [apply (NEXT _ _ _ _ _ eq_refl); auto|].
    assert (J := JUMP l t (hs, ha) (USE l (or_intror (or_introl eq_refl))) Q LT' LU). destruct (goto M p l _ _ r m); [exact J|destruct J].
  - destruct hs as [|hs]; [discriminate|]. destruct (heq (E l) (hs, ha)) eqn:Q; [|discriminate]. apply heq_eq in Q.
    destruct t as [|v t]; [discriminate|]. cbn [length] in LT'. injection LT' as LT'. cbn [app]. injection B' as <-.
    destruct (v =? 0); [|apply (NEXT _ _ _ _ _ eq_refl); auto].
    assert (J := JUMP l t (hs, ha) (USE l (or_intror (or_intror eq_refl))) Q LT' LU). destruct (goto M p l _ _ r m); [exact J|destruct J].
  - injection B' as <-. apply (NEXT _ (w16 c0 :: t) u _ _ eq_refl); cbn [length fst snd]; auto; lia.
  - injection B' as <-. apply (NEXT _ (w16 (ldg M (gs m) i) :: t) u _ _ eq_refl); cbn [length fst snd]; auto; lia.
  - injection B' as <-. apply (NEXT _ (w16 (locs m (lcl M i)) :: t) u _ _ eq_refl); cbn [length fst snd]; auto; lia.
  - injection B' as <-. apply (NEXT _ (w16 (prms m (pcl M i)) :: t) u _ _ eq_refl); cbn [length fst snd]; auto; lia.
  - injection B' as <-. apply (NEXT _ (w16 (lab M l) :: t) u _ _ eq_refl); cbn [length fst snd]; auto; lia.
  - injection B' as <-. apply (NEXT _ (w16 (adr M i) :: t) u _ _ eq_refl); cbn [length fst snd]; auto; lia.
  - destruct hs as [|[|hs]]; try discriminate. injection B' as <-.
    destruct t as [|v1 [|v2 t]]; try discriminate. cbn [length] in LT'. cbn [app].
    apply (NEXT _ (_ :: t) u _ _ eq_refl); cbn [length fst snd]; auto; lia.
  - destruct hs as [|[|hs]]; try discriminate. injection B' as <-.
    destruct t as [|v1 [|v2 t]]; try discriminate. cbn [length] in LT'. cbn [app].
    apply (NEXT _ (_ :: t) u _ _ eq_refl); cbn [length fst snd]; auto; lia.
  - destruct hs as [|hs]; try discriminate. injection B' as <-. destruct t as [|v1 t]; try discriminate.
    apply (NEXT _ (v1 :: t) u _ _ eq_refl); cbn [length fst snd] in *; auto; lia.
  - destruct hs as [|hs]; try discriminate. injection B' as <-. destruct t as [|v1 t]; try discriminate.
    apply (NEXT _ (v1 :: t) u _ _ eq_refl); cbn [length fst snd] in *; auto; lia.
  - destruct hs as [|hs]; try discriminate. injection B' as <-. destruct t as [|v1 t]; try discriminate.
    apply (NEXT _ (v1 :: t) u _ _ eq_refl); cbn [length fst snd] in *; auto; lia.
  - destruct hs as [|[|[|hs]]]; try discriminate. injection B' as <-.
    destruct t as [|v1 [|v2 [|v3 t]]]; try discriminate. cbn [length] in LT'. cbn [app].
    apply (NEXT _ (_ :: t) u _ _ eq_refl); cbn [length fst snd]; auto; lia.
  - destruct hs as [|[|[|hs]]]; try discriminate. injection B' as <-.
    destruct t as [|v1 [|v2 [|v3 t]]]; try discriminate. cbn [length] in LT'. cbn [app].
    apply (NEXT _ (_ :: t) u _ _ eq_refl); cbn [length fst snd]; auto; lia.
  - destruct hs as [|hs]; try discriminate. injection B' as <-. destruct t as [|v1 t]; try discriminate.
    cbn [app]. apply (NEXT _ (_ :: t) u _ _ eq_refl); cbn [length fst snd] in *; auto; lia.
  - destruct hs as [|[|hs]]; try discriminate. injection B' as <-.
    destruct t as [|v1 [|v2 t]]; try discriminate. cbn [length] in LT'. cbn [app].
    destruct (op2_val o v2 v1) eqn:OV; [|eauto 10].
    apply (NEXT _ (_ :: t) u _ _ eq_refl); cbn [length fst snd]; auto; lia.
  - destruct hs as [|hs]; try discriminate. injection B' as <-. destruct t as [|v1 t]; try discriminate.
    cbn [app]. apply (NEXT _ t u _ _ eq_refl); cbn [length fst snd] in *; auto; lia.
  - destruct hs as [|hs]; try discriminate. injection B' as <-. destruct t as [|v1 t]; try discriminate.
    cbn [app]. apply (NEXT _ t (v1 :: u) _ _ eq_refl); cbn [length fst snd] in *; auto; lia.
  - destruct (Nat.leb_spec n ha) as [LE|LE]; [|discriminate]. injection B' as <-.
    destruct (call M f (firstn n (u ++ a0)) (gs m)) as [(v, g)|] eqn:CA; [|split; [rewrite app_length; lia|reflexivity]].
    rewrite skipn_app. replace (n - length u)%nat with O by lia. cbn [skipn].
    apply (NEXT _ (w16 v :: t) (skipn n u) _ _ eq_refl); cbn [length fst snd]; [auto|rewrite skipn_length; lia].
  - destruct (Nat.leb_spec n ha) as [LE|LE]; [|discriminate]. injection B' as <-.
    destruct (call M f (firstn n (u ++ a0)) (gs m)) as [(v, g)|] eqn:CA; [|split; [rewrite app_length; lia|reflexivity]].
    rewrite skipn_app. replace (n - length u)%nat with O by lia. cbn [skipn].
    apply (NEXT _ t (skipn n u) _ _ eq_refl); cbn [length fst snd]; [auto|rewrite skipn_length; lia].
  - destruct hs as [|hs]; try discriminate. injection B' as <-. destruct t as [|v1 t]; try discriminate.
    cbn [app]. apply (NEXT _ t u _ _ eq_refl); cbn [length fst snd] in *; auto; lia.
  - injection B' as <-. apply (NEXT _ t u _ _ eq_refl); cbn [length fst snd] in *; auto; lia.
  - injection B' as <-. apply (NEXT _ t u _ _ eq_refl); cbn [length fst snd] in *; auto; lia.
  - injection B' as <-. apply (NEXT _ t u _ _ eq_refl); cbn [length fst snd] in *; auto; lia.
  - exact I.
  - exact I.
Qed.

Lemma inv_reaches : forall E p k c s0 a0 n x y,
  NoDup (defs p) -> code_at p k c -> closed c -> chk E c (Some (0, 0)%nat) = Some None ->
  inv E k c s0 a0 x -> steps M p n x y -> inv E k c s0 a0 y.
Proof.
  intros E p k c s0 a0 n. induction n as [|n IH]; intros x y ND C CL H I S.
  - cbn in S. subst. exact I.
  - destruct S as (d & ST & S). assert (D := inv_step E p k c s0 a0 x ND C CL H I). rewrite ST in D.
    exact (IH d y ND C CL H D S).
Qed.
End Run.

(* the code of a function *)
Lemma genFunc_heights : forall N s d krn intr g c g', escapes s = false -> 0 <= cur g ->
  genFunc N s d krn intr g = Some (c, g') ->
  exists E, chk E c (Some (0, 0)%nat) = Some None.
Proof.
  intros N s d krn intr g c g' X P H.
  destruct (genFunc_shape _ _ _ _ _ _ _ _ X P H) as (body & g1 & G & W & -> & _).
  destruct (genS_t N _ _ _ _ _ (0, 0)%nat G W) as (E & _ & _ & _ & ER & CK). exists E.
  assert (A : Chk E ([entry d krn intr] ++ body ++ printLab (ret g1)) (Some (0, 0)%nat) (Some (0, 0)%nat)).
  { apply (Chk_app _ _ _ _ (Some (0, 0)%nat)).
    - apply chk_one. unfold entry. destruct intr, krn; reflexivity.
    - exact (Chk_app _ _ _ _ _ _ CK (print_t E _ _ ER)). }
  destruct A as (y & A & L). rewrite !app_assoc, chk_app. rewrite <- !app_assoc, A.
  destruct L as [->| ->]; unfold ret_instr; destruct intr; reflexivity.
Qed.

Lemma function_stack : forall N s d krn intr g c g', escapes s = false -> 0 <= cur g ->
  genFunc N s d krn intr g = Some (c, g') ->
  exists H : nat -> nat * nat,
  forall (M : machine) p k stk args reg st x,
    (NoDup (defs p) /\ forall l, In l (uses p) -> In l (defs p)) -> code_at p k c ->
    reaches M p (Cfg k stk args reg st) x ->
    exists j t u, pc x = (k + j)%nat /\ (j < length c)%nat /\
      VM.stk x = t ++ stk /\ VM.args x = u ++ args /\ (length t, length u) = H j /\
      (nth_error c j = Some IRet \/ nth_error c j = Some IRetI -> t = [] /\ u = []) /\
      (step M p x = None -> stops M p x).
Proof.
  intros N s d krn intr g c g' X P G.
  destruct (genFunc_heights _ _ _ _ _ _ _ _ X P G) as (E & CK).
  destruct (genFunc_labels _ _ _ _ _ _ _ _ X P G) as (_ & CL).
  exists (fun j => match height_at E c j with Some h => h | None => (0, 0)%nat end).
  intros M p k stk args reg st x (ND & _) C (n & R).
  assert (NE : (0 < length c)%nat).
  { destruct c; [discriminate CK|cbn [length]; lia]. }
  assert (I0 : inv M E k c stk args (Cfg k stk args reg st)).
  { exists O, (0, 0)%nat, [], []. cbn [pc VM.stk VM.args app length fst snd]. split; [lia|]. split; [exact NE|].
    split; [reflexivity|]. auto. }
  assert (I := inv_reaches M E p k c stk args n _ _ ND C CL CK I0 R).
  assert (ST := inv_step M E p k c stk args x ND C CL CK I).
  destruct I as (j & h & t & u & PC & LT & HH & S1 & L1 & A1 & L2).
  exists j, t, u. split; [exact PC|]. split; [exact LT|]. split; [exact S1|]. split; [exact A1|].
  rewrite HH. split; [destruct h; cbn [fst snd] in *; congruence|]. split.
  - intro RT.
    assert (Z : h = (0, 0)%nat).
    { destruct (nth_error c j) as [i|] eqn:NJ; [|destruct RT; discriminate].
      destruct (chk_split _ _ _ _ _ _ CK NJ) as (z & w & A & B & _).
      assert (B' := chk1_height E c j i z w h CK NJ HH A B).
      destruct RT as [RT|RT]; injection RT as ->; cbn [chk1] in B'; destruct (heq h (0, 0)%nat) eqn:Q; try discriminate;
        apply heq_eq in Q; exact Q. }
    subst h. cbn [fst snd] in *. destruct t; [|discriminate]. destruct u; [auto|discriminate].
  - intro NS. rewrite NS in ST. exact ST.
Qed.

(* an expression's code always reaches its end *)
Definition live (c : code) : Prop := forall E x y, chk E c x = Some y -> x <> None -> y <> None.
Lemma live_nil : live [].
Proof. intros E x y H X. injection H as <-. exact X. Qed.
Lemma live_app : forall a b, live a -> live b -> live (a ++ b).
Proof.
  intros a b A B E x y H X. rewrite chk_app in H. destruct (chk E a x) as [z|] eqn:C; [|discriminate].
  exact (B E z y H (A E x z C X)).
Qed.
Lemma live_one : forall i, match i with IJmp _ | IRet | IRetI => False | _ => True end -> live [i].
Proof.
  intros i T E x y H X. destruct x as [h|]; [|congruence]. cbn [chk] in H.
  destruct (chk1 E i (Some h)) as [w|] eqn:C1; [|discriminate]. injection H as <-. intro Q. subst w.
  destruct i; cbn [chk1] in C1; try contradiction;
    try (destruct (eff _ h); discriminate);
    try (destruct (heq (E l) h); discriminate);
    try (destruct h as ([|], ?); [discriminate|]; destruct (heq _ _); discriminate).
Qed.
(* whatever comes before a label *)
Lemma live_lab : forall c l, live (c ++ [ILab l]).
Proof.
  intros c l E x y H _. rewrite chk_app in H. destruct (chk E c x) as [z|]; [|discriminate].
  cbn [chk chk1] in H. destruct z as [h|]; [destruct (heq (E l) h)|]; congruence.
Qed.
Lemma live_print : forall l, live (printLab l).
Proof. intro l. unfold printLab. destruct (l =? -1); [apply live_nil|apply live_one; exact I]. Qed.
Lemma live_jump : forall tf l n j l' n', boolJmp tf l n = (j, l', n') -> live j.
Proof.
  intros tf l n j l' n' H. unfold boolJmp in H. destruct (no l =? -1); injection H as <- <- <-;
    destruct tf; apply live_one; exact I.
Qed.
Lemma live_load : forall p c, load p = Some c -> live c.
Proof. intros p c H. destruct p; try discriminate; injection H as <-; first [apply live_nil|apply live_one; exact I]. Qed.
Lemma live_store : forall p c, store p = Some c -> live c.
Proof. intros p c H. destruct p; try discriminate; injection H as <-; apply live_one; exact I. Qed.
Lemma live_pop : forall p, live (pop p).
Proof.
  intro p. destruct p; cbn [pop]; try apply live_nil; try (apply live_one; exact I);
    apply (live_app [IPop] [IPop]); apply live_one; exact I.
Qed.

Definition Ev (g : genE_t) : Prop := forall n c n', g n = Some (c, n') -> live c.
Definition Bv (g : genB_t) : Prop := forall n c p n', g n = Some (c, p, n') -> live c.
Definition Lv (g : genL_t) : Prop := forall lf l1 l2 n c l1' l2' n',
  g lf l1 l2 n = Some (c, l1', l2', n') -> live c.

Lemma toE_v : forall g, Bv g -> Ev (toE g).
Proof.
  intros g H n c n' G. unfold toE in G. destruct (g n) as [((cb, p), n1)|] eqn:B; [|discriminate].
  destruct (load p) as [ld|] eqn:L; [|discriminate]. injection G as <- <-.
  apply live_app; [exact (H _ _ _ _ B)|exact (live_load _ _ L)].
Qed.
Lemma logBody_v : forall o l r El Er Ll Lr, Ev El -> Ev Er -> Lv Ll -> Lv Lr -> Lv (logBody o l r El Er Ll Lr).
Proof.
  intros o l r El Er Ll Lr HEl HEr HLl HLr lf l1 l2 n c l1' l2' n' H. unfold logBody in H.
  match type of H with match ?X with _ => _ end = _ => destruct X as [((cl, l1a), n1)|] eqn:HL; [|discriminate] end.
  assert (A : live cl).
  { destruct (is_log l).
    - destruct (op2_eqb (log_op l) o).
      + destruct (Ll (lf + 1) l1 (newLabel (lf + 1)) n) as [(((cc, a), b), nn)|] eqn:G; [|discriminate].
        injection HL as <- <- <-. apply live_app; [exact (HLl _ _ _ _ _ _ _ _ G)|apply live_print].
      + destruct (Ll (lf + 1) (newLabel (lf + 1)) l1 n) as [(((cc, a), b), nn)|] eqn:G; [|discriminate].
        injection HL as <- <- <-. apply live_app; [exact (HLl _ _ _ _ _ _ _ _ G)|apply live_print].
    - destruct (El n) as [(ce, ne)|] eqn:G; [|discriminate].
      destruct (boolJmp (is_or o) l1 ne) as ((j, l1b), n2) eqn:J. injection HL as <- <- <-.
      apply live_app; [exact (HEl _ _ _ G)|exact (live_jump _ _ _ _ _ _ J)]. }
  destruct (is_log r).
  - destruct (op2_eqb (log_op r) o).
    + destruct (Lr lf l1a l2 n1) as [(((cc, a), b), nn)|] eqn:G; [|discriminate]. injection H as <- <- <- <-.
      apply live_app; [exact A|exact (HLr _ _ _ _ _ _ _ _ G)].
    + destruct (Lr lf l2 l1a n1) as [(((cc, a), b), nn)|] eqn:G; [|discriminate]. injection H as <- <- <- <-.
      apply live_app; [exact A|exact (HLr _ _ _ _ _ _ _ _ G)].
  - destruct (Er n1) as [(ce, ne)|] eqn:G; [|discriminate]. assert (B := HEr _ _ _ G).
    destruct (2 <=? lf).
    + destruct (left l1a =? lf).
      * destruct (boolJmp (negb (is_or o)) l2 ne) as ((j, l2b), n2) eqn:J. injection H as <- <- <- <-.
        apply live_app; [exact A|]. apply live_app; [exact B|exact (live_jump _ _ _ _ _ _ J)].
      * destruct (boolJmp (is_or o) l1a ne) as ((j, l1b), n2) eqn:J. injection H as <- <- <- <-.
        apply live_app; [exact A|]. apply live_app; [exact B|exact (live_jump _ _ _ _ _ _ J)].
    + injection H as <- <- <- <-. apply live_app; assumption.
Qed.

Section V.
Variable N : names.
Notation genB := (genB N).
Notation genL := (genL N).
Definition Av (e : expr) : Prop := forall n c k n', genArgs genB e n = Some (c, k, n') -> live c.
Lemma args_single_v : forall e, Bv (genB e) ->
  (match e with E2 SEMI _ _ | ENull => False | _ => True end) -> Av e.
Proof.
  intros e H T n c k n' E.
  assert (E' : (do (c0, n1) <- toE (genB e) n; Some (c0 ++ [IArg], 1%nat, n1)) = Some (c, k, n')).
  { destruct e as [| | |[] | ]; try contradiction; exact E. }
  destruct (toE (genB e) n) as [(c0, n1)|] eqn:G; [|discriminate]. injection E' as <- <- <-.
  apply live_app; [exact (toE_v _ H _ _ _ G)|apply live_one; exact I].
Qed.
Lemma gen_v : forall e, Bv (genB e) /\ Lv (genL e) /\ Av e.
Proof.
  induction e as [|k|o a IH|o l IHl r IHr|f a IH].
  - split; [intros n c p n' H; discriminate|]. split; [intros until 1; discriminate|].
    intros n c k n' H. inv H. apply live_nil.
  - assert (B : Bv (genB (ELeaf k))) by (intros n c p n' H; inv H; apply live_nil).
    split; [exact B|]. split; [intros until 1; discriminate|]. apply args_single_v; auto.
  - assert (B : Bv (genB (E1 o a))).
    { intros n c p n' H. cbn [VmCode.genB] in H.
      destruct (toE (genB a) n) as [(c0, n1)|] eqn:G; [|discriminate]. injection H as <- <- <-.
      apply live_app; [exact (toE_v _ (proj1 IH) _ _ _ G)|apply live_one; exact I]. }
    split; [exact B|]. split; [intros until 1; discriminate|]. apply args_single_v; auto.
  - destruct IHl as (Bl & Ll & Al), IHr as (Br & Lr & Ar).
    pose proof (toE_v _ Bl) as El. pose proof (toE_v _ Br) as Er.
    assert (LB : Lv (logBody o l r (toE (genB l)) (toE (genB r)) (genL l) (genL r))) by (apply logBody_v; assumption).
    assert (L : Lv (genL (E2 o l r))).
    { destruct o; try (intros until 1; discriminate); exact LB. }
    assert (B : Bv (genB (E2 o l r))).
    { intros n c p n' H.
      assert (BIN : forall ga gb tl q, Ev ga -> Ev gb -> live tl ->
        (do (ca, n1) <- ga n; do (cb, n2) <- gb n1; Some (ca ++ cb ++ tl, q, n2)) = Some (c, p, n') -> live c).
      { intros ga gb tl q Ha Hb HT HH.
        destruct (ga n) as [(ca, n1)|] eqn:Ga; [|discriminate].
        destruct (gb n1) as [(cb, n2)|] eqn:Gb; [|discriminate].
        injection HH as <- <- <-. apply live_app; [exact (Ha _ _ _ Ga)|].
        apply live_app; [exact (Hb _ _ _ Gb)|exact HT]. }
      assert (BIN0 : forall q,
        (do (ca, n1) <- toE (genB l) n; do (cb, n2) <- toE (genB r) n1; Some (ca ++ cb, q, n2)) = Some (c, p, n') -> live c).
      { intros q HH. apply (BIN (toE (genB l)) (toE (genB r)) [] q El Er live_nil).
        rewrite <- HH. destruct (toE (genB l) n) as [(ca, n1)|]; [|reflexivity].
        destruct (toE (genB r) n1) as [(cb, n2)|]; [|reflexivity]. rewrite app_nil_r. reflexivity. }
      assert (OP : forall o', live [IBin o']) by (intro; apply live_one; exact I).
      destruct o; first [rewrite genB_or in H|rewrite genB_and in H|cbn [VmCode.genB isCommutativeOp andb mirror] in H];
        try match type of H with context [evalDepth l <? evalDepth r] => destruct (evalDepth l <? evalDepth r) end;
        try (exact (BIN _ _ _ _ El Er (OP _) H)); try (exact (BIN _ _ _ _ Er El (OP _) H));
        try (exact (BIN0 _ H)); try discriminate.
      - destruct r as [|[v| | | | |]| | | ]; try discriminate.
        destruct (toE (genB l) n) as [(c0, n1)|] eqn:G; [|discriminate]. injection H as <- <- <-.
        apply live_app; [exact (El _ _ _ G)|apply live_one; exact I].
      - destruct (toE (genB r) n) as [(cr, n1)|] eqn:Gr; [|discriminate].
        destruct (genB l n1) as [((cl, q), n2)|] eqn:Gl; [|discriminate].
        destruct (store q) as [s|] eqn:St; [|discriminate]. injection H as <- <- <-.
        apply live_app; [exact (Er _ _ _ Gr)|]. apply live_app; [exact (Bl _ _ _ _ Gl)|exact (live_store _ _ St)].
      - destruct (genB l n) as [((cl, q), n1)|] eqn:Gl; [|discriminate].
        destruct (genB r n1) as [((cr, q'), n2)|] eqn:Gr; [|discriminate]. injection H as <- <- <-.
        apply live_app; [exact (Bl _ _ _ _ Gl)|]. apply live_app; [apply live_pop|exact (Br _ _ _ _ Gr)].
      - destruct (logBody OR l r (toE (genB l)) (toE (genB r)) (genL l) (genL r) 1 (newLabel 1) (newLabel 0) (n + 1))
          as [(((cc, l2), l1), n1)|]; [|discriminate]. injection H as <- <- <-.
        unfold vmBoolOR. rewrite !app_assoc. apply live_lab.
      - destruct (logBody AND l r (toE (genB l)) (toE (genB r)) (genL l) (genL r) 1 (newLabel 1) (newLabel 0) (n + 1))
          as [(((cc, l2), l1), n1)|]; [|discriminate]. injection H as <- <- <-.
        unfold vmBoolAND. rewrite !app_assoc. apply live_lab. }
    split; [exact B|]. split; [exact L|].
    destruct (op2_eqb o SEMI) eqn:ES.
    + apply op2_eqb_eq in ES. subst o. intros n c k n' H. cbn [genArgs] in H. fold (genArgs genB) in H.
      destruct (toE (genB r) n) as [(c0, n1)|] eqn:G; [|discriminate].
      destruct (genArgs genB l n1) as [((c1, k1), n2)|] eqn:GA; [|discriminate]. injection H as <- <- <-.
      change (c0 ++ IArg :: c1) with (c0 ++ [IArg] ++ c1).
      apply live_app; [exact (Er _ _ _ G)|]. apply live_app; [apply live_one; exact I|exact (Al _ _ _ _ GA)].
    + apply args_single_v; [exact B|]. destruct o; auto. discriminate.
  - assert (B : Bv (genB (EFunc f a))).
    { intros n c p n' H. cbn [VmCode.genB] in H.
      destruct (genArgs genB a n) as [((c0, k), n1)|] eqn:G; [|discriminate].
      assert (A := proj2 (proj2 IH) _ _ _ _ G).
      destruct (is_void N f); injection H as <- <- <-; (apply live_app; [exact A|apply live_one; exact I]). }
    split; [exact B|]. split; [intros until 1; discriminate|]. apply args_single_v; auto.
Qed.
End V.

Lemma expression_heights : forall N e n c n' s a, 0 <= n -> genE N e n = Some (c, n') ->
  exists E, chk E c (Some (s, a)) = Some (Some (S s, a)).
Proof.
  intros N e n c n' s a P G. destruct (genE_t' N e n c n' (s, a) G P) as (E & y & A & B). exists E.
  assert (LV := toE_v _ (proj1 (gen_v N e)) _ _ _ G E _ _ A ltac:(discriminate)).
  destruct B as [->| ->]; [congruence|exact A].
Qed.
Lemma expr_statement_heights : forall N e n c n' h, 0 <= n -> genX N e n = Some (c, n') ->
  exists E, chk E c (Some h) = Some (Some h).
Proof.
  intros N e n c n' h P G. destruct (genX_t N e n c n' h G P) as (E & y & A & B). exists E.
  assert (LC : live c).
  { unfold genX in G. destruct (genB N e n) as [((c0, q), n1)|] eqn:GB; [|discriminate]. injection G as <- <-.
    apply live_app; [exact (proj1 (gen_v N e) _ _ _ _ GB)|apply live_pop]. }
  assert (LV := LC E _ _ A ltac:(discriminate)).
  destruct B as [->| ->]; [congruence|exact A].
Qed.
