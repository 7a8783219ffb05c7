(* Building a tree in the table, src/parser.c with src/sytree.c: one call of syNewNode
   for every node, the parts before the node, in the order of the source text. *)
From Coq Require Import ZArith Bool Lia List.
From Verif Require Import SyTree OpTree SyTable SyTableRep SyTableExp SyTableMove SyTableStm.
Import ListNotations.
Open Scope Z_scope.

Definition obnd {A B} (x : option A) (k : A -> option B) : option B := match x with Some a => k a | None => None end.
Notation "'do' x ':=' a 'in' b" := (obnd a (fun x => b)) (at level 200, x pattern, a at level 100, b at level 200).

(* parser.c:342, 353-356, 383, 398, 420, 436, 459, 470, 484-516, 542-561, 639, 703, 715.
   RVal of a constant is its type; SyNULL is used for it here. *)
Fixpoint buildE (e : expr) (t : tab) : option (Z * tab) :=
  match e with
  | ENull => Some (SyNULL, t)
  | ELeaf k => syNewNode t (tyL k) (valL k) SyNULL
  | E1 o e => do (i, t) := buildE e t in syNewNode t (ty1 o) i SyNULL
  | E2 SEMI l r => do (i, t) := buildE l t in do (j, t) := buildE r t in syCatNode t i j
  | E2 o l r => do (i, t) := buildE l t in do (j, t) := buildE r t in syNewNode t (ty2 o) i j
  | EFunc f a => do (i, t) := buildE a t in syNewNode t SyFUNC f i
  end.
(* parser.c:730-731 (the type and the number of dimensions of the variable are not
   part of the tree, 0 is used for them), 768-770, 784-786, 803, 857-859, 870-893, 935
   (a block is a list whose node gets the type SyBLK, parser.c:929-930) *)
Fixpoint buildS (s : stmt) (t : tab) : option (Z * tab) :=
  match s with
  | SNull => Some (SyNULL, t)
  | SExpr e => buildE e t
  | SVar v => do (d, t) := syNewNode t SySEMI 0 0 in syNewNode t SyVAR v d
  | SIf c b => do (i, t) := buildE c t in do (j, t) := buildS b t in syNewNode t SyIF i j
  | SEls c b1 b2 =>
      do (i, t) := buildE c t in do (j, t) := buildS b1 t in do (k, t) := syNewNode t SyIF i j in
      do (j, t) := buildS b2 t in syNewNode t SyELS k j
  | SWhl c b re =>
      do (i, t) := buildE c t in do (k, t) := buildE re t in do (j, t) := buildS b t in
      do (s, t) := syNewNode t SySEMI j k in syNewNode t SyWHL i s
  | SDo b c => do (j, t) := buildS b t in do (i, t) := buildE c t in syNewNode t SyDO j i
  | SBrk => syNewNode t SyBRK SyNULL SyNULL
  | SCnt => syNewNode t SyCNT SyNULL SyNULL
  | SRet e => do (i, t) := buildE e t in syNewNode t SyRET i SyNULL
  | SSemi l r => do (i, t) := buildS l t in do (j, t) := buildS r t in syCatNode t i j
  | SBlk l r => do (i, t) := buildS l t in do (j, t) := buildS r t in syNewNode t SyBLK i j
  end.

(* ---- the number of nodes ---- *)
Fixpoint nodesE (e : expr) : Z :=
  match e with
  | ENull => 0 | ELeaf _ => 1 | E1 _ e => nodesE e + 1 | E2 _ l r => nodesE l + nodesE r + 1 | EFunc _ a => nodesE a + 1
  end.
Fixpoint nodesS (s : stmt) : Z :=
  match s with
  | SNull => 0 | SExpr e => nodesE e | SVar _ => 2 | SIf c b => nodesE c + nodesS b + 1
  | SEls c a b => nodesE c + nodesS a + nodesS b + 2 | SWhl c b e => nodesE c + nodesE e + nodesS b + 2
  | SDo b c => nodesS b + nodesE c + 1 | SBrk | SCnt => 1 | SRet e => nodesE e + 1
  | SSemi l r | SBlk l r => nodesS l + nodesS r + 1
  end.

(* ---- trees without holes: SyNULL only where the language leaves something out ---- *)
Definition present (e : expr) : bool := match e with ENull => false | _ => true end.
Fixpoint wholeE (e : expr) : bool :=
  match e with
  | ENull => true | ELeaf _ => true
  | E1 _ e => present e && wholeE e
  | E2 _ l r => present l && wholeE l && present r && wholeE r
  | EFunc _ a => wholeE a
  end.
Definition presentS (s : stmt) : bool := match s with SNull => false | _ => true end.
Fixpoint wholeS (s : stmt) : bool :=
  match s with
  | SNull | SVar _ | SBrk | SCnt => true
  | SExpr e => present e && wholeE e && noSemi e
  | SIf c b => present c && wholeE c && wholeS b
  | SEls c a b => present c && wholeE c && wholeS a && wholeS b
  | SWhl c b e => wholeE c && wholeS b && wholeE e
  | SDo b c => wholeS b && present c && wholeE c
  | SRet e => wholeE e
  | SSemi l r => presentS l && wholeS l && presentS r && wholeS r
  | SBlk l r => wholeS l && wholeS r
  end.

Lemma nodesE_pos : forall e, 0 <= nodesE e.
Proof. induction e; cbn [nodesE]; lia. Qed.
Lemma nodesS_pos : forall s, 0 <= nodesS s.
Proof. induction s; cbn [nodesS]; repeat match goal with |- context [nodesE ?e] => pose proof (nodesE_pos e); generalize dependent (nodesE e); intros end; lia. Qed.
Lemma present_pos : forall e, present e = true -> 0 < nodesE e.
Proof. intros e H. destruct e; try discriminate; cbn [nodesE]; repeat match goal with |- context [nodesE ?e] => pose proof (nodesE_pos e); generalize dependent (nodesE e); intros end; lia. Qed.

Definition seg (a b : Z) : Z -> Prop := fun x => a <= x < b.
Definition keeps (t t' : tab) : Prop := forall x, x < next t -> slots t' x = slots t x.

Lemma new_ok : forall t ty l r, 0 <= next t -> next t < SyMAX ->
  exists t', syNewNode t ty l r = Some (next t, t') /\ next t' = next t + 1 /\ slots t' (next t) = N ty l r /\ keeps t t' /\ inTab (next t) = true.
Proof.
  intros t ty l r A B. unfold syNewNode. rewrite (proj2 (Z.leb_gt SyMAX (next t))) by exact B.
  eexists. split; [reflexivity|]. cbn [next slots]. split; [reflexivity|]. split; [apply put_same|]. split.
  - intros x Hx. cbn [slots]. apply put_other. lia.
  - unfold inTab. apply andb_true_intro. split; [apply Z.leb_le; exact A|apply Z.ltb_lt; exact B].
Qed.
Lemma new_full : forall t ty l r, SyMAX <= next t -> syNewNode t ty l r = None.
Proof. intros. unfold syNewNode. rewrite (proj2 (Z.leb_le _ _)) by assumption. reflexivity. Qed.

Lemma keeps_trans : forall t t' t'', keeps t t' -> keeps t' t'' -> next t <= next t' -> keeps t t''.
Proof. intros t t' t'' A B C x Hx. rewrite B by lia. apply A. exact Hx. Qed.

(* what building promises *)
Definition builtE (e : expr) (t : tab) (r : option (Z * tab)) : Prop :=
  match r with
  | Some (i, t') => next t + nodesE e <= SyMAX /\ next t' = next t + nodesE e /\ keeps t t' /\
      (if present e then RE (slots t') i e (seg (next t) (next t')) /\ i = next t' - 1 else i = SyNULL)
  | None => SyMAX < next t + nodesE e
  end.

Lemma seg_frame : forall t t' (a : Z), keeps t t' -> forall x, seg a (next t) x -> slots t' x = slots t x.
Proof. intros t t' a K x [A B]. apply K. exact B. Qed.

Lemma nt_null : forall t, 0 <= next t -> next t <= SyMAX -> next t - 1 <> SyNULL.
Proof. intros t A B. unfold SyMAX, SyNULL in *. lia. Qed.

Lemma buildE_ok : forall e t, wholeE e = true -> 0 <= next t -> next t <= SyMAX -> builtE e t (buildE e t).
Proof.
  induction e as [|k|o e IH|o l IHl r IHr|f a IHa]; intros t W A Bd; cbn [wholeE] in W.
  - cbn. split; [lia|]. split; [lia|]. split; [intros x _; reflexivity|reflexivity].
  - cbn [buildE]. destruct (Z_lt_le_dec (next t) SyMAX) as [L|L].
    + destruct (new_ok t (tyL k) (valL k) SyNULL A L) as [t' [E [En [Es [K I]]]]]. rewrite E. cbn [builtE nodesE present].
      split; [lia|]. split; [exact En|]. split; [exact K|]. split; [|lia].
      apply RLeaf; [exact I|unfold seg; lia|rewrite Es; reflexivity|rewrite Es; reflexivity].
    + rewrite new_full by exact L. cbn [builtE nodesE]. lia.
  - apply andb_prop in W. destruct W as [W1 W2]. specialize (IH t W2 A Bd). cbn [buildE].
    destruct (buildE e t) as [[i t1]|]; cbn [obnd].
    2:{ cbn [builtE nodesE] in *. lia. }
    cbn [builtE] in IH. rewrite W1 in IH. destruct IH as [L1 [N1 [K1 [R1 I1]]]]. pose proof (present_pos _ W1) as Po.
    destruct (Z_lt_le_dec (next t1) SyMAX) as [L|L].
    + destruct (new_ok t1 (ty1 o) i SyNULL ltac:(lia) L) as [t2 [E [En [Es [K I]]]]]. rewrite E. cbn [builtE nodesE present].
      split; [lia|]. split; [lia|]. split; [exact (keeps_trans _ _ _ K1 K ltac:(lia))|]. split; [|lia].
      apply SyTableRep.R1 with (seg (next t) (next t1)); [exact I|rewrite Es; reflexivity| |].
      * unfold below, seg. repeat split; lia.
      * rewrite Es. cbn [nl]. apply RE_frame with (slots t1); [exact R1|]. exact (seg_frame _ _ _ K).
    + rewrite new_full by exact L. cbn [builtE nodesE]. lia.
  - apply andb_prop in W. destruct W as [W Wr]. apply andb_prop in W. destruct W as [W Pr]. apply andb_prop in W. destruct W as [Pl Wl].
    pose proof (present_pos _ Pl) as Npl. pose proof (present_pos _ Pr) as Npr.
    assert (G : forall mk : tab -> Z -> Z -> option (Z * tab),
       (forall t i j, i <> SyNULL -> j <> SyNULL -> mk t i j = syNewNode t (ty2 o) i j) ->
       builtE (E2 o l r) t (do (i, t) := buildE l t in do (j, t) := buildE r t in mk t i j)).
    { intros mk Hmk. specialize (IHl t Wl A Bd). destruct (buildE l t) as [[i t1]|]; cbn [obnd].
      2:{ cbn [builtE nodesE] in *. pose proof (nodesE_pos r). lia. }
      cbn [builtE] in IHl. rewrite Pl in IHl. destruct IHl as [L1 [N1 [K1 [R1 I1]]]].
      specialize (IHr t1 Wr ltac:(lia) ltac:(lia)). destruct (buildE r t1) as [[j t2]|]; cbn [obnd].
      2:{ cbn [builtE nodesE] in *. lia. }
      cbn [builtE] in IHr. rewrite Pr in IHr. destruct IHr as [L2 [N2 [K2 [R2 I2]]]].
      rewrite Hmk. 2:{ rewrite I1. apply nt_null; lia. } 2:{ rewrite I2. apply nt_null; lia. }
      destruct (Z_lt_le_dec (next t2) SyMAX) as [L|L].
      + destruct (new_ok t2 (ty2 o) i j ltac:(lia) L) as [t3 [E [En [Es [K I]]]]]. rewrite E. cbn [builtE nodesE present].
        split; [lia|]. split; [lia|]. split; [exact (keeps_trans _ _ _ (keeps_trans _ _ _ K1 K2 ltac:(lia)) K ltac:(lia))|]. split; [|lia].
        apply SyTableRep.R2 with (seg (next t) (next t1)) (seg (next t1) (next t2)); [exact I|rewrite Es; reflexivity| | | | |].
        * unfold below, seg. repeat split; lia.
        * unfold below, seg. repeat split; lia.
        * unfold apart, seg. intros. lia.
        * rewrite Es. cbn [nl]. apply RE_frame with (slots t1); [exact R1|].
          exact (seg_frame _ _ _ (keeps_trans _ _ _ K2 K ltac:(lia))).
        * rewrite Es. cbn [nr]. apply RE_frame with (slots t2); [exact R2|]. exact (seg_frame _ _ _ K).
      + rewrite new_full by exact L. cbn [builtE nodesE]. lia. }
    assert (B : buildE (E2 o l r) t = do (i, t) := buildE l t in do (j, t) := buildE r t in (if op2_eqb o SEMI then syCatNode t i j else syNewNode t (ty2 o) i j))
      by (destruct o; reflexivity).
    rewrite B. apply (G (fun t i j => if op2_eqb o SEMI then syCatNode t i j else syNewNode t (ty2 o) i j)).
    intros t0 i j Hi Hj. destruct (op2_eqb o SEMI) eqn:Eo; [|reflexivity].
    apply op2_eqb_eq in Eo. subst o. unfold syCatNode. rewrite (proj2 (Z.eqb_neq i SyNULL)), (proj2 (Z.eqb_neq j SyNULL)) by assumption. reflexivity.
  - specialize (IHa t W A Bd). cbn [buildE]. destruct (buildE a t) as [[i t1]|]; cbn [obnd].
    2:{ cbn [builtE nodesE] in *. lia. }
    cbn [builtE] in IHa. destruct IHa as [L1 [N1 [K1 R1]]]. pose proof (nodesE_pos a) as Po.
    destruct (Z_lt_le_dec (next t1) SyMAX) as [L|L].
    + destruct (new_ok t1 SyFUNC f i ltac:(lia) L) as [t2 [E [En [Es [K I]]]]]. rewrite E. cbn [builtE nodesE present].
      split; [lia|]. split; [lia|]. split; [exact (keeps_trans _ _ _ K1 K ltac:(lia))|]. split; [|lia].
      destruct (present a) eqn:Pa.
      * destruct R1 as [R1 I1]. apply RF with (seg (next t) (next t1)); [exact I|rewrite Es; reflexivity|rewrite Es; reflexivity| |].
        -- unfold below, seg. repeat split; lia.
        -- rewrite Es. cbn [nr]. apply RE_frame with (slots t1); [exact R1|]. exact (seg_frame _ _ _ K).
      * destruct a; try discriminate. apply RF0; [exact I|unfold seg; lia|rewrite Es; reflexivity|rewrite Es; reflexivity|rewrite Es; exact R1].
    + rewrite new_full by exact L. cbn [builtE nodesE]. lia.
Qed.

(* a part that may be missing *)
Lemma built_opt : forall e t i t', wholeE e = true -> 0 <= next t -> next t <= SyMAX -> buildE e t = Some (i, t') ->
  next t' = next t + nodesE e /\ keeps t t' /\ next t' <= SyMAX /\ ROpt (slots t') i e (seg (next t) (next t')).
Proof.
  intros e t i t' W A B E. pose proof (buildE_ok e t W A B) as H. rewrite E in H. cbn [builtE] in H. destruct H as [H1 [H2 [H3 H4]]].
  split; [exact H2|]. split; [exact H3|]. split; [lia|]. destruct (present e) eqn:P.
  - right. exact (proj1 H4).
  - left. destruct e; try discriminate. auto.
Qed.
Lemma built_none : forall e t, wholeE e = true -> 0 <= next t -> next t <= SyMAX -> buildE e t = None -> SyMAX < next t + nodesE e.
Proof. intros e t W A B E. pose proof (buildE_ok e t W A B) as H. rewrite E in H. exact H. Qed.
Lemma ROpt_present : forall m i e P, ROpt m i e P -> present e = true -> RE m i e P.
Proof. intros m i e P [[_ ->]|H] K; [discriminate|exact H]. Qed.

Definition builtS (s : stmt) (t : tab) (r : option (Z * tab)) : Prop :=
  match r with
  | Some (i, t') => next t + nodesS s <= SyMAX /\ next t' = next t + nodesS s /\ keeps t t' /\ RS (slots t') i s (seg (next t) (next t')) /\
      (presentS s = true -> i = next t' - 1 /\ next t < next t')
  | None => SyMAX < next t + nodesS s
  end.

Lemma RS_seg : forall t t' i s a, RS (slots t) i s (seg a (next t)) -> keeps t t' -> RS (slots t') i s (seg a (next t)).
Proof. intros t t' i s a H K. apply RS_frame with (slots t); [exact H|]. exact (seg_frame _ _ _ K). Qed.
Lemma RE_seg : forall t t' i s a, RE (slots t) i s (seg a (next t)) -> keeps t t' -> RE (slots t') i s (seg a (next t)).
Proof. intros t t' i s a H K. apply RE_frame with (slots t); [exact H|]. exact (seg_frame _ _ _ K). Qed.
Lemma ROpt_seg : forall t t' i s a, ROpt (slots t) i s (seg a (next t)) -> keeps t t' -> ROpt (slots t') i s (seg a (next t)).
Proof. intros t t' i s a H K. apply ROpt_frame with (slots t); [exact H|]. exact (seg_frame _ _ _ K). Qed.

Ltac pos := repeat match goal with
  | |- context [nodesE ?e] => lazymatch goal with H : 0 <= nodesE e |- _ => fail | _ => pose proof (nodesE_pos e) end
  | |- context [nodesS ?e] => lazymatch goal with H : 0 <= nodesS e |- _ => fail | _ => pose proof (nodesS_pos e) end
  | H0 : context [nodesE ?e] |- _ => lazymatch goal with H : 0 <= nodesE e |- _ => fail | _ => pose proof (nodesE_pos e) end
  | H0 : context [nodesS ?e] |- _ => lazymatch goal with H : 0 <= nodesS e |- _ => fail | _ => pose proof (nodesS_pos e) end
  end.
Ltac bool := repeat match goal with H : _ && _ = true |- _ => apply andb_prop in H; destruct H end.
Ltac segs := unfold below, apart, seg; repeat split; intros; lia.
Ltac fin := cbn [builtS nodesS] in *; pos; lia.
Ltac bE E := let i := fresh "i" in let t' := fresh "t" in let N := fresh "N" in let K := fresh "K" in let L := fresh "L" in let R := fresh "R" in
  match goal with
  | |- context [buildE ?e ?t] => destruct (buildE e t) as [[i t']|] eqn:E; cbn [obnd];
      [destruct (built_opt e t i t' ltac:(assumption) ltac:(pos; lia) ltac:(pos; lia) E) as [N [K [L R]]]
      |pose proof (built_none e t ltac:(assumption) ltac:(pos; lia) ltac:(pos; lia) E); fin]
  end.
Ltac bS IH := let i := fresh "j" in let t' := fresh "t" in let N := fresh "N" in let K := fresh "K" in let L := fresh "L" in let R := fresh "R" in let I := fresh "I" in
  match goal with
  | |- context [buildS ?e ?t] => specialize (IH t ltac:(assumption) ltac:(pos; lia) ltac:(pos; lia));
     destruct (buildS e t) as [[i t']|]; cbn [obnd];
      [cbn [builtS] in IH; destruct IH as [L [N [K [R I]]]]|fin]
  end.
Ltac bN E Es := let t' := fresh "t" in let N := fresh "N" in let K := fresh "K" in let I := fresh "T" in
  match goal with
  | |- context [syNewNode ?t ?a ?b ?c] => destruct (Z_lt_le_dec (next t) SyMAX) as [E|E];
     [destruct (new_ok t a b c ltac:(pos; lia) E) as [t' [Es [N [Es' [K I]]]]]; rewrite Es; clear Es; rename Es' into Es; cbn [obnd]
     |rewrite new_full by exact E; cbn [obnd]; fin]
  end.

Lemma buildS_ok : forall s t, wholeS s = true -> 0 <= next t -> next t <= SyMAX -> builtS s t (buildS s t).
Proof.
  induction s as [|e|v|c b IH|c b1 IH1 b2 IH2|c b IH e|b IH c| | |e|l IHl r IHr|l IHl r IHr]; intros t W A Bd; cbn [wholeS] in W; bool; cbn [buildS].
  - cbn. split; [lia|]. split; [lia|]. split; [intros x _; reflexivity|]. split; [constructor|discriminate].
  - pose proof (buildE_ok e t ltac:(assumption) A Bd) as H9. destruct (buildE e t) as [[i t1]|]; cbn [builtS builtE nodesS presentS] in *; [|exact H9].
    destruct H9 as [Q1 [Q2 [Q3 Q4]]]. match goal with P : present e = true |- _ => rewrite P in Q4; pose proof (present_pos _ P) end.
    destruct Q4 as [Q4 Q5].
    split; [exact Q1|]. split; [exact Q2|]. split; [exact Q3|]. split; [constructor; assumption|]. intros _. split; [exact Q5|lia].
  - bN EQ1 Es1. bN EQ2 Es2. cbn [builtS nodesS presentS]. split; [lia|]. split; [lia|]. split; [exact (keeps_trans _ _ _ K K0 ltac:(lia))|].
    split; [|intros _; lia]. apply RSVar; [assumption|unfold seg; lia|rewrite Es2; reflexivity|rewrite Es2; reflexivity].
  - bE EQ1. bS IH. bN EQ2 Es. cbn [builtS nodesS presentS]. pos. split; [lia|]. split; [lia|].
    split; [exact (keeps_trans _ _ _ (keeps_trans _ _ _ K K0 ltac:(lia)) K1 ltac:(lia))|]. split; [|intros _; lia].
    apply RSIf with (seg (next t) (next t0)) (seg (next t0) (next t1)); [assumption|rewrite Es; reflexivity|segs|segs|segs| |].
    + rewrite Es. cbn [nl]. apply RE_seg; [apply ROpt_present; assumption|exact (keeps_trans _ _ _ K0 K1 ltac:(lia))].
    + rewrite Es. cbn [nr]. apply RS_seg; assumption.
  - bE EQ1. bS IH1. bN EQ2 Es. bS IH2. bN EQ3 Es2. cbn [builtS nodesS presentS]. pos. split; [lia|]. split; [lia|].
    split; [exact (keeps_trans _ _ _ (keeps_trans _ _ _ (keeps_trans _ _ _ (keeps_trans _ _ _ K K0 ltac:(lia)) K1 ltac:(lia)) K2 ltac:(lia)) K3 ltac:(lia))|].
    split; [|intros _; lia].
    assert (Ek : slots t4 (next t1) = SyTable.N SyIF i j). { rewrite K3, K2 by lia. exact Es. }
    apply RSEls with (next t1) (seg (next t) (next t0)) (seg (next t0) (next t1)) (seg (next t2) (next t3));
      [assumption|assumption|lia|rewrite Es2; reflexivity|rewrite Es2; reflexivity|rewrite Ek; reflexivity|segs|segs|segs|segs|segs|segs|segs|segs|segs| | |].
    + rewrite Ek. cbn [nl]. apply RE_seg; [apply ROpt_present; assumption|].
      exact (keeps_trans _ _ _ (keeps_trans _ _ _ (keeps_trans _ _ _ K0 K1 ltac:(lia)) K2 ltac:(lia)) K3 ltac:(lia)).
    + rewrite Ek. cbn [nr]. apply RS_seg; [assumption|]. exact (keeps_trans _ _ _ (keeps_trans _ _ _ K1 K2 ltac:(lia)) K3 ltac:(lia)).
    + rewrite Es2. cbn [nr]. apply RS_seg; assumption.
  - bE EQ1. bE EQ2. bS IH. bN EQ3 Es. bN EQ4 Es2. cbn [builtS nodesS presentS]. pos. split; [lia|]. split; [lia|].
    split; [exact (keeps_trans _ _ _ (keeps_trans _ _ _ (keeps_trans _ _ _ (keeps_trans _ _ _ K K0 ltac:(lia)) K1 ltac:(lia)) K2 ltac:(lia)) K3 ltac:(lia))|].
    split; [|intros _; lia].
    assert (Ek : slots t4 (next t2) = SyTable.N SySEMI j i0). { rewrite K3 by lia. exact Es. }
    apply RSWhl with (next t2) (seg (next t) (next t0)) (seg (next t1) (next t2)) (seg (next t0) (next t1));
      [assumption|assumption|lia|rewrite Es2; reflexivity|rewrite Es2; reflexivity|rewrite Ek; reflexivity|segs|segs|segs|segs|segs|segs|segs|segs|segs| | |].
    + rewrite Es2. cbn [nl]. apply ROpt_seg; [assumption|].
      exact (keeps_trans _ _ _ (keeps_trans _ _ _ (keeps_trans _ _ _ K0 K1 ltac:(lia)) K2 ltac:(lia)) K3 ltac:(lia)).
    + rewrite Ek. cbn [nl]. apply RS_seg; [assumption|]. exact (keeps_trans _ _ _ K2 K3 ltac:(lia)).
    + rewrite Ek. cbn [nr]. apply ROpt_seg; [assumption|]. exact (keeps_trans _ _ _ (keeps_trans _ _ _ K1 K2 ltac:(lia)) K3 ltac:(lia)).
  - bS IH. bE EQ1. bN EQ2 Es. cbn [builtS nodesS presentS]. pos. split; [lia|]. split; [lia|].
    split; [exact (keeps_trans _ _ _ (keeps_trans _ _ _ K K0 ltac:(lia)) K1 ltac:(lia))|]. split; [|intros _; lia].
    apply RSDo with (seg (next t) (next t0)) (seg (next t0) (next t1)); [assumption|rewrite Es; reflexivity|segs|segs|segs| |].
    + rewrite Es. cbn [nl]. apply RS_seg; [assumption|exact (keeps_trans _ _ _ K0 K1 ltac:(lia))].
    + rewrite Es. cbn [nr]. apply RE_seg; [apply ROpt_present; assumption|assumption].
  - bN EQ1 Es1. cbn [builtS nodesS presentS]. split; [lia|]. split; [lia|]. split; [assumption|]. split; [|intros _; lia].
    apply RSBrk; [assumption|unfold seg; lia|rewrite Es1; reflexivity].
  - bN EQ1 Es1. cbn [builtS nodesS presentS]. split; [lia|]. split; [lia|]. split; [assumption|]. split; [|intros _; lia].
    apply RSCnt; [assumption|unfold seg; lia|rewrite Es1; reflexivity].
  - bE EQ1. bN EQ2 Es. cbn [builtS nodesS presentS]. pos. split; [lia|]. split; [lia|].
    split; [exact (keeps_trans _ _ _ K K0 ltac:(lia))|]. split; [|intros _; lia].
    apply RSRet with (seg (next t) (next t0)); [assumption|rewrite Es; reflexivity|segs|].
    rewrite Es. cbn [nl]. apply ROpt_seg; assumption.
  - bS IHl. bS IHr. destruct (I ltac:(assumption)) as [J1 J1']. destruct (I0 ltac:(assumption)) as [J2 J2'].
    unfold syCatNode. rewrite (proj2 (Z.eqb_neq j SyNULL)) by (rewrite J1; apply nt_null; pos; lia).
    rewrite (proj2 (Z.eqb_neq j0 SyNULL)) by (rewrite J2; apply nt_null; pos; lia). cbn [negb andb].
    bN EQ2 Es. cbn [builtS nodesS presentS]. pos. split; [lia|]. split; [lia|].
    split; [exact (keeps_trans _ _ _ (keeps_trans _ _ _ K K0 ltac:(lia)) K1 ltac:(lia))|]. split; [|intros _; lia].
    apply RSSemi with (seg (next t) (next t0)) (seg (next t0) (next t1)); [assumption|rewrite Es; reflexivity|segs|segs|segs| |].
    + rewrite Es. cbn [nl]. apply RS_seg; [assumption|exact (keeps_trans _ _ _ K0 K1 ltac:(lia))].
    + rewrite Es. cbn [nr]. apply RS_seg; assumption.
  - bS IHl. bS IHr. bN EQ2 Es. cbn [builtS nodesS presentS]. pos. split; [lia|]. split; [lia|].
    split; [exact (keeps_trans _ _ _ (keeps_trans _ _ _ K K0 ltac:(lia)) K1 ltac:(lia))|]. split; [|intros _; lia].
    apply RSBlk with (seg (next t) (next t0)) (seg (next t0) (next t1)); [assumption|rewrite Es; reflexivity|segs|segs|segs| |].
    + rewrite Es. cbn [nl]. apply RS_seg; [assumption|exact (keeps_trans _ _ _ K0 K1 ltac:(lia))].
    + rewrite Es. cbn [nr]. apply RS_seg; assumption.
Qed.
