(* Every derivable and well typed expression is accepted, with the tree the rules give. *)
From Coq Require Import ZArith Bool Lia List.
From Verif Require Import Lexer NameTable SyTree Parser ParseSpec ParseSound.
Import ListNotations.
Open Scope Z_scope.

(* tokens that continue an expression of level k *)
Definition continues (k : nat) (c : Z) : Prop :=
  c = cLB \/ c = cDOT \/ (exists j o, (k <= j)%nat /\ In (c, o) (levelOps j)) \/
  (k <= 1)%nat /\ c = cEQ \/ k = O /\ c = cCOMMA.
(* the rest of the text begins with a sign that does not continue the expression *)
Definition stops (k : nat) (rest : list stok) : Prop :=
  exists c r, rest = TSym c :: r /\ sign c = true /\ ~ continues k c.

Lemma stops_le k k' rest : (k <= k')%nat -> stops k rest -> stops k' rest.
Proof.
  intros L (c & r & E & S & N). exists c, r. split; [exact E|]. split; [exact S|]. intros H. apply N.
  destruct H as [H|[H|[(j & o & J & I)|[[K H]|[K H]]]]]; unfold continues; auto.
  - right; right; left. exists j, o. split; [lia|exact I].
  - right; right; right; left. split; [lia|exact H].
  - right; right; right; right. split; [lia|exact H].
Qed.
Lemma stops_sym k c r : sign c = true -> ~ continues k c -> stops k (TSym c :: r).
Proof. intros. exists c, r. auto. Qed.

Lemma valued_own i : forall c, own i = TSym c -> tokOf i = c /\ valued (tokOf i) = false.
Proof.
  destruct i as [[[t v] st] ln]. unfold own, tokOf, valued. intros c.
  destruct (t =? LxNAME); [discriminate|]. destruct (t =? LxINTEGER); [discriminate|].
  destruct (t =? LxCHARACTER); [discriminate|]. destruct (t =? LxLOGICAL); [discriminate|].
  destruct (t =? LxSTRING); [discriminate|]. intros H. injection H as ->. split; reflexivity.
Qed.
(* the head of the view is the current token *)
Lemma view_head s x r : good s -> view (its s) = x :: r -> exists i, own i = x /\ tok s = tokOf i /\ exists l, its s = i :: l /\ view l = r.
Proof.
  intros [C _] V. destruct (its s) as [|i l] eqn:E; [discriminate V|]. cbn [clean] in C. cbn [view] in V.
  destruct (Z.eqb_spec (tokOf i) LxFILE); [contradiction|]. injection V as <- V.
  exists i. split; [reflexivity|]. split; [unfold tok; rewrite E; reflexivity|]. exists l. auto.
Qed.
Lemma head_sym s c r : good s -> view (its s) = TSym c :: r -> tok s = c.
Proof. intros G V. destruct (view_head _ _ _ G V) as (i & O & T & _). rewrite T. apply valued_own. exact O. Qed.
Lemma next_sym s c r : good s -> view (its s) = TSym c :: r -> c <> EOFtok ->
  good (getTok s) /\ view (its (getTok s)) = r /\ (List.length (its (getTok s)) < List.length (its s))%nat.
Proof.
  intros G V N. split; [apply good_getTok; exact G|].
  destruct (view_head _ _ _ G V) as (i & O & T & l & E & VL). apply valued_own in O. destruct O as [O _].
  unfold getTok. rewrite E. rewrite O. destruct (Z.eqb_spec c EOFtok); [contradiction|]. cbn [its].
  rewrite skipFile_view. split; [exact VL|]. pose proof (skipFile_len l). cbn [List.length]. lia.
Qed.
Lemma own_val i x : own i = x ->
  match x with
  | TName n => tokOf i = LxNAME /\ strOf i = n
  | TInt v => tokOf i = LxINTEGER /\ valOf i = v
  | TChr v => tokOf i = LxCHARACTER /\ valOf i = v
  | TLog v => tokOf i = LxLOGICAL /\ valOf i = v
  | TStr v => tokOf i = LxSTRING /\ strOf i = v
  | TSym c => tokOf i = c
  end.
Proof.
  destruct i as [[[t v] st] ln]. unfold own, tokOf, strOf, valOf.
  destruct (Z.eqb_spec t LxNAME); [intros <-; auto|]. destruct (Z.eqb_spec t LxINTEGER); [intros <-; auto|].
  destruct (Z.eqb_spec t LxCHARACTER); [intros <-; auto|]. destruct (Z.eqb_spec t LxLOGICAL); [intros <-; auto|].
  destruct (Z.eqb_spec t LxSTRING); [intros <-; auto|]. intros <-. reflexivity.
Qed.
(* a token with a value, followed by a sign *)
Lemma next_val s x c r : good s -> view (its s) = x :: TSym c :: r -> sign c = true ->
  (forall k, x <> TSym k) ->
  exists i, own i = x /\ tok s = tokOf i /\ good (getTok s) /\ view (its (getTok s)) = TSym c :: r /\
  lxGetStr (getTok s) = strOf i /\ lxGetVal (getTok s) = valOf i /\
  (List.length (its (getTok s)) < List.length (its s))%nat.
Proof.
  intros G V SG NS. destruct (view_head _ _ _ G V) as (i & O & T & l & E & VL).
  assert (valued (tokOf i) = true) as VA.
  { destruct (valued (tokOf i)) eqn:X; [reflexivity|]. exfalso. apply (NS (tokOf i)). rewrite <- O. apply own_sym. exact X. }
  assert (tok (getTok s) = c) as TC.
  { apply (head_sym _ c r); [apply good_getTok; exact G|]. unfold getTok. rewrite E.
    destruct (Z.eqb_spec (tokOf i) EOFtok) as [X|X]; [rewrite X in VA; discriminate VA|]. cbn [its]. rewrite skipFile_view. exact VL. }
  assert (sign (tok (getTok s)) = true) as SG' by (rewrite TC; exact SG).
  destruct (view_val s (tokOf i) G T VA SG') as (j & J & VJ & SJ & LJ).
  rewrite V in VJ. injection VJ as VJ1 VJ2. exists i. split; [exact O|]. split; [exact T|]. split; [apply good_getTok; exact G|].
  split; [symmetry; exact VJ2|].
  assert (i = j \/ (strOf i = strOf j /\ valOf i = valOf j)) as IJ.
  { right. clear - E SG' VA SJ LJ G T. revert SJ LJ SG'. unfold getTok, lxGetStr, lxGetVal, tok. rewrite E.
    destruct (Z.eqb_spec (tokOf i) EOFtok) as [X|X]; [rewrite X in VA; discriminate VA|]. cbn [its].
    destruct G as [_ S]. rewrite E in S. cbn [steady] in S. destruct S as [S _]. destruct l as [|k l].
    - rewrite VA in S. discriminate S.
    - destruct (S VA) as [S1 S2]. assert (skipFile (k :: l) = k :: l) as -> by (apply skipFile_id; exact S1).
      destruct k as [[[t v] st] ln]. cbn [tokOf] in *. intros -> -> SG. destruct (S2 SG) as [A B]. cbn in A, B. rewrite A, B. auto. }
  assert ((List.length (its (getTok s)) < List.length (its s))%nat) as LE.
  { unfold getTok. rewrite E. destruct (Z.eqb_spec (tokOf i) EOFtok) as [X|X]; [rewrite X in VA; discriminate VA|].
    cbn [its List.length]. pose proof (skipFile_len l). lia. }
  destruct IJ as [->|[A B]]; [|rewrite A, B]; rewrite SJ, LJ; auto.
Qed.

Lemma chkTok_yes k s : tok s = k -> chkTok k s = POk (getTok s).
Proof. unfold chkTok. intros ->. rewrite Z.eqb_refl. reflexivity. Qed.
Lemma isTok_yes k s : tok s = k -> isTok k s = Some (getTok s).
Proof. unfold isTok. intros ->. rewrite Z.eqb_refl. reflexivity. Qed.
Lemma isTok_no k s : tok s <> k -> isTok k s = None.
Proof. unfold isTok. intros H. destruct (Z.eqb_spec (tok s) k); [contradiction|reflexivity]. Qed.

(* type checks accept what the rules allow *)
Lemma chkType_int_ok w : intLike (wt w) (wd w) ->
  exists w', chkType w TyINT = POk w' /\ wt w' = TyINT /\ wd w' = 0 /\ tr w' = tr w.
Proof.
  intros [T D]. unfold chkType, autoCast. rewrite D. cbn [Z.ltb Z.compare Z.eqb negb orb].
  destruct T as [T|T]; rewrite T; cbn.
  - exists w. rewrite T. cbn. auto.
  - eexists. split; [reflexivity|]. cbn. auto.
Qed.
Lemma chkType_bool_ok w : wt w = TyBOOL -> wd w = 0 -> chkType w TyBOOL = POk w.
Proof. intros T D. unfold chkType, autoCast. rewrite D, T. cbn. rewrite T. reflexivity. Qed.
Lemma chkCmpat_yes w t d : fits (wt w) (wd w) t d -> exists w', chkCmpat w t d = POk w' /\ tr w' = tr w.
Proof.
  intros F. unfold chkCmpat. set (u := autoCast w t d).
  assert (tr u = tr w) as TR.
  { unfold u, autoCast. destruct (negb (wd w =? 0) || negb (d =? 0)); [reflexivity|].
    destruct ((wt w =? TyCHAR) && (t =? TyINT)); reflexivity. }
  exists u. split; [|exact TR].
  assert ((wt u = t /\ wd u = d) \/
    (wt u = TyVOID /\ 0 < wd u /\ 0 < d) \/ (t = TyVOID /\ 0 < d /\ 0 < wd u) \/
    (wt u = TyVOID /\ wd u = 1 /\ t <= 0) \/ (t = TyVOID /\ d = 1 /\ wt u <= 0)) as F'.
  { unfold u, autoCast. destruct F as [F|[(A & B & C & D)|F]].
    - destruct F as [<- <-]. destruct (negb (wd w =? 0) || negb (wd w =? 0)); [auto|].
      destruct (Z.eqb_spec (wt w) TyCHAR), (Z.eqb_spec (wt w) TyINT); cbn [andb]; auto.
    - rewrite A, B, C, D. cbn. auto.
    - destruct (Z.eqb_spec (wd w) 0), (Z.eqb_spec d 0); cbn [negb orb]; auto.
      destruct (Z.eqb_spec (wt w) TyCHAR) as [X|X]; cbn [andb]; [|auto].
      destruct (Z.eqb_spec t TyINT) as [Y|Y]; cbn [wt wd tr]; [|auto]. exfalso; unfold TyVOID, TyCHAR, TyINT in *; lia. }
  clear F. destruct (_ && _) eqn:E; [exfalso|reflexivity].
  destruct (Z.eqb_spec (wt u) TyVOID), (Z.ltb_spec 0 (wd u)), (Z.ltb_spec 0 d), (Z.eqb_spec t TyVOID),
      (Z.eqb_spec (wd u) 1), (Z.leb_spec t 0), (Z.eqb_spec d 1), (Z.leb_spec (wt u) 0),
      (Z.eqb_spec (wt u) t), (Z.eqb_spec (wd u) d); cbn in E; try discriminate E; lia.
Qed.

Lemma opOf_ops k t o : In (t, o) (levelOps k) -> opOf (levelOps k) t = Some o.
Proof.
  intros H. do 12 (destruct k as [|k]; [cbn in H; repeat (destruct H as [H|H]; [injection H as <- <-; reflexivity|]); contradiction|]).
  destruct k; contradiction H.
Qed.
Lemma opOf_none k c : ~ continues k c -> opOf (levelOps k) c = None.
Proof.
  intros N. destruct (opOf (levelOps k) c) as [o|] eqn:E; [|reflexivity]. exfalso. apply N. apply opOf_In in E.
  right; right; left. exists k, o. auto.
Qed.
(* an operator of level k does not continue an operand of a tighter level *)
Lemma op_stops k t o : In (t, o) (levelOps k) -> ~ continues (S k) t.
Proof.
  intros H C.
  do 12 (destruct k as [|k]; [cbn in H; repeat (destruct H as [H|H]; [injection H as <- <-;
    destruct C as [C|[C|[(j & p & J & I)|[[_ C]|[_ C]]]]]; try discriminate C;
    do 12 (destruct j as [|j]; [try lia; cbn in I; repeat (destruct I as [I|I]; [discriminate I|]); contradiction|]); destruct j; contradiction I|]); contradiction|]).
  destruct k; contradiction H.
Qed.

Definition contb (k : nat) (c : Z) : bool :=
  (c =? cLB) || (c =? cDOT) || existsb (fun j => existsb (fun p => fst p =? c) (levelOps j)) (seq k (12 - k)) ||
  (Nat.leb k 1 && (c =? cEQ)) || (Nat.eqb k 0 && (c =? cCOMMA)).
Lemma contb_ok k c : continues k c -> contb k c = true.
Proof.
  unfold contb. intros [->|[->|[(j & o & J & I)|[[K ->]|[-> ->]]]]].
  - reflexivity.
  - reflexivity.
  - assert ((j < 12)%nat) as J2.
    { destruct (Nat.lt_ge_cases j 12) as [L|L]; [exact L|]. exfalso. do 12 (destruct j as [|j]; [lia|]). contradiction I. }
    assert (existsb (fun j => existsb (fun p => fst p =? c) (levelOps j)) (seq k (12 - k)) = true) as ->.
    { apply existsb_exists. exists j. split; [apply in_seq; lia|]. apply existsb_exists. exists (c, o). split; [exact I|apply Z.eqb_refl]. }
    rewrite orb_true_r. reflexivity.
  - apply Nat.leb_le in K. rewrite K. cbn [andb]. rewrite Z.eqb_refl, orb_true_r. reflexivity.
  - reflexivity.
Qed.
Lemma stops_c k c r : sign c = true -> contb k c = false -> stops k (TSym c :: r).
Proof. intros S C. apply stops_sym; [exact S|]. intros H. apply contb_ok in H. congruence. Qed.
(* the rest of the text begins with a sign *)
Definition signed (rest : list stok) : Prop := exists c r, rest = TSym c :: r /\ sign c = true.
Lemma stops_signed k rest : stops k rest -> signed rest.
Proof. intros (c & r & E & S & _). exists c, r. auto. Qed.

Section Complete.
Variable nt : table.

(* what parsing e from s must give *)
Definition gives (p : parser) (s : es) (e : ast) (rest : list stok) (t d : Z) (lv : bool) (x : expr) : Prop :=
  exists s', p s = POk (W t d lv x, s') /\ good s' /\ view (its s') = rest /\
    clab s' = clab s + nstr e /\ outp s' = outp s ++ strOut (clab s) (strings e) /\
    (List.length (its s') < List.length (its s))%nat.
(* p accepts every derivation of level k from at most n tokens *)
Definition complete (k : nat) (p : parser) (n : nat) : Prop :=
  forall e ts s rest t d lv x, derives k e ts -> (List.length ts <= n)%nat -> good s ->
    view (its s) = ts ++ rest -> stops k rest -> has nt (clab s) e t d lv x -> gives p s e rest t d lv x.

Lemma derives_nonempty k e ts : derives k e ts -> (1 <= List.length ts)%nat.
Proof. induction 1; rewrite ?app_length; cbn [List.length]; rewrite ?app_length; cbn [List.length]; lia. Qed.

Definition actc (k : nat) (act : op2 -> watch -> watch -> pres watch) : Prop :=
  forall tk o a b l t d lv x, In (tk, o) (levelOps k) -> has nt l (ABin o a b) t d lv x ->
  exists t1 d1 l1 x1 t2 d2 l2 x2, has nt l a t1 d1 l1 x1 /\ has nt (l + nstr a) b t2 d2 l2 x2 /\
    act o (W t1 d1 l1 x1) (W t2 d2 l2 x2) = POk (W t d lv x).

Lemma binLoop_complete k act next n : (2 <= k <= 11)%nat -> actc k act -> complete (S k) next n ->
  forall e ts, derives k e ts -> (List.length ts <= n)%nat ->
  forall s rest t d lv x, good s -> view (its s) = ts ++ rest -> stops (S k) rest -> has nt (clab s) e t d lv x ->
  exists w0 s0 m s', next s = POk (w0, s0) /\ (forall F, binLoop (levelOps k) act next (m + F) w0 s0 = binLoop (levelOps k) act next F (W t d lv x) s') /\
    (m + List.length (its s') <= List.length (its s0))%nat /\ (List.length (its s0) < List.length (its s))%nat /\
    good s' /\ view (its s') = rest /\
    clab s' = clab s + nstr e /\ outp s' = outp s ++ strOut (clab s) (strings e).
Proof.
  intros K AC CN e ts D. remember k as k' eqn:EK. revert EK. induction D; intros EK LN st rest tt dd lv x G V ST HH; try lia.
  - subst k0. destruct (CN _ _ _ _ _ _ _ _ D LN G V ST HH) as (s' & E & G' & V' & L & O & LE).
    exists (W tt dd lv x), s', 0%nat, s'. split; [exact E|]. split; [reflexivity|]. split; [lia|]. auto.
  - subst k0. rewrite app_length in LN. cbn [List.length] in LN.
    destruct (AC _ _ _ _ _ _ _ _ _ H HH) as (t1 & d1 & l1 & x1 & t2 & d2 & l2 & x2 & H1 & H2 & AE).
    destruct (opTok_all k _ _ H) as (NE & SG & VL).
    rewrite <- app_assoc in V. cbn [app] in V.
    assert (stops (S k) (TSym t :: tb ++ rest)) as ST1 by (apply stops_sym; [exact SG|apply (op_stops k t o H)]).
    destruct (IHD1 K AC CN eq_refl ltac:(lia) st _ _ _ _ _ G V ST1 H1) as (w0 & s0 & m & s1 & E0 & BL & LM & LS & G1 & V1 & L1 & O1).
    pose proof (head_sym _ _ _ G1 V1) as T1. destruct (next_sym _ _ _ G1 V1 NE) as (G2 & V2 & LE2).
    assert (has nt (clab (getTok s1)) b t2 d2 l2 x2) as H2' by (rewrite getTok_lab, L1; exact H2).
    destruct (CN _ _ _ _ _ _ _ _ D2 ltac:(lia) G2 V2 ST H2') as (s' & E & G' & V' & L & O & LE).
    exists w0, s0, (m + 1)%nat, s'. split; [exact E0|]. split.
    { intros F. rewrite <- Nat.add_assoc. rewrite BL. cbn [Nat.add binLoop]. rewrite T1, (opOf_ops k t o H).
      rewrite E. cbn [pbind]. rewrite AE. reflexivity. }
    split; [lia|]. split; [exact LS|]. split; [exact G'|]. split; [exact V'|].
    rewrite L, O, getTok_lab, getTok_out, L1, O1. unfold nstr. cbn [strings]. rewrite app_length, strOut_app, <- app_assoc.
    split; [lia|reflexivity].
Qed.
Lemma binExpr_complete k act next n : (2 <= k <= 11)%nat -> actc k act -> complete (S k) next n ->
  complete k (binExpr (levelOps k) act next) n.
Proof.
  intros K AC CN e ts s rest t d lv x D LN G V ST HH.
  destruct (binLoop_complete k act next n K AC CN e ts D LN s rest t d lv x G V (stops_le k (S k) _ ltac:(lia) ST) HH)
    as (w0 & s0 & m & s' & E & BL & LM & LS & G' & V' & L & O).
  exists s'. unfold binExpr. rewrite E. cbn [pbind].
  replace (fuelOf s0) with (m + S (List.length (its s0) - m))%nat by (unfold fuelOf; lia). rewrite BL. cbn [binLoop].
  destruct ST as (c & r & ER & SG & N). rewrite ER in V'. rewrite (head_sym _ _ _ G' V'), (opOf_none _ _ N).
  split; [reflexivity|]. rewrite ER. split; [exact G'|]. split; [exact V'|]. split; [exact L|]. split; [exact O|]. lia.
Qed.

Ltac inops I := cbn in I; repeat (destruct I as [I|I]; [injection I as <- <-|]); try contradiction.
Ltac badop H := exfalso; unfold arith, order in H; cbn in H; repeat (destruct H as [H|H]; [discriminate H|]); contradiction.
Lemma has_arith l o a b t d lv x : arith o -> has nt l (ABin o a b) t d lv x ->
  exists t1 d1 l1 x1 t2 d2 l2 x2, has nt l a t1 d1 l1 x1 /\ has nt (l + nstr a) b t2 d2 l2 x2 /\
    cal2 TyINT o (W t1 d1 l1 x1) (W t2 d2 l2 x2) = POk (W t d lv x).
Proof.
  intros A H. inversion H; subst.
  - exists t1, d1, l1, x1, t2, d2, l2, x2. split; [assumption|]. split; [assumption|]. unfold cal2.
    destruct (chkType_int_ok (W t1 d1 l1 x1)) as (w1 & -> & T1 & D1 & X1); [assumption|]. cbn [pbind].
    destruct (chkType_int_ok (W t2 d2 l2 x2)) as (w2 & -> & T2 & D2 & X2); [assumption|]. cbn [pbind].
    unfold mk2. rewrite T1, D1, X1, X2. reflexivity.
  - exfalso. unfold order in *. cbn in *. repeat match goal with H : _ \/ _ |- _ => destruct H as [H|H]; [subst o; unfold arith in A; cbn in A; repeat (destruct A as [A|A]; [discriminate A|]); contradiction|] end. contradiction.
  - exfalso. match goal with H : _ \/ _ |- _ => destruct H; subst o end; badop A.
  - exfalso. match goal with H : _ \/ _ |- _ => destruct H; subst o end; badop A.
Qed.
Lemma has_order l o a b t d lv x : order o -> has nt l (ABin o a b) t d lv x ->
  exists t1 d1 l1 x1 t2 d2 l2 x2, has nt l a t1 d1 l1 x1 /\ has nt (l + nstr a) b t2 d2 l2 x2 /\
    calCmp o (W t1 d1 l1 x1) (W t2 d2 l2 x2) = POk (W t d lv x).
Proof.
  intros A H. inversion H; subst.
  - exfalso. unfold order in A. cbn in A. repeat (destruct A as [A|A]; [subst o; badop H9 || match goal with H : arith _ |- _ => badop H end|]); contradiction.
  - exists t1, d1, l1, x1, t2, d2, l2, x2. split; [assumption|]. split; [assumption|]. unfold calCmp, cal2.
    destruct (chkType_int_ok (W t1 d1 l1 x1)) as (w1 & -> & T1 & D1 & X1); [assumption|]. cbn [pbind].
    destruct (chkType_int_ok (W t2 d2 l2 x2)) as (w2 & -> & T2 & D2 & X2); [assumption|]. cbn [pbind wd lhs tr].
    unfold mk2. rewrite D1, X1, X2. reflexivity.
  - exfalso. match goal with H : _ \/ _ |- _ => destruct H; subst o end; badop A.
  - exfalso. match goal with H : _ \/ _ |- _ => destruct H; subst o end; badop A.
Qed.
Lemma has_logic l o a b t d lv x : o = AND \/ o = OR -> has nt l (ABin o a b) t d lv x ->
  exists t1 d1 l1 x1 t2 d2 l2 x2, has nt l a t1 d1 l1 x1 /\ has nt (l + nstr a) b t2 d2 l2 x2 /\
    cal2 TyBOOL o (W t1 d1 l1 x1) (W t2 d2 l2 x2) = POk (W t d lv x).
Proof.
  intros A H. inversion H; subst.
  - exfalso. destruct A; subst o; match goal with H : arith _ |- _ => badop H end.
  - exfalso. destruct A; subst o; match goal with H : order _ |- _ => badop H end.
  - exfalso. destruct A; subst o; match goal with H : _ \/ _ |- _ => destruct H; discriminate end.
  - exists TyBOOL, 0, l1, x1, TyBOOL, 0, l2, x2. split; [assumption|]. split; [assumption|]. reflexivity.
Qed.
Lemma has_equ l o a b t d lv x : o = EQU \/ o = NEQ -> has nt l (ABin o a b) t d lv x ->
  exists t1 d1 l1 x1 t2 d2 l2 x2, has nt l a t1 d1 l1 x1 /\ has nt (l + nstr a) b t2 d2 l2 x2 /\
    calEqu o (W t1 d1 l1 x1) (W t2 d2 l2 x2) = POk (W t d lv x).
Proof.
  intros A H. inversion H; subst.
  - exfalso. destruct A; subst o; match goal with H : arith _ |- _ => badop H end.
  - exfalso. destruct A; subst o; match goal with H : order _ |- _ => badop H end.
  - exists t1, d1, l1, x1, t2, d2, l2, x2. split; [assumption|]. split; [assumption|]. unfold calEqu.
    match goal with H : comparable _ _ _ _ |- _ => unfold comparable, asInt in H; rename H into F end.
    cbn [wt].
    assert (wt (if t1 =? TyCHAR then setT (W t1 d1 l1 x1) TyINT else W t1 d1 l1 x1) = (if t1 =? TyCHAR then TyINT else t1)) as -> by (destruct (t1 =? TyCHAR); reflexivity).
    assert (wd (if t1 =? TyCHAR then setT (W t1 d1 l1 x1) TyINT else W t1 d1 l1 x1) = d1) as -> by (destruct (t1 =? TyCHAR); reflexivity).
    destruct (chkCmpat_yes (if t2 =? TyCHAR then setT (W t2 d2 l2 x2) TyINT else W t2 d2 l2 x2) (if t1 =? TyCHAR then TyINT else t1) d1) as (w2 & -> & X2).
    { destruct (t2 =? TyCHAR); exact F. }
    cbn [pbind]. unfold mk2. rewrite X2. destruct (t1 =? TyCHAR), (t2 =? TyCHAR); reflexivity.
  - exfalso. destruct A; subst o; match goal with H : _ \/ _ |- _ => destruct H; discriminate end.
Qed.

Lemma levels_complete asExpr expr n : complete 12 (uni nt asExpr expr) n -> complete 2 (getLogOrExpr nt asExpr expr) n.
Proof.
  intros U.
  assert (actc 11 (cal2 TyINT)) as A11 by (intros tk o a b l t d lv x I; apply has_arith; inops I; unfold arith; cbn; auto 12).
  assert (actc 10 (cal2 TyINT)) as A10 by (intros tk o a b l t d lv x I; apply has_arith; inops I; unfold arith; cbn; auto 12).
  assert (actc 9 (cal2 TyINT)) as A9 by (intros tk o a b l t d lv x I; apply has_arith; inops I; unfold arith; cbn; auto 12).
  assert (actc 8 calCmp) as A8 by (intros tk o a b l t d lv x I; apply has_order; inops I; unfold order; cbn; auto 12).
  assert (actc 7 calEqu) as A7 by (intros tk o a b l t d lv x I; apply has_equ; inops I; auto).
  assert (actc 6 (cal2 TyINT)) as A6 by (intros tk o a b l t d lv x I; apply has_arith; inops I; unfold arith; cbn; auto 12).
  assert (actc 5 (cal2 TyINT)) as A5 by (intros tk o a b l t d lv x I; apply has_arith; inops I; unfold arith; cbn; auto 12).
  assert (actc 4 (cal2 TyINT)) as A4 by (intros tk o a b l t d lv x I; apply has_arith; inops I; unfold arith; cbn; auto 12).
  assert (actc 3 (cal2 TyBOOL)) as A3 by (intros tk o a b l t d lv x I; apply has_logic; inops I; auto).
  assert (actc 2 (cal2 TyBOOL)) as A2 by (intros tk o a b l t d lv x I; apply has_logic; inops I; auto).
  pose proof (binExpr_complete 11 _ _ n ltac:(lia) A11 U) as L11.
  pose proof (binExpr_complete 10 _ _ n ltac:(lia) A10 L11) as L10.
  pose proof (binExpr_complete 9 _ _ n ltac:(lia) A9 L10) as L9.
  pose proof (binExpr_complete 8 _ _ n ltac:(lia) A8 L9) as L8.
  pose proof (binExpr_complete 7 _ _ n ltac:(lia) A7 L8) as L7.
  pose proof (binExpr_complete 6 _ _ n ltac:(lia) A6 L7) as L6.
  pose proof (binExpr_complete 5 _ _ n ltac:(lia) A5 L6) as L5.
  pose proof (binExpr_complete 4 _ _ n ltac:(lia) A4 L5) as L4.
  pose proof (binExpr_complete 3 _ _ n ltac:(lia) A3 L4) as L3.
  exact (binExpr_complete 2 _ _ n ltac:(lia) A2 L3).
Qed.

(* ---- comma ---- *)
Lemma commaLoop_complete asExpr n : complete 1 asExpr n ->
  forall e ts, derives 0 e ts -> (List.length ts <= n)%nat ->
  forall s rest t d lv x, good s -> view (its s) = ts ++ rest -> stops 1 rest -> has nt (clab s) e t d lv x ->
  exists w0 s0 m s', asExpr s = POk (w0, s0) /\ (forall F, commaLoop asExpr (m + F) w0 s0 = commaLoop asExpr F (W t d lv x) s') /\
    (m + List.length (its s') <= List.length (its s0))%nat /\ (List.length (its s0) < List.length (its s))%nat /\
    good s' /\ view (its s') = rest /\
    clab s' = clab s + nstr e /\ outp s' = outp s ++ strOut (clab s) (strings e).
Proof.
  intros CN e ts D. remember 0%nat as k eqn:EK. revert EK. induction D; intros EK LN st rest tt dd lv x G V ST HH; try discriminate EK.
  - subst k. destruct (CN _ _ _ _ _ _ _ _ D LN G V ST HH) as (s' & E & G' & V' & L & O & LE).
    exists (W tt dd lv x), s', 0%nat, s'. split; [exact E|]. split; [reflexivity|]. split; [lia|]. auto.
  - rewrite app_length in LN. cbn [List.length] in LN. inversion HH; subst.
    rewrite <- app_assoc in V. cbn [app] in V.
    match goal with H1 : has nt _ a ?t1 ?d1 ?l1 ?x1, H2 : has nt _ b ?t2 ?d2 ?l2 ?x2 |- _ =>
      destruct (IHD1 CN eq_refl ltac:(lia) st _ t1 d1 l1 x1 G V (stops_c 1 cCOMMA _ eq_refl eq_refl) H1) as (w0 & s0 & m & s1 & E0 & BL & LM & LS & G1 & V1 & L1 & O1);
      destruct (next_sym _ _ _ G1 V1 ltac:(discriminate)) as (G2 & V2 & LE2);
      assert (has nt (clab (getTok s1)) b t2 d2 l2 x2) as H2' by (rewrite getTok_lab, L1; exact H2)
    end.
    pose proof (head_sym _ _ _ G1 V1) as T1.
    destruct (CN _ _ _ _ _ _ _ _ D2 ltac:(lia) G2 V2 ST H2') as (s' & E & G' & V' & L & O & LE).
    exists w0, s0, (m + 1)%nat, s'. split; [exact E0|]. split.
    { intros F. rewrite <- Nat.add_assoc. rewrite BL. cbn [Nat.add commaLoop]. rewrite (isTok_yes _ _ T1). rewrite E. reflexivity. }
    split; [lia|]. split; [exact LS|]. split; [exact G'|]. split; [exact V'|].
    rewrite L, O, getTok_lab, getTok_out, L1, O1. unfold nstr. cbn [strings]. rewrite app_length, strOut_app, <- app_assoc.
    split; [lia|reflexivity].
  - subst k. contradiction H.
Qed.
Lemma commaExpr_complete asExpr n : complete 1 asExpr n -> complete 0 (commaExpr asExpr) n.
Proof.
  intros CN e ts s rest t d lv x D LN G V ST HH.
  destruct (commaLoop_complete asExpr n CN e ts D LN s rest t d lv x G V (stops_le 0 1 _ ltac:(lia) ST) HH)
    as (w0 & s0 & m & s' & E & BL & LM & LS & G' & V' & L & O).
  exists s'. unfold commaExpr. rewrite E. cbn [pbind].
  replace (fuelOf s0) with (m + S (List.length (its s0) - m))%nat by (unfold fuelOf; lia). rewrite BL. cbn [commaLoop].
  destruct ST as (c & r & ER & SG & N). rewrite ER in V'. rewrite isTok_no.
  2:{ rewrite (head_sym _ _ _ G' V'). intros ->. apply N. right; right; right; right. auto. }
  split; [reflexivity|]. rewrite ER. split; [exact G'|]. split; [exact V'|]. split; [exact L|]. split; [exact O|]. lia.
Qed.

(* ---- arguments ---- *)
Definition nstrs (l : list ast) : Z := Z.of_nat (List.length (flat_map strings l)).
Lemma argsLoop_complete asExpr n : complete 1 asExpr n ->
  forall args ts, derives_args args ts -> (List.length ts <= n)%nat ->
  forall s rest p last acc y F, good s -> view (its s) = ts ++ TSym cRP :: rest -> passes nt (clab s) args p last acc y ->
  (List.length (its s) < F)%nat ->
  exists p' s', argsLoop nt asExpr F p last acc s = POk (p', y, s') /\ (last < p' \/ typeAt nt p' = TyDOTDOTDOT) /\
    good s' /\ view (its s') = TSym cRP :: rest /\
    clab s' = clab s + nstrs args /\ outp s' = outp s ++ strOut (clab s) (flat_map strings args) /\
    (List.length (its s') < List.length (its s))%nat.
Proof.
  intros CN args ts D. induction D as [e ts D|e r te tr D DA IH]; intros LN s rest p last acc y F G V P LF.
  - destruct F as [|F]; [lia|]. cbn [argsLoop].
    assert (forall t d lv x, has nt (clab s) e t d lv x -> gives asExpr s e (TSym cRP :: rest) t d lv x) as GV.
    { intros t d lv x HH. apply (CN _ _ _ _ _ _ _ _ D LN G V); [apply stops_c; reflexivity|exact HH]. }
    inversion P as [|l0 e0 r0 p0 last0 acc0 t d lv x y0 PL TY HH FT PR|l0 e0 r0 p0 last0 acc0 t d lv x y0 PL TY HH FT PR]; subst.
    + destruct (GV _ _ _ _ HH) as (s' & E & G' & V' & L & O & LE). rewrite E. cbn [pbind].
      destruct (Z.ltb_spec last p); [lia|]. destruct (Z.eqb_spec (typeAt nt p) TyDOTDOTDOT); [contradiction|]. cbn [negb].
      destruct (chkCmpat_yes (W t d lv x) _ _ FT) as (w' & -> & TW). cbn [pbind]. rewrite TW. cbn [Parser.tr].
      rewrite isTok_no by (rewrite (head_sym _ _ _ G' V'); discriminate).
      inversion PR; subst. exists (p + 1), s'. split; [reflexivity|]. split; [assumption|]. split; [exact G'|]. split; [exact V'|].
      unfold nstrs. cbn [flat_map]. rewrite app_nil_r. split; [exact L|]. split; [exact O|lia].
    + destruct (GV _ _ _ _ HH) as (s' & E & G' & V' & L & O & LE). rewrite E. cbn [pbind].
      destruct (Z.ltb_spec last p); [lia|]. destruct (Z.eqb_spec (typeAt nt p) TyDOTDOTDOT); [|contradiction]. cbn [negb wt wd Parser.tr].
      destruct (Z.eqb_spec t TyVOID), (Z.eqb_spec d 0); cbn [andb]; try (exfalso; apply FT; split; assumption); cbn [pbind Parser.tr];
      (rewrite isTok_no by (rewrite (head_sym _ _ _ G' V'); discriminate));
      (inversion PR; subst; exists p, s'; split; [reflexivity|]; split; [assumption|]; split; [exact G'|]; split; [exact V'|];
      unfold nstrs; cbn [flat_map]; rewrite app_nil_r; split; [exact L|]; split; [exact O|lia]).
  - destruct F as [|F]; [lia|]. cbn [argsLoop]. rewrite app_length in LN. cbn [List.length] in LN.
    rewrite <- app_assoc in V. cbn [app] in V.
    assert (forall t d lv x, has nt (clab s) e t d lv x -> gives asExpr s e (TSym cCOMMA :: tr ++ TSym cRP :: rest) t d lv x) as GV.
    { intros t d lv x HH. apply (CN _ _ _ _ _ _ _ _ D ltac:(lia) G V); [apply stops_c; reflexivity|exact HH]. }
    assert (forall p2 x s1, good s1 -> view (its s1) = TSym cCOMMA :: tr ++ TSym cRP :: rest ->
      clab s1 = clab s + nstr e -> outp s1 = outp s ++ strOut (clab s) (strings e) -> (List.length (its s1) < List.length (its s))%nat ->
      passes nt (clab s + nstr e) r p2 last (catE acc x) y ->
      exists p' s', argsLoop nt asExpr F p2 last (catE acc x) (getTok s1) = POk (p', y, s') /\
       (last < p' \/ typeAt nt p' = TyDOTDOTDOT) /\
    good s' /\ view (its s') = TSym cRP :: rest /\
    clab s' = clab s + nstrs (e :: r) /\ outp s' = outp s ++ strOut (clab s) (flat_map strings (e :: r)) /\
    (List.length (its s') < List.length (its s))%nat) as STEP.
    { intros p2 x s1 G1 V1 L1 O1 LE1 PR. destruct (next_sym _ _ _ G1 V1 ltac:(discriminate)) as (G2 & V2 & LE2).
      destruct (IH ltac:(lia) (getTok s1) rest p2 last (catE acc x) y F G2 V2 ltac:(rewrite getTok_lab, L1; exact PR) ltac:(lia))
        as (p' & s' & E & PE & G' & V' & L & O & LE).
      exists p', s'. split; [exact E|]. split; [exact PE|]. split; [exact G'|]. split; [exact V'|].
      rewrite L, O, getTok_lab, getTok_out, L1, O1. unfold nstrs. cbn [flat_map]. rewrite app_length, strOut_app, <- app_assoc.
      split; [unfold nstr; lia|]. split; [reflexivity|lia]. }
    inversion P as [|l0 e0 r0 p0 last0 acc0 t d lv x y0 PL TY HH FT PR|l0 e0 r0 p0 last0 acc0 t d lv x y0 PL TY HH FT PR]; subst.
    + destruct (GV _ _ _ _ HH) as (s' & E & G' & V' & L & O & LE). rewrite E. cbn [pbind].
      destruct (Z.ltb_spec last p); [lia|]. destruct (Z.eqb_spec (typeAt nt p) TyDOTDOTDOT); [contradiction|]. cbn [negb].
      destruct (chkCmpat_yes (W t d lv x) _ _ FT) as (w' & -> & TW). cbn [pbind]. rewrite TW. cbn [Parser.tr].
      rewrite (isTok_yes _ _ (head_sym _ _ _ G' V')). apply STEP; assumption.
    + destruct (GV _ _ _ _ HH) as (s' & E & G' & V' & L & O & LE). rewrite E. cbn [pbind].
      destruct (Z.ltb_spec last p); [lia|]. destruct (Z.eqb_spec (typeAt nt p) TyDOTDOTDOT); [|contradiction]. cbn [negb wt wd Parser.tr].
      destruct (Z.eqb_spec t TyVOID), (Z.eqb_spec d 0); cbn [andb]; try (exfalso; apply FT; split; assumption); cbn [pbind Parser.tr];
      rewrite (isTok_yes _ _ (head_sym _ _ _ G' V')); apply STEP; assumption.
Qed.

(* ---- factors ---- *)
Definition primary (asExpr expr : parser) (s : es) : pres (watch * es) :=
  let t := tok s in let s1 := getTok s in
  if t =? cLP then
    let+ (w, s) := expr s1 in
    let+ s := chkTok cRP s in POk (w, s)
  else if t =? LxNAME then getIdent nt asExpr s1
  else if t =? LxINTEGER then POk (W TyINT 0 false (Cnst (lxGetVal s1)), s1)
  else if t =? LxCHARACTER then POk (W TyCHAR 0 false (Cnst (lxGetVal s1)), s1)
  else if t =? LxLOGICAL then POk (W TyBOOL 0 false (Cnst (lxGetVal s1)), s1)
  else if t =? LxSTRING then
    let '(l, s) := genStr (lxGetStr s1) s1 in
    POk (W TyCHAR 1 false (ELeaf (LStr l)), s)
  else if t =? LxNUL then POk (W TyVOID 1 false (Cnst 0), s1)
  else if t =? LxSIZEOF then getSizeof nt s1
  else if t =? LxADDROF then getAddrof nt s1
  else if t =? LxORD then getOrd expr s1
  else if t =? LxCHR then getChr expr s1
  else if t =? LxBOL then getBool expr s1
  else PErr XFactor.
Lemma getFactor_primary asExpr expr s : getFactor nt asExpr expr s = (let+ (w, s) := primary asExpr expr s in postLoop nt asExpr (fuelOf s) w s).
Proof. reflexivity. Qed.

Lemma inParens_complete expr n e ts s rest t d lv x : complete 0 expr n -> derives 0 e ts -> (List.length ts <= n)%nat ->
  good s -> view (its s) = TSym cLP :: ts ++ TSym cRP :: rest -> has nt (clab s) e t d lv x ->
  gives (inParens expr) s e rest t d lv x.
Proof.
  intros CE D LN G V HH. destruct (next_sym _ _ _ G V ltac:(discriminate)) as (G1 & V1 & L1).
  destruct (CE _ _ _ _ _ _ _ _ D LN G1 V1 (stops_c 0 cRP _ eq_refl eq_refl) ltac:(rewrite getTok_lab; exact HH)) as (s2 & E & G2 & V2 & LB & O & LE).
  destruct (next_sym _ _ _ G2 V2 ltac:(discriminate)) as (G3 & V3 & L3).
  exists (getTok s2). unfold inParens. rewrite (chkTok_yes _ _ (head_sym _ _ _ G V)). cbn [pbind]. rewrite E. cbn [pbind].
  rewrite (chkTok_yes _ _ (head_sym _ _ _ G2 V2)). cbn [pbind]. split; [reflexivity|]. split; [exact G3|]. split; [exact V3|].
  rewrite !getTok_lab in *. rewrite !getTok_out in *. split; [exact LB|]. split; [exact O|lia].
Qed.

Lemma dimLoop_complete d : forall F c s rest, good s -> view (its s) = brackets d ++ TSym cRP :: rest -> (List.length (its s) < F)%nat ->
  exists s', dimLoop F c s = POk (c + Z.of_nat d, s') /\ good s' /\ view (its s') = TSym cRP :: rest /\
   clab s' = clab s /\ outp s' = outp s /\ (List.length (its s') <= List.length (its s))%nat.
Proof.
  induction d as [|d IH]; intros F c s rest G V LF; (destruct F as [|F]; [lia|]); cbn [dimLoop].
  - rewrite isTok_no by (rewrite (head_sym _ _ _ G V); discriminate). exists s. rewrite Z.add_0_r. auto 6.
  - cbn [brackets app] in V. rewrite (isTok_yes _ _ (head_sym _ _ _ G V)).
    destruct (next_sym _ _ _ G V ltac:(discriminate)) as (G1 & V1 & L1).
    rewrite (chkTok_yes _ _ (head_sym _ _ _ G1 V1)). cbn [pbind].
    destruct (next_sym _ _ _ G1 V1 ltac:(discriminate)) as (G2 & V2 & L2).
    destruct (IH F (c + 1) _ rest G2 V2 ltac:(lia)) as (s' & -> & G' & V' & L & O & LE).
    exists s'. split; [f_equal; f_equal; lia|]. rewrite !getTok_lab in L. rewrite !getTok_out in O. split; [exact G'|]. split; [exact V'|].
    split; [exact L|]. split; [exact O|lia].
Qed.
Lemma tyTok_typeOf ty s r : good s -> view (its s) = tyTok ty :: r -> tyCode nt ty <> TyNON -> typeOf nt s = tyCode nt ty.
Proof.
  intros G V N. destruct (view_head _ _ _ G V) as (i & O & T & l & E & VL).
  unfold typeOf. rewrite T. destruct ty; cbn [tyTok] in O; apply own_val in O; try (rewrite O; reflexivity).
  destruct O as [O1 O2]. rewrite O1. cbn [tyCode]. unfold lxGetStr. rewrite E. destruct i as [[[t v] st] ln]. cbn in O2. rewrite O2. reflexivity.
Qed.
Lemma next_any s x y r : good s -> view (its s) = x :: TSym y :: r -> sign y = true -> x <> TSym EOFtok ->
  good (getTok s) /\ view (its (getTok s)) = TSym y :: r /\ (List.length (its (getTok s)) < List.length (its s))%nat.
Proof.
  intros G V SG N. destruct x; try (destruct (next_val _ _ _ _ G V SG ltac:(discriminate)) as (i & _ & _ & A & B & _ & _ & C); auto; fail).
  apply (next_sym _ k); [exact G|exact V|]. intros ->. apply N. reflexivity.
Qed.
Lemma getSizeof_complete ty d s rest : good s ->
  view (its s) = TSym LxSIZEOF :: TSym cLP :: tyTok ty :: brackets d ++ TSym cRP :: rest ->
  tyCode nt ty <> TyNON -> ~ (tyCode nt ty <= 0 /\ typeAt nt (- tyCode nt ty) = TyREF) ->
  exists s', getSizeof nt (getTok s) = POk (W TyINT 0 false (Cnst (sizeOf nt (tyCode nt ty) d)), s') /\
    good s' /\ view (its s') = rest /\ clab s' = clab s /\ outp s' = outp s /\ (List.length (its s') < List.length (its s))%nat.
Proof.
  intros G V N R. destruct (next_sym _ _ _ G V ltac:(discriminate)) as (G1 & V1 & L1).
  destruct (next_sym _ _ _ G1 V1 ltac:(discriminate)) as (G2 & V2 & L2).
  unfold getSizeof. rewrite (chkTok_yes _ _ (head_sym _ _ _ G1 V1)). cbn [pbind]. unfold getType.
  rewrite (tyTok_typeOf ty _ _ G2 V2 N). destruct (Z.eqb_spec (tyCode nt ty) TyNON); [contradiction|].
  assert (exists c r, brackets d ++ TSym cRP :: rest = TSym c :: r /\ sign c = true) as (c & r & BR & SG).
  { destruct d; cbn [brackets app]; eexists; eexists; (split; [reflexivity|reflexivity]). }
  rewrite BR in V2.
  destruct (next_any _ _ _ _ G2 V2 SG ltac:(destruct ty; discriminate)) as (G3 & V3 & L3). rewrite <- BR in V3.
  destruct (dimLoop_complete d (fuelOf (getTok (getTok (getTok s)))) 0 _ rest G3 V3 ltac:(unfold fuelOf; lia)) as (s4 & -> & G4 & V4 & LB4 & O4 & L4).
  cbn [pbind].
  assert ((tyCode nt ty <=? 0) && (typeAt nt (- tyCode nt ty) =? TyREF) = false) as ->.
  { destruct (Z.leb_spec (tyCode nt ty) 0); [|reflexivity]. destruct (Z.eqb_spec (typeAt nt (- tyCode nt ty)) TyREF); [|reflexivity]. exfalso. auto. }
  rewrite (chkTok_yes _ _ (head_sym _ _ _ G4 V4)). cbn [pbind].
  destruct (next_sym _ _ _ G4 V4 ltac:(discriminate)) as (G5 & V5 & L5).
  exists (getTok s4). split.
  { destruct d; cbn [sizeOf Z.add Z.of_nat Z.eqb]; reflexivity. }
  rewrite getTok_lab, getTok_out, LB4, O4, !getTok_lab, !getTok_out. split; [exact G5|]. split; [exact V5|]. split; [reflexivity|]. split; [reflexivity|lia].
Qed.
Lemma getAddrof_complete m s rest i : good s -> view (its s) = [TSym LxADDROF; TSym cLP; TName m; TSym cRP] ++ rest ->
  ntSrcName nt m = Some i -> isGlob (scopeAt nt i) = true ->
  exists s', getAddrof nt (getTok s) = POk (W TyINT 0 false (ELeaf (LAddr i)), s') /\
    good s' /\ view (its s') = rest /\ clab s' = clab s /\ outp s' = outp s /\ (List.length (its s') < List.length (its s))%nat.
Proof.
  intros G V H1 H2. cbn [app] in V. destruct (next_sym _ _ _ G V ltac:(discriminate)) as (G1 & V1 & L1).
  destruct (next_sym _ _ _ G1 V1 ltac:(discriminate)) as (G2 & V2 & L2).
  destruct (next_val _ _ _ _ G2 V2 eq_refl ltac:(discriminate)) as (it & O & T & G3 & V3 & S3 & _ & L3).
  apply own_val in O. destruct O as [O1 O2]. rewrite O1 in T. rewrite O2 in S3.
  unfold getAddrof. rewrite (chkTok_yes _ _ (head_sym _ _ _ G1 V1)). cbn [pbind]. rewrite (chkTok_yes _ _ T). cbn [pbind].
  rewrite S3, H1, H2. rewrite (chkTok_yes _ _ (head_sym _ _ _ G3 V3)). cbn [pbind].
  destruct (next_sym _ _ _ G3 V3 ltac:(discriminate)) as (G4 & V4 & L4).
  eexists. split; [reflexivity|]. rewrite !getTok_lab, !getTok_out. split; [exact G4|]. split; [exact V4|]. split; [reflexivity|]. split; [reflexivity|lia].
Qed.

Lemma getArgs_complete asExpr n f args ts s rest y : complete 1 asExpr n ->
  (args = [] /\ ts = [] \/ derives_args args ts) -> (List.length ts <= n)%nat -> good s -> view (its s) = ts ++ TSym cRP :: rest ->
  passes nt (clab s) args (f + 1) (f + cntAt nt f) ENull y ->
  exists s', getArgs nt asExpr f s = POk (y, s') /\ good s' /\ view (its s') = rest /\
    clab s' = clab s + nstrs args /\ outp s' = outp s ++ strOut (clab s) (flat_map strings args) /\
    (List.length (its s') < List.length (its s))%nat.
Proof.
  intros CN D LN G V P. unfold getArgs.
  destruct D as [[-> ->]|D].
  - cbn [app] in V. rewrite (head_sym _ _ _ G V), Z.eqb_refl. cbn [negb pbind].
    rewrite (chkTok_yes _ _ (head_sym _ _ _ G V)). cbn [pbind].
    destruct (next_sym _ _ _ G V ltac:(discriminate)) as (G1 & V1 & L1).
    inversion P as [l0 p0 la ac H| |]; subst.
    assert (negb (typeAt nt (f + 1) =? TyDOTDOTDOT) && (f + 1 <=? f + cntAt nt f) = false) as ->.
    { destruct H as [H|H]; [destruct (Z.leb_spec (f + 1) (f + cntAt nt f)); [lia|apply andb_false_r]|rewrite H; reflexivity]. }
    exists (getTok s). rewrite getTok_lab, getTok_out. unfold nstrs. cbn [flat_map strOut List.length Z.of_nat]. rewrite app_nil_r, Z.add_0_r. auto 7.
  - assert (tok s <> cRP) as NR.
    { assert (forall e k t0, derives k e t0 -> forall r, view (its s) = t0 ++ r -> tok s <> cRP) as HD.
      { clear - G. intros e k t0 D0. induction D0; intros r0 V0; try (apply (IHD0 _ V0));
        try (rewrite <- app_assoc in V0; apply (IHD0_1 _ V0)); try (rewrite <- app_assoc in V0; apply (IHD0 _ V0));
        cbn [app] in V0;
        try (rewrite (head_sym _ _ _ G V0); destruct u || idtac; discriminate);
        destruct (view_head _ _ _ G V0) as (i & O & T & _); rewrite T; apply own_val in O; destruct O as [-> _]; discriminate. }
      inversion D; subst; [eapply HD; [eassumption|exact V]|]. rewrite <- app_assoc in V. eapply HD; [eassumption|exact V]. }
    destruct (Z.eqb_spec (tok s) cRP); [contradiction|]. cbn [negb].
    destruct (argsLoop_complete asExpr n CN args ts D LN s rest _ _ _ _ (fuelOf s) G V P ltac:(unfold fuelOf; lia)) as (p' & s' & -> & PE & G' & V' & L & O & LE).
    cbn [pbind]. rewrite (chkTok_yes _ _ (head_sym _ _ _ G' V')). cbn [pbind].
    assert (negb (typeAt nt p' =? TyDOTDOTDOT) && (p' <=? f + cntAt nt f) = false) as ->.
    { destruct PE as [H|H]; [destruct (Z.leb_spec p' (f + cntAt nt f)); [lia|apply andb_false_r]|rewrite H; reflexivity]. }
    destruct (next_sym _ _ _ G' V' ltac:(discriminate)) as (G1 & V1 & L1).
    exists (getTok s'). rewrite getTok_lab, getTok_out. split; [reflexivity|]. split; [exact G1|]. split; [exact V1|]. split; [exact L|]. split; [exact O|lia].
Qed.

(* a primary that reads one token with a value *)
Ltac lit G V ST :=
  destruct ST as (?c & ?r & -> & ?SG); cbn [app] in V;
  destruct (next_val _ _ _ _ G V SG ltac:(discriminate)) as (?it & ?O & ?T & ?G1 & ?V1 & ?S1 & ?W1 & ?L1);
  apply own_val in O; destruct O as [?O1 ?O2]; rewrite O1 in T.

Lemma postfix_complete asExpr expr n : complete 1 asExpr n -> complete 0 expr n ->
  forall e ts, derives 13 e ts -> (List.length ts <= S n)%nat ->
  forall s rest t d lv x, good s -> view (its s) = ts ++ rest -> signed rest -> has nt (clab s) e t d lv x ->
  exists w0 s0 m s', primary asExpr expr s = POk (w0, s0) /\
    (forall F, postLoop nt asExpr (m + F) w0 s0 = postLoop nt asExpr F (W t d lv x) s') /\
    (m + List.length (its s') <= List.length (its s0))%nat /\ (List.length (its s0) < List.length (its s))%nat /\
    good s' /\ view (its s') = rest /\
    clab s' = clab s + nstr e /\ outp s' = outp s ++ strOut (clab s) (strings e).
Proof.
  intros CA CE.
  assert (forall s e rest t d lv x, (exists s', primary asExpr expr s = POk (W t d lv x, s') /\ good s' /\ view (its s') = rest /\
     clab s' = clab s + nstr e /\ outp s' = outp s ++ strOut (clab s) (strings e) /\ (List.length (its s') < List.length (its s))%nat) ->
   exists w0 s0 m s', primary asExpr expr s = POk (w0, s0) /\
    (forall F, postLoop nt asExpr (m + F) w0 s0 = postLoop nt asExpr F (W t d lv x) s') /\
    (m + List.length (its s') <= List.length (its s0))%nat /\ (List.length (its s0) < List.length (its s))%nat /\
    good s' /\ view (its s') = rest /\
    clab s' = clab s + nstr e /\ outp s' = outp s ++ strOut (clab s) (strings e)) as PRIM.
  { intros s e rest t d lv x (s' & E & G' & V' & L & O & LE). exists (W t d lv x), s', 0%nat, s'. split; [exact E|]. split; [reflexivity|]. split; [lia|]. auto. }
  intros e ts D. remember 13%nat as k eqn:EK. revert EK.
  induction D; intros EK LN st rest tt dd lv x G V ST HH; try discriminate EK.
  - exfalso; lia.
  - subst k. contradiction H.
  - (* index *)
    rewrite app_length in LN. cbn [List.length] in LN. rewrite app_length in LN. cbn [List.length] in LN.
    pose proof (derives_nonempty _ _ _ D1) as NE.
    rewrite <- app_assoc in V. cbn [app] in V. rewrite <- app_assoc in V. cbn [app] in V.
    inversion HH as [| | | | | | | | | | | | | | | | | | | | |l0 a0 i0 t0 d0 la xa li xi op HA DP HI IO| |]; subst.
    destruct (IHD1 eq_refl ltac:(lia) st _ _ _ _ _ G V ltac:(eexists; eexists; split; [reflexivity|reflexivity]) HA)
      as (w0 & s0 & m & s1 & E0 & BL & LM & LS & G1 & V1 & L1 & O1).
    destruct (next_sym _ _ _ G1 V1 ltac:(discriminate)) as (G2 & V2 & LE2).
    destruct (CA _ _ _ _ _ _ _ _ D2 ltac:(lia) G2 V2 (stops_c 1 cRB _ eq_refl eq_refl) ltac:(rewrite getTok_lab, L1; exact HI)) as (s3 & E3 & G3 & V3 & L3 & O3 & LE3).
    destruct (next_sym _ _ _ G3 V3 ltac:(discriminate)) as (G4 & V4 & LE4).
    exists w0, s0, (m + 1)%nat, (getTok s3). split; [exact E0|]. split.
    { intros F. rewrite <- Nat.add_assoc, BL. cbn [Nat.add postLoop]. rewrite (isTok_yes _ _ (head_sym _ _ _ G1 V1)).
      unfold getIdxOP. cbn [wd]. destruct (Z.leb_spec (dd + 1) 0); [lia|]. rewrite E3. cbn [pbind].
      rewrite (chkTok_yes _ _ (head_sym _ _ _ G3 V3)). cbn [pbind wt wd Z.eqb Pos.eqb negb orb TyINT].
      replace (dd + 1 - 1) with dd by lia.
      assert ((if (0 <? dd) || (tt <=? 0) then POk IDXR else if tt =? TyINT then POk IDXI else if tt =? TyCHAR then POk IDXC
        else if tt =? TyBOOL then POk IDXB else if tt =? TyVOID then PErr XVoid else PErr XBug) = POk op) as ->.
      { destruct IO as [[[K|K] ->]|[-> IO]].
        - apply Z.ltb_lt in K. rewrite K. reflexivity.
        - apply Z.leb_le in K. rewrite K, orb_true_r. reflexivity.
        - destruct IO as [[-> ->]|[[-> ->]|[-> ->]]]; reflexivity. }
      reflexivity. }
    rewrite getTok_lab, getTok_out. split; [lia|]. split; [exact LS|]. split; [exact G4|]. split; [exact V4|].
    rewrite L3, O3, getTok_lab, getTok_out, L1, O1. unfold nstr. cbn [strings]. rewrite app_length, strOut_app, <- app_assoc.
    split; [lia|reflexivity].
  - (* dot *)
    rewrite app_length in LN. cbn [List.length] in LN.
    rewrite <- app_assoc in V. cbn [app] in V.
    inversion HH as [| | | | | | | | | | | | | | | | | | | | | |l0 a0 f0 t0 d0 la xa i HA TP DP SF|]; subst.
    destruct (IHD eq_refl ltac:(lia) st _ _ _ _ _ G V ltac:(eexists; eexists; split; [reflexivity|reflexivity]) HA)
      as (w0 & s0 & m & s1 & E0 & BL & LM & LS & G1 & V1 & L1 & O1).
    destruct (next_sym _ _ _ G1 V1 ltac:(discriminate)) as (G2 & V2 & LE2).
    destruct ST as (c & r & -> & SG).
    destruct (next_val _ _ _ _ G2 V2 SG ltac:(discriminate)) as (it & O & T & G3 & V3 & S3 & _ & L3).
    apply own_val in O. destruct O as [OA OB]. rewrite OA in T. rewrite OB in S3.
    exists w0, s0, (m + 1)%nat, (getTok (getTok s1)). split; [exact E0|]. split.
    { intros F. rewrite <- Nat.add_assoc, BL. cbn [Nat.add postLoop]. 
      rewrite isTok_no by (rewrite (head_sym _ _ _ G1 V1); discriminate).
      rewrite (isTok_yes _ _ (head_sym _ _ _ G1 V1)).
      unfold getDotOP. cbn [wt wd]. destruct (Z.ltb_spec 0 t0); [lia|]. destruct (Z.ltb_spec 0 d0); [lia|]. cbn [orb].
      rewrite (chkTok_yes _ _ T). cbn [pbind]. rewrite S3, SF. reflexivity. }
    rewrite !getTok_lab, !getTok_out. split; [lia|]. split; [exact LS|]. split; [exact G3|]. split; [exact V3|]. auto.
  - (* parentheses *)
    apply PRIM. cbn [List.length] in LN. rewrite app_length in LN. cbn [List.length] in LN. cbn [app] in V. rewrite <- app_assoc in V. cbn [app] in V.
    destruct (inParens_complete expr n _ _ _ _ _ _ _ _ CE D ltac:(lia) G V HH) as (s' & E & R).
    exists s'. split; [|exact R]. unfold primary. rewrite (head_sym _ _ _ G V), Z.eqb_refl.
    unfold inParens in E. rewrite (chkTok_yes _ _ (head_sym _ _ _ G V)) in E. cbn [pbind] in E. exact E.
  - (* name *)
    apply PRIM. inversion HH as [l0 n1 i k SN SC | | | | | | | | | | | | | | | | | | | | | | |]; subst. lit G V ST.
    exists (getTok st). unfold primary. rewrite T. cbn [Z.eqb Pos.eqb cLP LxNAME]. unfold getIdent. rewrite S1, O2, SN.
    unfold nstr. cbn [strings strOut List.length Z.of_nat]. rewrite getTok_lab, getTok_out, app_nil_r, Z.add_0_r. split; [|auto 6].
    destruct SC as [[[SC|SC] ->]|[[SC ->]|[SC ->]]]; rewrite SC; reflexivity.
  - (* call without arguments *)
    apply PRIM. inversion HH as [| | | | | | | | | | | | | | | | | | | | | | |l0 f0 a0 i y SN SC NI PS]; subst. cbn [app] in V.
    destruct (next_val _ _ _ _ G V eq_refl ltac:(discriminate)) as (it & O & T & G1 & V1 & S1 & _ & L1).
    apply own_val in O. destruct O as [OA OB]. rewrite OA in T. rewrite OB in S1.
    destruct (next_sym _ _ _ G1 V1 ltac:(discriminate)) as (G2 & V2 & L2).
    destruct (getArgs_complete asExpr n i [] [] _ rest y CA ltac:(left; auto) ltac:(cbn; lia) G2 V2 ltac:(rewrite !getTok_lab; exact PS)) as (s' & E & G' & V' & L & O & LE).
    exists s'. unfold primary. rewrite T. cbn [Z.eqb Pos.eqb cLP LxNAME]. unfold getIdent. rewrite S1, SN.
    rewrite !getTok_lab, !getTok_out in *. split; [|unfold nstr; cbn [strings]; unfold nstrs in L; split; [exact G'|]; split; [exact V'|]; split; [exact L|]; split; [exact O|lia]].
    assert ((scopeAt nt i =? ScPROT) || (scopeAt nt i =? ScFUNC) = true) as -> by (destruct SC as [SC|SC]; rewrite SC; reflexivity).
    unfold getCall. rewrite (chkTok_yes _ _ (head_sym _ _ _ G1 V1)). cbn [pbind].
    destruct (Z.eqb_spec (typeAt nt i) TyINTR); [contradiction|]. rewrite E. reflexivity.
  - (* call *)
    apply PRIM. inversion HH as [| | | | | | | | | | | | | | | | | | | | | | |l0 f0 a0 i y SN SC NI PS]; subst. cbn [app List.length] in *.
    rewrite app_length in LN. cbn [List.length] in LN. rewrite <- app_assoc in V. cbn [app] in V.
    destruct (next_val _ _ _ _ G V eq_refl ltac:(discriminate)) as (it & O & T & G1 & V1 & S1 & _ & L1).
    apply own_val in O. destruct O as [OA OB]. rewrite OA in T. rewrite OB in S1.
    destruct (next_sym _ _ _ G1 V1 ltac:(discriminate)) as (G2 & V2 & L2).
    destruct (getArgs_complete asExpr n i args ts _ rest y CA ltac:(right; assumption) ltac:(lia) G2 V2 ltac:(rewrite !getTok_lab; exact PS)) as (s' & E & G' & V' & L & O & LE).
    exists s'. unfold primary. rewrite T. cbn [Z.eqb Pos.eqb cLP LxNAME]. unfold getIdent. rewrite S1, SN.
    rewrite !getTok_lab, !getTok_out in *. split; [|unfold nstr; cbn [strings]; unfold nstrs in L; split; [exact G'|]; split; [exact V'|]; split; [exact L|]; split; [exact O|lia]].
    assert ((scopeAt nt i =? ScPROT) || (scopeAt nt i =? ScFUNC) = true) as -> by (destruct SC as [SC|SC]; rewrite SC; reflexivity).
    unfold getCall. rewrite (chkTok_yes _ _ (head_sym _ _ _ G1 V1)). cbn [pbind].
    destruct (Z.eqb_spec (typeAt nt i) TyINTR); [contradiction|]. rewrite E. reflexivity.
  - (* integer *)
    apply PRIM. inversion HH; subst. lit G V ST. exists (getTok st). unfold primary. rewrite T, W1, O2.
    unfold nstr. cbn [strings strOut List.length Z.of_nat]. rewrite getTok_lab, getTok_out, app_nil_r, Z.add_0_r. split; [reflexivity|auto 6].
  - (* character *)
    apply PRIM. inversion HH; subst. lit G V ST. exists (getTok st). unfold primary. rewrite T, W1, O2.
    unfold nstr. cbn [strings strOut List.length Z.of_nat]. rewrite getTok_lab, getTok_out, app_nil_r, Z.add_0_r. split; [reflexivity|auto 6].
  - (* boolean *)
    apply PRIM. inversion HH; subst. lit G V ST. exists (getTok st). unfold primary. rewrite T, W1, O2.
    unfold nstr. cbn [strings strOut List.length Z.of_nat]. rewrite getTok_lab, getTok_out, app_nil_r, Z.add_0_r. split; [reflexivity|auto 6].
  - (* string *)
    apply PRIM. inversion HH; subst. lit G V ST. unfold primary. rewrite T. cbn [Z.eqb Pos.eqb cLP LxNAME LxINTEGER LxCHARACTER LxLOGICAL LxSTRING].
    unfold genStr. rewrite S1, O2. eexists. rewrite getTok_lab, getTok_out. split; [reflexivity|]. cbn [its clab outp].
    unfold good. cbn [its]. split; [exact G1|]. split; [exact V1|]. unfold nstr. cbn [strings strOut List.length Z.of_nat]. auto.
  - (* null *)
    apply PRIM. inversion HH; subst. cbn [app] in V. destruct (next_sym _ _ _ G V ltac:(discriminate)) as (G1 & V1 & L1).
    exists (getTok st). unfold primary. rewrite (head_sym _ _ _ G V).
    unfold nstr. cbn [strings strOut List.length Z.of_nat]. rewrite getTok_lab, getTok_out, app_nil_r, Z.add_0_r. split; [reflexivity|auto 6].
  - (* sizeof *)
    apply PRIM. inversion HH; subst. cbn [app] in V. rewrite <- app_assoc in V. cbn [app] in V.
    match goal with A : tyCode nt t <> TyNON, B : ~ _ |- _ => destruct (getSizeof_complete t d st rest G V A B) as (s' & E & G1 & V1 & L1 & O1 & LE) end.
    exists s'. unfold primary. rewrite (head_sym _ _ _ G V). rewrite L1, O1.
    unfold nstr. cbn [strings strOut List.length Z.of_nat]. rewrite app_nil_r, Z.add_0_r. split; [exact E|auto 6].
  - (* addrof *)
    apply PRIM. inversion HH; subst.
    match goal with A : ntSrcName nt _ = Some ?i, B : isGlob _ = true |- _ => destruct (getAddrof_complete _ st rest i G V A B) as (s' & E & G1 & V1 & L1 & O1 & LE) end.
    exists s'. unfold primary. cbn [app] in V. rewrite (head_sym _ _ _ G V). rewrite L1, O1.
    unfold nstr. cbn [strings strOut List.length Z.of_nat]. rewrite app_nil_r, Z.add_0_r. split; [exact E|auto 6].
  - (* ord *)
    apply PRIM. cbn [List.length] in LN. rewrite app_length in LN. cbn [List.length] in LN. cbn [app] in V. rewrite <- app_assoc in V. cbn [app] in V.
    inversion HH; subst.
    destruct (next_sym _ _ _ G V ltac:(discriminate)) as (G1 & V1 & L1).
    match goal with A : has nt _ e ?t 0 ?l ?x |- _ => destruct (inParens_complete expr n e ts _ rest t 0 l x CE D ltac:(lia) G1 V1 ltac:(rewrite getTok_lab; exact A)) as (s' & E & G' & V' & L & O & LE) end.
    exists s'. rewrite getTok_lab in *. rewrite getTok_out in *. split; [|split; [exact G'|]; split; [exact V'|]; split; [exact L|]; split; [exact O|lia]].
    unfold primary. rewrite (head_sym _ _ _ G V). change (getOrd expr (getTok st) = POk (W TyINT 0 false x, s')). unfold getOrd. rewrite E. cbn [pbind wt wd tr].
    match goal with A : _ \/ _ |- _ => destruct A; subst end; reflexivity.
  - (* chr *)
    apply PRIM. cbn [List.length] in LN. rewrite app_length in LN. cbn [List.length] in LN. cbn [app] in V. rewrite <- app_assoc in V. cbn [app] in V.
    inversion HH; subst.
    destruct (next_sym _ _ _ G V ltac:(discriminate)) as (G1 & V1 & L1).
    match goal with A : has nt _ e ?t 0 ?l ?x |- _ => destruct (inParens_complete expr n e ts _ rest t 0 l x CE D ltac:(lia) G1 V1 ltac:(rewrite getTok_lab; exact A)) as (s' & E & G' & V' & L & O & LE) end.
    exists s'. rewrite getTok_lab in *. rewrite getTok_out in *. split; [|split; [exact G'|]; split; [exact V'|]; split; [exact L|]; split; [exact O|lia]].
    unfold primary. rewrite (head_sym _ _ _ G V). match goal with |- _ = ?R => change (getChr expr (getTok st) = R) end. unfold getChr. rewrite E. reflexivity.
  - (* bool *)
    apply PRIM. cbn [List.length] in LN. rewrite app_length in LN. cbn [List.length] in LN. cbn [app] in V. rewrite <- app_assoc in V. cbn [app] in V.
    inversion HH; subst.
    destruct (next_sym _ _ _ G V ltac:(discriminate)) as (G1 & V1 & L1).
    match goal with A : has nt _ e ?t 0 ?l ?x |- _ => destruct (inParens_complete expr n e ts _ rest t 0 l x CE D ltac:(lia) G1 V1 ltac:(rewrite getTok_lab; exact A)) as (s' & E & G' & V' & L & O & LE) end.
    exists s'. rewrite getTok_lab in *. rewrite getTok_out in *. split; [|split; [exact G'|]; split; [exact V'|]; split; [exact L|]; split; [exact O|lia]].
    unfold primary. rewrite (head_sym _ _ _ G V). match goal with |- _ = ?R => change (getBool expr (getTok st) = R) end. unfold getBool. rewrite E. reflexivity.
Qed.
Lemma getFactor_complete asExpr expr n : complete 1 asExpr n -> complete 0 expr n -> complete 13 (getFactor nt asExpr expr) (S n).
Proof.
  intros CA CE e ts s rest t d lv x D LN G V ST HH.
  destruct (postfix_complete asExpr expr n CA CE e ts D LN s rest t d lv x G V (stops_signed _ _ ST) HH)
    as (w0 & s0 & m & s' & E & BL & LM & LS & G' & V' & L & O).
  exists s'. rewrite getFactor_primary, E. cbn [pbind].
  replace (fuelOf s0) with (m + S (List.length (its s0) - m))%nat by (unfold fuelOf; lia). rewrite BL. cbn [postLoop].
  destruct ST as (c & r & ER & SG & N). rewrite ER in V'.
  rewrite isTok_no by (rewrite (head_sym _ _ _ G' V'); intros ->; apply N; left; reflexivity).
  rewrite isTok_no by (rewrite (head_sym _ _ _ G' V'); intros ->; apply N; right; left; reflexivity).
  split; [reflexivity|]. rewrite ER. split; [exact G'|]. split; [exact V'|]. split; [exact L|]. split; [exact O|]. lia.
Qed.

(* ---- unary ---- *)
Lemma postfix_head e ts : derives 13 e ts -> forall s rest, good s -> view (its s) = ts ++ rest ->
  tok s <> cPLUS /\ tok s <> cMINUS /\ tok s <> cBANG /\ tok s <> cTILDE.
Proof.
  intros D. remember 13%nat as k eqn:EK. revert EK. induction D; intros EK st rest G V; try discriminate EK; try (exfalso; lia);
    try (subst k; contradiction H; fail);
    try (rewrite <- app_assoc in V; exact (IHD1 eq_refl _ _ G V)); try (rewrite <- app_assoc in V; exact (IHD eq_refl _ _ G V));
    cbn [app] in V; try (rewrite (head_sym _ _ _ G V); repeat split; discriminate);
    destruct (view_head _ _ _ G V) as (it & O & T & _); rewrite T; apply own_val in O; destruct O as [-> _]; repeat split; discriminate.
Qed.
Lemma getUniExpr_complete asExpr expr n : complete 1 asExpr n -> complete 0 expr n ->
  forall e ts, derives 12 e ts -> (List.length ts <= S n)%nat ->
  forall s rest t d lv x F, good s -> view (its s) = ts ++ rest -> stops 12 rest -> has nt (clab s) e t d lv x ->
  (List.length (its s) < F)%nat -> gives (getUniExpr nt asExpr expr F) s e rest t d lv x.
Proof.
  intros CA CE e ts D. remember 12%nat as k eqn:EK. revert EK.
  induction D; intros EK LN st rest tt dd lv x F G V ST HH LF; try discriminate EK.
  - subst k. destruct F as [|F]; [lia|].
    destruct (postfix_head _ _ D _ _ G V) as (N1 & N2 & N3 & N4).
    destruct (getFactor_complete asExpr expr n CA CE _ _ _ _ _ _ _ _ D LN G V (stops_le 12 13 _ ltac:(lia) ST) HH) as (s' & E & R).
    exists s'. split; [|exact R]. cbn [getUniExpr].
    destruct (Z.eqb_spec (tok st) cPLUS); [contradiction|]. destruct (Z.eqb_spec (tok st) cMINUS); [contradiction|].
    destruct (Z.eqb_spec (tok st) cBANG); [contradiction|]. destruct (Z.eqb_spec (tok st) cTILDE); [contradiction|]. exact E.
  - subst k. contradiction H.
  - destruct F as [|F]; [lia|]. cbn [List.length] in LN. cbn [app] in V.
    destruct (next_sym _ _ _ G V ltac:(destruct u; discriminate)) as (G1 & V1 & L1).
    assert (forall t1 d1 l1 x1, has nt (clab st) e t1 d1 l1 x1 ->
      exists s', getUniExpr nt asExpr expr F (getTok st) = POk (W t1 d1 l1 x1, s') /\ good s' /\ view (its s') = rest /\
      clab s' = clab st + nstr (AUn u e) /\ outp s' = outp st ++ strOut (clab st) (strings (AUn u e)) /\ (List.length (its s') < List.length (its st))%nat) as R.
    { intros t1 d1 l1 x1 HE. destruct (IHD eq_refl ltac:(lia) (getTok st) rest t1 d1 l1 x1 F G1 V1 ST ltac:(rewrite getTok_lab; exact HE) ltac:(lia)) as (s' & E & G' & V' & L & O & LE).
      rewrite getTok_lab in *. rewrite getTok_out in *. exists s'. split; [exact E|]. split; [exact G'|]. split; [exact V'|]. split; [exact L|]. split; [exact O|lia]. }
    unfold gives. cbn [getUniExpr]. rewrite (head_sym _ _ _ G V).
    inversion HH; subst; cbn [unTok];
    match goal with A : has nt _ e ?t ?d ?l ?y |- _ => destruct (R t d l y A) as (s' & E & R') end; exists s'; (split; [|exact R']).
    + rewrite Z.eqb_refl. rewrite E. cbn [pbind].
      match goal with A : intLike ?t ?d, B : has nt _ e ?t ?d ?l ?y |- _ => destruct (chkType_int_ok (W t d l y) A) as (w' & -> & T1 & D1 & X1) end.
      cbn [pbind]. rewrite T1, D1, X1. reflexivity.
    + change (cMINUS =? cPLUS) with false. rewrite Z.eqb_refl. cbn iota. rewrite E. cbn [pbind].
      match goal with A : intLike ?t ?d, B : has nt _ e ?t ?d ?l ?y |- _ => destruct (chkType_int_ok (W t d l y) A) as (w' & -> & T1 & D1 & X1) end.
      cbn [pbind]. unfold mk1. rewrite T1, D1, X1. reflexivity.
    + change (cTILDE =? cPLUS) with false. change (cTILDE =? cMINUS) with false. change (cTILDE =? cBANG) with false. rewrite Z.eqb_refl. cbn iota. rewrite E. cbn [pbind].
      match goal with A : intLike ?t ?d, B : has nt _ e ?t ?d ?l ?y |- _ => destruct (chkType_int_ok (W t d l y) A) as (w' & -> & T1 & D1 & X1) end.
      cbn [pbind]. unfold mk1. rewrite T1, D1, X1. reflexivity.
    + change (cBANG =? cPLUS) with false. change (cBANG =? cMINUS) with false. rewrite Z.eqb_refl. cbn iota. rewrite E. cbn [pbind].
      rewrite chkType_bool_ok by reflexivity. reflexivity.
Qed.
Lemma uni_complete asExpr expr n : complete 1 asExpr n -> complete 0 expr n -> complete 12 (uni nt asExpr expr) (S n).
Proof.
  intros CA CE e ts s rest t d lv x D LN G V ST HH. unfold uni.
  exact (getUniExpr_complete asExpr expr n CA CE e ts D LN s rest t d lv x (fuelOf s) G V ST HH ltac:(unfold fuelOf; lia)).
Qed.

(* ---- assignment and the whole ---- *)
Lemma getAsExprF_complete f : complete 1 (getAsExprF nt f) f.
Proof.
  induction f as [|f IH]; intros e ts s rest t d lv x D LN G V ST HH.
  { exfalso. pose proof (derives_nonempty _ _ _ D). lia. }
  pose proof (levels_complete _ _ (S f) (uni_complete _ _ f IH (commaExpr_complete _ f IH))) as C2.
  cbn [getAsExprF]. unfold gives.
  inversion D as [k0 e0 ts0 KL D2| |a b ta tb D1 D2|k0 tk o a b ta tb HO| | | | | | | | | | | | | | | | | ]; subst.
  - destruct (C2 _ _ _ _ _ _ _ _ D2 LN G V (stops_le 1 2 _ ltac:(lia) ST) HH) as (s' & E & G' & V' & L & O & LE).
    exists s'. rewrite E. cbn [pbind]. split; [|auto 6].
    destruct ST as (c & r & ER & SG & N). rewrite ER in V'.
    rewrite isTok_no; [reflexivity|]. rewrite (head_sym _ _ _ G' V'). intros ->. apply N. right; right; right; left. auto.
  - rewrite app_length in LN. cbn [List.length] in LN. rewrite <- app_assoc in V. cbn [app] in V.
    pose proof (derives_nonempty _ _ _ D1) as NE.
    inversion HH as [| | | | | | | | | | | | | | | | | | |l0 a0 b0 t0 d0 x1 t2 d2 l2 x2 HA HB FT| | | |]; subst.
    destruct (C2 _ _ _ _ _ _ _ _ D1 ltac:(lia) G V (stops_c 2 cEQ _ eq_refl eq_refl) HA) as (s1 & E & G1 & V1 & L1 & O1 & LE1).
    destruct (next_sym _ _ _ G1 V1 ltac:(discriminate)) as (G2 & V2 & LE2).
    destruct (IH _ _ _ _ _ _ _ _ D2 ltac:(lia) G2 V2 ST ltac:(rewrite getTok_lab, L1; exact HB)) as (s3 & E3 & G3 & V3 & L3 & O3 & LE3).
    exists s3. rewrite E. cbn [pbind]. rewrite (isTok_yes _ _ (head_sym _ _ _ G1 V1)). rewrite E3. cbn [pbind wt wd].
    destruct (chkCmpat_yes (W t2 d2 l2 x2) t d FT) as (w' & -> & TW). cbn [pbind lhs negb]. unfold mk2. rewrite TW. cbn [Parser.tr].
    split; [reflexivity|]. split; [exact G3|]. split; [exact V3|].
    rewrite L3, O3, getTok_lab, getTok_out, L1, O1. unfold nstr. cbn [strings]. rewrite app_length, strOut_app, <- app_assoc.
    split; [lia|]. split; [reflexivity|lia].
  - contradiction HO.
Qed.
Lemma view_len l : (List.length (view l) <= List.length l)%nat.
Proof. induction l as [|i r IH]; cbn [view List.length]; [lia|]. destruct (tokOf i =? LxFILE); cbn [List.length]; lia. Qed.
Lemma getAsExpr_complete e ts s rest t d lv x : derives 1 e ts -> good s -> view (its s) = ts ++ rest -> stops 1 rest ->
  has nt (clab s) e t d lv x -> gives (getAsExpr nt) s e rest t d lv x.
Proof.
  intros D G V ST HH. unfold getAsExpr.
  apply (getAsExprF_complete (fuelOf s) e ts s rest t d lv x D); try assumption.
  unfold fuelOf. pose proof (view_len (its s)) as VL. rewrite V, app_length in VL. lia.
Qed.
Lemma getExpr_complete e ts s rest t d lv x : derives 0 e ts -> good s -> view (its s) = ts ++ rest -> stops 0 rest ->
  has nt (clab s) e t d lv x -> gives (getExpr nt) s e rest t d lv x.
Proof.
  intros D G V ST HH. unfold getExpr.
  apply (commaExpr_complete (getAsExpr nt) (List.length ts)) with (ts := ts); auto.
  intros e' ts' s' rest' t' d' lv' x' D' _ G' V' ST' HH'. exact (getAsExpr_complete e' ts' s' rest' t' d' lv' x' D' G' V' ST' HH').
Qed.
End Complete.
