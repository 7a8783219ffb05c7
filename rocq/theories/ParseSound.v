(* Whatever the expression parser accepts is derivable in the grammar and well typed. *)
From Coq Require Import ZArith Bool Lia List.
From Verif Require Import Lexer NameTable SyTree Parser ParseSpec.
Import ListNotations.
Open Scope Z_scope.

Ltac pb H :=
  match type of H with
  | pbind ?c _ = POk _ => let E := fresh "E" in destruct c eqn:E; cbn [pbind] in H; try discriminate H
  | (if ?c then _ else _) = POk _ => let E := fresh "E" in destruct c eqn:E; try discriminate H
  end.

(* ---- streams ---- *)
Definition clean (l : list item) : Prop := match l with i :: _ => tokOf i <> LxFILE | [] => True end.
Definition good (s : es) : Prop := clean (its s) /\ steady (its s).

Lemma skipFile_clean l : clean (skipFile l).
Proof.
  induction l as [|i r IH]; cbn [skipFile]; [exact I|].
  destruct (tokOf i =? LxFILE) eqn:E; [exact IH|]. cbn. apply Z.eqb_neq. exact E.
Qed.
Lemma skipFile_steady l : steady l -> steady (skipFile l).
Proof.
  induction l as [|i r IH]; cbn [skipFile]; [trivial|]. intros H.
  destruct (tokOf i =? LxFILE); [apply IH; exact (proj2 H)|exact H].
Qed.
Lemma skipFile_view l : view (skipFile l) = view l.
Proof.
  induction l as [|i r IH]; cbn [skipFile view]; [reflexivity|].
  destruct (tokOf i =? LxFILE) eqn:E; [exact IH|]. cbn [view]. rewrite E. reflexivity.
Qed.
Lemma skipFile_len l : (List.length (skipFile l) <= List.length l)%nat.
Proof. induction l as [|i r IH]; cbn [skipFile]; [lia|]. destruct (tokOf i =? LxFILE); cbn [List.length]; lia. Qed.
Lemma skipFile_id l : clean l -> skipFile l = l.
Proof.
  destruct l as [|i r]; [reflexivity|]. cbn [clean skipFile]. intros H.
  destruct (Z.eqb_spec (tokOf i) LxFILE); [contradiction|reflexivity].
Qed.

Lemma good_getTok s : good s -> good (getTok s).
Proof.
  intros [C S]. unfold getTok. destruct (its s) as [|i r] eqn:E; [unfold good; rewrite E; split; assumption|].
  destruct (tokOf i =? EOFtok); [unfold good; rewrite E; split; assumption|].
  split; cbn [its]; [apply skipFile_clean|apply skipFile_steady; exact (proj2 S)].
Qed.
Lemma getTok_lab s : clab (getTok s) = clab s.
Proof. unfold getTok. destruct (its s) as [|i r]; [reflexivity|]. destruct (tokOf i =? EOFtok); reflexivity. Qed.
Lemma getTok_out s : outp (getTok s) = outp s.
Proof. unfold getTok. destruct (its s) as [|i r]; [reflexivity|]. destruct (tokOf i =? EOFtok); reflexivity. Qed.

Lemma tok_cons s k : tok s = k -> k <> EOFtok -> exists i r, its s = i :: r /\ tokOf i = k.
Proof. unfold tok. destruct (its s) as [|i r]; [intros <- X; contradiction|]. intros H _. exists i, r. split; [reflexivity|exact H]. Qed.

Lemma own_sym i : valued (tokOf i) = false -> own i = TSym (tokOf i).
Proof.
  destruct i as [[[t v] st] ln]. unfold valued, own, tokOf. intros H.
  apply orb_false_iff in H. destruct H as [H H5]. apply orb_false_iff in H. destruct H as [H H4].
  apply orb_false_iff in H. destruct H as [H H3]. apply orb_false_iff in H. destruct H as [H1 H2].
  rewrite H1, H2, H3, H4, H5. reflexivity.
Qed.
(* a token without a value is read *)
Lemma view_sym s k : good s -> tok s = k -> k <> EOFtok -> valued k = false ->
  view (its s) = TSym k :: view (its (getTok s)).
Proof.
  intros [C _] T N V. destruct (tok_cons s k T N) as (i & r & E & K). unfold getTok. rewrite E in *.
  cbn [clean] in C. cbn [view]. destruct (Z.eqb_spec (tokOf i) LxFILE); [contradiction|].
  destruct (Z.eqb_spec (tokOf i) EOFtok) as [X|X]; [congruence|]. cbn [its].
  rewrite skipFile_view, own_sym; rewrite K; [reflexivity|exact V].
Qed.
(* a token with a value is read and a sign follows: the value is still there *)
Lemma view_val s k : good s -> tok s = k -> valued k = true -> sign (tok (getTok s)) = true ->
  exists i, tokOf i = k /\ view (its s) = own i :: view (its (getTok s)) /\
            strOf i = lxGetStr (getTok s) /\ valOf i = lxGetVal (getTok s).
Proof.
  intros [C S] T V SG.
  assert (k <> EOFtok) as N by (intros ->; discriminate V).
  destruct (tok_cons s k T N) as (i & r & E & K). exists i. split; [exact K|].
  revert SG. unfold getTok, lxGetStr, lxGetVal. rewrite E in *.
  cbn [clean] in C. cbn [view]. destruct (Z.eqb_spec (tokOf i) LxFILE); [contradiction|].
  destruct (Z.eqb_spec (tokOf i) EOFtok) as [X|X]; [congruence|]. unfold tok. cbn [its].
  cbn [steady] in S. destruct S as [S _]. destruct r as [|j r].
  - exfalso. rewrite K, V in S. discriminate S.
  - rewrite K in S. destruct (S V) as [S1 S2].
    assert (skipFile (j :: r) = j :: r) as -> by (apply skipFile_id; exact S1). intros SG.
    destruct (S2 SG) as [S3 S4]. destruct j as [[[t v] st] ln]. cbn [strOf valOf] in S3, S4.
    split; [reflexivity|]. split; symmetry; assumption.
Qed.
Lemma view_name s : good s -> tok s = LxNAME -> sign (tok (getTok s)) = true ->
  view (its s) = TName (lxGetStr (getTok s)) :: view (its (getTok s)).
Proof.
  intros G T S. destruct (view_val s LxNAME G T eq_refl S) as (i & K & V & ST & VA).
  rewrite V, <- ST. destruct i as [[[t v] st] ln]. cbn in K. subst t. reflexivity.
Qed.

Lemma chkTok_ok k s s' : chkTok k s = POk s' -> tok s = k /\ s' = getTok s.
Proof. unfold chkTok. destruct (Z.eqb_spec (tok s) k); [|discriminate]. intros H. injection H as <-. split; [assumption|reflexivity]. Qed.
Lemma isTok_ok k s s' : isTok k s = Some s' -> tok s = k /\ s' = getTok s.
Proof. unfold isTok. destruct (Z.eqb_spec (tok s) k); [|discriminate]. intros H. injection H as <-. split; [assumption|reflexivity]. Qed.

(* ---- type checks ---- *)
Lemma chkType_int w w' : chkType w TyINT = POk w' -> 0 <= wd w ->
  intLike (wt w) (wd w) /\ wt w' = TyINT /\ wd w' = 0 /\ tr w' = tr w.
Proof.
  unfold chkType. destruct (Z.ltb_spec 0 (wd w)); [discriminate|]. intros E N.
  assert (wd w = 0) as D by lia. unfold autoCast in E. rewrite D in E. cbn [Z.eqb negb orb] in E.
  unfold intLike. rewrite D.
  destruct (Z.eqb_spec (wt w) TyCHAR) as [C|C]; cbn in E.
  - injection E as <-. cbn. repeat split; auto.
  - destruct (wt w =? TyVOID); [discriminate|]. destruct (Z.eqb_spec (wt w) TyINT) as [I|I]; [|discriminate].
    cbn in E. injection E as <-. repeat split; auto.
Qed.
Lemma chkType_bool w w' : chkType w TyBOOL = POk w' -> 0 <= wd w ->
  wt w = TyBOOL /\ wd w = 0 /\ w' = w.
Proof.
  unfold chkType. destruct (Z.ltb_spec 0 (wd w)); [discriminate|]. intros E N.
  assert (wd w = 0) as D by lia. unfold autoCast in E. rewrite D in E. cbn [Z.eqb negb orb] in E.
  rewrite andb_comm in E. cbn in E.
  destruct (wt w =? TyVOID); [discriminate|]. destruct (Z.eqb_spec (wt w) TyBOOL) as [I|I]; [|discriminate].
  cbn in E. injection E as <-. repeat split; auto.
Qed.
Ltac zb :=
  repeat match goal with
  | H : context [?a =? ?b] |- _ => destruct (Z.eqb_spec a b); cbn [negb andb orb] in H
  | H : context [?a <=? ?b] |- _ => destruct (Z.leb_spec a b); cbn [negb andb orb] in H
  | H : context [?a <? ?b] |- _ => destruct (Z.ltb_spec a b); cbn [negb andb orb] in H
  end.
Lemma fits_refl t d : fits t d t d.
Proof. left. auto. Qed.
Lemma chkCmpat_ok w t d w' : chkCmpat w t d = POk w' ->
  fits (wt w) (wd w) t d /\ tr w' = tr w.
Proof.
  unfold chkCmpat. set (u := autoCast w t d). intros H. pb H. injection H as <-.
  assert (tr u = tr w) as TR.
  { unfold u, autoCast. destruct (negb (wd w =? 0) || negb (d =? 0)); [reflexivity|].
    destruct ((wt w =? TyCHAR) && (t =? TyINT)); reflexivity. }
  split; [|exact TR].
  assert (fits (wt u) (wd u) t d) as F.
  { unfold fits.
    destruct (Z.eqb_spec (wt u) TyVOID), (Z.ltb_spec 0 (wd u)), (Z.ltb_spec 0 d), (Z.eqb_spec t TyVOID),
      (Z.eqb_spec (wd u) 1), (Z.leb_spec t 0), (Z.eqb_spec d 1), (Z.leb_spec (wt u) 0),
      (Z.eqb_spec (wt u) t), (Z.eqb_spec (wd u) d); cbn in E; try discriminate E; lia. }
  revert F. unfold u, autoCast.
  destruct (Z.eqb_spec (wd w) 0) as [D|D]; cbn [negb orb]; [|trivial].
  destruct (Z.eqb_spec d 0) as [D'|D']; cbn [negb]; [|trivial].
  destruct (Z.eqb_spec (wt w) TyCHAR) as [C|C]; cbn [andb]; [|trivial].
  destruct (Z.eqb_spec t TyINT) as [I|I]; [|trivial]. intros _. right. left. auto.
Qed.

Lemma nstr_app a b : Z.of_nat (List.length (strings a ++ strings b)) = nstr a + nstr b.
Proof. unfold nstr. rewrite app_length. lia. Qed.
Lemma strOut_app l a b : strOut l (a ++ b) = strOut l a ++ strOut (l + Z.of_nat (List.length a)) b.
Proof.
  revert l. induction a as [|x a IH]; intros l; cbn [app strOut List.length].
  - rewrite Z.add_0_r. reflexivity.
  - rewrite IH. replace (l + 1 + Z.of_nat (List.length a)) with (l + Z.of_nat (S (List.length a))) by lia. reflexivity.
Qed.

Section Sound.
Variable nt : table.
Hypothesis dims : forall i, 0 <= dimAt nt i.

(* what has been read from s0 up to s is e, at level k, and w describes it *)
Definition done (k : nat) (s0 : es) (w : watch) (s : es) : Prop :=
  exists e ts, view (its s0) = ts ++ view (its s) /\ derives k e ts /\
    has nt (clab s0) e (wt w) (wd w) (lhs w) (tr w) /\ 0 <= wd w /\
    clab s = clab s0 + nstr e /\ outp s = outp s0 ++ strOut (clab s0) (strings e).
Definition read (k : nat) (s0 : es) (w : watch) (s : es) : Prop :=
  good s /\ (sign (tok s) = true -> done k s0 w s).
Definition sound (k : nat) (p : parser) : Prop :=
  forall s w s', good s -> p s = POk (w, s') -> read k s w s'.

Lemma done_up k s0 w s : (k < 13)%nat -> done (S k) s0 w s -> done k s0 w s.
Proof. intros K (e & ts & A & B & C). exists e, ts. split; [exact A|]. split; [apply d_up; assumption|exact C]. Qed.
Lemma read_up k s0 w s : (k < 13)%nat -> read (S k) s0 w s -> read k s0 w s.
Proof. intros K [G D]. split; [exact G|]. intros S. apply done_up; auto. Qed.

(* two expressions with a token between them *)
Lemma done_two k1 k2 k s0 w1 s1 t w2 s2 (f : ast -> ast -> ast) w :
  good s1 -> tok s1 = t -> t <> EOFtok -> sign t = true -> valued t = false ->
  read k1 s0 w1 s1 -> read k2 (getTok s1) w2 s2 ->
  (forall a b, strings (f a b) = strings a ++ strings b) ->
  (forall a b ta tb, derives k1 a ta -> derives k2 b tb -> derives k (f a b) (ta ++ TSym t :: tb)) ->
  (forall l a b, has nt l a (wt w1) (wd w1) (lhs w1) (tr w1) -> 0 <= wd w1 ->
     has nt (l + nstr a) b (wt w2) (wd w2) (lhs w2) (tr w2) -> 0 <= wd w2 ->
     has nt l (f a b) (wt w) (wd w) (lhs w) (tr w) /\ 0 <= wd w) ->
  read k s0 w s2.
Proof.
  intros G T NE SG V [_ R1] [G2 R2] ST DV HS. split; [exact G2|]. intros S2.
  rewrite T in R1. destruct (R1 SG) as (a & ta & Va & Da & Ha & Wa & La & Oa).
  destruct (R2 S2) as (b & tb & Vb & Db & Hb & Wb & Lb & Ob).
  rewrite getTok_lab in Lb, Hb, Ob. rewrite getTok_out in Ob. rewrite La in Hb, Lb, Ob.
  destruct (HS _ _ _ Ha Wa Hb Wb) as [H0 W0].
  exists (f a b), (ta ++ TSym t :: tb). split.
  - rewrite Va, (view_sym s1 t G T NE V), Vb. rewrite <- app_assoc. reflexivity.
  - split; [apply DV; assumption|]. split; [exact H0|]. split; [exact W0|].
    unfold nstr at 1. rewrite ST, nstr_app. split; [rewrite Lb; lia|].
    rewrite Ob, Oa, strOut_app, <- app_assoc. reflexivity.
Qed.

Definition acts (k : nat) (act : op2 -> watch -> watch -> pres watch) : Prop :=
  forall t o w1 w2 w, In (t, o) (levelOps k) -> act o w1 w2 = POk w ->
  forall l a b, has nt l a (wt w1) (wd w1) (lhs w1) (tr w1) -> 0 <= wd w1 ->
    has nt (l + nstr a) b (wt w2) (wd w2) (lhs w2) (tr w2) -> 0 <= wd w2 ->
    has nt l (ABin o a b) (wt w) (wd w) (lhs w) (tr w) /\ 0 <= wd w.

Lemma opOf_In ops t o : opOf ops t = Some o -> In (t, o) ops.
Proof.
  induction ops as [|[k p] r IH]; cbn [opOf]; [discriminate|].
  destruct (Z.eqb_spec t k) as [->|]; [intros H; injection H as ->; left; reflexivity|right; auto].
Qed.
Definition opTok (k : nat) : Prop :=
  forall t o, In (t, o) (levelOps k) -> t <> EOFtok /\ sign t = true /\ valued t = false.
Lemma opTok_all k : opTok k.
Proof.
  intros t o H. do 12 (destruct k as [|k]; [cbn in H; repeat (destruct H as [H|H]; [injection H as <- <-; repeat split; discriminate|]); contradiction|]).
  destruct k; contradiction H.
Qed.

Lemma binLoop_sound k act next : acts k act -> sound (S k) next -> (k < 13)%nat ->
  forall fuel s0 w s w' s', read k s0 w s -> binLoop (levelOps k) act next fuel w s = POk (w', s') ->
  read k s0 w' s'.
Proof.
  intros AC SN K. induction fuel as [|fuel IH]; intros s0 w s w' s' R H; [discriminate H|].
  cbn [binLoop] in H. destruct (opOf (levelOps k) (tok s)) as [o|] eqn:O.
  - apply opOf_In in O. pb H. destruct a as [w2 s2]. pb H.
    apply (IH s0 a s2 w' s'); [|exact H].
    destruct R as [G R]. destruct (opTok_all k _ _ O) as (N & SG & V).
    apply (done_two k (S k) k s0 w s (tok s) w2 s2 (ABin o) a); auto.
    + split; assumption.
    + apply SN; [apply good_getTok; exact G|exact E].
    + intros. apply d_bin; assumption.
    + intros l x y. apply (AC (tok s) o w w2 a O E0).
  - injection H as <- <-. exact R.
Qed.
Lemma binExpr_sound k act next : acts k act -> sound (S k) next -> (k < 13)%nat ->
  sound k (binExpr (levelOps k) act next).
Proof.
  intros AC SN K s w s' G H. unfold binExpr in H. pb H. destruct a as [w1 s1].
  eapply (binLoop_sound k act next AC SN K); [|exact H].
  apply read_up; [exact K|]. apply SN; assumption.
Qed.

Ltac ops H := cbn in H; repeat (destruct H as [H|H]; [injection H as <- <-|]); try contradiction.
Lemma cal2_int o w1 w2 w : arith o -> cal2 TyINT o w1 w2 = POk w ->
  forall l a b, has nt l a (wt w1) (wd w1) (lhs w1) (tr w1) -> 0 <= wd w1 ->
    has nt (l + nstr a) b (wt w2) (wd w2) (lhs w2) (tr w2) -> 0 <= wd w2 ->
    has nt l (ABin o a b) (wt w) (wd w) (lhs w) (tr w) /\ 0 <= wd w.
Proof.
  intros A H l a b Ha Na Hb Nb. unfold cal2 in H. pb H. pb H. injection H as <-. cbn [wt wd lhs tr].
  destruct (chkType_int _ _ E Na) as (I1 & T1 & D1 & X1). destruct (chkType_int _ _ E0 Nb) as (I2 & T2 & D2 & X2).
  rewrite T1, D1. unfold mk2. rewrite X1, X2. split; [|lia]. eapply h_arith; eassumption.
Qed.
Lemma calCmp_ok o w1 w2 w : order o -> calCmp o w1 w2 = POk w ->
  forall l a b, has nt l a (wt w1) (wd w1) (lhs w1) (tr w1) -> 0 <= wd w1 ->
    has nt (l + nstr a) b (wt w2) (wd w2) (lhs w2) (tr w2) -> 0 <= wd w2 ->
    has nt l (ABin o a b) (wt w) (wd w) (lhs w) (tr w) /\ 0 <= wd w.
Proof.
  intros A H l a b Ha Na Hb Nb. unfold calCmp, cal2 in H. pb H. injection H as <-. cbn [wt wd lhs tr].
  pb E. pb E. injection E as <-. cbn [wt wd lhs tr].
  destruct (chkType_int _ _ E0 Na) as (I1 & T1 & D1 & X1). destruct (chkType_int _ _ E1 Nb) as (I2 & T2 & D2 & X2).
  rewrite D1. unfold mk2. rewrite X1, X2. split; [|lia]. eapply h_order; eassumption.
Qed.
Lemma cal2_bool o w1 w2 w : o = AND \/ o = OR -> cal2 TyBOOL o w1 w2 = POk w ->
  forall l a b, has nt l a (wt w1) (wd w1) (lhs w1) (tr w1) -> 0 <= wd w1 ->
    has nt (l + nstr a) b (wt w2) (wd w2) (lhs w2) (tr w2) -> 0 <= wd w2 ->
    has nt l (ABin o a b) (wt w) (wd w) (lhs w) (tr w) /\ 0 <= wd w.
Proof.
  intros A H l a b Ha Na Hb Nb. unfold cal2 in H. pb H. pb H. injection H as <-. cbn [wt wd lhs tr].
  destruct (chkType_bool _ _ E Na) as (T1 & D1 & ->). destruct (chkType_bool _ _ E0 Nb) as (T2 & D2 & ->).
  rewrite T1, D1 in *. rewrite T2, D2 in Hb. split; [|lia]. eapply h_logic; eassumption.
Qed.
Lemma calEqu_ok o w1 w2 w : o = EQU \/ o = NEQ -> calEqu o w1 w2 = POk w ->
  forall l a b, has nt l a (wt w1) (wd w1) (lhs w1) (tr w1) -> 0 <= wd w1 ->
    has nt (l + nstr a) b (wt w2) (wd w2) (lhs w2) (tr w2) -> 0 <= wd w2 ->
    has nt l (ABin o a b) (wt w) (wd w) (lhs w) (tr w) /\ 0 <= wd w.
Proof.
  intros A H l a b Ha Na Hb Nb. unfold calEqu in H. pb H. injection H as <-. cbn [wt wd lhs tr].
  apply chkCmpat_ok in E. destruct E as [F X].
  split; [|lia]. unfold mk2. rewrite X.
  replace (tr (if wt w1 =? TyCHAR then setT w1 TyINT else w1)) with (tr w1) by (destruct (wt w1 =? TyCHAR); reflexivity).
  replace (tr (if wt w2 =? TyCHAR then setT w2 TyINT else w2)) with (tr w2) by (destruct (wt w2 =? TyCHAR); reflexivity).
  eapply h_equ; try eassumption. unfold comparable, asInt.
  destruct (wt w1 =? TyCHAR), (wt w2 =? TyCHAR); exact F.
Qed.

Lemma acts_mul : acts 11 (cal2 TyINT).
Proof. intros t o w1 w2 w I. apply cal2_int. ops I; unfold arith; cbn; auto 12. Qed.
Lemma acts_add : acts 10 (cal2 TyINT).
Proof. intros t o w1 w2 w I. apply cal2_int. ops I; unfold arith; cbn; auto 12. Qed.
Lemma acts_sft : acts 9 (cal2 TyINT).
Proof. intros t o w1 w2 w I. apply cal2_int. ops I; unfold arith; cbn; auto 12. Qed.
Lemma acts_cmp : acts 8 calCmp.
Proof. intros t o w1 w2 w I. apply calCmp_ok. ops I; unfold order; cbn; auto 12. Qed.
Lemma acts_equ : acts 7 calEqu.
Proof. intros t o w1 w2 w I. apply calEqu_ok. ops I; auto. Qed.
Lemma acts_and : acts 6 (cal2 TyINT).
Proof. intros t o w1 w2 w I. apply cal2_int. ops I; unfold arith; cbn; auto 12. Qed.
Lemma acts_xor : acts 5 (cal2 TyINT).
Proof. intros t o w1 w2 w I. apply cal2_int. ops I; unfold arith; cbn; auto 12. Qed.
Lemma acts_or : acts 4 (cal2 TyINT).
Proof. intros t o w1 w2 w I. apply cal2_int. ops I; unfold arith; cbn; auto 12. Qed.
Lemma acts_land : acts 3 (cal2 TyBOOL).
Proof. intros t o w1 w2 w I. apply cal2_bool. ops I; auto. Qed.
Lemma acts_lor : acts 2 (cal2 TyBOOL).
Proof. intros t o w1 w2 w I. apply cal2_bool. ops I; auto. Qed.

Lemma levels_sound asExpr expr : sound 12 (uni nt asExpr expr) -> sound 2 (getLogOrExpr nt asExpr expr).
Proof.
  intros U.
  pose proof (binExpr_sound 11 _ _ acts_mul U ltac:(lia)) as L11.
  pose proof (binExpr_sound 10 _ _ acts_add L11 ltac:(lia)) as L10.
  pose proof (binExpr_sound 9 _ _ acts_sft L10 ltac:(lia)) as L9.
  pose proof (binExpr_sound 8 _ _ acts_cmp L9 ltac:(lia)) as L8.
  pose proof (binExpr_sound 7 _ _ acts_equ L8 ltac:(lia)) as L7.
  pose proof (binExpr_sound 6 _ _ acts_and L7 ltac:(lia)) as L6.
  pose proof (binExpr_sound 5 _ _ acts_xor L6 ltac:(lia)) as L5.
  pose proof (binExpr_sound 4 _ _ acts_or L5 ltac:(lia)) as L4.
  pose proof (binExpr_sound 3 _ _ acts_land L4 ltac:(lia)) as L3.
  exact (binExpr_sound 2 _ _ acts_lor L3 ltac:(lia)).
Qed.

(* ---- comma expressions ---- *)
Lemma commaLoop_sound asExpr : sound 1 asExpr ->
  forall fuel s0 w s w' s', read 0 s0 w s -> commaLoop asExpr fuel w s = POk (w', s') -> read 0 s0 w' s'.
Proof.
  intros SA. induction fuel as [|fuel IH]; intros s0 w s w' s' R H; [discriminate H|].
  cbn [commaLoop] in H. destruct (isTok cCOMMA s) as [s1|] eqn:T.
  - apply isTok_ok in T. destruct T as [T ->]. pb H. destruct a as [w2 s2].
    apply (IH s0 _ s2 w' s' ) in H; [exact H|].
    apply (done_two 0 1 0 s0 w s cCOMMA w2 s2 AComma _); auto; try discriminate; try exact (proj1 R).
    + apply SA; [apply good_getTok; exact (proj1 R)|exact E].
    + intros. apply d_comma; assumption.
    + intros l a b Ha Na Hb Nb. cbn [wt wd lhs tr]. split; [|exact Nb]. eapply h_comma; eassumption.
  - injection H as <- <-. exact R.
Qed.
Lemma commaExpr_sound asExpr : sound 1 asExpr -> sound 0 (commaExpr asExpr).
Proof.
  intros SA s w s' G H. unfold commaExpr in H. pb H. destruct a as [w1 s1].
  eapply (commaLoop_sound asExpr SA); [|exact H]. apply read_up; [lia|]. apply SA; assumption.
Qed.

(* ---- factors ---- *)
Lemma indexOp_ok w d op :
  (if (0 <? d) || (wt w <=? 0) then POk IDXR
   else if wt w =? TyINT then POk IDXI
   else if wt w =? TyCHAR then POk IDXC
   else if wt w =? TyBOOL then POk IDXB
   else if wt w =? TyVOID then PErr XVoid
   else PErr XBug) = POk op -> 0 <= d -> indexOp (wt w) d op.
Proof.
  unfold indexOp. intros H D.
  destruct (Z.ltb_spec 0 d); cbn [orb] in H; [injection H as <-; left; auto|].
  destruct (Z.leb_spec (wt w) 0); [injection H as <-; left; auto|].
  right. split; [lia|].
  destruct (Z.eqb_spec (wt w) TyINT); [injection H as <-; auto|].
  destruct (Z.eqb_spec (wt w) TyCHAR); [injection H as <-; auto|].
  destruct (Z.eqb_spec (wt w) TyBOOL); [injection H as <-; auto|].
  destruct (wt w =? TyVOID); discriminate.
Qed.

Lemma getIdxOP_sound asExpr s0 w s w' s' : sound 1 asExpr ->
  read 13 s0 w s -> tok s = cLB -> getIdxOP asExpr w (getTok s) = POk (w', s') -> read 13 s0 w' s'.
Proof.
  intros SA R T H. unfold getIdxOP in H. destruct (Z.leb_spec (wd w) 0) as [D|D]; [discriminate|].
  pb H. destruct a as [w2 s2]. pb H. apply chkTok_ok in E0. destruct E0 as [T2 ->].
  destruct (negb (wt w2 =? TyINT) || negb (wd w2 =? 0)) eqn:TY; [discriminate|].
  apply orb_false_iff in TY. destruct TY as [TY1 TY2]. apply negb_false_iff in TY1, TY2. apply Z.eqb_eq in TY1, TY2.
  pb H. injection H as <- <-. apply indexOp_ok in E0; [|lia].
  destruct R as [G R]. destruct (SA _ _ _ (good_getTok s G) E) as [G2 R2]. split; [apply good_getTok; exact G2|]. intros _.
  rewrite T in R. rewrite T2 in R2.
  destruct (R eq_refl) as (e1 & ta & Va & Da & Ha & Wa & La & Oa).
  destruct (R2 eq_refl) as (e2 & tb & Vb & Db & Hb & Wb & Lb & Ob).
  rewrite getTok_lab in Lb, Hb, Ob. rewrite getTok_out in Ob. rewrite La in Hb, Lb, Ob.
  exists (AIndex e1 e2), (ta ++ TSym cLB :: tb ++ [TSym cRB]). split.
  - rewrite Va, (view_sym s cLB G T ltac:(discriminate) eq_refl), Vb, (view_sym s2 cRB G2 T2 ltac:(discriminate) eq_refl).
    rewrite <- !app_assoc. cbn [app]. rewrite <- app_assoc. reflexivity.
  - split; [apply d_index; assumption|]. rewrite getTok_lab, getTok_out. cbn [wt wd lhs tr]. split.
    { rewrite TY1, TY2 in Hb. replace (wd w) with (wd w - 1 + 1) in Ha by lia.
      eapply h_index; try eassumption. lia. }
    split; [lia|]. unfold nstr at 1. cbn [strings]. rewrite nstr_app. split; [rewrite Lb; lia|].
    rewrite Ob, Oa, strOut_app, <- app_assoc. reflexivity.
Qed.

Lemma getDotOP_sound s0 w s w' s' :
  read 13 s0 w s -> tok s = cDOT -> getDotOP nt w (getTok s) = POk (w', s') -> read 13 s0 w' s'.
Proof.
  intros R T H. unfold getDotOP in H.
  destruct ((0 <? wt w) || (0 <? wd w)) eqn:TY; [discriminate|].
  apply orb_false_iff in TY. destruct TY as [TY1 TY2]. apply Z.ltb_ge in TY1, TY2.
  pb H. apply chkTok_ok in E. destruct E as [T2 ->].
  destruct (ntSrcField nt (wt w) (lxGetStr (getTok (getTok s)))) as [i| |] eqn:F; try discriminate.
  injection H as <- <-.
  destruct R as [G R]. pose proof (good_getTok s G) as G1. split; [apply good_getTok; exact G1|]. intros SG.
  rewrite T in R. destruct (R eq_refl) as (e1 & ta & Va & Da & Ha & Wa & La & Oa).
  exists (ADot e1 (lxGetStr (getTok (getTok s)))), (ta ++ [TSym cDOT; TName (lxGetStr (getTok (getTok s)))]). split.
  - rewrite Va, (view_sym s cDOT G T ltac:(discriminate) eq_refl), (view_name _ G1 T2 SG), <- app_assoc. reflexivity.
  - split; [apply d_dot; exact Da|]. rewrite !getTok_lab, !getTok_out. cbn [wt wd lhs tr]. split.
    { eapply h_dot; eassumption. }
    split; [apply dims|]. split; assumption.
Qed.

Lemma postLoop_sound asExpr : sound 1 asExpr ->
  forall fuel s0 w s w' s', read 13 s0 w s -> postLoop nt asExpr fuel w s = POk (w', s') -> read 13 s0 w' s'.
Proof.
  intros SA. induction fuel as [|fuel IH]; intros s0 w s w' s' R H; [discriminate H|].
  cbn [postLoop] in H. destruct (isTok cLB s) as [s1|] eqn:T.
  - apply isTok_ok in T. destruct T as [T ->]. pb H. destruct a as [w1 s1].
    apply (IH s0 w1 s1); [|exact H]. eapply getIdxOP_sound; eassumption.
  - destruct (isTok cDOT s) as [s1|] eqn:T'.
    + apply isTok_ok in T'. destruct T' as [T' ->]. pb H. destruct a as [w1 s1].
      apply (IH s0 w1 s1); [|exact H]. eapply getDotOP_sound; eassumption.
    + injection H as <- <-. exact R.
Qed.

(* ---- arguments ---- *)
Lemma argsLoop_sound asExpr : sound 1 asExpr ->
  forall fuel p last acc s q acc' s', good s ->
  argsLoop nt asExpr fuel p last acc s = POk (q, acc', s') ->
  good s' /\ (sign (tok s') = true ->
    exists args ts, args <> [] /\ view (its s) = ts ++ view (its s') /\ derives_args args ts /\
      (last < q \/ typeAt nt q = TyDOTDOTDOT -> passes nt (clab s) args p last acc acc') /\
      clab s' = clab s + Z.of_nat (List.length (flat_map strings args)) /\
      outp s' = outp s ++ strOut (clab s) (flat_map strings args)).
Proof.
  intros SA. induction fuel as [|fuel IH]; intros p last acc s q acc' s' G H; [discriminate H|].
  cbn [argsLoop] in H. pb H. destruct a as [w s1]. destruct (Z.ltb_spec last p) as [L|L]; [discriminate|].
  pb H. destruct a as [w' p'].
  destruct (SA _ _ _ G E) as [G1 R1].
  assert (forall e, has nt (clab s) e (wt w) (wd w) (lhs w) (tr w) -> forall r y,
            passes nt (clab s + nstr e) r p' last (catE acc (tr w')) y -> passes nt (clab s) (e :: r) p last acc y) as PA.
  { intros e He r y P. destruct (Z.eqb_spec (typeAt nt p) TyDOTDOTDOT) as [DD|DD]; cbn [negb] in E0.
    - destruct ((wt w =? TyVOID) && (wd w =? 0)) eqn:V; [discriminate|]. injection E0 as <- <-.
      eapply p_more; try eassumption. intros [A B]. rewrite A, B in V. discriminate.
    - pb E0. injection E0 as <- <-. apply chkCmpat_ok in E1. destruct E1 as [F X]. rewrite X in P.
      eapply p_arg; eassumption. }
  destruct (isTok cCOMMA s1) as [s2|] eqn:T.
  - apply isTok_ok in T. destruct T as [T ->].
    destruct (IH _ _ _ _ _ _ _ (good_getTok s1 G1) H) as [G' R']. split; [exact G'|]. intros SG.
    destruct (R' SG) as (args & ts & NE & V & D & P & LA & OA).
    rewrite T in R1. destruct (R1 eq_refl) as (e & te & Ve & De & He & We & Le & Oe).
    rewrite getTok_lab in LA, OA, P. rewrite getTok_out in OA. rewrite Le in LA, OA, P.
    exists (e :: args), (te ++ TSym cCOMMA :: ts). split; [discriminate|]. split.
    { rewrite Ve, (view_sym s1 cCOMMA G1 T ltac:(discriminate) eq_refl), V, <- app_assoc. reflexivity. }
    split; [apply da_more; assumption|]. split; [intros Q; apply PA; [exact He|apply P; exact Q]|].
    cbn [flat_map]. rewrite app_length, LA, OA, Oe, strOut_app. unfold nstr. split; [lia|]. rewrite <- app_assoc. reflexivity.
  - injection H as -> <- <-. split; [exact G1|]. intros SG.
    destruct (R1 SG) as (e & te & Ve & De & He & We & Le & Oe).
    exists [e], te. split; [discriminate|]. split; [exact Ve|]. split; [apply da_one; exact De|].
    split; [intros Q; apply PA; [exact He|apply p_done; exact Q]|].
    cbn [flat_map]. rewrite app_nil_r. split; assumption.
Qed.

Lemma getCall_sound asExpr n s w s' : sound 1 asExpr -> good s ->
  getCall nt asExpr n s = POk (w, s') ->
  sign (tok s) = true /\ good s' /\ exists args ts,
    view (its s) = ts ++ view (its s') /\
    (forall f, derives 13 (ACall f args) (TName f :: ts)) /\
    (forall f, ntSrcName nt f = Some n -> scopeAt nt n = ScPROT \/ scopeAt nt n = ScFUNC ->
       has nt (clab s) (ACall f args) (wt w) (wd w) (lhs w) (tr w)) /\ 0 <= wd w /\
    clab s' = clab s + Z.of_nat (List.length (flat_map strings args)) /\
    outp s' = outp s ++ strOut (clab s) (flat_map strings args).
Proof.
  intros SA G H. unfold getCall in H. pb H. apply chkTok_ok in E. destruct E as [T ->].
  split; [rewrite T; reflexivity|].
  destruct (Z.eqb_spec (typeAt nt n) TyINTR) as [I|I]; [discriminate|]. pb H. destruct a as [x s1].
  injection H as <- <-. cbn [wt wd lhs tr]. unfold getArgs in E. pb E. destruct a as [[q acc] s2].
  pb E. apply chkTok_ok in E1. destruct E1 as [T2 ->].
  destruct (negb (typeAt nt q =? TyDOTDOTDOT) && (q <=? n + cntAt nt n)) eqn:Q; [discriminate|].
  injection E as <- <-.
  assert (n + cntAt nt n < q \/ typeAt nt q = TyDOTDOTDOT) as Q'.
  { apply andb_false_iff in Q. destruct Q as [Q|Q].
    - right. apply negb_false_iff in Q. apply Z.eqb_eq. exact Q.
    - left. apply Z.leb_gt. exact Q. }
  pose proof (good_getTok s G) as G1.
  rewrite (view_sym s cLP G T ltac:(discriminate) eq_refl).
  destruct (Z.eqb_spec (tok (getTok s)) cRP) as [R|R]; cbn [negb] in E0.
  - injection E0 as <- <- <-. split; [apply good_getTok; exact G1|].
    exists [], [TSym cLP; TSym cRP]. split.
    { rewrite (view_sym _ cRP G1 R ltac:(discriminate) eq_refl). reflexivity. }
    split; [intros f; apply d_call0|]. split.
    { intros f F SC. eapply h_call; try eassumption. apply p_done. exact Q'. }
    split; [apply dims|]. rewrite !getTok_lab, !getTok_out. cbn [flat_map strOut List.length]. rewrite app_nil_r. split; [lia|reflexivity].
  - destruct (argsLoop_sound asExpr SA _ _ _ _ _ _ _ _ G1 E0) as [G2 R2]. split; [apply good_getTok; exact G2|].
    rewrite T2 in R2. destruct (R2 eq_refl) as (args & ts & NE & V & D & P & LA & OA).
    rewrite getTok_lab in P, LA, OA. rewrite getTok_out in OA.
    exists args, (TSym cLP :: ts ++ [TSym cRP]). split.
    { rewrite V, (view_sym _ cRP G2 T2 ltac:(discriminate) eq_refl). cbn [app]. rewrite <- app_assoc. reflexivity. }
    split; [intros f; apply d_call; exact D|]. split.
    { intros f F SC. eapply h_call; try eassumption. apply P. exact Q'. }
    split; [apply dims|]. rewrite getTok_lab, getTok_out. split; assumption.
Qed.

(* ---- sizeof ---- *)
Lemma dimLoop_sound fuel : forall d s d' s', good s -> dimLoop fuel d s = POk (d', s') ->
  good s' /\ exists n, d' = d + Z.of_nat n /\ view (its s) = brackets n ++ view (its s') /\
  clab s' = clab s /\ outp s' = outp s /\ (n <> O -> sign (tok s) = true).
Proof.
  induction fuel as [|fuel IH]; intros d s d' s' G H; [discriminate|]. cbn [dimLoop] in H.
  destruct (isTok cLB s) as [s1|] eqn:T.
  - apply isTok_ok in T. destruct T as [T ->]. pb H. apply chkTok_ok in E. destruct E as [T2 ->].
    pose proof (good_getTok s G) as G1.
    destruct (IH _ _ _ _ (good_getTok _ G1) H) as (G' & n & D & V & L & O & _). split; [exact G'|].
    exists (S n). split; [lia|]. split.
    { rewrite (view_sym s cLB G T ltac:(discriminate) eq_refl), (view_sym _ cRB G1 T2 ltac:(discriminate) eq_refl), V. reflexivity. }
    rewrite L, O, !getTok_lab, !getTok_out. split; [reflexivity|]. split; [reflexivity|]. intros _. rewrite T. reflexivity.
  - injection H as <- <-. split; [exact G|]. exists O. split; [lia|]. split; [reflexivity|]. split; [reflexivity|]. split; [reflexivity|]. congruence.
Qed.
Lemma typeOf_ok s : good s -> typeOf nt s <> TyNON -> (tok s = LxNAME -> sign (tok (getTok s)) = true) ->
  exists t, typeOf nt s = tyCode nt t /\ view (its s) = tyTok t :: view (its (getTok s)).
Proof.
  intros G N SG. unfold typeOf in *.
  destruct (Z.eqb_spec (tok s) LxINT) as [T|_]; [exists TnInt; split; [reflexivity|apply view_sym; auto; discriminate]|].
  destruct (Z.eqb_spec (tok s) LxCHAR) as [T|_]; [exists TnChar; split; [reflexivity|apply view_sym; auto; discriminate]|].
  destruct (Z.eqb_spec (tok s) LxVOID) as [T|_]; [exists TnVoid; split; [reflexivity|apply view_sym; auto; discriminate]|].
  destruct (Z.eqb_spec (tok s) LxBOOL) as [T|_]; [exists TnBool; split; [reflexivity|apply view_sym; auto; discriminate]|].
  destruct (Z.eqb_spec (tok s) LxINTR) as [T|_]; [exists TnIntr; split; [reflexivity|apply view_sym; auto; discriminate]|].
  destruct (Z.eqb_spec (tok s) LxNAME) as [T|_]; [|contradiction].
  exists (TnUser (lxGetStr s)). split; [reflexivity|]. cbn [tyTok].
  destruct (view_val s LxNAME G T eq_refl (SG T)) as (i & K & V & ST & VA).
  rewrite V. destruct i as [[[t v] st] ln]. cbn in K. subst t. cbn.
  revert V. unfold lxGetStr. destruct G as [C _]. unfold tok in T. destruct (its s) as [|i r]; [discriminate T|].
  cbn [clean] in C. cbn [view]. destruct (Z.eqb_spec (tokOf i) LxFILE); [contradiction|].
  destruct i as [[[t' v'] st'] ln']. cbn in T. subst t'. cbn. intros V. injection V as -> _. reflexivity.
Qed.
Lemma getSizeof_sound s0 s w s' : good s0 -> tok s0 = LxSIZEOF -> s = getTok s0 ->
  getSizeof nt s = POk (w, s') -> read 13 s0 w s'.
Proof.
  intros G0 T0 -> H. unfold getSizeof in H. pose proof (good_getTok _ G0) as G.
  pb H. apply chkTok_ok in E. destruct E as [T ->]. pose proof (good_getTok _ G) as G1.
  pb H. destruct a as [[t d] s2]. unfold getType in E.
  destruct (Z.eqb_spec (typeOf nt (getTok (getTok s0))) TyNON) as [N|N]; [discriminate|].
  pb E. destruct a as [d' s3]. injection E as <- <- <-.
  destruct (dimLoop_sound _ _ _ _ _ (good_getTok _ G1) E0) as (G3 & n & D & V & L & O & SB).
  destruct ((typeOf nt (getTok (getTok s0)) <=? 0) && (typeAt nt (- typeOf nt (getTok (getTok s0))) =? TyREF)) eqn:R; [discriminate|].
  pb H. apply chkTok_ok in E. destruct E as [T3 ->]. injection H as <- <-.
  split; [apply good_getTok; exact G3|]. intros SG.
  destruct (typeOf_ok _ G1 N) as (ty & TY & VT).
  { intros _. destruct n as [|n]; [|apply SB; discriminate].
    cbn [brackets app] in V. (* no brackets: the next token is the closing parenthesis *)
    assert (tok (getTok (getTok (getTok s0))) = cRP) as ->; [|reflexivity].
    unfold fuelOf in E0. cbn [dimLoop] in E0.
    destruct (isTok cLB (getTok (getTok (getTok s0)))) as [sx|] eqn:B.
    - exfalso. apply isTok_ok in B. destruct B as [B ->]. pb E0.
      apply chkTok_ok in E. destruct E as [_ ->].
      destruct (dimLoop_sound _ _ _ _ _ (good_getTok _ (good_getTok _ (good_getTok _ G1))) E0) as (_ & m & Dm & _). lia.
    - injection E0 as _ <-. exact T3. }
  exists (ASizeof ty n), (TSym LxSIZEOF :: TSym cLP :: tyTok ty :: brackets n ++ [TSym cRP]). split.
  - rewrite (view_sym s0 LxSIZEOF G0 T0 ltac:(discriminate) eq_refl), (view_sym _ cLP G T ltac:(discriminate) eq_refl), VT, V,
      (view_sym _ cRP G3 T3 ltac:(discriminate) eq_refl). cbn [app]. rewrite <- app_assoc. reflexivity.
  - split; [apply d_sizeof|]. cbn [wt wd lhs tr]. split.
    { replace (if d' =? 0 then _ else 2) with (sizeOf nt (tyCode nt ty) n).
      - apply h_sizeof; rewrite <- TY; [exact N|]. intros [A B]. rewrite B in R.
        destruct (Z.leb_spec (typeOf nt (getTok (getTok s0))) 0); [discriminate R|lia].
      - rewrite <- TY, D. unfold sizeOf. destruct n as [|n].
        + cbn [Z.of_nat Z.add Z.eqb]. reflexivity.
        + destruct (Z.eqb_spec (0 + Z.of_nat (S n)) 0); [lia|reflexivity]. }
    split; [lia|]. rewrite !getTok_lab, !getTok_out, L, O, !getTok_lab, !getTok_out. unfold nstr. cbn [strings strOut List.length].
    rewrite app_nil_r. split; [lia|reflexivity].
Qed.

Lemma getAddrof_sound s0 w s' : good s0 -> tok s0 = LxADDROF ->
  getAddrof nt (getTok s0) = POk (w, s') -> read 13 s0 w s'.
Proof.
  intros G0 T0 H. unfold getAddrof in H. pose proof (good_getTok _ G0) as G.
  pb H. apply chkTok_ok in E. destruct E as [T ->]. pose proof (good_getTok _ G) as G1.
  pb H. apply chkTok_ok in E. destruct E as [T1 ->]. pose proof (good_getTok _ G1) as G2.
  destruct (ntSrcName nt (lxGetStr (getTok (getTok (getTok s0))))) as [n|] eqn:N; [|discriminate].
  destruct (isGlob (scopeAt nt n)) eqn:GL; [|discriminate].
  pb H. apply chkTok_ok in E. destruct E as [T2 ->]. injection H as <- <-.
  split; [apply good_getTok; exact G2|]. intros SG.
  exists (AAddrof (lxGetStr (getTok (getTok (getTok s0))))),
    [TSym LxADDROF; TSym cLP; TName (lxGetStr (getTok (getTok (getTok s0)))); TSym cRP]. split.
  - rewrite (view_sym s0 LxADDROF G0 T0 ltac:(discriminate) eq_refl), (view_sym _ cLP G T ltac:(discriminate) eq_refl),
      (view_name _ G1 T1), (view_sym _ cRP G2 T2 ltac:(discriminate) eq_refl); [reflexivity|]. rewrite T2. reflexivity.
  - split; [apply d_addrof|]. cbn [wt wd lhs tr]. split; [apply h_addrof; assumption|]. split; [lia|].
    rewrite !getTok_lab, !getTok_out. unfold nstr. cbn [strings strOut List.length]. rewrite app_nil_r. split; [lia|reflexivity].
Qed.

(* keyword '(' expression ')' *)
Lemma inParens_sound expr s0 kw w s' : sound 0 expr -> good s0 -> tok s0 = kw -> kw <> EOFtok -> valued kw = false ->
  inParens expr (getTok s0) = POk (w, s') ->
  good s' /\ exists e ts, view (its s0) = (TSym kw :: TSym cLP :: ts ++ [TSym cRP]) ++ view (its s') /\ derives 0 e ts /\
    has nt (clab s0) e (wt w) (wd w) (lhs w) (tr w) /\ 0 <= wd w /\
    clab s' = clab s0 + nstr e /\ outp s' = outp s0 ++ strOut (clab s0) (strings e).
Proof.
  intros SE G0 T0 NE VA H. unfold inParens in H. pose proof (good_getTok _ G0) as G.
  pb H. apply chkTok_ok in E. destruct E as [T ->]. pose proof (good_getTok _ G) as G1.
  pb H. destruct a as [w1 s1]. pb H. apply chkTok_ok in E0. destruct E0 as [T1 ->]. injection H as <- <-.
  destruct (SE _ _ _ G1 E) as [G2 R]. split; [apply good_getTok; exact G2|].
  rewrite T1 in R. destruct (R eq_refl) as (e & ts & V & D & Hh & W & L & O).
  exists e, ts. split.
  - rewrite (view_sym s0 kw G0 T0 NE VA), (view_sym _ cLP G T ltac:(discriminate) eq_refl), V, (view_sym _ cRP G2 T1 ltac:(discriminate) eq_refl).
    cbn [app]. rewrite <- app_assoc. reflexivity.
  - rewrite !getTok_lab, !getTok_out in *. auto.
Qed.

Lemma getIdent_sound asExpr s0 w s' : sound 1 asExpr -> good s0 -> tok s0 = LxNAME ->
  getIdent nt asExpr (getTok s0) = POk (w, s') -> read 13 s0 w s'.
Proof.
  intros SA G0 T0 H. unfold getIdent in H. pose proof (good_getTok _ G0) as G.
  set (nm := lxGetStr (getTok s0)) in *.
  destruct (ntSrcName nt nm) as [n|] eqn:N; [|discriminate].
  assert (forall k, ((scopeAt nt n = ScCOMM \/ scopeAt nt n = ScGVAR) /\ k = LGlb n \/
     scopeAt nt n = ScLVAR /\ k = LLoc n \/ scopeAt nt n = ScPRM /\ k = LPrm n) ->
     POk (W (typeAt nt n) (dimAt nt n) true (ELeaf k), getTok s0) = POk (w, s') -> read 13 s0 w s') as VAR.
  { intros k K E. injection E as <- <-. split; [exact G|]. intros SG.
    exists (AName nm), [TName nm]. split; [rewrite (view_name _ G0 T0 SG); reflexivity|].
    split; [apply d_name|]. cbn [wt wd lhs tr]. split; [apply h_var; assumption|]. split; [apply dims|].
    rewrite !getTok_lab, !getTok_out. unfold nstr. cbn [strings strOut List.length]. rewrite app_nil_r. split; [lia|reflexivity]. }
  destruct (Z.eqb_spec (scopeAt nt n) ScPROT) as [P|P]; [|destruct (Z.eqb_spec (scopeAt nt n) ScFUNC) as [Q|Q]]; cbn [orb] in H.
  1,2: destruct (getCall_sound _ _ _ _ _ SA G H) as (S & G' & args & ts & V & D & HC & W & L & O);
    (split; [exact G'|]); intros SG; exists (ACall nm args), (TName nm :: ts);
    (split; [rewrite (view_name _ G0 T0 S), V; reflexivity|]); (split; [apply D|]);
    rewrite !getTok_lab, !getTok_out in *; (split; [apply HC; auto|]); (split; [exact W|]); unfold nstr; cbn [strings]; auto.
  destruct (Z.eqb_spec (scopeAt nt n) ScCOMM) as [A|A]; [|destruct (Z.eqb_spec (scopeAt nt n) ScGVAR) as [B|B]]; cbn [orb] in H; [apply (VAR (LGlb n)); auto..|].
  destruct (Z.eqb_spec (scopeAt nt n) ScLVAR) as [C|C]; [apply (VAR (LLoc n)); auto|].
  destruct (Z.eqb_spec (scopeAt nt n) ScPRM) as [D|D]; [apply (VAR (LPrm n)); auto|discriminate].
Qed.

(* a literal *)
Lemma lit_sound s0 k e w :
  good s0 -> tok s0 = k -> valued k = true ->
  (forall i, tokOf i = k -> strOf i = lxGetStr (getTok s0) -> valOf i = lxGetVal (getTok s0) -> derives 13 e [own i]) ->
  strings e = [] -> has nt (clab s0) e (wt w) (wd w) (lhs w) (tr w) -> 0 <= wd w ->
  read 13 s0 w (getTok s0).
Proof.
  intros G T V D ST HH W. split; [apply good_getTok; exact G|]. intros SG.
  destruct (view_val s0 k G T V SG) as (i & K & VI & SI & VL).
  exists e, [own i]. split; [exact VI|]. split; [apply D; assumption|]. split; [exact HH|]. split; [exact W|].
  rewrite getTok_lab, getTok_out. unfold nstr. rewrite ST. cbn [strOut List.length]. rewrite app_nil_r. split; [lia|reflexivity].
Qed.

Lemma getFactor_sound asExpr expr : sound 1 asExpr -> sound 0 expr -> sound 13 (getFactor nt asExpr expr).
Proof.
  intros SA SE s w s' G H. unfold getFactor in H. pb H. destruct a as [w1 s1].
  apply (postLoop_sound asExpr SA (fuelOf s1) s w1 s1 w s'); [|exact H]. clear H.
  pose proof (good_getTok _ G) as G1.
  destruct (Z.eqb_spec (tok s) cLP) as [T|_].
  { pb E. destruct a as [w2 s2]. pb E. apply chkTok_ok in E1. destruct E1 as [T2 ->]. injection E as <- <-.
    destruct (SE _ _ _ G1 E0) as [G2 R]. split; [apply good_getTok; exact G2|]. intros _.
    rewrite T2 in R. destruct (R eq_refl) as (e & ts & V & D & Hh & W & L & O).
    exists e, (TSym cLP :: ts ++ [TSym cRP]). split.
    - rewrite (view_sym s cLP G T ltac:(discriminate) eq_refl), V, (view_sym _ cRP G2 T2 ltac:(discriminate) eq_refl).
      cbn [app]. rewrite <- app_assoc. reflexivity.
    - rewrite !getTok_lab, !getTok_out in *. split; [apply d_paren; exact D|]. auto. }
  destruct (Z.eqb_spec (tok s) LxNAME) as [T|_]; [eapply getIdent_sound; eassumption|].
  destruct (Z.eqb_spec (tok s) LxINTEGER) as [T|_].
  { injection E as <- <-. apply (lit_sound s LxINTEGER (AInt (lxGetVal (getTok s)))); auto; [|apply h_int|cbn; lia].
    intros [[[t v] st] ln] K S V. cbn in K, S, V |- *. subst. apply d_int. }
  destruct (Z.eqb_spec (tok s) LxCHARACTER) as [T|_].
  { injection E as <- <-. apply (lit_sound s LxCHARACTER (AChar (lxGetVal (getTok s)))); auto; [|apply h_char|cbn; lia].
    intros [[[t v] st] ln] K S V. cbn in K, S, V |- *. subst. apply d_char. }
  destruct (Z.eqb_spec (tok s) LxLOGICAL) as [T|_].
  { injection E as <- <-. apply (lit_sound s LxLOGICAL (ABool (lxGetVal (getTok s)))); auto; [|apply h_bool|cbn; lia].
    intros [[[t v] st] ln] K S V. cbn in K, S, V |- *. subst. apply d_bool. }
  destruct (Z.eqb_spec (tok s) LxSTRING) as [T|_].
  { unfold genStr in E. injection E as <- <-. split; [exact G1|]. intros SG.
    destruct (view_val s LxSTRING G T eq_refl SG) as (i & K & VI & SI & VL).
    exists (AText (lxGetStr (getTok s))), [own i]. cbn [its]. split; [exact VI|]. split.
    { destruct i as [[[t v] st] ln]. cbn in K, SI. subst. apply d_str. }
    cbn [wt wd lhs tr clab outp]. rewrite getTok_lab, getTok_out. split; [apply h_str|]. split; [lia|]. split; reflexivity. }
  destruct (Z.eqb_spec (tok s) LxNUL) as [T|_].
  { injection E as <- <-. split; [exact G1|]. intros SG. exists ANull, [TSym LxNUL]. split.
    { apply (view_sym s LxNUL G T ltac:(discriminate) eq_refl). }
    split; [apply d_null|]. cbn [wt wd lhs tr]. split; [apply h_null|]. split; [lia|].
    rewrite getTok_lab, getTok_out. unfold nstr. cbn [strings strOut List.length]. rewrite app_nil_r. split; [lia|reflexivity]. }
  destruct (Z.eqb_spec (tok s) LxSIZEOF) as [T|_]; [eapply getSizeof_sound; eauto|].
  destruct (Z.eqb_spec (tok s) LxADDROF) as [T|_]; [eapply getAddrof_sound; eauto|].
  destruct (Z.eqb_spec (tok s) LxORD) as [T|_].
  { unfold getOrd in E. pb E. destruct a as [w2 s2].
    destruct (inParens_sound expr s LxORD w2 s2 SE G T ltac:(discriminate) eq_refl E0) as (G2 & e & ts & V & D & Hh & W & L & O).
    destruct ((negb (wt w2 =? TyBOOL) && negb (wt w2 =? TyCHAR)) || negb (wd w2 =? 0)) eqn:C; [discriminate|].
    injection E as <- <-. apply orb_false_iff in C. destruct C as [C1 C2]. apply negb_false_iff, Z.eqb_eq in C2.
    apply andb_false_iff in C1. split; [exact G2|]. intros _. exists (AOrd e), (TSym LxORD :: TSym cLP :: ts ++ [TSym cRP]).
    split; [exact V|]. split; [apply d_ord; exact D|]. cbn [wt wd lhs tr]. rewrite C2 in *. split; [|auto].
    eapply h_ord; [exact Hh|]. destruct C1 as [C|C]; apply negb_false_iff, Z.eqb_eq in C; auto. }
  destruct (Z.eqb_spec (tok s) LxCHR) as [T|_].
  { unfold getChr in E. pb E. destruct a as [w2 s2].
    destruct (inParens_sound expr s LxCHR w2 s2 SE G T ltac:(discriminate) eq_refl E0) as (G2 & e & ts & V & D & Hh & W & L & O).
    destruct (negb (wd w2 =? 0) || negb (wt w2 =? TyINT)) eqn:C; [discriminate|].
    injection E as <- <-. apply orb_false_iff in C. destruct C as [C1 C2]. apply negb_false_iff, Z.eqb_eq in C1, C2.
    split; [exact G2|]. intros _. exists (AChr e), (TSym LxCHR :: TSym cLP :: ts ++ [TSym cRP]).
    split; [exact V|]. split; [apply d_chr; exact D|]. cbn [wt wd lhs tr]. rewrite C1, C2 in *. split; [|auto].
    eapply h_chr. exact Hh. }
  destruct (Z.eqb_spec (tok s) LxBOL) as [T|_]; [|discriminate].
  unfold getBool in E. pb E. destruct a as [w2 s2].
  destruct (inParens_sound expr s LxBOL w2 s2 SE G T ltac:(discriminate) eq_refl E0) as (G2 & e & ts & V & D & Hh & W & L & O).
  destruct (negb (wd w2 =? 0) || negb (wt w2 =? TyINT)) eqn:C; [discriminate|].
  injection E as <- <-. apply orb_false_iff in C. destruct C as [C1 C2]. apply negb_false_iff, Z.eqb_eq in C1, C2.
  split; [exact G2|]. intros _. exists (ABoolOf e), (TSym LxBOL :: TSym cLP :: ts ++ [TSym cRP]).
  split; [exact V|]. split; [apply d_boolof; exact D|]. cbn [wt wd lhs tr]. rewrite C1, C2 in *. split; [|auto].
  eapply h_boolof. exact Hh.
Qed.

(* ---- unary operators ---- *)
Lemma un_sound u s0 w s w' :
  good s0 -> tok s0 = unTok u -> read 12 (getTok s0) w s ->
  (forall l e, has nt l e (wt w) (wd w) (lhs w) (tr w) -> 0 <= wd w ->
     has nt l (AUn u e) (wt w') (wd w') (lhs w') (tr w') /\ 0 <= wd w') ->
  read 12 s0 w' s.
Proof.
  intros G T [G' R] HH. split; [exact G'|]. intros SG. destruct (R SG) as (e & ts & V & D & Hh & W & L & O).
  rewrite getTok_lab, ?getTok_out in *. destruct (HH _ _ Hh W) as [H1 W1].
  exists (AUn u e), (TSym (unTok u) :: ts). split.
  - rewrite (view_sym s0 (unTok u) G T), V; [reflexivity|destruct u; discriminate|destruct u; reflexivity].
  - split; [apply d_un; exact D|]. split; [exact H1|]. split; [exact W1|]. unfold nstr. cbn [strings]. split; assumption.
Qed.
Lemma getUniExpr_sound asExpr expr : sound 1 asExpr -> sound 0 expr ->
  forall fuel, sound 12 (getUniExpr nt asExpr expr fuel).
Proof.
  intros SA SE. induction fuel as [|fuel IH]; intros s w s' G H; [discriminate H|]. cbn [getUniExpr] in H.
  pose proof (good_getTok _ G) as G1.
  destruct (Z.eqb_spec (tok s) cPLUS) as [T|_].
  { pb H. destruct a as [w1 s1]. pb H. injection H as <- <-. apply (un_sound UPlus s w1 s1); [exact G|exact T|apply IH; assumption|].
    intros l e Hh W. destruct (chkType_int _ _ E0 W) as (I & TT & DD & X). cbn [wt wd lhs tr]. rewrite TT, DD, X.
    split; [eapply h_plus; eassumption|lia]. }
  destruct (Z.eqb_spec (tok s) cMINUS) as [T|_].
  { pb H. destruct a as [w1 s1]. pb H. injection H as <- <-. apply (un_sound UMinus s w1 s1); [exact G|exact T|apply IH; assumption|].
    intros l e Hh W. destruct (chkType_int _ _ E0 W) as (I & TT & DD & X). unfold mk1. cbn [wt wd lhs tr]. rewrite TT, DD, X.
    split; [eapply h_minus; eassumption|lia]. }
  destruct (Z.eqb_spec (tok s) cBANG) as [T|_].
  { pb H. destruct a as [w1 s1]. pb H. injection H as <- <-. apply (un_sound UNot s w1 s1); [exact G|exact T|apply IH; assumption|].
    intros l e Hh W. destruct (chkType_bool _ _ E0 W) as (TT & DD & ->). unfold mk1. cbn [wt wd lhs tr]. rewrite TT, DD in *.
    split; [eapply h_not; eassumption|lia]. }
  destruct (Z.eqb_spec (tok s) cTILDE) as [T|_].
  { pb H. destruct a as [w1 s1]. pb H. injection H as <- <-. apply (un_sound UBnot s w1 s1); [exact G|exact T|apply IH; assumption|].
    intros l e Hh W. destruct (chkType_int _ _ E0 W) as (I & TT & DD & X). unfold mk1. cbn [wt wd lhs tr]. rewrite TT, DD, X.
    split; [eapply h_bnot; eassumption|lia]. }
  apply read_up; [lia|]. exact (getFactor_sound asExpr expr SA SE s w s' G H).
Qed.

(* ---- assignment ---- *)
Lemma getAsExprF_sound fuel : sound 1 (getAsExprF nt fuel).
Proof.
  induction fuel as [|fuel IH]; intros s w s' G H; [discriminate H|]. cbn [getAsExprF] in H.
  pose proof (commaExpr_sound _ IH) as SE.
  assert (sound 12 (uni nt (getAsExprF nt fuel) (commaExpr (getAsExprF nt fuel)))) as U.
  { intros s0 w0 s0' G0 H0. exact (getUniExpr_sound _ _ IH SE _ s0 w0 s0' G0 H0). }
  pose proof (levels_sound _ _ U) as SL. pb H. destruct a as [w1 s1].
  pose proof (SL _ _ _ G E) as R1.
  destruct (isTok cEQ s1) as [s2|] eqn:T.
  - apply isTok_ok in T. destruct T as [T ->]. pb H. destruct a as [w2 s2]. pb H.
    destruct (negb (lhs w1)) eqn:LH; [discriminate|]. injection H as <- <-. apply negb_false_iff in LH.
    apply chkCmpat_ok in E1. destruct E1 as [F X].
    apply (done_two 2 1 1 s w1 s1 cEQ w2 s2 AAssign _ (proj1 R1) T ltac:(discriminate) eq_refl eq_refl R1);
      [apply IH; [apply good_getTok; exact (proj1 R1)|exact E0]|reflexivity|intros; apply d_assign; assumption|].
    intros l a0 b Ha Na Hb Nb. unfold mk2. cbn [wt wd lhs tr]. rewrite X, LH in *. split; [|exact Na].
    eapply h_assign; eassumption.
  - injection H as <- <-. apply read_up; [lia|]. exact R1.
Qed.
Lemma getExpr_sound : sound 0 (getExpr nt).
Proof.
  apply commaExpr_sound. intros s w s' G H. exact (getAsExprF_sound _ s w s' G H).
Qed.
End Sound.
