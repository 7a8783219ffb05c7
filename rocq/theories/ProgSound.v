(* Whatever the compiler accepts is a source file of the grammar and obeys the rules, and its
   output is the one the rules give. *)
From Coq Require Import ZArith Bool Lia List.
From Verif Require Import Lexer LexProofs NameTable NameProofs SyTree OpTree VM VmCode Parser ParserStmt ParseSpec ParseSound ParseComplete ParseLabs ParseShow ProgInv ProgTop StmtSpec StmtSound StmtComplete ProgGram.
Import ListNotations.
Open Scope Z_scope.

(* ==== tokens and expressions ==== *)
Definition fine (g : gs) : Prop := good (ge g) /\ dimsOk (gnt g).
Definition sameE (g g' : gs) : Prop := g' = wE g (ge g').
Lemma same_refl g : sameE g g.
Proof. destruct g; reflexivity. Qed.
Lemma same_trans a b c : sameE a b -> sameE b c -> sameE a c.
Proof. unfold sameE. intros A B. rewrite B, A. reflexivity. Qed.
Lemma same_fields a b : sameE a b -> gnt b = gnt a /\ curType b = curType a /\ curDim b = curDim a /\ curScope b = curScope a /\ curCnt b = curCnt a.
Proof. intros ->. repeat split. Qed.
Lemma fine_same a b : sameE a b -> fine a -> good (ge b) -> fine b.
Proof. intros S [_ D] G. split; [exact G|]. rewrite S. exact D. Qed.
Lemma x_next g k : fine g -> gtok g = k -> k <> EOFtok -> valued k = false -> fine (gGetTok g) /\ got g [TSym k] [] (gGetTok g).
Proof.
  intros [G D] T N V. split; [split; [apply good_getTok; exact G|exact D]|].
  constructor; unfold gGetTok; gcbn; rewrite ?getTok_lab, ?getTok_out; cbn; rewrite ?app_nil_r; [|lia|reflexivity|reflexivity].
  exact (view_sym _ _ G T N V).
Qed.
Lemma x_chk k g g' : fine g -> gChkTok k g = POk g' -> k <> EOFtok -> valued k = false ->
  gtok g = k /\ fine g' /\ got g [TSym k] [] g' /\ sameE g g' /\ clab (ge g') = clab (ge g).
Proof.
  intros I H N V. apply gChkTok_ok in H. destruct H as [T ->]. destruct (x_next g k I T N V). split; [exact T|].
  split; [assumption|]. split; [assumption|]. split; [reflexivity|]. unfold gGetTok. gcbn. apply getTok_lab.
Qed.
Lemma x_is k g g' : fine g -> gIsTok k g = Some g' -> k <> EOFtok -> valued k = false ->
  gtok g = k /\ fine g' /\ got g [TSym k] [] g' /\ sameE g g' /\ clab (ge g') = clab (ge g).
Proof.
  intros I H N V. apply gIsTok_ok in H. destruct H as [T ->]. destruct (x_next g k I T N V). split; [exact T|].
  split; [assumption|]. split; [assumption|]. split; [reflexivity|]. unfold gGetTok. gcbn. apply getTok_lab.
Qed.
Lemma x_asExpr g w g' : fine g -> gAsExpr g = POk (w, g') ->
  fine g' /\ sameE g g' /\ (sign (gtok g') = true -> exists e ts, got g ts (strings e) g' /\ derives 1 e ts /\
    has (gnt g) (clab (ge g)) e (wt w) (wd w) (lhs w) (tr w)).
Proof.
  intros [GO DO] H. unfold gAsExpr in H. destruct (getAsExpr (gnt g) (ge g)) as [[w1 e1]| | |] eqn:E; cbn [pbind] in H; try discriminate.
  injection H as -> <-.
  destruct (getAsExprF_sound (gnt g) (fun i => dimsOk_at _ i DO) _ (ge g) w e1 GO E) as [G R].
  split; [split; assumption|]. split; [reflexivity|]. intros S. destruct (R S) as (e & ts & V & D & HH & W & L & O).
  exists e, ts. split; [constructor; gcbn; auto|]. split; [exact D|exact HH].
Qed.
Ltac xchk H I := let g1 := fresh "g" in let E := fresh "E" in
  match type of H with pbind (gChkTok ?k ?g) _ = _ =>
    destruct (gChkTok k g) as [g1| | |] eqn:E; cbn [pbind] in H; try discriminate H;
    let T := fresh "T" in let I1 := fresh "I" in let G := fresh "G" in let Q := fresh "Q" in let L := fresh "L" in
    destruct (x_chk _ _ _ I E ltac:(discriminate) eq_refl) as (T & I1 & G & Q & L)
  end.
Ltac xbind H p := match type of H with pbind ?r _ = _ => let E := fresh "E" in destruct r as [p| | |] eqn:E; cbn [pbind] in H; try discriminate H end.

(* ==== initial values ==== *)
Lemma x_cnst {W : word} typ g d g' : fine g -> getCnst typ g = POk (d, g') ->
  fine g' /\ sameE g g' /\ (sign (gtok g') = true -> exists e ts, got g ts (strings e) g' /\ derives 1 e ts /\
    okConst (gnt g) typ (clab (ge g)) e d).
Proof.
  intros I H. unfold getCnst in H. destruct (gAsExpr g) as [[w g1]| | |] eqn:E1; cbn [pbind] in H; try discriminate.
  destruct (x_asExpr _ _ _ I E1) as (I1 & S1 & R). destruct (chkCmpat w typ 0) as [w'| | |] eqn:C; cbn [pbind] in H; try discriminate.
  apply chkCmpat_ok in C. destruct C as [F TR]. destruct (wOptExp (tr w')) as [e'|] eqn:O; cbn [lift_opt pbind] in H; try discriminate.
  assert (g' = g1 /\ forall e, has (gnt g) (clab (ge g)) e (wt w) (wd w) (lhs w) (tr w) -> okConst (gnt g) typ (clab (ge g)) e d) as [-> K].
  { rewrite TR in O. destruct e' as [|lf| | |]; try discriminate H.
    destruct lf; try discriminate H; injection H as <- <-; (split; [reflexivity|]); intros e HH; [eapply ok_num|eapply ok_str|eapply ok_adr]; eassumption. }
  split; [exact I1|]. split; [exact S1|]. intros SG. destruct (R SG) as (e & ts & G & D & HH). exists e, ts. auto.
Qed.
Lemma got_clab g ts ss g' : got g ts ss g' -> clab (ge g') = clab (ge g) + Z.of_nat (List.length ss).
Proof. intros []. assumption. Qed.
Lemma x_array0 {W : word} F : forall dim g d g', fine g -> getArray0 F dim g = POk (d, g') ->
  fine g' /\ sameE g g' /\ (sign (gtok g') = true -> exists ns ts, got g ts (flat_map strings ns) g' /\ commas (derives 1) ns ts /\
    okSizes (gnt g) dim (clab (ge g)) ns d (clab (ge g'))).
Proof.
  induction F as [|F IH]; intros dim g d g' I H; [discriminate H|]. cbn [getArray0] in H.
  destruct (Z.leb_spec dim 0); [discriminate H|].
  destruct (getCnst TyINT g) as [[n g1]| | |] eqn:E1; cbn [pbind] in H; try discriminate.
  destruct (x_cnst _ _ _ _ I E1) as (I1 & S1 & R1). destruct (Z.leb_spec (dLVal n) 0); [discriminate H|].
  destruct (gIsTok cCOMMA g1) as [g2|] eqn:TC.
  - destruct (x_is _ _ _ I1 TC ltac:(discriminate) eq_refl) as (T & I2 & G2 & S2 & L2).
    destruct (getArray0 F (dim - 1) g2) as [[b g3]| | |] eqn:E3; cbn [pbind] in H; try discriminate. injection H as <- <-.
    destruct (IH _ _ _ _ I2 E3) as (I3 & S3 & R3). split; [exact I3|]. split; [exact (same_trans _ _ _ (same_trans _ _ _ S1 S2) S3)|].
    intros SG. destruct (R3 SG) as (ns & ts & G3 & C & OZ). destruct (R1 ltac:(rewrite T; reflexivity)) as (e & te & G1 & D & OC).
    exists (e :: ns), (te ++ TSym cCOMMA :: ts). split; [|split].
    + exact (got_trans _ _ _ _ _ _ _ G1 (got_trans _ _ _ _ _ _ _ G2 G3)).
    + constructor; assumption.
    + destruct (same_fields _ _ (same_trans _ _ _ S1 S2)) as (N & _). rewrite N, L2, (got_clab _ _ _ _ G1) in OZ. apply oz_more; try assumption. inversion C; discriminate.
  - injection H as <- <-. split; [exact I1|]. split; [exact S1|]. intros SG. destruct (R1 SG) as (e & te & G1 & D & OC).
    exists [e], te. cbn [flat_map]. rewrite app_nil_r. split; [exact G1|]. split; [constructor; exact D|]. rewrite (got_clab _ _ _ _ G1). apply oz_one; assumption.
Qed.
Lemma x_array {W : word} dim g d g' : fine g -> getArray dim g = POk (d, g') ->
  fine g' /\ sameE g g' /\ exists ns ts a, got g (TSym cLP :: ts ++ [TSym cRP]) (flat_map strings ns) g' /\ commas (derives 1) ns ts /\
    okSizes (gnt g) dim (clab (ge g)) ns a (clab (ge g')) /\ d = DArry a (byteDim (curType g) dim).
Proof.
  intros I H. unfold getArray in H. xchk H I. destruct (getArray0 _ dim g0) as [[n g1]| | |] eqn:E1; cbn [pbind] in H; try discriminate.
  destruct (x_array0 _ _ _ _ _ I0 E1) as (I1 & S1 & R1). xchk H I1. injection H as <- <-.
  split; [assumption|]. split; [exact (same_trans _ _ _ (same_trans _ _ _ Q S1) Q0)|].
  destruct (R1 ltac:(rewrite T0; reflexivity)) as (ns & ts & G1 & C & OZ). exists ns, ts, n. split; [|split; [exact C|]].
  - eapply got_eq; [exact (got_trans _ _ _ _ _ _ _ G (got_trans _ _ _ _ _ _ _ G1 G0))|reflexivity|]. rewrite app_nil_r. reflexivity.
  - destruct (same_fields _ _ Q) as (N1 & T1 & _). destruct (same_fields _ _ (same_trans _ _ _ (same_trans _ _ _ Q S1) Q0)) as (_ & T2 & _).
    rewrite N1, L in OZ. rewrite L0, T2. auto.
Qed.
(* a string constant *)
Lemma x_str g g1 l g' : fine g -> gIsTok LxSTRING g = Some g1 -> gStr g1 = (l, g') ->
  fine g' /\ sameE g g' /\ sameE g g1 /\ l = clab (ge g) + 1 /\ clab (ge g') = clab (ge g) + 1 /\ gtok g' = gtok g1 /\
  (sign (gtok g') = true -> exists s, got g [TStr s] [s] g').
Proof.
  intros [GO DO] TS H. apply gIsTok_ok in TS. destruct TS as [T ->]. unfold gStr, genStr in H. injection H as <- <-.
  assert (fine (gGetTok g)) as I1 by (split; [apply good_getTok; exact GO|exact DO]).
  split; [split; [|exact DO]; exact (proj1 I1)|]. split; [reflexivity|]. split; [reflexivity|]. unfold gGetTok, gtok. gcbn. cbn [clab its tok].
  rewrite getTok_lab. split; [reflexivity|]. split; [reflexivity|]. split; [reflexivity|]. intros SG. exists (lxGetStr (getTok (ge g))).
  destruct (view_val (ge g) LxSTRING GO T eq_refl SG) as (i & K & VI & SI & VL).
  constructor; gcbn; cbn [its clab outp].
  - rewrite VI. destruct i as [[[t v] st] ln]. cbn in K, SI. subst t. rewrite <- SI. reflexivity.
  - cbn [List.length]. lia.
  - rewrite getTok_out. reflexivity.
  - reflexivity.
Qed.
Definition initR (ok : table -> Z -> gini -> dat -> Z -> Prop) (g : gs) (d : dat) (g' : gs) : Prop :=
  fine g' /\ sameE g g' /\ (sign (gtok g') = true -> exists x ts, got g ts (stringsG x) g' /\ derives_gini x ts /\
    ok (gnt g) (clab (ge g)) x d (clab (ge g'))).
Lemma x_const {W : word} (ok : table -> Z -> gini -> dat -> Z -> Prop) typ g d g' : fine g ->
  (forall e, okConst (gnt g) typ (clab (ge g)) e d -> ok (gnt g) (clab (ge g)) (GExp e) d (clab (ge g) + nstr e)) ->
  getCnst typ g = POk (d, g') -> initR ok g d g'.
Proof.
  intros I K H. destruct (x_cnst _ _ _ _ I H) as (I1 & S1 & R). split; [exact I1|]. split; [exact S1|]. intros SG.
  destruct (R SG) as (e & ts & G & D & OC). exists (GExp e), ts. split; [exact G|]. split; [constructor; exact D|].
  rewrite (got_clab _ _ _ _ G). exact (K e OC).
Qed.
Lemma x_null (ok : table -> Z -> gini -> dat -> Z -> Prop) g g' : fine g -> ok (gnt g) (clab (ge g)) GNull (DCnst 0) (clab (ge g)) ->
  gIsTok LxNUL g = Some g' -> initR ok g (DCnst 0) g'.
Proof.
  intros I K H. destruct (x_is _ _ _ I H ltac:(discriminate) eq_refl) as (T & I2 & G2 & S2 & L2). split; [exact I2|]. split; [exact S2|]. intros _.
  exists GNull, [TSym LxNUL]. split; [exact G2|]. split; [constructor|]. rewrite L2. exact K.
Qed.
Lemma x_field {W : word} i g d g' : fine g -> fieldInit i g = POk (d, g') -> initR (fun n => okField n i) g d g'.
Proof.
  intros I H. unfold fieldInit in H. cbv zeta in H. destruct (Z.leb_spec (typeAt (gnt g) i) 0) as [T|T].
  { xchk H I. injection H as <- <-. split; [assumption|]. split; [assumption|]. intros _. exists GNull, [TSym LxNUL]. split; [assumption|].
    split; [constructor|]. rewrite L. apply of_ref. exact T. }
  destruct (Z.ltb_spec 0 (dimAt (gnt g) i)) as [D|D].
  { destruct (gIsTok LxSTRING g) as [g1|] eqn:TS.
    - destruct (negb _ || negb _) eqn:B; [discriminate H|]. destruct (gStr g1) as [l g2] eqn:GS. injection H as <- <-.
      destruct (x_str _ _ _ _ I TS GS) as (I2 & S2 & S1 & EL & CL & _ & R).
      destruct (same_fields _ _ S1) as (N1 & _). rewrite N1 in B. apply orb_false_iff in B. destruct B as [B1 B2].
      apply negb_false_iff, Z.eqb_eq in B1, B2.
      split; [exact I2|]. split; [exact S2|]. intros SG. destruct (R SG) as (s & G). exists (GStr s), [TStr s]. split; [exact G|]. split; [constructor|].
      rewrite EL, CL. apply of_str; assumption.
    - destruct (gIsTok LxNUL g) as [g1|] eqn:TN; [|discriminate H]. injection H as <- <-. apply x_null; [exact I| |exact TN]. apply of_null; assumption. }
  assert (base (typeAt (gnt g) i) /\ getCnst (typeAt (gnt g) i) g = POk (d, g')) as [BT HC].
  { destruct (Z.eqb_spec (typeAt (gnt g) i) TyINT) as [->|_]; [split; [left; reflexivity|exact H]|].
    destruct (Z.eqb_spec (typeAt (gnt g) i) TyBOOL) as [->|_]; [split; [right; right; reflexivity|exact H]|].
    destruct (Z.eqb_spec (typeAt (gnt g) i) TyCHAR) as [->|_]; [split; [right; left; reflexivity|exact H]|]. discriminate H. }
  eapply x_const; [exact I| |exact HC]. intros e OC. apply of_const; assumption.
Qed.
Lemma isField_b n i : (ntGetSize n <=? i) || negb (scopeAt n i =? ScVOID) = false <-> isField n i.
Proof. unfold isField. rewrite orb_false_iff, negb_false_iff, Z.eqb_eq, Z.leb_gt. reflexivity. Qed.
Lemma isField_b2 n i : (i <? ntGetSize n) && (scopeAt n i =? ScVOID) = true <-> isField n i.
Proof. unfold isField. rewrite andb_true_iff, Z.eqb_eq, Z.ltb_lt. reflexivity. Qed.
Lemma x_structLoop {W : word} F : forall i node g d g', fine g -> structLoop F i node g = POk (d, g') ->
  fine g' /\ sameE g g' /\ (sign (gtok g') = true -> exists xs ts, got g ts (flat_map stringsG xs) g' /\ derives_ginis xs ts /\
    okFields (gnt g) i (clab (ge g)) node xs d (clab (ge g'))).
Proof.
  induction F as [|F IH]; intros i node g d g' I H; [discriminate H|]. cbn [structLoop] in H.
  destruct (_ || _) eqn:B; [discriminate H|]. apply isField_b in B.
  destruct (fieldInit i g) as [[n g1]| | |] eqn:E1; cbn [pbind] in H; try discriminate. cbv zeta in H.
  destruct (x_field _ _ _ _ I E1) as (I1 & S1 & R1). destruct (same_fields _ _ S1) as (N1 & _).
  destruct (gIsTok cCOMMA g1) as [g2|] eqn:TC.
  - destruct (x_is _ _ _ I1 TC ltac:(discriminate) eq_refl) as (T & I2 & G2 & S2 & L2).
    destruct (IH _ _ _ _ _ I2 H) as (I3 & S3 & R3). split; [exact I3|]. split; [exact (same_trans _ _ _ (same_trans _ _ _ S1 S2) S3)|].
    intros SG. destruct (R3 SG) as (xs & ts & G3 & D3 & OF). destruct (R1 ltac:(rewrite T; reflexivity)) as (x & tx & G1 & D1 & O1).
    exists (x :: xs), (tx ++ TSym cCOMMA :: ts). split; [|split].
    + exact (got_trans _ _ _ _ _ _ _ G1 (got_trans _ _ _ _ _ _ _ G2 G3)).
    + constructor; assumption.
    + destruct (same_fields _ _ (same_trans _ _ _ S1 S2)) as (N & _). rewrite N, L2 in OF. eapply ofs_more; try eassumption. inversion D3; discriminate.
  - destruct (_ && _) eqn:B2; [discriminate H|]. injection H as <- <-. split; [exact I1|]. split; [exact S1|]. intros SG.
    destruct (R1 SG) as (x & tx & G1 & D1 & O1). exists [x], tx. cbn [flat_map]. rewrite app_nil_r. split; [exact G1|]. split; [constructor; exact D1|].
    apply ofs_last; [exact B|exact O1|]. intros C. apply isField_b2 in C. rewrite N1 in B2. congruence.
Qed.
Lemma x_structInit {W : word} g d g' : fine g -> curType g <= 0 -> getStructInit g = POk (d, g') -> initR (fun n => okIn n (curType g) 0) g d g'.
Proof.
  intros I CT H. unfold getStructInit in H. destruct (gIsTok LxNUL g) as [g1|] eqn:TN.
  { injection H as <- <-. apply x_null; [exact I| |exact TN]. apply in_ref. exact CT. }
  xchk H I. destruct (getStructInit0 g0) as [[n g1]| | |] eqn:E1; cbn [pbind] in H; try discriminate. unfold getStructInit0 in E1.
  destruct (x_structLoop _ _ _ _ _ _ I0 E1) as (I1 & S1 & R1). xchk H I1. injection H as <- <-.
  split; [assumption|]. split; [exact (same_trans _ _ _ (same_trans _ _ _ Q S1) Q0)|]. intros _.
  destruct (R1 ltac:(rewrite T0; reflexivity)) as (xs & ts & G1 & D & OF). exists (GBraces xs), (TSym cLC :: ts ++ [TSym cRC]). split; [|split].
  - eapply got_eq; [exact (got_trans _ _ _ _ _ _ _ G (got_trans _ _ _ _ _ _ _ G1 G0))|reflexivity|]. cbn [stringsG]. rewrite app_nil_r. reflexivity.
  - constructor. exact D.
  - destruct (same_fields _ _ Q) as (N1 & T1 & _). rewrite N1, L, T1 in OF. rewrite L0. apply in_struct; assumption.
Qed.
Lemma x_items {W : word} ok item F : (forall g d g', fine g -> item g = POk (d, g') -> initR (fun n => okIn n (curType g) ok) g d g') ->
  forall node g d g', fine g -> itemLoop item F node g = POk (d, g') ->
  fine g' /\ sameE g g' /\ (sign (gtok g') = true -> exists xs ts, got g ts (flat_map stringsG xs) g' /\ derives_ginis xs ts /\
    okIns (gnt g) (curType g) ok (clab (ge g)) node xs d (clab (ge g'))).
Proof.
  intros HI. induction F as [|F IH]; intros node g d g' I H; [discriminate H|]. cbn [itemLoop] in H.
  destruct (item g) as [[n g1]| | |] eqn:E1; cbn [pbind] in H; try discriminate. cbv zeta in H.
  destruct (HI _ _ _ I E1) as (I1 & S1 & R1). destruct (same_fields _ _ S1) as (N1 & _).
  destruct (gIsTok cCOMMA g1) as [g2|] eqn:TC.
  - destruct (x_is _ _ _ I1 TC ltac:(discriminate) eq_refl) as (T & I2 & G2 & S2 & L2).
    destruct (IH _ _ _ _ I2 H) as (I3 & S3 & R3). split; [exact I3|]. split; [exact (same_trans _ _ _ (same_trans _ _ _ S1 S2) S3)|].
    intros SG. destruct (R3 SG) as (xs & ts & G3 & D3 & OF). destruct (R1 ltac:(rewrite T; reflexivity)) as (x & tx & G1 & D1 & O1).
    exists (x :: xs), (tx ++ TSym cCOMMA :: ts). split; [|split].
    + exact (got_trans _ _ _ _ _ _ _ G1 (got_trans _ _ _ _ _ _ _ G2 G3)).
    + constructor; assumption.
    + destruct (same_fields _ _ (same_trans _ _ _ S1 S2)) as (N & CT & _). rewrite N, CT, L2 in OF. eapply ins_cons; eassumption.
  - injection H as <- <-. split; [exact I1|]. split; [exact S1|]. intros SG.
    destruct (R1 SG) as (x & tx & G1 & D1 & O1). exists [x], tx. cbn [flat_map]. rewrite app_nil_r. split; [exact G1|]. split; [constructor; exact D1|].
    eapply ins_cons; [exact O1|constructor].
Qed.
Lemma x_garray {W : word} F : forall dim g d g', fine g -> 0 < dim -> getGArrayInitF F dim g = POk (d, g') -> initR (fun n => okIn n (curType g) dim) g d g'.
Proof.
  induction F as [|F IH]; intros dim g d g' I DM H; [discriminate H|]. cbn [getGArrayInitF] in H.
  destruct (gIsTok cLC g) as [g1|] eqn:T1.
  { destruct (x_is _ _ _ I T1 ltac:(discriminate) eq_refl) as (_ & I1 & G1 & S1 & L1). destruct (same_fields _ _ S1) as (N1 & CT1 & _).
    destruct (getGArrayInit0 (getGArrayInitF F) dim g1) as [[n g2]| | |] eqn:E2; cbn [pbind] in H; try discriminate.
    assert (exists y, fine g2 /\ sameE g1 g2 /\ n = DList y (byteDim (curType g) dim) /\
      (sign (gtok g2) = true -> exists xs ts, got g1 ts (flat_map stringsG xs) g2 /\ derives_ginis xs ts /\
        okIns (gnt g1) (curType g1) (dim - 1) (clab (ge g1)) DNull xs y (clab (ge g2)))) as (y & I2 & S2 & -> & R2).
    { unfold getGArrayInit0 in E2. destruct (Z.leb_spec dim 1) as [D1|D1].
      - assert (dim = 1) as -> by lia. change (1 - 1) with 0. destruct (Z.leb_spec (curType g1) 0) as [CT|CT].
        + destruct (itemLoop getStructInit (gfuel g1) DNull g1) as [[m g3]| | |] eqn:E3; cbn [pbind] in E2; try discriminate. injection E2 as <- <-.
          assert (forall h, curType h <= 0 -> forall F node d g', fine h -> itemLoop getStructInit F node h = POk (d, g') ->
             fine g' /\ sameE h g' /\ (sign (gtok g') = true -> exists xs ts, got h ts (flat_map stringsG xs) g' /\ derives_ginis xs ts /\
             okIns (gnt h) (curType h) 0 (clab (ge h)) node xs d (clab (ge g')))) as X.
          { clear. intros h CT F node d g' I H.
            apply (x_items 0 (fun g => if curType g <=? 0 then getStructInit g else PErr XBug) F); [|exact I|].
            - intros g a b Ig Hg. destruct (Z.leb_spec (curType g) 0); [|discriminate Hg]. apply x_structInit; assumption.
            - revert node h CT I H. induction F as [|F IHF]; intros node h CT I H; [discriminate H|]. cbn [itemLoop] in *.
              destruct (Z.leb_spec (curType h) 0); [|lia]. destruct (getStructInit h) as [[n g1]| | |] eqn:E1; cbn [pbind] in *; try discriminate. cbv zeta in *.
              destruct (x_structInit _ _ _ I CT E1) as (I1 & S1 & _). destruct (same_fields _ _ S1) as (_ & C1 & _).
              destruct (gIsTok cCOMMA g1) as [g2|] eqn:TC; [|exact H]. destruct (x_is _ _ _ I1 TC ltac:(discriminate) eq_refl) as (_ & I2 & _ & S2 & _).
              destruct (same_fields _ _ S2) as (_ & C2 & _). apply IHF; [lia|exact I2|exact H]. }
          destruct (X g1 CT _ _ _ _ I1 E3) as (I3 & S3 & R3). exists m. destruct (same_fields _ _ S3) as (_ & C3 & _). split; [exact I3|]. split; [exact S3|]. split; [rewrite C3, CT1; reflexivity|exact R3].
        + destruct (_ || _) eqn:B; [|discriminate E2]. destruct (itemLoop _ (gfuel g1) DNull g1) as [[m g3]| | |] eqn:E3; cbn [pbind] in E2; try discriminate. injection E2 as <- <-.
          assert (base (curType g1)) as BT.
          { unfold base. apply orb_true_iff in B. destruct B as [B|B]; [apply orb_true_iff in B; destruct B as [B|B]|]; apply Z.eqb_eq in B; auto. }
          assert (forall t, base t -> forall F h node d g', curType h = t -> fine h -> itemLoop (getCnst t) F node h = POk (d, g') ->
             fine g' /\ sameE h g' /\ (sign (gtok g') = true -> exists xs ts, got h ts (flat_map stringsG xs) g' /\ derives_ginis xs ts /\
             okIns (gnt h) (curType h) 0 (clab (ge h)) node xs d (clab (ge g')))) as X.
          { clear. intros t BT F h node d g' CT I H.
            apply (x_items 0 (fun g => if curType g =? t then getCnst t g else PErr XBug) F); [|exact I|].
            - intros g a b Ig Hg. destruct (Z.eqb_spec (curType g) t) as [->|]; [|discriminate Hg]. eapply x_const; [exact Ig| |exact Hg]. intros e OC. apply in_const; assumption.
            - revert node h CT I H. induction F as [|F IHF]; intros node h CT I H; [discriminate H|]. cbn [itemLoop] in *.
              rewrite CT, Z.eqb_refl. destruct (getCnst t h) as [[n g1]| | |] eqn:E1; cbn [pbind] in *; try discriminate. cbv zeta in *.
              destruct (x_cnst _ _ _ _ I E1) as (I1 & S1 & _). destruct (same_fields _ _ S1) as (_ & C1 & _).
              destruct (gIsTok cCOMMA g1) as [g2|] eqn:TC; [|exact H]. destruct (x_is _ _ _ I1 TC ltac:(discriminate) eq_refl) as (_ & I2 & _ & S2 & _).
              destruct (same_fields _ _ S2) as (_ & C2 & _). apply IHF; [congruence|exact I2|exact H]. }
          destruct (X (curType g1) BT _ _ _ _ _ eq_refl I1 E3) as (I3 & S3 & R3). exists m. destruct (same_fields _ _ S3) as (_ & C3 & _). split; [exact I3|]. split; [exact S3|]. split; [rewrite C3, CT1; reflexivity|exact R3].
      - destruct (itemLoop _ (gfuel g1) DNull g1) as [[m g3]| | |] eqn:E3; cbn [pbind] in E2; try discriminate. injection E2 as <- <-.
        destruct (x_items (dim - 1) _ _ (fun g d g' I H => IH (dim - 1) g d g' I ltac:(lia) H) _ _ _ _ I1 E3) as (I3 & S3 & R3).
        exists m. destruct (same_fields _ _ S3) as (_ & C3 & _). split; [exact I3|]. split; [exact S3|]. split; [rewrite C3, CT1; reflexivity|exact R3]. }
    xchk H I2. injection H as <- <-. split; [assumption|]. split; [exact (same_trans _ _ _ (same_trans _ _ _ S1 S2) Q)|]. intros _.
    destruct (R2 ltac:(rewrite T; reflexivity)) as (xs & ts & G2 & D & OF). exists (GBraces xs), (TSym cLC :: ts ++ [TSym cRC]). split; [|split].
    - eapply got_eq; [exact (got_trans _ _ _ _ _ _ _ G1 (got_trans _ _ _ _ _ _ _ G2 G))|reflexivity|]. cbn [stringsG]. rewrite app_nil_r. reflexivity.
    - constructor. exact D.
    - rewrite N1, CT1, L1 in OF. rewrite L. apply in_list; assumption. }
  destruct (gIsTok LxSTRING g) as [g1|] eqn:TS.
  { destruct (_ || _) eqn:B; [discriminate H|]. destruct (gStr g1) as [l g2] eqn:GS. injection H as <- <-.
    destruct (x_str _ _ _ _ I TS GS) as (I2 & S2 & S1 & EL & CL & _ & R).
    destruct (same_fields _ _ S1) as (_ & C1 & _). rewrite C1 in B. apply orb_false_iff in B. destruct B as [B1 B2].
    apply negb_false_iff, Z.eqb_eq in B1, B2. subst dim.
    split; [exact I2|]. split; [exact S2|]. intros SG. destruct (R SG) as (s & G). exists (GStr s), [TStr s]. split; [exact G|]. split; [constructor|].
    rewrite EL, CL. apply in_str. exact B1. }
  destruct (gIsTok LxARRAY g) as [g1|] eqn:TA.
  { destruct (x_is _ _ _ I TA ltac:(discriminate) eq_refl) as (_ & I1 & G1 & S1 & L1). destruct (same_fields _ _ S1) as (N1 & CT1 & _).
    destruct (x_array _ _ _ _ I1 H) as (I2 & S2 & ns & ts & a & G2 & C & OZ & ->). split; [exact I2|]. split; [exact (same_trans _ _ _ S1 S2)|]. intros _.
    exists (GArray ns), (TSym LxARRAY :: TSym cLP :: ts ++ [TSym cRP]). split; [exact (got_trans _ _ _ _ _ _ _ G1 G2)|]. split; [constructor; exact C|].
    rewrite N1, L1 in OZ. rewrite CT1. apply in_array; assumption. }
  destruct (gIsTok LxNUL g) as [g1|] eqn:TN; [|discriminate H]. injection H as <- <-. apply x_null; [exact I| |exact TN]. apply in_null. exact DM.
Qed.

(* ==== names ==== *)
Lemma dims_def t n sc ty d c p t' i : ntDefName t n sc ty d c p = NOk (t', i) -> 0 <= d -> dimsOk t -> dimsOk t'.
Proof. intros H D K. destruct (def_app _ _ _ _ _ _ _ _ _ H) as [-> _]. apply dimsOk_app. split; [exact K|]. constructor; [exact D|constructor]. Qed.
Lemma x_type g g' : fine g -> gGetType g = POk g' -> exists t d,
  fine g' /\ got g (tyTok t :: brackets d) [] g' /\ typed g g' /\ clab (ge g') = clab (ge g) /\ outp (ge g') = outp (ge g) /\
  curType g' = tyCode (gnt g) t /\ curDim g' = Z.of_nat d /\ curType g' <> TyNON.
Proof.
  intros [GO DO] H. unfold gGetType, getType in H. destruct (Z.eqb_spec (typeOf (gnt g) (ge g)) TyNON) as [N|N]; [discriminate H|].
  destruct (dimLoop (fuelOf (getTok (ge g))) 0 (getTok (ge g))) as [[d s]| | |] eqn:E; cbn [pbind] in H; try discriminate.
  injection H as <-. pose proof (good_getTok _ GO) as G1.
  destruct (dimLoop_sound _ _ _ _ _ G1 E) as (G2 & n & -> & V & L & O & _).
  destruct (typeOf_name _ _ GO N) as (t & TC & V0). exists t, n.
  rewrite getTok_lab in L. rewrite getTok_out in O.
  split; [split; gcbn; assumption|]. split.
  { constructor; gcbn; cbn [List.length strOut]; rewrite ?app_nil_r; [|lia|exact O|reflexivity]. rewrite V0, V. reflexivity. }
  split; [reflexivity|]. gcbn. split; [exact L|]. split; [exact O|]. split; [exact TC|]. split; [lia|exact N].
Qed.
(* what a new name requires *)
Definition nameOk (krn : bool) (g : gs) : Prop :=
  (curScope g <> ScPROT -> ~ (curType g = TyVOID /\ curDim g = 0) /\ curType g <> TyINTR) /\ (curType g = TyINTR -> krn = true).
Lemma nameOk_b krn g :
  negb (curScope g =? ScPROT) && (curType g =? TyVOID) && (curDim g =? 0) = false ->
  negb (curScope g =? ScPROT) && (curType g =? TyINTR) = false -> (curType g =? TyINTR) && negb krn = false -> nameOk krn g.
Proof.
  intros A B C. split.
  - intros N. apply Z.eqb_neq in N. rewrite N in A, B. cbn [negb andb] in A, B. apply Z.eqb_neq in B. split; [|exact B]. intros [X Y].
    rewrite X, Y in A. discriminate A.
  - intros E. rewrite E, Z.eqb_refl in C. cbn [andb] in C. destruct krn; [reflexivity|discriminate C].
Qed.
Lemma x_name krn pub g i g' : fine g -> 0 <= curDim g -> getName krn pub g = POk (i, g') -> exists nm,
  fine g' /\ nameOk krn g /\
  ntDefName (gnt g) nm (curScope g) (curType g) (curDim g) (curCnt g) pub = NOk (gnt g', i) /\
  g' = wNt (wE g (ge g')) (gnt g') /\ clab (ge g') = clab (ge g) /\ outp (ge g') = outp (ge g) /\ (sign (gtok g') = true -> got g [TName nm] [] g').
Proof.
  intros [GO DO] DG H. unfold getName in H. destruct (gChkTok LxNAME g) as [g1| | |] eqn:C; cbn [pbind] in H; try discriminate.
  apply gChkTok_ok in C. destruct C as [T ->]. unfold gGetTok in H. gcbn.
  destruct (negb (curScope g =? ScPROT) && (curType g =? TyVOID) && (curDim g =? 0)) eqn:B1; [discriminate|].
  destruct (negb (curScope g =? ScPROT) && (curType g =? TyINTR)) eqn:B2; [discriminate|].
  destruct ((curType g =? TyINTR) && negb krn) eqn:B3; [discriminate|].
  destruct (ntDefName _ _ _ _ _ _ _) as [[t j]|] eqn:DN; [|discriminate]. injection H as <- <-.
  exists (lxGetStr (getTok (ge g))). gcbn.
  split; [split; gcbn; [apply good_getTok; exact GO|exact (dims_def _ _ _ _ _ _ _ _ _ DN DG DO)]|]. split; [apply nameOk_b; assumption|].
  split; [exact DN|]. split; [reflexivity|]. split; [apply getTok_lab|]. split; [apply getTok_out|].
  intros SG. constructor; gcbn; rewrite ?getTok_lab, ?getTok_out; cbn; rewrite ?app_nil_r; try reflexivity; [|lia].
  apply view_name; [exact GO|exact T|exact SG].
Qed.

(* ==== structs ==== *)
(* the fields that struct declarations leave alone *)
Definition keep (g g' : gs) : Prop :=
  curScope g' = curScope g /\ pubFlag g' = pubFlag g /\ depth g' = depth g /\ brkLab g' = brkLab g /\ cntLab g' = cntLab g.
Lemma keep_refl g : keep g g.
Proof. repeat split. Qed.
Lemma keep_trans a b c : keep a b -> keep b c -> keep a c.
Proof. intros (A1 & A2 & A3 & A4 & A5) (B1 & B2 & B3 & B4 & B5). repeat split; congruence. Qed.
Lemma same_keep g g' : sameE g g' -> keep g g'.
Proof. intros ->. repeat split. Qed.
Definition moreC {A} (der : A -> list stok -> Prop) (vs : list A) (ts : list stok) : Prop :=
  vs = [] /\ ts = [] \/ exists tr, ts = TSym cCOMMA :: tr /\ commas der vs tr.
Lemma more_commas {A} (der : A -> list stok -> Prop) v r tv tm : der v tv -> moreC der r tm -> commas der (v :: r) (tv ++ tm).
Proof. intros D [[-> ->]|(tr & -> & M)]; [rewrite app_nil_r; constructor; exact D|constructor; assumption]. Qed.
Section Top.
Variables opt krn : bool.
Definition fieldState (g : gs) : Prop := fine g /\ 0 <= curDim g /\ curScope g = ScFLD.
Lemma x_nameCnt g g' : fieldState g -> nameCnt krn g = POk g' ->
  exists nm i, fieldState g' /\ ~ (curType g = TyVOID /\ curDim g = 0) /\ curType g <> TyINTR /\
  ntDefName (gnt g) nm ScFLD (curType g) (curDim g) (curCnt g) false = NOk (gnt g', i) /\
  curCnt g' = curCnt g + 1 /\ curType g' = curType g /\ curDim g' = curDim g /\ keep g g' /\
  (sign (gtok g') = true -> got g [TName nm] [] g').
Proof.
  intros (I & D & S) H. unfold nameCnt in H. destruct (getName krn false g) as [[i g1]| | |] eqn:E; cbn [pbind] in H; try discriminate. injection H as <-.
  destruct (x_name _ _ _ _ _ I D E) as (nm & I1 & [NO _] & DN & Q & L & O & GT). destruct (NO ltac:(rewrite S; discriminate)) as [NV NI].
  exists nm, i. rewrite S in DN.
  assert (curScope g1 = curScope g /\ pubFlag g1 = pubFlag g /\ depth g1 = depth g /\ brkLab g1 = brkLab g /\ cntLab g1 = cntLab g /\ curDim g1 = curDim g /\ curType g1 = curType g /\ curCnt g1 = curCnt g)
    as (K1 & K2 & K3 & K4 & K5 & K6 & K7 & K8) by (rewrite Q; gcbn; auto 10).
  split; [split; [exact I1|]; gcbn; split; congruence|]. split; [exact NV|]. split; [exact NI|]. gcbn. split; [exact DN|].
  split; [lia|]. split; [exact K7|]. split; [exact K6|]. split; [repeat split; gcbn; congruence|].
  intros SG. specialize (GT SG). apply (got_to _ _ _ g1); [exact GT|reflexivity|reflexivity].
Qed.
Lemma fs_same g g' : sameE g g' -> fine g' -> fieldState g -> fieldState g'.
Proof. intros S F (_ & A & B). split; [exact F|]. rewrite S. auto. Qed.
Lemma x_fieldNames F : forall g g', fieldState g -> fieldNames krn F g = POk g' ->
  fieldState g' /\ keep g g' /\ curType g' = curType g /\ curDim g' = curDim g /\
  (sign (gtok g') = true -> sign (gtok g) = true /\ exists ns ts, got g ts [] g' /\ moreC derives_name ns ts /\
     okNames (curType g) (curDim g) (gnt g) (curCnt g) ns (gnt g') (curCnt g')).
Proof.
  induction F as [|F IH]; intros g g' I H; [discriminate H|]. cbn [fieldNames] in H. destruct (gIsTok cCOMMA g) as [g1|] eqn:TC.
  - destruct (x_is _ _ _ (proj1 I) TC ltac:(discriminate) eq_refl) as (T & I1 & G1 & S1 & L1). pose proof (fs_same _ _ S1 I1 I) as FS1.
    destruct (nameCnt krn g1) as [g2| | |] eqn:E2; cbn [pbind] in H; try discriminate.
    destruct (x_nameCnt _ _ FS1 E2) as (nm & i & FS2 & NV & NI & DN & C2 & T2 & D2 & K2 & G2).
    destruct (IH _ _ FS2 H) as (FS3 & K3 & T3 & D3 & R3). destruct (same_fields _ _ S1) as (N1 & CT1 & CD1 & CS1 & CC1).
    split; [exact FS3|]. split; [exact (keep_trans _ _ _ (keep_trans _ _ _ (same_keep _ _ S1) K2) K3)|]. split; [congruence|]. split; [congruence|].
    intros SG. destruct (R3 SG) as (SG2 & ns & ts & G3 & M & ON). split; [rewrite T; reflexivity|].
    exists (nm :: ns), (TSym cCOMMA :: [TName nm] ++ ts). split; [|split].
    + exact (got_trans _ _ _ _ _ _ _ G1 (got_trans _ _ _ _ _ _ _ (G2 SG2) G3)).
    + right. eexists. split; [reflexivity|]. apply more_commas; [reflexivity|exact M].
    + rewrite N1, CT1, CD1, CC1 in DN. rewrite T2, D2, C2, CT1, CD1, CC1 in ON. eapply on_cons; [exact DN|exact ON].
  - injection H as <-. split; [exact I|]. split; [apply keep_refl|]. split; [reflexivity|]. split; [reflexivity|]. intros SG. split; [exact SG|].
    exists [], []. split; [apply got_refl|]. split; [left; auto|constructor].
Qed.
Lemma typed_fields2 g g' : StmtSound.typed g g' -> keep g g' /\ gnt g' = gnt g /\ curCnt g' = curCnt g /\ funcIdx g' = funcIdx g /\ lastStat g' = lastStat g.
Proof. intros E. rewrite E. repeat split. Qed.
Lemma x_fieldLine g g' : fieldState g -> getFieldLine krn g = POk g' ->
  fieldState g' /\ keep g g' /\ exists t d ns ts, got g ts [] g' /\ derives_fline (FLine t d ns) ts /\ varType (tyCode (gnt g) t) (Z.of_nat d) /\
    okNames (tyCode (gnt g) t) (Z.of_nat d) (gnt g) (curCnt g) ns (gnt g') (curCnt g') /\ curDim g' = Z.of_nat d.
Proof.
  intros I H. unfold getFieldLine in H. destruct (gGetType g) as [g1| | |] eqn:E1; cbn [pbind] in H; try discriminate.
  destruct (x_type _ _ (proj1 I) E1) as (t & d & I1 & G1 & TY & L1 & O1 & CT & CD & NN). destruct (typed_fields2 _ _ TY) as (K1 & N1 & CC1 & _).
  assert (fieldState g1) as FS1. { split; [exact I1|]. split; [lia|]. destruct K1 as [-> _]. exact (proj2 (proj2 I)). }
  destruct (nameCnt krn g1) as [g2| | |] eqn:E2; cbn [pbind] in H; try discriminate.
  destruct (x_nameCnt _ _ FS1 E2) as (nm & i & FS2 & NV & NI & DN & C2 & T2 & D2 & K2 & G2).
  destruct (fieldNames krn (gfuel g2) g2) as [g3| | |] eqn:E3; cbn [pbind] in H; try discriminate.
  destruct (x_fieldNames _ _ _ FS2 E3) as (FS3 & K3 & T3 & D3 & R3).
  destruct (x_chk _ _ _ (proj1 FS3) H ltac:(discriminate) eq_refl) as (T & I4 & G4 & S4 & L4).
  split; [exact (fs_same _ _ S4 I4 FS3)|]. split; [exact (keep_trans _ _ _ (keep_trans _ _ _ (keep_trans _ _ _ K1 K2) K3) (same_keep _ _ S4))|].
  destruct (R3 ltac:(rewrite T; reflexivity)) as (SG2 & ns & ts & G3 & M & ON). destruct (same_fields _ _ S4) as (N4 & CT4 & CD4 & _ & CC4).
  exists t, d, (nm :: ns), (tyTok t :: brackets d ++ (TName nm :: ts) ++ [TSym cSEMI]). split; [|split; [|split; [|split]]].
  - eapply got_eq; [exact (got_trans _ _ _ _ _ _ _ G1 (got_trans _ _ _ _ _ _ _ (G2 SG2) (got_trans _ _ _ _ _ _ _ G3 G4)))| |reflexivity]. repeat (rewrite <- app_assoc || rewrite <- app_comm_cons || cbn [app]); reflexivity.
  - constructor. exact (more_commas derives_name nm ns [TName nm] ts eq_refl M).
  - rewrite <- CT, <- CD. split; [exact NN|]. split; assumption.
  - rewrite <- CT, <- CD, N4, CC4. rewrite N1, CC1 in DN. rewrite T2, D2, C2, CC1 in ON. eapply on_cons; [exact DN|exact ON].
  - congruence.
Qed.
Definition flines0 (fs : list fline) (ts : list stok) : Prop := fs = [] /\ ts = [] \/ derives_flines fs ts.
Lemma flines_cons f r tf tr : derives_fline f tf -> flines0 r tr -> derives_flines (f :: r) (tf ++ tr).
Proof. intros D [[-> ->]|M]; [rewrite app_nil_r; constructor; exact D|constructor; assumption]. Qed.
Lemma x_fieldLines F : forall g g', fieldState g -> fieldLines krn F g = POk g' ->
  fieldState g' /\ keep g g' /\ exists fs ts, got g (ts ++ [TSym cRC]) [] g' /\ flines0 fs ts /\
    okFlines (gnt g) (curCnt g) (curDim g) fs (gnt g') (curCnt g') (curDim g').
Proof.
  induction F as [|F IH]; intros g g' I H; [discriminate H|]. cbn [fieldLines] in H. destruct (gIsTok cRC g) as [g1|] eqn:TC.
  - injection H as <-. destruct (x_is _ _ _ (proj1 I) TC ltac:(discriminate) eq_refl) as (T & I1 & G1 & S1 & L1).
    split; [exact (fs_same _ _ S1 I1 I)|]. split; [exact (same_keep _ _ S1)|]. exists [], []. split; [exact G1|]. split; [left; auto|].
    destruct (same_fields _ _ S1) as (N1 & CT1 & CD1 & CS1 & CC1). rewrite N1, CD1, CC1. constructor.
  - destruct (getFieldLine krn g) as [g1| | |] eqn:E1; cbn [pbind] in H; try discriminate.
    destruct (x_fieldLine _ _ I E1) as (I1 & K1 & t & d & ns & ts & G1 & DF & VT & ON & CD).
    destruct (IH _ _ I1 H) as (I2 & K2 & fs & ts2 & G2 & DF2 & OF). split; [exact I2|]. split; [exact (keep_trans _ _ _ K1 K2)|].
    exists (FLine t d ns :: fs), (ts ++ ts2). split; [|split].
    + eapply got_eq; [exact (got_trans _ _ _ _ _ _ _ G1 G2)| |reflexivity]. rewrite app_assoc. reflexivity.
    + right. apply flines_cons; assumption.
    + rewrite CD in OF. eapply ofl_cons; [exact VT|exact ON|exact OF].
Qed.
Definition topOf (g : gs) : tenv := TEnv (gnt g) (clab (ge g)) (curCnt g) (curDim g) (brkLab g) (cntLab g) (outp (ge g)).
Definition vgot (g : gs) (ts : list stok) (g' : gs) : Prop := view (its (ge g)) = ts ++ view (its (ge g')).
Lemma vgot_trans g a g1 b g2 : vgot g a g1 -> vgot g1 b g2 -> vgot g (a ++ b) g2.
Proof. unfold vgot. intros -> ->. rewrite app_assoc. reflexivity. Qed.
Lemma got_v g ts ss g' : got g ts ss g' -> vgot g ts g'.
Proof. intros [V _ _ _]. exact V. Qed.
Lemma got_out g ts ss g' : got g ts ss g' -> outp (ge g') = outp (ge g) ++ strOut (clab (ge g)) ss.
Proof. intros []. assumption. Qed.
Lemma dims_setCnt t i c : dimsOk t -> dimsOk (ntSetCnt t i c).
Proof. intros F. unfold ntSetCnt. apply Forall_upd; [|exact F]. auto. Qed.
Lemma dims_setScope t i c : dimsOk t -> dimsOk (ntSetScope t i c).
Proof. intros F. unfold ntSetScope. apply Forall_upd; [|exact F]. auto. Qed.
Lemma dims_undef t i : dimsOk t -> dimsOk (ntUndefName t i).
Proof. apply Forall_firstn. Qed.
(* the state between declarations *)
Definition rest (g : gs) : Prop := fine g /\ 0 <= curDim g /\ depth g = 0.
Lemma x_struct n nm i g g' : rest g -> ntDefName n nm ScSTRC TySTRUC (curDim g) (curCnt g) false = NOk (gnt g, i) -> getStruct krn g = POk g' ->
  rest g' /\ exists fs ts, vgot g (TSym cLC :: ts ++ [TSym cRC; TSym cSEMI]) g' /\ derives_flines fs ts /\
    okTop opt krn (TEnv n (clab (ge g)) (curCnt g) (curDim g) (brkLab g) (cntLab g) (outp (ge g))) (PStruct nm fs) (topOf g').
Proof.
  intros (I & D & DP) DN H. unfold getStruct in H. xchk H I. cbv zeta in H. set (g1 := wCnt (wScope g0 ScFLD) 0) in *.
  destruct (same_fields _ _ Q) as (N1 & CT1 & CD1 & _).
  assert (fieldState g1) as FS1. { split; [exact I0|]. split; [unfold g1; gcbn; lia|reflexivity]. }
  destruct (getFieldLine krn g1) as [g2| | |] eqn:E2; cbn [pbind] in H; try discriminate.
  destruct (x_fieldLine _ _ FS1 E2) as (I2 & K2 & t & d & ns & ts & G2 & DF & VT & ON & CD).
  destruct (fieldLines krn (gfuel g2) g2) as [g3| | |] eqn:E3; cbn [pbind] in H; try discriminate.
  destruct (x_fieldLines _ _ _ I2 E3) as (I3 & K3 & fs & ts2 & G3 & DF2 & OF).
  pose proof (proj1 I3) as F3. xchk H F3. injection H as <-. destruct (same_fields _ _ Q0) as (N4 & CT4 & CD4 & _ & CC4).
  pose proof (keep_trans _ _ _ K2 K3) as (_ & _ & A3 & A4 & A5). pose proof (same_keep _ _ Q) as (_ & _ & B3 & B4 & B5). pose proof (same_keep _ _ Q0) as (_ & _ & C3 & C4 & C5).
  unfold g1 in A3, A4, A5. gcbn.
  split. { split; [split; gcbn; [exact (proj1 I1)|apply dims_setCnt, dims_setVoid; exact (proj2 I1)]|]. gcbn. split; [pose proof (proj1 (proj2 I3)); lia|congruence]. }
  exists (FLine t d ns :: fs), (ts ++ ts2). split; [|split].
  - assert (got g0 ts [] g2) as G2' by exact (got_from g0 g1 _ _ _ G2 eq_refl eq_refl).
    eapply eq_trans; [exact (t_view _ _ _ _ (got_trans _ _ _ _ _ _ _ G (got_trans _ _ _ _ _ _ _ G2' (got_trans _ _ _ _ _ _ _ G3 G0))))|]. repeat (rewrite <- app_assoc || rewrite <- app_comm_cons || cbn [app]); reflexivity.
  - apply flines_cons; assumption.
  - unfold g1 in *. gcbn. destruct (def_app _ _ _ _ _ _ _ _ _ DN) as [EN EI].
    pose proof (got_clab _ _ _ _ G2) as L2. pose proof (got_clab _ _ _ _ G3) as L3. cbn [List.length] in L2, L3. gcbn.
    pose proof (got_out _ _ _ _ G2) as O2. pose proof (got_out _ _ _ _ G3) as O3. pose proof (got_out _ _ _ _ G) as O1. pose proof (got_out _ _ _ _ G0) as O4.
    cbn [strOut] in O1, O2, O3, O4. rewrite app_nil_r in O1, O2, O3, O4. gcbn.
    assert (ntGetSize (gnt g0) = i + 1) as SZ by (rewrite N1, EN, size_app; cbn [List.length]; lia).
    rewrite SZ, size_setVoid. replace (i + 1 - 1) with i by lia. replace (ntGetSize (gnt g4) - (i + 1)) with (ntGetSize (gnt g3) - i - 1) by (rewrite N4; lia).
    unfold topOf. gcbn. rewrite N4, CC4, CD4, C4, C5, A4, A5, B4, B5, O4, O3, O2, O1.
    replace (clab (ge g4)) with (clab (ge g)) by lia. eapply ot_struct; [exact DN|]. rewrite N1 in *. rewrite CD in OF. eapply ofl_cons; [exact VT|exact ON|exact OF].
Qed.
(* ==== global variables ==== *)
Lemma clashes_glob nm sc sc' e : 0 <= sc < ScLVAR -> 0 <= sc' < ScLVAR -> clashes nm sc e = clashes nm sc' e.
Proof.
  intros A B. unfold clashes. change ScLVAR with 4 in *. change ScSTRC with (-1).
  destruct (Z.eqb_spec sc (-1)), (Z.eqb_spec sc' (-1)), (Z.leb_spec 4 sc), (Z.leb_spec 4 sc'), (Z.eqb_spec sc 4), (Z.eqb_spec sc' 4); try lia. reflexivity.
Qed.
Lemma scan_ext p q t : (forall e, p e = q e) -> forall i, scan p t i = scan q t i.
Proof. intros E. induction t as [|e t IH]; intros i; [reflexivity|]. cbn [scan]. rewrite E, IH. reflexivity. Qed.
Lemma def_glob n nm sc sc' t d c p n1 i : 0 <= sc < ScLVAR -> 0 <= sc' < ScLVAR -> ntDefName n nm sc t d c p = NOk (n1, i) ->
  ntDefName n nm sc' t d c p = NOk (n ++ [Ent nm sc' t d c p], i).
Proof.
  intros A B H. unfold ntDefName in *. destruct (_ <=? ntGetSize n); [discriminate H|]. unfold ntChkName in *.
  rewrite (scan_ext (clashes nm sc') (clashes nm sc) n (fun e => clashes_glob nm sc' sc e B A)). destruct (0 <=? _); [discriminate H|]. injection H as <- <-. reflexivity.
Qed.
Lemma firstn_snoc {A} (l : list A) e : firstn (List.length l) (l ++ [e]) = l.
Proof. rewrite firstn_app, firstn_all, Nat.sub_diag. cbn [firstn]. apply app_nil_r. Qed.
Lemma srcGlob_snoc n e : ntSrcGlob (n ++ [e]) (ntGetSize n) = match prior n (nName e) with Some i => i | None => -1 end.
Proof.
  unfold ntSrcGlob. rewrite ProgInv.ent_app_r by lia. replace (ntGetSize n - ntGetSize n) with 0 by lia. cbn. unfold ntGetSize. rewrite Nat2Z.id, firstn_snoc. reflexivity.
Qed.
Lemma prior_lt n nm i : prior n nm = Some i -> 0 <= i < ntGetSize n.
Proof. intros H. apply scan_lt in H. unfold ntGetSize. lia. Qed.
Lemma setScope_snoc n e sc : ntSetScope (n ++ [e]) (ntGetSize n) sc = n ++ [Ent (nName e) sc (nType e) (nDim e) (nCnt e) (nPub e)].
Proof. unfold ntSetScope, ntGetSize. rewrite Nat2Z.id. apply upd_last. Qed.
Lemma setScope_app n r i sc : 0 <= i < ntGetSize n -> ntSetScope (n ++ r) i sc = ntSetScope n i sc ++ r.
Proof. unfold ntSetScope, ntGetSize. intros. apply upd_app. lia. Qed.
Lemma undef_snoc n r : ntUndefName (n ++ r) (ntGetSize n) = n.
Proof. unfold ntUndefName, ntGetSize. rewrite Nat2Z.id, firstn_app, firstn_all, Nat.sub_diag. cbn [firstn]. apply app_nil_r. Qed.
Lemma size_snoc n (e : entry) : ntGetSize (n ++ [e]) - 1 = ntGetSize n.
Proof. rewrite size_app. cbn [List.length]. lia. Qed.
Lemma dimAt_snoc n e : dimAt (n ++ [e]) (ntGetSize n) = nDim e.
Proof. unfold dimAt. rewrite ProgInv.ent_app_r by lia. replace (ntGetSize n - ntGetSize n) with 0 by lia. reflexivity. Qed.
Lemma typeAt_snoc n e : typeAt (n ++ [e]) (ntGetSize n) = nType e.
Proof. unfold typeAt. rewrite ProgInv.ent_app_r by lia. replace (ntGetSize n - ntGetSize n) with 0 by lia. reflexivity. Qed.
Lemma pubAt_app_l t r i : i < ntGetSize t -> pubAt (t ++ r) i = pubAt t i.
Proof. intros. unfold pubAt. rewrite ProgInv.ent_app_l by assumption. reflexivity. Qed.
Lemma typeAt_setScope t i s k : typeAt (ntSetScope t i s) k = typeAt t k.
Proof.
  unfold typeAt, ent, ntSetScope. destruct (k <? 0); [reflexivity|]. rewrite upd_nth. destruct (Nat.eqb _ _); [|reflexivity].
  destruct (nth_error t (Z.to_nat k)); reflexivity.
Qed.
Lemma pubAt_setScope t i s k : pubAt (ntSetScope t i s) k = pubAt t k.
Proof.
  unfold pubAt, ent, ntSetScope. destruct (k <? 0); [reflexivity|]. rewrite upd_nth. destruct (Nat.eqb _ _); [|reflexivity].
  destruct (nth_error t (Z.to_nat k)); reflexivity.
Qed.
Lemma agrees_b n i t d pub : negb (typeAt n i =? t) || negb (dimAt n i =? d) || negb (Bool.eqb (pubAt n i) pub) = false -> agrees n i t d pub.
Proof.
  intros H. apply orb_false_iff in H. destruct H as [H C]. apply orb_false_iff in H. destruct H as [A B]. apply negb_false_iff in A, B, C.
  apply Z.eqb_eq in A, B. apply eqb_prop in C. repeat split; assumption.
Qed.
Lemma agrees_app n r i t d pub : i < ntGetSize n -> agrees (n ++ r) i t d pub <-> agrees n i t d pub.
Proof. intros L. unfold agrees. rewrite StmtSound.typeAt_app, StmtSound.dimAt_app, pubAt_app_l by exact L. reflexivity. Qed.
Lemma agrees_setScope n j s i t d pub : agrees (ntSetScope n j s) i t d pub <-> agrees n i t d pub.
Proof. unfold agrees. rewrite typeAt_setScope, dimAt_setScope, pubAt_setScope. reflexivity. Qed.
(* the value of a variable *)
Lemma x_gini {W : word} g d g' : fine g -> 0 <= curDim g ->
  (if 0 <? curDim g then getGArrayInit (curDim g) g
   else if (curType g =? TyINT) || (curType g =? TyCHAR) || (curType g =? TyBOOL) then getCnst (curType g) g
   else if curType g <=? 0 then getStructInit g else PErr XBug) = POk (d, g') ->
  initR (fun n => okIn n (curType g) (curDim g)) g d g'.
Proof.
  intros I D H. destruct (Z.ltb_spec 0 (curDim g)) as [L|L]; [exact (x_garray _ _ _ _ _ I L H)|]. replace (curDim g) with 0 in * by lia.
  destruct (_ || _) eqn:B.
  - eapply x_const; [exact I| |exact H]. intros e OC. apply in_const; [|exact OC]. unfold base.
    apply orb_true_iff in B. destruct B as [B|B]; [apply orb_true_iff in B; destruct B as [B|B]|]; apply Z.eqb_eq in B; auto.
  - destruct (Z.leb_spec (curType g) 0) as [T|T]; [|discriminate H]. apply x_structInit; assumption.
Qed.
(* a state whose last name is being declared: T the state before the name *)
Record newVar (pub : bool) (T : tenv) (nm : list Z) (g : gs) : Prop := NewVar {
  nv_fine : fine g; nv_dim : 0 <= curDim g; nv_pub : pubFlag g = pub;
  nv_def : ntDefName (tN T) nm ScCOMM (curType g) (curDim g) (tC T) pub = NOk (gnt g, ntGetSize (tN T));
  nv_top : T = TEnv (tN T) (clab (ge g)) (curCnt g) (curDim g) (brkLab g) (cntLab g) (outp (ge g)) }.
Lemma x_gvar pub T nm g g' : newVar pub T nm g -> getGVar g = POk g' ->
  fine g' /\ keep g g' /\ curType g' = curType g /\ curDim g' = curDim g /\ curCnt g' = curCnt g /\
  (sign (gtok g') = true -> sign (gtok g) = true /\ exists oi ts, vgot g ts g' /\ derives_gvar (nm, oi) (TName nm :: ts) /\
     okGVar (curType g) (curDim g) pub T (nm, oi) (topOf g')).
Proof.
  intros [I D P DN ET] H. destruct T as [n l c k b kk o]. cbn [tN tC] in *. injection ET as EL EC EK EB EKK EO. subst l c k b kk o.
  destruct (def_app _ _ _ _ _ _ _ _ _ DN) as [EN _]. unfold getGVar in H. cbv zeta in H. rewrite EN in H. rewrite size_snoc, srcGlob_snoc in H. cbn [nName] in H.
  set (idx := match prior n nm with Some i => i | None => -1 end) in H.
  assert (forall i, prior n nm = Some i -> 0 <= i < ntGetSize n) as PL by (intros i; apply prior_lt).
  destruct (gIsTok cEQ g) as [g1|] eqn:TE.
  - destruct (x_is _ _ _ I TE ltac:(discriminate) eq_refl) as (T & I1 & G1 & S1 & L1). destruct (same_fields _ _ S1) as (N1 & CT1 & CD1 & CS1 & CC1).
    rewrite N1, EN, setScope_snoc in H. cbn [nName nType nDim nCnt nPub] in H.
    set (n1 := n ++ [Ent nm ScGVAR (curType g) (curDim g) (curCnt g) pub]) in H. set (g2 := wNt g1 n1) in H.
    assert (fine g2) as I2.
    { split; [exact (proj1 I1)|]. unfold g2. gcbn. unfold n1. apply dimsOk_app. destruct I as [_ DI]. rewrite EN in DI. apply dimsOk_app in DI. split; [exact (proj1 DI)|]. constructor; [exact D|constructor]. }
    match type of H with pbind (pbind ?r _) _ = _ => destruct r as [[a g3]| | |] eqn:E; cbn [pbind] in H; try discriminate H end.
    assert (curDim g2 = curDim g) as CD2 by exact CD1. assert (curType g2 = curType g) as CT2 by exact CT1.
    destruct (x_gini _ _ _ I2 ltac:(lia) E) as (I3 & S3 & R3). destruct (same_fields _ _ S3) as (N3 & CT3 & CD3 & CS3 & CC3).
    assert (gnt g3 = n1) as N3' by exact N3. rewrite N3' in H. replace (dimAt n1 (ntGetSize n)) with (curDim g) in H by (unfold n1; rewrite dimAt_snoc; reflexivity).
    destruct (genData (ntGetSize n) (curDim g) a (clab (ge g3))) as [[code l2]|] eqn:GD; [|discriminate H]. cbv zeta in H. gcbn.
    assert (ntDefName n nm ScGVAR (curType g) (curDim g) (curCnt g) pub = NOk (n1, ntGetSize n)) as DN1 by (apply (def_glob _ _ ScCOMM ScGVAR _ _ _ _ _ _ ltac:(change ScLVAR with 4; change ScCOMM with 2; lia) ltac:(change ScLVAR with 4; change ScGVAR with 3; lia) DN)).
    assert (keep g g3) as K3 by exact (keep_trans _ _ _ (same_keep _ _ S1) (keep_trans g1 g2 g3 (conj eq_refl (conj eq_refl (conj eq_refl (conj eq_refl eq_refl)))) (same_keep _ _ S3))).
    assert (forall t, dimsOk t -> fine (wNt (wE g3 (ES (its (ge g3)) l2 (outp (ge g3) ++ code))) t)) as FI.
    { intros t Dt. split; gcbn; [exact (proj1 I3)|exact Dt]. }
    assert (forall z, POk z = POk g' -> z = g') as INJ by (intros z Hz; injection Hz; auto).
    assert (sign (gtok g3) = true -> exists x ts, vgot g (TSym cEQ :: ts) g3 /\ derives_gini x ts /\ okIn n1 (curType g) (curDim g) (clab (ge g)) x a (clab (ge g3)) /\
       outp (ge g3) = outp (ge g) ++ strOut (clab (ge g)) (stringsG x)) as R.
    { intros SG. destruct (R3 SG) as (x & ts & G3 & DG & OI). exists x, ts. split; [|split; [exact DG|split]].
      - pose proof (t_view _ _ _ _ G1) as V1. pose proof (t_view _ _ _ _ G3) as V3. unfold g2 in V3. gcbn. unfold vgot. rewrite V1, V3. reflexivity.
      - unfold g2 in OI. gcbn. rewrite CT1, CD1, L1 in OI. exact OI.
      - pose proof (got_out _ _ _ _ G3) as O3. unfold g2 in O3. gcbn. rewrite O3, L1. rewrite (got_out _ _ _ _ G1). cbn [strOut]. rewrite app_nil_r. reflexivity. }
    destruct K3 as (K1 & K2 & K3 & K4 & K5).
    destruct (prior n nm) as [i|] eqn:PR; unfold idx in H.
    + specialize (PL i eq_refl). destruct (Z.leb_spec 0 i) as [_|]; [|lia]. cbn [andb] in H. rewrite N3' in H.
      replace (scopeAt n1 i) with (scopeAt n i) in H by (unfold n1; rewrite ProgInv.scopeAt_app_l by lia; reflexivity).
      destruct (Z.eqb_spec (scopeAt n i) ScCOMM) as [SC|]; cbn [negb pbind] in H; [|discriminate H].
      unfold n1 in H. rewrite setScope_app in H by lia. rewrite <- (size_setScope n i ScGVAR), undef_snoc in H. gcbn.
      destruct (perr_if _ _) as [u| | |] eqn:PE; cbn [pbind] in H; try discriminate H. apply INJ in H. subst g'.
      assert (agrees n i (curType g) (curDim g) pub) as AG.
      { apply (agrees_setScope n i ScGVAR). apply agrees_b. unfold perr_if in PE. match type of PE with (if ?b then _ else _) = _ => destruct b eqn:B; [discriminate PE|] end. gcbn.
        rewrite CT3, CD3, K2, P in B. unfold g2 in B. gcbn. rewrite CT1, CD1 in B. exact B. }
      assert (dimsOk n) as DN0. { destruct I as [_ DI]. rewrite EN in DI. apply dimsOk_app in DI. apply DI. }
      split; [apply FI, dims_setScope; exact DN0|]. split; [repeat split; gcbn; assumption|]. gcbn. split; [congruence|]. split; [congruence|].
      split; [rewrite CC3; unfold g2; gcbn; congruence|]. intros SG. destruct (R SG) as (x & ts & V & DG & OI & OO).
      split; [rewrite T; reflexivity|]. exists (Some x), (TSym cEQ :: ts). split; [exact V|]. split; [constructor; exact DG|]. unfold topOf. gcbn. cbn [clab outp].
      replace (curCnt g3) with (curCnt g) by (rewrite CC3; unfold g2; gcbn; congruence). rewrite CD3, CD2, K4, K5, OO, <- app_assoc.
      eapply ogv_late; eassumption.
    + cbn [pbind andb] in H. change (0 <=? -1) with false in H. cbn [pbind andb perr_if] in H. apply INJ in H. subst g'.
      split; [split; [exact (proj1 I3)|exact (proj2 I3)]|]. split; [repeat split; gcbn; assumption|]. gcbn. split; [congruence|]. split; [congruence|].
      split; [rewrite CC3; unfold g2; gcbn; congruence|]. intros SG. destruct (R SG) as (x & ts & V & DG & OI & OO).
      split; [rewrite T; reflexivity|]. exists (Some x), (TSym cEQ :: ts). split; [exact V|]. split; [constructor; exact DG|]. unfold topOf. gcbn. cbn [clab outp].
      replace (curCnt g3) with (curCnt g) by (rewrite CC3; unfold g2; gcbn; congruence). rewrite CD3, CD2, K4, K5, OO, <- app_assoc, N3'.
      eapply ogv_init; eassumption.
  - destruct (prior n nm) as [i|] eqn:PR; unfold idx in H.
    + specialize (PL i eq_refl). destruct (Z.leb_spec 0 i) as [_|]; [|lia]. rewrite ProgInv.scopeAt_app_l, undef_snoc in H by lia.
      destruct (_ || _) eqn:B in H; cbn [pbind] in H; [|discriminate H]. gcbn. cbn [andb] in H.
      destruct (perr_if _ _) as [u| | |] eqn:PE; cbn [pbind] in H; try discriminate H. injection H as <-.
      assert (agrees n i (curType g) (curDim g) pub) as AG.
      { apply agrees_b. unfold perr_if in PE. match type of PE with (if ?b then _ else _) = _ => destruct b eqn:B2; [discriminate PE|] end.  rewrite P in B2. exact B2. }
      assert (dimsOk n) as DN0. { destruct I as [_ DI]. rewrite EN in DI. apply dimsOk_app in DI. apply DI. }
      split; [split; gcbn; [exact (proj1 I)|exact DN0]|]. split; [repeat split|]. gcbn. split; [reflexivity|]. split; [reflexivity|]. split; [reflexivity|].
      intros SG. split; [exact SG|]. exists None, []. split; [reflexivity|]. split; [constructor|]. unfold topOf. gcbn.
      eapply ogv_again; [exact DN|exact PR| |exact AG]. apply orb_true_iff in B. destruct B as [B|B]; apply Z.eqb_eq in B; auto.
    + cbn [pbind andb] in H. change (0 <=? -1) with false in H. cbn [pbind andb perr_if] in H. injection H as <-.
      split; [exact I|]. split; [repeat split|]. unfold emit. gcbn. split; [reflexivity|]. split; [reflexivity|]. split; [reflexivity|].
      intros SG. split; [exact SG|]. exists None, []. split; [reflexivity|]. split; [constructor|]. unfold topOf. gcbn. cbn [clab outp]. unfold genBss.
      eapply ogv_new; [exact DN|exact PR].
Qed.
Lemma x_gvarsLoop pub F : forall g g', fine g -> 0 <= curDim g -> curScope g = ScCOMM -> pubFlag g = pub -> gvarsLoop krn F g = POk g' ->
  fine g' /\ keep g g' /\ curType g' = curType g /\ curDim g' = curDim g /\
  (sign (gtok g') = true -> sign (gtok g) = true /\ exists vs ts, vgot g ts g' /\ moreC derives_gvar vs ts /\
     okGVars (curType g) (curDim g) pub (topOf g) vs (topOf g')).
Proof.
  induction F as [|F IH]; intros g g' I D S P H; [discriminate H|]. cbn [gvarsLoop] in H. destruct (gIsTok cCOMMA g) as [g1|] eqn:TC.
  - destruct (x_is _ _ _ I TC ltac:(discriminate) eq_refl) as (T & I1 & G1 & S1 & L1). destruct (same_fields _ _ S1) as (N1 & CT1 & CD1 & CS1 & CC1).
    pose proof (same_keep _ _ S1) as K1.
    destruct (getName krn (pubFlag g1) g1) as [[i g2]| | |] eqn:E2; cbn [pbind] in H; try discriminate.
    destruct (x_name _ _ _ _ _ I1 ltac:(lia) E2) as (nm & I2 & _ & DN & Q & L & O & GT).
    assert (keep g1 g2 /\ curDim g2 = curDim g1 /\ curType g2 = curType g1 /\ curCnt g2 = curCnt g1) as (K2 & CD2 & CT2 & CC2) by (rewrite Q; gcbn; repeat split).
    destruct (getGVar g2) as [g3| | |] eqn:E3; cbn [pbind] in H; try discriminate.
    assert (newVar pub (topOf g) nm g2) as NV.
    { pose proof K1 as (A1 & A2 & A3 & A4 & A5). pose proof K2 as (B1 & B2 & B3 & B4 & B5).
      assert (outp (ge g2) = outp (ge g)) as OO. { rewrite O, (got_out _ _ _ _ G1). cbn [strOut]. apply app_nil_r. }
      constructor; [exact I2|lia|congruence| |].
      - cbn [topOf tN tC]. destruct (def_app _ _ _ _ _ _ _ _ _ DN) as [_ EI]. rewrite EI, CS1, S, CT1, CD1, CC1, N1, A2, P in DN. rewrite CT2, CD2, CT1, CD1. exact DN.
      - unfold topOf. cbn [tN]. rewrite L, L1, CC2, CC1, CD2, CD1, B4, B5, A4, A5, OO. reflexivity. }
    destruct (x_gvar _ _ _ _ _ NV E3) as (I3 & K3 & CT3 & CD3 & CC3 & R3).
    pose proof (keep_trans _ _ _ (keep_trans _ _ _ K1 K2) K3) as K13. pose proof K13 as (A1 & A2 & _).
    destruct (IH g3 g' I3 ltac:(lia) ltac:(congruence) ltac:(congruence) H) as (I4 & K4 & CT4 & CD4 & R4).
    split; [exact I4|]. split; [exact (keep_trans _ _ _ K13 K4)|]. split; [congruence|]. split; [congruence|].
    intros SG. destruct (R4 SG) as (SG3 & vs & ts & V4 & M & OV). destruct (R3 SG3) as (SG2 & oi & ti & V3 & DV & OG). split; [rewrite T; reflexivity|].
    exists ((nm, oi) :: vs), (TSym cCOMMA :: (TName nm :: ti) ++ ts). split; [|split].
    + exact (vgot_trans _ _ _ _ _ (got_v _ _ _ _ G1) (vgot_trans _ _ _ _ _ (vgot_trans _ _ _ _ _ (got_v _ _ _ _ (GT SG2)) V3) V4)).
    + right. eexists. split; [reflexivity|]. apply more_commas; [exact DV|exact M].
    + rewrite CT2, CD2, CT1, CD1 in OG. replace (curType g3) with (curType g) in OV by congruence. replace (curDim g3) with (curDim g) in OV by congruence.
      econstructor; [exact OG|exact OV].
  - injection H as <-. split; [exact I|]. split; [apply keep_refl|]. split; [reflexivity|]. split; [reflexivity|]. intros SG. split; [exact SG|].
    exists [], []. split; [reflexivity|]. split; [left; auto|constructor].
Qed.
Lemma x_getGVars pub T nm g g' : newVar pub T nm g -> curScope g = ScCOMM -> getGVars krn g = POk g' ->
  fine g' /\ keep g g' /\ curDim g' = curDim g /\ sign (gtok g) = true /\
  exists vs ts, vgot g (ts ++ [TSym cSEMI]) g' /\ commas derives_gvar vs (TName nm :: ts) /\ okGVars (curType g) (curDim g) pub T vs (topOf g').
Proof.
  intros NV SC H. unfold getGVars in H. destruct (getGVar g) as [g1| | |] eqn:E1; cbn [pbind] in H; try discriminate.
  destruct (x_gvar _ _ _ _ _ NV E1) as (I1 & K1 & CT1 & CD1 & CC1 & R1). pose proof K1 as (A1 & A2 & _). pose proof (nv_dim _ _ _ _ NV). pose proof (nv_pub _ _ _ _ NV).
  destruct (gvarsLoop krn (gfuel g1) g1) as [g2| | |] eqn:E2; cbn [pbind] in H; try discriminate.
  destruct (x_gvarsLoop pub _ _ _ I1 ltac:(lia) ltac:(congruence) ltac:(congruence) E2) as (I2 & K2 & CT2 & CD2 & R2).
  destruct (x_chk _ _ _ I2 H ltac:(discriminate) eq_refl) as (T3 & I3 & G3 & S3 & L3).
  destruct (R2 ltac:(rewrite T3; reflexivity)) as (SG1 & vs & ts & V2 & M & OV). destruct (R1 SG1) as (SG & oi & ti & V1 & DV & OG).
  destruct (same_fields _ _ S3) as (N3 & CT3 & CD3 & CS3 & CC3). pose proof (same_keep _ _ S3) as K3. pose proof K3 as (_ & _ & _ & B4 & B5).
  split; [exact I3|]. split; [exact (keep_trans _ _ _ (keep_trans _ _ _ K1 K2) K3)|]. split; [congruence|]. split; [exact SG|].
  exists ((nm, oi) :: vs), (ti ++ ts). split; [|split].
  - rewrite <- app_assoc. exact (vgot_trans _ _ _ _ _ V1 (vgot_trans _ _ _ _ _ V2 (got_v _ _ _ _ G3))).
  - exact (more_commas derives_gvar (nm, oi) vs (TName nm :: ti) ts DV M).
  - replace (topOf g') with (topOf g2). { rewrite CT1, CD1 in OV. econstructor; [exact OG|exact OV]. }
    unfold topOf. rewrite N3, L3, CC3, CD3, B4, B5, (got_out _ _ _ _ G3). cbn [strOut]. rewrite app_nil_r. reflexivity.
Qed.
(* ==== parameters ==== *)
Definition idxOf (prev : option Z) : Z := match prev with Some i => i + 1 | None => 0 end.
Definition keepP (g g' : gs) : Prop := keep g g' /\ funcIdx g' = funcIdx g /\ lastStat g' = lastStat g.
Lemma keepP_refl g : keepP g g.
Proof. repeat split. Qed.
Lemma keepP_trans a b c : keepP a b -> keepP b c -> keepP a c.
Proof. intros (A1 & A2 & A3) (B1 & B2 & B3). split; [exact (keep_trans _ _ _ A1 B1)|]. split; congruence. Qed.
Lemma same_keepP g g' : sameE g g' -> keepP g g'.
Proof. intros ->. repeat split. Qed.
Definition dots (idx : Z) (p : bool * gs) : pres gs :=
  let '(last, g) := p in
  match (if last then gIsTok LxDOTDOTDOT g else None) with
  | Some g =>
    let g := wDim (wType g TyDOTDOTDOT) 0 in
    let+ _ := (if 1 <=? idx then chkParam g (idx + curCnt g) else POk tt) in
    match ntDefName (gnt g) [] (curScope g) TyDOTDOTDOT 0 (curCnt g) false with
    | NOk (t, _) => POk (wNt g t)
    | NErr e => PErr (XName e)
    end
  | None => POk g
  end.
Lemma x_like prev g u : (forall i, prev = Some i -> 0 <= i) ->
  (if 1 <=? idxOf prev then chkParam g (idxOf prev + curCnt g) else POk tt) = POk u -> likePrev (gnt g) prev (curCnt g) (curType g) (curDim g).
Proof.
  intros PP H. unfold likePrev. destruct prev as [i|]; [|exact I]. specialize (PP i eq_refl). unfold idxOf in H. destruct (Z.leb_spec 1 (i + 1)); [|lia].
  unfold chkParam, perr_if in H. destruct (_ || _) eqn:B; [discriminate H|]. apply orb_false_iff in B. destruct B as [A B]. apply negb_false_iff in A, B.
  apply Z.eqb_eq in A, B. split; assumption.
Qed.
Lemma okParams_nil prev n c d0 k n' c' d' : okParams prev n c d0 [] k n' c' d' -> k = PDots \/ k = PEnd /\ n' = n /\ c' = c /\ d' = d0.
Proof. intros H. inversion H; subst; auto. Qed.
Lemma derives_params_nil k ts : derives_params [] k ts -> k = PDots \/ k = PEnd /\ ts = [].
Proof. intros H. inversion H; subst; auto. Qed.
Lemma x_paramsLoop prev F : (forall i, prev = Some i -> 0 <= i) -> forall g g', fine g -> 0 <= curDim g -> curScope g = ScPRM ->
  pbind (paramsLoop krn F (idxOf prev) true g) (dots (idxOf prev)) = POk g' ->
  fine g' /\ 0 <= curDim g' /\ keepP g g' /\
  (sign (gtok g') = true -> exists ps k ts, got g ts [] g' /\ derives_params ps k ts /\
     okParams prev (gnt g) (curCnt g) (curDim g) ps k (gnt g') (curCnt g') (curDim g')).
Proof.
  intros PP. induction F as [|F IH]; intros g g' I D S H; [discriminate H|]. cbn [paramsLoop] in H. unfold gIsType in H. cbn beta zeta iota in H.
  destruct (isType (gnt g) (ge g)) eqn:IT.
  - set (g0 := wType g (typeOf (gnt g) (ge g))) in H. destruct (gGetType g0) as [g1| | |] eqn:E1; cbn [pbind] in H; try discriminate.
    assert (fine g0) as I0 by exact I.
    destruct (x_type _ _ I0 E1) as (t & d & I1 & G1 & TY & L1 & O1 & CT & CD & NN). destruct (typed_fields2 _ _ TY) as (K1 & N1 & CC1 & FX1 & LS1).
    assert (keepP g g1) as KP1 by (split; [exact K1|split; [exact FX1|exact LS1]]).
    match type of H with pbind (pbind ?r _) _ = _ => destruct r as [u| | |] eqn:EL; cbn [pbind] in H; try discriminate H end.
    pose proof (x_like _ _ _ PP EL) as LP.
    destruct (getName krn false g1) as [[i g2]| | |] eqn:E2; cbn [pbind] in H; try discriminate.
    destruct (x_name _ _ _ _ _ I1 ltac:(lia) E2) as (nm & I2 & [NO _] & DN & Q & L & O & GT).
    pose proof KP1 as ((A1 & _) & _). destruct (NO ltac:(rewrite A1; unfold g0; gcbn; rewrite S; discriminate)) as [NV NI].
    assert (keepP g1 g2 /\ curDim g2 = curDim g1 /\ curType g2 = curType g1 /\ curCnt g2 = curCnt g1) as (KP2 & CD2 & CT2 & CC2) by (rewrite Q; gcbn; repeat split).
    pose proof KP2 as ((B1 & _) & _).
    assert (varType (tyCode (gnt g) t) (Z.of_nat d)) as VT.
    { change (gnt g) with (gnt g0). rewrite <- CT, <- CD. split; [exact NN|]. split; assumption. }
    rewrite A1 in DN. unfold g0 in DN, N1, CC1, CT. gcbn. rewrite S, N1, CT, CD, CC1 in DN. rewrite N1, CT, CD, CC1 in LP.
    assert (sign (gtok g2) = true -> got g (paramToks (t, d, nm)) [] g2) as GP.
    { intros SG. eapply got_eq; [exact (got_trans _ _ _ _ _ _ _ (got_from g g0 _ _ _ G1 eq_refl eq_refl) (GT SG))|reflexivity|reflexivity]. }
    destruct (gIsTok cCOMMA g2) as [g3|] eqn:TC.
    + destruct (x_is _ _ _ I2 TC ltac:(discriminate) eq_refl) as (T & I3 & G3 & S3 & L3). destruct (same_fields _ _ S3) as (N3 & CT3 & CD3 & CS3 & CC3).
      destruct (IH (wCnt g3 (curCnt g3 + 1)) g' I3 ltac:(gcbn; lia) ltac:(gcbn; congruence) H) as (I4 & D4 & K4 & R4). gcbn.
      split; [exact I4|]. split; [exact D4|]. split.
      { apply (keepP_trans _ _ _ (keepP_trans _ _ _ (keepP_trans _ _ _ KP1 KP2) (same_keepP _ _ S3))). exact K4. }
      intros SG. destruct (R4 SG) as (ps & k & ts & G4 & DP & OP).
      assert (got g (paramToks (t, d, nm) ++ TSym cCOMMA :: ts) [] g') as G.
      { specialize (GP ltac:(rewrite T; reflexivity)). exact (got_trans _ _ _ _ _ _ _ GP (got_trans _ _ _ _ _ _ _ G3 (got_from g3 _ _ _ _ G4 eq_refl eq_refl))). }
      rewrite N3, CC3, CC2, CC1, CD3, CD2, CD in OP. destruct ps as [|p ps].
      * destruct (derives_params_nil _ _ DP) as [->|[-> ->]].
        -- exists [(t, d, nm)], PDots. eexists. split; [exact G|]. split; [apply dp_more; [right; reflexivity|exact DP]|]. eapply op_more; eauto.
        -- destruct (okParams_nil _ _ _ _ _ _ _ _ OP) as [X|(_ & -> & -> & ->)]; [discriminate X|].
           exists [(t, d, nm)], PComma. eexists. split; [exact G|]. split; [apply dp_comma|]. eapply op_comma; eauto.
      * exists ((t, d, nm) :: p :: ps), k. eexists. split; [exact G|]. split; [apply dp_more; [left; discriminate|exact DP]|].
        eapply op_more; [exact VT|exact LP|exact DN|left; discriminate|exact OP].
    + cbn [pbind dots] in H. injection H as <-. split; [exact I2|]. split; [lia|]. split; [exact (keepP_trans _ _ _ KP1 KP2)|]. intros SG.
      exists [(t, d, nm)], PEnd, (paramToks (t, d, nm)). split; [exact (GP SG)|]. split; [apply dp_last|]. rewrite CC2, CC1, CD2, CD. eapply op_last; eauto.
  - set (g0 := wType g (typeOf (gnt g) (ge g))) in H. cbn [pbind dots] in H. destruct (gIsTok LxDOTDOTDOT g0) as [g1|] eqn:TD.
    + assert (fine g0) as I0 by exact I.
      destruct (x_is _ _ _ I0 TD ltac:(discriminate) eq_refl) as (T & I1 & G1 & S1 & L1). destruct (same_fields _ _ S1) as (N1 & CT1 & CD1 & CS1 & CC1). cbv zeta in H.
      match type of H with pbind ?r _ = _ => destruct r as [u| | |] eqn:EL; cbn [pbind] in H; try discriminate H end.
      pose proof (x_like _ _ _ PP EL) as LP. gcbn. destruct (ntDefName _ _ _ _ _ _ _) as [[n1 j]|] eqn:DN in H; [|discriminate H]. injection H as <-.
      unfold g0 in *. gcbn. rewrite N1, CS1, CC1, S in DN. rewrite N1, CC1 in LP.
      split; [split; gcbn; [exact (proj1 I1)|eapply dims_def; [exact DN|lia|exact (proj2 I)]]|]. split; [gcbn; lia|].
      split; [exact (keepP_trans _ _ _ (same_keepP (wType g _) g1 S1) (conj (conj eq_refl (conj eq_refl (conj eq_refl (conj eq_refl eq_refl)))) (conj eq_refl eq_refl)))|].
      intros SG. exists [], PDots, [TSym LxDOTDOTDOT]. split; [|split; [constructor|]].
      * apply (got_to _ _ _ g1); [|reflexivity|reflexivity]. exact (got_from g _ _ _ _ G1 eq_refl eq_refl).
      * gcbn. rewrite CC1. eapply op_dots; eauto.
    + injection H as <-. split; [exact I|]. split; [exact D|]. split; [repeat split|]. intros SG. exists [], PEnd, []. split; [|split; constructor].
      exact (got_from g g0 _ _ _ (got_refl g0) eq_refl eq_refl).
Qed.
Lemma x_params prev g g' : (forall i, prev = Some i -> 0 <= i) -> fine g -> 0 <= curDim g -> curScope g = ScPRM -> getParams krn (idxOf prev) g = POk g' ->
  fine g' /\ 0 <= curDim g' /\ keepP g g' /\
  exists ps k ts, got g (ts ++ [TSym cRP]) [] g' /\ derives_params ps k ts /\ okParams prev (gnt g) 0 (curDim g) ps k (gnt g') (curCnt g') (curDim g').
Proof.
  intros PP I D S H. unfold getParams in H.
  assert (exists g1, pbind (paramsLoop krn (gfuel g) (idxOf prev) true (wCnt g 0)) (dots (idxOf prev)) = POk g1 /\ gChkTok cRP g1 = POk g') as (g1 & H1 & H2).
  { destruct (paramsLoop _ _ _ _ _) as [[l g0]| | |]; cbn [pbind] in H; try discriminate H. cbn [pbind dots].
    match type of H with pbind ?r _ = _ => destruct r as [g1| | |] eqn:E; cbn [pbind] in H; try discriminate H end. exists g1. split; [reflexivity|exact H]. }
  destruct (x_paramsLoop _ _ PP (wCnt g 0) g1 I D S H1) as (I1 & D1 & K1 & R1).
  destruct (x_chk _ _ _ I1 H2 ltac:(discriminate) eq_refl) as (T3 & I3 & G3 & S3 & L3). destruct (same_fields _ _ S3) as (N3 & CT3 & CD3 & CS3 & CC3).
  split; [exact I3|]. split; [lia|]. split; [exact (keepP_trans g (wCnt g 0) g' (keepP_refl g) (keepP_trans _ _ _ K1 (same_keepP _ _ S3)))|].
  destruct (R1 ltac:(rewrite T3; reflexivity)) as (ps & k & ts & G1 & DP & OP). gcbn. exists ps, k, ts. split; [|split; [exact DP|]].
  - exact (got_trans _ _ _ _ _ _ _ (got_from g (wCnt g 0) _ _ _ G1 eq_refl eq_refl) G3).
  - rewrite N3, CC3, CD3. exact OP.
Qed.
Lemma okParams_app prev n c d ps k n' c' d' : okParams prev n c d ps k n' c' d' -> exists r, n' = n ++ r.
Proof.
  intros H. induction H;
    try (match goal with H : ntDefName _ _ _ _ _ _ _ = NOk _ |- _ => destruct (def_app _ _ _ _ _ _ _ _ _ H) as [-> _] end).
  - exists []. symmetry. apply app_nil_r.
  - eexists; reflexivity.
  - eexists; reflexivity.
  - eexists; reflexivity.
  - match goal with IH : exists r, _ = _ |- _ => destruct IH as [r ->] end. rewrite <- app_assoc. eexists; reflexivity.
Qed.
(* ==== functions ==== *)
(* what statements leave alone *)
Definition fr (g g' : gs) : Prop := brkLab g' = brkLab g /\ cntLab g' = cntLab g /\ (0 <= curDim g -> 0 <= curDim g').
Lemma fr_refl g : fr g g.
Proof. repeat split; auto. Qed.
Lemma fr_trans a b c : fr a b -> fr b c -> fr a c.
Proof. intros (A & B & C) (D & E & F). repeat split; [congruence|congruence|auto]. Qed.
Definition fr2 {A} (g : gs) (r : A * gs) : Prop := fr g (snd r).
Ltac frr := unfold fr2; cbn [snd ac]; repeat split; gcbn; auto.
Lemma fr_chk k g : ac (gChkTok k g) (fr g).
Proof. unfold gChkTok, chkTok. destruct (tok (ge g) =? k); cbn; [frr|exact Logic.I]. Qed.
Lemma fr_is k g g' : gIsTok k g = Some g' -> fr g g'.
Proof. intros H. apply gIsTok_ok in H. destruct H as [_ ->]. frr. Qed.
Lemma fr_expr g : ac (gExpr g) (fr2 g).
Proof. unfold gExpr. destruct (getExpr _ _) as [[w e]| | |]; cbn; try exact Logic.I. frr. Qed.
Lemma fr_asExpr g : ac (gAsExpr g) (fr2 g).
Proof. unfold gAsExpr. destruct (getAsExpr _ _) as [[w e]| | |]; cbn; try exact Logic.I. frr. Qed.
Lemma fr_type g : ac (gGetType g) (fr g).
Proof.
  eapply ac_mono; [apply ProgInv.ac_gGetType|]. intros g' (D & g1 & (e & -> & _) & Q). rewrite Q. repeat split. gcbn. auto.
Qed.
Lemma fr_name pub g : ac (getName krn pub g) (fr2 g).
Proof.
  unfold getName. eapply ac_bind; [apply fr_chk|]. intros g1 F1. destruct (_ && _ && _); [exact Logic.I|]. destruct (_ && _); [exact Logic.I|]. destruct (_ && _); [exact Logic.I|].
  destruct (ntDefName _ _ _ _ _ _ _) as [[t i]|]; [exact F1|exact Logic.I].
Qed.
Lemma ac_then {A} g1 g (r : pres (A * gs)) : fr g g1 -> ac r (fr2 g1) -> ac r (fr2 g).
Proof. intros F H. eapply ac_mono; [exact H|]. intros x. apply (fr_trans _ _ _ F). Qed.
Lemma fr_set {A} (a : A) g g' : brkLab g' = brkLab g -> cntLab g' = cntLab g -> curDim g' = curDim g -> fr2 g (a, g').
Proof. intros A1 A2 A3. repeat split; cbn [snd]; auto. rewrite A3. auto. Qed.
Lemma fr_lvar g : ac (getLVar krn g) (fr2 g).
Proof.
  unfold getLVar. eapply ac_bind; [apply (fr_name false (wCnt g (curCnt g + 1)))|]. intros [i g1] F1. apply (ac_then g1); [exact F1|].
  destruct (gIsTok cEQ g1) as [g2|] eqn:T; [|frr]. apply (ac_then g2); [exact (fr_is _ _ _ T)|]. eapply ac_bind; [apply fr_asExpr|]. intros [w g3] F3.
  apply (ac_then g3); [exact F3|]. eapply ac_bind; [apply ac_skip|]. intros w' _. frr.
Qed.
Lemma fr_lvars f : forall sta g, ac (lvarsLoop krn f sta g) (fr2 g).
Proof.
  induction f as [|f IH]; intros sta g; [exact Logic.I|]. cbn [lvarsLoop]. destruct (gIsTok cCOMMA g) as [g1|] eqn:T; [|frr].
  apply (ac_then g1); [exact (fr_is _ _ _ T)|]. eapply ac_bind; [apply fr_lvar|]. intros [s g2] F2. apply (ac_then g2); [exact F2|]. apply IH.
Qed.
Lemma fr_decl g : ac (getLVars krn g) (fr2 g).
Proof.
  unfold getLVars. eapply ac_bind; [apply fr_type|]. intros g1 F1. apply (ac_then g1); [exact F1|]. eapply ac_bind; [apply fr_lvar|]. intros [s g2] F2. apply (ac_then g2); [exact F2|].
  eapply ac_bind; [apply fr_lvars|]. intros [s3 g3] F3. apply (ac_then g3); [exact F3|]. destruct (maxCnt g3 <? curCnt g3); frr.
Qed.
Lemma fr_cond g : ac (getCond g) (fr2 g).
Proof.
  unfold getCond. eapply ac_bind; [apply fr_chk|]. intros g1 F1. apply (ac_then g1); [exact F1|]. eapply ac_bind; [apply fr_expr|]. intros [w g2] F2. apply (ac_then g2); [exact F2|].
  eapply ac_bind; [apply ac_skip|]. intros w' _. eapply ac_bind; [apply fr_chk|]. intros g3 F3. exact F3.
Qed.
Section Frame.
Variable stat : sparser.
Hypothesis HF : forall g, ac (stat g) (fr2 g).
Lemma fr_body g : ac (body stat g) (fr2 g).
Proof. unfold body. eapply ac_bind; [apply HF|]. intros [b g1] F1. apply (ac_then g1); [exact F1|]. frr. Qed.
Lemma fr_if g : ac (getIf stat g) (fr2 g).
Proof.
  unfold getIf. eapply ac_bind; [apply fr_cond|]. intros [c g1] F1. apply (ac_then g1); [exact F1|]. eapply ac_bind; [apply HF|]. intros [b g2] F2. apply (ac_then g2); [exact F2|].
  destruct (gIsTok LxELSE g2) as [g3|] eqn:T; [|frr]. apply (ac_then g3); [exact (fr_is _ _ _ T)|]. eapply ac_bind; [apply HF|]. intros [b2 g4] F4. exact F4.
Qed.
Lemma fr_while g : ac (getWhile stat g) (fr2 g).
Proof. unfold getWhile. eapply ac_bind; [apply fr_cond|]. intros [c g1] F1. apply (ac_then g1); [exact F1|]. eapply ac_bind; [apply fr_body|]. intros [b g2] F2. exact F2. Qed.
Lemma fr_do g : ac (getDoWhile stat g) (fr2 g).
Proof.
  unfold getDoWhile. eapply ac_bind; [apply fr_body|]. intros [b g1] F1. apply (ac_then g1); [exact F1|]. eapply ac_bind; [apply fr_chk|]. intros g2 F2. apply (ac_then g2); [exact F2|].
  eapply ac_bind; [apply fr_cond|]. intros [c g3] F3. apply (ac_then g3); [exact F3|]. eapply ac_bind; [apply fr_chk|]. intros g4 F4. exact F4.
Qed.
Lemma fr_for g : ac (getFor krn stat g) (fr2 g).
Proof.
  unfold getFor. cbv zeta. eapply ac_bind; [apply fr_chk|]. intros g1 F1. apply (ac_then g1); [exact F1|].
  eapply ac_bind; [instantiate (1 := fr2 g1)|].
  { destruct (gtok g1 =? cSEMI); [frr|]. unfold gIsType. cbn beta iota. apply (ac_then (wType g1 (typeOf (gnt g1) (ge g1)))); [frr|].
    destruct (isType _ _); [apply fr_decl|]. eapply ac_bind; [apply fr_expr|]. intros [w g2] F2. exact F2. }
  intros [ini g2] F2. apply (ac_then g2); [exact F2|]. eapply ac_bind; [apply fr_chk|]. intros g3 F3. apply (ac_then g3); [exact F3|].
  eapply ac_bind; [instantiate (1 := fr2 g3)|].
  { destruct (gtok g3 =? cSEMI); [frr|]. eapply ac_bind; [apply fr_expr|]. intros [w g4] F4. eapply ac_bind; [apply ac_skip|]. intros w' _. exact F4. }
  intros [cnd g4] F4. apply (ac_then g4); [exact F4|]. eapply ac_bind; [apply fr_chk|]. intros g5 F5. apply (ac_then g5); [exact F5|].
  eapply ac_bind; [instantiate (1 := fr2 g5)|].
  { destruct (gtok g5 =? cRP); [frr|]. eapply ac_bind; [apply fr_expr|]. intros [w g6] F6. exact F6. }
  intros [r g6] F6. apply (ac_then g6); [exact F6|]. eapply ac_bind; [apply fr_chk|]. intros g7 F7. apply (ac_then g7); [exact F7|].
  eapply ac_bind; [apply fr_body|]. intros [b g8] F8. exact F8.
Qed.
Lemma fr_return g : ac (getReturn g) (fr2 g).
Proof.
  unfold getReturn. cbv zeta. eapply ac_bind; [instantiate (1 := fr2 g)|].
  { destruct (_ && _); [|frr]. eapply ac_bind; [apply fr_expr|]. intros [w g1] F1. eapply ac_bind; [apply ac_skip|]. intros w' _. exact F1. }
  intros [e g1] F1. apply (ac_then g1); [exact F1|]. eapply ac_bind; [apply fr_chk|]. intros g2 F2. exact F2.
Qed.
Lemma fr_jump (b : bool) e s g : ac (if b then PErr e else let+ g := gChkTok cSEMI g in POk (s, g)) (@fr2 stmt g).
Proof. destruct b; [exact Logic.I|]. eapply ac_bind; [apply fr_chk|]. intros g1 F1. exact F1. Qed.
Lemma fr_blockLoop f : forall lv g, ac (blockLoop krn stat f lv g) (fr2 g).
Proof.
  induction f as [|f IH]; intros lv g; [exact Logic.I|]. cbn [blockLoop]. destruct (_ || _); [frr|]. unfold gIsType. cbn beta iota.
  eapply ac_bind; [instantiate (1 := fr2 g)|].
  { apply (ac_then (wType g (typeOf (gnt g) (ge g)))); [frr|]. destruct (isType _ _); [|apply HF]. eapply ac_bind; [apply fr_decl|]. intros [r g1] F1.
    apply (ac_then g1); [exact F1|]. eapply ac_bind; [apply fr_chk|]. intros g2 F2. exact F2. }
  intros [r g1] F1. apply (ac_then g1); [exact F1|]. apply IH.
Qed.
Lemma fr_block g : ac (getBlock krn stat g) (fr2 g).
Proof.
  unfold getBlock. cbv zeta. eapply ac_bind; [apply fr_blockLoop|]. intros [b g1] F1. apply (ac_then g1); [exact F1|]. eapply ac_bind; [apply fr_chk|]. intros g2 F2. exact F2.
Qed.
End Frame.
Lemma fr_stat f : forall g, ac (getStatF krn f g) (fr2 g).
Proof.
  induction f as [|f IH]; intros g; [exact Logic.I|]. cbn [getStatF]. cbv zeta. eapply ac_bind; [instantiate (1 := fr2 g)|intros [s g1] F1; exact F1].
  assert (fr g (gGetTok g)) as F0 by frr.
  repeat match goal with |- ac (if ?b then _ else _) _ => destruct b end; try (apply (ac_then (gGetTok g)); [exact F0|]).
  - apply fr_if, IH.
  - apply fr_while, IH.
  - apply fr_do, IH.
  - apply fr_for, IH.
  - apply fr_return.
  - apply fr_jump.
  - apply fr_jump.
  - apply fr_block, IH.
  - frr.
  - eapply ac_bind; [apply fr_expr|]. intros [w g1] F1. apply (ac_then g1); [exact F1|]. eapply ac_bind; [apply fr_chk|]. intros g2 F2. exact F2.
Qed.
Lemma ent_setCnt_other t i c k : 0 <= i -> k <> i -> ent (ntSetCnt t i c) k = ent t k.
Proof.
  intros P N. unfold ent, ntSetCnt. destruct (Z.ltb_spec k 0); [reflexivity|]. rewrite upd_nth. destruct (Nat.eqb_spec (Z.to_nat k) (Z.to_nat i)); [lia|reflexivity].
Qed.
Lemma typeAt_setCnt t i c k : typeAt (ntSetCnt t i c) k = typeAt t k.
Proof.
  unfold typeAt, ent, ntSetCnt. destruct (k <? 0); [reflexivity|]. rewrite upd_nth. destruct (Nat.eqb _ _); [|reflexivity].
  destruct (nth_error t (Z.to_nat k)); reflexivity.
Qed.
Lemma dimAt_setCnt t i c k : dimAt (ntSetCnt t i c) k = dimAt t k.
Proof.
  unfold dimAt, ent, ntSetCnt. destruct (k <? 0); [reflexivity|]. rewrite upd_nth. destruct (Nat.eqb _ _); [|reflexivity].
  destruct (nth_error t (Z.to_nat k)); reflexivity.
Qed.
Lemma scopeAt_setCnt t i c k : scopeAt (ntSetCnt t i c) k = scopeAt t k.
Proof.
  unfold scopeAt, ent, ntSetCnt. destruct (k <? 0); [reflexivity|]. rewrite upd_nth. destruct (Nat.eqb _ _); [|reflexivity].
  destruct (nth_error t (Z.to_nat k)); reflexivity.
Qed.
Lemma size_setCnt t i c : ntGetSize (ntSetCnt t i c) = ntGetSize t.
Proof. unfold ntGetSize, ntSetCnt. rewrite upd_length. reflexivity. Qed.
Lemma valued_b t d : (negb (t =? TyVOID) || negb (d =? 0)) && negb (t =? TyINTR) = true <-> valued_fn t d.
Proof. rewrite andb_comm. apply valued_fn_b. Qed.
Lemma perr_ok b e u : perr_if b e = POk u -> b = false.
Proof. unfold perr_if. destruct b; [discriminate|reflexivity]. Qed.
Lemma x_func n nm pub t d0 l c0 b k o g g' : rest g -> gtok g = cLP -> pubFlag g = pub -> nameOk krn g -> curType g <> TyNON -> curType g = tyCode n t ->
  forall d, curDim g = Z.of_nat d -> ntDefName n nm ScPROT (curType g) (curDim g) c0 pub = NOk (gnt g, ntGetSize n) ->
  l = clab (ge g) -> b = brkLab g -> k = cntLab g -> o = outp (ge g) -> curScope g = ScPROT ->
  getFunc opt krn g = POk g' ->
  rest g' /\ exists ps e bd tp tb, vgot g (TSym cLP :: tp ++ TSym cRP :: tb) g' /\ derives_params ps e tp /\ derives_body bd tb /\
    okTop opt krn (TEnv n l c0 d0 b k o) (PFunc pub t d nm ps e bd) (topOf g').
Proof.
  intros (I & D & DP) TK P [_ NI] NN CT d CD DN -> -> -> -> SC H. destruct (def_app _ _ _ _ _ _ _ _ _ DN) as [EN _].
  pose proof (ProgInv.size_nonneg n) as PN.
  assert (ntGetSize (gnt g) - 1 = ntGetSize n) as SZ by (rewrite EN; apply size_snoc).
  unfold getFunc in H. cbv zeta in H. rewrite SZ in H. gcbn.
  set (prev := prior n nm). set (idx := ntSrcGlob (gnt g) (ntGetSize n)) in H.
  assert (idx = match prev with Some i => i | None => -1 end) as EI by (unfold idx; rewrite EN, srcGlob_snoc; reflexivity).
  assert (idx + 1 = idxOf prev) as EI1 by (rewrite EI; destruct prev; reflexivity).
  assert (forall i, prev = Some i -> 0 <= i < ntGetSize n) as PL by (intros i; apply prior_lt).
  assert (forall i, prev = Some i -> (0 <=? idx) = true /\ idx = i) as PI.
  { intros i E. rewrite EI, E. split; [|reflexivity]. apply Z.leb_le. apply PL. exact E. }
  match type of H with pbind ?r _ = _ => destruct r as [u1| | |] eqn:B1; cbn [pbind] in H; try discriminate H end.
  match type of H with pbind ?r _ = _ => destruct r as [u2| | |] eqn:B2; cbn [pbind] in H; try discriminate H end.
  match type of H with pbind ?r _ = _ => destruct r as [u3| | |] eqn:B3; cbn [pbind] in H; try discriminate H end.
  apply perr_ok in B1, B2, B3.
  destruct (x_next g cLP I TK ltac:(discriminate) eq_refl) as [I1 G1]. unfold gGetTok in H, I1, G1. gcbn.
  set (g1 := wScope (wLast (wE (wFunc g (ntGetSize n)) (getTok (ge g))) LxNONTOK) ScPRM) in H.
  assert (fine g1) as I1' by exact I1.
  rewrite EI1 in H.
  match type of H with pbind ?r _ = _ => destruct r as [g2| | |] eqn:E2; cbn [pbind] in H; try discriminate H end.
  destruct (x_params prev g1 g2 (fun i E => proj1 (PL i E)) I1' D eq_refl E2) as (I2 & D2 & ((K1 & K2 & K3 & K4 & K5) & K6 & K7) & ps & e & tp & G2 & DPS & OP).
  unfold g1 in K1, K2, K3, K4, K5, K6, K7, OP. gcbn.
  destruct (okParams_app _ _ _ _ _ _ _ _ _ OP) as [r ER].
  assert (ntGetSize (gnt g) = ntGetSize n + 1) as SZ1 by lia.
  assert (ntGetSize (gnt g2) = ntGetSize n + 1 + Z.of_nat (List.length r)) as SZ2 by (rewrite ER, StmtSound.size_app; lia).
  rewrite SZ1 in H. set (prm := ntGetSize (gnt g2) - ntGetSize n - 1).
  replace (ntGetSize (gnt g2) - (ntGetSize n + 1)) with prm in H by (unfold prm; lia).
  assert (typeAt (gnt g2) (ntGetSize n) = curType g) as TA.
  { rewrite ER, StmtSound.typeAt_app by lia. rewrite EN, typeAt_snoc. reflexivity. }
  assert (dimAt (gnt g2) (ntGetSize n) = curDim g) as DA.
  { rewrite ER, StmtSound.dimAt_app by lia. rewrite EN, dimAt_snoc. reflexivity. }
  rewrite TA in H.
  match type of H with pbind ?r _ = _ => destruct r as [u4| | |] eqn:B4; cbn [pbind] in H; try discriminate H end.
  match type of H with pbind ?r _ = _ => destruct r as [u5| | |] eqn:B5; cbn [pbind] in H; try discriminate H end.
  apply perr_ok in B4, B5. gcbn. rewrite (cntAt_setCnt (gnt g2) (ntGetSize n) prm) in B5 by lia.
  assert (okHead krn n c0 pub (tyCode n t) (Z.of_nat d) nm ps e prev (ntGetSize n) (gnt g2) (curCnt g2) (curDim g2) prm) as HD.
  { constructor.
    - rewrite <- CT, <- CD. split; [exact NN|]. intros X. split; [exact (NI X)|]. rewrite X, Z.eqb_refl in B3, B4. cbn [andb] in B3, B4.
      apply negb_false_iff, Z.eqb_eq in B3, B4. split; assumption.
    - reflexivity.
    - intros i E. destruct (PI i E) as [X Y]. specialize (PL i E). rewrite X, Y in B1, B2. cbn [andb] in B1, B2.
      apply orb_false_iff in B1. destruct B1 as [B1 B1']. apply Z.eqb_neq in B1, B1'. rewrite EN, ProgInv.scopeAt_app_l in B1, B1' by lia.
      split; [exact B1|]. split; [exact B1'|]. rewrite P in B2. apply agrees_b in B2. rewrite EN in B2. apply agrees_app in B2; [|lia]. rewrite <- CT, <- CD. exact B2.
    - exists (gnt g). split; [rewrite <- CT, <- CD; exact DN|]. rewrite <- CD. exact OP.
    - reflexivity.
    - intros i E. destruct (PI i E) as [X Y]. specialize (PL i E). rewrite X, Y in B5. cbn [andb] in B5. apply negb_false_iff, Z.eqb_eq in B5. rewrite <- B5.
      unfold cntAt. rewrite ent_setCnt_other by lia. rewrite ER, ProgInv.ent_app_l by lia. rewrite EN, ProgInv.ent_app_l by lia. reflexivity. }
  assert (got g (TSym cLP :: tp ++ [TSym cRP]) [] g2) as G12.
  { exact (got_trans g [TSym cLP] [] (wE g (getTok (ge g))) _ _ _ G1 (got_from (wE g (getTok (ge g))) g1 _ _ _ G2 eq_refl eq_refl)). }
  assert (clab (ge g2) = clab (ge g)) as L2 by (rewrite (got_clab _ _ _ _ G12); cbn [List.length]; lia).
  assert (outp (ge g2) = outp (ge g)) as O2 by (rewrite (got_out _ _ _ _ G12); cbn [strOut]; apply app_nil_r).
  set (n3 := ntSetCnt (gnt g2) (ntGetSize n) prm) in *. set (g3 := wNt g2 n3) in *.
  assert (fine g3) as I3 by (split; [exact (proj1 I2)|unfold g3, n3; gcbn; apply dims_setCnt; exact (proj2 I2)]).
  assert (ntGetSize n3 = ntGetSize (gnt g2)) as SZ3 by apply size_setCnt.
  rewrite SZ3 in H.
  assert (exists g7, g' = (if 0 <=? idx then wNt g7 (ntUndefName (gnt g7) (ntGetSize n)) else wNt g7 (ntSetVoid (ntUndefName (gnt g7) (ntGetSize (gnt g2))) (ntGetSize n + 1))) /\
    (match gIsTok cLC g3 with
     | Some g =>
       let g := wScope g ScLVAR in
       let+ _ := perr_if ((0 <=? idx) && negb (scopeAt (gnt g) idx =? ScPROT)) XFuncTwice in
       let g := if 0 <=? idx then wNt g (ntSetScope (gnt g) idx ScFUNC) else g in
       let g := wNt g (ntSetScope (gnt g) (ntGetSize n) ScFUNC) in
       let g := wCnt (wMax g 0) 0 in
       let+ (root, g) := getBlock krn (getStat krn) g in
       let+ _ := perr_if ((negb (typeAt (gnt g) (ntGetSize n) =? TyVOID) || negb (dimAt (gnt g) (ntGetSize n) =? 0)) &&
                          negb (typeAt (gnt g) (ntGetSize n) =? TyINTR) && negb (lastStat g =? LxRETURN)) XNoReturn in
       compileBody opt krn root g
     | None => gChkTok cSEMI g3
     end) = POk g7) as (g7 & EG' & H7).
  { match type of H with pbind ?r _ = _ => destruct r as [g7| | |] eqn:E7; cbn [pbind] in H; try discriminate H end. injection H as <-. exists g7. split; [reflexivity|first [exact E7|reflexivity]]. }
  clear H.
  assert (ge g' = ge g7 /\ curDim g' = curDim g7 /\ depth g' = depth g7 /\ gnt g' = settle prev (ntGetSize n) (ntGetSize n + 1) (ntGetSize (gnt g2)) (gnt g7) /\
    curCnt g' = curCnt g7 /\ brkLab g' = brkLab g7 /\ cntLab g' = cntLab g7) as (GE & GD & GDP & GN & GC & GB & GK).
  { rewrite EG'. unfold settle. destruct prev as [i|] eqn:EP; [destruct (PI i eq_refl) as [X Y]; rewrite X; repeat split|]. rewrite EI. repeat split. }
  assert (topOf g' = TEnv (settle prev (ntGetSize n) (ntGetSize n + 1) (ntGetSize (gnt g2)) (gnt g7)) (clab (ge g7)) (curCnt g7) (curDim g7) (brkLab g7) (cntLab g7) (outp (ge g7))) as ET.
  { unfold topOf. rewrite GE, GD, GN, GC, GB, GK. reflexivity. }
  clear EG'. rewrite ET.
  assert (fine g7 -> 0 <= curDim g7 -> depth g7 = 0 -> rest g') as RS.
  { intros [X1 X2] X3 X4. split; [split; [rewrite GE; exact X1|rewrite GN; unfold settle; destruct prev; [apply dims_undef|apply dims_setVoid, dims_undef]; exact X2]|]. split; [lia|congruence]. }
  assert (vgot g (TSym cLP :: tp ++ [TSym cRP]) g2) as V2 by exact (t_view _ _ _ _ G12).
  destruct (gIsTok cLC g3) as [g4|] eqn:TL.
  - destruct (x_is _ _ _ I3 TL ltac:(discriminate) eq_refl) as (T4 & I4 & G4 & S4 & L4). destruct (same_fields _ _ S4) as (N4 & CT4 & CD4 & CS4 & CC4).
    assert (brkLab g4 = brkLab g3 /\ cntLab g4 = cntLab g3 /\ depth g4 = depth g3 /\ funcIdx g4 = funcIdx g3 /\ lastStat g4 = lastStat g3) as (BL4 & CL4 & DP4 & FX4 & LS4) by (rewrite S4; repeat split; auto).
    cbv zeta in H7. gcbn. rewrite N4 in H7. unfold g3 in N4. gcbn.
    match type of H7 with pbind ?r _ = _ => destruct r as [u6| | |] eqn:B6; cbn [pbind] in H7; try discriminate H7 end. apply perr_ok in B6.
    assert (forall i, prev = Some i -> scopeAt n i = ScPROT) as PROT.
    { intros i E. destruct (PI i E) as [X Y]. specialize (PL i E). rewrite X, Y in B6. cbn [andb] in B6. apply negb_false_iff, Z.eqb_eq in B6.
      unfold g3, n3 in B6. gcbn. rewrite scopeAt_setCnt, ER, ProgInv.scopeAt_app_l in B6 by lia. rewrite EN, ProgInv.scopeAt_app_l in B6 by lia. exact B6. }
    match type of H7 with pbind (getBlock _ _ ?gg) _ = _ => set (g5 := gg) in H7 end.
    assert (gnt g5 = enter prev (ntGetSize n) n3 /\ ge g5 = ge g4 /\ curScope g5 = ScLVAR /\ curCnt g5 = 0 /\ maxCnt g5 = 0 /\ curDim g5 = curDim g4 /\ depth g5 = depth g4 /\
            funcIdx g5 = funcIdx g4 /\ lastStat g5 = lastStat g4 /\ brkLab g5 = brkLab g4 /\ cntLab g5 = cntLab g4) as (N5 & E5 & SC5 & CC5 & M5 & CD5 & DP5 & FX5 & LS5 & BL5 & CL5).
    { unfold g5. destruct prev as [i|] eqn:EP.
      - destruct (PI i eq_refl) as [X Y]. rewrite X, Y. gcbn. unfold g3. gcbn. repeat split.
      - rewrite EI. change (0 <=? -1) with false. cbn iota. gcbn. unfold g3. gcbn. rewrite N4. repeat split. }
    clearbody g5.
    assert (typeAt (gnt g5) (ntGetSize n) = curType g /\ dimAt (gnt g5) (ntGetSize n) = curDim g /\ ntGetSize (gnt g5) = ntGetSize (gnt g2) /\ dimsOk (gnt g5)) as (TA5 & DA5 & SZ5 & DO5).
    { rewrite N5. unfold enter. rewrite typeAt_setScope, dimAt_setScope, size_setScope. destruct prev; rewrite ?typeAt_setScope, ?dimAt_setScope, ?size_setScope; unfold n3; rewrite typeAt_setCnt, dimAt_setCnt, size_setCnt; (split; [exact TA|]); (split; [exact DA|]); (split; [reflexivity|]);
        repeat apply dims_setScope; apply dims_setCnt; exact (proj2 I2). }
    assert (StmtSound.inv (ntGetSize n) (curType g) (curDim g) g5) as IV.
    { constructor; [rewrite E5; exact (proj1 I4)|exact DO5| |exact SC5| |lia|exact TA5|exact DA5].
      - rewrite DP5, DP4. unfold g3. gcbn. lia.
      - rewrite FX5, FX4. unfold g3. gcbn. exact K6. }
    destruct (getBlock krn (getStat krn) g5) as [[root0 g6]| | |] eqn:E6; cbn [pbind] in H7; try discriminate H7.
    destruct (s_seq krn _ _ _ _ (s_stat krn _ _ _) _ _ _ IV E6) as (IV6 & q & ts & y & E' & G6 & QD & -> & EE & OQ & LR).
    pose proof (ac_get _ _ _ (fr_block _ (fun h => fr_stat (gfuel h) h) g5) E6) as (F6 & F6' & F6''). cbn [snd] in F6, F6', F6''.
    destruct IV6 as [GO6 DO6 DP6 SC6 FX6 SZ6 TA6 DA6]. rewrite TA6, DA6 in H7.
    match type of H7 with pbind ?r _ = _ => destruct r as [u7| | |] eqn:B7; cbn [pbind] in H7; try discriminate H7 end. apply perr_ok in B7.
    assert (lastStat g5 =? LxRETURN = false) as LN. { rewrite LS5, LS4. unfold g3. gcbn. rewrite K7. reflexivity. }
    rewrite LN in LR.
    assert (0 <? depth g5 = false) as LD. { apply Z.ltb_ge. rewrite DP5, DP4. unfold g3. gcbn. lia. }
    rewrite LD in OQ.
    assert (envOf g5 = Env (enter prev (ntGetSize n) n3) (clab (ge g)) 0 0 (curDim g2)) as EV5.
    { unfold envOf. rewrite N5, CC5, M5, CD5, CD4, E5, L4. unfold g3. gcbn. rewrite L2. reflexivity. }
    set (E := Env (enter prev (ntGetSize n) n3) (clab (ge g)) 0 0 (curDim g2)) in *. rewrite EV5 in EE, OQ.
    unfold compileBody in H7. destruct (if opt then lift_opt (optTree (block y)) else POk (block y)) as [root| | |] eqn:OR; cbn [pbind] in H7; try discriminate H7. cbv zeta in H7.
    rewrite FX6, TA6 in H7. injection EE as EN6 EL6 EC6 EM6 ED6.
    destruct (VmCode.genFunc _ _ _ _ _ _) as [[code lb]|] eqn:GF in H7; [|discriminate H7]. injection H7 as <-. gcbn. cbn [clab outp its].
    split.
    { apply RS; [split; assumption| |].
      - gcbn. apply F6''. rewrite CD5, CD4. unfold g3. gcbn. exact D2.
      - gcbn. rewrite (t_depth _ _ _ _ G6), DP5, DP4. unfold g3. gcbn. congruence. }
    exists ps, e, (Some q), tp, (TSym cLC :: ts ++ [TSym cRC]). split; [|split; [exact DPS|split; [constructor; exact QD|]]].
    + pose proof (t_view _ _ _ _ G4) as V4. pose proof (t_view _ _ _ _ G6) as V6. rewrite E5 in V6. unfold g3 in V4. gcbn. unfold vgot in *. rewrite GE. cbn [its].
      rewrite V2, V4, V6. repeat (rewrite <- app_assoc || rewrite <- app_comm_cons || cbn [app]); reflexivity.
    + replace (outp (ge g6)) with (outp (ge g) ++ strOut (clab (ge g)) (stringsQ q)).
      2:{ rewrite (got_out _ _ _ _ G6), E5, (got_out _ _ _ _ G4). unfold g3. gcbn. rewrite L4. unfold g3. gcbn. rewrite O2, L2. cbn [strOut]. rewrite app_nil_r. reflexivity. }
      rewrite <- app_assoc, EC6, ED6, EN6. rewrite EN6, EL6, EM6 in GF.
      replace (brkLab g6) with (brkLab g) in GF by (rewrite F6, BL5, BL4; unfold g3; gcbn; congruence).
      replace (cntLab g6) with (cntLab g) in GF by (rewrite F6', CL5, CL4; unfold g3; gcbn; congruence).
      rewrite CT, CD in OQ, B7. rewrite CT in GF.
      eapply (ot_func opt krn n (clab (ge g)) c0 d0 (brkLab g) (cntLab g) (outp (ge g)) pub t d nm ps e prev (ntGetSize n) (gnt g2) (curCnt g2) (curDim g2) prm q y E E' root code lb);
        [exact HD|exact PROT|reflexivity|exact OQ| | |exact GF].
      * intros VF. apply valued_b in VF. rewrite VF in B7. cbn [andb] in B7. apply negb_false_iff in B7. rewrite <- LR. exact B7.
      * clear - OR. destruct opt; [|injection OR; auto]. destruct (optTree (block y)); [injection OR as ->; reflexivity|discriminate OR].
  - destruct (x_chk _ _ _ I3 H7 ltac:(discriminate) eq_refl) as (T4 & I4 & G4 & S4 & L4). destruct (same_fields _ _ S4) as (N4 & CT4 & CD4 & CS4 & CC4).
    pose proof (same_keep _ _ S4) as (_ & _ & DP4 & BL4 & CL4).
    split.
    { apply RS; [exact I4|rewrite CD4; exact D2|rewrite DP4; unfold g3; gcbn; congruence]. }
    exists ps, e, None, tp, [TSym cSEMI]. split; [|split; [exact DPS|split; [constructor|]]].
    + pose proof (t_view _ _ _ _ G4) as V4. unfold g3 in V4. gcbn. unfold vgot in *. rewrite GE, V2, V4. repeat (rewrite <- app_assoc || rewrite <- app_comm_cons || cbn [app]); reflexivity.
    + rewrite N4, L4, CC4, CD4, BL4, CL4, (got_out _ _ _ _ G4). unfold g3. gcbn. rewrite L2, O2, K4, K5. cbn [strOut]. rewrite app_nil_r.
      eapply ot_proto. exact HD.
Qed.
(* ==== the source ==== *)
Lemma x_getProg g g' : rest g -> getProg opt krn g = POk g' ->
  rest g' /\ exists x ts, vgot g ts g' /\ derives_top x ts /\ okTop opt krn (topOf g) x (topOf g').
Proof.
  intros (I & D & DP) H. unfold getProg in H. cbv zeta in H.
  set (g0 := match gIsTok LxPUBLIC (wPub g false) with Some g => wPub g true | None => wPub g false end) in H.
  assert (exists pub, fine g0 /\ got g (pubToks pub) [] g0 /\ pubFlag g0 = pub /\ gnt g0 = gnt g /\ clab (ge g0) = clab (ge g) /\ curCnt g0 = curCnt g /\ curDim g0 = curDim g /\
    brkLab g0 = brkLab g /\ cntLab g0 = cntLab g /\ outp (ge g0) = outp (ge g) /\ depth g0 = depth g) as (pub & I0 & G0 & P0 & N0 & L0 & C0 & D0 & B0 & K0 & O0 & DP0).
  { assert (fine (wPub g false)) as I' by exact I. unfold g0. destruct (gIsTok LxPUBLIC (wPub g false)) as [g1|] eqn:T.
    - destruct (x_is _ _ _ I' T ltac:(discriminate) eq_refl) as (_ & I1 & G1 & S1 & L1). exists true. rewrite S1. gcbn.
      pose proof (got_out _ _ _ _ G1) as O1. cbn [strOut] in O1. rewrite app_nil_r in O1. split; [split; [exact (proj1 I1)|exact (proj2 I)]|].
      split; [apply (got_to _ _ _ g1); [exact (got_from g (wPub g false) _ _ _ G1 eq_refl eq_refl)|rewrite S1; reflexivity|rewrite S1; reflexivity]|]. repeat split; assumption.
    - exists false. split; [exact I|]. split; [exact (got_from g (wPub g false) _ _ _ (got_refl _) eq_refl eq_refl)|]. repeat split. }
  clearbody g0.
  assert (topOf g0 = topOf g) as T0 by (unfold topOf; rewrite N0, L0, C0, D0, B0, K0, O0; reflexivity).
  destruct (gIsTok LxSTRUCT g0) as [g1|] eqn:TS.
  { destruct (x_is _ _ _ I0 TS ltac:(discriminate) eq_refl) as (_ & I1 & G1 & S1 & L1). destruct (same_fields _ _ S1) as (N1 & CT1 & CD1 & CS1 & CC1).
    pose proof (same_keep _ _ S1) as (_ & A2 & A3 & A4 & A5). gcbn. rewrite A2, P0 in H. destruct pub; [discriminate H|]. cbn [pubToks] in G0.
    set (g2 := wType (wScope g1 ScSTRC) TySTRUC) in H. assert (fine g2) as I2 by exact I1. assert (0 <= curDim g2) as D2 by (unfold g2; gcbn; lia).
    destruct (getName krn false g2) as [[i g3]| | |] eqn:E3; cbn [pbind] in H; try discriminate H.
    destruct (x_name _ _ _ _ _ I2 D2 E3) as (nm & I3 & _ & DN & Q & L3 & O3 & GT).
    assert (curDim g3 = curDim g /\ curCnt g3 = curCnt g /\ depth g3 = 0 /\ brkLab g3 = brkLab g /\ cntLab g3 = cntLab g) as (CD3 & CC3 & DP3 & BL3 & CL3) by (rewrite Q; unfold g2; gcbn; repeat split; congruence).
    unfold g2 in DN, L3, O3. gcbn. rewrite N1, N0, CD1, CC1, D0, C0 in DN.
    assert (rest g3) as R3 by (split; [exact I3|split; [lia|exact DP3]]).
    rewrite <- CD3, <- CC3 in DN.
    destruct (x_struct _ _ _ _ _ R3 DN H) as (R' & fs & ts & V & DF & OT). split; [exact R'|]. exists (PStruct nm fs). eexists. split; [|split; [constructor; exact DF|]].
    - assert (sign (gtok g3) = true) as SG. { unfold getStruct in H. destruct (gChkTok cLC g3) as [z| | |] eqn:C; try discriminate H. apply gChkTok_ok in C. destruct C as [-> _]. reflexivity. }
      exact (vgot_trans _ _ _ _ _ (got_v _ _ _ _ (got_trans _ _ _ _ _ _ _ G0 (got_trans _ _ _ _ _ _ _ G1 (got_from g1 g2 _ _ _ (GT SG) eq_refl eq_refl)))) V).
    - unfold topOf at 1. replace (clab (ge g)) with (clab (ge g3)) by lia. rewrite <- CC3, <- CD3, <- BL3, <- CL3. replace (outp (ge g)) with (outp (ge g3)).
      { exact OT. } rewrite O3, (got_out _ _ _ _ G1), O0. cbn [strOut]. apply app_nil_r. }
  destruct (gIsTok LxTYPEDEF g0) as [g1|] eqn:TT.
  { destruct (x_is _ _ _ I0 TT ltac:(discriminate) eq_refl) as (_ & I1 & G1 & S1 & L1). destruct (same_fields _ _ S1) as (N1 & CT1 & CD1 & CS1 & CC1).
    pose proof (same_keep _ _ S1) as (_ & A2 & A3 & A4 & A5). gcbn. rewrite A2, P0 in H. destruct pub; [discriminate H|]. cbn [pubToks] in G0.
    set (g2 := wType (wScope g1 ScSTRC) TyREF) in H. assert (fine g2) as I2 by exact I1. assert (0 <= curDim g2) as D2 by (unfold g2; gcbn; lia).
    destruct (getName krn false g2) as [[i g3]| | |] eqn:E3; cbn [pbind] in H; try discriminate H.
    destruct (x_name _ _ _ _ _ I2 D2 E3) as (nm & I3 & _ & DN & Q & L3 & O3 & GT).
    assert (curDim g3 = curDim g /\ curCnt g3 = curCnt g /\ depth g3 = 0 /\ brkLab g3 = brkLab g /\ cntLab g3 = cntLab g) as (CD3 & CC3 & DP3 & BL3 & CL3) by (rewrite Q; unfold g2; gcbn; repeat split; congruence).
    unfold g2 in DN, L3, O3. gcbn. rewrite N1, N0, CD1, CC1, D0, C0 in DN.
    destruct (x_chk _ _ _ I3 H ltac:(discriminate) eq_refl) as (T4 & I4 & G4 & S4 & L4). destruct (same_fields _ _ S4) as (N4 & CT4 & CD4 & CS4 & CC4).
    pose proof (same_keep _ _ S4) as (_ & B2 & B3 & B4 & B5).
    split; [split; [exact I4|split; [lia|congruence]]|]. exists (PTypedef nm). eexists. split; [|split; [constructor|]].
    - assert (sign (gtok g3) = true) as SG by (rewrite T4; reflexivity).
      exact (got_v _ _ _ _ (got_trans _ _ _ _ _ _ _ G0 (got_trans _ _ _ _ _ _ _ G1 (got_trans _ _ _ _ _ _ _ (got_from g1 g2 _ _ _ (GT SG) eq_refl eq_refl) G4)))).
    - unfold topOf. rewrite N4, CC4, CD4, B4, B5, CC3, CD3, BL3, CL3. replace (clab (ge g')) with (clab (ge g)) by lia. replace (outp (ge g')) with (outp (ge g)).
      { eapply ot_typedef. exact DN. } rewrite (got_out _ _ _ _ G4), O3, (got_out _ _ _ _ G1), O0. cbn [strOut]. rewrite !app_nil_r. reflexivity. }
  set (g1 := wScope g0 ScPROT) in H. assert (fine g1) as I1 by exact I0.
  destruct (gGetType g1) as [g2| | |] eqn:E2; cbn [pbind] in H; try discriminate H.
  destruct (x_type _ _ I1 E2) as (t & d & I2 & G2 & TY & L2 & O2 & CT & CD & NN). destruct (typed_fields2 _ _ TY) as ((A1 & A2 & A3 & A4 & A5) & N2 & CC2 & _).
  unfold g1 in A1, A2, A3, A4, A5, N2, CC2, CT, L2, O2. gcbn. rewrite N0 in CT.
  destruct (getName krn (pubFlag g2) g2) as [[i g3]| | |] eqn:E3; cbn [pbind] in H; try discriminate H.
  destruct (x_name _ _ _ _ _ I2 ltac:(lia) E3) as (nm & I3 & NO & DN & Q & L3 & O3 & GT).
  assert (curDim g3 = Z.of_nat d /\ curType g3 = tyCode (gnt g) t /\ curCnt g3 = curCnt g /\ depth g3 = 0 /\ brkLab g3 = brkLab g /\ cntLab g3 = cntLab g /\ pubFlag g3 = pub /\ curScope g3 = ScPROT)
    as (CD3 & CT3 & CC3 & DP3 & BL3 & CL3 & PF3 & SC3) by (rewrite Q; gcbn; repeat split; congruence).
  rewrite A1, A2, P0, CT, CD, CC2, C0, N2, N0 in DN. destruct (def_app _ _ _ _ _ _ _ _ _ DN) as [EN EI]. rewrite EI in DN.
  assert (sign (gtok g3) = true -> vgot g (pubToks pub ++ tyTok t :: brackets d ++ [TName nm]) g3) as VG.
  { intros SG. assert (got g0 ((tyTok t :: brackets d) ++ [TName nm]) [] g3) as G3 by exact (got_trans _ _ _ _ _ _ _ (got_from g0 g1 _ _ _ G2 eq_refl eq_refl) (GT SG)).
    exact (got_v _ _ _ _ (got_trans _ _ _ _ _ _ _ G0 G3)). }
  destruct (Z.eqb_spec (gtok g3) cLP) as [TK|TK].
  - assert (rest g3) as R3 by (split; [exact I3|split; [lia|exact DP3]]).
    destruct (x_func (gnt g) nm pub t (curDim g) (clab (ge g)) (curCnt g) (brkLab g) (cntLab g) (outp (ge g)) g3 g' R3 TK PF3) with (d := d) as (R' & ps & e & bd & tp & tb & V & D1 & D2 & OT).
    + destruct NO as [NO1 NO2]. split; [intros X; congruence|]. intros X. apply NO2. congruence.
    + congruence.
    + exact CT3.
    + exact CD3.
    + rewrite CT3, CD3. exact DN.
    + lia.
    + congruence.
    + congruence.
    + congruence.
    + exact SC3.
    + exact H.
    + split; [exact R'|]. exists (PFunc pub t d nm ps e bd). eexists. split; [|split; [constructor; eassumption|exact OT]].
      unfold vgot. rewrite (VG ltac:(rewrite TK; reflexivity)), V. repeat (rewrite <- app_assoc || rewrite <- app_comm_cons || cbn [app]); reflexivity.
  - rewrite EN, size_snoc in H. rewrite setScope_snoc in H. cbn [nName nType nDim nCnt nPub] in H.
    set (g4 := wScope (wNt g3 _) ScCOMM) in H. gcbn.
    match type of H with (if ?b then _ else _) = _ => destruct b eqn:B1; [discriminate H|] end.
    match type of H with (if ?b then _ else _) = _ => destruct b eqn:B2; [discriminate H|] end.
    unfold g4 in B1, B2. gcbn. rewrite CT3 in B1, B2. rewrite CD3 in B1.
    assert (ntDefName (gnt g) nm ScCOMM (tyCode (gnt g) t) (Z.of_nat d) (curCnt g) pub = NOk (gnt g4, ntGetSize (gnt g))) as DN4.
    { exact (def_glob _ _ ScPROT ScCOMM _ _ _ _ _ _ ltac:(change ScLVAR with 4; change ScPROT with 0; lia) ltac:(change ScLVAR with 4; change ScCOMM with 2; lia) DN). }
    assert (fine g4) as I4.
    { split; [exact (proj1 I3)|]. eapply dims_def; [exact DN4|lia|]. destruct I as [_ X]. exact X. }
    assert (newVar pub (TEnv (gnt g) (clab (ge g)) (curCnt g) (Z.of_nat d) (brkLab g) (cntLab g) (outp (ge g))) nm g4) as NV.
    { constructor; [exact I4|unfold g4; gcbn; lia|exact PF3| |].
      - cbn [tN tC]. unfold g4 at 1 2. gcbn. rewrite CT3, CD3. exact DN4.
      - cbn [tN]. unfold g4. gcbn. rewrite CC3, CD3, BL3, CL3. replace (clab (ge g3)) with (clab (ge g)) by lia. replace (outp (ge g3)) with (outp (ge g)) by congruence. reflexivity. }
    destruct (x_getGVars _ _ _ _ _ NV eq_refl H) as (I5 & (_ & _ & K3 & _) & CD5 & SG & vs & ts & V & DV & OV).
    unfold g4 in K3, CD5, SG, V, OV. gcbn. split; [split; [exact I5|split; [lia|congruence]]|].
    exists (PVars pub t d vs). eexists. split; [|split; [constructor; exact DV|]].
    + unfold vgot in *. gcbn. rewrite (VG SG), V. repeat (rewrite <- app_assoc || rewrite <- app_comm_cons || cbn [app]); reflexivity.
    + unfold topOf at 1. apply ot_vars.
      * split; [rewrite <- CT; exact NN|]. split; [apply Z.eqb_neq; exact B2|]. intros [X Y]. rewrite X, Y in B1. discriminate B1.
      * rewrite CT3, CD3 in OV. exact OV.
Qed.
Lemma x_progLoop F : forall g g', rest g -> progLoop opt krn F g = POk g' ->
  gtok g' = EOFtok /\ exists p ts, vgot g ts g' /\ derives_prog p ts /\ okProg opt krn (topOf g) p (topOf g').
Proof.
  induction F as [|F IH]; intros g g' R H; [discriminate H|]. cbn [progLoop] in H. destruct (Z.eqb_spec (gtok g) EOFtok) as [T|T].
  - injection H as <-. split; [exact T|]. exists [], []. split; [reflexivity|]. split; constructor.
  - destruct (getProg opt krn g) as [g1| | |] eqn:E; cbn [pbind] in H; try discriminate H. destruct (x_getProg _ _ R E) as (R1 & x & tx & V & DT & OT).
    destruct (IH _ _ R1 H) as (T' & p & tp & V2 & DP & OP). split; [exact T'|]. exists (x :: p), (tx ++ tp). split; [exact (vgot_trans _ _ _ _ _ V V2)|].
    split; econstructor; eassumption.
Qed.
End Top.

(* ==== the end of the file ==== *)
Definition noeof (ts : list stok) : bool := forallb (fun t => match t with TSym k => negb (k =? EOFtok) | _ => true end) ts.
Lemma noeof_app a b : noeof (a ++ b) = noeof a && noeof b.
Proof. apply forallb_app. Qed.
Lemma noeof_brackets d : noeof (brackets d) = true.
Proof. induction d as [|d IH]; [reflexivity|]. exact IH. Qed.
Lemma noeof_ty t r : noeof (tyTok t :: r) = noeof r.
Proof. destruct t; reflexivity. Qed.
Lemma noeof_un u r : noeof (TSym (unTok u) :: r) = noeof r.
Proof. destruct u; reflexivity. Qed.
Lemma noeof_op k t o : In (t, o) (levelOps k) -> negb (t =? EOFtok) = true.
Proof.
  intros H. do 12 (destruct k as [|k]; [cbn in H; repeat (destruct H as [H|H]; [injection H as <- <-; reflexivity|]); destruct H|]). destruct H.
Qed.
Lemma noeof_sym t r : noeof (TSym t :: r) = negb (t =? EOFtok) && noeof r.
Proof. reflexivity. Qed.
Lemma noeof_tok t r : (match t with TSym k => negb (k =? EOFtok) | _ => true end) = true -> noeof (t :: r) = noeof r.
Proof. intros H. cbn [noeof forallb]. rewrite H. reflexivity. Qed.
Ltac ne := repeat (rewrite ?noeof_app, ?noeof_ty, ?noeof_un, ?noeof_brackets; try (rewrite noeof_tok by reflexivity)); cbn [andb];
  repeat match goal with H : noeof _ = true |- _ => rewrite H end; try reflexivity.
Scheme derives_mut := Minimality for derives Sort Prop with derives_args_mut := Minimality for derives_args Sort Prop.
Combined Scheme derives_both from derives_mut, derives_args_mut.
Lemma noeof_derives : (forall k e ts, derives k e ts -> noeof ts = true) /\ (forall l ts, derives_args l ts -> noeof ts = true).
Proof.
  apply (derives_both (fun _ _ ts => noeof ts = true) (fun _ ts => noeof ts = true)); intros; try assumption; try solve [ne].
  rewrite noeof_app, noeof_sym. match goal with H : In _ _ |- _ => rewrite (noeof_op _ _ _ H) end. ne.
Qed.
Lemma noeof_e k e ts : derives k e ts -> noeof ts = true.
Proof. apply noeof_derives. Qed.
Lemma noeof_vars vs ts : derives_vars vs ts -> noeof ts = true.
Proof.
  intros H. induction H as [v ts H|v r tv tr H _ IH]; destruct H; ne; match goal with H : derives _ _ _ |- _ => apply noeof_e in H end; ne.
Qed.
Lemma noeof_decl d ts : derives_decl d ts -> noeof ts = true.
Proof. intros []. match goal with H : derives_vars _ _ |- _ => apply noeof_vars in H end. ne. Qed.
Lemma noeof_opt o ts : derives_opt o ts -> noeof ts = true.
Proof. intros []; [reflexivity|]. eapply noeof_e; eassumption. Qed.
Lemma noeof_ini o ts : derives_ini o ts -> noeof ts = true.
Proof. intros []; [reflexivity|eapply noeof_e; eassumption|eapply noeof_decl; eassumption]. Qed.
Scheme sder_mut := Minimality for sder Sort Prop with qder_mut := Minimality for qder Sort Prop.
Combined Scheme sder_both from sder_mut, qder_mut.
Lemma noeof_stat : (forall k s ts, sder k s ts -> noeof ts = true) /\ (forall q ts, qder q ts -> noeof ts = true).
Proof.
  apply (sder_both (fun _ _ ts => noeof ts = true) (fun _ ts => noeof ts = true)); intros; try assumption;
    repeat match goal with H : derives _ _ _ |- _ => apply noeof_e in H | H : derives_opt _ _ |- _ => apply noeof_opt in H | H : derives_ini _ _ |- _ => apply noeof_ini in H | H : derives_decl _ _ |- _ => apply noeof_decl in H end; ne.
Qed.
Lemma noeof_commas {A} (der : A -> list stok -> Prop) : (forall x ts, der x ts -> noeof ts = true) -> forall l ts, commas der l ts -> noeof ts = true.
Proof. intros K l ts H. induction H as [x ts H|x r tx tr H _ IH]; apply K in H; [exact H|]. ne. Qed.
Lemma noeof_param p r : noeof (paramToks p ++ r) = noeof r.
Proof. destruct p as [[t d] n]. unfold paramToks. ne. Qed.
Lemma noeof_params ps k ts : derives_params ps k ts -> noeof ts = true.
Proof. intros H. induction H; try reflexivity; rewrite ?noeof_param; try reflexivity; [rewrite <- (app_nil_r (paramToks p)), noeof_param; reflexivity|]. ne. Qed.
Scheme gini_mut := Minimality for derives_gini Sort Prop with ginis_mut := Minimality for derives_ginis Sort Prop.
Combined Scheme gini_both from gini_mut, ginis_mut.
Lemma noeof_gini : (forall x ts, derives_gini x ts -> noeof ts = true) /\ (forall l ts, derives_ginis l ts -> noeof ts = true).
Proof.
  apply (gini_both (fun _ ts => noeof ts = true) (fun _ ts => noeof ts = true)); intros; try assumption;
    repeat match goal with H : derives _ _ _ |- _ => apply noeof_e in H | H : commas _ _ _ |- _ => apply noeof_commas in H; [|intros ? ?; apply noeof_e] end; ne.
Qed.
Lemma noeof_gvar v ts : derives_gvar v ts -> noeof ts = true.
Proof. intros []; [reflexivity|]. match goal with H : derives_gini _ _ |- _ => apply (proj1 noeof_gini) in H end. ne. Qed.
Lemma noeof_fline f ts : derives_fline f ts -> noeof ts = true.
Proof. intros []. match goal with H : commas _ _ _ |- _ => apply noeof_commas in H; [|intros ? ? ->; reflexivity] end. ne. Qed.
Lemma noeof_flines f ts : derives_flines f ts -> noeof ts = true.
Proof. intros H. induction H as [f ts H|f r tf tr H _ IH]; apply noeof_fline in H; [exact H|]. ne. Qed.
Lemma noeof_body b ts : derives_body b ts -> noeof ts = true.
Proof. intros []; [reflexivity|]. match goal with H : qder _ _ |- _ => apply (proj2 noeof_stat) in H end. ne. Qed.
Lemma noeof_pub p r : noeof (pubToks p ++ r) = noeof r.
Proof. destruct p; reflexivity. Qed.
Lemma noeof_top x ts : derives_top x ts -> noeof ts = true.
Proof.
  intros []; rewrite ?noeof_pub; repeat match goal with H : derives_flines _ _ |- _ => apply noeof_flines in H | H : derives_params _ _ _ |- _ => apply noeof_params in H
    | H : derives_body _ _ |- _ => apply noeof_body in H | H : commas _ _ _ |- _ => apply noeof_commas in H; [|intros ? ?; apply noeof_gvar] end; ne.
Qed.
Lemma noeof_prog p ts : derives_prog p ts -> noeof ts = true.
Proof. intros H. induction H as [|x p tx tp H _ IH]; [reflexivity|]. apply noeof_top in H. ne. Qed.

(* the lexer's list ends with the end of the file, and only there *)
Lemma lexAllF_end f : forall s l, lexAllF f s = LOk l -> exists a e, l = a ++ [e] /\ tokOf e = EOFtok /\ forall i, In i a -> tokOf i <> EOFtok.
Proof.
  induction f as [|f IH]; intros s l H; [discriminate H|]. cbn [lexAllF] in H. destruct (lxGetTok s) as [[t s1]| |]; cbn [lbind] in H; try discriminate H.
  destruct (Z.eqb_spec t EOFtok) as [->|N].
  - injection H as <-. exists [], (EOFtok, val s1, str s1, ln s1). split; [reflexivity|]. split; [reflexivity|]. intros i [].
  - destruct (lexAllF f s1) as [r| |] eqn:E; cbn [lbind] in H; try discriminate H. injection H as <-. destruct (IH _ _ E) as (a & e & -> & T & O).
    exists ((t, val s1, str s1, ln s1) :: a), e. split; [reflexivity|]. split; [exact T|]. intros i [<-|Hi]; [exact N|exact (O i Hi)].
Qed.
Lemma view_app a b : view (a ++ b) = view a ++ view b.
Proof. induction a as [|i a IH]; [reflexivity|]. cbn [app view]. rewrite IH. destruct (_ =? _); reflexivity. Qed.
Lemma own_eof i : own i = TSym EOFtok <-> tokOf i = EOFtok.
Proof.
  destruct i as [[[t v] s] ln]. unfold own, tokOf. repeat match goal with |- context[t =? ?k] => destruct (Z.eqb_spec t k) as [->|]; [split; discriminate|] end.
  split; [intros H; injection H; auto|intros ->; reflexivity].
Qed.
Lemma noeof_view a : (forall i, In i a -> tokOf i <> EOFtok) -> noeof (view a) = true.
Proof.
  induction a as [|i a IH]; intros H; [reflexivity|]. cbn [view]. assert (noeof (view a) = true) as K by (apply IH; intros j J; apply H; right; exact J).
  destruct (_ =? LxFILE); [exact K|]. cbn [noeof forallb]. fold (noeof (view a)). rewrite K. assert (own i <> TSym EOFtok) as N by (rewrite own_eof; apply H; left; reflexivity).
  destruct (own i) as [| | | | |k]; try reflexivity. destruct (Z.eqb_spec k EOFtok) as [->|]; [contradiction|reflexivity].
Qed.
Lemma lexAll_view file l : lexAll file = LOk l -> exists ts, view l = ts ++ [TSym EOFtok] /\ noeof ts = true.
Proof.
  intros H. destruct (lexAllF_end _ _ _ H) as (a & e & -> & T & O). exists (view a). rewrite view_app. split; [|apply noeof_view; exact O].
  cbn [view]. rewrite T. change (EOFtok =? LxFILE) with false. cbn iota. rewrite (proj2 (own_eof e) T). reflexivity.
Qed.
Lemma eof_split a b r : noeof a = true -> noeof b = true -> a ++ [TSym EOFtok] = b ++ TSym EOFtok :: r -> a = b /\ r = [].
Proof.
  revert b. induction a as [|x a IH]; intros [|y b] A B E; cbn [app] in E.
  - injection E as <-. auto.
  - injection E as <- E. rewrite noeof_sym in B. discriminate B.
  - injection E as -> E. rewrite noeof_sym in A. discriminate A.
  - injection E as <- E. cbn [noeof forallb] in A, B. apply andb_true_iff in A, B. destruct (IH b (proj2 A) (proj2 B) E) as [-> ->]. auto.
Qed.
Theorem compile_sound opt krn file l o : lexAll file = LOk l -> unmarked l -> compile opt krn file = COut o ->
  exists p ts T, view l = ts ++ [TSym EOFtok] /\ derives_prog p ts /\ okProg opt krn tenv0 p T /\ tO T = o.
Proof.
  intros LX U H. unfold compile in H. rewrite LX in H. destruct (psGetSrc opt krn l) as [g'| | |] eqn:E; try discriminate H. injection H as <-.
  assert (rest (gInit l)) as R. { split; [split; [apply (good_init l 0 []), (lexAll_steady _ _ LX U)|constructor]|]. cbn. split; [lia|reflexivity]. }
  destruct (x_progLoop _ _ _ _ _ R E) as (T & p & ts & V & DP & OP). exists p, ts, (topOf g'). split; [|split; [exact DP|split; [exact OP|reflexivity]]].
  unfold vgot, gInit in V. gcbn. cbn [its] in V. rewrite skipFile_view in V. destruct (lexAll_view _ _ LX) as (us & VL & NU). pose proof (noeof_prog _ _ DP) as NT.
  rewrite VL in V. destruct (its (ge g')) as [|i r] eqn:EI.
  - cbn [view] in V. rewrite app_nil_r in V. rewrite <- V, noeof_app, NU in NT. discriminate NT.
  - unfold gtok, tok in T. rewrite EI in T. cbn [view] in V. rewrite T in V. change (EOFtok =? LxFILE) with false in V. cbn iota in V. rewrite (proj2 (own_eof i) T) in V.
    destruct (eof_split _ _ _ NU NT V) as [-> _]. rewrite VL. reflexivity.
Qed.
