(* All histories of stream calls *)
From Coq Require Import ZArith Bool List Lia.
From Verif Require Import LibMem LibStdio StdioSpec StdioProofs StdioTable.
Import ListNotations.
Open Scope Z_scope.

Section Hist.
Variable K : kernel.
Hypothesis HK : kernOk K.
Notation Eff := (Eff K).
Notation Mv := (Mv K).

Lemma nth_setNth l i j v : (i < length l)%nat -> nth j (setNth l i v) 0 = if Nat.eqb j i then v else nth j l 0.
Proof.
  intros H. unfold setNth. revert i j H. induction l as [|a l IH]; intros i j H; [cbn in H; lia|]. destruct i as [|i].
  - cbn [firstn app skipn]. destruct j; reflexivity.
  - cbn [firstn app skipn]. destruct j as [|j]; [reflexivity|]. cbn [nth Nat.eqb]. cbn in H. apply IH. lia.
Qed.

Lemma srch_spec l : forall k i, srchFrom k l = Some i -> k <= i /\ (Z.to_nat (i - k) < length l)%nat /\ nth (Z.to_nat (i - k)) l 0 = 0.
Proof.
  induction l as [|a l IH]; intros k i; cbn [srchFrom]; [discriminate|]. destruct (Z.eqb_spec a 0) as [->|N].
  - intros [= ->]. rewrite Z.sub_diag. cbn. split; [lia|]. split; [lia|reflexivity].
  - intros H. destruct (IH _ _ H) as (A & B & C). replace (Z.to_nat (i - k)) with (S (Z.to_nat (i - (k + 1)))) by lia. cbn. split; [lia|]. split; [lia|exact C].
Qed.

Lemma openFds_open t d m : openFds (t ++ [EOpen d m]) = d :: openFds t.
Proof. unfold openFds. now rewrite fold_left_app. Qed.
Lemma openFds_close t d : openFds (t ++ [EClose d]) = remove Z.eq_dec d (openFds t).
Proof. unfold openFds. now rewrite fold_left_app. Qed.

(* what a call that opens does to the streams that are open already *)
Lemma quiet_other q f e : (match e with EOpen _ _ | ECreat | EClose _ => True | _ => False end) -> quiet q f [e].
Proof. intros H. unfold quiet, dl, rd. destruct e; try destruct H; destruct (tty f); cbn; auto. Qed.
Lemma quiet_app q f a b : quiet q f a -> quiet q f b -> quiet q f (a ++ b).
Proof. intros [A B] [C D]. unfold quiet. rewrite !flat_map_app, A, C. split; [reflexivity|]. intros M. now rewrite (B M), (D M). Qed.

(* the state after logging an event that concerns no stream *)
Lemma creat_Inv s : Inv s -> Inv (logged s ECreat).
Proof.
  intros I. destruct I as [A B C D E]. split; cbn [logged slots files tr]; auto.
  intros i p Hi Hp N. rewrite openFds_app by (repeat constructor). apply (D i p Hi Hp N).
Qed.

Lemma alloc_step s d m p s' : Inv s -> 0 <= d -> ~ In d (openFds (tr s)) ->
  allocFile K d m 128 (logged s (EOpen d m)) = Go p s' ->
  Inv s' /\ tr s' = tr s ++ [EOpen d m] /\ live s' p /\ ~ In p (slots s) /\
  (exists b, files s' p = File d m true b 128 0 0 false false false (slot (files s' p)) /\ 3 <= slot (files s' p) < 8) /\
  forall q, live s q -> live s' q /\ files s' q = files s q.
Proof.
  intros I D0 Df. unfold allocFile. cbn [logged slots tr files].
  destruct (srchFrom 0 (slots s)) as [i|] eqn:Sr; [|discriminate]. destruct (srch_spec _ _ _ Sr) as (H1 & H2 & H3). rewrite Z.sub_0_r in *.
  rewrite (i_len s I) in H2. set (n := Z.to_nat i) in *. assert (En : Z.of_nat n = i) by lia.
  assert (N3 : (3 <= n)%nat). { destruct (le_lt_dec 3 n); [assumption|]. destruct (i_std s I n 0 l H3) as [X _]. congruence. }
  set (pp := kAlloc K (tr s ++ [EOpen d m]) (slots s)). destruct (k_alloc K HK (tr s ++ [EOpen d m]) (slots s)) as [P0 Pn]. fold pp in P0, Pn.
  set (b := map _ _). assert (Lb : Z.of_nat (length b) = 128) by (unfold b; rewrite map_length, seq_length; reflexivity).
  set (F := File d m true b 128 0 0 false false false i).
  intros [= <- <-]. 
  assert (Nth : forall j, nth j (setNth (slots s) n pp) 0 = if Nat.eqb j n then pp else nth j (slots s) 0) by (intros j; apply nth_setNth; rewrite (i_len s I); exact H2).
  assert (Np : forall j q, (j < 8)%nat -> nth j (slots s) 0 = q -> q <> pp).
  { intros j q Hj <- E. apply Pn. rewrite <- E. apply nth_In. rewrite (i_len s I). exact Hj. }
  assert (Fo : fileOk F). { split; unfold F; cbn; intros; try discriminate; try lia. exact Lb. }
  assert (Tr : tr s ++ [EOpen d m] ++ [] = tr s ++ [EOpen d m]) by (now rewrite app_nil_r).
  split; [|split; [|split; [|split; [|split]]]].
  - split; cbn [slots files tr put logged].
    + unfold setNth. rewrite app_length, firstn_length. cbn [length]. rewrite skipn_length, (i_len s I). lia.
    + intros j q Hj Hq Nq. rewrite Nth in Hq. destruct (Nat.eqb_spec j n) as [->|Nj].
      * subst q. rewrite Z.eqb_refl. split; [unfold F; cbn; lia|exact Fo].
      * destruct (Z.eqb_spec q pp) as [E|E]; [destruct (Np j q Hj Hq E)|]. apply (i_slot s I j q Hj Hq Nq).
    + intros j q Hj Hq. rewrite Nth in Hq. destruct (Nat.eqb_spec j n) as [->|Nj]; [lia|].
      destruct (Z.eqb_spec q pp) as [E|E]; [destruct (Np j q ltac:(lia) Hq E)|]. apply (i_std s I j q Hj Hq).
    + intros j q Hj Hq Nq. rewrite app_nil_r, openFds_open. rewrite Nth in Hq. destruct (Nat.eqb_spec j n) as [->|Nj].
      * subst q. rewrite Z.eqb_refl. unfold F. cbn. auto.
      * destruct (Z.eqb_spec q pp) as [E|E]; [destruct (Np j q ltac:(lia) Hq E)|]. destruct (i_file s I j q Hj Hq Nq) as (A & B & C & D). repeat split; try assumption. right. exact D.
    + intros j k a c Hj Hk Hjk Ha Hc Na Nc. rewrite Nth in Ha, Hc.
      destruct (Nat.eqb_spec j n) as [->|Nj]; destruct (Nat.eqb_spec k n) as [->|Nk]; [lia| | |].
      * subst a. rewrite Z.eqb_refl. destruct (Z.eqb_spec c pp) as [E|E]; [destruct (Np k c ltac:(lia) Hc E)|]. destruct (i_file s I k c Hk Hc Nc) as (_ & _ & _ & X). unfold F. cbn. congruence.
      * subst c. rewrite Z.eqb_refl. destruct (Z.eqb_spec a pp) as [E|E]; [destruct (Np j a ltac:(lia) Ha E)|]. destruct (i_file s I j a Hj Ha Na) as (_ & _ & _ & X). unfold F. cbn. congruence.
      * destruct (Z.eqb_spec a pp) as [E|E]; [destruct (Np j a ltac:(lia) Ha E)|]. destruct (Z.eqb_spec c pp) as [E'|E']; [destruct (Np k c ltac:(lia) Hc E')|]. apply (i_dist s I j k a c); assumption.
  - cbn [tr put logged]. now rewrite app_nil_r.
  - split; [exact P0|]. cbn [slots put logged]. unfold setNth. apply in_or_app. right. left. reflexivity.
  - exact Pn.
  - exists b. cbn [files put logged]. rewrite Z.eqb_refl. split; [reflexivity|]. unfold F. cbn. lia.
  - intros q L. destruct (live_nth s q I L) as [j [Hj Hq]]. split.
    + split; [apply L|]. cbn [slots put logged]. assert (Nj : j <> n) by (intros ->; destruct L; congruence).
      rewrite <- Hq. specialize (Nth j). destruct (Nat.eqb_spec j n); [contradiction|]. rewrite <- Nth. apply nth_In.
      unfold setNth. rewrite app_length, firstn_length. cbn [length]. rewrite skipn_length, (i_len s I). lia.
    + cbn [files put logged]. destruct (Z.eqb_spec q pp) as [E|E]; [destruct (Np j q Hj Hq E)|reflexivity].
Qed.

(* a stream just opened *)
Definition fresh (s : st) (p d m : Z) : Prop :=
  live s p /\ exists b, files s p = File d m true b 128 0 0 false false false (slot (files s p)) /\ 3 <= slot (files s p) < 8.
Definition modeOf (md : list Z) : Z := if list_eq_dec Z.eq_dec md [114] then RDONLY else if list_eq_dec Z.eq_dec md [119] then WRONLY else APPEND.

Lemma fopen_step s nm md p s' : Inv s -> fopen K nm md s = Go p s' ->
  Inv s' /\ exists t, tr s' = tr s ++ t /\ (forall q f, quiet q f t) /\
  (forall q, live s q -> live s' q /\ files s' q = files s q) /\
  (p = 0 /\ slots s' = slots s \/
   exists t0 d, t = t0 ++ [EOpen d (modeOf md)] /\ (t0 = [] \/ t0 = [ECreat]) /\ fresh s' p d (modeOf md) /\ ~ In p (slots s)).
Proof.
  intros I. unfold fopen, modeOf.
  assert (Ti : forall s0 m, Inv s0 -> forall p s', (if kOpen K (tr s0) nm m <? 0 then Go 0 s0 else allocFile K (kOpen K (tr s0) nm m) m 128 (logged s0 (EOpen (kOpen K (tr s0) nm m) m))) = Go p s' ->
    (p = 0 /\ s' = s0) \/ exists d, Inv s' /\ tr s' = tr s0 ++ [EOpen d m] /\ fresh s' p d m /\ ~ In p (slots s0) /\ forall q, live s0 q -> live s' q /\ files s' q = files s0 q).
  { intros s0 m I0 p0 s1. destruct (Z.ltb_spec (kOpen K (tr s0) nm m) 0); [intros [= <- <-]; auto|]. intros A. right. exists (kOpen K (tr s0) nm m).
    destruct (alloc_step s0 _ m p0 s1 I0 H (k_open K HK _ _ _ H) A) as (X1 & X2 & X3 & X4 & X5 & X6). split; [exact X1|]. split; [exact X2|]. split; [split; assumption|]. auto. }
  assert (Same : forall m, Inv s /\ exists t, tr s = tr s ++ t /\ (forall q f, quiet q f t) /\ (forall q, live s q -> live s q /\ files s q = files s q) /\
     (0 = 0 /\ slots s = slots s \/ exists t0 d, t = t0 ++ [EOpen d m] /\ (t0 = [] \/ t0 = [ECreat]) /\ fresh s 0 d m /\ ~ In 0 (slots s))).
  { intros m. split; [exact I|]. exists []. rewrite app_nil_r. split; [reflexivity|]. split; [intros; split; auto|]. auto. }
  assert (Aw : forall m p s', (if kOpen K (tr s) nm m <? 0 then
      if (kOpen K (tr s) nm m =? ENOENT) && (0 <=? kCreat K (tr s) nm) then
        (if kOpen K (tr (logged s ECreat)) nm m <? 0 then Go 0 (logged s ECreat) else allocFile K (kOpen K (tr (logged s ECreat)) nm m) m 128 (logged (logged s ECreat) (EOpen (kOpen K (tr (logged s ECreat)) nm m) m)))
      else Go 0 s
    else allocFile K (kOpen K (tr s) nm m) m 128 (logged s (EOpen (kOpen K (tr s) nm m) m))) = Go p s' ->
    Inv s' /\ exists t, tr s' = tr s ++ t /\ (forall q f, quiet q f t) /\ (forall q, live s q -> live s' q /\ files s' q = files s q) /\
     (p = 0 /\ slots s' = slots s \/ exists t0 d, t = t0 ++ [EOpen d m] /\ (t0 = [] \/ t0 = [ECreat]) /\ fresh s' p d m /\ ~ In p (slots s))).
  { intros m p0 s1. destruct (Z.ltb_spec (kOpen K (tr s) nm m) 0).
    - destruct (_ && _).
      + intros A. destruct (Ti (logged s ECreat) m (creat_Inv s I) p0 s1 A) as [[-> ->]|[d (X1 & X2 & X3 & X4 & X6)]].
        * split; [apply creat_Inv, I|]. exists [ECreat]. split; [reflexivity|]. split; [intros q f; apply quiet_other; exact Logic.I|]. split; [intros q L; split; [exact L|reflexivity]|]. left. auto.
        * split; [exact X1|]. exists ([ECreat] ++ [EOpen d m]). rewrite X2. cbn [logged tr]. split; [now rewrite <- app_assoc|].
          split; [intros q f; apply quiet_app; apply quiet_other; exact Logic.I|]. split; [exact X6|]. right. exists [ECreat], d. auto.
      + intros [= <- <-]. apply Same.
    - intros A. assert (A' : (if kOpen K (tr s) nm m <? 0 then Go 0 s else allocFile K (kOpen K (tr s) nm m) m 128 (logged s (EOpen (kOpen K (tr s) nm m) m))) = Go p0 s1) by (destruct (Z.ltb_spec (kOpen K (tr s) nm m) 0); [lia|exact A]).
      destruct (Ti s m I p0 s1 A') as [[-> ->]|[d (X1 & X2 & X3 & X4 & X6)]]; [apply Same|].
      split; [exact X1|]. exists [EOpen d m]. split; [exact X2|]. split; [intros q f; apply quiet_other; exact Logic.I|]. split; [exact X6|]. right. exists [], d. auto. }
  destruct (list_eq_dec Z.eq_dec md [114]).
  - intros A. destruct (Ti s RDONLY I p s' A) as [[-> ->]|[d (X1 & X2 & X3 & X4 & X6)]]; [apply Same|].
    split; [exact X1|]. exists [EOpen d RDONLY]. split; [exact X2|]. split; [intros q f; apply quiet_other; exact Logic.I|]. split; [exact X6|]. right. exists [], d. auto.
  - destruct (list_eq_dec Z.eq_dec md [119]); [exact (Aw WRONLY p s')|]. destruct (list_eq_dec Z.eq_dec md [97]); [exact (Aw APPEND p s')|discriminate].
Qed.

Lemma fclose_step s p b s' : Inv s -> fclose K p s = Go b s' ->
  live s p /\ Inv s' /\ exists t, tr s' = tr s ++ t /\
  (forall q, live s q -> q <> p -> live s' q /\ files s' q = files s q /\ quiet q (files s q) t) /\
  Forall (fun e => match e with EClose _ => True | _ => own p (files s p) e end) t /\
  (mode (files s p) <> RDONLY -> (tty (files s p) = true -> showsAll K) -> acct p (files s p) (files s' p) t []) /\
  (if b then err (files s' p) = true /\ slots s' = slots s
   else ~ live s' p /\ (mode (files s p) <> RDONLY -> err (files s' p) = false /\ pend (files s' p) = [])).
Proof.
  intros I. unfold fclose. destruct (goodFp s p) eqn:G; cbn [negb]; [apply (good_live _ p I) in G|discriminate]. 
  destruct (Z.ltb_spec (slot (files s p)) 3) as [|S3]; [discriminate|]. intros H. split; [exact G|].
  assert (Ok := live_ok s p I G).
  destruct (live_nth s p I G) as [i [Hi Hp]]. destruct (i_slot s I i p Hi Hp (proj1 G)) as [Si _].
  (* the flush *)
  set (fl := if negb (mode (files s p) =? RDONLY) then flushF K (tr s) p (files s p) else (files s p, [])) in H.
  assert (Fl : exists f1 t1, fl = (f1, t1) /\ Eff p (files s p) f1 t1 [] [] /\ Forall (own p (files s p)) t1 /\ (mode (files s p) <> RDONLY -> err f1 = false -> pend f1 = [])).
  { unfold fl. destruct (Z.eqb_spec (mode (files s p)) RDONLY); cbn [negb].
    - exists (files s p), []. split; [reflexivity|]. split; [apply Eff_refl; exact Ok|]. split; [constructor|]. congruence.
    - destruct (flushF K (tr s) p (files s p)) as [f1 t1] eqn:F. exists f1, t1. destruct (flush_eff K HK p _ _ _ _ Ok n F) as (A & B & C). auto. }
  destruct Fl as (f1 & t1 & Efl & E1 & O1 & P1). rewrite Efl in H. clear Efl fl.
  assert (Hput : forall f t, same (files s p) f -> fileOk f -> Forall (own p (files s p)) t -> Inv (put s p f t) /\ tr (put s p f t) = tr s ++ t /\
     forall q, live s q -> q <> p -> live (put s p f t) q /\ files (put s p f t) q = files s q /\ quiet q (files s q) t).
  { intros f t Sm Of O. split; [apply put_Inv; auto; apply (own_noOC _ _ _ O)|]. split; [reflexivity|]. intros q L N. split; [exact L|]. split; [cbn; destruct (Z.eqb_spec q p); [contradiction|reflexivity]|]. apply (own_quiet s p q t I G L); auto. }
  assert (Fr : forall f t, files (put s p f t) p = f) by (intros; cbn; now rewrite Z.eqb_refl).
  assert (Wk : Forall (fun e => match e with EClose _ => True | _ => own p (files s p) e end) t1) by (revert O1; apply Forall_impl; intros []; cbn; tauto).
  destruct (negb (mode (files s p) =? RDONLY) && err f1) eqn:Er.
  - injection H as <- <-. destruct (Hput f1 t1 (e_same _ _ _ _ _ _ _ E1) (e_ok _ _ _ _ _ _ _ E1) O1) as (A & B & C). split; [exact A|]. exists t1. split; [exact B|]. split; [exact C|]. split; [exact Wk|]. rewrite Fr. split; [apply E1|].
    split; [|reflexivity]. apply andb_true_iff in Er. apply Er.
  - destruct (kClose K (tr s ++ t1) (fd f1) <? 0).
    + injection H as <- <-. 
      destruct E1 as [Sm Ok1 A B _].
      assert (Sm2 : same (files s p) (setErr f1 true)) by (unfold same in *; cbn; intuition).
      assert (Ok2 : fileOk (setErr f1 true)).
      { destruct Ok1 as [X1 X2 X3 X4 X5 X6]. split; cbn; auto. intros M Hb. destruct (X4 M Hb). split; [assumption|discriminate]. }
      destruct (Hput _ _ Sm2 Ok2 O1) as (A' & B' & C). split; [exact A'|]. exists t1. split; [exact B'|]. split; [exact C|]. split; [exact Wk|]. rewrite Fr. split; [|split; reflexivity].
      intros M Sh. destruct (A M Sh) as (Y1 & Y2 & Y3). split; [intros Z1; split; [reflexivity|apply (Y1 Z1)]|]. split; [discriminate|exact Y3].
    + injection H as <- <-. set (t := t1 ++ [EClose (fd f1)]).
      pose proof (e_same _ _ _ _ _ _ _ E1) as Sm. destruct Sm as (S1 & S2 & S4 & S5 & S6 & S7).
      assert (Sn : Z.to_nat (slot f1) = i) by (rewrite S7, Si; lia). rewrite Sn.
      assert (I3 : (3 <= i)%nat) by lia.
      destruct (Hput f1 t1 (e_same _ _ _ _ _ _ _ E1) (e_ok _ _ _ _ _ _ _ E1) O1) as (A & B & C).
      assert (Nth : forall j, nth j (setNth (slots s) i 0) 0 = if Nat.eqb j i then 0 else nth j (slots s) 0) by (intros j; apply nth_setNth; rewrite (i_len s I); exact Hi).
      assert (Len : length (setNth (slots s) i 0) = 8%nat) by (unfold setNth; rewrite app_length, firstn_length; cbn [length]; rewrite skipn_length, (i_len s I); lia).
      assert (Uq : forall j q, (j < 8)%nat -> j <> i -> nth j (slots s) 0 = q -> q <> 0 -> q <> p).
      { intros j q Hj Nj Hq Nq ->. destruct (i_slot s I j p Hj Hq (proj1 G)) as [X _]. lia. }
      split; [|exists t; split; [reflexivity|split; [|split; [|split]]]].
      * split; cbn [slots files tr put].
        -- exact Len.
        -- intros j q Hj Hq Nq. rewrite Nth in Hq. destruct (Nat.eqb_spec j i) as [->|Nj]; [congruence|]. apply (i_slot _ A j q Hj Hq Nq).
        -- intros j q Hj Hq. rewrite Nth in Hq. destruct (Nat.eqb_spec j i) as [->|Nj]; [lia|]. apply (i_std _ A j q Hj Hq).
        -- intros j q Hj Hq Nq. rewrite Nth in Hq. destruct (Nat.eqb_spec j i) as [->|Nj]; [congruence|]. destruct (i_file _ A j q Hj Hq Nq) as (X1 & X2 & X3 & X4).
           split; [exact X1|]. split; [exact X2|]. split; [exact X3|]. unfold t. rewrite app_assoc, openFds_close. apply in_in_remove; [|exact X4].
           cbn [files put] in *. destruct (Z.eqb_spec q p) as [E|E]; [destruct (Uq j q ltac:(lia) Nj Hq Nq E)|]. rewrite S1. intros X. apply (i_dist s I j i q p); auto; try lia. apply G.
        -- intros j k a c Hj Hk Hjk Ha Hc Na Nc. rewrite Nth in Ha, Hc. destruct (Nat.eqb_spec j i) as [->|Nj]; [congruence|]. destruct (Nat.eqb_spec k i) as [->|Nk]; [congruence|].
           apply (i_dist _ A j k a c Hj Hk Hjk Ha Hc Na Nc).
      * intros q L N. destruct (C q L N) as (X1 & X2 & X3). split; [|split; [exact X2|apply quiet_app; [exact X3|apply quiet_other; exact Logic.I]]].
        split; [apply L|]. cbn [slots put]. destruct (live_nth s q I L) as [j [Hj Hq]]. assert (Nj : j <> i) by (intros ->; congruence).
        specialize (Nth j). destruct (Nat.eqb_spec j i); [contradiction|]. rewrite <- Hq, <- Nth. apply nth_In. rewrite Len. exact Hj.
      * unfold t. apply Forall_app. split; [exact Wk|]. repeat constructor.
      * cbn [files put]. rewrite Z.eqb_refl. unfold t. assert (X : Eff p f1 f1 [EClose (fd f1)] [] []) by (apply Eff_quiet; [apply E1|apply quiet_other; exact Logic.I]).
        exact (e_out _ _ _ _ _ _ _ (Eff_trans K p _ _ _ _ _ _ _ _ _ E1 X)).
      * cbn [files put slots]. rewrite Z.eqb_refl. split.
        -- intros [_ L]. cbn [slots] in L. apply In_nth with (d := 0) in L. destruct L as [j [Hj Hq]]. rewrite Len in Hj. rewrite Nth in Hq. destruct (Nat.eqb_spec j i) as [->|Nj]; [destruct G; congruence|].
           exact (Uq j p Hj Nj Hq (proj1 G) eq_refl).
        -- intros M. destruct (Z.eqb_spec (mode (files s p)) RDONLY); [contradiction|]. cbn [negb andb] in Er. split; [exact Er|]. apply (P1 M Er).
Qed.

(* ---- one call ---- *)
Lemma step_all o s r s' : Inv s -> step K o s = Go r s' ->
  Inv s' /\ exists t, tr s' = tr s ++ t /\
  forall q, live s q -> o <> Fclose q -> live s' q /\ Eff q (files s q) (files s' q) t (asks q o) (gives q (o, r)).
Proof.
  intros I.
  assert (Fin : forall p w g, Mv s s' p w g -> (forall q, asks q o = if q =? p then w else []) -> (forall q, gives q (o, r) = if q =? p then g else []) ->
    Inv s' /\ exists t, tr s' = tr s ++ t /\ forall q, live s q -> o <> Fclose q -> live s' q /\ Eff q (files s q) (files s' q) t (asks q o) (gives q (o, r))).
  { intros p w g (I' & S & t & T & _ & E) A B. split; [exact I'|]. exists t. split; [exact T|]. intros q L _. split; [exact (live_slots _ _ _ S L)|]. rewrite A, B. exact (E q L). }
  destruct o as [nm md|p|p|c p|w p|p|p|n p|p h l|p|c]; cbn [step]; unfold ret_.
  - destruct (fopen K nm md s) as [p s1|e s1|] eqn:F; try discriminate. intros [= <- <-]. destruct (fopen_step s nm md p s1 I F) as (I' & t & T & Q & L & _).
    split; [exact I'|]. exists t. split; [exact T|]. intros q Lq _. destruct (L q Lq) as [A B]. split; [exact A|]. rewrite B. cbn. apply Eff_quiet; [exact (live_ok s q I Lq)|apply Q].
  - destruct (fclose K p s) as [b s1|e s1|] eqn:F; try discriminate. intros [= <- <-]. destruct (fclose_step s p b s1 I F) as (_ & I' & t & T & Q & _).
    split; [exact I'|]. exists t. split; [exact T|]. intros q Lq N. assert (Nq : q <> p) by congruence. destruct (Q q Lq Nq) as (A & B & C). split; [exact A|]. rewrite B. cbn. apply Eff_quiet; [exact (live_ok s q I Lq)|exact C].
  - destruct (fflush K p s) as [b s1|e s1|] eqn:F; try discriminate. intros [= <- <-]. destruct (fflush_Mv K HK s p b s1 I F) as (_ & V & _). apply (Fin p [] [] V); intros q; cbn; now destruct (q =? p).
  - destruct (fputc K c p s) as [b s1|e s1|] eqn:F; try discriminate. intros [= <- <-]. destruct (fputc_Mv K HK s c p b s1 I F) as (_ & V & _). apply (Fin p _ _ V); intros q; cbn; rewrite 1?(Z.eqb_sym p q); now destruct (q =? p).
  - destruct (fputs K w p s) as [b s1|e s1|] eqn:F; try discriminate. intros [= <- <-]. destruct (fputs_Mv K HK p w s b s1 I F) as (V & _). apply (Fin p _ _ V); intros q; cbn; rewrite 1?(Z.eqb_sym p q); now destruct (q =? p).
  - destruct (feof K p s) as [b s1|e s1|] eqn:F; try discriminate. intros [= <- <-]. destruct (feof_Mv K HK s p b s1 I F) as (_ & _ & V & _). apply (Fin p [] [] V); intros q; cbn; now destruct (q =? p).
  - destruct (fgetc K p s) as [b s1|e s1|] eqn:F; try discriminate. intros [= <- <-]. destruct (fgetc_Mv K HK s p b s1 I F) as (_ & _ & V). apply (Fin p _ _ V); intros q; cbn; rewrite 1?(Z.eqb_sym p q); now destruct (q =? p).
  - unfold fgets. destruct (getsLoop K (Z.to_nat (i16 (n - 1))) p [] s) as [l s1|e s1|] eqn:F; try discriminate. intros [= <- <-]. destruct (gets_Mv K HK p _ s [] l s1 I F) as [g [-> V]]. cbn [app].
    apply (Fin p _ _ V); intros q; cbn [asks gives]; [now destruct (q =? p)|]. rewrite (Z.eqb_sym p q), removelast_last. reflexivity.
  - destruct (fseek K p h l s) as [b s1|e s1|] eqn:F; try discriminate. intros [= <- <-]. destruct (fseek_Mv K HK s p h l b s1 I F) as (_ & V). apply (Fin p _ _ V); intros q; cbn; rewrite 1?(Z.eqb_sym p q); now destruct (q =? p).
  - destruct (ferror p s) as [b s1|e s1|] eqn:F; try discriminate. intros [= <- <-]. destruct (ferror_Mv s p b s1 I F) as (_ & -> & _). apply (Fin p [] [] (Mv_refl K s p I)); intros q; cbn; now destruct (q =? p).
  - unfold exit_. destruct (flushAll K (slots s) s) as [b s1|e s1|]; discriminate.
Qed.

(* ---- all histories ---- *)
Lemma hist_Inv s h s' : hist K s h s' -> Inv s -> Inv s'.
Proof. induction 1 as [s|s o r s1 h s2 S _ IH]; intros I; [exact I|]. apply IH. apply (step_all o s r s1 I S). Qed.

Theorem hist_all s h s' : hist K s h s' -> Inv s ->
  exists t, tr s' = tr s ++ t /\
  forall q, live s q -> noClose q h -> live s' q /\ Eff q (files s q) (files s' q) t (written q h) (returned q h).
Proof.
  induction 1 as [s|s o r s1 h s2 S H IH]; intros I.
  - exists []. split; [now rewrite app_nil_r|]. intros q L _. split; [exact L|]. apply Eff_refl, (live_ok s q I L).
  - destruct (step_all o s r s1 I S) as (I1 & t1 & T1 & A). destruct (IH I1) as (t2 & T2 & B). exists (t1 ++ t2). split; [rewrite T2, T1; now rewrite app_assoc|].
    intros q L N. assert (N1 : o <> Fclose q) by (intros ->; apply (N r); left; reflexivity). assert (N2 : noClose q h) by (intros r' X; apply (N r'); right; exact X).
    destruct (A q L N1) as [L1 E1]. destruct (B q L1 N2) as [L2 E2]. split; [exact L2|]. exact (Eff_trans K q _ _ _ _ _ _ _ _ _ E1 E2).
Qed.

Lemma hist_app s h1 s1 h2 s2 : hist K s h1 s1 -> hist K s1 h2 s2 -> hist K s (h1 ++ h2) s2.
Proof. induction 1; intros; [assumption|]. cbn. econstructor; eauto. Qed.
Lemma hist_split h1 : forall s h2 s2, hist K s (h1 ++ h2) s2 -> exists s1, hist K s h1 s1 /\ hist K s1 h2 s2.
Proof.
  induction h1 as [|x h1 IH]; intros s h2 s2 H; [exists s; split; [constructor|exact H]|]. inversion H; subst. destruct (IH _ _ _ H5) as [s1 [A B]]. exists s1. split; [econstructor; eauto|exact B].
Qed.
End Hist.
