(* C39, C40, C56: streams *)
From Coq Require Import ZArith Bool List Lia.
From Verif Require Import LibMem LibStdio StdioSpec StdioProofs StdioTable StdioHist StdioTop.
Import ListNotations.
Open Scope Z_scope.

(* ---- a machine for examples: one content for every file, read [chunk] bytes at a time; no
   bytes are taken after the first [room]; the keyboard gives [keys] ---- *)
Definition allWritten (t : list ev) : Z := fold_left (fun n e => match e with EWrite _ bs => n + Z.of_nat (length bs) | _ => n end) t 0.
Definition toyK (content : list Z) (chunk : nat) (room : Z) (keys : list Z) : kernel :=
  Kernel (fun t _ _ => 1 + fold_right Z.max 2 (openFds t)) (fun _ _ => 0) (fun _ _ => 0)
    (fun t _ bs => Z.min (Z.of_nat (length bs)) (room - allWritten t))
    (fun t d n => Some (firstn (Nat.min chunk (Z.to_nat n)) (skipn (length (readBytes d t)) content)))
    (fun _ _ _ _ => 0) (fun _ n => firstn (Z.to_nat n) keys) (fun _ bs => Z.of_nat (length bs))
    (fun _ l => 1 + fold_right Z.max 0 l) (fun _ i => i mod 256).
Lemma max_in l a x : In x l -> x <= fold_right Z.max a l.
Proof. induction l as [|y l IH]; cbn [In fold_right]; [tauto|]. intros [->|H]; [lia|]. specialize (IH H). lia. Qed.
Lemma max_ge l a : a <= fold_right Z.max a l.
Proof. induction l as [|y l IH]; cbn [fold_right]; lia. Qed.
Lemma toyK_ok content chunk room keys : kernOk (toyK content chunk room keys).
Proof.
  split; cbn [toyK kWrite kRead kTtyR kOpen kAlloc].
  - intros. lia.
  - intros t d n bs N [= <-]. rewrite firstn_length. lia.
  - intros t n N. rewrite firstn_length. lia.
  - intros t nm m _ H. apply (max_in _ 2) in H. lia.
  - intros t l. split; [pose proof (max_ge l 0); lia|]. intros H. apply (max_in _ 0) in H. lia.
Qed.
Lemma toyK_shows content chunk room keys : showsAll (toyK content chunk room keys).
Proof. intros t bs. reflexivity. Qed.
Definition s0 : st := init 1 2 3 (fun _ => stderrF) (repeat 0 80) (repeat 0 80).
Lemma s0_starts : startsAt 1 2 3 s0.
Proof. repeat split; try discriminate. exists (fun _ => stderrF), (repeat 0 80), (repeat 0 80). repeat split. Qed.
Fixpoint runH (K : kernel) (ops : list op) (s : st) : option (list (op * res) * st) :=
  match ops with
  | [] => Some ([], s)
  | o :: r => match step K o s with Go v s' => match runH K r s' with Some (h, s'') => Some ((o, v) :: h, s'') | None => None end | _ => None end
  end.
Lemma runH_ok K ops : forall s h s', runH K ops s = Some (h, s') -> hist K s h s'.
Proof.
  induction ops as [|o r IH]; intros s h s'; cbn [runH]; [intros [= <- <-]; constructor|].
  destruct (step K o s) as [v s1| |] eqn:E; try discriminate. destruct (runH K r s1) as [[h1 s2]|] eqn:R; [|discriminate]. intros [= <- <-]. econstructor; [exact E|apply IH, R].
Qed.
Definition resultsOf (x : option (list (op * res) * st)) : list res := match x with Some (h, _) => map snd h | None => [] end.
Definition eventsOf (x : option (list (op * res) * st)) : list ev := match x with Some (_, s) => tr s | None => [] end.

Lemma hist_one K s o r s' : hist K s [(o, r)] s' -> step K o s = Go r s'.
Proof. intros H. inversion H; subst. match goal with X : hist _ _ [] _ |- _ => inversion X; subst end. assumption. Qed.

(* ---- C39: output ---- *)
Definition outMode (md : list Z) : Prop := md = [119] \/ md = [97].    (* "w", "a" *)

Lemma fresh_facts s p d m : fresh s p d m -> live s p /\ mode (files s p) = m /\ tty (files s p) = false /\ fd (files s p) = d /\ err (files s p) = false /\
  pend (files s p) = [] /\ unread (files s p) = [] /\ eof (files s p) = false.
Proof. intros [L (b & E & _)]. rewrite E. cbn. repeat split; try assumption; apply L. Qed.
Lemma outMode_neq md : outMode md -> modeOf md <> RDONLY.
Proof. intros [-> | ->]; discriminate. Qed.
Lemma dl_file q f : tty f = false -> forall t, flat_map (dl q f) t = delivered (fd f) t.
Proof. intros T t. unfold dl, delivered. now rewrite T. Qed.
Lemma dl_con q f : tty f = true -> forall t, flat_map (dl q f) t = shown q (fd f) t.
Proof. intros T t. unfold dl, shown. now rewrite T. Qed.

(* the opening of a stream: from the start of the program to the call of fopen that gave p *)
Definition opening K pin pout perr h0 nm md p s1 : Prop :=
  exists sa sb, startsAt pin pout perr sa /\ hist K sa h0 sb /\ step K (Fopen nm md) sb = Go (RPtr p) s1 /\ p <> 0.
Lemma opening_facts K pin pout perr h0 nm md p s1 : kernOk K -> opening K pin pout perr h0 nm md p s1 ->
  Inv s1 /\ exists d t0, tr s1 = t0 ++ [EOpen d (modeOf md)] /\ fresh s1 p d (modeOf md).
Proof.
  intros HK (sa & sb & A & H & S & N). pose proof (hist_Inv K HK _ _ _ H (start_Inv _ _ _ _ A)) as I. cbn [step] in S. unfold ret_ in S.
  destruct (fopen K nm md sb) as [p' s'|e s'|] eqn:F; try discriminate. injection S as -> ->.
  destruct (fopen_step K HK sb nm md p s1 I F) as (I1 & t & T & _ & _ & [[-> _]|(t0 & d & -> & _ & Fr & _)]); [congruence|].
  split; [exact I1|]. exists d, (tr sb ++ t0). rewrite T, app_assoc. auto.
Qed.

(* After fflush or fclose has returned false, exactly what was written has been delivered, in
   order: bytes and moves of the file position. *)
Theorem C39_flushed : forall K pin pout perr h0 nm md p s1 h o s2, kernOk K -> outMode md ->
  opening K pin pout perr h0 nm md p s1 ->
  hist K s1 (h ++ [(o, RBool false)]) s2 -> noClose p h -> o = Fflush p \/ o = Fclose p ->
  exists d m t0 t, tr s1 = t0 ++ [EOpen d m] /\ tr s2 = tr s1 ++ t /\ delivered d t = written p h.
Proof.
  intros K pin pout perr h0 nm md p s1 h o s2 HK Md Op H Nc Ho. destruct (opening_facts _ _ _ _ _ _ _ _ _ HK Op) as (I1 & d & t0 & T1 & Fr).
  destruct (fresh_facts _ _ _ _ Fr) as (L & M & Ty & D & Er & P & _). pose proof (outMode_neq md Md) as Mo. rewrite <- M in Mo.
  apply hist_split in H. destruct H as (s3 & H & H2). apply hist_one in H2.
  destruct (hist_all K HK _ _ _ H I1) as (ta & Ta & A). destruct (A p L Nc) as [L3 E]. pose proof (hist_Inv K HK _ _ _ H I1) as I3.
  assert (X : exists tb, tr s2 = tr s3 ++ tb /\ acct p (files s3 p) (files s2 p) tb [] /\ err (files s2 p) = false /\ pend (files s2 p) = []).
  { assert (M3 : mode (files s3 p) <> RDONLY) by (destruct E as [(_ & -> & _) _ _ _ _]; exact Mo). assert (T3 : tty (files s3 p) = false) by (destruct E as [(_ & _ & _ & _ & -> & _) _ _ _ _]; exact Ty).
    destruct Ho as [-> | ->]; cbn [step] in H2; unfold ret_ in H2.
    - destruct (fflush K p s3) as [b s'|e s'|] eqn:F; try discriminate. injection H2 as -> ->. destruct (fflush_Mv K HK s3 p false s2 I3 F) as (_ & (_ & _ & tb & Tb & _ & Eb) & B1 & B2).
      exists tb. split; [exact Tb|]. specialize (Eb p L3). rewrite Z.eqb_refl in Eb. split; [apply Eb; [exact M3|congruence]|]. auto.
    - destruct (fclose K p s3) as [b s'|e s'|] eqn:F; try discriminate. injection H2 as -> ->. destruct (fclose_step K HK s3 p false s2 I3 F) as (_ & _ & tb & Tb & _ & _ & Ac & _ & B).
      exists tb. split; [exact Tb|]. split; [apply Ac; [exact M3|congruence]|]. apply B, M3. }
  destruct X as (tb & Tb & Ac & Er2 & P2).
  exists d, (modeOf md), t0, (ta ++ tb). split; [exact T1|]. split; [rewrite Tb, Ta, app_assoc; reflexivity|].
  pose proof (acct_trans _ _ _ _ _ _ _ _ (e_same _ _ _ _ _ _ _ E) (e_out _ _ _ _ _ _ _ E Mo ltac:(congruence)) Ac) as (_ & Q & _). specialize (Q Er2).
  rewrite P, P2, !app_nil_r, dl_file, D in Q by exact Ty. symmetry. exact Q.
Qed.
Print Assumptions C39_flushed.
(* 300 bytes, a move, two more bytes and a close, with another stream in between *)
Definition demoOut : list op := [Fopen [120] [119]; Fopen [121] [97]; Fputs (repeat 65 200) 4; Fputc 66 5; Fputs (repeat 67 100) 4; Fseek 4 0 7; Fputc 68 4; Fputc 69 5; Fputc 10 4; Fclose 4].
Example C39_flushed_ex :
  let r := runH (toyK [] 1 1000 []) demoOut s0 in
  resultsOf r = [RPtr 4; RPtr 5; RBool false; RBool false; RBool false; RBool false; RBool false; RBool false; RBool false; RBool false] /\
  delivered 3 (eventsOf r) = map Byte (repeat 65 200 ++ repeat 67 100) ++ [Seek 0 7; Byte 68; Byte 10] /\ length (filter (fun e => match e with EWrite 3 _ => true | _ => false end) (eventsOf r)) = 4%nat.
Proof. vm_compute. auto. Qed.

(* At any moment, whatever the operating system does (short writes, errors), what has been
   delivered is a beginning of what was written; if ferror says there was no error, only what is in
   the buffer, fewer than 128 bytes, is missing. *)
Theorem C39_prefix : forall K pin pout perr h0 nm md p s1 h s2, kernOk K -> outMode md ->
  opening K pin pout perr h0 nm md p s1 -> hist K s1 h s2 -> noClose p h ->
  exists d m t0 t, tr s1 = t0 ++ [EOpen d m] /\ tr s2 = tr s1 ++ t /\
    (exists missing, bytes (written p h) = bytes (delivered d t) ++ missing) /\
    (ferror p s2 = Go false s2 -> exists rest, (length rest < 128)%nat /\ written p h = delivered d t ++ map Byte rest) /\
    (exists b, ferror p s2 = Go b s2).
Proof.
  intros K pin pout perr h0 nm md p s1 h s2 HK Md Op H Nc. destruct (opening_facts _ _ _ _ _ _ _ _ _ HK Op) as (I1 & d & t0 & T1 & Fr).
  destruct (fresh_facts _ _ _ _ Fr) as (L & M & Ty & D & Er & P & _). pose proof (outMode_neq md Md) as Mo. rewrite <- M in Mo.
  destruct (hist_all K HK _ _ _ H I1) as (t & T & A). destruct (A p L Nc) as [L2 E]. pose proof (hist_Inv K HK _ _ _ H I1) as I2.
  exists d, (modeOf md), t0, t. split; [exact T1|]. split; [exact T|]. destruct (e_out _ _ _ _ _ _ _ E Mo ltac:(congruence)) as (_ & Q & R). rewrite P, dl_file, D in * by exact Ty. cbn [app] in *.
  assert (G : goodFp s2 p = true) by (apply good_live; assumption).
  split; [exact (R Er)|]. unfold ferror. rewrite G. cbn [negb]. split; [|eexists; reflexivity]. intros [= X]. specialize (Q X).
  assert (Hb : hasbuf (files s2 p) = true /\ size (files s2 p) = 128). { destruct E as [(_ & _ & -> & -> & _) _ _ _ _]. destruct Fr as [_ (b & -> & _)]. split; reflexivity. }
  destruct Hb as [Hb Hs]. unfold pend in Q. rewrite Hb in Q. eexists. split; [|exact Q].
  assert (M2 : mode (files s2 p) <> RDONLY) by (destruct E as [(_ & -> & _) _ _ _ _]; exact Mo).
  pose proof (live_ok s2 p I2 L2) as Ok. destruct (f_out _ Ok M2 Hb) as [_ Y]. specialize (Y X). pose proof (f_cnt _ Ok). pose proof (f_len _ Ok). rewrite firstn_length. lia.
Qed.
Print Assumptions C39_prefix.
(* the disk is full after 150 bytes *)
Example C39_prefix_ex :
  let r := runH (toyK [] 1 150 []) [Fopen [120] [119]; Fputs (repeat 65 100 ++ repeat 66 200) 4; Fputc 67 4; Fflush 4; Ferror 4] s0 in
  resultsOf r = [RPtr 4; RBool true; RBool true; RBool true; RBool true] /\ delivered 3 (eventsOf r) = map Byte (repeat 65 100 ++ repeat 66 50).
Proof. vm_compute. auto. Qed.

(* the console: standard output keeps at most 79 bytes back, standard error none *)
Theorem C39_console : forall K pin pout perr sa h s2, kernOk K -> showsAll K -> startsAt pin pout perr sa -> hist K sa h s2 -> 
  noClose pout h -> noClose perr h ->
  (ferror pout s2 = Go false s2 -> exists rest, (length rest < 80)%nat /\ written pout h = shown pout (-2) (tr s2) ++ map Byte rest /\
     (forall h', h = h' ++ [(Fputc 10 pout, RBool false)] \/ h = h' ++ [(Fflush pout, RBool false)] -> rest = [])) /\
  (ferror perr s2 = Go false s2 -> written perr h = shown perr (-3) (tr s2)).
Proof.
  intros K pin pout perr sa h s2 HK Sh St H N1 N2. pose proof (start_Inv _ _ _ _ St) as I.
  destruct (hist_all K HK _ _ _ H I) as (t & T & A). pose proof (hist_Inv K HK _ _ _ H I) as I2.
  destruct St as (Z1 & Z2 & Z3 & D1 & D2 & D3 & any & b0 & b1 & L0 & L1 & ->). set (sa := init pin pout perr any b0 b1) in *. cbn [tr] in T.
  assert (F1 : files sa pout = stdoutF b1) by (cbn; destruct (Z.eqb_spec pout pin); [congruence|]; now rewrite Z.eqb_refl).
  assert (F2 : files sa perr = stderrF) by (cbn; destruct (Z.eqb_spec perr pin); [congruence|]; destruct (Z.eqb_spec perr pout); [congruence|]; now rewrite Z.eqb_refl).
  assert (Lo : live sa pout) by (split; [assumption|cbn; auto]). assert (Le : live sa perr) by (split; [assumption|cbn; auto]).
  change (tr s2 = t) in T. rewrite T. split.
  - destruct (A pout Lo N1) as [L2 E]. unfold ferror. replace (goodFp s2 pout) with true by (symmetry; apply good_live; assumption). cbn [negb]. intros [= X].
    destruct (e_out _ _ _ _ _ _ _ E ltac:(rewrite F1; discriminate) ltac:(auto)) as (_ & Q & _). specialize (Q X). rewrite dl_con in Q by (rewrite F1; reflexivity). rewrite F1 in Q. cbn [fd stdoutF] in Q. change (pend (stdoutF b1)) with (@nil item) in Q. cbn [app] in Q.
    assert (Sm : same (stdoutF b1) (files s2 pout)) by (rewrite <- F1; apply E). destruct Sm as (_ & M2 & Hb & Hs & Ht & _). cbn in M2, Hb, Hs, Ht.
    unfold pend in Q. rewrite Hb in Q. eexists. split; [|split; [exact Q|]].
    + pose proof (live_ok s2 pout I2 L2) as Ok. destruct (f_out _ Ok ltac:(rewrite M2; discriminate) Hb) as [_ Y]. specialize (Y X). pose proof (f_cnt _ Ok). pose proof (f_len _ Ok). rewrite firstn_length. lia.
    + intros h' Hh. assert (Pe : pend (files s2 pout) = []).
      { destruct Hh as [-> | ->]; apply hist_split in H; destruct H as (s3 & H & H2); apply hist_one in H2; pose proof (hist_Inv K HK _ _ _ H I) as I3; cbn [step] in H2; unfold ret_ in H2.
        - destruct (fputc K 10 pout s3) as [b s'|e s'|] eqn:F; try discriminate. injection H2 as -> ->.
          pose proof (fputc_Mv K HK _ _ _ _ _ I3 F) as (L3 & (_ & _ & tt3 & _ & _ & E3) & _). specialize (E3 pout L3). pose proof (e_same _ _ _ _ _ _ _ E3) as (_ & S2 & S3 & _ & S5 & _).
          revert F. unfold fputc. destruct (negb _); [discriminate|]. destruct (_ =? RDONLY) eqn:Mz; [discriminate|]. apply Z.eqb_neq in Mz.
          assert (Ok3 := live_ok s3 pout I3 L3). unfold putcF.
          destruct (err (files s3 pout)) eqn:Er3; [intros [= Y <-]; cbn in X; rewrite Z.eqb_refl in X; congruence|]. replace (hasbuf (files s3 pout)) with true by congruence. cbn [negb].
          destruct (_ && _); [|discriminate]. set (f1 := File _ _ _ _ _ _ _ _ _ _ _). replace (tty f1) with true by (unfold f1; cbn; congruence). cbn [andb Z.eqb]. change (10 =? 10) with true. rewrite orb_true_r.
          unfold flushF. replace (err f1) with false by reflexivity. replace (hasbuf f1) with true by reflexivity. cbn [negb].
          replace (cnt f1 =? 0) with false by (symmetry; apply Z.eqb_neq; unfold f1; cbn; pose proof (f_cnt _ Ok3); lia). replace (tty f1) with true by (unfold f1; cbn; congruence).
          intros [= <-]. cbn [files put]. rewrite Z.eqb_refl. unfold pend. cbn. reflexivity.
        - destruct (fflush K pout s3) as [b s'|e s'|] eqn:F; try discriminate. injection H2 as -> ->. destruct (fflush_Mv K HK s3 pout false s2 I3 F) as (_ & _ & _ & B). apply B; reflexivity. }
      unfold pend in Pe. rewrite Hb in Pe. destruct (firstn _ _); [reflexivity|discriminate].
  - destruct (A perr Le N2) as [L2 E]. unfold ferror. replace (goodFp s2 perr) with true by (symmetry; apply good_live; assumption). cbn [negb]. intros [= X].
    destruct (e_out _ _ _ _ _ _ _ E ltac:(rewrite F2; discriminate) ltac:(auto)) as (_ & Q & _). specialize (Q X). rewrite dl_con in Q by (rewrite F2; reflexivity). rewrite F2 in Q. cbn [fd stderrF] in Q. change (pend stderrF) with (@nil item) in Q. cbn [app] in Q.
    rewrite Q. assert (Sm : same stderrF (files s2 perr)) by (rewrite <- F2; apply E). destruct Sm as (_ & _ & Hb & _). unfold pend. rewrite Hb. cbn. apply app_nil_r.
Qed.
Print Assumptions C39_console.
Example C39_console_ex :
  let r := runH (toyK [] 1 0 []) [Fputs (repeat 65 90) 2; Fputc 66 3; Fputc 67 2; Fputc 10 2; Fputc 68 2] s0 in
  shown 2 (-2) (eventsOf r) = map Byte (repeat 65 90 ++ [67; 10]) /\ shown 3 (-3) (eventsOf r) = [Byte 66] /\ resultsOf r = repeat (RBool false) 5.
Proof. vm_compute. auto. Qed.

(* exit delivers what is left, for all streams *)
Definition takesAll (K : kernel) : Prop := forall t d bs, kWrite K t d bs = Z.of_nat (length bs).
Lemma flush_takes K p t f f' t' : takesAll K -> fileOk f -> err f = false -> flushF K t p f = (f', t') -> err f' = false.
Proof.
  intros Tk Ok E. unfold flushF. rewrite E. destruct (negb (hasbuf f)); [intros [= <- _]; exact E|]. destruct (cnt f =? 0) eqn:C; [intros [= <- _]; exact E|]. apply Z.eqb_neq in C.
  destruct (tty f); intros [= <- _]; [reflexivity|]. cbn. apply negb_false_iff, Z.eqb_eq. rewrite Tk. pose proof (f_cnt f Ok). pose proof (f_len f Ok). rewrite firstn_length, Nat2Z.inj_min.
  destruct (Z.ltb_spec 0 (Z.min (Z.of_nat (Z.to_nat (cnt f))) (Z.of_nat (length (buf f))))); lia.
Qed.
Lemma flushAll_go K l : kernOk K -> forall s, Inv s -> (forall p, In p l -> p = 0 \/ live s p) -> exists s', flushAll K l s = Go tt s' /\
  (takesAll K -> forall q, live s q -> mode (files s q) <> RDONLY -> err (files s q) = false -> err (files s' q) = false /\ (In q l \/ pend (files s q) = [] -> pend (files s' q) = [])).
Proof.
  intros HK. induction l as [|p l IH]; intros s I A; cbn [flushAll].
  - exists s. split; [reflexivity|]. intros _ q _ _ E. split; [exact E|]. cbn. tauto.
  - destruct (negb (p =? 0) && negb (mode (files s p) =? RDONLY)) eqn:C.
    + apply andb_true_iff in C. destruct C as [C1 C2]. apply negb_true_iff, Z.eqb_neq in C1. apply negb_true_iff in C2.
      destruct (A p (or_introl eq_refl)) as [|L]; [congruence|]. assert (G : goodFp s p = true) by (apply good_live; assumption).
      unfold fflush at 1. rewrite G, C2. cbn [negb]. destruct (flushF K (tr s) p (files s p)) as [f t] eqn:F. set (s1 := put s p f t).
      apply Z.eqb_neq in C2. destruct (flush_eff K HK p _ _ _ _ (live_ok s p I L) C2 F) as (E1 & O1 & P1). destruct (put_Mv K s p f t [] [] I L E1 O1) as (I1 & _).
      destruct (IH s1 I1) as (s' & X & Y); [intros q Hq; apply A; right; exact Hq|]. exists s'. split; [exact X|]. intros Tk q Lq Mq Eq. destruct (Y Tk q Lq) as [Y1 Y2].
      * unfold s1. cbn. destruct (Z.eqb_spec q p); [|exact Mq]. destruct E1 as [(_ & -> & _) _ _ _ _]. exact C2.
      * unfold s1. cbn. destruct (Z.eqb_spec q p) as [->|]; [|exact Eq]. apply (flush_takes K p _ _ _ _ Tk (live_ok s p I L) Eq F).
      * split; [exact Y1|]. intros Hq. apply Y2. unfold s1. cbn [files put]. destruct (Z.eqb_spec q p) as [->|N].
        -- right. apply P1. apply (flush_takes K p _ _ _ _ Tk (live_ok s p I L) Eq F).
        -- destruct Hq as [[->|Hq]|Hq]; [congruence|auto|auto].
    + destruct (IH s I) as (s' & X & Y); [intros q Hq; apply A; right; exact Hq|]. exists s'. split; [exact X|]. intros Tk q Lq Mq Eq. destruct (Y Tk q Lq Mq Eq) as [Y1 Y2]. split; [exact Y1|].
      intros Hq. apply Y2. destruct Hq as [[->|Hq]|Hq]; auto. apply andb_false_iff in C. destruct C as [C|C]; apply negb_false_iff, Z.eqb_eq in C; [destruct Lq; congruence|congruence].
Qed.
Theorem C39_exit : forall K pin pout perr h0 nm md p s1 h s2 c, kernOk K -> outMode md ->
  opening K pin pout perr h0 nm md p s1 -> hist K s1 h s2 -> noClose p h -> ferror p s2 = Go false s2 ->
  exists s3, exit_ K c s2 = Exit c s3 /\
  (takesAll K -> exists d m t0 t, tr s1 = t0 ++ [EOpen d m] /\ tr s3 = tr s1 ++ t /\ delivered d t = written p h).
Proof.
  intros K pin pout perr h0 nm md p s1 h s2 c HK Md Op H Nc Fe. destruct (opening_facts _ _ _ _ _ _ _ _ _ HK Op) as (I1 & d & t0 & T1 & Fr).
  destruct (fresh_facts _ _ _ _ Fr) as (L & M & Ty & D & Er & P & _). pose proof (outMode_neq md Md) as Mo. rewrite <- M in Mo.
  destruct (hist_all K HK _ _ _ H I1) as (t & T & A). destruct (A p L Nc) as [L2 E]. pose proof (hist_Inv K HK _ _ _ H I1) as I2.
  assert (G : goodFp s2 p = true) by (apply good_live; assumption). unfold ferror in Fe. rewrite G in Fe. cbn [negb] in Fe. injection Fe as Fe.
  destruct (flushAll_go K (slots s2) HK s2 I2) as (s3 & X & Y). { intros q Hq. destruct (Z.eq_dec q 0); [auto|]. right. split; assumption. }
  exists s3. unfold exit_. rewrite X. split; [reflexivity|]. intros Tk. exists d, (modeOf md), t0. destruct (flushAll_Mv K HK _ _ _ _ I2 X) as (_ & _ & tb & Tb & _ & Eb).
  exists (t ++ tb). split; [exact T1|]. split; [rewrite Tb, T, app_assoc; reflexivity|].
  assert (M2 : mode (files s2 p) <> RDONLY) by (destruct E as [(_ & -> & _) _ _ _ _]; exact Mo).
  destruct (Y Tk p L2 M2 Fe) as [E3 P3]. specialize (P3 (or_introl (proj2 L2))). specialize (Eb p L2).
  assert (Eb' : Eff K p (files s2 p) (files s3 p) tb [] []) by (destruct (p =? 0); exact Eb).
  pose proof (Eff_trans K p _ _ _ _ _ _ _ _ _ E Eb') as Et. destruct (e_out _ _ _ _ _ _ _ Et Mo ltac:(congruence)) as (_ & Q & _). specialize (Q E3).
  rewrite P, P3, !app_nil_r, dl_file, D in Q by exact Ty. symmetry. exact Q.
Qed.
Print Assumptions C39_exit.
Example C39_exit_ex : match runH (toyK [] 1 1000 []) [Fopen [120] [119]; Fopen [121] [119]; Fputs [65; 66] 4; Fputc 67 5] s0 with
  | Some (_, s) => match exit_ (toyK [] 1 1000 []) 0 s with Exit c s' => c = 0 /\ delivered 3 (tr s') = [Byte 65; Byte 66] /\ delivered 4 (tr s') = [Byte 67] | _ => False end | None => False end.
Proof. vm_compute. auto. Qed.

(* a byte written to the console is lost without notice if the console takes fewer bytes than it
   is given: the result of ttyWrite is not used (stdio.cmm:95, 121) *)
Theorem C39_console_refuted : exists K h s2, kernOk K /\ hist K s0 h s2 /\ h = [(Fputs [65; 66; 10] 2, RBool false); (Ferror 2, RBool false)] /\
  shown 2 (-2) (tr s2) = [Byte 65].
Proof.
  set (K := let k := toyK [] 1 0 [] in Kernel (kOpen k) (kCreat k) (kClose k) (kWrite k) (kRead k) (kSeek k) (kTtyR k) (fun _ _ => 1) (kAlloc k) (kJunk k)).
  destruct (runH K [Fputs [65; 66; 10] 2; Ferror 2] s0) as [[h s2]|] eqn:R; [|vm_compute in R; discriminate].
  exists K, h, s2. split; [destruct (toyK_ok [] 1 0 []); split; assumption|]. split; [apply (runH_ok _ _ _ _ _ R)|].
  assert (X : match runH K [Fputs [65; 66; 10] 2; Ferror 2] s0 with Some (h, s2) => h = [(Fputs [65; 66; 10] 2, RBool false); (Ferror 2, RBool false)] /\ shown 2 (-2) (tr s2) = [Byte 65] | None => True end) by (vm_compute; auto).
  rewrite R in X. exact X.
Qed.
Print Assumptions C39_console_refuted.

(* ---- C40: input ---- *)
Lemma rd_file f : tty f = false -> forall t, flat_map (rd f) t = readBytes (fd f) t.
Proof. intros T t. unfold rd, readBytes. now rewrite T. Qed.
Lemma noSeek_written p h : noSeek p h -> seekless (written p h).
Proof.
  intros N a b I. unfold written in I. apply in_flat_map in I. destruct I as [[o r] [J K]]. cbn [fst] in K.
  destruct o; cbn [asks] in K; try (destruct K; fail); destruct (Z.eqb_spec fp p) as [->|]; try (destruct K; fail).
  - destruct K as [K|[]]. discriminate.
  - apply in_map_iff in K. destruct K as [x [K _]]. discriminate.
  - exact (N _ _ _ J).
Qed.

(* what is known of a stream opened for reading after any calls *)
Lemma reading K pin pout perr h0 nm p s1 h s2 : kernOk K ->
  opening K pin pout perr h0 nm [114] p s1 -> hist K s1 h s2 -> noClose p h -> noSeek p h ->
  exists d t0 t, tr s1 = t0 ++ [EOpen d RDONLY] /\ tr s2 = tr s1 ++ t /\ Inv s2 /\ live s2 p /\ mode (files s2 p) = RDONLY /\ tty (files s2 p) = false /\ fd (files s2 p) = d /\
    readBytes d t = returned p h ++ unread (files s2 p) /\ (eof (files s2 p) = true -> len (files s2 p) <= cnt (files s2 p)).
Proof.
  intros HK Op H Nc Ns. destruct (opening_facts _ _ _ _ _ _ _ _ _ HK Op) as (I1 & d & t0 & T1 & Fr). change (modeOf [114]) with RDONLY in *.
  destruct (fresh_facts _ _ _ _ Fr) as (L & M & Ty & D & Er & _ & U & Eo).
  destruct (hist_all K HK _ _ _ H I1) as (t & T & A). destruct (A p L Nc) as [L2 E]. pose proof (hist_Inv K HK _ _ _ H I1) as I2.
  exists d, t0, t. split; [exact T1|]. split; [exact T|]. split; [exact I2|]. split; [exact L2|]. pose proof (e_same _ _ _ _ _ _ _ E) as (S1 & S2 & _ & _ & S5 & _).
  split; [congruence|]. split; [congruence|]. split; [congruence|]. split.
  - pose proof (e_in _ _ _ _ _ _ _ E M ltac:(congruence) (noSeek_written p h Ns)) as X. unfold iacct in X. rewrite U, rd_file, D in X by exact Ty. exact X.
  - apply (e_eof _ _ _ _ _ _ _ E M Ty). congruence.
Qed.

(* The bytes returned are the beginning of the file, each once and in order, for any file content
   and any way the operating system hands it out. *)
Theorem C40_file : forall K pin pout perr h0 nm p s1 h s2, kernOk K ->
  opening K pin pout perr h0 nm [114] p s1 -> hist K s1 h s2 -> noClose p h -> noSeek p h ->
  exists d t0 t, tr s1 = t0 ++ [EOpen d RDONLY] /\ tr s2 = tr s1 ++ t /\
    forall bs, serves bs d t -> exists rest, bs = returned p h ++ rest.
Proof.
  intros K pin pout perr h0 nm p s1 h s2 HK Op H Nc Ns. destruct (reading K pin pout perr h0 nm p s1 h s2 HK Op H Nc Ns) as (d & t0 & t & T1 & T & I2 & L2 & M2 & Ty & D & R & _).
  exists d, t0, t. split; [exact T1|]. split; [exact T|]. intros bs S. destruct (serves_prefix bs d t S) as [rest E]. exists (unread (files s2 p) ++ rest). rewrite app_assoc, <- R. exact E.
Qed.
Print Assumptions C40_file.

Lemma hist_snoc_inv K s h o r s2 : hist K s (h ++ [(o, r)]) s2 -> exists s1, hist K s h s1 /\ step K o s1 = Go r s2.
Proof. intros H. apply hist_split in H. destruct H as (s1 & A & B). exists s1. split; [exact A|]. apply hist_one. exact B. Qed.
Lemma noClose_app p a b : noClose p (a ++ b) -> noClose p a.
Proof. intros N r X. apply (N r). apply in_or_app. auto. Qed.
Lemma noSeek_app p a b : noSeek p (a ++ b) -> noSeek p a.
Proof. intros N x y r X. apply (N x y r). apply in_or_app. auto. Qed.

(* feof says true exactly when everything has been returned; fgetc ends the program (EUEOF) only
   then. *)
Theorem C40_eof : forall K pin pout perr h0 nm p s1 h b s2, kernOk K ->
  opening K pin pout perr h0 nm [114] p s1 -> hist K s1 (h ++ [(Feof p, RBool b)]) s2 -> noClose p h -> noSeek p h ->
  exists d t0 t, tr s1 = t0 ++ [EOpen d RDONLY] /\ tr s2 = tr s1 ++ t /\
    forall bs, serves bs d t -> (b = true <-> bs = returned p h).
Proof.
  intros K pin pout perr h0 nm p s1 h b s2 HK Op H Nc Ns. apply hist_snoc_inv in H. destruct H as (s3 & H & S).
  destruct (reading K pin pout perr h0 nm p s1 h s3 HK Op H Nc Ns) as (d & t0 & t & T1 & T & I3 & L3 & M3 & Ty & D & R & Eo).
  cbn [step] in S. unfold ret_ in S. destruct (feof K p s3) as [b' s'|e s'|] eqn:F; try discriminate. injection S as -> ->.
  unfold feof in F. replace (goodFp s3 p) with true in F by (symmetry; apply good_live; assumption). rewrite M3 in F. cbn [negb Z.eqb] in F. change (RDONLY =? RDONLY) with true in F. cbn [negb] in F.
  destruct (needF K (tr s3) (files s3 p)) as [f tn] eqn:Nd. injection F as Eb <-.
  exists d, t0, (t ++ tn). split; [exact T1|]. split; [cbn [tr put]; rewrite T, app_assoc; reflexivity|]. intros bs Sv.
  assert (Sv' : serves bs d t) by (intros t1 r t2 X; apply (Sv t1 r (t2 ++ tn)); rewrite X, <- app_assoc; reflexivity).
  destruct (serves_prefix bs d t Sv') as [rest E]. revert Nd. unfold needF. destruct (Z.leb_spec (len (files s3 p)) (cnt (files s3 p))) as [Le|Le].
  - assert (U : unread (files s3 p) = []). { unfold unread. apply skipn_all2. rewrite firstn_length. pose proof (f_in _ (live_ok s3 p I3 L3) M3). lia. }
    rewrite U, app_nil_r in R. unfold fillF. rewrite Ty, D. destruct (kRead K (tr s3) d (size (files s3 p))) as [c|] eqn:Rd; intros [= <- <-]; cbn [eof] in Eb.
    + destruct (Sv t (Some c) [] eq_refl) as (c' & rest' & [= <-] & E' & Z0). destruct c as [|x c].
      * cbn in Eb. subst b. rewrite (Z0 eq_refl), !app_nil_r, R in E'. split; auto.
      * cbn [length] in Eb. rewrite Nat2Z.inj_succ in Eb. replace (Z.succ (Z.of_nat (length c)) =? 0) with false in Eb by (symmetry; apply Z.eqb_neq; lia). subst b.
        rewrite R in E'. split; [discriminate|]. intros X. rewrite X in E'. exfalso. apply (f_equal (@length Z)) in E'. rewrite app_length in E'. cbn in E'. lia.
    + destruct (Sv t None [] eq_refl) as (c' & rest' & X & _). discriminate.
  - intros [= <- <-]. assert (Bf : b = false) by (destruct b; [specialize (Eo Eb); lia|reflexivity]). rewrite Bf. split; [discriminate|]. intros X. exfalso.
    assert (Hu : unread (files s3 p) <> []).
    { pose proof (live_ok s3 p I3 L3) as Ok. pose proof (f_in _ Ok M3). pose proof (f_cnt _ Ok). pose proof (f_len _ Ok). intros U. apply (f_equal (@length Z)) in U. unfold unread in U. rewrite skipn_length, firstn_length in U. cbn in U. lia. }
    rewrite E, R in X. apply (f_equal (@length Z)) in X. rewrite !app_length in X. destruct (unread (files s3 p)); [congruence|]. cbn in X. lia.
Qed.
Print Assumptions C40_eof.
Theorem C40_getc_end : forall K pin pout perr h0 nm p s1 h s2 e s3, kernOk K ->
  opening K pin pout perr h0 nm [114] p s1 -> hist K s1 h s2 -> noClose p h -> noSeek p h -> fgetc K p s2 = Exit e s3 ->
  e = EUEOF /\ exists d t0 t, tr s1 = t0 ++ [EOpen d RDONLY] /\ tr s3 = tr s1 ++ t /\ forall bs, serves bs d t -> bs = returned p h.
Proof.
  intros K pin pout perr h0 nm p s1 h s2 e s3 HK Op H Nc Ns F.
  pose proof (reading K pin pout perr h0 nm p s1 h s2 HK Op H Nc Ns) as (d & t0 & t & T1 & T & I2 & L2 & M2 & Ty & D & R & Eo).
  assert (G : goodFp s2 p = true) by (apply good_live; assumption).
  unfold fgetc in F. rewrite G, M2 in F. cbn [negb] in F. change (RDONLY =? RDONLY) with true in F. cbn [negb] in F.
  destruct (needF K (tr s2) (files s2 p)) as [f tn] eqn:Nd. destruct (eof f) eqn:Ef; [|destruct (_ && _); discriminate]. injection F as <- <-. split; [reflexivity|].
  assert (Sp : step K (Feof p) s2 = Go (RBool true) (put s2 p f tn)).
  { cbn [step]. unfold ret_, feof. rewrite G, M2. change (RDONLY =? RDONLY) with true. cbn [negb]. rewrite Nd, Ef. reflexivity. }
  destruct (C40_eof K pin pout perr h0 nm p s1 h true (put s2 p f tn) HK Op) as (d' & t0' & t' & A & B & C); auto.
  { apply (hist_app K _ _ _ _ _ H). econstructor; [exact Sp|constructor]. }
  exists d', t0', t'. split; [exact A|]. split; [exact B|]. intros bs S. apply (C bs S). reflexivity.
Qed.
Print Assumptions C40_getc_end.
Definition demoIn : list op := [Fopen [120] [114]; Feof 4; Fgetc 4; Fgets 10 4; Fgets 3 4; Fopen [121] [119]; Fputc 65 5; Feof 4; Fgets 80 4; Feof 4; Fgets 80 4].
Example C40_file_ex : let K := toyK [97; 98; 99; 10; 100; 101; 102] 2 1000 [] in let r := runH K demoIn s0 in
  resultsOf r = [RPtr 4; RBool false; RChar 97; RLine [98; 99; 10; 0] true; RLine [100; 101; 0] true; RPtr 5; RBool false; RBool false; RLine [102; 0] true; RBool true; RLine [0] false].
Proof. vm_compute. reflexivity. Qed.

(* after a move of the position nothing of the old buffer is returned: the bytes returned are
   those read after the move *)
Theorem C40_seek : forall K pin pout perr h0 nm p s1 ha a b r s2 h s3, kernOk K ->
  opening K pin pout perr h0 nm [114] p s1 -> hist K s1 ha s2 -> noClose p ha -> 
  hist K s2 ((Fseek p a b, r) :: h) s3 -> noClose p h -> noSeek p h ->
  exists d t rest, tr s3 = tr s2 ++ ESeek d a b :: t /\ (exists m, In (EOpen d m) (tr s1)) /\ readBytes d t = returned p h ++ rest.
Proof.
  intros K pin pout perr h0 nm p s1 ha a b r s2 h s3 HK Op Ha Nca H Nc Ns. destruct (opening_facts _ _ _ _ _ _ _ _ _ HK Op) as (I1 & d & t0 & T1 & Fr). change (modeOf [114]) with RDONLY in *.
  destruct (fresh_facts _ _ _ _ Fr) as (L & M & Ty & D & Er & _ & U & Eo).
  destruct (hist_all K HK _ _ _ Ha I1) as (t & T & A). destruct (A p L Nca) as [L2 E]. pose proof (hist_Inv K HK _ _ _ Ha I1) as I2. pose proof (e_same _ _ _ _ _ _ _ E) as (S1 & S2 & _ & _ & S5 & _).
  assert (H' : hist K s2 ([(Fseek p a b, r)] ++ h) s3) by exact H. apply hist_split in H'. destruct H' as (s4 & H4 & H5). apply hist_one in H4.
  pose proof (step_all K HK _ _ _ _ I2 H4) as (I4 & t4 & _ & B4). destruct (B4 p L2 ltac:(discriminate)) as [L4 E4]. pose proof (e_same _ _ _ _ _ _ _ E4) as (S41 & S42 & _ & _ & S45 & _).
  destruct (hist_all K HK _ _ _ H5 I4) as (t5 & T5 & A5). destruct (A5 p L4 Nc) as [L5 E5].
  assert (Mx : mode (files s4 p) = RDONLY) by congruence. assert (Tx : tty (files s4 p) = false) by congruence.
  pose proof (e_in _ _ _ _ _ _ _ E5 Mx ltac:(congruence) (noSeek_written p h Ns)) as X. unfold iacct in X. rewrite rd_file in X by exact Tx. replace (fd (files s4 p)) with d in X by congruence.
  cbn [step] in H4. unfold ret_ in H4. destruct (fseek K p a b s2) as [b' s'|e s'|] eqn:F; try discriminate. injection H4 as _ ->.
  unfold fseek in F. replace (goodFp s2 p) with true in F by (symmetry; apply good_live; assumption). replace (mode (files s2 p)) with RDONLY in F by congruence. change (RDONLY =? RDONLY) with true in F. cbn [negb] in F.
  destruct (negb _); [discriminate|]. cbn [app] in F. replace (fd (files s2 p)) with d in F by congruence.
  destruct (fillF K (tr s2 ++ [ESeek d a b]) (files s2 p)) as [f2 t3] eqn:Fi. injection F as _ <-. cbn [files put] in X. rewrite Z.eqb_refl in X. cbn [tr put] in T5.
  exists d, (t3 ++ t5), (unread (files s3 p)). split; [rewrite T5, <- app_assoc; reflexivity|]. split; [exists RDONLY; rewrite T1; apply in_or_app; right; left; reflexivity|].
  unfold readBytes in *. rewrite flat_map_app. fold (readBytes d t3). fold (readBytes d t3) in X. rewrite <- X. f_equal.
  clear -Fi S5 Ty D S1. unfold fillF in Fi. replace (tty (files s2 p)) with false in Fi by congruence. replace (fd (files s2 p)) with d in Fi by congruence.
  destruct (kRead K _ d _) as [bs|]; injection Fi as <- <-; unfold readBytes, unread; cbn [flat_map fromFile cnt len buf].
  - rewrite Z.eqb_refl, app_nil_r, Nat2Z.id, firstn_app, Nat.sub_diag, firstn_all. cbn. now rewrite app_nil_r.
  - reflexivity.
Qed.
Print Assumptions C40_seek.
Example C40_seek_ex : let r := runH (toyK [97; 98; 99; 10; 100; 101; 102] 3 1000 []) [Fopen [120] [114]; Fgetc 4; Fseek 4 0 3; Fgetc 4] s0 in
  resultsOf r = [RPtr 4; RChar 97; RBool false; RChar 10].
Proof. vm_compute. reflexivity. Qed.

(* fgets: the characters stored are those returned (C40_file), with a zero after them; they fit;
   a newline can only be the last; the line is short only after a newline or at the end of the
   file; null is returned when nothing was read *)
Theorem C40_fgets : forall K pin pout perr sa h s1 n p l b s2, kernOk K -> startsAt pin pout perr sa -> hist K sa h s1 ->
  1 <= n <= 32767 -> step K (Fgets n p) s1 = Go (RLine l b) s2 ->
  exists g, l = g ++ [0] /\ Z.of_nat (length l) <= n /\ (b = true <-> g <> []) /\
    (forall i, nth_error g i = Some 10 -> S i = length g) /\
    (Z.of_nat (length g) < n - 1 -> (exists g', g = g' ++ [10]) \/ eof (files s2 p) = true).
Proof.
  intros K pin pout perr sa h s1 n p l b s2 HK St H Hn S. pose proof (hist_Inv K HK _ _ _ H (start_Inv _ _ _ _ St)) as I.
  cbn [step] in S. unfold ret_, fgets in S. destruct (getsLoop K (Z.to_nat (i16 (n - 1))) p [] s1) as [g s'|e s'|] eqn:F; try discriminate. injection S as <- <- <-.
  assert (E : i16 (n - 1) = n - 1) by (unfold i16; rewrite Z.mod_small; lia). rewrite E in F.
  destruct (gets_spec K HK p _ s1 [] g s' I F) as (g' & -> & A & B & C). cbn [app] in *. exists g'. split; [reflexivity|]. split; [rewrite app_length; cbn; lia|].
  split; [|split; [exact B|intros X; apply C; lia]]. destruct g'; cbn [length]; [split; [discriminate|congruence]|]. rewrite Nat2Z.inj_succ. split; [discriminate|]. intros _. apply negb_true_iff, Z.eqb_neq. lia.
Qed.
Print Assumptions C40_fgets.
Example C40_fgets_ex : let r := runH (toyK [97; 98; 10; 10; 100] 3 0 []) [Fopen [120] [114]; Fgets 3 4; Fgets 5 4; Fgets 2 4; Fgets 9 4] s0 in
  resultsOf r = [RPtr 4; RLine [97; 98; 0] true; RLine [10; 0] true; RLine [10; 0] true; RLine [100; 0] true].
Proof. vm_compute. reflexivity. Qed.
(* with n = 1 null is returned although the file is not at its end, and with n = 0 a byte is
   stored in an array of size 0 *)
Theorem C40_fgets_refuted : exists K s1 h, kernOk K /\ hist K s0 h s1 /\
  (exists s2 s3, step K (Fgets 1 4) s1 = Go (RLine [0] false) s2 /\ step K (Feof 4) s2 = Go (RBool false) s3) /\
  (exists l b s2, step K (Fgets 0 4) s1 = Go (RLine l b) s2 /\ 0 < Z.of_nat (length l)).
Proof.
  set (K := toyK [97; 98; 10] 3 0 []). destruct (runH K [Fopen [120] [114]; Feof 4] s0) as [[h s1]|] eqn:R; [|vm_compute in R; discriminate].
  exists K, s1, h. split; [apply toyK_ok|]. split; [apply (runH_ok _ _ _ _ _ R)|].
  assert (X : match runH K [Fopen [120] [114]; Feof 4] s0 with Some (_, s1) =>
    match step K (Fgets 1 4) s1 with Go r s2 => r = RLine [0] false /\ match step K (Feof 4) s2 with Go r _ => r = RBool false | _ => False end | _ => False end /\
    match step K (Fgets 0 4) s1 with Go (RLine l b) s2 => 0 < Z.of_nat (length l) | _ => False end | None => True end) by (vm_compute; auto).
  rewrite R in X. destruct X as [X Y]. split.
  - destruct (step K (Fgets 1 4) s1) as [r s2| |]; try contradiction. destruct X as [-> X]. exists s2. destruct (step K (Feof 4) s2) as [r s3| |] eqn:E; try contradiction. subst r. exists s3. auto.
  - destruct (step K (Fgets 0 4) s1) as [[| | |l b|] s2| |]; try contradiction. exists l, b, s2. auto.
Qed.
Print Assumptions C40_fgets_refuted.

(* the keyboard, which never gives nothing *)
Theorem C40_stdin : forall K pin pout perr sa h s2, kernOk K -> keysOk K -> startsAt pin pout perr sa -> hist K sa h s2 -> noClose pin h -> noSeek pin h ->
  exists rest, typed (tr s2) = returned pin h ++ rest.
Proof.
  intros K pin pout perr sa h s2 HK Kk St H Nc Ns. pose proof (start_Inv _ _ _ _ St) as I. destruct (hist_all K HK _ _ _ H I) as (t & T & A).
  destruct St as (Z1 & _ & _ & _ & _ & _ & any & b0 & b1 & L0 & _ & ->). set (sa := init pin pout perr any b0 b1) in *.
  assert (F0 : files sa pin = stdinF b0) by (cbn; now rewrite Z.eqb_refl). destruct (A pin) as [L2 E]; [split; [assumption|cbn; auto]|exact Nc|].
  change (tr s2 = t) in T. rewrite T. exists (unread (files s2 pin)). rewrite F0 in E. pose proof (e_in _ _ _ _ _ _ _ E eq_refl ltac:(auto) (noSeek_written pin h Ns)) as X. exact X.
Qed.
Print Assumptions C40_stdin.
Example C40_stdin_ex : let r := runH (toyK [] 1 0 [104; 105; 10]) [Fgets 10 1; Fgetc 1; Feof 1] s0 in
  resultsOf r = [RLine [104; 105; 10; 0] true; RChar 104; RBool false].
Proof. vm_compute. reflexivity. Qed.
(* if it gives nothing, a character that was never typed is returned *)
Theorem C40_stdin_refuted : exists K h s2, kernOk K /\ hist K s0 h s2 /\ returned 1 h = [0] /\ typed (tr s2) = [].
Proof.
  set (K := toyK [] 1 0 []). destruct (runH K [Feof 1; Fgetc 1] s0) as [[h s2]|] eqn:R; [|vm_compute in R; discriminate].
  exists K, h, s2. split; [apply toyK_ok|]. split; [apply (runH_ok _ _ _ _ _ R)|].
  assert (X : match runH K [Feof 1; Fgetc 1] s0 with Some (h, s2) => returned 1 h = [0] /\ typed (tr s2) = [] | None => True end) by (vm_compute; auto). rewrite R in X. exact X.
Qed.
Print Assumptions C40_stdin_refuted.

(* ---- C56: which pointers are streams ---- *)
Definition fpOf (o : op) : option Z :=
  match o with
  | Fclose p | Fflush p | Fputc _ p | Feof p | Fgetc p | Fseek p _ _ | Ferror p => Some p
  | Fputs w p => match w with [] => None | _ => Some p end
  | Fgets n p => if i16 (n - 1) <=? 0 then None else Some p
  | _ => None
  end.
Definition openStreams (pin pout perr : Z) (h : list (op * res)) : list Z := fold_left opened h [pin; pout; perr].

(* A call on a pointer that fopen did not return, or that was closed since, ends the program with
   the code for a bad pointer, and no stream and no file is touched. *)
Theorem C56_bad_pointer : forall K pin pout perr sa h s o p, kernOk K -> startsAt pin pout perr sa -> hist K sa h s ->
  fpOf o = Some p -> ~ In p (openStreams pin pout perr h) -> step K o s = Exit EUBADF s.
Proof.
  intros K pin pout perr sa h s o p HK St H Fp N. pose proof (start_Inv _ _ _ _ St) as I0. pose proof (hist_Inv K HK _ _ _ H I0) as I.
  assert (Nl : goodFp s p = false).
  { destruct (goodFp s p) eqn:G; [|reflexivity]. exfalso. apply (good_live s p I) in G. apply N. apply (hist_live K HK _ _ _ H I0 [pin; pout; perr]); [|exact G].
    destruct St as (Z1 & Z2 & Z3 & _ & _ & _ & any & b0 & b1 & _ & _ & ->). intros q. unfold live. cbn [slots init In]. split; [intros [Q X]; intuition congruence|]. intros [<-|[<-|[<-|[]]]]; split; auto. }
  destruct o as [nm md|q|q|c q|w q|q|q|n q|q a b|q|c]; cbn [fpOf] in Fp; try discriminate; cbn [step]; unfold ret_.
  - injection Fp as ->. unfold fclose. now rewrite Nl.
  - injection Fp as ->. unfold fflush. now rewrite Nl.
  - injection Fp as ->. unfold fputc. now rewrite Nl.
  - destruct w; [discriminate|]. injection Fp as ->. cbn [fputs]. unfold fputc. now rewrite Nl.
  - injection Fp as ->. unfold feof. now rewrite Nl.
  - injection Fp as ->. unfold fgetc. now rewrite Nl.
  - destruct (Z.leb_spec (i16 (n - 1)) 0); [discriminate|]. injection Fp as ->. unfold fgets. destruct (Z.to_nat (i16 (n - 1))) eqn:E; [lia|]. cbn [getsLoop]. unfold feof. now rewrite Nl.
  - injection Fp as ->. unfold fseek. now rewrite Nl.
  - injection Fp as ->. unfold ferror. now rewrite Nl.
Qed.
Print Assumptions C56_bad_pointer.
(* fopen gives a pointer that is not open *)
Theorem C56_new : forall K pin pout perr sa h s nm md p s', kernOk K -> startsAt pin pout perr sa -> hist K sa h s ->
  step K (Fopen nm md) s = Go (RPtr p) s' -> ~ In p (openStreams pin pout perr h) \/ p = 0.
Proof.
  intros K pin pout perr sa h s nm md p s' HK St H S. pose proof (start_Inv _ _ _ _ St) as I0. pose proof (hist_Inv K HK _ _ _ H I0) as I. destruct (Z.eq_dec p 0) as [|N]; [auto|]. left. intros X.
  cbn [step] in S. unfold ret_ in S. destruct (fopen K nm md s) as [p' s1|e s1|] eqn:F; try discriminate. injection S as -> ->.
  destruct (fopen_step K HK s nm md p s' I F) as (_ & t & _ & _ & _ & [[-> _]|(t0 & d & _ & _ & _ & Np)]); [congruence|]. apply Np.
  apply (hist_live K HK _ _ _ H I0 [pin; pout; perr]) in X; [apply X|].
  destruct St as (Z1 & Z2 & Z3 & _ & _ & _ & any & b0 & b1 & _ & _ & ->). intros q. unfold live. cbn [slots init In]. split; [intros [Q Y]; intuition congruence|]. intros [<-|[<-|[<-|[]]]]; split; auto.
Qed.
Print Assumptions C56_new.
(* no call ever reads or writes outside a buffer *)
Theorem C56_inside : forall K pin pout perr sa h s o, kernOk K -> startsAt pin pout perr sa -> hist K sa h s -> step K o s <> Undef.
Proof. intros K pin pout perr sa h s o HK St H. apply (step_def K HK). exact (hist_Inv K HK _ _ _ H (start_Inv _ _ _ _ St)). Qed.
Print Assumptions C56_inside.
(* a call on one stream leaves every other stream open; its bytes are accounted for in C39 and C40,
   whose histories contain calls on other streams *)
Theorem C56_others : forall K pin pout perr sa h s o p q r s', kernOk K -> startsAt pin pout perr sa -> hist K sa h s ->
  fpOf o = Some p -> q <> p -> In q (openStreams pin pout perr h) -> step K o s = Go r s' ->
  In q (openStreams pin pout perr (h ++ [(o, r)])).
Proof.
  intros K pin pout perr sa h s o p q r s' HK St H Fp N Q S. unfold openStreams. rewrite fold_left_app. cbn [fold_left].
  destruct o as [nm md|p'|p'|c p'|w p'|p'|p'|n p'|p' a b|p'|c]; cbn [fpOf opened] in *; try exact Q; try discriminate. injection Fp as ->.
  destruct r as [[]| | | |]; try exact Q. apply in_in_remove; assumption.
Qed.
Print Assumptions C56_others.
(* reading from a stream opened for writing, or the reverse, ends the program *)
Theorem C56_direction : forall K pin pout perr h0 nm md p s1 h s2, kernOk K ->
  opening K pin pout perr h0 nm md p s1 -> hist K s1 h s2 -> noClose p h ->
  (md = [114] -> forall c, step K (Fputc c p) s2 = Exit EUMODE s2 /\ step K (Fflush p) s2 = Exit EUMODE s2) /\
  (outMode md -> step K (Fgetc p) s2 = Exit EUMODE s2 /\ step K (Feof p) s2 = Exit EUMODE s2).
Proof.
  intros K pin pout perr h0 nm md p s1 h s2 HK Op H Nc. destruct (opening_facts _ _ _ _ _ _ _ _ _ HK Op) as (I1 & d & t0 & T1 & Fr).
  destruct (fresh_facts _ _ _ _ Fr) as (L & M & _). destruct (hist_all K HK _ _ _ H I1) as (t & T & A). destruct (A p L Nc) as [L2 E]. pose proof (hist_Inv K HK _ _ _ H I1) as I2.
  assert (G : goodFp s2 p = true) by (apply good_live; assumption). pose proof (e_same _ _ _ _ _ _ _ E) as (_ & S2 & _). rewrite M in S2. split.
  - intros -> c. change (modeOf [114]) with RDONLY in S2. cbn [step]. unfold ret_, fputc, fflush. rewrite G, S2. split; reflexivity.
  - intros Md. pose proof (outMode_neq md Md) as N. rewrite <- S2 in N. apply Z.eqb_neq in N. cbn [step]. unfold ret_, fgetc, feof. rewrite G, N. split; reflexivity.
Qed.
Print Assumptions C56_direction.
Example C56_ex : let K := toyK [97] 1 1000 [] in
  let r := runH K [Fopen [120] [119]; Fopen [121] [114]; Fclose 4; Fopen [122] [119]; Fclose 5] s0 in
  resultsOf r = [RPtr 4; RPtr 5; RBool false; RPtr 6; RBool false] /\
  match r with Some (h, s) => openStreams 1 2 3 h = [6; 1; 2; 3] /\ match step K (Fputc 65 4) s with Exit c _ => c = EUBADF | _ => False end | None => False end.
Proof. vm_compute. auto. Qed.

(* A stream whose last bytes could not be delivered can never be closed: fclose fails for ever and
   keeps its place, so that after five such streams no file can be opened. *)
Theorem C56_close_refuted : exists K h s, kernOk K /\ hist K s0 h s /\
  (forall p, 4 <= p <= 8 -> In (Fclose p, RBool true) h) /\
  (forall p, 4 <= p <= 8 -> In p (openStreams 1 2 3 h)) /\
  match step K (Fopen [120] [114]) s with Exit c _ => c = EUNFILE | _ => False end.
Proof.
  set (K := toyK [] 1 0 []). set (ops := flat_map (fun p => [Fopen [120] [119]; Fputc 65 p; Fclose p; Fclose p]) [4; 5; 6; 7; 8]).
  destruct (runH K ops s0) as [[h s]|] eqn:R; [|vm_compute in R; discriminate]. exists K, h, s. split; [apply toyK_ok|]. split; [apply (runH_ok _ _ _ _ _ R)|].
  assert (X : match runH K ops s0 with Some (h, s) => h = flat_map (fun p => [(Fopen [120] [119], RPtr p); (Fputc 65 p, RBool false); (Fclose p, RBool true); (Fclose p, RBool true)]) [4; 5; 6; 7; 8] /\
    match step K (Fopen [120] [114]) s with Exit c _ => c = EUNFILE | _ => False end | None => True end) by (vm_compute; auto). rewrite R in X. destruct X as [-> X].
  assert (P : forall p, 4 <= p <= 8 -> p = 4 \/ p = 5 \/ p = 6 \/ p = 7 \/ p = 8) by lia.
  split; [|split; [|exact X]]; intros p Hp; destruct (P p Hp) as [->|[->|[->|[->| ->]]]]; cbn; auto 30.
Qed.
Print Assumptions C56_close_refuted.
