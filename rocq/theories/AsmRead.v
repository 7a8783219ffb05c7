(* Reading lines, numbers and symbols of an assembly text (AsmSpec.v). *)
From Coq Require Import ZArith Bool Lia String Ascii List.
From Verif Require Import Lexer SyTree CSpec CCode CTree CLexProofs AsmSpec.
Import ListNotations.
Open Scope Z_scope.

(* ==== cutting ==== *)
Lemma cut_app c a r : ~ In c a -> cut c (a ++ c :: r) = a :: cut c r.
Proof.
  induction a as [|x a IH]; intros N; cbn [app cut]; [rewrite Z.eqb_refl; reflexivity|].
  destruct (Z.eqb_spec x c) as [->|D]; [destruct N; left; reflexivity|].
  rewrite IH by (intros H; apply N; right; exact H). reflexivity.
Qed.
Lemma cut_none c a : ~ In c a -> cut c a = [a].
Proof.
  induction a as [|x a IH]; intros N; cbn [cut]; [reflexivity|].
  destruct (Z.eqb_spec x c) as [->|D]; [destruct N; left; reflexivity|].
  rewrite IH by (intros H; apply N; right; exact H). reflexivity.
Qed.
Lemma cut_cons c s : exists w ws, cut c s = w :: ws.
Proof. destruct s as [|x s]; cbn [cut]; [eauto|]. destruct (x =? c); [eauto|]. destruct (cut c s); eauto. Qed.
Lemma upto_app c a r : ~ In c a -> upto c (a ++ c :: r) = (a, Some r).
Proof.
  induction a as [|x a IH]; intros N; cbn [app upto]; [rewrite Z.eqb_refl; reflexivity|].
  destruct (Z.eqb_spec x c) as [->|D]; [destruct N; left; reflexivity|].
  rewrite IH by (intros H; apply N; right; exact H). reflexivity.
Qed.
Lemma upto_none c a : ~ In c a -> upto c a = (a, None).
Proof.
  induction a as [|x a IH]; intros N; cbn [upto]; [reflexivity|].
  destruct (Z.eqb_spec x c) as [->|D]; [destruct N; left; reflexivity|].
  rewrite IH by (intros H; apply N; right; exact H). reflexivity.
Qed.
Lemma read_nil : readAsm [] = Some []. Proof. reflexivity. Qed.
Lemma read_line b r : ~ In 10 b -> readAsm (b ++ 10 :: r) = option_map (app (readLine b)) (readAsm r).
Proof.
  intros N. unfold readAsm. rewrite (cut_app 10 b r N). destruct (cut_cons 10 r) as (w & ws & ->). reflexivity.
Qed.

(* ==== words: no newline, tab, comma ==== *)
Definition wordCh (c : Z) : bool := negb ((c =? 9) || (c =? 10) || (c =? 44)).
Definition wordy (w : list Z) : Prop := forallb wordCh w = true.
Lemma wordy_app a b : wordy a -> wordy b -> wordy (a ++ b).
Proof. unfold wordy. intros. rewrite forallb_app. apply andb_true_intro. split; assumption. Qed.
Lemma wordy_no w c : wordy w -> c = 9 \/ c = 10 \/ c = 44 -> ~ In c w.
Proof.
  intros W C H. unfold wordy in W. rewrite forallb_forall in W. specialize (W c H). unfold wordCh in W.
  apply negb_true_iff in W. rewrite !orb_false_iff, !Z.eqb_neq in W. lia.
Qed.
Lemma digit_word c : digit c = true -> wordCh c = true.
Proof. unfold digit, wordCh. intros H. apply andb_true_iff in H. apply negb_true_iff. rewrite !orb_false_iff, !Z.eqb_neq. lia. Qed.
Lemma digits_word w : forallb digit w = true -> wordy w.
Proof. unfold wordy. rewrite !forallb_forall. intros H x X. apply digit_word. exact (H x X). Qed.
Lemma digit_is c : digit c = isDigit c. Proof. reflexivity. Qed.

(* ==== numbers ==== *)
Lemma fold_numVal w : forall a v, forallb digit w = true -> numVal 10 a w = Some v -> fold_left (fun a c => a * 10 + (c - 48)) w a = v.
Proof.
  induction w as [|c w IH]; intros a v D H; cbn [numVal fold_left forallb] in *; [injection H as ->; reflexivity|].
  apply andb_true_iff in D. destruct D as [D1 D2]. unfold digVal in H. rewrite D1 in H.
  destruct (c - 48 <? 10); [|discriminate]. exact (IH _ _ D2 H).
Qed.
Lemma digits_dec v : 0 <= v -> v <= 2 ^ 31 -> exists d w, dec v = d :: w /\ forallb isDigit (d :: w) = true /\ digits (d :: w) = Some v.
Proof.
  intros P S. unfold dec. replace (v <? 0) with false by (symmetry; apply Z.ltb_ge; lia).
  assert (B : 2 ^ 31 < 10 ^ Z.of_nat 20) by reflexivity.
  destruct (decF_spec 20 v [] ltac:(lia) ltac:(lia)) as (d & w & E & D & W & _ & _ & V).
  exists d, w. rewrite E, app_nil_r. specialize (V 0). rewrite Z.mul_0_l, Z.add_0_l in V.
  assert (F : forallb digit (d :: w) = true) by (cbn [forallb]; rewrite D, W; reflexivity).
  split; [reflexivity|]. split; [exact F|]. unfold digits. change (forallb isDigit (d :: w)) with (forallb digit (d :: w)). rewrite F.
  rewrite (fold_numVal _ _ _ F V). reflexivity.
Qed.
Lemma dec_read v : small v -> decimal (dec v) = Some v /\ wordy (dec v) /\ exists c r, dec v = c :: r /\ (c = 45 \/ isDigit c = true).
Proof.
  intros S. destruct (Z_lt_dec v 0) as [L|L].
  - destruct (digits_dec (- v)) as (d & w & E & F & G); [lia|unfold small in *; lia|].
    assert (X : dec v = 45 :: d :: w).
    { rewrite <- E. unfold dec. replace (v <? 0) with true by (symmetry; apply Z.ltb_lt; lia).
      replace (- v <? 0) with false by (symmetry; apply Z.ltb_ge; lia). reflexivity. }
    rewrite X. split; [unfold decimal; rewrite G; cbn [option_map]; f_equal; lia|].
    split; [unfold wordy; cbn [forallb]; change (wordCh 45) with true; apply (digits_word (d :: w)); exact F|].
    exists 45, (d :: w). split; [reflexivity|left; reflexivity].
  - destruct (digits_dec v) as (d & w & E & F & G); [lia|unfold small in S; lia|]. rewrite E.
    assert (D : isDigit d = true) by (cbn [forallb] in F; apply andb_true_iff in F; tauto).
    split; [|split; [apply digits_word; exact F|exists d, w; split; [reflexivity|right; exact D]]].
    assert (Y : decimal (d :: w) = digits (d :: w)); [|rewrite Y; exact G].
    unfold isDigit in D. apply andb_true_iff in D. unfold decimal.
    destruct (Z.eq_dec d 45) as [->|N]; [lia|]. destruct d as [|p|p]; try reflexivity.
    repeat (destruct p as [p|p|]; try reflexivity; try lia).
Qed.
Lemma atom_dec v : small v -> readAtom (dec v) = Num v.
Proof. intros S. unfold readAtom. destruct (dec_read v S) as (-> & _). reflexivity. Qed.
Lemma arg_dec v : small v -> readArg (dec v) = Plain (Num v).
Proof.
  intros S. destruct (dec_read v S) as (_ & _ & c & r & E & C). pose proof (atom_dec v S) as A. rewrite E in *.
  assert (N : c <> 35 /\ c <> 64) by (unfold isDigit in C; rewrite andb_true_iff in C; lia).
  unfold readArg. destruct c as [|p|p]; try (rewrite A; reflexivity).
  do 7 (destruct p as [p|p|]; try (rewrite A; reflexivity); try lia).
Qed.
Lemma arg_hash v : small v -> readArg (codes "#" ++ dec v) = Hash (Num v).
Proof. intros S. change (readArg (codes "#" ++ dec v)) with (Hash (readAtom (dec v))). rewrite atom_dec by exact S. reflexivity. Qed.

(* ==== symbols ==== *)
(* first character of a symbol or register: a letter, _ or . *)
Definition letterish (c : Z) : bool := (c =? 46) || (c =? 95) || ((65 <=? c) && (c <=? 90)).
Lemma letterish_cases c : letterish c = true -> isDigit c = false /\ c <> 45 /\ c <> 35 /\ c <> 64 /\ c <> 34 /\ c <> 59 /\ c <> 9.
Proof. unfold letterish, isDigit. rewrite !orb_true_iff, andb_true_iff, andb_false_iff, !Z.eqb_eq. lia. Qed.
Lemma atom_sym c r : letterish c = true -> readAtom (c :: r) = Sym (c :: r).
Proof.
  intros L. destruct (letterish_cases c L) as (D & N & _). unfold readAtom.
  assert (X : decimal (c :: r) = digits (c :: r)).
  { unfold decimal. destruct c as [|p|p]; try reflexivity. repeat (destruct p as [p|p|]; try reflexivity; try lia). }
  rewrite X. unfold digits. cbn [forallb]. rewrite D. reflexivity.
Qed.
Lemma arg_sym c r : letterish c = true -> readArg (c :: r) = Plain (Sym (c :: r)).
Proof.
  intros L. pose proof (atom_sym c r L) as A. destruct (letterish_cases c L) as (_ & _ & N1 & N2 & _).
  unfold readArg. destruct c as [|p|p]; try (rewrite A; reflexivity).
  repeat (destruct p as [p|p|]; try (rewrite A; reflexivity); try lia).
Qed.
