(* Consequences for programs: from the start of the program, in terms of calls and events *)
From Coq Require Import ZArith Bool List Lia.
From Verif Require Import LibMem LibStdio StdioSpec StdioProofs StdioTable StdioHist.
Import ListNotations.
Open Scope Z_scope.

(* the program starts: three streams at different addresses, the rest of memory arbitrary *)
Definition startsAt (pin pout perr : Z) (s : st) : Prop :=
  pin <> 0 /\ pout <> 0 /\ perr <> 0 /\ pin <> pout /\ pin <> perr /\ pout <> perr /\
  exists any b0 b1, length b0 = 80%nat /\ length b1 = 80%nat /\ s = init pin pout perr any b0 b1.

Lemma start_Inv pin pout perr s : startsAt pin pout perr s -> Inv s.
Proof.
  intros (N1 & N2 & N3 & D1 & D2 & D3 & any & b0 & b1 & L0 & L1 & ->).
  assert (F0 : files (init pin pout perr any b0 b1) pin = stdinF b0) by (cbn; now rewrite Z.eqb_refl).
  assert (F1 : files (init pin pout perr any b0 b1) pout = stdoutF b1) by (cbn; destruct (Z.eqb_spec pout pin); [congruence|]; now rewrite Z.eqb_refl).
  assert (F2 : files (init pin pout perr any b0 b1) perr = stderrF) by (cbn; destruct (Z.eqb_spec perr pin); [congruence|]; destruct (Z.eqb_spec perr pout); [congruence|]; now rewrite Z.eqb_refl).
  set (s := init pin pout perr any b0 b1) in *.
  assert (X : forall i p, (i < 8)%nat -> nth i (slots s) 0 = p -> (i = 0%nat /\ p = pin) \/ (i = 1%nat /\ p = pout) \/ (i = 2%nat /\ p = perr) \/ ((3 <= i)%nat /\ p = 0)).
  { intros i p Hi Hp. cbn in Hp. do 8 (destruct i as [|i]; [subst; first [solve [auto 7]|do 3 right; split; [lia|reflexivity]]|]). lia. }
  split.
  - reflexivity.
  - intros i p Hi Hp N. destruct (X i p Hi Hp) as [[-> ->]|[[-> ->]|[[-> ->]|[? ->]]]]; [rewrite F0|rewrite F1|rewrite F2|congruence].
    + split; [reflexivity|]. split; cbn; intros; try discriminate; try lia.
    + split; [reflexivity|]. split; cbn; intros; try discriminate; try lia.
    + split; [reflexivity|]. split; cbn; intros; try discriminate; try lia.
  - intros i p Hi Hp. destruct (X i p ltac:(lia) Hp) as [[-> ->]|[[-> ->]|[[-> ->]|[? ->]]]]; [rewrite F0|rewrite F1|rewrite F2|lia]; cbn; repeat split; try assumption; try congruence; try discriminate; intros [=].
  - intros i p Hi Hp N. destruct (X i p ltac:(lia) Hp) as [[-> ->]|[[-> ->]|[[-> ->]|[? ->]]]]; try lia; congruence.
  - intros i j p q Hi Hj _ Hp _ N. destruct (X i p ltac:(lia) Hp) as [[-> ->]|[[-> ->]|[[-> ->]|[? ->]]]]; try lia; congruence.
Qed.

Section Top.
Variable K : kernel.
Hypothesis HK : kernOk K.

(* no call runs over a buffer *)
Lemma gets_def p k : forall s acc, Inv s -> getsLoop K k p acc s <> Undef.
Proof.
  assert (G : forall s, Inv s -> feof K p s <> Undef).
  { intros s _. unfold feof. destruct (negb _); [discriminate|]. destruct (negb _); [discriminate|]. destruct (needF _ _ _); discriminate. }
  assert (C : forall s, Inv s -> fgetc K p s <> Undef).
  { intros s I. unfold fgetc. destruct (goodFp s p) eqn:Gd; [|discriminate]. apply (good_live s p I) in Gd. cbn [negb]. destruct (Z.eqb_spec (mode (files s p)) RDONLY) as [M|]; [|discriminate]. cbn [negb].
    destruct (needF K (tr s) (files s p)) as [f t] eqn:F. destruct (need_eff K HK p _ _ _ _ (live_ok s p I Gd) M F) as (A & B & Ok & D).
    destruct (eof f) eqn:E; [discriminate|]. pose proof (f_cnt f Ok) as Cn. pose proof (f_len f Ok) as Ln.
    assert (Sz : 0 < size f /\ 0 <= len f <= size f) by (apply (f_in f Ok); destruct A as [(_ & -> & _) _ _ _ _]; exact M).
    destruct (Z.leb_spec 0 (cnt f)); [|lia]. destruct (Z.ltb_spec (cnt f) (Z.of_nat (length (buf f)))); [discriminate|]. exfalso.
    destruct D as [D _]; lia. }
  induction k as [|k IH]; intros s acc I; cbn [getsLoop]; [discriminate|].
  destruct (feof K p s) as [[] s1|e s1|] eqn:F; try discriminate; [|destruct (G s I F)]. destruct (feof_Mv K HK s p false s1 I F) as (_ & _ & V & _).
  destruct (fgetc K p s1) as [c s2|e s2|] eqn:H; try discriminate; [|destruct (C s1 (proj1 V) H)]. destruct (c =? 10); [discriminate|]. apply IH.
  destruct (fgetc_Mv K HK s1 p c s2 (proj1 V) H) as (_ & _ & V2). apply V2.
Qed.
Lemma fputc_def s c p : Inv s -> fputc K c p s <> Undef.
Proof.
  intros I. unfold fputc. destruct (goodFp s p) eqn:Gd; [|discriminate]. apply (good_live s p I) in Gd. cbn [negb]. destruct (Z.eqb_spec (mode (files s p)) RDONLY) as [|M]; [discriminate|].
  destruct (putc_some K p c (files s p) (tr s) (live_ok s p I Gd) M) as (f & t & ->). discriminate.
Qed.
Lemma fgetc_def s p : Inv s -> fgetc K p s <> Undef.
Proof.
  intros I H. pose proof (gets_def p 1 s [] I) as X. unfold fgetc in H.
  destruct (goodFp s p) eqn:Gd; [|discriminate]. apply (good_live s p I) in Gd. cbn [negb] in H. destruct (Z.eqb_spec (mode (files s p)) RDONLY) as [M|]; [|discriminate]. cbn [negb] in H.
  destruct (needF K (tr s) (files s p)) as [f t] eqn:F. destruct (need_eff K HK p _ _ _ _ (live_ok s p I Gd) M F) as (A & B & Ok & D).
  destruct (eof f) eqn:E; [discriminate|]. pose proof (f_cnt f Ok) as Cn. pose proof (f_len f Ok) as Ln.
  assert (Sz : 0 < size f /\ 0 <= len f <= size f) by (apply (f_in f Ok); destruct A as [(_ & -> & _) _ _ _ _]; exact M).
  destruct (Z.leb_spec 0 (cnt f)); [|lia]. destruct (Z.ltb_spec (cnt f) (Z.of_nat (length (buf f)))); [discriminate|]. destruct D as [D _]; lia.
Qed.
Lemma flushAll_def l : forall s, Inv s -> flushAll K l s <> Undef.
Proof.
  induction l as [|p l IH]; intros s I; cbn [flushAll]; [discriminate|]. destruct (_ && _); [|apply IH; exact I].
  destruct (fflush K p s) as [b s1|e s1|] eqn:F; try discriminate.
  - destruct (fflush_Mv K HK s p b s1 I F) as (_ & V & _). apply IH, V.
  - unfold fflush in F. destruct (negb _); [discriminate|]. destruct (_ =? _); [discriminate|]. destruct (flushF _ _ _ _); discriminate.
Qed.
Theorem step_def o s : Inv s -> step K o s <> Undef.
Proof.
  intros I. destruct o as [nm md|p|p|c p|w p|p|p|n p|p h l|p|c]; cbn [step]; unfold ret_.
  - unfold fopen, allocFile. cbv zeta. repeat match goal with |- context [if ?b then _ else _] => destruct b | |- context [match srchFrom ?k ?l with _ => _ end] => destruct (srchFrom k l) end; discriminate.
  - unfold fclose. destruct (negb (goodFp _ _)); [discriminate|]. destruct (_ <? 3); [discriminate|]. destruct (if negb _ then _ else _) as [f1 t1]. destruct (_ && _); [discriminate|]. destruct (_ <? 0); discriminate.
  - unfold fflush. destruct (negb _); [discriminate|]. destruct (_ =? _); [discriminate|]. destruct (flushF _ _ _ _); discriminate.
  - pose proof (fputc_def s c p I). destruct (fputc K c p s); [discriminate|discriminate|congruence].
  - revert s I. induction w as [|c w IH]; intros s I; cbn [fputs]; [discriminate|]. pose proof (fputc_def s c p I). destruct (fputc K c p s) as [[] s1|e s1|] eqn:F; try discriminate; [|congruence].
    apply IH. destruct (fputc_Mv K HK s c p false s1 I F) as (_ & V & _). apply V.
  - unfold feof. destruct (negb _); [discriminate|]. destruct (negb _); [discriminate|]. destruct (needF _ _ _); discriminate.
  - pose proof (fgetc_def s p I). destruct (fgetc K p s); [discriminate|discriminate|congruence].
  - unfold fgets. pose proof (gets_def p (Z.to_nat (i16 (n - 1))) s [] I). destruct (getsLoop _ _ _ _ _) as [l s1|e s1|]; [discriminate|discriminate|congruence].
  - unfold fseek. destruct (negb (goodFp _ _)); [discriminate|]. destruct (if negb _ then _ else _) as [f1 t1]. destruct (negb _); [discriminate|]. destruct (_ =? RDONLY); [destruct (fillF _ _ _)|]; discriminate.
  - unfold ferror. destruct (negb _); discriminate.
  - unfold exit_. pose proof (flushAll_def (slots s) s I). destruct (flushAll K (slots s) s); [discriminate|discriminate|congruence].
Qed.

(* ---- which pointers are streams ---- *)
Definition opened (l : list Z) (x : op * res) : list Z :=
  match x with
  | (Fopen _ _, RPtr p) => if p =? 0 then l else p :: l
  | (Fclose p, RBool false) => remove Z.eq_dec p l
  | _ => l
  end.
Lemma hist_live s h s' : hist K s h s' -> Inv s -> forall l, (forall q, live s q <-> In q l) -> forall q, live s' q <-> In q (fold_left opened h l).
Proof.
  induction 1 as [s|s o r s1 h s2 S H IH]; intros I l A; [exact A|]. cbn [fold_left]. apply IH; [apply (step_all K HK o s r s1 I S)|]. intros q.
  assert (Sl : slots s1 = slots s -> (live s1 q <-> In q l)) by (intros E; unfold live; rewrite E; apply A).
  destruct o as [nm md|p|p|c p|w p|p|p|n p|p hh ll|p|c]; cbn [step] in S; unfold ret_ in S.
  - destruct (fopen K nm md s) as [p s0|e s0|] eqn:F; try discriminate. injection S as <- <-. destruct (fopen_step K HK s nm md p s0 I F) as (I' & t & T & Q & L & [[-> E]|(t0 & d & _ & _ & Fr & Np)]).
    + cbn. apply Sl, E.
    + destruct Fr as [Lp _]. cbn. destruct (Z.eqb_spec p 0) as [->|N0]; [destruct Lp; congruence|]. cbn. rewrite <- A. split.
      * intros Lq. destruct (Z.eq_dec p q) as [|N]; [auto|]. right. destruct (live_nth _ q I' Lq) as [j [Hj Hq]].
        (* the other slots are as before *)
        assert (X : forall i, nth i (slots s0) 0 = nth i (slots s) 0 \/ nth i (slots s0) 0 = p).
        { clear -F I N0 HK. revert F. unfold fopen. cbv zeta.
          assert (Al : forall d m s1, slots s1 = slots s -> allocFile K d m 128 s1 = Go p s0 -> forall i, nth i (slots s0) 0 = nth i (slots s) 0 \/ nth i (slots s0) 0 = p).
          { intros d m s1 E. unfold allocFile. rewrite E. destruct (srchFrom 0 (slots s)) as [k|] eqn:Sr; [|discriminate]. intros [= <- <-] i. cbn [slots].
            destruct (srch_spec _ _ _ Sr) as (_ & H2 & _). rewrite Z.sub_0_r in H2. rewrite nth_setNth by exact H2. destruct (Nat.eqb i (Z.to_nat k)); auto. }
          repeat match goal with |- (if ?b then _ else _) = _ -> _ => destruct b end; intros F; try discriminate F; try (injection F as <- <-; congruence); revert F; eapply Al; reflexivity. }
        destruct (X j) as [E|E]; [|congruence]. apply (nth_live s j q I Hj); [congruence|apply Lq].
      * intros [<-|Lq]; [exact Lp|apply (L q Lq)].
  - destruct (fclose K p s) as [b s0|e s0|] eqn:F; try discriminate. injection S as <- <-. destruct (fclose_step K HK s p b s0 I F) as (Lp & I' & t & T & Q & _ & _ & B). cbn. destruct b.
    + apply Sl. apply B.
    + split.
      * intros Lq. destruct (Z.eq_dec q p) as [->|N]; [destruct B; contradiction|]. apply in_in_remove; [exact N|]. apply A.
        (* a closed slot is not reused by the close itself *)
        destruct (live_nth _ q I' Lq) as [j [Hj Hq]].
        assert (X : forall i, nth i (slots s0) 0 = nth i (slots s) 0 \/ nth i (slots s0) 0 = 0).
        { clear -F I Lp HK. revert F. unfold fclose. destruct (negb (goodFp _ _)); [discriminate|]. destruct (_ <? 3); [discriminate|].
          set (fl := if negb (mode (files s p) =? RDONLY) then flushF K (tr s) p (files s p) else (files s p, [])).
          assert (Sf : slot (fst fl) = slot (files s p)).
          { unfold fl. destruct (Z.eqb_spec (mode (files s p)) RDONLY) as [|M]; [reflexivity|]. cbn [negb]. destruct (flushF K (tr s) p (files s p)) as [f1 t1] eqn:Fl. destruct (flush_eff K HK p _ _ _ _ (live_ok s p I Lp) M Fl) as ([(_&_&_&_&_&E) _ _ _ _] & _). exact E. }
          clearbody fl. destruct fl as [f1 t1]. cbn [fst] in Sf. destruct (_ && _); [discriminate|]. destruct (_ <? 0); [discriminate|]. intros [= <-] i. cbn [slots].
          destruct (live_nth s p I Lp) as [k [Hk Hp]]. destruct (i_slot s I k p Hk Hp (proj1 Lp)) as [E _]. rewrite Sf, E, Nat2Z.id. rewrite nth_setNth by (rewrite (i_len s I); exact Hk). destruct (Nat.eqb i k); auto. }
        destruct (X j) as [E|E]; [|destruct Lq; congruence]. apply (nth_live s j q I Hj); [congruence|apply Lq].
      * intros Hq. apply in_remove in Hq. destruct Hq as [Hq N]. apply A in Hq. apply (Q q Hq N).
  - destruct (fflush K p s) as [b s0|e s0|] eqn:F; try discriminate. injection S as <- <-. apply Sl. destruct (fflush_Mv K HK s p b s0 I F) as (_ & (_ & E & _) & _). exact E.
  - destruct (fputc K c p s) as [b s0|e s0|] eqn:F; try discriminate. injection S as <- <-. apply Sl. destruct (fputc_Mv K HK s c p b s0 I F) as (_ & (_ & E & _) & _). exact E.
  - destruct (fputs K w p s) as [b s0|e s0|] eqn:F; try discriminate. injection S as <- <-. apply Sl. destruct (fputs_Mv K HK p w s b s0 I F) as ((_ & E & _) & _). exact E.
  - destruct (feof K p s) as [b s0|e s0|] eqn:F; try discriminate. injection S as <- <-. apply Sl. destruct (feof_Mv K HK s p b s0 I F) as (_ & _ & (_ & E & _) & _). exact E.
  - destruct (fgetc K p s) as [b s0|e s0|] eqn:F; try discriminate. injection S as <- <-. apply Sl. destruct (fgetc_Mv K HK s p b s0 I F) as (_ & _ & (_ & E & _)). exact E.
  - unfold fgets in S. destruct (getsLoop _ _ _ _ _) as [ll s0|e s0|] eqn:F; try discriminate. injection S as <- <-. apply Sl. destruct (gets_Mv K HK p _ s [] ll s0 I F) as [g [_ (_ & E & _)]]. exact E.
  - destruct (fseek K p hh ll s) as [b s0|e s0|] eqn:F; try discriminate. injection S as <- <-. apply Sl. destruct (fseek_Mv K HK s p hh ll b s0 I F) as (_ & (_ & E & _)). exact E.
  - destruct (ferror p s) as [b s0|e s0|] eqn:F; try discriminate. injection S as <- <-. destruct (ferror_Mv s p b s0 I F) as (_ & -> & _). apply Sl. reflexivity.
  - unfold exit_ in S. destruct (flushAll K (slots s) s); discriminate.
Qed.

(* ---- reading ---- *)
Lemma serves_prefix bs d : forall t, serves bs d t -> exists rest, bs = readBytes d t ++ rest.
Proof.
  intros t. induction t as [|e t IH] using rev_ind; intros S; [exists bs; reflexivity|].
  assert (S' : serves bs d t). { intros t1 r t2 E. apply (S t1 r (t2 ++ [e])). rewrite E, <- app_assoc. reflexivity. }
  destruct (IH S') as [rest R]. unfold readBytes in *. rewrite flat_map_app. cbn [flat_map]. rewrite app_nil_r.
  destruct e as [| | | | |d' r| |]; cbn [fromFile]; try (exists rest; rewrite app_nil_r; exact R).
  destruct r as [c|]; [|exists rest; rewrite app_nil_r; exact R]. destruct (Z.eqb_spec d' d) as [->|N]; [|exists rest; rewrite app_nil_r; exact R].
  destruct (S t (Some c) [] eq_refl) as (c' & rest' & [= <-] & E & _). exists rest'. rewrite <- app_assoc. exact E.
Qed.

Lemma gets_spec p k : forall s acc l s', Inv s -> getsLoop K k p acc s = Go l s' -> exists g, l = acc ++ g /\ (length g <= k)%nat /\
  (forall i, nth_error g i = Some 10 -> S i = length g) /\
  ((length g < k)%nat -> (exists g', g = g' ++ [10]) \/ eof (files s' p) = true).
Proof.
  induction k as [|k IH]; intros s acc l s' I; cbn [getsLoop].
  - intros [= <- <-]. exists []. rewrite app_nil_r. cbn. repeat split; try lia. intros []; discriminate.
  - destruct (feof K p s) as [b s1|e s1|] eqn:F; try discriminate. destruct (feof_Mv K HK s p b s1 I F) as (_ & _ & V & E & _). destruct b.
    + intros [= <- <-]. exists []. rewrite app_nil_r. cbn. split; [reflexivity|]. split; [lia|]. split; [intros []; discriminate|]. auto.
    + destruct (fgetc K p s1) as [c s2|e s2|] eqn:G; try discriminate. destruct (fgetc_Mv K HK s1 p c s2 (proj1 V) G) as (_ & _ & V2). destruct (Z.eqb_spec c 10) as [->|N].
      * intros [= <- <-]. exists [10]. cbn. split; [reflexivity|]. split; [lia|]. split; [intros [|[]]; [reflexivity|discriminate|discriminate]|]. intros _. left. exists []. reflexivity.
      * intros H. destruct (IH s2 _ l s' (proj1 V2) H) as (g & -> & A & B & C). exists (c :: g). split; [now rewrite <- app_assoc|]. cbn [length]. split; [lia|]. split.
        -- intros [|i] X; [cbn in X; congruence|]. cbn in X. rewrite (B i X). reflexivity.
        -- intros X. destruct C as [[g' ->]|C]; [lia| |auto]. left. exists (c :: g'). reflexivity.
Qed.
End Top.
