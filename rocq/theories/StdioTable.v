(* The stream table: every call on one stream leaves the others alone *)
From Coq Require Import ZArith Bool List Lia.
From Verif Require Import LibMem LibStdio StdioSpec StdioProofs.
Import ListNotations.
Open Scope Z_scope.

Section Table.
Variable K : kernel.
Hypothesis HK : kernOk K.
Notation Eff := (Eff K).

Lemma Eff_refl q f : fileOk f -> Eff q f f [] [] [].
Proof. intros H. apply Eff_quiet; [exact H|]. split; auto. Qed.

Lemma need_eff p f t f' t' : fileOk f -> mode f = RDONLY -> needF K t f = (f', t') ->
  Eff p f f' t' [] [] /\ Forall (own p f) t' /\ fileOk f' /\ (len f' <= cnt f' -> cnt f' = 0 /\ (tty f = false -> eof f' = true)).
Proof.
  intros Ok M. unfold needF. destruct (Z.leb_spec (len f) (cnt f)).
  - intros E. destruct (fill_eff K HK p f t f' t' Ok M H E) as (A & B & C & D). split; [exact A|]. split; [exact B|]. pose proof (e_ok _ _ _ _ _ _ _ A) as O. split; [exact O|].
    intros L. split; [exact C|]. intros T. apply (D T). pose proof (f_in _ O) as X. destruct A as [(_ & Md & _) _ _ _ _]. rewrite Md in X. specialize (X M). lia.
  - intros [= <- <-]. split; [apply Eff_refl; exact Ok|]. split; [constructor|]. split; [exact Ok|]. lia.
Qed.

Lemma getc_eff p f : fileOk f -> mode f = RDONLY -> cnt f < Z.of_nat (length (buf f)) ->
  (tty f = false -> cnt f < len f) -> (tty f = true -> cnt f < len f \/ ~ keysOk K) ->
  Eff p f (setCnt f (cnt f + 1)) [] [] [nth (Z.to_nat (cnt f)) (buf f) 0].
Proof.
  intros Ok M L A B. pose proof Ok as [Lb C Nb Ou In Ef]. split; [unfold same; cbn; repeat split| |congruence| |cbn; intros _ _ X Y; specialize (X Y); lia].
  - split; cbn; intros; try congruence; try lia; auto.
  - intros _ Kk _. assert (X : cnt f < len f) by (destruct (tty f); [destruct (B eq_refl) as [?|N]; [assumption|destruct (N (Kk eq_refl))]|auto]).
    unfold iacct, unread. cbn [flat_map setCnt cnt len buf]. rewrite app_nil_r.
    destruct (In M) as [_ Ln]. replace (Z.to_nat (cnt f + 1)) with (S (Z.to_nat (cnt f))) by lia.
    set (n := Z.to_nat (cnt f)). set (l := firstn (Z.to_nat (len f)) (buf f)).
    assert (Hn : (n < length l)%nat) by (unfold n, l; rewrite firstn_length; lia).
    assert (E : nth n (buf f) 0 = nth n l 0).
    { unfold l. rewrite <- (firstn_skipn (Z.to_nat (len f)) (buf f)) at 1. rewrite app_nth1; [reflexivity|exact Hn]. }
    rewrite E. clear E. clearbody n l. clear -Hn. revert n Hn. induction l as [|a l IH]; intros n Hn; [cbn in Hn; lia|]. destruct n as [|n]; [reflexivity|]. cbn [skipn nth]. cbn in Hn. rewrite IH by lia. reflexivity.
Qed.

(* ---- the table ---- *)
Definition live (s : st) (p : Z) : Prop := p <> 0 /\ In p (slots s).
Record Inv (s : st) : Prop := {
  i_len : length (slots s) = 8%nat;
  i_slot : forall i p, (i < 8)%nat -> nth i (slots s) 0 = p -> p <> 0 -> slot (files s p) = Z.of_nat i /\ fileOk (files s p);
  i_std : forall i p, (i < 3)%nat -> nth i (slots s) 0 = p -> p <> 0 /\ tty (files s p) = true /\ fd (files s p) = -1 - Z.of_nat i /\ (mode (files s p) = RDONLY <-> i = 0%nat);
  i_file : forall i p, (3 <= i < 8)%nat -> nth i (slots s) 0 = p -> p <> 0 -> tty (files s p) = false /\ hasbuf (files s p) = true /\ 0 <= fd (files s p) /\ In (fd (files s p)) (openFds (tr s));
  i_dist : forall i j p q, (3 <= i < 8)%nat -> (3 <= j < 8)%nat -> i <> j -> nth i (slots s) 0 = p -> nth j (slots s) 0 = q -> p <> 0 -> q <> 0 -> fd (files s p) <> fd (files s q) }.

Lemma live_nth s p : Inv s -> live s p -> exists i, (i < 8)%nat /\ nth i (slots s) 0 = p.
Proof. intros I [_ H]. apply In_nth with (d := 0) in H. destruct H as [i [A B]]. exists i. rewrite (i_len s I) in A. auto. Qed.
Lemma nth_live s i p : Inv s -> (i < 8)%nat -> nth i (slots s) 0 = p -> p <> 0 -> live s p.
Proof. intros I A <- N. split; [exact N|]. apply nth_In. rewrite (i_len s I). exact A. Qed.
Lemma live_ok s p : Inv s -> live s p -> fileOk (files s p).
Proof. intros I L. destruct (live_nth s p I L) as [i [A B]]. apply (i_slot s I i p A B). apply L. Qed.

Lemma good_live s p : Inv s -> goodFp s p = true <-> live s p.
Proof.
  intros I. unfold goodFp. rewrite negb_true_iff, !orb_false_iff, negb_false_iff, Z.eqb_neq, Z.ltb_ge, Z.leb_gt, Z.eqb_eq. split.
  - intros [[[A B] C] D]. split; [exact A|]. rewrite <- D. apply nth_In. rewrite (i_len s I). lia.
  - intros L. destruct (live_nth s p I L) as [i [A B]]. destruct (i_slot s I i p A B (proj1 L)) as [E _]. rewrite E, Nat2Z.id. repeat split; try lia; try apply L; exact B.
Qed.

(* two different streams do not have the same descriptor, and only stdin is a terminal for input *)
Lemma fd_differ s p q : Inv s -> live s p -> live s q -> p <> q -> fd (files s p) <> fd (files s q).
Proof.
  intros I Lp Lq N. destruct (live_nth s p I Lp) as [i [A B]]. destruct (live_nth s q I Lq) as [j [C D]].
  assert (Nij : i <> j) by congruence.
  destruct (le_lt_dec 3 i), (le_lt_dec 3 j).
  - apply (i_dist s I i j p q); auto; [apply Lp|apply Lq].
  - destruct (i_file s I i p ltac:(lia) B (proj1 Lp)) as (_ & _ & X & _). destruct (i_std s I j q l0 D) as (_ & _ & Y & _). lia.
  - destruct (i_std s I i p l B) as (_ & _ & Y & _). destruct (i_file s I j q ltac:(lia) D (proj1 Lq)) as (_ & _ & X & _). lia.
  - destruct (i_std s I i p l B) as (_ & _ & Y & _). destruct (i_std s I j q l0 D) as (_ & _ & X & _). lia.
Qed.
Lemma key_one s p q : Inv s -> live s p -> live s q -> tty (files s p) = true -> mode (files s p) = RDONLY -> tty (files s q) = true -> mode (files s q) = RDONLY -> p = q.
Proof.
  intros I Lp Lq T M T' M'. destruct (live_nth s p I Lp) as [i [A B]]. destruct (live_nth s q I Lq) as [j [C D]].
  destruct (le_lt_dec 3 i) as [X|X]; [destruct (i_file s I i p ltac:(lia) B (proj1 Lp)); congruence|].
  destruct (le_lt_dec 3 j) as [Y|Y]; [destruct (i_file s I j q ltac:(lia) D (proj1 Lq)); congruence|].
  destruct (i_std s I i p X B) as (_ & _ & _ & E). destruct (i_std s I j q Y D) as (_ & _ & _ & E'). apply E in M. apply E' in M'. subst. reflexivity.
Qed.

Lemma own_quiet s p q t : Inv s -> live s p -> live s q -> p <> q -> Forall (own p (files s p)) t -> quiet q (files s q) t.
Proof.
  intros I Lp Lq N F. pose proof (fd_differ s p q I Lp Lq N) as D. pose proof (key_one s p q I Lp Lq) as Ko.
  assert (X : Forall (fun e => dl q (files s q) e = [] /\ (mode (files s q) = RDONLY -> rd (files s q) e = [])) t).
  { revert F. apply Forall_impl. intros e O. unfold dl, rd. destruct (tty (files s q)) eqn:T; destruct e as [d m| |d|d bs|d h l|d r|c bs|bs]; cbn [own toFile toCon fromFile fromKey] in *; try tauto; try (split; auto; fail).
    - subst d. destruct (Z.eqb_spec (fd (files s p)) (fd (files s q))); [congruence|]. auto.
    - subst c. destruct (Z.eqb_spec p q); [congruence|]. auto.
    - destruct O as [_ ->]. destruct (Z.eqb_spec (fd (files s p)) (fd (files s q))); [congruence|]. auto.
    - subst d. destruct (Z.eqb_spec (fd (files s p)) (fd (files s q))); [congruence|]. auto.
    - destruct O as [_ ->]. destruct (Z.eqb_spec (fd (files s p)) (fd (files s q))); [congruence|]. destruct r; auto. }
  split.
  - clear -X. induction X as [|e t [A _] X IH]; [reflexivity|]. cbn. now rewrite A, IH.
  - intros M. clear -X M. induction X as [|e t [_ A] X IH]; [reflexivity|]. cbn. now rewrite (A M), IH.
Qed.

Definition noOC (e : ev) : Prop := match e with EOpen _ _ | EClose _ => False | _ => True end.
Lemma openFds_app a b : Forall noOC b -> openFds (a ++ b) = openFds a.
Proof.
  intros F. unfold openFds. rewrite fold_left_app. generalize (fold_left (fun o e => match e with EOpen d _ => d :: o | EClose d => remove Z.eq_dec d o | _ => o end) a []).
  induction F as [|e b N F IH]; intros o; [reflexivity|]. cbn. rewrite IH. destruct e; try reflexivity; destruct N.
Qed.
Lemma own_noOC p f t : Forall (own p f) t -> Forall noOC t.
Proof. apply Forall_impl. intros []; cbn; tauto. Qed.

(* streams other than p unchanged, p changed as told *)
Definition Mv (s s' : st) (p : Z) (w : list item) (g : list Z) : Prop :=
  Inv s' /\ slots s' = slots s /\ exists t, tr s' = tr s ++ t /\ Forall noOC t /\
  forall q, live s q -> Eff q (files s q) (files s' q) t (if q =? p then w else []) (if q =? p then g else []).

Lemma put_Inv s p f t : Inv s -> live s p -> same (files s p) f -> fileOk f -> Forall noOC t -> Inv (put s p f t).
Proof.
  intros I Lp Sm Ok Nc. destruct Sm as (S1 & S2 & S3 & S4 & S5 & S6).
  assert (Fp : forall q, fd (files (put s p f t) q) = fd (files s q) /\ mode (files (put s p f t) q) = mode (files s q) /\ tty (files (put s p f t) q) = tty (files s q) /\ slot (files (put s p f t) q) = slot (files s q) /\ hasbuf (files (put s p f t) q) = hasbuf (files s q)).
  { intros q. cbn. destruct (Z.eqb_spec q p); subst; auto. }
  assert (Fo : forall q, live s q -> fileOk (files (put s p f t) q)).
  { intros q L. cbn. destruct (Z.eqb_spec q p); [exact Ok|apply (live_ok s q I L)]. }
  split.
  + apply I.
  + intros i q Hi Hq N. cbn [slots put] in Hq. destruct (Fp q) as (_ & _ & _ & -> & _). split; [apply (i_slot s I i q Hi Hq N)|]. apply Fo. apply (nth_live s i q I Hi Hq N).
  + intros i q Hi Hq. cbn [slots put] in Hq. destruct (Fp q) as (-> & -> & -> & _). apply (i_std s I i q Hi Hq).
  + intros i q Hi Hq N. cbn [slots put] in Hq. destruct (Fp q) as (-> & _ & -> & _ & ->). cbn [tr put]. rewrite openFds_app by exact Nc. apply (i_file s I i q Hi Hq N).
  + intros i j a b Hi Hj Hij Ha Hb Na Nb. cbn [slots put] in *. destruct (Fp a) as (-> & _). destruct (Fp b) as (-> & _). apply (i_dist s I i j a b); assumption.
Qed.

Lemma put_Mv s p f t w g : Inv s -> live s p -> Eff p (files s p) f t w g -> Forall (own p (files s p)) t -> Mv s (put s p f t) p w g.
Proof.
  intros I Lp E O. pose proof (own_noOC _ _ _ O) as Nc. split; [apply put_Inv; auto; apply E|split; [reflexivity|]].
  exists t. split; [reflexivity|]. split; [exact Nc|]. intros q L. cbn. destruct (Z.eqb_spec q p) as [->|N]; [exact E|].
  apply Eff_quiet; [apply (live_ok s q I L)|]. apply (own_quiet s p q t I Lp L); auto.
Qed.

Lemma Mv_refl s p : Inv s -> Mv s s p [] [].
Proof.
  intros I. split; [exact I|]. split; [reflexivity|]. exists []. split; [now rewrite app_nil_r|]. split; [constructor|]. intros q L.
  destruct (q =? p); apply Eff_refl, (live_ok s q I L).
Qed.
Lemma live_slots s s' q : slots s' = slots s -> live s q -> live s' q.
Proof. unfold live. intros ->. auto. Qed.
Lemma Mv_trans s s1 s2 p w1 w2 g1 g2 : Mv s s1 p w1 g1 -> Mv s1 s2 p w2 g2 -> Mv s s2 p (w1 ++ w2) (g1 ++ g2).
Proof.
  intros (I1 & S1 & t1 & T1 & N1 & E1) (I2 & S2 & t2 & T2 & N2 & E2). split; [exact I2|]. split; [congruence|].
  exists (t1 ++ t2). split; [rewrite T2, T1; now rewrite app_assoc|]. split; [apply Forall_app; auto|]. intros q L.
  pose proof (Eff_trans K q _ _ _ _ _ _ _ _ _ (E1 q L) (E2 q (live_slots s s1 q S1 L))) as X. destruct (q =? p); exact X.
Qed.
Lemma Mv_any s s' p p' : Mv s s' p [] [] -> Mv s s' p' [] [].
Proof.
  intros (I & S & t & T & N & E). split; [exact I|]. split; [exact S|]. exists t. split; [exact T|]. split; [exact N|]. intros q L. specialize (E q L).
  destruct (q =? p), (q =? p'); exact E.
Qed.

(* ---- calls ---- *)
Ltac good H I p := destruct (goodFp _ p) eqn:H; cbn [negb] in *; [apply (good_live _ p I) in H|].

Lemma fflush_Mv s p b s' : Inv s -> fflush K p s = Go b s' ->
  live s p /\ Mv s s' p [] [] /\ b = err (files s' p) /\ (b = false -> pend (files s' p) = []).
Proof.
  intros I. unfold fflush. good G I p; [|discriminate]. destruct (Z.eqb_spec (mode (files s p)) RDONLY); [discriminate|].
  destruct (flushF K (tr s) p (files s p)) as [f t] eqn:F. intros [= <- <-].
  destruct (flush_eff K HK p _ _ _ _ (live_ok s p I G) n F) as (A & B & C). split; [exact G|]. split; [apply put_Mv; assumption|]. cbn. rewrite Z.eqb_refl. auto.
Qed.

Lemma fputc_Mv s c p b s' : Inv s -> fputc K c p s = Go b s' -> live s p /\ Mv s s' p [Byte c] [] /\ b = err (files s' p).
Proof.
  intros I. unfold fputc. good G I p; [|discriminate]. destruct (Z.eqb_spec (mode (files s p)) RDONLY); [discriminate|].
  destruct (putcF K (tr s) p c (files s p)) as [[f t]|] eqn:F; [|discriminate]. intros [= <- <-].
  destruct (putc_eff K HK p _ _ _ _ _ (live_ok s p I G) n F) as (A & B). split; [exact G|]. split; [apply put_Mv; assumption|]. cbn. now rewrite Z.eqb_refl.
Qed.

(* a stream in error ignores what it is given *)
Lemma Eff_lost q f f' t w w' g : Eff q f f' t w g -> (mode f <> RDONLY -> err f' = true) -> seekless w' -> Eff q f f' t (w ++ w') g.
Proof.
  intros [Sm Ok O I Eo] Er Sk. split; [exact Sm|exact Ok| | |exact Eo].
  - intros M Sh. destruct (O M Sh) as (A & B & C). specialize (Er M). split; [exact A|]. split; [congruence|]. intros E. destruct (C E) as [l L]. exists (l ++ bytes w').
    rewrite app_assoc, bytes_app, L. now rewrite <- app_assoc.
  - intros M Kk S. apply seekless_app in S. apply I; tauto.
Qed.
Lemma seekless_Byte l : seekless (map Byte l).
Proof. intros h k I. apply in_map_iff in I. destruct I as [x [E _]]. discriminate. Qed.

Lemma fputs_Mv p w : forall s b s', Inv s -> fputs K w p s = Go b s' -> Mv s s' p (map Byte w) [] /\ (b = false -> w <> [] -> err (files s' p) = false).
Proof.
  induction w as [|c w IH]; intros s b s' I; cbn [fputs].
  - intros [= <- <-]. split; [apply Mv_refl; exact I|congruence].
  - destruct (fputc K c p s) as [b1 s1|e s1|] eqn:F; try discriminate. destruct (fputc_Mv s c p b1 s1 I F) as (L & M & E). destruct b1.
    + intros [= <- <-]. split; [|discriminate]. destruct M as (I1 & S1 & t1 & T1 & N1 & E1). split; [exact I1|]. split; [exact S1|]. exists t1. split; [exact T1|]. split; [exact N1|].
      intros q Lq. specialize (E1 q Lq). destruct (Z.eqb_spec q p) as [Eq|N]; [subst q|exact E1]. cbn [map]. apply (Eff_lost p _ _ _ [Byte c]); [exact E1|intros _; congruence|apply seekless_Byte].
    + intros G. pose proof (proj1 M) as I1. destruct (IH s1 b s' I1 G) as [M2 B]. split; [exact (Mv_trans _ _ _ _ _ _ _ _ M M2)|].
      intros -> _. destruct w; [cbn in G; injection G as <-; congruence|]. apply B; congruence.
Qed.

Lemma feof_Mv s p b s' : Inv s -> feof K p s = Go b s' -> live s p /\ mode (files s p) = RDONLY /\ Mv s s' p [] [] /\ b = eof (files s' p) /\
  (tty (files s p) = false -> (b = false -> cnt (files s' p) < len (files s' p))) /\
  (len (files s' p) <= cnt (files s' p) -> cnt (files s' p) = 0).
Proof.
  intros I. unfold feof. good G I p; [|discriminate]. destruct (Z.eqb_spec (mode (files s p)) RDONLY) as [M|M]; [|discriminate]. cbn [negb].
  destruct (needF K (tr s) (files s p)) as [f t] eqn:F. intros [= <- <-].
  destruct (need_eff p _ _ _ _ (live_ok s p I G) M F) as (A & B & C & D). split; [exact G|]. split; [exact M|]. split; [apply put_Mv; assumption|]. cbn. rewrite Z.eqb_refl. split; [reflexivity|].
  split; [|apply D]. intros T E. destruct (Z_lt_le_dec (cnt f) (len f)) as [|X]; [assumption|]. destruct (D X) as [_ Y]. rewrite (Y T) in E. discriminate.
Qed.

Lemma fgetc_Mv s p c s' : Inv s -> fgetc K p s = Go c s' -> live s p /\ mode (files s p) = RDONLY /\ Mv s s' p [] [c].
Proof.
  intros I. unfold fgetc. good G I p; [|discriminate]. destruct (Z.eqb_spec (mode (files s p)) RDONLY) as [M|M]; [|discriminate]. cbn [negb].
  destruct (needF K (tr s) (files s p)) as [f t] eqn:F. 
  destruct (need_eff p _ _ _ _ (live_ok s p I G) M F) as (A & B & C & D). destruct (eof f) eqn:Eo; [discriminate|].
  destruct (Z.leb_spec 0 (cnt f)); [|discriminate]. destruct (Z.ltb_spec (cnt f) (Z.of_nat (length (buf f)))); [|discriminate]. cbn [andb]. intros [= <- <-].
  split; [exact G|]. split; [exact M|]. pose proof (e_same _ _ _ _ _ _ _ A) as Sm. destruct Sm as (S1 & S2 & S3 & S4 & S5 & S6).
  replace t with (t ++ []) by apply app_nil_r. apply put_Mv; [assumption|assumption| |rewrite app_nil_r; assumption].
  apply (Eff_trans K p _ f _ t [] [] [] [] _ A). apply getc_eff; [exact C|congruence|assumption| |].
  - intros T. destruct (Z_lt_le_dec (cnt f) (len f)) as [|X]; [assumption|]. destruct (D X) as [_ Y]. rewrite S5 in T. specialize (Y T). discriminate Y.
  - intros T. destruct (Z_lt_le_dec (cnt f) (len f)) as [|X]; [left; assumption|]. right. intros Kk.
    revert F X. unfold needF. destruct (Z.leb_spec (len (files s p)) (cnt (files s p))); [|intros [= <- _]; lia].
    unfold fillF. rewrite S5 in T. rewrite T. intros [= <- _]. cbn. specialize (Kk (tr s) (size (files s p)) (proj1 (f_in _ (live_ok s p I G) M))). destruct (kTtyR _ _ _); [congruence|]. cbn. lia.
Qed.

Lemma gets_Mv p k : forall s acc l s', Inv s -> getsLoop K k p acc s = Go l s' -> exists g, l = acc ++ g /\ Mv s s' p [] g.
Proof.
  induction k as [|k IH]; intros s acc l s' I; cbn [getsLoop].
  - intros [= <- <-]. exists []. rewrite app_nil_r. split; [reflexivity|apply Mv_refl; exact I].
  - destruct (feof K p s) as [b s1|e s1|] eqn:F; try discriminate. destruct (feof_Mv s p b s1 I F) as (L & M & V & _). destruct b.
    + intros [= <- <-]. exists []. rewrite app_nil_r. split; [reflexivity|exact V].
    + pose proof (proj1 V) as I1. destruct (fgetc K p s1) as [c s2|e s2|] eqn:G; try discriminate. destruct (fgetc_Mv s1 p c s2 I1 G) as (_ & _ & V2).
      pose proof (Mv_trans _ _ _ _ _ _ _ _ V V2) as V3. cbn [app] in V3. destruct (c =? 10).
      * intros [= <- <-]. exists [c]. auto.
      * intros H. destruct (IH s2 _ l s' (proj1 V3) H) as [g [-> V4]]. exists (c :: g). split; [now rewrite <- app_assoc|]. exact (Mv_trans _ _ _ _ _ _ _ _ V3 V4).
Qed.

Lemma fill_seek p f t f' t' w : fileOk f -> mode f = RDONLY -> ~ seekless w -> fillF K t f = (f', t') ->
  Eff p f f' t' w [] /\ Forall (own p f) t'.
Proof.
  intros Ok M Sk. set (f1 := setCnt f (size f)).
  assert (Ok1 : fileOk f1).
  { destruct Ok as [L C Nb Ou In Ef]. unfold f1. split; cbn; intros; try congruence; try lia; auto. }
  intros F. assert (F1 : fillF K t f1 = (f', t')) by exact F.
  pose proof (f_in f1 Ok1 M) as [_ Ln]. destruct (fill_eff K HK p f1 t f' t' Ok1 M (proj2 Ln) F1) as (A & B & _). split; [|exact B].
  destruct A as [Sm Ok' _ _ Eo]. split; [exact Sm|exact Ok'|congruence| |].
  - intros _ _ X. contradiction.
  - intros _ T _. apply Eo; [exact M|exact T|]. intros _. exact (proj2 Ln).
Qed.

Lemma fseek_Mv s p h l b s' : Inv s -> fseek K p h l s = Go b s' -> live s p /\ Mv s s' p [Seek h l] [].
Proof.
  intros I. unfold fseek. good G I p; [|discriminate]. split; [exact G|].
  assert (Ok := live_ok s p I G).
  destruct (Z.eqb_spec (mode (files s p)) RDONLY) as [M|M]; cbn [negb] in *.
  - destruct (negb _); [discriminate|]. cbn [app] in *. destruct (fillF K (tr s ++ [ESeek (fd (files s p)) h l]) (files s p)) as [f2 t3] eqn:F. 
    injection H as <- <-.
    assert (Sk : ~ seekless [Seek h l]) by (intros X; apply (X h l); left; reflexivity).
    destruct (fill_seek p _ _ _ _ [Seek h l] Ok M Sk F) as [A B]. apply put_Mv; [assumption|assumption| |constructor; [reflexivity|assumption]].
    destruct A as [Sm Ok' _ _ Eo]. split; [exact Sm|exact Ok'|congruence| |exact Eo]. intros _ _ X. contradiction.
  - destruct (flushF K (tr s) p (files s p)) as [f1 t1] eqn:F. destruct (flush_eff K HK p _ _ _ _ Ok M F) as (A & B & C).
    destruct (negb _); [discriminate|]. injection H as <- <-. apply put_Mv; [assumption|assumption| |apply Forall_app; split; [assumption|repeat constructor; apply A]].
    apply (Eff_trans K p _ f1 _ t1 [ESeek (fd f1) h l] [] [Seek h l] [] [] A).
    pose proof (e_ok _ _ _ _ _ _ _ A) as Ok1. assert (M1 : mode f1 <> RDONLY) by (destruct A as [(_ & -> & _) _ _ _ _]; exact M).
    split; [apply same_refl|exact Ok1| |congruence|congruence]. intros _ _.
    assert (D : flat_map (dl p f1) [ESeek (fd f1) h l] = [Seek h l]) by (unfold dl; cbn; destruct (tty f1); cbn; now rewrite Z.eqb_refl).
    unfold acct. rewrite D. cbn [bytes filter]. split; [auto|]. split.
    + intros E. rewrite (C E). reflexivity.
    + intros E. rewrite (C E). exists []. reflexivity.
Qed.

Lemma ferror_Mv s p b s' : Inv s -> ferror p s = Go b s' -> live s p /\ s' = s /\ b = err (files s p).
Proof. intros I. unfold ferror. good G I p; [|discriminate]. intros [= <- <-]. auto. Qed.

Lemma flushAll_Mv l : forall s u s', Inv s -> flushAll K l s = Go u s' -> Mv s s' 0 [] [].
Proof.
  induction l as [|p l IH]; intros s u s' I; cbn [flushAll].
  - intros [= _ <-]. apply Mv_refl; exact I.
  - destruct (negb (p =? 0) && _) eqn:C; [|apply IH; exact I]. destruct (fflush K p s) as [b s1|e s1|] eqn:F; try discriminate.
    destruct (fflush_Mv s p b s1 I F) as (_ & V & _). intros G. apply (Mv_any _ _ p 0) in V. exact (Mv_trans _ _ _ _ _ _ _ _ V (IH s1 u s' (proj1 V) G)).
Qed.
End Table.
