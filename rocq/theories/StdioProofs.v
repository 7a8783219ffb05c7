(* Invariant of the stream table and accounting of bytes, for all histories *)
From Coq Require Import ZArith Bool List Lia.
From Verif Require Import LibMem LibStdio StdioSpec.
Import ListNotations.
Open Scope Z_scope.


Record fileOk (f : file) : Prop := {
  f_len : Z.of_nat (length (buf f)) = size f;
  f_cnt : 0 <= cnt f <= size f;
  f_nobuf : mode f <> RDONLY -> hasbuf f = false -> tty f = true /\ cnt f = 0;
  f_out : mode f <> RDONLY -> hasbuf f = true -> 0 < size f /\ (err f = false -> cnt f < size f);
  f_in : mode f = RDONLY -> 0 < size f /\ 0 <= len f <= size f;
  f_eof : mode f = RDONLY -> tty f = true -> eof f = true -> err f = true }.

Definition same (f f' : file) : Prop :=
  fd f' = fd f /\ mode f' = mode f /\ hasbuf f' = hasbuf f /\ size f' = size f /\ tty f' = tty f /\ slot f' = slot f.
Lemma same_refl f : same f f. Proof. repeat split. Qed.
Lemma same_trans f g h : same f g -> same g h -> same f h.
Proof. unfold same. intros (?&?&?&?&?&?) (?&?&?&?&?&?). repeat split; congruence. Qed.

(* not yet delivered, not yet returned *)
Definition pend (f : file) : list item := if hasbuf f then map Byte (firstn (Z.to_nat (cnt f)) (buf f)) else [].
Definition unread (f : file) : list Z := skipn (Z.to_nat (cnt f)) (firstn (Z.to_nat (len f)) (buf f)).
Definition dl (q : Z) (f : file) (e : ev) : list item := if tty f then toCon q (fd f) e else toFile (fd f) e.
Definition rd (f : file) (e : ev) : list Z := if tty f then fromKey e else fromFile (fd f) e.

Definition acct (q : Z) (f f' : file) (t : list ev) (w : list item) : Prop :=
  (err f = true -> err f' = true /\ bytes (flat_map (dl q f) t) = []) /\
  (err f' = false -> pend f ++ w = flat_map (dl q f) t ++ pend f') /\
  (err f = false -> exists lost, bytes (pend f ++ w) = bytes (flat_map (dl q f) t) ++ lost).
Definition iacct (f f' : file) (t : list ev) (g : list Z) : Prop :=
  unread f ++ flat_map (rd f) t = g ++ unread f'.
Definition seekless (w : list item) : Prop := forall h l, ~ In (Seek h l) w.

Section Proofs.
Variable K : kernel.
Hypothesis HK : kernOk K.

Record Eff (q : Z) (f f' : file) (t : list ev) (w : list item) (g : list Z) : Prop := {
  e_same : same f f';
  e_ok : fileOk f';
  e_out : mode f <> RDONLY -> (tty f = true -> showsAll K) -> acct q f f' t w;
  e_in : mode f = RDONLY -> (tty f = true -> keysOk K) -> seekless w -> iacct f f' t g;
  e_eof : mode f = RDONLY -> tty f = false -> (eof f = true -> len f <= cnt f) -> eof f' = true -> len f' <= cnt f' }.

Lemma bytes_app a b : bytes (a ++ b) = bytes a ++ bytes b.
Proof. unfold bytes. apply filter_app. Qed.
Lemma bytes_Byte l : bytes (map Byte l) = map Byte l.
Proof. unfold bytes. induction l; cbn; congruence. Qed.

Lemma dl_same q f f' : same f f' -> dl q f' = dl q f.
Proof. intros (A&_&_&_&B&_). unfold dl. now rewrite A, B. Qed.
Lemma rd_same f f' : same f f' -> rd f' = rd f.
Proof. intros (A&_&_&_&B&_). unfold rd. now rewrite A, B. Qed.

Lemma acct_trans q f f1 f2 t1 t2 w1 w2 : same f f1 -> acct q f f1 t1 w1 -> acct q f1 f2 t2 w2 -> acct q f f2 (t1 ++ t2) (w1 ++ w2).
Proof.
  intros S (A1 & A2 & A3) (B1 & B2 & B3). rewrite (dl_same q f f1 S) in *. unfold acct. rewrite flat_map_app, bytes_app. split; [|split].
  - intros E. destruct (A1 E) as [E1 D1]. destruct (B1 E1) as [E2 D2]. rewrite D1, D2. auto.
  - intros E2. assert (E1 : err f1 = false) by (destruct (err f1) eqn:X; [destruct (B1 eq_refl); congruence|reflexivity]).
    rewrite app_assoc, (A2 E1), <- !app_assoc. now rewrite (B2 E2).
  - intros E. destruct (err f1) eqn:E1.
    + destruct (B1 eq_refl) as [_ D2]. destruct (A3 E) as [l L]. exists (l ++ bytes w2). rewrite D2, app_nil_r, app_assoc, bytes_app, L. now rewrite <- app_assoc.
    + destruct (B3 eq_refl) as [l L]. exists l. rewrite app_assoc, (A2 eq_refl), <- app_assoc, bytes_app, L. now rewrite <- app_assoc.
Qed.

Lemma iacct_trans f f1 f2 t1 t2 g1 g2 : same f f1 -> iacct f f1 t1 g1 -> iacct f1 f2 t2 g2 -> iacct f f2 (t1 ++ t2) (g1 ++ g2).
Proof. unfold iacct. intros S A B. rewrite (rd_same f f1 S) in B. rewrite flat_map_app, app_assoc, A, <- !app_assoc. now rewrite B. Qed.

Lemma seekless_app a b : seekless (a ++ b) -> seekless a /\ seekless b.
Proof. intros H. split; intros h l I; apply (H h l); apply in_or_app; auto. Qed.

Lemma Eff_trans q f f1 f2 t1 t2 w1 w2 g1 g2 : Eff q f f1 t1 w1 g1 -> Eff q f1 f2 t2 w2 g2 -> Eff q f f2 (t1 ++ t2) (w1 ++ w2) (g1 ++ g2).
Proof.
  intros A B. destruct A as [As Ao A1 A2 A3], B as [Bs Bo B1 B2 B3].
  assert (M : mode f1 = mode f) by apply As. assert (T : tty f1 = tty f) by apply As. rewrite M, T in *.
  split; [eapply same_trans; eauto|assumption| | |auto].
  - intros N C. eapply acct_trans; eauto.
  - intros N C S. apply seekless_app in S. destruct S. eapply iacct_trans; eauto.
Qed.

Definition quiet (q : Z) (f : file) (t : list ev) : Prop :=
  flat_map (dl q f) t = [] /\ (mode f = RDONLY -> flat_map (rd f) t = []).
Lemma Eff_quiet q f t : fileOk f -> quiet q f t -> Eff q f f t [] [].
Proof.
  intros Ok [A B]. split; [apply same_refl|assumption| | |auto].
  - intros _ _. unfold acct. rewrite A. split; [auto|]. split; [intros _; cbn; now rewrite app_nil_r|]. intros _. exists (bytes (pend f)). cbn. now rewrite app_nil_r.
  - intros M _ _. unfold iacct. rewrite (B M). now rewrite app_nil_r.
Qed.

(* events a stream may cause *)
Definition own (p : Z) (f : file) (e : ev) : Prop :=
  match e with
  | EWrite d _ | ERead d _ => tty f = false /\ d = fd f
  | ESeek d _ _ => d = fd f
  | ECon q _ => q = p
  | EKey _ => tty f = true /\ mode f = RDONLY
  | _ => False
  end.

(* ---- one stream ---- *)
Ltac fileok := split; cbn [fd mode hasbuf buf size len cnt tty eof err slot setErr setCnt];
  try assumption; intros; try congruence; try lia; try (split; intros; try assumption; try congruence; lia).

Lemma firstn_map_all l n : n = Z.of_nat (length l) -> firstn (Z.to_nat n) l = l :> list Z.
Proof. intros ->. rewrite Nat2Z.id. apply firstn_all. Qed.

Lemma flush_eff p f t f' t' : fileOk f -> mode f <> RDONLY -> flushF K t p f = (f', t') ->
  Eff p f f' t' [] [] /\ Forall (own p f) t' /\ (err f' = false -> pend f' = []).
Proof.
  intros Ok M. pose proof Ok as [L C Nb Ou _ Ef]. unfold flushF.
  destruct (err f) eqn:E; [intros [= <- <-]; split; [apply Eff_quiet; [exact Ok|split; auto]|split; [constructor|congruence]]|].
  destruct (hasbuf f) eqn:B; cbn [negb]; [|intros [= <- <-]; split; [apply Eff_quiet; [exact Ok|split; auto]|split; [constructor|]; unfold pend; now rewrite B]].
  destruct (Z.eqb_spec (cnt f) 0) as [Z0|Z0]; [intros [= <- <-]; split; [apply Eff_quiet; [exact Ok|split; auto]|split; [constructor|]; unfold pend; now rewrite B, Z0]|].
  set (bs := firstn (Z.to_nat (cnt f)) (buf f)).
  assert (Lb : Z.of_nat (length bs) = cnt f) by (unfold bs; rewrite firstn_length; lia).
  assert (P : pend f = map Byte bs) by (unfold pend; now rewrite B).
  destruct (Ou M eq_refl) as [S1 S2].
  destruct (tty f) eqn:T; intros [= <- <-].
  - split; [|split].
    + split; [unfold same; cbn; repeat split; try congruence| |intros _ Sh|intros X; congruence|intros X; congruence].
      * fileok.
      * unfold acct, dl. rewrite T. cbn [flat_map toCon setErr setCnt err].
        rewrite Z.eqb_refl, !app_nil_r. rewrite (Sh T), (firstn_map_all bs) by reflexivity.
        split; [congruence|]. assert (P' : pend (setErr (setCnt f 0) false) = []) by (unfold pend; cbn; now rewrite B).
        rewrite P, P', app_nil_r. split; [reflexivity|]. intros _. exists []. now rewrite app_nil_r.
    + repeat constructor.
    + intros _. unfold pend. cbn. now rewrite B.
  - set (l := kWrite K t (fd f) bs) in *. pose proof (k_write K HK t (fd f) bs) as Hl. fold l in Hl.
    set (c := if 0 <? l then cnt f - l else cnt f) in *.
    assert (Hc : 0 <= c <= cnt f) by (unfold c; destruct (Z.ltb_spec 0 l); lia).
    split; [|split].
    + split; [unfold same; cbn; repeat split; try congruence| |intros _ Sh|intros X; congruence|intros X; congruence].
      * fileok.
      * unfold acct, dl. rewrite T. cbn [flat_map toFile setErr setCnt err]. rewrite Z.eqb_refl, !app_nil_r. split; [congruence|].
        rewrite P. split.
        -- intros X. apply negb_false_iff, Z.eqb_eq in X. assert (l = cnt f) by (unfold c in X; destruct (Z.ltb_spec 0 l); lia).
           unfold pend; cbn [setErr setCnt hasbuf cnt buf]. rewrite B, X. cbn [Z.to_nat firstn map]. rewrite app_nil_r. f_equal. symmetry. apply firstn_map_all. lia.
        -- intros _. exists (map Byte (skipn (Z.to_nat l) bs)). rewrite !bytes_Byte, <- map_app. now rewrite firstn_skipn.
    + repeat constructor; assumption.
    + cbn [setErr setCnt err]. intros X. apply negb_false_iff, Z.eqb_eq in X. unfold pend. cbn. now rewrite B, X.
Qed.

Lemma setNth_len l n v : (n < length l)%nat -> length (setNth l n v) = length l.
Proof. intros H. unfold setNth. rewrite app_length, firstn_length. cbn [length]. rewrite skipn_length. lia. Qed.
Lemma setNth_firstn l n v : (n < length l)%nat -> firstn (S n) (setNth l n v) = firstn n l ++ [v].
Proof.
  intros H. unfold setNth. rewrite firstn_app, firstn_firstn, firstn_length. replace (Nat.min (S n) n) with n by lia.
  replace (S n - Nat.min n (length l))%nat with 1%nat by lia. reflexivity.
Qed.

Lemma putc_eff p c f t f' t' : fileOk f -> mode f <> RDONLY -> putcF K t p c f = Some (f', t') ->
  Eff p f f' t' [Byte c] [] /\ Forall (own p f) t'.
Proof.
  intros Ok M. pose proof Ok as [L C Nb Ou _ Ef]. unfold putcF.
  destruct (err f) eqn:E.
  { intros [= <- <-]. split; [|constructor]. split; [apply same_refl|exact Ok| |congruence|congruence]. intros _ _. unfold acct. rewrite E. cbn. repeat split; congruence. }
  destruct (hasbuf f) eqn:B; cbn [negb].
  - destruct (Ou M eq_refl) as [S1 S2]. specialize (S2 eq_refl).
    destruct (_ && _); [|discriminate]. 
    set (f1 := File _ _ _ _ _ _ _ _ _ _ _).
    assert (Hn : (Z.to_nat (cnt f) < length (buf f))%nat) by lia.
    assert (P1 : pend f1 = pend f ++ [Byte c]).
    { unfold pend, f1. cbn [hasbuf cnt buf]. rewrite B. replace (Z.to_nat (cnt f + 1)) with (S (Z.to_nat (cnt f))) by lia. rewrite setNth_firstn, map_app by exact Hn. reflexivity. }
    assert (Ok1 : cnt f1 < size f1 -> fileOk f1).
    { intros Q. unfold f1 in *. cbn [cnt size] in Q. fileok. rewrite setNth_len by exact Hn. exact L. }
    destruct ((size f1 <=? cnt f1) || tty f1 && (c =? 10)) eqn:Q.
    + intros X. injection X as X.
      (* fileOk f1 may fail when the buffer is full, but the flush needs less *)
      assert (Sf : same f f1) by (unfold same, f1; cbn; repeat split; try congruence).
      revert X. unfold flushF. replace (err f1) with false by (unfold f1; cbn; congruence). replace (hasbuf f1) with true by (unfold f1; cbn; congruence). cbn [negb].
      replace (cnt f1 =? 0) with false by (symmetry; apply Z.eqb_neq; unfold f1; cbn; lia).
      set (bs := firstn (Z.to_nat (cnt f1)) (buf f1)).
      assert (Lb : Z.of_nat (length bs) = cnt f1) by (unfold bs, f1; cbn [buf cnt]; rewrite firstn_length, setNth_len by exact Hn; lia).
      assert (P : pend f ++ [Byte c] = map Byte bs) by (rewrite <- P1; unfold pend, f1 at 1; cbn [hasbuf]; reflexivity).
      assert (Lf1 : Z.of_nat (length (buf f1)) = size f1) by (unfold f1; cbn [buf size]; rewrite setNth_len by exact Hn; exact L).
      assert (Bf : hasbuf f1 = true) by reflexivity.
      assert (Cf : 0 < cnt f1 <= size f1) by (unfold f1; cbn; lia).
      assert (Mf : mode f1 <> RDONLY) by (unfold f1; cbn; exact M).
      assert (Tf : tty f1 = tty f) by reflexivity. assert (Df : fd f1 = fd f) by reflexivity.
      clearbody f1 bs. rewrite Tf, Df. destruct (tty f) eqn:T; intros [= <- <-].
      * split; [|repeat constructor]. split; [destruct Sf as (?&?&?&?&?&?); unfold same; cbn; repeat split; try congruence; congruence| |intros _ Sh|congruence|congruence].
        -- fileok.
        -- unfold acct, dl. rewrite T, P. cbn [flat_map toCon setErr setCnt err]. rewrite Z.eqb_refl, !app_nil_r, (Sh T), (firstn_map_all bs) by reflexivity.
           split; [congruence|]. assert (P' : pend (setErr (setCnt f1 0) false) = []) by (unfold pend; cbn; now rewrite Bf).
           rewrite P', app_nil_r. split; [reflexivity|]. intros _. exists []. now rewrite app_nil_r.
      * set (l := kWrite K t (fd f) bs). pose proof (k_write K HK t (fd f) bs) as Hl. fold l in Hl.
        set (k := if 0 <? l then cnt f1 - l else cnt f1).
        assert (Hk : 0 <= k <= cnt f1) by (unfold k; destruct (Z.ltb_spec 0 l); lia).
        split; [|constructor; [split; [assumption|reflexivity]|constructor]]. split; [destruct Sf as (?&?&?&?&?&?); unfold same; cbn; repeat split; try congruence; congruence| |intros _ Sh|congruence|congruence].
        -- fileok.
        -- unfold acct, dl. rewrite T, P. cbn [flat_map toFile setErr setCnt err]. rewrite Z.eqb_refl, !app_nil_r. split; [congruence|]. split.
           ++ intros X. apply negb_false_iff, Z.eqb_eq in X. assert (l = cnt f1) by (unfold k in X; destruct (Z.ltb_spec 0 l); lia).
              unfold pend; cbn [setErr setCnt hasbuf cnt buf]. rewrite Bf, X. cbn [Z.to_nat firstn map]. rewrite app_nil_r. f_equal. symmetry. apply firstn_map_all. lia.
           ++ intros _. exists (map Byte (skipn (Z.to_nat l) bs)). rewrite !bytes_Byte, <- map_app. now rewrite firstn_skipn.
    + intros [= <- <-]. apply orb_false_iff in Q. destruct Q as [Q _]. apply Z.leb_gt in Q. split; [|constructor].
      split; [unfold same, f1; cbn; repeat split; try congruence|exact (Ok1 Q)| |congruence|congruence]. intros _ _. unfold acct. rewrite P1. cbn [flat_map app bytes filter].
      replace (err f1) with false by (unfold f1; cbn; congruence). split; [congruence|]. split; [reflexivity|]. intros _. eexists. reflexivity.
  - destruct (Nb M eq_refl) as [T C0]. intros [= <- <-]. split; [|repeat constructor].
    split; [apply same_refl|exact Ok| |congruence|congruence]. intros _ Sh. unfold acct, dl. rewrite T. cbn [flat_map toCon]. rewrite Z.eqb_refl, !app_nil_r, (Sh T), (firstn_map_all [c]) by reflexivity.
    split; [congruence|]. assert (P : pend f = []) by (unfold pend; now rewrite B). rewrite P. cbn [app map]. rewrite ?app_nil_r. split; [reflexivity|]. intros _. exists []. now rewrite app_nil_r.
Qed.

Lemma putc_some p c f t : fileOk f -> mode f <> RDONLY -> exists f' t', putcF K t p c f = Some (f', t').
Proof.
  intros [L C Nb Ou _ Ef] M. unfold putcF. destruct (err f) eqn:E; [eauto|]. destruct (hasbuf f) eqn:B; cbn [negb]; [|eauto].
  destruct (Ou M eq_refl) as [S1 S2]. specialize (S2 eq_refl).
  destruct (Z.leb_spec 0 (cnt f)); [|lia]. destruct (Z.ltb_spec (cnt f) (Z.of_nat (length (buf f)))); [|lia]. cbn [andb].
  destruct (_ || _); [|eauto]. match goal with |- context [Some ?x] => destruct x; eauto end.
Qed.

(* reading *)
Lemma fill_eff p f t f' t' : fileOk f -> mode f = RDONLY -> len f <= cnt f -> fillF K t f = (f', t') ->
  Eff p f f' t' [] [] /\ Forall (own p f) t' /\ cnt f' = 0 /\
  (tty f = false -> (eof f' = true <-> len f' = 0)).
Proof.
  intros Ok M Emp. pose proof Ok as [L C _ _ In Ef]. destruct (In M) as [S1 Ln]. unfold fillF.
  assert (U : unread f = []) by (unfold unread; apply skipn_all2; rewrite firstn_length; lia).
  destruct (tty f) eqn:T.
  - intros [= <- <-]. set (bs := kTtyR K t (size f)). pose proof (k_ttyr K HK t (size f) ltac:(lia)) as Hl. fold bs in Hl.
    split; [|split; [repeat constructor; assumption|split; [reflexivity|congruence]]].
    split; [unfold same; cbn; repeat split; try congruence| |congruence| |cbn; intros; try congruence; try lia].
    + fileok. rewrite app_length, skipn_length. lia.
    + intros _ _ _. unfold iacct, rd. rewrite U, T. cbn [flat_map fromKey app]. rewrite app_nil_r. unfold unread. cbn [cnt len buf].
      rewrite Nat2Z.id, firstn_app, Nat.sub_diag, firstn_all. cbn. now rewrite app_nil_r.
  - destruct (kRead K t (fd f) (size f)) as [bs|] eqn:R; intros [= <- <-].
    + pose proof (k_read K HK t (fd f) (size f) bs ltac:(lia) R) as Hl.
      split; [|split; [repeat constructor; assumption|split; [reflexivity|cbn; intros _; apply Z.eqb_eq]]].
      split; [unfold same; cbn; repeat split; try congruence| |congruence| |cbn; intros; try congruence; try lia].
      * fileok. rewrite app_length, skipn_length. lia.
      * intros _ _ _. unfold iacct, rd. rewrite U, T. cbn [flat_map fromFile app]. rewrite Z.eqb_refl, app_nil_r. unfold unread. cbn [cnt len buf].
        rewrite Nat2Z.id, firstn_app, Nat.sub_diag, firstn_all. cbn. now rewrite app_nil_r.
    + split; [|split; [repeat constructor; assumption|split; [reflexivity|cbn; intros _; split; reflexivity]]].
      split; [unfold same; cbn; repeat split; try congruence| |congruence| |cbn; intros; try congruence; try lia].
      * fileok.
      * intros _ _ _. unfold iacct, rd. rewrite U, T. cbn [flat_map fromFile app]. reflexivity.
Qed.
End Proofs.
