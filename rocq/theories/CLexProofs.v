(* How C divides the printed text into tokens *)
From Coq Require Import ZArith Bool Lia List String Ascii.
From Verif Require Import Lexer SyTree CSpec CCode CTree.
Import ListNotations.
Open Scope Z_scope.

Definition Lx (s : list Z) (t : list ctok) : Prop := exists f, clex f s = Some t.

Lemma clex_mono f : forall f' s t, (f <= f')%nat -> clex f s = Some t -> clex f' s = Some t.
Proof.
  induction f as [|f IH]; intros f' s t L H.
  - destruct s as [|c r]; [|discriminate]. destruct f'; exact H.
  - destruct f' as [|f']; [lia|]. destruct s as [|c r]; [exact H|].
    assert (L' : (f <= f')%nat) by lia.
    cbn [clex] in *.
    destruct (blank c); [exact (IH _ _ _ L' H)|].
    destruct (idStart c).
    { destruct (span idChar (c :: r)) as [w r']. destruct (clex f r') as [u|] eqn:E; [|discriminate].
      rewrite (IH _ _ _ L' E). exact H. }
    destruct (digit c).
    { destruct (span numChar (c :: r)) as [w r']. destruct (number w); [|discriminate].
      destruct (clex f r') as [u|] eqn:E; [|discriminate]. rewrite (IH _ _ _ L' E). exact H. }
    destruct (c =? 34).
    { destruct (span plainChar r) as [w [|x r']]; [discriminate|]. destruct (Z.eq_dec x 34) as [->|NX].
      - destruct (clex f r') as [u|] eqn:E; [|discriminate]. rewrite (IH _ _ _ L' E). exact H.
      - exfalso. revert H. clear - NX. destruct x as [|x|x]; try discriminate. do 6 (destruct x as [x|x|]; try discriminate). congruence. }
    destruct (prefix (codes "/*") (c :: r) || prefix (codes "//") (c :: r)); [discriminate|].
    destruct (munch puncts (c :: r)) as [p|]; [|discriminate].
    destruct (clex f _) as [u|] eqn:E in H; [|discriminate]. rewrite (IH _ _ _ L' E). exact H.
Qed.

Lemma Lx_nil : Lx [] [].
Proof. exists O. reflexivity. Qed.

Lemma Lx_blank c r u : blank c = true -> Lx r u -> Lx (c :: r) u.
Proof. intros B [f H]. exists (S f). cbn [clex]. rewrite B. exact H. Qed.

(* ---- words ---- *)
Definition stop (r : list Z) : Prop := match r with [] => True | c :: _ => numChar c = false end.

Lemma span_app p : forall w r, forallb p w = true -> match r with [] => True | c :: _ => p c = false end ->
  span p (w ++ r) = (w, r).
Proof.
  induction w as [|c w IH]; intros r A B; cbn [app span].
  - destruct r as [|c r]; [reflexivity|]. cbn [span]. rewrite B. reflexivity.
  - cbn [forallb] in A. apply andb_prop in A as [A1 A2]. rewrite A1, (IH r A2 B). reflexivity.
Qed.

Lemma idStart_range c : idStart c = true -> 65 <= c.
Proof. unfold idStart. intros H. repeat rewrite orb_true_iff in H. repeat rewrite andb_true_iff in H. lia. Qed.
Lemma idStart_blank c : idStart c = true -> blank c = false.
Proof. intros H. apply idStart_range in H. unfold blank. rewrite orb_false_iff, andb_false_iff. lia. Qed.
Lemma idChar_num c : numChar c = false -> idChar c = false.
Proof. unfold numChar. rewrite orb_false_iff. tauto. Qed.

Lemma Lx_id w r u : ident w -> stop r -> Lx r u -> Lx (w ++ r) (TId w :: u).
Proof.
  intros I N [f H]. exists (S f). destruct w as [|c w]; [destruct I|]. destruct I as [I1 I2].
  cbn [app clex]. rewrite (idStart_blank c I1), I1.
  change (c :: w ++ r) with ((c :: w) ++ r). rewrite (span_app idChar (c :: w) r).
  - rewrite H. reflexivity.
  - cbn [forallb]. unfold idChar at 1. rewrite I1. exact I2.
  - destruct r as [|d r]; [exact I|]. exact (idChar_num d N).
Qed.

(* ---- numbers ---- *)
Lemma Lx_number d w r u v : digit d = true -> forallb numChar w = true -> number (d :: w) = Some v -> stop r ->
  Lx r u -> Lx ((d :: w) ++ r) (TNum v :: u).
Proof.
  intros D W V N [f H]. exists (S f). cbn [app clex].
  assert (R : 48 <= d <= 57) by (unfold digit in D; rewrite andb_true_iff in D; lia).
  assert (blank d = false) as -> by (unfold blank; rewrite orb_false_iff, andb_false_iff; lia).
  assert (idStart d = false) as -> by (unfold idStart; rewrite !orb_false_iff, !andb_false_iff; lia).
  rewrite D. change (d :: w ++ r) with ((d :: w) ++ r). rewrite (span_app numChar (d :: w) r).
  - rewrite V, H. reflexivity.
  - cbn [forallb]. unfold numChar at 1, idChar. rewrite D, orb_true_r. exact W.
  - destruct r as [|c r]; [exact I|exact N].
Qed.

(* the digits of n, the last first in the accumulator *)
Lemma decF_spec f : forall n acc, 0 <= n < 10 ^ Z.of_nat f -> (0 < f)%nat ->
  exists d w, decF f n acc = (d :: w) ++ acc /\ digit d = true /\ forallb digit w = true /\
    (0 < n -> 48 < d) /\ (n = 0 -> d = 48 /\ w = []) /\
    forall a, numVal 10 a (d :: w) = Some (a * 10 ^ Z.of_nat (List.length (d :: w)) + n).
Proof.
  induction f as [|f IH]; intros n acc R P; [lia|].
  cbn [decF]. pose proof (Z.mod_pos_bound n 10 eq_refl) as M.
  pose proof (Z.div_mod n 10 ltac:(lia)) as DM.
  assert (DG : digit (48 + n mod 10) = true) by (unfold digit; rewrite andb_true_iff; lia).
  assert (DV : digVal (48 + n mod 10) = n mod 10) by (unfold digVal; rewrite DG; lia).
  destruct (Z.eqb_spec (n / 10) 0) as [Z0|NZ].
  - exists (48 + n mod 10), []. repeat split; try reflexivity; try assumption; try lia.
    intros a. cbn [numVal]. rewrite DV. replace (n mod 10 <? 10) with true by (symmetry; apply Z.ltb_lt; lia).
    cbn [List.length]. change (Z.of_nat 1) with 1. f_equal. lia.
  - rewrite Nat2Z.inj_succ, Z.pow_succ_r in R by lia.
    assert (R' : 0 <= n / 10 < 10 ^ Z.of_nat f).
    { split; [apply Z.div_pos; lia|]. apply Z.div_lt_upper_bound; lia. }
    assert (P' : (0 < f)%nat) by (destruct f; [change (10 ^ Z.of_nat 0) with 1 in R'; lia|lia]).
    destruct (IH (n / 10) ((48 + n mod 10) :: acc) R' P') as (d & w & E & D & W & N1 & _ & V).
    exists d, (w ++ [48 + n mod 10]). split; [rewrite E; cbn [app]; rewrite <- app_assoc; reflexivity|].
    split; [exact D|]. split; [rewrite forallb_app, W; cbn [forallb]; rewrite DG; reflexivity|].
    split; [intros _; apply N1; lia|]. split; [lia|].
    intros a. change (d :: w ++ [48 + n mod 10]) with ((d :: w) ++ [48 + n mod 10]).
    assert (APP : forall x b y, numVal 10 b x = Some y -> numVal 10 b (x ++ [48 + n mod 10]) = Some (y * 10 + n mod 10)).
    { induction x as [|c x IHx]; intros b y; cbn [numVal app].
      - intros [= ->]. rewrite DV. replace (n mod 10 <? 10) with true by (symmetry; apply Z.ltb_lt; lia). reflexivity.
      - destruct (digVal c <? 10); [|discriminate]. apply IHx. }
    rewrite (APP _ _ _ (V a)). f_equal.
    replace (List.length ((d :: w) ++ [48 + n mod 10])) with (S (S (List.length w))) by (rewrite app_length; cbn [List.length]; lia).
    cbn [List.length]. rewrite (Nat2Z.inj_succ (S (List.length w))), Z.pow_succ_r by lia. nia.
Qed.

Lemma dec_nat v : 0 <= v -> small v ->
  exists d w, dec v = d :: w /\ digit d = true /\ forallb digit w = true /\ number (d :: w) = Some v.
Proof.
  intros P S. unfold dec. replace (v <? 0) with false by (symmetry; apply Z.ltb_ge; lia).
  unfold small in S. assert (B : 2 ^ 31 < 10 ^ Z.of_nat 20) by reflexivity.
  destruct (decF_spec 20 v [] ltac:(lia) ltac:(lia)) as (d & w & E & D & W & N1 & N0 & V).
  exists d, w. rewrite E, app_nil_r. split; [reflexivity|]. split; [exact D|]. split; [exact W|].
  specialize (V 0). rewrite Z.mul_0_l, Z.add_0_l in V.
  destruct (Z.eq_dec v 0) as [->|NZ].
  - destruct (N0 eq_refl) as [-> ->]. reflexivity.
  - assert (48 < d) by (apply N1; lia). unfold number.
    assert (d <= 57) by (unfold digit in D; rewrite andb_true_iff in D; lia).
    assert (C : d = 49 \/ d = 50 \/ d = 51 \/ d = 52 \/ d = 53 \/ d = 54 \/ d = 55 \/ d = 56 \/ d = 57) by lia.
    repeat (destruct C as [->|C]; [exact V|]). subst d. exact V.
Qed.

Lemma digits_num w : forallb digit w = true -> forallb numChar w = true.
Proof.
  induction w as [|c w IH]; [reflexivity|]. cbn [forallb]. rewrite andb_true_iff. intros [A B].
  rewrite (IH B). unfold numChar, idChar. rewrite A, orb_true_r. reflexivity.
Qed.
Lemma digits_id w : forallb digit w = true -> forallb idChar w = true.
Proof.
  induction w as [|c w IH]; [reflexivity|]. cbn [forallb]. rewrite andb_true_iff. intros [A B].
  rewrite (IH B). unfold idChar. rewrite A, orb_true_r. reflexivity.
Qed.

Lemma Lx_dec v r u : 0 <= v -> small v -> stop r -> Lx r u -> Lx (dec v ++ r) (TNum v :: u).
Proof.
  intros P S N H. destruct (dec_nat v P S) as (d & w & -> & D & W & V).
  exact (Lx_number d w r u v D (digits_num w W) V N H).
Qed.

Lemma strLab_ident l : 0 <= l -> small l -> ident (strLab l).
Proof.
  intros P S. unfold strLab. destruct (dec_nat l P S) as (d & w & -> & D & W & V).
  split; [reflexivity|]. change (forallb idChar (codes "cmm_" ++ ((d :: w) ++ codes "S")) = true).
  rewrite !forallb_app. cbn [forallb]. rewrite (digits_id w W).
  assert (idChar d = true) as -> by (unfold idChar; rewrite D, orb_true_r; reflexivity). reflexivity.
Qed.

Lemma eqs_true a : forall b, eqs a b = true <-> a = b.
Proof.
  induction a as [|x a IH]; intros [|y b]; cbn [eqs]; split; try discriminate; try reflexivity.
  - rewrite andb_true_iff, IH, Z.eqb_eq. intros [-> ->]. reflexivity.
  - intros [= -> ->]. rewrite andb_true_iff, IH, Z.eqb_eq. split; reflexivity.
Qed.

(* ---- punctuators ---- *)
Definition marks : list (list Z) := codes "/*" :: codes "//" :: puncts.
(* no longer mark begins with p and c *)
Definition ends (p : list Z) (c : Z) : bool := forallb (fun q => negb (prefix (p ++ [c]) q)) marks.
(* p is one punctuator and begins like nothing else *)
Definition whole (p : list Z) : bool :=
  match p with c :: _ => negb (blank c || idStart c || digit c || (c =? 34)) | [] => false end
  && negb (prefix (codes "/*") p) && negb (prefix (codes "//") p)
  && match munch puncts p with Some q => eqs q p | None => false end.
Definition joins (p r : list Z) : Prop := match r with [] => True | c :: _ => ends p c = true end.

Lemma prefix_app : forall q p c r, prefix (p ++ [c]) q = false -> prefix q (p ++ c :: r) = prefix q p.
Proof.
  induction q as [|x q IH]; intros p c r H; [reflexivity|].
  destruct p as [|y p]; cbn [app prefix] in *.
  - destruct (Z.eqb_spec c x) as [->|N]; [cbn in H; discriminate|].
    destruct (Z.eqb_spec x c); [congruence|reflexivity].
  - rewrite (Z.eqb_sym x y). destruct (y =? x); cbn [andb] in *; [apply IH; exact H|reflexivity].
Qed.

Lemma munch_app : forall l p c r, forallb (fun q => negb (prefix (p ++ [c]) q)) l = true -> munch l (p ++ c :: r) = munch l p.
Proof.
  induction l as [|q l IH]; intros p c r H; [reflexivity|]. cbn [forallb munch] in *.
  apply andb_prop in H as [A B]. apply negb_true_iff in A. rewrite (prefix_app q p c r A), (IH p c r B). reflexivity.
Qed.

Lemma skipn_app0 (p r : list Z) : skipn (List.length p) (p ++ r) = r.
Proof. induction p as [|c p IH]; [reflexivity|exact IH]. Qed.

Lemma Lx_p p r u : whole p = true -> joins p r -> Lx r u -> Lx (p ++ r) (TP p :: u).
Proof.
  intros W J [f H]. exists (S f). unfold whole in W. rewrite !andb_true_iff, !negb_true_iff in W.
  destruct W as [[[W1 W2] W3] W4].
  assert (E : (prefix (codes "/*") (p ++ r) = false /\ prefix (codes "//") (p ++ r) = false) /\ munch puncts (p ++ r) = munch puncts p).
  { destruct r as [|c r]; [rewrite app_nil_r; auto|]. cbn [joins] in J. unfold ends, marks in J. cbn [forallb] in J.
    rewrite !andb_true_iff, !negb_true_iff in J. destruct J as (J1 & J2 & J3).
    rewrite (prefix_app _ p c r J1), (prefix_app _ p c r J2), (munch_app puncts p c r J3). auto. }
  destruct E as [[E1 E2] E3].
  destruct p as [|c p]; [discriminate|]. rewrite !negb_true_iff, !orb_false_iff in W1. destruct W1 as [[[B I] D] Q].
  change ((c :: p) ++ r) with (c :: p ++ r) in *. cbn [clex]. rewrite B, I, D, Q, E1, E2. cbn [orb]. rewrite E3.
  destruct (munch puncts (c :: p)) as [q|]; [|discriminate]. apply eqs_true in W4. subst q.
  change (c :: p ++ r) with ((c :: p) ++ r). rewrite skipn_app0, H. reflexivity.
Qed.

(* p ends whatever follows *)
Definition closed (p : list Z) : bool := forallb (fun q => negb (prefix p q) || eqs p q) marks.
Lemma prefix_snoc : forall p c q, prefix (p ++ [c]) q = true -> prefix p q = true /\ p <> q.
Proof.
  induction p as [|x p IH]; intros c [|y q]; cbn [app prefix]; try discriminate.
  - intros _. split; [reflexivity|discriminate].
  - rewrite !andb_true_iff. intros [A B]. destruct (IH _ _ B) as [C D]. split; [auto|]. intros [= -> ->]. exact (D eq_refl).
Qed.
Lemma closed_ends p c : closed p = true -> ends p c = true.
Proof.
  unfold closed, ends. rewrite !forallb_forall. intros H q I. specialize (H q I).
  destruct (prefix (p ++ [c]) q) eqn:E; [|reflexivity]. destruct (prefix_snoc _ _ _ E) as [A B].
  rewrite A in H. cbn in H. apply eqs_true in H. contradiction.
Qed.
Lemma joins_closed p r : closed p = true -> joins p r.
Proof. intros H. destruct r as [|c r]; [exact I|]. exact (closed_ends p c H). Qed.

Lemma prefix_in : forall p c q, prefix (p ++ [c]) q = true -> In c q.
Proof.
  induction p as [|x p IH]; intros c [|y q]; cbn [app prefix]; try discriminate.
  - rewrite andb_true_iff, Z.eqb_eq. intros [-> _]. left. reflexivity.
  - rewrite andb_true_iff. intros [_ B]. right. exact (IH _ _ B).
Qed.
Lemma ends_id p c : idChar c = true -> ends p c = true.
Proof.
  intros N. unfold ends. apply forallb_forall. intros q Q.
  destruct (prefix (p ++ [c]) q) eqn:E; [|reflexivity]. exfalso.
  assert (A : forallb (fun q => forallb (fun c => negb (idChar c)) q) marks = true) by (vm_compute; reflexivity).
  rewrite forallb_forall in A. specialize (A q Q). rewrite forallb_forall in A. specialize (A c (prefix_in _ _ _ E)).
  rewrite N in A. discriminate.
Qed.

(* ---- strings ---- *)
Lemma Lx_str w r u : forallb plainChar w = true -> Lx r u -> Lx (34 :: w ++ 34 :: r) (TStr w :: u).
Proof.
  intros W [f H]. exists (S f). cbn [clex].
  change (blank 34) with false. change (idStart 34) with false. change (digit 34) with false. change (34 =? 34) with true. cbv iota.
  rewrite (span_app plainChar w (34 :: r) W eq_refl), H. reflexivity.
Qed.
