(* C35, C36: the heap. *)
From Coq Require Import ZArith Bool List Lia Permutation.
From Verif Require Import LibMem LibStd LibHeap HeapSpec HeapProofs HeapHist.
Import ListNotations.
Open Scope Z_scope.

(* ---- helpers ---- *)
Definition mono {R} (c : comp R) : Prop := forall k r, c k = Some r -> forall k', (k <= k')%nat -> c k' = Some r.
Lemma mono_ret {R} (r : R) : mono (ret r).
Proof. intros k r' H k' _. exact H. Qed.
Lemma mono_bind {A B} (c : comp A) (f : A -> comp B) : mono c -> (forall a, mono (f a)) -> mono (bind c f).
Proof. intros C G k r H k' L. unfold bind in *. destruct (c k) as [a|] eqn:Q; [|discriminate H]. rewrite (C _ _ Q _ L). exact (G a _ _ H _ L). Qed.
Lemma mono_loop {S R} (body : S -> S + R) s : mono (loop body s).
Proof.
  intros k. revert s. induction k as [|k IH]; intros s r H k' L; [discriminate H|]. destruct k' as [|k']; [lia|]. cbn [loop] in *. destruct (body s) as [s'|r']; [|exact H]. apply (IH s' r H). lia.
Qed.
Lemma mono_malloc pool sp siz m alc : mono (malloc pool sp siz m alc).
Proof. apply mono_bind; [apply mono_loop|]. intros [[p b]|e]; [|apply mono_ret]. cbn zeta. match goal with |- mono (if ?c then _ else _) => destruct c end; [apply mono_ret|]. match goal with |- mono (if ?c then _ else _) => destruct c end; apply mono_ret. Qed.
Lemma mono_calloc pool sp n s m alc : mono (calloc pool sp n s m alc).
Proof. apply mono_bind; [apply mono_malloc|]. intros [[[m' a] p]|e]; [|apply mono_ret]. apply mono_bind; [apply mono_loop|]. intros ?. apply mono_ret. Qed.
Lemma mono_returns {R} (c : comp R) k r : mono c -> c k = Some r -> returns c r.
Proof. intros M H. exists k. intros k' L. exact (M _ _ H _ L). Qed.

Section Props.
Variables pool E F : Z.
Hypothesis PL : placed pool E F.

(* the blocks a program holds do not meet; four bytes before each belong to the library *)
Theorem C35_disjoint m alc L1 p1 s1 L2 p2 s2 L3 :
  Reach pool E F m alc (L1 ++ (p1, s1) :: L2 ++ (p2, s2) :: L3) ->
  p1 + s1 <= p2 - 4 \/ p2 + s2 <= p1 - 4.
Proof.
  intros R. destruct (Reach_HI pool E F PL _ _ _ R) as (l & V & _ & _ & _ & bl & PM & F2).
  apply Forall2_app_inv_l in F2. destruct F2 as (b1 & b2 & _ & F2 & ->). inversion F2 as [|? [[a s] u] ? b3 OW F3 EQ1 EQ2]. subst.
  apply Forall2_app_inv_l in F3. destruct F3 as (b4 & b5 & _ & F3 & ->). inversion F3 as [|? [[a' s'] u'] ? b6 OW' _ EQ1 EQ2]. subst.
  destruct OW as (OU & OP & O0 & OS). destruct OW' as (OU' & OP' & O0' & OS'). cbn [fst snd] in *. subst u u'.
  assert (In (a, s, true) (lives l)) as IL by (apply (Permutation_in _ PM); apply in_mid). apply in_lives in IL. destruct IL as (IL & _). apply in_split in IL. destruct IL as (l1 & l2 & ->).
  rewrite lives_app in PM. cbn [lives filter snd] in PM. apply Permutation_app_inv in PM.
  assert (In (a', s', true) (lives l1 ++ lives l2)) as J by (apply (Permutation_in _ PM); apply in_or_app; right; apply in_mid).
  assert (In (a', s', true) (l1 ++ l2)) as J'. { apply in_app_or in J. apply in_or_app. destruct J as [J|J]; apply in_lives in J; destruct J as (J & _); [left|right]; exact J. }
  pose proof (tile_apart E l1 F (a, s, true) l2 a s true a' s' true eq_refl (v_tile _ _ _ _ _ V) J'). lia.
Qed.

(* they lie in the heap, below _alcAddr, at even addresses, with all the bytes asked for *)
Theorem C35_inside m alc L p siz :
  Reach pool E F m alc L -> In (p, siz) L ->
  E + 4 <= p /\ p + siz <= alc /\ alc + 8 <= F /\ Z.even p = true.
Proof.
  intros R I. destruct (Reach_HI pool E F PL _ _ _ R) as (l & V & AE & LA & AF & bl & PM & F2).
  destruct (own_block _ _ _ _ _ PM F2 I) as (s & IB & S0 & S1). pose proof (v_tile _ _ _ _ _ V) as T.
  destruct PL as (P1 & P2 & P3 & P4 & P5 & P6). pose proof (tile_even _ _ _ _ _ _ P3 T IB) as EV. destruct (tile_in _ _ _ _ _ _ T IB) as (B1 & B2 & _).
  split; [lia|]. split; [|split; [exact AF|replace p with (p - 4 + 4) by lia; rewrite Z.even_add, EV; reflexivity]].
  destruct (tile_last E F l (v_last _ _ _ _ _ V) T) as (l0 & a & t & -> & LA' & _). rewrite LA' in LA.
  apply in_app_or in IB. destruct IB as [IB|[IB|[]]]; [|discriminate IB]. apply tile_app in T. destruct T as (c & T1 & T2). cbn [tile] in T2. destruct T2 as (-> & _). destruct (tile_in _ _ _ _ _ _ T1 IB) as (_ & ? & _). lia.
Qed.

(* malloc comes back with a block, or ends the program for want of memory *)
Theorem C35_malloc_total m alc L sp siz :
  Reach pool E F m alc L -> 0 <= siz <= 65530 -> 10 <= sp < 65536 ->
  returns (malloc pool sp siz m alc) (HExit EUNOMEM) \/
  exists m' alc' p, returns (malloc pool sp siz m alc) (HRet (m', alc', p)).
Proof.
  intros R SZ SP. destruct (Reach_HI pool E F PL _ _ _ R) as (l & V & AE & LA & AF & _). destruct PL as (P1 & P2 & P3 & P4 & P5 & P6).
  destruct (malloc_spec pool E F P1 P2 P3 P6 sp siz m alc l V SZ SP ltac:(lia)) as [[RX _]|(l1 & b & t & l2 & s & m1 & EQ & _ & _ & RT & _)]; [left; exact RX|].
  right. exists m1, (Z.max alc (b + s)), (b + 4). exact RT.
Qed.

(* free takes every block the program holds *)
Theorem C35_free_total m alc L1 p siz L2 :
  Reach pool E F m alc (L1 ++ (p, siz) :: L2) -> exists m', returns (free pool p m) (HRet m').
Proof.
  intros R. destruct (Reach_HI pool E F PL _ _ _ R) as (l & H). destruct (HI_free pool E F PL _ _ _ _ _ _ _ H) as (m' & l' & RT & _). exists m'. exact RT.
Qed.

(* what the two calls may change: never a block that is held (nor its header), a variable of the
   program, or its stack *)
Theorem C35_malloc_frame m alc L sp siz m' alc' p x :
  Reach pool E F m alc L -> 0 <= siz <= 65530 -> 10 <= sp < 65536 ->
  returns (malloc pool sp siz m alc) (HRet (m', alc', p)) -> 0 <= x < 65536 ->
  ldb m' x <> ldb m x ->
  (pool <= x < pool + 2 \/ E <= x < sp - 6) /\ forall p' s', In (p', s') L -> ~ p' - 4 <= x < p' + s'.
Proof.
  intros R SZ SP RT X N. destruct (Reach_HI pool E F PL _ _ _ R) as (l & H). pose proof H as (V & _ & _ & _ & bl & PM & F2).
  destruct (HI_malloc pool E F PL _ _ _ _ _ _ _ _ _ H SZ SP RT) as (l' & _ & FR & HX & _). split.
  - destruct (Z_lt_dec x (sp - 6)) as [XS|XS]; [|exfalso; apply N; apply HX; lia].
    destruct (Z_lt_dec x E) as [XE|XE]; [|right; lia]. left. destruct (Z_lt_dec x pool) as [A|A], (Z_lt_dec x (pool + 2)) as [B|B]; try lia; exfalso; apply N; apply FR; try exact X;
    intros [Q|(a & s & I & Q)]; try lia; destruct (tile_in _ _ _ _ _ _ (v_tile _ _ _ _ _ V) I) as (? & _); lia.
  - intros p' s' I Q. destruct (own_block _ _ _ _ _ PM F2 I) as (s & IB & S0 & S1). apply N. apply FR; [exact X|]. apply (untouched pool E F PL m l (p' - 4) s x V IB). lia.
Qed.
Theorem C35_free_frame m alc L1 p siz L2 m' x :
  Reach pool E F m alc (L1 ++ (p, siz) :: L2) ->
  returns (free pool p m) (HRet m') -> 0 <= x < 65536 ->
  ldb m' x <> ldb m x ->
  (pool <= x < pool + 2 \/ E <= x < alc + 4) /\ forall p' s', In (p', s') (L1 ++ L2) -> ~ p' - 4 <= x < p' + s'.
Proof.
  intros R RT X N. destruct (Reach_HI pool E F PL _ _ _ R) as (l & H).
  destruct (HI_free pool E F PL _ _ _ _ _ _ _ H) as (m1 & l' & RT' & (V & _ & _ & _ & bl & PM & F2) & FR & HX & _). pose proof (returns_det _ _ _ RT RT') as Q. injection Q as <-. split.
  - destruct (Z_lt_dec x (alc + 4)) as [XS|XS]; [|exfalso; apply N; apply HX; lia].
    destruct (Z_lt_dec x E) as [XE|XE]; [|right; lia]. left. destruct (Z_lt_dec x pool) as [A|A], (Z_lt_dec x (pool + 2)) as [B|B]; try lia; exfalso; apply N; apply FR; try exact X;
    intros [Q|(a & s & I & Q)]; try lia; destruct (tile_in _ _ _ _ _ _ (v_tile _ _ _ _ _ V) I) as (? & _); lia.
  - intros p' s' I Q. destruct (own_block _ _ _ _ _ PM F2 I) as (s & IB & S0 & S1). apply N. apply FR; [exact X|]. apply (untouched pool E F PL m' l' (p' - 4) s x V IB). lia.
Qed.

(* space that no held block uses is available: if the addresses a..c meet no held block (counting
   the 4 bytes before it and up to 7 bytes of rounding after it), a request that fits in c - a is
   granted, provided the stack is out of the way.  In particular what was freed can be had again,
   and freed neighbours serve a request for their joint size. *)
Theorem C35_available m alc L sp siz a c :
  Reach pool E F m alc L ->
  E <= a -> c + 8 <= F -> (forall p s, In (p, s) L -> p + s + 7 <= a \/ c <= p - 4) ->
  0 <= siz -> siz + 5 <= c - a -> alc + 10 < sp -> c + 10 < sp -> sp < 65536 ->
  exists m' alc' p, returns (malloc pool sp siz m alc) (HRet (m', alc', p)).
Proof.
  intros R EA CF NL S0 SC ASP CSP SP. destruct (Reach_HI pool E F PL _ _ _ R) as (l & V & AE & LA & AF & bl & PM & F2). pose proof PL as (P1 & P2 & P3 & P4 & P5 & P6).
  destruct (malloc_spec pool E F P1 P2 P3 P6 sp siz m alc l V ltac:(lia) ltac:(lia) ltac:(lia)) as [[_ RF]|(l1 & b & t & l2 & s & m1 & EQ & _ & _ & RT & _)]; [exfalso|exists m1, (Z.max alc (b + s)), (b + 4); exact RT].
  pose proof (v_tile _ _ _ _ _ V) as T.
  assert (exists g t, In (g, t, false) l /\ g <= a /\ c <= g + t) as (g & t & IG & GA & GC).
  { apply (gap_free l E F a c T (v_adj _ _ _ _ _ V)); try lia. intros x s I.
    assert (In (x, s, true) (lives l)) as J by (apply in_lives; split; [exact I|reflexivity]). apply (Permutation_in _ (Permutation_sym PM)) in J.
    assert (exists p siz, In (p, siz) L /\ own (p, siz) (x, s, true)) as (p & siz' & IP & OU & OP & O0 & OS).
    { clear - F2 J. induction F2 as [|[p siz] b L bl H _ IH]; [contradiction|]. destruct J as [->|J]; [exists p, siz; split; [left; reflexivity|exact H]|]. destruct (IH J) as (p' & s' & I & O). exists p', s'. split; [right; exact I|exact O]. }
    cbn [fst snd] in *. destruct (NL _ _ IP); lia. }
  destruct RF as (s & SB & [SM|(l1 & b & t' & l2 & EQ & SM & ST & WHY)]); [specialize (SM _ _ IG); lia|].
  pose proof T as T'. rewrite EQ in T'. apply tile_app in T'. destruct T' as (c' & T1 & T2). cbn [tile] in T2. destruct T2 as (<- & T4 & TE & T2). pose proof (tile_le _ _ _ T2) as TL. pose proof (tile_le _ _ _ T1) as TL1.
  assert (l2 <> [] -> b + t' <= lastA l /\ nf l2 0 <> 0) as NL2.
  { intros N. assert (lastA l = lastA l2) as -> by (rewrite EQ; change ((b, t', false) :: l2) with ([(b, t', false)] ++ l2); rewrite !lastA_app by (try exact N; discriminate); reflexivity). split; [exact (lastA_ge _ _ _ N T2)|].
    assert (lastF l2 = true) as LF by (pose proof (v_last _ _ _ _ _ V) as LF; rewrite EQ, lastF_app in LF by discriminate; destruct l2; [congruence|exact LF]).
    destruct (nf_last l2 0 LF) as (b' & u & la & lb & EQ2 & _ & ->). rewrite EQ2 in T2. destruct (tile_in _ _ _ b' u false T2 (in_mid _ _ _)) as (? & _). lia. }
  destruct l2 as [|c2 l2].
  - (* the last block: it is the one with the room *)
    cbn [tile] in T2. assert (g = b) as ->.
    { rewrite EQ in IG. apply in_app_or in IG. destruct IG as [IG|[IG|[]]]; [specialize (SM _ _ IG); lia|congruence]. }
    lia.
  - destruct (NL2 ltac:(intros X; discriminate X)) as (Q1 & Q2). lia.
Qed.

(* a block freed once cannot be freed again *)
Theorem C35_double_free m alc L1 p siz L2 m' :
  Reach pool E F m alc (L1 ++ (p, siz) :: L2) -> returns (free pool p m) (HRet m') ->
  returns (free pool p m') (HExit EUBADA).
Proof.
  intros R RT. destruct (Reach_HI pool E F PL _ _ _ R) as (l & H). pose proof PL as (P1 & P2 & P3 & P4 & P5 & P6). pose proof H as (V0 & _).
  destruct (HI_free pool E F PL _ _ _ _ _ _ _ H) as (m1 & l' & RT' & (V & _) & _ & _ & (s & IS & NL)). pose proof (returns_det _ _ _ RT RT') as Q. injection Q as <-.
  destruct (tile_in _ _ _ _ _ _ (v_tile _ _ _ _ _ V0) IS) as (B1 & B2 & B3 & _).
  destruct (cover l' E F (p - 4) (v_tile _ _ _ _ _ V) ltac:(lia)) as (a & w & u & I & B). destruct u; [destruct (NL _ _ I); lia|].
  apply in_split in I. destruct I as (la & lb & ->). apply (free_bad pool E F P1 P2 P6 p (p - 4) m' la a w lb); [unfold wd; apply Z.mod_small; lia|exact V|exact B].
Qed.
(* nor is any address accepted that lies in the heap outside the held blocks *)
Theorem C35_free_rejects m alc L p :
  Reach pool E F m alc L -> E <= p - 4 < F ->
  (forall p' s, In (p', s) L -> p' + s + 7 <= p - 4 \/ p - 4 < p' - 4) ->
  returns (free pool p m) (HExit EUBADA).
Proof.
  intros R EP NL. destruct (Reach_HI pool E F PL _ _ _ R) as (l & V & _ & _ & _ & bl & PM & F2). pose proof PL as (P1 & P2 & P3 & P4 & P5 & P6).
  destruct (cover l E F (p - 4) (v_tile _ _ _ _ _ V) EP) as (a & w & u & I & B). destruct u.
  - exfalso. assert (In (a, w, true) (lives l)) as J by (apply in_lives; split; [exact I|reflexivity]). apply (Permutation_in _ (Permutation_sym PM)) in J.
    assert (exists p siz, In (p, siz) L /\ own (p, siz) (a, w, true)) as (p' & siz' & IP & OU & OP & O0 & OS).
    { clear - F2 J. induction F2 as [|[q siz] b L bl H _ IH]; [contradiction|]. destruct J as [->|J]; [exists q, siz; split; [left; reflexivity|exact H]|]. destruct (IH J) as (p' & s' & I & O). exists p', s'. split; [right; exact I|exact O]. }
    cbn [fst snd] in *. destruct (NL _ _ IP); lia.
  - apply in_split in I. destruct I as (la & lb & ->). apply (free_bad pool E F P1 P2 P6 p (p - 4) m la a w lb); [unfold wd; apply Z.mod_small; lia|exact V|exact B].
Qed.

(* ---- calloc ---- *)
Lemma clear_loop k p alc L : 0 <= k <= 32767 -> In (p, k) L -> forall d i m, Z.of_nat d = k - i -> 0 <= i -> Reach pool E F m alc L -> (forall x, p <= x < p + i -> ldb m x = 0) ->
  exists m', returns (loop (fun '(i, m) => if i <? k then inl (i16 (i + 1), stb m (p + i) 0) else inr m) (i, m)) m' /\ Reach pool E F m' alc L /\
    (forall x, p <= x < p + k -> ldb m' x = 0) /\ (forall x, 0 <= x < 65536 -> ~ p <= x < p + k -> ldb m' x = ldb m x).
Proof.
  intros K IN. pose proof PL as (P1 & P2 & P3 & P4 & P5 & P6).
  induction d as [|d IH]; intros i m D I0 R ZE.
  - exists m. split; [apply returns_done; destruct (Z.ltb_spec i k); [lia|reflexivity]|]. split; [exact R|]. split; [intros x X; apply ZE; lia|auto].
  - destruct (C35_inside _ _ _ _ _ R IN) as (B1 & B2 & B3 & _).
    destruct (IH (i + 1) (stb m (p + i) 0) ltac:(lia) ltac:(lia)) as (m' & RT & R' & Z1 & Z2).
    + apply r_write; [exact R|lia|]. left. exists p, k. split; [exact IN|lia].
    + intros x X. destruct (Z.eq_dec x (p + i)) as [->|N]; [|rewrite stb_out by lia; apply ZE; lia]. unfold ldb, stb. rewrite Z.eqb_refl. reflexivity.
    + exists m'. split; [|split; [exact R'|split; [exact Z1|]]].
      * apply (returns_step _ (i, m) (i + 1, stb m (p + i) 0)); [|exact RT]. destruct (Z.ltb_spec i k); [|lia]. replace (i16 (i + 1)) with (i + 1) by (unfold i16; rewrite Z.mod_small; lia). reflexivity.
      * intros x X N. rewrite Z2 by assumption. apply stb_out; lia.
Qed.
Theorem C36_calloc_partial m alc L sp n s :
  Reach pool E F m alc L -> 0 <= n * s <= 32767 -> 10 <= sp < 65536 ->
  returns (calloc pool sp n s m alc) (HExit EUNOMEM) \/
  exists m' alc' p, returns (calloc pool sp n s m alc) (HRet (m', alc', p)) /\
    Reach pool E F m' alc' ((p, n * s) :: L) /\
    (forall x, p <= x < p + n * s -> ldb m' x = 0) /\
    (forall p' s' x, In (p', s') L -> p' <= x < p' + s' -> ldb m' x = ldb m x).
Proof.
  intros R K SP. assert (i16 (n * s) = n * s) as I16 by (unfold i16; rewrite Z.mod_small; lia). unfold calloc. rewrite I16.
  destruct (C35_malloc_total _ _ _ sp (n * s) R ltac:(lia) SP) as [RT|(m1 & alc' & p & RT)]; [left; eapply returns_bind; [exact RT|apply returns_ret]|].
  right. assert (Reach pool E F m1 alc' ((p, n * s) :: L)) as R1 by (apply (r_malloc pool E F m alc L sp (n * s)); [exact R|lia|exact SP|exact RT]).
  destruct (clear_loop (n * s) p alc' ((p, n * s) :: L) K (or_introl eq_refl) (Z.to_nat (n * s)) 0 m1 ltac:(lia) ltac:(lia) R1) as (m' & RT' & R' & Z1 & Z2); [intros x X; lia|].
  exists m', alc', p. split; [|split; [exact R'|split; [exact Z1|]]].
  - eapply returns_bind; [exact RT|]. cbn beta iota. eapply returns_bind; [exact RT'|]. apply returns_ret.
  - intros p' s' x I X. pose proof PL as (P1 & P2 & P3 & P4 & P5 & P6). apply in_split in I. destruct I as (La & Lb & ->).
    pose proof (C35_disjoint m1 alc' [] p (n * s) La p' s' Lb R1) as DJ.
    destruct (C35_inside _ _ _ p' s' R1 (or_intror (in_mid _ _ _))) as (? & ? & ? & _).
    rewrite Z2 by lia. destruct (Z.eq_dec (ldb m1 x) (ldb m x)) as [Q|Q]; [exact Q|exfalso].
    destruct (C35_malloc_frame m alc _ sp (n * s) m1 alc' p x R ltac:(lia) SP RT ltac:(lia) Q) as (_ & W). apply (W p' s' (in_mid _ _ _)). lia.
Qed.
End Props.

(* ---- a concrete heap ---- *)
Definition m0 : mem := fun x => if (100 <=? x) && (x <? 104) then 0 else 255.
Lemma placed0 : placed 100 200 60000.
Proof. unfold placed. repeat split; lia. Qed.
Definition h0 : mem * Z := stdlibInit 100 200 60000 m0.
Lemma reach0 : Reach 100 200 60000 (fst h0) 200 [].
Proof. apply (r_init _ _ _ m0); [reflexivity|]. reflexivity. Qed.
Example C35_example_two : exists m alc p1 p2, Reach 100 200 60000 m alc [(p2, 31); (p1, 10)] /\ p1 <> p2.
Proof.
  destruct (C35_available 100 200 60000 placed0 _ _ [] 50000 10 200 400 reach0) as (m1 & a1 & p1 & R1); try lia; [intros p s []|].
  assert (Reach 100 200 60000 m1 a1 [(p1, 10)]) as H1 by (apply (r_malloc _ _ _ _ _ _ 50000 10 _ _ _ reach0); [lia|lia|exact R1]).
  assert (a1 = 214 /\ p1 = 204) as [-> ->].
  { destruct R1 as (n & R1). destruct (malloc 100 50000 10 (fst h0) 200 5%nat) as [[[[m' a'] p']|e]|] eqn:EQ.
    - pose proof (mono_malloc 100 50000 10 (fst h0) 200 5%nat _ EQ (Nat.max n 5%nat) ltac:(lia)) as X. rewrite (R1 (Nat.max n 5%nat) ltac:(lia)) in X. injection X as -> -> ->.
      assert (match malloc 100 50000 10 (fst h0) 200 5%nat with Some (HRet (_, a, p)) => (a, p) | _ => (0, 0) end = (214, 204)) as Y by (vm_compute; reflexivity). rewrite EQ in Y. injection Y as -> ->. split; reflexivity.
    - exfalso. assert (match malloc 100 50000 10 (fst h0) 200 5%nat with Some (HRet (_, a, p)) => (a, p) | _ => (0, 0) end = (214, 204)) as Y by (vm_compute; reflexivity). rewrite EQ in Y. discriminate Y.
    - exfalso. assert (match malloc 100 50000 10 (fst h0) 200 5%nat with Some (HRet (_, a, p)) => (a, p) | _ => (0, 0) end = (214, 204)) as Y by (vm_compute; reflexivity). rewrite EQ in Y. discriminate Y. }
  destruct (C35_available 100 200 60000 placed0 _ _ _ 50000 31 300 400 H1) as (m2 & a2 & p2 & R2); try lia; [intros p s [X|[]]; injection X as <- <-; lia|].
  assert (Reach 100 200 60000 m2 a2 [(p2, 31); (204, 10)]) as H2 by (apply (r_malloc _ _ _ _ _ _ 50000 31 _ _ _ H1); [lia|lia|exact R2]).
  exists m2, a2, 204, p2. split; [exact H2|]. intros X. pose proof (C35_disjoint 100 200 60000 placed0 m2 a2 [] p2 31 [] 204 10 [] H2). lia.
Qed.

(* a request of 65533 bytes, malloc(-3), wraps to a block of two bytes and is granted *)
Theorem C35_wrap_refuted : exists m alc sp siz m' alc' p,
  Reach 100 200 60000 m alc [] /\ returns (malloc 100 sp siz m alc) (HRet (m', alc', p)) /\ siz = 65533 /\ alc' < p + siz /\ 65536 < p + siz.
Proof.
  exists (fst h0), 200, 50000, 65533. destruct (malloc 100 50000 65533 (fst h0) 200 5%nat) as [r|] eqn:EQ.
  - assert (match malloc 100 50000 65533 (fst h0) 200 5%nat with Some (HRet (_, a, p)) => (a, p) | _ => (0, 0) end = (202, 204)) as Y by (vm_compute; reflexivity). rewrite EQ in Y.
    destruct r as [[[m' a'] p']|e]; [|discriminate Y]. injection Y as -> ->. exists m', 202, 204. split; [exact reach0|]. split; [apply (mono_returns _ 5%nat _ (mono_malloc _ _ _ _ _) EQ)|lia].
  - exfalso. assert (match malloc 100 50000 65533 (fst h0) 200 5%nat with Some (HRet (_, a, p)) => (a, p) | _ => (0, 0) end = (202, 204)) as Y by (vm_compute; reflexivity). rewrite EQ in Y. discriminate Y.
Qed.

(* calloc(2, 20000): the product is negative as an int and nothing is cleared *)
Theorem C36_uncleared_refuted : exists m alc sp n s m' alc' p x,
  Reach 100 200 60000 m alc [] /\ returns (calloc 100 sp n s m alc) (HRet (m', alc', p)) /\ p <= x < p + n * s /\ p + n * s <= alc' /\ ldb m' x <> 0.
Proof.
  exists (fst h0), 200, 50000, 2, 20000. destruct (calloc 100 50000 2 20000 (fst h0) 200 5%nat) as [r|] eqn:EQ.
  - assert (match calloc 100 50000 2 20000 (fst h0) 200 5%nat with Some (HRet (m, a, p)) => (a, p, ldb m (p + 10)) | _ => (0, 0, 0) end = (40204, 204, 255)) as Y by (vm_compute; reflexivity). rewrite EQ in Y.
    destruct r as [[[m' a'] p']|e]; [|discriminate Y]. injection Y as -> -> Y. exists m', 40204, 204, (204 + 10). split; [exact reach0|]. split; [apply (mono_returns _ 5%nat _ (mono_calloc _ _ _ _ _ _) EQ)|]. split; [lia|]. split; [lia|]. rewrite Y. lia.
  - exfalso. assert (match calloc 100 50000 2 20000 (fst h0) 200 5%nat with Some (HRet (m, a, p)) => (a, p, ldb m (p + 10)) | _ => (0, 0, 0) end = (40204, 204, 255)) as Y by (vm_compute; reflexivity). rewrite EQ in Y. discriminate Y.
Qed.
(* calloc(256, 257): the product wraps to 256 *)
Theorem C36_overflow_refuted : exists m alc sp n s m' alc' p,
  Reach 100 200 60000 m alc [] /\ returns (calloc 100 sp n s m alc) (HRet (m', alc', p)) /\ 0 < n < 300 /\ 0 < s < 300 /\ alc' < p + n * s.
Proof.
  exists (fst h0), 200, 50000, 256, 257. destruct (calloc 100 50000 256 257 (fst h0) 200 500%nat) as [r|] eqn:EQ.
  - assert (match calloc 100 50000 256 257 (fst h0) 200 500%nat with Some (HRet (m, a, p)) => (a, p) | _ => (0, 0) end = (460, 204)) as Y by (vm_compute; reflexivity). rewrite EQ in Y.
    destruct r as [[[m' a'] p']|e]; [|discriminate Y]. injection Y as -> ->. exists m', 460, 204. split; [exact reach0|]. split; [apply (mono_returns _ 500%nat _ (mono_calloc _ _ _ _ _ _) EQ)|lia].
  - exfalso. assert (match calloc 100 50000 256 257 (fst h0) 200 500%nat with Some (HRet (m, a, p)) => (a, p) | _ => (0, 0) end = (460, 204)) as Y by (vm_compute; reflexivity). rewrite EQ in Y. discriminate Y.
Qed.
Example C36_example : exists m' alc' p, returns (calloc 100 50000 3 7 (fst h0) 200) (HRet (m', alc', p)) /\ forall x, p <= x < p + 21 -> ldb m' x = 0.
Proof.
  destruct (C36_calloc_partial 100 200 60000 placed0 _ _ [] 50000 3 7 reach0 ltac:(lia) ltac:(lia)) as [R|(m' & a & p & R & _ & Z1 & _)]; [exfalso|exists m', a, p; split; [exact R|exact Z1]].
  assert (match calloc 100 50000 3 7 (fst h0) 200 50%nat with Some (HRet _) => true | _ => false end = true) as Y by (vm_compute; reflexivity).
  destruct (calloc 100 50000 3 7 (fst h0) 200 50%nat) as [[x|e]|] eqn:EQ; try discriminate Y. pose proof (returns_det _ _ _ R (mono_returns _ 50%nat _ (mono_calloc _ _ _ _ _ _) EQ)) as X. discriminate X.
Qed.

Print Assumptions C35_disjoint.
Print Assumptions C35_inside.
Print Assumptions C35_malloc_total.
Print Assumptions C35_free_total.
Print Assumptions C35_malloc_frame.
Print Assumptions C35_free_frame.
Print Assumptions C35_available.
Print Assumptions C35_double_free.
Print Assumptions C35_free_rejects.
Print Assumptions C36_calloc_partial.
Print Assumptions C35_wrap_refuted.
Print Assumptions C36_uncleared_refuted.
Print Assumptions C36_overflow_refuted.
