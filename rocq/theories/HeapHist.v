(* The invariant of all histories. *)
From Coq Require Import ZArith Bool List Lia Permutation.
From Verif Require Import LibMem LibStd LibHeap HeapSpec HeapProofs.
Import ListNotations.
Open Scope Z_scope.

Section Hist.
Variables pool E F : Z.
Hypothesis PL : placed pool E F.

Definition own (x : Z * Z) (b : blk) : Prop :=
  snd b = true /\ fst x = fst (fst b) + 4 /\ 0 <= snd x /\ snd x + 4 <= snd (fst b) <= snd x + 11.
Definition HI (m : mem) (alc : Z) (L : list (Z * Z)) (l : list blk) : Prop :=
  Inv pool E F m l /\ E <= alc /\ lastA l <= alc /\ alc + 8 <= F /\
  exists bl, Permutation bl (lives l) /\ Forall2 own L bl.

Lemma stb_out m a v x : 0 <= a < 65536 -> 0 <= x < 65536 -> x <> a -> ldb (stb m a v) x = ldb m x.
Proof. intros A X N. unfold ldb, stb. rewrite (Z.mod_small x), (Z.mod_small a) by lia. destruct (Z.eqb_spec x a); [contradiction|reflexivity]. Qed.
Lemma in_lives x l : In x (lives l) <-> In x l /\ snd x = true.
Proof. unfold lives. apply filter_In. Qed.
Lemma F2_in {A B} (R : A -> B -> Prop) x L bl : Forall2 R L bl -> In x L -> exists b, In b bl /\ R x b.
Proof. induction 1 as [|y b L bl H _ IH]; intros I; [contradiction|]. destruct I as [->|I]; [exists b; split; [left; reflexivity|exact H]|]. destruct (IH I) as (b' & I' & H'). exists b'. split; [right; exact I'|exact H']. Qed.
Lemma own_block L bl l p siz : Permutation bl (lives l) -> Forall2 own L bl -> In (p, siz) L -> exists s, In (p - 4, s, true) l /\ 0 <= siz /\ siz + 4 <= s <= siz + 11.
Proof.
  intros PM F2 I. destruct (F2_in _ _ _ _ F2 I) as ([[a s] u] & IB & OU & OP & O0 & OS). cbn [fst snd] in *. apply (Permutation_in _ PM) in IB. apply in_lives in IB. destruct IB as (IB & _). subst u.
  exists s. replace (p - 4) with a by lia. split; [exact IB|lia].
Qed.
Lemma free_not_live l a s x t : tile E l F -> In (a, s, true) l -> In (x, t, false) l -> x + t <= a \/ a + s <= x.
Proof.
  intros T I J. apply in_split in I. destruct I as (l1 & l2 & ->). apply (tile_apart E l1 F (a, s, true) l2 a s true x t false eq_refl T). apply in_app_or in J. apply in_or_app. destruct J as [J|[J|J]]; [left; exact J|discriminate J|right; exact J].
Qed.
Lemma untouched m l a s x : Inv pool E F m l -> In (a, s, true) l -> a <= x < a + s -> ~ touched pool l x.
Proof.
  destruct PL as (P1 & P2 & P3 & P4 & P5 & P6). intros V I X [H|(y & t & J & H)].
  - destruct (tile_in _ _ _ _ _ _ (v_tile _ _ _ _ _ V) I) as (? & _). lia.
  - pose proof (free_not_live _ _ _ _ _ (v_tile _ _ _ _ _ V) I J). lia.
Qed.
Lemma tile_last l : lastF l = true -> tile E l F -> exists l0 a t, l = l0 ++ [(a, t, false)] /\ lastA l = a /\ a + t = F /\ 4 <= t /\ E <= a.
Proof.
  intros LF T. destruct (last_cases l) as [(l0 & a & t & ->)|N]; [|congruence]. exists l0, a, t. split; [reflexivity|]. split; [rewrite lastA_app by discriminate; reflexivity|].
  apply tile_app in T. destruct T as (c & T1 & T2). pose proof (tile_le _ _ _ T1). cbn [tile] in T2. destruct T2 as (-> & ? & _ & ?). lia.
Qed.

Lemma HI_init m m' alc : ldw m (pool + 2) = 0 -> stdlibInit pool E F m = (m', alc) -> HI m' alc [] [(E, F - E, false)].
Proof.
  destruct PL as (P1 & P2 & P3 & P4 & P5 & P6). intros Z0 IN. unfold stdlibInit, setNext, setSize, nextOf in IN.
  replace (ldw (stw m pool E) pool) with E in IN by (symmetry; apply ldw_in; lia). replace (wd (F - E)) with (F - E) in IN by (unfold wd; rewrite Z.mod_small; lia). injection IN as <- <-.
  split.
  - constructor.
    + cbn [tile]. split; [reflexivity|]. split; [lia|]. split; [rewrite Z.even_sub, P3, P4; reflexivity|lia].
    + cbn [hdN nf]. split; [|split; [|exact I]]; [rewrite ldw_out by lia; apply ldw_in; lia|apply ldw_in; lia].
    + cbn [nf]. rewrite ldw_out by lia. rewrite ldw_out by lia. apply ldw_in. lia.
    + rewrite ldw_out by lia. rewrite ldw_out by lia. rewrite ldw_out by lia. exact Z0.
    + cbn. split; [reflexivity|exact I].
    + reflexivity.
  - cbn [lastA]. split; [lia|]. split; [lia|]. split; [lia|]. exists []. split; [constructor|constructor].
Qed.

Lemma HI_malloc m alc L l sp siz m' alc' p : HI m alc L l -> 0 <= siz <= 65530 -> 10 <= sp < 65536 -> returns (malloc pool sp siz m alc) (HRet (m', alc', p)) ->
  exists l', HI m' alc' ((p, siz) :: L) l' /\ frame pool l m m' /\ (forall x, sp - 6 <= x < 65536 -> ldb m' x = ldb m x) /\ p + siz <= alc' /\ p + siz < sp - 10.
Proof.
  destruct PL as (P1 & P2 & P3 & P4 & P5 & P6). intros (V & AE & LA & AF & bl & PM & F2) SZ SP RT.
  destruct (malloc_spec pool E F P1 P2 P3 P6 sp siz m alc l V SZ SP ltac:(lia)) as [[RX _]|(l1 & b & t & l2 & s & m1 & EQ & (S1 & S2 & S3 & S4) & SPB & RT' & V' & FR & HX)].
  - pose proof (returns_det _ _ _ RT RX) as X. discriminate X.
  - pose proof (returns_det _ _ _ RT RT') as X. injection X as -> -> ->. exists (given l1 b t s l2).
    assert (lives (given l1 b t s l2) = lives l1 ++ (b, s, true) :: lives l2) as LG.
    { unfold given. destruct (Z.eqb_spec s t) as [->|N]; rewrite lives_app; reflexivity. }
    assert (lives l = lives l1 ++ lives l2) as LL by (rewrite EQ, lives_app; reflexivity).
    destruct (tile_last l (v_last _ _ _ _ _ V) (v_tile _ _ _ _ _ V)) as (l0 & a & t' & EQ' & LA' & AT & T4 & AE').
    assert (tile E l F) as T by exact (v_tile _ _ _ _ _ V). rewrite EQ in T. apply tile_app in T. destruct T as (c & T1 & T2). cbn [tile] in T2. destruct T2 as (<- & T4' & TE & T2).
    pose proof (tile_le _ _ _ T1). pose proof (tile_le _ _ _ T2).
    assert (lastA (given l1 b t s l2) <= Z.max alc (b + s) /\ Z.max alc (b + s) + 8 <= F) as [Q1 Q2].
    { unfold given in *. destruct (Z.eqb_spec s t) as [->|N].
      - specialize (S3 eq_refl). assert (l2 <> []) as N2 by (intros ->; apply S3; reflexivity).
        change ((b, t, true) :: l2) with ([(b, t, true)] ++ l2). rewrite !lastA_app by (try exact N2; discriminate).
        assert (lastA l = lastA l2) as LL2 by (rewrite EQ; change ((b, t, false) :: l2) with ([(b, t, false)] ++ l2); rewrite !lastA_app by (try exact N2; discriminate); reflexivity).
        pose proof (lastA_ge l2 _ _ N2 T2). lia.
      - specialize (S4 N). assert (Z.even s = true) as SE.
        { pose proof (v_tile _ _ _ _ _ V') as TV. destruct (tile_in _ _ _ b s true TV (in_mid _ _ _)) as (_ & _ & _ & X). exact X. }
        assert (s + 8 <= t) as S8. { destruct (Z.eq_dec t (s + 7)) as [X|X]; [|lia]. rewrite X, Z.even_add, SE in TE. discriminate TE. }
        change ((b, s, true) :: (b + s, t - s, false) :: l2) with ([(b, s, true)] ++ (b + s, t - s, false) :: l2). rewrite !lastA_app by discriminate.
        assert (lastA l = lastA ((b, t, false) :: l2)) as LL2 by (rewrite EQ, lastA_app by discriminate; reflexivity).
        destruct l2 as [|c2 l2]; [cbn [lastA]; cbn [tile] in T2; lia|].
        assert (c2 :: l2 <> []) as N2 by (intros X; discriminate X). pose proof (lastA_ge _ _ _ N2 T2).
        change (lastA ((b, t, false) :: c2 :: l2)) with (lastA (c2 :: l2)) in LL2. change (lastA ((b + s, t - s, false) :: c2 :: l2)) with (lastA (c2 :: l2)). lia. }
    split; [|split; [exact FR|split; [exact HX|lia]]]. split; [exact V'|]. split; [lia|]. split; [exact Q1|]. split; [exact Q2|].
    exists ((b, s, true) :: bl). split.
    + rewrite LG. apply Permutation_cons_app. rewrite LL in PM. exact PM.
    + constructor; [|exact F2]. unfold own. cbn [fst snd]. lia.
Qed.

Lemma HI_free m alc L1 p siz L2 l : HI m alc (L1 ++ (p, siz) :: L2) l ->
  exists m' l', returns (free pool p m) (HRet m') /\ HI m' alc (L1 ++ L2) l' /\ frame pool l' m m' /\ (forall x, alc + 4 <= x < 65536 -> ldb m' x = ldb m x) /\
    (exists s, In (p - 4, s, true) l /\ forall a w, In (a, w, true) l' -> a + w <= p - 4 \/ p - 4 + s <= a).
Proof.
  destruct PL as (P1 & P2 & P3 & P4 & P5 & P6). intros (V & AE & LA & AF & bl & PM & F2).
  apply Forall2_app_inv_l in F2. destruct F2 as (bl1 & bl2 & F21 & F22 & ->). inversion F22 as [|? [[a s] u] ? bl2' OW F23 EQ1 EQ2]. subst.
  destruct OW as (OU & OP & O0 & OS). cbn [fst snd] in *. subst u.
  assert (In (a, s, true) (lives l)) as IL by (apply (Permutation_in _ PM); apply in_mid). apply in_lives in IL. destruct IL as (IL & _).
  apply in_split in IL. destruct IL as (l1 & l2 & ->).
  destruct (free_spec pool E F P1 P2 P6 a s m l1 l2 V) as (m' & l' & RT & V' & LV & FR & LA' & HX).
  exists m', l'. replace p with (a + 4) by lia. split; [exact RT|]. split; [|split; [exact FR|split]].
  - split; [exact V'|]. split; [exact AE|]. split; [exact (Z.le_trans _ _ _ LA' LA)|]. split; [exact AF|]. exists (bl1 ++ bl2'). split; [|apply Forall2_app; assumption].
    rewrite LV, lives_app. rewrite lives_app in PM. cbn [lives filter snd] in PM. apply Permutation_app_inv in PM. exact PM.
  - intros x X. apply HX. split; [|lia]. apply Z.le_trans with (alc + 4); [|lia]. apply Z.add_le_mono_r. exact LA.
  - exists s. replace (a + 4 - 4) with a by lia. split; [apply in_mid|]. intros b w I.
    assert (In (b, w, true) (lives (l1 ++ l2))) as J. { assert (In (b, w, true) (lives l')) as J by (apply in_lives; split; [exact I|reflexivity]). rewrite LV in J. exact J. } apply in_lives in J. destruct J as (J & _).
    apply (tile_apart E l1 F (a, s, true) l2 a s true b w true eq_refl (v_tile _ _ _ _ _ V) J).
Qed.

(* a byte that no header uses *)
Lemma Inv_write m l x v : Inv pool E F m l -> 0 <= x < 65536 -> ~ pool <= x < pool + 4 -> (forall a s u, In (a, s, u) l -> ~ a <= x < a + 4) -> Inv pool E F (stb m x v) l.
Proof.
  destruct PL as (P1 & P2 & P3 & P4 & P5 & P6). intros [T H R Z0 AD LF] X NP NH. pose proof (tile_le _ _ _ T) as TL.
  constructor; try assumption.
  - assert (forall l lo, 0 <= lo -> tile lo l F -> (forall a s u, In (a, s, u) l -> ~ a <= x < a + 4) -> hdN pool m l 0 -> hdN pool (stb m x v) l 0) as G; [|apply (G l E ltac:(lia) T NH H)].
    clear - X P6. induction l as [|[[a s] u] l IH]; intros lo LO T NH H; [exact I|]. cbn [tile hdN] in *. destruct T as (-> & S4 & _ & T). pose proof (tile_le _ _ _ T). destruct H as (H1 & H2 & H3).
    pose proof (NH lo s u (or_introl eq_refl)) as N. split; [rewrite <- H1; apply ldw_eq; apply stb_out; lia|]. split; [rewrite <- H2; apply ldw_eq; apply stb_out; lia|].
    apply (IH (lo + s)); [lia|exact T| |exact H3]. intros a' s' u' J. apply (NH a' s' u' (or_intror J)).
  - rewrite <- R. apply ldw_eq; apply stb_out; lia.
  - rewrite <- Z0. apply ldw_eq; apply stb_out; lia.
Qed.
Lemma HI_write m alc L l x v : HI m alc L l -> 0 <= x < 65536 -> (exists p siz, In (p, siz) L /\ p <= x < p + siz) \/ (~ pool <= x < pool + 4 /\ ~ E <= x < alc + 4) -> HI (stb m x v) alc L l.
Proof.
  destruct PL as (P1 & P2 & P3 & P4 & P5 & P6). intros (V & AE & LA & AF & bl & PM & F2) X W. pose proof (v_tile _ _ _ _ _ V) as T.
  split; [|split; [exact AE|split; [exact LA|split; [exact AF|exists bl; split; assumption]]]].
  destruct W as [(p & siz & I & W)|(W1 & W2)].
  - destruct (own_block _ _ _ _ _ PM F2 I) as (s & IB & S0 & S1). destruct (tile_in _ _ _ _ _ _ T IB) as (? & ? & _). apply Inv_write; try assumption; [lia|].
    intros a w u J B. apply in_split in IB. destruct IB as (l1 & l2 & ->). apply in_app_or in J. destruct J as [J|[J|J]].
    + destruct (tile_apart E l1 F _ l2 _ s true a w u eq_refl T (in_or_app _ _ _ (or_introl J))) as [Y|Y]; [|lia]. destruct (tile_in _ _ _ _ _ _ T (in_or_app _ _ _ (or_introl J))) as (_ & _ & ? & _). lia.
    + injection J as <- <- <-. lia.
    + destruct (tile_apart E l1 F _ l2 _ s true a w u eq_refl T (in_or_app _ _ _ (or_intror J))) as [Y|Y]; [|lia].
      destruct (tile_in _ _ _ _ _ _ T (in_or_app l1 ((p - 4, s, true) :: l2) (a, w, u) (or_intror (or_intror J)))) as (_ & _ & ? & _). lia.
  - apply Inv_write; try assumption. intros a w u J B. destruct (tile_in _ _ _ _ _ _ T J) as (? & _).
    assert (a <= lastA l) as AL; [|lia]. apply in_split in J. destruct J as (l1 & l2 & ->). rewrite lastA_app by discriminate. apply tile_app in T. destruct T as (c & _ & T). assert (c = a) as -> by (cbn [tile] in T; destruct T; congruence).
    apply (lastA_ge _ a F); [discriminate|exact T].
Qed.
Theorem Reach_HI m alc L : Reach pool E F m alc L -> exists l, HI m alc L l.
Proof.
  induction 1 as [m m' alc Z0 IN|m alc L sp siz m' alc' p _ (l & IH) SZ SP RT|m alc L1 p siz L2 m' _ (l & IH) RT|m alc L x v _ (l & IH) X W].
  - exists [(E, F - E, false)]. apply (HI_init m m' alc Z0 IN).
  - destruct (HI_malloc _ _ _ _ _ _ _ _ _ IH SZ SP RT) as (l' & H & _). exists l'. exact H.
  - destruct (HI_free _ _ _ _ _ _ _ IH) as (m1 & l' & RT' & H & _). pose proof (returns_det _ _ _ RT RT') as Q. injection Q as ->. exists l'. exact H.
  - exists l. apply HI_write; assumption.
Qed.
End Hist.
