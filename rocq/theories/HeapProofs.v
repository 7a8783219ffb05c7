(* The heap as a row of blocks: what malloc and free do to it. *)
From Coq Require Import ZArith Bool List Lia.
From Verif Require Import LibMem LibStd LibStdProofs LibHeap.
Import ListNotations.
Open Scope Z_scope.

(* ---- comparisons ---- *)
Lemma uCmp_lt a b : (uCmp a b <? 0) = (a <? b).
Proof. unfold uCmp. destruct (Z.ltb_spec b a), (Z.eqb_spec a b), (Z.ltb_spec a b); try reflexivity; lia. Qed.
Lemma uCmp_le a b : (uCmp a b <=? 0) = (a <=? b).
Proof. unfold uCmp. destruct (Z.ltb_spec b a), (Z.eqb_spec a b), (Z.leb_spec a b); try reflexivity; lia. Qed.
Lemma uCmp_ge a b : (0 <=? uCmp a b) = (b <=? a).
Proof. unfold uCmp. destruct (Z.ltb_spec b a), (Z.eqb_spec a b), (Z.leb_spec b a); try reflexivity; lia. Qed.
Lemma uCmp_gt a b : (0 <? uCmp a b) = (b <? a).
Proof. unfold uCmp. destruct (Z.ltb_spec b a), (Z.eqb_spec a b); try reflexivity; lia. Qed.

(* ---- words ---- *)
Lemma stw_out m a v x : 0 <= a -> a + 1 < 65536 -> 0 <= x < 65536 -> x < a \/ a + 1 < x -> ldb (stw m a v) x = ldb m x.
Proof.
  intros A B X H. unfold stw. rewrite !ldb_stb. rewrite !(Z.mod_small x), !(Z.mod_small a), !(Z.mod_small (a + 1)) by lia.
  destruct (Z.eqb_spec x (a + 1)); [lia|]. destruct (Z.eqb_spec x a); [lia|reflexivity].
Qed.
Lemma ldw_eq m m' a : ldb m' a = ldb m a -> ldb m' (a + 1) = ldb m (a + 1) -> ldw m' a = ldw m a.
Proof. intros A B. unfold ldw. rewrite A, B. reflexivity. Qed.
Lemma ldw_out m a v b : 0 <= a -> a + 1 < 65536 -> 0 <= b -> b + 1 < 65536 -> b + 1 < a \/ a + 1 < b -> ldw (stw m a v) b = ldw m b.
Proof. intros. apply ldw_eq; apply stw_out; lia. Qed.
Lemma ldw_in m a v : 0 <= v < 65536 -> ldw (stw m a v) a = v.
Proof. intros H. rewrite ldw_stw_same. apply Z.mod_small. exact H. Qed.

Lemma land_even x : 0 <= x < 65536 -> Z.land x 65534 = 2 * (x / 2).
Proof.
  intros H. apply Z.bits_inj'. intros n Hn. rewrite Z.land_spec. destruct (Z.eq_dec n 0) as [->|NZ]; [rewrite Z.testbit_even_0, andb_comm; reflexivity|].
  replace n with (Z.succ (n - 1)) by lia. set (k := n - 1). assert (0 <= k) as K by lia. rewrite Z.testbit_even_succ by exact K. rewrite <- (Z.div2_bits x k K).
  change 65534 with (2 * Z.ones 15). rewrite Z.testbit_even_succ by exact K. destruct (Z.lt_ge_cases k 15) as [L|L].
  - rewrite Z.ones_spec_low by lia. apply andb_true_r.
  - rewrite Z.ones_spec_high by lia. rewrite andb_false_r. symmetry. assert (0 <= x / 2 < 32768) as B by (split; [apply Z.div_pos; lia|apply Z.div_lt_upper_bound; lia]).
    destruct (Z.eq_dec (x / 2) 0) as [->|P]; [apply Z.testbit_0_l|]. apply Z.bits_above_log2; [lia|]. apply Z.lt_le_trans with 15; [|exact L]. apply Z.log2_lt_pow2; [lia|]. change (2 ^ 15) with 32768. lia.
Qed.
Lemma round_up siz : 0 <= siz <= 65530 -> exists s, Z.land (wd (siz + 4 + 1)) 65534 = s /\ siz + 4 <= s <= siz + 5 /\ Z.even s = true.
Proof.
  intros H. exists (2 * ((siz + 5) / 2)). unfold wd. rewrite Z.mod_small by lia. replace (siz + 4 + 1) with (siz + 5) by lia. rewrite land_even by lia. split; [reflexivity|].
  split; [|apply Z.even_spec; exists ((siz + 5) / 2); reflexivity]. pose proof (Z.div_mod (siz + 5) 2 ltac:(lia)). pose proof (Z.mod_pos_bound (siz + 5) 2 ltac:(lia)). lia.
Qed.

(* ---- rows of blocks: address, size, in use ---- *)
Definition blk : Type := Z * Z * bool.
Fixpoint tile (a : Z) (l : list blk) (e : Z) : Prop :=
  match l with
  | [] => a = e
  | (x, s, _) :: r => x = a /\ 4 <= s /\ Z.even s = true /\ tile (a + s) r e
  end.
Lemma tile_app a l1 l2 e : tile a (l1 ++ l2) e <-> exists c, tile a l1 c /\ tile c l2 e.
Proof.
  revert a. induction l1 as [|[[x s] b] l1 IH]; intros a; cbn [tile app].
  - split; [intros H; exists a; split; [reflexivity|exact H]|intros (c & -> & H); exact H].
  - rewrite IH. split.
    + intros (A & B & C & c & D & F). exists c. repeat split; assumption.
    + intros (c & (A & B & C & D) & F). repeat split; try assumption. exists c. split; assumption.
Qed.
Lemma tile_le a l e : tile a l e -> a <= e.
Proof. revert a. induction l as [|[[x s] b] l IH]; intros a; cbn [tile]; [lia|]. intros (A & B & C & D). apply IH in D. lia. Qed.
Lemma tile_in a l e x s b : tile a l e -> In (x, s, b) l -> a <= x /\ x + s <= e /\ 4 <= s /\ Z.even s = true.
Proof.
  revert a. induction l as [|[[y t] c] l IH]; intros a T H; [contradiction|]. cbn [tile] in T. destruct T as (A & B & C & D). destruct H as [H|H].
  - injection H as -> -> ->. apply tile_le in D. repeat split; try assumption; lia.
  - destruct (IH _ D H) as (P & Q & R & W). repeat split; try assumption; lia.
Qed.
Lemma tile_even a l e x s b : Z.even a = true -> tile a l e -> In (x, s, b) l -> Z.even x = true.
Proof.
  revert a. induction l as [|[[y t] c] l IH]; intros a V T H; [contradiction|]. cbn [tile] in T. destruct T as (A & B & C & D). destruct H as [H|H].
  - injection H as -> -> ->. subst. exact V.
  - apply (IH (a + t)); try assumption. rewrite Z.even_add, V, C. reflexivity.
Qed.
(* two blocks of a row do not meet *)
Lemma tile_apart a l1 e b1 l2 x1 s1 u1 x2 s2 u2 : b1 = (x1, s1, u1) -> tile a (l1 ++ b1 :: l2) e -> In (x2, s2, u2) (l1 ++ l2) -> x2 + s2 <= x1 \/ x1 + s1 <= x2.
Proof.
  intros -> T H. apply tile_app in T. destruct T as (c & T1 & T2). cbn [tile] in T2. destruct T2 as (A & B & C & D). apply in_app_or in H. destruct H as [H|H].
  - destruct (tile_in _ _ _ _ _ _ T1 H) as (P & Q & _). lia.
  - destruct (tile_in _ _ _ _ _ _ D H) as (P & Q & _). lia.
Qed.

(* first free block, or nx *)
Fixpoint nf (l : list blk) (nx : Z) : Z :=
  match l with [] => nx | (a, _, false) :: _ => a | _ :: r => nf r nx end.
(* last free block, or p *)
Fixpoint prev (p : Z) (l : list blk) : Z :=
  match l with [] => p | (a, _, false) :: r => prev a r | _ :: r => prev p r end.
Lemma nf_app l1 l2 nx : nf (l1 ++ l2) nx = nf l1 (nf l2 nx).
Proof. induction l1 as [|[[a s] []] l1 IH]; cbn [nf app]; auto. Qed.
Lemma prev_app p l1 l2 : prev p (l1 ++ l2) = prev (prev p l1) l2.
Proof. revert p. induction l1 as [|[[a s] []] l1 IH]; intros p; cbn [prev app]; auto. Qed.
Lemma prev_range p l lo hi : tile lo l hi -> prev p l = p \/ lo <= prev p l <= hi - 4.
Proof.
  revert p lo. induction l as [|[[a s] []] l IH]; intros p lo T; cbn [tile prev] in *; [left; reflexivity| |]; destruct T as (A & B & C & D); pose proof (tile_le _ _ _ D).
  - destruct (IH p _ D); lia.
  - right. destruct (IH a _ D); lia.
Qed.
Definition live (b : blk) : Prop := snd b = true.
Lemma nf_live l nx : Forall live l -> nf l nx = nx.
Proof. induction 1 as [|[[a s] []] l H _ IH]; cbn [nf]; [reflexivity|exact IH|discriminate H]. Qed.
Lemma prev_live p l : Forall live l -> prev p l = p.
Proof. induction 1 as [|[[a s] []] l H _ IH]; cbn [prev]; [reflexivity|exact IH|discriminate H]. Qed.
(* the last free block *)
Lemma last_free l : Forall live l \/ exists la a s lb, l = la ++ (a, s, false) :: lb /\ Forall live lb.
Proof.
  induction l as [|[[a s] b] l [IH|(la & a' & s' & lb & -> & IH)]]; [left; constructor| |].
  - destruct b; [left; constructor; [reflexivity|exact IH]|]. right. exists [], a, s, l. split; [reflexivity|exact IH].
  - right. exists ((a, s, b) :: la), a', s', lb. split; [reflexivity|exact IH].
Qed.
Lemma first_free l : Forall live l \/ exists la a s lb, l = la ++ (a, s, false) :: lb /\ Forall live la.
Proof.
  induction l as [|[[a s] []] l IH]; [left; constructor| |].
  - destruct IH as [IH|(la & a' & s' & lb & -> & IH)]; [left; constructor; [reflexivity|exact IH]|].
    right. exists ((a, s, true) :: la), a', s', lb. split; [reflexivity|]. constructor; [reflexivity|exact IH].
  - right. exists [], a, s, l. split; [reflexivity|constructor].
Qed.

Section Inv.
Variable pool : Z.
(* headers *)
Fixpoint hdN (m : mem) (l : list blk) (nx : Z) : Prop :=
  match l with
  | [] => True
  | (a, s, b) :: r => ldw m (a + 2) = s /\ ldw m a = (if b then pool else nf r nx) /\ hdN m r nx
  end.
Lemma hdN_app m l1 l2 nx : hdN m (l1 ++ l2) nx <-> hdN m l1 (nf l2 nx) /\ hdN m l2 nx.
Proof.
  induction l1 as [|[[a s] b] l1 IH]; cbn [hdN app]; [tauto|]. rewrite IH, nf_app. tauto.
Qed.
Lemma hdN_live m l nx nx' : Forall live l -> hdN m l nx -> hdN m l nx'.
Proof. induction 1 as [|[[a s] []] l H _ IH]; cbn [hdN]; [auto| |discriminate H]. intros (A & B & C). auto. Qed.
Definition eqOn (m m' : mem) (lo hi : Z) : Prop := forall x, lo <= x < hi -> ldb m' x = ldb m x.
Lemma hdN_eq m m' l nx lo hi : tile lo l hi -> eqOn m m' lo hi -> hdN m l nx -> hdN m' l nx.
Proof.
  revert lo. induction l as [|[[a s] b] l IH]; intros lo T Q; cbn [hdN tile] in *; [auto|]. destruct T as (A & B & C & D). pose proof (tile_le _ _ _ D). intros (X & Y & W).
  split; [rewrite <- X; apply ldw_eq; apply Q; lia|]. split; [rewrite <- Y; apply ldw_eq; apply Q; lia|]. apply (IH _ D); [|exact W]. intros x Hx. apply Q. lia.
Qed.
(* changing the link of the last free block *)
Lemma relink m m' v x hi l : forall p lo, tile lo l hi -> p + 2 <= lo -> hdN m l x -> ldw m p = nf l x ->
  (forall y, y = p \/ y = p + 1 \/ lo <= y < hi -> y <> prev p l -> y <> prev p l + 1 -> ldb m' y = ldb m y) ->
  ldw m' (prev p l) = v -> ldw m' p = nf l v /\ hdN m' l v.
Proof.
  induction l as [|[[a s] b] l IH]; intros p lo T P H L Q V; cbn [tile hdN prev nf] in *; [split; [exact V|exact I]|].
  destruct T as (A & B & C & D). destruct H as (H1 & H2 & H3). subst a. destruct b.
  - pose proof (prev_range p _ _ _ D) as PR. pose proof (tile_le _ _ _ D) as TL.
    destruct (IH p (lo + s) D ltac:(lia) H3 L) as [X Y]; [intros y Hy; apply Q; lia|exact V|]. split; [exact X|].
    split; [rewrite <- H1; apply ldw_eq; apply Q; lia|]. split; [rewrite <- H2; apply ldw_eq; apply Q; lia|exact Y].
  - pose proof (prev_range lo _ _ _ D) as PR. pose proof (tile_le _ _ _ D) as TL.
    destruct (IH lo (lo + s) D ltac:(lia) H3 H2) as [X Y]; [intros y Hy; apply Q; lia|exact V|]. split; [rewrite <- L; apply ldw_eq; apply Q; lia|].
    split; [rewrite <- H1; apply ldw_eq; apply Q; lia|]. split; [exact X|exact Y].
Qed.

Definition isFree (b : blk) : bool := negb (snd b).
Definition hdF (l : list blk) : bool := match l with b :: _ => isFree b | [] => false end.
Fixpoint lastF (l : list blk) : bool := match l with [] => false | [b] => isFree b | _ :: r => lastF r end.
Fixpoint noAdj (l : list blk) : Prop := match l with [] => True | b :: r => isFree b && hdF r = false /\ noAdj r end.
Lemma lastF_cons b r : r <> [] -> lastF (b :: r) = lastF r.
Proof. destruct r; [congruence|reflexivity]. Qed.
Lemma lastF_snoc l b : lastF (l ++ [b]) = isFree b.
Proof. induction l as [|x l IH]; [reflexivity|]. cbn [app]. rewrite lastF_cons; [exact IH|]. intros E. apply app_eq_nil in E. destruct E as [_ E]. discriminate E. Qed.
Lemma lastF_app l1 l2 : l2 <> [] -> lastF (l1 ++ l2) = lastF l2.
Proof.
  intros N. induction l1 as [|x l IH]; [reflexivity|]. cbn [app]. rewrite lastF_cons; [exact IH|]. intros E. apply app_eq_nil in E. destruct E; contradiction.
Qed.
Lemma noAdj_app l1 l2 : noAdj (l1 ++ l2) <-> noAdj l1 /\ noAdj l2 /\ lastF l1 && hdF l2 = false.
Proof.
  induction l1 as [|b l1 IH]; [cbn [app noAdj lastF andb]; tauto|]. cbn [app noAdj]. rewrite IH.
  destruct l1 as [|c l1]; [cbn [app hdF lastF noAdj andb]; rewrite andb_false_r; tauto|]. rewrite (lastF_cons b (c :: l1)) by (intros X; discriminate X). cbn [app hdF]. tauto.
Qed.

(* ---- the heap from E to F ---- *)
Variables E F : Z.
Hypothesis HP : 0 < pool.
Hypothesis HE : pool + 4 <= E.
Hypothesis HV : Z.even E = true.
Hypothesis HF : F < 65536.

Record Inv (m : mem) (l : list blk) : Prop := MkInv {
  v_tile : tile E l F;
  v_hd : hdN m l 0;
  v_root : ldw m pool = nf l 0;
  v_zero : ldw m (pool + 2) = 0;
  v_adj : noAdj l;
  v_last : lastF l = true }.

(* bytes that may change: the root and blocks that are free *)
Definition touched (l : list blk) (x : Z) : Prop := pool <= x < pool + 2 \/ exists a s, In (a, s, false) l /\ a <= x < a + s.
Definition frame (l : list blk) (m m' : mem) : Prop := forall x, 0 <= x < 65536 -> ~ touched l x -> ldb m' x = ldb m x.

(* looking for a block *)
Definition fitBody (m : mem) (s : Z) : Z * Z -> Z * Z + hres (Z * Z) := fun '(p, b) =>
  if uCmp (sizeOf m b) s <? 0 then
    let b' := nextOf m b in
    if b' =? 0 then inr (HExit EUNOMEM) else inl (b, b')
  else inr (HRet (p, b)).
Definition small (s : Z) (l : list blk) : Prop := forall a t, In (a, t, false) l -> t < s.
Lemma nf_pos l lo hi nx : tile lo l hi -> 0 < lo -> 0 <= nx -> 0 <= nf l nx.
Proof. revert lo. induction l as [|[[a s] []] l IH]; intros lo T L N; cbn [tile nf] in *; [exact N| |lia]. destruct T as (A & B & C & D). apply (IH _ D); lia. Qed.
Lemma find_fit m s : forall l p lo hi, 0 < lo -> tile lo l hi -> hdN m l 0 -> lastF l = true ->
  (small s l /\ returns (loop (fitBody m s) (p, nf l 0)) (HExit EUNOMEM)) \/
  (exists la b t lb, l = la ++ (b, t, false) :: lb /\ small s la /\ s <= t /\ returns (loop (fitBody m s) (p, nf l 0)) (HRet (prev p la, b))).
Proof.
  induction l as [|[[a t] b] l IH]; intros p lo hi LO T H LF; [discriminate LF|]. cbn [tile hdN nf] in *. destruct T as (A & B & C & D). destruct H as (H1 & H2 & H3). destruct b.
  - assert (lastF l = true) as LF' by (destruct l; [discriminate LF|exact LF]).
    destruct (IH p (lo + t) hi ltac:(lia) D H3 LF') as [[S R]|(la & b & t' & lb & -> & S & LE & R)].
    + left. split; [|exact R]. intros a' t' [X|X]; [discriminate X|exact (S _ _ X)].
    + right. exists ((a, t, true) :: la), b, t', lb. split; [reflexivity|]. split; [|split; [exact LE|exact R]]. intros a' t'' [X|X]; [discriminate X|exact (S _ _ X)].
  - subst a. destruct (Z.ltb_spec t s) as [LT|GE].
    + destruct l as [|c l].
      * left. split; [intros a' t' [X|[]]; injection X as <- <-; exact LT|]. apply returns_done. unfold fitBody, sizeOf. rewrite uCmp_lt, H1. destruct (Z.ltb_spec t s); [|lia].
        unfold nextOf. rewrite H2. reflexivity.
      * assert (lastF (c :: l) = true) as LF' by exact LF.
        assert (nf (c :: l) 0 <> 0) as NZ.
        { clear - D LF' B LO. revert D LF'. generalize (c :: l). intros l0. assert (0 < lo + t) as LO' by lia. revert LO'. generalize (lo + t). clear.
          induction l0 as [|[[a s] []] l0 IH]; intros lo LO T LF; cbn [tile nf] in *; [discriminate LF| |lia]. destruct T as (A & B & C & D).
          apply (IH (lo + s)); [lia|exact D|]. destruct l0; [discriminate LF|exact LF]. }
        assert (returns (loop (fitBody m s) (lo, nf (c :: l) 0)) = returns (loop (fitBody m s) (lo, nf (c :: l) 0))) as _ by reflexivity.
        assert (fitBody m s (p, lo) = inl (lo, nf (c :: l) 0)) as ST.
        { unfold fitBody, sizeOf. rewrite uCmp_lt, H1. destruct (Z.ltb_spec t s); [|lia]. unfold nextOf. rewrite H2. cbn beta zeta. destruct (Z.eqb_spec (nf (c :: l) 0) 0); [congruence|reflexivity]. }
        destruct (IH lo (lo + t) hi ltac:(lia) D H3 LF') as [[S R]|(la & b & t' & lb & EQ & S & LE & R)].
        -- left. split; [intros a' t' [X|X]; [injection X as <- <-; exact LT|exact (S _ _ X)]|]. exact (returns_step _ _ _ _ ST R).
        -- right. exists ((lo, t, false) :: la), b, t', lb. split; [rewrite EQ; reflexivity|]. split; [intros a' t'' [X|X]; [injection X as <- <-; exact LT|exact (S _ _ X)]|].
           split; [exact LE|]. exact (returns_step _ _ _ _ ST R).
    + right. exists [], lo, t, l. split; [reflexivity|]. split; [intros a' t' []|]. split; [exact GE|]. apply returns_done. unfold fitBody, sizeOf. rewrite uCmp_lt, H1.
      destruct (Z.ltb_spec t s); [lia|reflexivity].
Qed.

Lemma in_mid {A} (l1 : list A) x l2 : In x (l1 ++ x :: l2).
Proof. apply in_or_app. right. left. reflexivity. Qed.
Lemma prev_in p l : prev p l = p \/ exists s, In (prev p l, s, false) l.
Proof.
  revert p. induction l as [|[[a s] []] l IH]; intros p; cbn [prev]; [left; reflexivity| |].
  - destruct (IH p) as [X|(s' & X)]; [left; exact X|right; exists s'; right; exact X].
  - right. destruct (IH a) as [X|(s' & X)]; [exists s; left; rewrite X; reflexivity|exists s'; right; exact X].
Qed.
(* the first block lent: what is left of it *)
Definition given (l1 : list blk) (b t s : Z) (l2 : list blk) : list blk :=
  if s =? t then l1 ++ (b, t, true) :: l2 else l1 ++ (b, s, true) :: (b + s, t - s, false) :: l2.
(* why a request is refused *)
Definition refused (sp siz : Z) (l : list blk) : Prop :=
  exists s, siz + 4 <= s <= siz + 5 /\ (small s l \/ exists l1 b t l2, l = l1 ++ (b, t, false) :: l2 /\ small s l1 /\ s <= t /\
    ((t <= s + 6 /\ nf l2 0 = 0) \/ (t <= s + 6 /\ nf l2 0 <> 0 /\ sp - 10 <= b + t) \/ (s + 6 < t /\ sp - 10 <= b + s))).
Theorem malloc_spec sp siz m alc l : Inv m l -> 0 <= siz <= 65530 -> 10 <= sp < 65536 -> 0 <= alc < 65536 ->
  (returns (malloc pool sp siz m alc) (HExit EUNOMEM) /\ refused sp siz l) \/
  exists l1 b t l2 s m', l = l1 ++ (b, t, false) :: l2 /\ (siz + 4 <= s <= t /\ s <= siz + 11 /\ (s = t -> nf l2 0 <> 0) /\ (s <> t -> s + 6 < t)) /\ b + s < sp - 10 /\
    returns (malloc pool sp siz m alc) (HRet (m', Z.max alc (b + s), b + 4)) /\
    Inv m' (given l1 b t s l2) /\ frame l m m' /\ (forall x, sp - 6 <= x < 65536 -> ldb m' x = ldb m x).
Proof.
  intros [T H R Z0 AD LF] SZ SP AL. destruct (round_up siz SZ) as (s & ES & SB & SE).
  assert (0 < E) as EP by lia. pose proof (tile_le _ _ _ T) as EF.
  destruct (find_fit m s l pool E F EP T H LF) as [[SM RT]|(l1 & b & t & l2 & EQ & SM & LE & RT)].
  { left. split; [|exists s; split; [exact SB|left; exact SM]]. unfold malloc. rewrite ES. eapply returns_bind; [unfold findFit; unfold nextOf; rewrite R; exact RT|]. apply returns_ret. }
  subst l. pose proof T as T'. apply tile_app in T'. destruct T' as (c & T1 & T2). cbn [tile] in T2. destruct T2 as (<- & T4 & TE & T2).
  pose proof H as H'. apply hdN_app in H'. destruct H' as (H1 & H2). cbn [hdN nf] in H1, H2. destruct H2 as (HS & HN & H2).
  pose proof (tile_le _ _ _ T1) as B1. pose proof (tile_le _ _ _ T2) as B2. set (p := prev pool l1) in *.
  assert (p = pool \/ E <= p <= b - 4) as PR by exact (prev_range pool _ _ _ T1).
  rewrite nf_app in R. cbn [nf] in R.
  apply noAdj_app in AD. destruct AD as (AD1 & AD2 & AD3). cbn [noAdj hdF isFree snd negb] in AD2, AD3. destruct AD2 as (AD4 & AD5). rewrite andb_true_r in AD3. cbn [andb] in AD4.
  assert (forall m', (forall x, 0 <= x < 65536 -> ldb m' x <> ldb m x -> x = p \/ x = p + 1 \/ b <= x < b + t) -> frame (l1 ++ (b, t, false) :: l2) m m') as FR.
  { intros m' HX x Hx NT. destruct (Z.eq_dec (ldb m' x) (ldb m x)) as [Y|Y]; [exact Y|exfalso]. apply NT. specialize (HX x Hx Y). unfold touched.
    destruct HX as [HX|[HX|HX]].
    - destruct (prev_in pool l1) as [Q|(s' & Q)]; fold p in Q; [left; lia|]. right. exists p, s'. split; [apply in_or_app; left; exact Q|]. destruct (tile_in _ _ _ _ _ _ T1 Q) as (_ & _ & ? & _). lia.
    - destruct (prev_in pool l1) as [Q|(s' & Q)]; fold p in Q; [left; lia|]. right. exists p, s'. split; [apply in_or_app; left; exact Q|]. destruct (tile_in _ _ _ _ _ _ T1 Q) as (_ & _ & ? & _). lia.
    - right. exists b, t. split; [apply in_mid|exact HX]. }
  assert (wd (s + 4 + 2) = s + 6) as W6. { assert (E <> 5) as N5 by (intros X; rewrite X in HV; discriminate HV). unfold wd. rewrite Z.mod_small; lia. }
  assert (wd (sp - 10) = sp - 10) as WS by (unfold wd; apply Z.mod_small; lia).
  assert (forall s', 4 <= s' <= t -> wd (b + s') = b + s') as WB by (intros s' ?; unfold wd; apply Z.mod_small; lia).
  assert (forall n, (if 0 <? uCmp n alc then n else alc) = Z.max alc n) as MX by (intros n; rewrite uCmp_gt; destruct (Z.ltb_spec alc n); lia).
  assert (findFit pool m s = loop (fitBody m s) (pool, nf l1 b)) as FF by (unfold findFit, nextOf; rewrite R; reflexivity).
  rewrite nf_app in RT. cbn [nf] in RT.
  assert (sizeOf m b = t) as SB' by exact HS. assert (nextOf m b = nf l2 0) as NB by exact HN.
  unfold malloc. rewrite ES.
  destruct (Z.leb_spec t (s + 6)) as [TI|SP'].
  - (* the whole block *)
    destruct (Z.eq_dec (nf l2 0) 0) as [NZ|NZ].
    { left. split; [|exists s; split; [exact SB|right; exists l1, b, t, l2; split; [reflexivity|]; split; [exact SM|]; split; [exact LE|]; lia]]. eapply returns_bind; [rewrite FF; exact RT|]. cbn beta iota zeta. rewrite SB', NB, W6, uCmp_le. destruct (Z.leb_spec t (s + 6)); [|lia]. rewrite NZ. cbn [andb Z.eqb]. apply returns_ret. }
    destruct (Z.leb_spec (sp - 10) (b + t)) as [OV|OK].
    { left. split; [|exists s; split; [exact SB|right; exists l1, b, t, l2; split; [reflexivity|]; split; [exact SM|]; split; [exact LE|]; lia]]. eapply returns_bind; [rewrite FF; exact RT|]. cbn beta iota zeta. rewrite SB', NB, W6, uCmp_le. destruct (Z.leb_spec t (s + 6)); [|lia]. destruct (Z.eqb_spec (nf l2 0) 0); [contradiction|]. cbn [andb].
      rewrite WB, WS, uCmp_ge by lia. destruct (Z.leb_spec (sp - 10) (b + t)); [|lia]. apply returns_ret. }
    right. set (m1 := stw m p (nf l2 0)). set (m2 := stw m1 b pool). exists l1, b, t, l2, t, m2.
    split; [reflexivity|]. split; [split; [lia|]; split; [lia|]; split; [intros _; exact NZ|intros X; exfalso; apply X; reflexivity]|]. split; [exact OK|].
    assert (forall x, 0 <= x < 65536 -> x <> p -> x <> p + 1 -> x <> b -> x <> b + 1 -> ldb m2 x = ldb m x) as OUT.
    { intros x Hx N1 N2 N3 N4. unfold m2, m1. rewrite stw_out by lia. apply stw_out; lia. }
    split; [|split; [|split]].
    + eapply returns_bind; [rewrite FF; exact RT|]. cbn beta iota zeta. rewrite SB', NB, W6, uCmp_le. destruct (Z.leb_spec t (s + 6)); [|lia]. destruct (Z.eqb_spec (nf l2 0) 0); [contradiction|]. cbn [andb].
      rewrite WB, WS, uCmp_ge by lia. destruct (Z.leb_spec (sp - 10) (b + t)); [lia|]. rewrite Z.eqb_refl, MX. replace (wd (b + 4)) with (b + 4) by (unfold wd; rewrite Z.mod_small; lia). apply returns_ret.
    + unfold given. rewrite Z.eqb_refl.
      assert (0 <= nf l2 0 < 65536) as NR by (rewrite <- HN; apply ldw_range).
      destruct (relink m m2 (nf l2 0) b b l1 pool E T1 ltac:(lia) H1 R) as [RA RB].
      { intros y Hy N1 N2. fold p in N1, N2. apply OUT; lia. }
      { fold p. unfold m2. rewrite ldw_out by lia. unfold m1. apply ldw_in. exact NR. }
      constructor.
      * apply tile_app. exists b. split; [exact T1|]. cbn [tile]. repeat split; try assumption.
      * apply hdN_app. cbn [hdN nf]. split; [exact RB|]. split; [|split].
        -- rewrite <- HS. apply ldw_eq; apply OUT; lia.
        -- unfold m2. apply ldw_in. lia.
        -- apply (hdN_eq m m2 _ _ _ _ T2); [|exact H2]. intros x Hx. apply OUT; lia.
      * rewrite nf_app. exact RA.
      * rewrite <- Z0. apply ldw_eq; apply OUT; lia.
      * apply noAdj_app. cbn [noAdj hdF isFree snd negb]. rewrite andb_false_r. repeat split; assumption.
      * rewrite lastF_app by discriminate. rewrite lastF_app in LF by discriminate. destruct l2; [exfalso; apply NZ; reflexivity|exact LF].
    + apply FR. intros x Hx NE. destruct (Z.eq_dec x p), (Z.eq_dec x (p + 1)), (Z.eq_dec x b), (Z.eq_dec x (b + 1)); try lia. exfalso. apply NE. apply OUT; assumption.
    + intros x Hx. apply OUT; lia.
  - (* split *)
    destruct (Z.leb_spec (sp - 10) (b + s)) as [OV|OK].
    { left. split; [|exists s; split; [exact SB|right; exists l1, b, t, l2; split; [reflexivity|]; split; [exact SM|]; split; [exact LE|]; lia]]. eapply returns_bind; [rewrite FF; exact RT|]. cbn beta iota zeta. rewrite SB', W6, uCmp_le. destruct (Z.leb_spec t (s + 6)); [lia|]. cbn [andb].
      rewrite WB, WS, uCmp_ge by lia. destruct (Z.leb_spec (sp - 10) (b + s)); [|lia]. apply returns_ret. }
    right. set (n := b + s). set (m1 := stw m n (nf l2 0)). set (m2 := stw m1 (n + 2) (t - s)). set (m3 := stw m2 p n). set (m4 := stw m3 (b + 2) s). set (m5 := stw m4 b pool).
    exists l1, b, t, l2, s, m5. split; [reflexivity|]. split; [split; [lia|]; split; [lia|]; split; lia|]. split; [exact OK|].
    assert (forall x, 0 <= x < 65536 -> x <> p -> x <> p + 1 -> ~ (b <= x < b + 4) -> ~ (n <= x < n + 4) -> ldb m5 x = ldb m x) as OUT.
    { intros x Hx N1 N2 N3 N4. unfold m5. rewrite stw_out by lia. unfold m4. rewrite stw_out by lia. unfold m3. rewrite stw_out by lia. unfold m2. rewrite stw_out by lia. apply stw_out; lia. }
    split; [|split; [|split]].
    + eapply returns_bind; [rewrite FF; exact RT|]. cbn beta iota zeta. rewrite SB', NB, W6, uCmp_le. destruct (Z.leb_spec t (s + 6)); [lia|]. cbn [andb].
      rewrite WB, WS, uCmp_ge by lia. destruct (Z.leb_spec (sp - 10) (b + s)); [lia|]. destruct (Z.eqb_spec s t); [lia|]. rewrite MX.
      replace (sizeOf (setNext m (b + s) (nf l2 0)) b) with t by (unfold sizeOf, setNext; rewrite ldw_out by lia; symmetry; exact HS).
      replace (wd (t - s)) with (t - s) by (unfold wd; rewrite Z.mod_small; lia). replace (wd (b + 4)) with (b + 4) by (unfold wd; rewrite Z.mod_small; lia). apply returns_ret.
    + unfold given. destruct (Z.eqb_spec s t); [lia|]. fold n.
      assert (0 <= nf l2 0 < 65536) as NR by (rewrite <- HN; apply ldw_range).
      destruct (relink m m5 n b b l1 pool E T1 ltac:(lia) H1 R) as [RA RB].
      { intros y Hy N1 N2. fold p in N1, N2. apply OUT; lia. }
      { fold p. unfold m5. rewrite ldw_out by lia. unfold m4. rewrite ldw_out by lia. unfold m3. apply ldw_in. lia. }
      assert (Z.even (t - s) = true) as EV by (rewrite Z.even_sub, TE, SE; reflexivity).
      constructor.
      * apply tile_app. exists b. split; [exact T1|]. cbn [tile]. replace (b + s + (t - s)) with (b + t) by lia. repeat split; try assumption; lia.
      * apply hdN_app. cbn [hdN nf]. split; [exact RB|]. split; [|split; [|split; [|split]]].
        -- unfold m5. rewrite ldw_out by lia. unfold m4. apply ldw_in. lia.
        -- unfold m5. apply ldw_in. lia.
        -- unfold m5. rewrite ldw_out by lia. unfold m4. rewrite ldw_out by lia. unfold m3. rewrite ldw_out by lia. unfold m2. apply ldw_in. lia.
        -- unfold m5. rewrite ldw_out by lia. unfold m4. rewrite ldw_out by lia. unfold m3. rewrite ldw_out by lia. unfold m2. rewrite ldw_out by lia. unfold m1. apply ldw_in. exact NR.
        -- apply (hdN_eq m m5 _ _ _ _ T2); [|exact H2]. intros x Hx. apply OUT; lia.
      * rewrite nf_app. exact RA.
      * rewrite <- Z0. apply ldw_eq; apply OUT; lia.
      * apply noAdj_app. cbn [noAdj hdF isFree snd negb]. rewrite andb_false_r. repeat split; assumption.
      * rewrite lastF_app by discriminate. rewrite lastF_app in LF by discriminate. destruct l2; [reflexivity|exact LF].
    + apply FR. intros x Hx NE. destruct (Z.eq_dec x p), (Z.eq_dec x (p + 1)); try lia. destruct (Z_lt_dec x b), (Z_lt_dec x (b + t)); try lia; exfalso; apply NE; apply OUT; lia.
    + intros x Hx. apply OUT; lia.
Qed.

(* address of the last block *)
Fixpoint lastA (l : list blk) : Z := match l with [] => 0 | [(a, _, _)] => a | _ :: r => lastA r end.
Lemma lastA_app l1 l2 : l2 <> [] -> lastA (l1 ++ l2) = lastA l2.
Proof.
  intros N. induction l1 as [|x l IH]; [reflexivity|]. cbn [app lastA]. destruct x as [[? ?] ?]. destruct (l ++ l2) as [|y r] eqn:EQ; [apply app_eq_nil in EQ; destruct EQ; contradiction|]. exact IH.
Qed.
Lemma lastA_ge l lo hi : l <> [] -> tile lo l hi -> lo <= lastA l.
Proof.
  intros N. revert lo. induction l as [|[[a s] u] l IH]; intros lo T; [contradiction|]. cbn [tile] in T. destruct T as (-> & S4 & _ & T). destruct l as [|c l]; [cbn [lastA]; lia|].
  assert (c :: l <> []) as N' by (intros X; discriminate X). specialize (IH N' _ T). change (lastA ((lo, s, u) :: c :: l)) with (lastA (c :: l)). lia.
Qed.
(* ---- free ---- *)
Definition posBody (m : mem) (q : Z) : Z * Z -> Z * Z + Z * Z := fun '(p, b) =>
  if uCmp b q <? 0 then
    let b' := nextOf m b in
    if b' =? 0 then inr (b, b') else inl (b, b')
  else inr (p, b).
Lemma find_pos m q x : q <= x -> 0 < x -> forall l p lo, 0 < lo -> tile lo l q -> hdN m l x -> returns (loop (posBody m q) (p, nf l x)) (prev p l, x).
Proof.
  intros QX XP. induction l as [|[[a t] b] l IH]; intros p lo LO T H; cbn [tile hdN nf prev] in *.
  - apply returns_done. unfold posBody. rewrite uCmp_lt. destruct (Z.ltb_spec x q); [lia|reflexivity].
  - destruct T as (-> & B & C & D). destruct H as (H1 & H2 & H3). pose proof (tile_le _ _ _ D) as LE. destruct b; [apply (IH p (lo + t)); [lia|exact D|exact H3]|].
    apply (returns_step (posBody m q) (p, lo) (lo, nf l x)).
    + unfold posBody. rewrite uCmp_lt. destruct (Z.ltb_spec lo q); [|lia]. unfold nextOf. rewrite H2. cbn zeta. destruct (Z.eqb_spec (nf l x) 0) as [Z1|Z1]; [|reflexivity]. exfalso.
      assert (0 < lo + t) as LO' by lia. clear - Z1 D LO' XP. revert D LO' Z1. generalize (lo + t). clear lo t. induction l as [|[[a s] []] l IH]; intros lo D LO N; cbn [tile nf] in *; [lia| |]; destruct D as (A & B & C & D).
      * apply (IH _ D); [lia|exact N].
      * lia.
    + apply (IH lo (lo + t)); [lia|exact D|exact H3].
Qed.
Definition lives (l : list blk) : list blk := filter (fun b => snd b) l.
Lemma lives_app a b : lives (a ++ b) = lives a ++ lives b.
Proof. apply filter_app. Qed.
Lemma last_cases l : (exists la a t, l = la ++ [(a, t, false)]) \/ lastF l = false.
Proof.
  destruct l as [|b l]; [right; reflexivity|]. destruct (@exists_last _ (b :: l)) as (la & [[a t] []] & EQ); [intros X; discriminate X| |].
  - right. rewrite EQ, lastF_snoc. reflexivity.
  - left. exists la, a, t. exact EQ.
Qed.
Lemma nf_last l nx : lastF l = true -> exists b u la lb, l = la ++ (b, u, false) :: lb /\ Forall live la /\ nf l nx = b.
Proof.
  intros LF. destruct (first_free l) as [FL|(la & b & u & lb & EQ & FL)].
  - exfalso. destruct (last_cases l) as [(la & a & t & EQ)|N]; [|congruence]. rewrite EQ in FL. apply Forall_app in FL. destruct FL as [_ FL]. inversion FL as [|? ? X]. discriminate X.
  - exists b, u, la, lb. split; [exact EQ|]. split; [exact FL|]. rewrite EQ, nf_app. apply nf_live. exact FL.
Qed.
Theorem free_spec q s m l1 l2 : Inv m (l1 ++ (q, s, true) :: l2) ->
  exists m' l', returns (free pool (q + 4) m) (HRet m') /\ Inv m' l' /\ lives l' = lives (l1 ++ l2) /\ frame l' m m' /\
    lastA l' <= lastA (l1 ++ (q, s, true) :: l2) /\ (forall x, lastA (l1 ++ (q, s, true) :: l2) + 4 <= x < 65536 -> ldb m' x = ldb m x).
Proof.
  intros [T H R Z0 AD LF]. assert (0 < E) as EP by lia.
  pose proof T as T'. apply tile_app in T'. destruct T' as (c & T1 & T2). cbn [tile] in T2. destruct T2 as (<- & S4 & SE & T2).
  pose proof H as H'. apply hdN_app in H'. destruct H' as (H1 & H2). cbn [hdN nf] in H1, H2. destruct H2 as (HS & HN & H2).
  pose proof (tile_le _ _ _ T1) as B1. pose proof (tile_le _ _ _ T2) as B2.
  rewrite nf_app in R. cbn [nf] in R.
  apply noAdj_app in AD. destruct AD as (AD1 & AD2 & AD3). cbn [noAdj hdF isFree snd negb andb] in AD2, AD3. destruct AD2 as (_ & AD5).
  assert (lastF l2 = true) as LF2 by (rewrite lastF_app in LF by discriminate; destruct l2; [discriminate LF|exact LF]). clear LF.
  destruct (nf_last l2 0 LF2) as (b & u & ra & rb & EQ2 & RL & NB).
  assert (q + s <= b /\ 4 <= u /\ b + u <= F /\ Z.even u = true) as (BQ & U4 & BF & UE).
  { rewrite EQ2 in T2. destruct (tile_in _ _ _ b u false T2 (in_mid _ _ _)) as (? & ? & ? & ?). auto. }
  set (p := prev pool l1) in *.
  assert (p = pool \/ E <= p <= q - 4) as PR by exact (prev_range pool _ _ _ T1).
  assert (returns (findPos pool m q) (p, b)) as FP.
  { unfold findPos. change (nextOf m pool) with (ldw m pool). rewrite R, NB. rewrite NB in H1. apply (find_pos m q b ltac:(lia) ltac:(lia) l1 pool E EP T1 H1). }
  assert (wd (q + 4 - 4) = q) as WQ by (replace (q + 4 - 4) with q by lia; unfold wd; apply Z.mod_small; lia).
  assert (nextOf m q = pool) as NQ by exact HN.
  assert (sizeOf m q = s) as SQ by exact HS.
  assert (wd (q + s) = q + s) as WQS by (unfold wd; apply Z.mod_small; lia).
  assert (p = pool \/ exists t la lb, l1 = la ++ (p, t, false) :: lb /\ Forall live lb) as PC.
  { destruct (last_free l1) as [FL|(la & a & t & lb & EQ & FL)]; [left; unfold p; apply prev_live; exact FL|].
    right. assert (p = a) as -> by (unfold p; rewrite EQ, prev_app; cbn [prev]; apply prev_live; exact FL). exists t, la, lb. split; assumption. }
  (* the bytes that change *)
  assert (forall l' m', (forall x, 0 <= x < 65536 -> ldb m' x <> ldb m x -> x = p \/ x = p + 1 \/ exists a t, In (a, t, false) l' /\ a <= x < a + t) ->
    (p = pool \/ exists t, In (p, t, false) l' /\ 2 <= t) -> frame l' m m') as FR.
  { intros l' m' HX HP' x Hx NT. destruct (Z.eq_dec (ldb m' x) (ldb m x)) as [Y|Y]; [exact Y|exfalso]. apply NT. specialize (HX x Hx Y). unfold touched.
    destruct HX as [HX|[HX|HX]]; [| |right; exact HX]; (destruct HP' as [Q|(t & Q & ?)]; [left; lia|right; exists p, t; split; [exact Q|lia]]). }
  assert (b <= lastA (l1 ++ (q, s, true) :: l2)) as LB.
  { rewrite lastA_app by discriminate. change ((q, s, true) :: l2) with ([(q, s, true)] ++ l2). rewrite lastA_app by (rewrite EQ2; destruct ra; discriminate).
    rewrite EQ2 in T2 |- *. rewrite lastA_app by discriminate. apply tile_app in T2. destruct T2 as (c & _ & T2). assert (c = b) as -> by (cbn [tile] in T2; destruct T2; congruence).
    apply (lastA_ge _ b F); [discriminate|exact T2]. }
  unfold free. rewrite WQ, NQ, Z.eqb_refl. cbn [negb].
  destruct (last_cases l1) as [(la & p' & t & EQ1)|NL].
  - (* next to the free block on the left *)
    assert (p = p') as EP'. { unfold p. rewrite EQ1, prev_app. reflexivity. }
    subst p'. clear PC. clearbody p. rewrite EQ1 in T1, H1, AD1.
    apply tile_app in T1. destruct T1 as (c & TA & T1). cbn [tile] in T1. destruct T1 as (EC & T4 & TE & EQ). subst c.
    apply hdN_app in H1. destruct H1 as (HA & H1). cbn [hdN nf] in HA, H1. destruct H1 as (HPS & HPN & _). rewrite NB in HPN.
    apply noAdj_app in AD1. destruct AD1 as (AA & _ & AB). cbn [hdF isFree snd negb] in AB. rewrite andb_true_r in AB.
    rewrite EQ1, nf_app in R. cbn [nf] in R. pose proof (tile_le _ _ _ TA) as BA.
    assert (sizeOf m p = t) as SP by exact HPS. assert (wd (p + t) = q) as WP by (rewrite EQ; unfold wd; apply Z.mod_small; lia).
    assert (wd (t + s) = t + s) as WT by (unfold wd; apply Z.mod_small; lia).
    destruct (Z.eq_dec (q + s) b) as [ADJ|ADJ].
    + (* and on the right *)
      assert (ra = []) as ->. { destruct ra as [|[[x w] z] ra]; [reflexivity|]. exfalso. rewrite EQ2 in T2. cbn [app tile] in T2. destruct T2 as (_ & ? & _ & T2).
        destruct (tile_in _ _ _ b u false T2 (in_mid _ _ _)) as (? & _). lia. }
      cbn [app] in EQ2. subst l2. cbn [tile hdN] in T2, H2. destruct T2 as (_ & _ & _ & T2). destruct H2 as (HBS & HBN & H2). cbn [noAdj hdF isFree snd negb andb] in AD5. destruct AD5 as (AC & AD5).
      set (m1 := stw m (p + 2) (t + s)). set (m2 := stw m1 (p + 2) (t + s + u)). set (m3 := stw m2 p (nf rb 0)).
      assert (forall x, 0 <= x < 65536 -> ~ (p <= x < p + 4) -> ldb m3 x = ldb m x) as OUT.
      { intros x Hx N. unfold m3. rewrite stw_out by lia. unfold m2. rewrite stw_out by lia. apply stw_out; lia. }
      exists m3, (la ++ (p, t + s + u, false) :: rb). split; [|split; [|split; [|split; [|split]]]].
      * eapply returns_bind; [exact FP|]. cbn beta iota zeta. rewrite SQ, SP, WQS, WP, ADJ, !Z.eqb_refl, !uCmp_lt. destruct (Z.ltb_spec q q); [lia|]. destruct (Z.ltb_spec b b); [lia|]. rewrite andb_false_r. cbn [orb].
        rewrite WT. replace (sizeOf (setSize m p (t + s)) p) with (t + s) by (unfold sizeOf, setSize; symmetry; apply ldw_in; lia).
        replace (sizeOf (setSize m p (t + s)) b) with u by (unfold sizeOf, setSize; rewrite ldw_out by lia; symmetry; exact HBS).
        replace (nextOf (setSize m p (t + s)) b) with (nf rb 0) by (unfold nextOf, setSize; rewrite ldw_out by lia; symmetry; exact HBN).
        replace (wd (t + s + u)) with (t + s + u) by (unfold wd; rewrite Z.mod_small; lia). apply returns_ret.
      * constructor.
        -- apply tile_app. exists p. split; [exact TA|]. cbn [tile]. replace (p + (t + s + u)) with (q + s + u) by lia. split; [reflexivity|]. split; [lia|]. split; [rewrite !Z.even_add, TE, SE, UE; reflexivity|exact T2].
        -- apply hdN_app. cbn [hdN nf]. split; [apply (hdN_eq m m3 _ _ _ _ TA); [|exact HA]; intros x Hx; apply OUT; lia|]. split; [|split].
           ++ unfold m3. rewrite ldw_out by lia. unfold m2. apply ldw_in. lia.
           ++ unfold m3. apply ldw_in. rewrite <- HBN. apply ldw_range.
           ++ apply (hdN_eq m m3 _ _ _ _ T2); [|exact H2]. intros x Hx; apply OUT; lia.
        -- rewrite nf_app. cbn [nf]. rewrite <- R. apply ldw_eq; apply OUT; lia.
        -- rewrite <- Z0. apply ldw_eq; apply OUT; lia.
        -- apply noAdj_app. cbn [noAdj hdF isFree snd negb andb]. rewrite AB. repeat split; assumption.
        -- rewrite lastF_app by discriminate. destruct rb; [reflexivity|exact LF2].
      * rewrite EQ1, !lives_app. cbn [lives filter snd]. rewrite app_nil_r. reflexivity.
      * apply FR; [|right; exists (t + s + u); split; [apply in_mid|lia]]. intros x Hx NE. right. right. exists p, (t + s + u). split; [apply in_mid|]. destruct (Z_lt_dec x p), (Z_lt_dec x (p + 4)); try lia; exfalso; apply NE; apply OUT; lia.
      * rewrite EQ1, !lastA_app by discriminate. destruct rb; [cbn [lastA]; lia|apply Z.le_refl].
      * intros x Hx. apply OUT; lia.
    + (* only on the left *)
      assert (hdF l2 = false) as HD2. { destruct ra as [|[[x w] []] ra]; [|rewrite EQ2; reflexivity|inversion RL as [|? ? X]; discriminate X]. exfalso. rewrite EQ2 in T2. cbn [app tile] in T2. destruct T2 as (? & _). lia. }
      set (m1 := stw m (p + 2) (t + s)).
      assert (forall x, 0 <= x < 65536 -> x <> p + 2 -> x <> p + 3 -> ldb m1 x = ldb m x) as OUT.
      { intros x Hx N1 N2. apply stw_out; lia. }
      exists m1, (la ++ (p, t + s, false) :: l2). split; [|split; [|split; [|split; [|split]]]].
      * eapply returns_bind; [exact FP|]. cbn beta iota zeta. rewrite SQ, SP, WQS, WP, !Z.eqb_refl, !uCmp_lt. destruct (Z.ltb_spec q q); [lia|]. destruct (Z.ltb_spec b (q + s)); [lia|]. rewrite andb_false_r. cbn [orb].
        destruct (Z.eqb_spec (q + s) b); [contradiction|]. rewrite WT. apply returns_ret.
      * constructor.
        -- apply tile_app. exists p. split; [exact TA|]. cbn [tile]. replace (p + (t + s)) with (q + s) by lia. split; [reflexivity|]. split; [lia|]. split; [rewrite !Z.even_add, TE, SE; reflexivity|exact T2].
        -- apply hdN_app. cbn [hdN nf]. split; [apply (hdN_eq m m1 _ _ _ _ TA); [|exact HA]; intros x Hx; apply OUT; lia|]. split; [|split].
           ++ unfold m1. apply ldw_in. lia.
           ++ rewrite NB, <- HPN. apply ldw_eq; apply OUT; lia.
           ++ apply (hdN_eq m m1 _ _ _ _ T2); [|exact H2]. intros x Hx; apply OUT; lia.
        -- rewrite nf_app. cbn [nf]. rewrite <- R. apply ldw_eq; apply OUT; lia.
        -- rewrite <- Z0. apply ldw_eq; apply OUT; lia.
        -- apply noAdj_app. cbn [noAdj hdF isFree snd negb andb]. rewrite AB. repeat split; assumption.
        -- rewrite lastF_app by discriminate. destruct l2; [discriminate LF2|exact LF2].
      * rewrite EQ1, !lives_app. cbn [lives filter snd]. rewrite app_nil_r. reflexivity.
      * apply FR; [|right; exists (t + s); split; [apply in_mid|lia]]. intros x Hx NE. right. right. exists p, (t + s). split; [apply in_mid|]. destruct (Z.eq_dec x (p + 2)), (Z.eq_dec x (p + 3)); try lia; exfalso; apply NE; apply OUT; lia.
      * rewrite EQ1, !lastA_app by discriminate. destruct l2; [discriminate LF2|apply Z.le_refl].
      * intros x Hx. apply OUT; lia.
  - (* not next to it *)
    assert (wd (p + sizeOf m p) < q) as PL.
    { destruct PC as [PP|(t & la & lb & EQ1 & FL)].
      - rewrite PP. unfold sizeOf. rewrite Z0. unfold wd. rewrite Z.mod_small; lia.
      - rewrite EQ1 in T1, H1. apply tile_app in T1. destruct T1 as (c & TA & T1). cbn [tile] in T1. destruct T1 as (EC & T4 & TE & T1). subst c. pose proof (tile_le _ _ _ TA). pose proof (tile_le _ _ _ T1).
        apply hdN_app in H1. destruct H1 as (HA & H1). cbn [hdN nf] in HA, H1. destruct H1 as (HPS & _). unfold sizeOf. rewrite HPS. unfold wd. rewrite Z.mod_small by lia.
        destruct lb as [|[[x w] z] lb]; [rewrite EQ1, lastF_snoc in NL; discriminate NL|]. cbn [tile] in T1. destruct T1 as (_ & ? & _ & T1). pose proof (tile_le _ _ _ T1). lia. }
    assert (forall r, p = pool \/ exists t, In (p, t, false) (l1 ++ r) /\ 2 <= t) as PI.
    { intros r. destruct PC as [PP|(t & la & lb & EQ1 & FL)]; [left; exact PP|]. right. exists t. rewrite EQ1 in T1 |- *. destruct (tile_in _ _ _ p t false T1 (in_mid _ _ _)) as (_ & _ & ? & _).
      split; [apply in_or_app; left; apply in_mid|lia]. }
    clear PC.
    destruct (Z.eq_dec (q + s) b) as [ADJ|ADJ].
    + assert (ra = []) as ->. { destruct ra as [|[[x w] z] ra]; [reflexivity|]. exfalso. rewrite EQ2 in T2. cbn [app tile] in T2. destruct T2 as (_ & ? & _ & T2).
        destruct (tile_in _ _ _ b u false T2 (in_mid _ _ _)) as (? & _). lia. }
      cbn [app] in EQ2. subst l2. cbn [tile hdN] in T2, H2. destruct T2 as (_ & _ & _ & T2). destruct H2 as (HBS & HBN & H2). cbn [noAdj hdF isFree snd negb andb] in AD5. destruct AD5 as (AC & AD5). cbn [nf] in R, H1.
      set (m1 := stw m (q + 2) (s + u)). set (m2 := stw m1 q (nf rb 0)). set (m3 := stw m2 p q).
      assert (forall x, 0 <= x < 65536 -> x <> p -> x <> p + 1 -> ~ (q <= x < q + 4) -> ldb m3 x = ldb m x) as OUT.
      { intros x Hx N1 N2 N. unfold m3. rewrite stw_out by lia. unfold m2. rewrite stw_out by lia. apply stw_out; lia. }
      exists m3, (l1 ++ (q, s + u, false) :: rb). split; [|split; [|split; [|split; [|split]]]].
      * eapply returns_bind; [exact FP|]. cbn beta iota zeta. rewrite SQ, WQS, ADJ, !Z.eqb_refl, !uCmp_lt. destruct (Z.ltb_spec q (wd (p + sizeOf m p))); [lia|]. destruct (Z.ltb_spec b b); [lia|]. rewrite andb_false_r. cbn [orb].
        destruct (Z.eqb_spec (wd (p + sizeOf m p)) q); [lia|].
        replace (sizeOf m b) with u by (symmetry; exact HBS). replace (wd (s + u)) with (s + u) by (unfold wd; rewrite Z.mod_small; lia).
        replace (nextOf (setSize m q (s + u)) b) with (nf rb 0) by (unfold nextOf, setSize; rewrite ldw_out by lia; symmetry; exact HBN). apply returns_ret.
      * destruct (relink m m3 q b q l1 pool E T1 ltac:(lia) H1 R) as [RA RB].
        { intros y Hy N1 N2. fold p in N1, N2. apply OUT; lia. }
        { fold p. unfold m3. apply ldw_in. lia. }
        constructor.
        -- apply tile_app. exists q. split; [exact T1|]. cbn [tile]. replace (q + (s + u)) with (q + s + u) by lia. split; [reflexivity|]. split; [lia|]. split; [rewrite !Z.even_add, SE, UE; reflexivity|exact T2].
        -- apply hdN_app. cbn [hdN nf]. split; [exact RB|]. split; [|split].
           ++ unfold m3. rewrite ldw_out by lia. unfold m2. rewrite ldw_out by lia. unfold m1. apply ldw_in. lia.
           ++ unfold m3. rewrite ldw_out by lia. unfold m2. apply ldw_in. rewrite <- HBN. apply ldw_range.
           ++ apply (hdN_eq m m3 _ _ _ _ T2); [|exact H2]. intros x Hx; apply OUT; lia.
        -- rewrite nf_app. exact RA.
        -- rewrite <- Z0. apply ldw_eq; apply OUT; lia.
        -- apply noAdj_app. cbn [noAdj hdF isFree snd negb andb]. rewrite NL. repeat split; assumption.
        -- rewrite lastF_app by discriminate. destruct rb; [reflexivity|exact LF2].
      * rewrite !lives_app. reflexivity.
      * apply FR; [|apply PI]. intros x Hx NE. destruct (Z.eq_dec x p); [left; assumption|]. destruct (Z.eq_dec x (p + 1)); [right; left; assumption|]. right. right. exists q, (s + u). split; [apply in_mid|].
        destruct (Z_lt_dec x q), (Z_lt_dec x (q + 4)); try lia; exfalso; apply NE; apply OUT; lia.
      * rewrite !lastA_app by discriminate. destruct rb; [cbn [lastA]; lia|apply Z.le_refl].
      * intros x Hx. apply OUT; lia.
    + assert (hdF l2 = false) as HD2. { destruct ra as [|[[x w] []] ra]; [|rewrite EQ2; reflexivity|inversion RL as [|? ? X]; discriminate X]. exfalso. rewrite EQ2 in T2. cbn [app tile] in T2. destruct T2 as (? & _). lia. }
      set (m1 := stw m p q). set (m2 := stw m1 q b).
      assert (forall x, 0 <= x < 65536 -> x <> p -> x <> p + 1 -> x <> q -> x <> q + 1 -> ldb m2 x = ldb m x) as OUT.
      { intros x Hx N1 N2 N3 N4. unfold m2. rewrite stw_out by lia. apply stw_out; lia. }
      rewrite NB in R, H1.
      exists m2, (l1 ++ (q, s, false) :: l2). split; [|split; [|split; [|split; [|split]]]].
      * eapply returns_bind; [exact FP|]. cbn beta iota zeta. rewrite SQ, WQS, !uCmp_lt. destruct (Z.ltb_spec q (wd (p + sizeOf m p))); [lia|]. destruct (Z.ltb_spec b (q + s)); [lia|]. rewrite andb_false_r. cbn [orb].
        destruct (Z.eqb_spec (wd (p + sizeOf m p)) q); [lia|]. destruct (Z.eqb_spec (q + s) b); [contradiction|]. apply returns_ret.
      * destruct (relink m m2 q b q l1 pool E T1 ltac:(lia) H1 R) as [RA RB].
        { intros y Hy N1 N2. fold p in N1, N2. apply OUT; lia. }
        { fold p. unfold m2. rewrite ldw_out by lia. apply ldw_in. lia. }
        constructor.
        -- apply tile_app. exists q. split; [exact T1|]. cbn [tile]. repeat split; assumption.
        -- apply hdN_app. cbn [hdN nf]. split; [exact RB|]. split; [|split].
           ++ rewrite <- HS. apply ldw_eq; apply OUT; lia.
           ++ unfold m2. rewrite NB. apply ldw_in. lia.
           ++ apply (hdN_eq m m2 _ _ _ _ T2); [|exact H2]. intros x Hx; apply OUT; lia.
        -- rewrite nf_app. exact RA.
        -- rewrite <- Z0. apply ldw_eq; apply OUT; lia.
        -- apply noAdj_app. cbn [noAdj hdF isFree snd negb andb]. rewrite NL, HD2. repeat split; assumption.
        -- rewrite lastF_app by discriminate. destruct l2; [discriminate LF2|exact LF2].
      * rewrite !lives_app. reflexivity.
      * apply FR; [|apply PI]. intros x Hx NE. destruct (Z.eq_dec x p); [left; assumption|]. destruct (Z.eq_dec x (p + 1)); [right; left; assumption|]. right. right. exists q, s. split; [apply in_mid|].
        destruct (Z.eq_dec x q), (Z.eq_dec x (q + 1)); try lia; exfalso; apply NE; apply OUT; lia.
      * rewrite !lastA_app by discriminate. destruct l2; [discriminate LF2|apply Z.le_refl].
      * intros x Hx. apply OUT; lia.
Qed.

(* ---- addresses that are not lent ---- *)
Lemma find_pos_in m q g t lb hi : g < q -> q < g + t -> forall la p lo, 0 < lo -> tile lo (la ++ (g, t, false) :: lb) hi -> hdN m (la ++ (g, t, false) :: lb) 0 ->
  returns (loop (posBody m q) (p, nf (la ++ (g, t, false) :: lb) 0)) (g, nf lb 0).
Proof.
  intros G1 G2. induction la as [|[[a w] b] la IH]; intros p lo LO T H; cbn [app tile hdN nf] in *; destruct T as (-> & B & C & D); destruct H as (H1 & H2 & H3).
  - destruct (Z.eq_dec (nf lb 0) 0) as [NZ|NZ].
    + apply returns_done. unfold posBody. rewrite uCmp_lt. destruct (Z.ltb_spec lo q); [|lia]. unfold nextOf. rewrite H2, NZ. reflexivity.
    + apply (returns_step (posBody m q) (p, lo) (lo, nf lb 0)).
      * unfold posBody. rewrite uCmp_lt. destruct (Z.ltb_spec lo q); [|lia]. unfold nextOf. rewrite H2. cbn zeta. destruct (Z.eqb_spec (nf lb 0) 0); [contradiction|reflexivity].
      * apply returns_done. unfold posBody. rewrite uCmp_lt. destruct (Z.ltb_spec (nf lb 0) q) as [X|X]; [exfalso|reflexivity].
        assert (q < lo + t) as G by exact G2. clear - D NZ X G. revert D G NZ X. generalize (lo + t). clear. induction lb as [|[[a s] []] lb IH]; intros lo T G N X; cbn [tile nf] in *; [contradiction| |]; destruct T as (A & B & C & D).
        -- apply (IH (lo + s)); try assumption; lia.
        -- lia.
  - destruct b; [apply (IH p (lo + w)); [lia|exact D|exact H3]|].
    assert (lo + w <= g) as LG. { apply tile_app in D. destruct D as (c & D1 & D2). cbn [tile] in D2. destruct D2 as (-> & _). exact (tile_le _ _ _ D1). }
    apply (returns_step (posBody m q) (p, lo) (lo, nf (la ++ (g, t, false) :: lb) 0)).
    + unfold posBody. rewrite uCmp_lt. destruct (Z.ltb_spec lo q); [|lia]. unfold nextOf. rewrite H2. cbn zeta. destruct (Z.eqb_spec (nf (la ++ (g, t, false) :: lb) 0) 0) as [Z1|Z1]; [|reflexivity]. exfalso.
      assert (0 < lo + w) as LO' by lia. clear - Z1 D LO'. revert D LO' Z1. generalize (lo + w). clear lo w. induction la as [|[[a s] []] l IH]; intros lo D LO N; cbn [app tile nf] in *; destruct D as (A & B & C & D); [lia| |lia].
      apply (IH _ D); [lia|exact N].
    + apply (IH lo (lo + w)); [lia|exact D|exact H3].
Qed.
Theorem free_bad p q m la g t lb : wd (p - 4) = q -> Inv m (la ++ (g, t, false) :: lb) -> g <= q < g + t -> returns (free pool p m) (HExit EUBADA).
Proof.
  intros WQ [T H R Z0 AD LF] G. unfold free. rewrite WQ. destruct (Z.eqb_spec (nextOf m q) pool) as [NQ|NQ]; [|apply returns_ret]. cbn [negb].
  pose proof H as H'. apply hdN_app in H'. destruct H' as (H1 & H2). cbn [hdN nf] in H1, H2. destruct H2 as (HS & HN & H2).
  pose proof T as T'. apply tile_app in T'. destruct T' as (c & T1 & T2). cbn [tile] in T2. destruct T2 as (<- & T4 & TE & T2). pose proof (tile_le _ _ _ T1). pose proof (tile_le _ _ _ T2).
  destruct (Z.eq_dec q g) as [->|NG].
  - exfalso. unfold nextOf in NQ. rewrite HN in NQ. assert (nf lb 0 = 0 \/ E <= nf lb 0) as X; [|lia].
    assert (E <= g + t) as EG by lia. clear - T2 EG. revert T2 EG. generalize (g + t). clear. induction lb as [|[[a s] []] l IH]; intros lo D LO; cbn [tile nf] in *; [left; reflexivity| |]; destruct D as (A & B & C & D); [apply (IH _ D); lia|right; lia].
  - eapply returns_bind.
    + unfold findPos. change (nextOf m pool) with (ldw m pool). rewrite R. apply (find_pos_in m q g t lb F ltac:(lia) ltac:(lia) la pool E ltac:(lia) T H).
    + cbn beta iota zeta. replace (wd (g + sizeOf m g)) with (g + t) by (unfold sizeOf; rewrite HS; unfold wd; rewrite Z.mod_small; lia). rewrite uCmp_lt. destruct (Z.ltb_spec q (g + t)); [|lia]. apply returns_ret.
Qed.
Lemma cover l : forall lo hi x, tile lo l hi -> lo <= x < hi -> exists a s u, In (a, s, u) l /\ a <= x < a + s.
Proof.
  induction l as [|[[a s] u] l IH]; intros lo hi x T X; cbn [tile] in T; [lia|]. destruct T as (-> & S4 & _ & T). destruct (Z_lt_dec x (lo + s)) as [L|L].
  - exists lo, s, u. split; [left; reflexivity|lia].
  - destruct (IH _ _ x T ltac:(lia)) as (a & s' & u' & I & B). exists a, s', u'. split; [right; exact I|exact B].
Qed.
(* room without lent blocks lies in one free block *)
Lemma gap_free l : forall lo hi a c, tile lo l hi -> noAdj l -> lo <= a -> a < c -> c <= hi -> (forall x s, In (x, s, true) l -> x + s <= a \/ c <= x) ->
  exists g t, In (g, t, false) l /\ g <= a /\ c <= g + t.
Proof.
  induction l as [|[[x s] u] l IH]; intros lo hi a c T AD LA AC CH NL; cbn [tile] in T; [lia|]. destruct T as (-> & S4 & _ & T). cbn [noAdj] in AD. destruct AD as (AD & AD').
  destruct (Z_lt_dec a (lo + s)) as [L|L].
  - destruct u; [destruct (NL lo s (or_introl eq_refl)); lia|]. destruct (Z_lt_dec (lo + s) c) as [L2|L2].
    + exfalso. destruct l as [|[[y w] v] l]; cbn [tile] in T; [lia|]. destruct T as (-> & W4 & _ & T). cbn [hdF isFree snd negb andb] in AD. destruct v; [|discriminate AD].
      destruct (NL (lo + s) w (or_intror (or_introl eq_refl))); lia.
    + exists lo, s. split; [left; reflexivity|lia].
  - destruct (IH (lo + s) hi a c T AD' ltac:(lia) AC CH) as (g & t & I & B); [intros y w I; apply (NL y w (or_intror I))|]. exists g, t. split; [right; exact I|exact B].
Qed.
End Inv.
