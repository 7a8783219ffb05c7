(* Proofs about lib/SrcCmm/string.cmm (model: LibString.v, spec: LibSpec.v) *)
From Coq Require Import ZArith Bool List Lia.
From Verif Require Import LibMem LibString LibSpec.
Import ListNotations.
Open Scope Z_scope.

Lemma len_nil : len [] = 0. Proof. reflexivity. Qed.
Lemma len_cons c l : len (c :: l) = 1 + len l.
Proof. unfold len. cbn [length]. lia. Qed.
Lemma len_app l l' : len (l ++ l') = len l + len l'.
Proof. unfold len. rewrite app_length. lia. Qed.
Lemma len_nonneg l : 0 <= len l. Proof. unfold len. lia. Qed.
#[export] Hint Rewrite len_nil len_cons len_app : len.

Lemma bytes_at_app m l1 l2 : forall a,
  bytes_at m a (l1 ++ l2) <-> bytes_at m a l1 /\ bytes_at m (a + len l1) l2.
Proof.
  induction l1 as [|c l1 IH]; intros a.
  - change (len []) with 0. rewrite Z.add_0_r. simpl. tauto.
  - cbn [app bytes_at]. rewrite IH, len_cons.
    replace (a + 1 + len l1) with (a + (1 + len l1)) by lia. tauto.
Qed.

Lemma bytes_at_cong m l : forall a b, a mod 65536 = b mod 65536 ->
  bytes_at m a l -> bytes_at m b l.
Proof.
  induction l as [|c l IH]; intros a b E; [trivial|]. intros (H1 & H2). split.
  - rewrite <- H1. apply ldb_cong. auto.
  - apply (IH (a + 1)); auto. rewrite <- Z.add_mod_idemp_l, E, Z.add_mod_idemp_l by lia. auto.
Qed.

Lemma bytes_at_ext m m' l : forall a,
  (forall i, 0 <= i < len l -> ldb m' (a + i) = ldb m (a + i)) ->
  bytes_at m a l -> bytes_at m' a l.
Proof.
  induction l as [|c l IH]; intros a E; [trivial|]. intros (H1 & H2).
  rewrite len_cons in E. pose proof (len_nonneg l). split.
  - specialize (E 0 ltac:(lia)). rewrite Z.add_0_r in E. congruence.
  - apply IH; auto. intros i Hi. specialize (E (1 + i) ltac:(lia)).
    replace (a + (1 + i)) with (a + 1 + i) in E by lia. auto.
Qed.

Lemma bytes_at_nth m l : forall a i, bytes_at m a l -> (i < length l)%nat ->
  ldb m (a + Z.of_nat i) = nth i l 0.
Proof.
  induction l as [|c l IH]; intros a i; cbn [bytes_at length]; intros H L; [lia|].
  destruct H as (H1 & H2). destruct i as [|i].
  - rewrite Z.add_0_r. auto.
  - cbn [nth]. rewrite <- (IH (a + 1) i) by (auto; lia). apply ldb_cong. f_equal. lia.
Qed.

Lemma mod_neq a b : a mod 65536 <> b mod 65536 <-> (a - b) mod 65536 <> 0.
Proof.
  split; intros H E; apply H; clear H.
  - apply Z.mod_divide in E; [|lia]. destruct E as (q & E).
    replace a with (b + q * 65536) by lia. apply Z_mod_plus_full.
  - rewrite Zminus_mod, E, Z.sub_diag. reflexivity.
Qed.

Lemma mod_neq_small a b : 0 < a - b < 65536 \/ 0 < b - a < 65536 -> a mod 65536 <> b mod 65536.
Proof.
  intros H. apply mod_neq. intros E. apply Z.mod_divide in E; [|lia].
  destruct E as (q & E). nia.
Qed.

(* a string always fits in the address space *)
Lemma str_len m a l : str_at m a l -> len l < 65536.
Proof.
  intros (F & B). destruct (Z_lt_ge_dec (len l) 65536) as [|G]; [auto|exfalso].
  assert (N : nth (Z.to_nat (len l - 65536)) (l ++ [0]) 0 = 0).
  { rewrite <- (bytes_at_nth m _ a) by (auto; rewrite app_length; unfold len in *; lia).
    pose proof (bytes_at_nth m _ a (length l) B ltac:(rewrite app_length; simpl; lia)) as E.
    rewrite app_nth2, Nat.sub_diag in E by lia. cbn [nth] in E. rewrite <- E.
    apply ldb_cong. rewrite Z2Nat.id by lia. unfold len.
    replace (a + (Z.of_nat (length l) - 65536)) with (a + Z.of_nat (length l) + (-1) * 65536) by lia.
    apply Z_mod_plus_full. }
  rewrite app_nth1 in N by (unfold len in *; lia).
  rewrite Forall_forall in F.
  assert (I : In (nth (Z.to_nat (len l - 65536)) l 0) l) by (apply nth_In; unfold len in *; lia).
  apply F in I. unfold char_ok in I. lia.
Qed.

Lemma char_nz c : char_ok c -> (c =? 0) = false.
Proof. unfold char_ok. intros. apply Z.eqb_neq. lia. Qed.

(* ---- strLen ---- *)
Lemma strLen_from m s l : forall k, Forall char_ok l -> bytes_at m (s + k) (l ++ [0]) ->
  returns (loop (fun i => if negb (ldb m (s + i) =? 0) then inl (i16 (i + 1)) else inr i) (i16 k))
          (i16 (k + len l)).
Proof.
  induction l as [|c l IH]; intros k F B; cbn [app bytes_at] in B; destruct B as (B1 & B2).
  - apply returns_done. rewrite (ldb_cong m (s + i16 k) (s + k)) by apply add_i16.
    rewrite B1. rewrite len_nil, Z.add_0_r. reflexivity.
  - inversion F; subst. eapply returns_step.
    + cbv beta. rewrite (ldb_cong m (s + i16 k) (s + k)) by apply add_i16.
      rewrite char_nz by auto. cbn [negb]. rewrite i16_add. reflexivity.
    + rewrite len_cons. replace (k + (1 + len l)) with (k + 1 + len l) by lia.
      apply IH; auto. replace (s + (k + 1)) with (s + k + 1) by lia. auto.
Qed.

Lemma strLen_ok m s l : str_at m s l -> returns (strLen m s) (i16 (len l)).
Proof.
  intros (F & B). unfold strLen. change 0 with (i16 0) at 2.
  rewrite <- (Z.add_0_l (len l)) at 1. apply strLen_from; auto. now rewrite Z.add_0_r.
Qed.

(* ---- writing ---- *)
Lemma wrote_nil m a : wrote m a [] m.
Proof. split; [exact I|auto]. Qed.

Lemma wrote_cons m a c l m2 : 0 <= c < 256 -> len l < 65536 ->
  wrote (stb m a c) (a + 1) l m2 -> wrote m a (c :: l) m2.
Proof.
  intros C L (W1 & W2). split.
  - split; [|auto]. pose proof (len_nonneg l). rewrite W2.
    + rewrite ldb_stb, Z.eqb_refl. apply Z.mod_small. lia.
    + replace (a - (a + 1)) with (-1) by lia. change (-1 mod 65536) with 65535. lia.
  - intros x H. rewrite len_cons in H. pose proof (len_nonneg l).
    pose proof (Z.mod_pos_bound (x - a) 65536 ltac:(lia)).
    assert (E : (x - (a + 1)) mod 65536 = (x - a) mod 65536 - 1).
    { replace (x - (a + 1)) with (x - a - 1) by lia.
      rewrite <- Zminus_mod_idemp_l. apply Z.mod_small. lia. }
    rewrite W2 by lia. rewrite ldb_stb.
    destruct (x mod 65536 =? a mod 65536) eqn:Q; auto.
    apply Z.eqb_eq in Q. exfalso.
    assert (Z0 : (x - a) mod 65536 = 0) by (rewrite Zminus_mod, Q, Z.sub_diag; reflexivity). lia.
Qed.

Lemma wrote_cong m a b l m' : a mod 65536 = b mod 65536 -> wrote m a l m' -> wrote m b l m'.
Proof.
  intros E (W1 & W2). split; [now apply (bytes_at_cong m' l a b)|].
  intros x H. apply W2. rewrite Zminus_mod, E, <- Zminus_mod. auto.
Qed.

Lemma wrote_app m a l1 l2 m1 m2 : len l1 + len l2 <= 65536 ->
  wrote m a l1 m1 -> wrote m1 (a + len l1) l2 m2 -> wrote m a (l1 ++ l2) m2.
Proof.
  intros L (W1 & W2) (V1 & V2). pose proof (len_nonneg l1). pose proof (len_nonneg l2). split.
  - apply bytes_at_app. split; [|auto]. apply (bytes_at_ext m1); auto.
    intros i Hi. apply V2.
    replace (a + i - (a + len l1)) with (65536 + i - len l1 + (-1) * 65536) by lia.
    rewrite Z_mod_plus_full, Z.mod_small by lia. lia.
  - intros x Hx. rewrite len_app in Hx.
    pose proof (Z.mod_pos_bound (x - a) 65536 ltac:(lia)).
    rewrite V2.
    + apply W2. lia.
    + replace (x - (a + len l1)) with (x - a - len l1) by lia.
      rewrite <- Zminus_mod_idemp_l, Z.mod_small by lia. lia.
Qed.

(* the source of a copy survives a write elsewhere *)
Lemma bytes_at_stb m a l b v :
  (forall i, 0 <= i < len l -> (a + i) mod 65536 <> b mod 65536) ->
  bytes_at m a l -> bytes_at (stb m b v) a l.
Proof.
  intros H. apply bytes_at_ext. intros i Hi. rewrite ldb_stb.
  destruct (_ =? _) eqn:E; auto. apply Z.eqb_eq in E. exfalso. exact (H i Hi E).
Qed.

Lemma bytes_at_wrote m m' a l b w :
  apart a (len l) b (len w) -> wrote m b w m' -> bytes_at m a l -> bytes_at m' a l.
Proof.
  intros A (_ & W). apply bytes_at_ext. intros i Hi. apply W.
  pose proof (Z.mod_pos_bound (a + i - b) 65536 ltac:(lia)).
  destruct (Z_lt_ge_dec ((a + i - b) mod 65536) (len w)) as [G|]; [exfalso|lia].
  apply (A i ((a + i - b) mod 65536)); try lia.
  rewrite Z.add_mod_idemp_r by lia. f_equal. lia.
Qed.

(* ---- strCpy ---- *)
(* no byte of the source is overwritten before it has been read *)
Definition fwd_ok (d s n : Z) : Prop :=
  forall j i, 0 <= j < i -> i <= n -> (d + j) mod 65536 <> (s + i) mod 65536.

Lemma strCpy_from l : forall m d s k,
  Forall char_ok l -> len l < 65536 -> bytes_at m (s + k) (l ++ [0]) ->
  fwd_ok (d + k) (s + k) (len l) ->
  exists m', returns (loop (fun '(m, i) =>
    let c := ldb m (s + i) in
    let m' := stb m (d + i) c in
    if c =? 0 then inr m' else inl (m', i16 (i + 1))) (m, i16 k)) m' /\
  wrote m (d + k) (l ++ [0]) m'.
Proof.
  induction l as [|c l IH]; intros m d s k F L B O; cbn [app bytes_at] in B; destruct B as (B1 & B2).
  - eexists. split.
    + apply returns_done. cbv beta zeta.
      rewrite (ldb_cong m (s + i16 k) (s + k)) by apply add_i16. rewrite B1. reflexivity.
    + cbn [app]. apply wrote_cons; [lia|reflexivity|].
      rewrite (stb_cong m (d + i16 k) (d + k)) by apply add_i16. apply wrote_nil.
  - inversion F; subst. rewrite len_cons in L, O. pose proof (len_nonneg l).
    destruct (IH (stb m (d + k) (ldb m (s + k))) d s (k + 1)) as (m' & R & W).
    + auto. + lia.
    + replace (s + (k + 1)) with (s + k + 1) by lia. apply bytes_at_stb; auto.
      intros i Hi E. autorewrite with len in Hi. apply (O 0 (1 + i)); try lia.
      rewrite Z.add_0_r, <- E. f_equal. lia.
    + intros j i Hj Hi E. apply (O (1 + j) (1 + i)); try lia.
      replace (d + k + (1 + j)) with (d + (k + 1) + j) by lia. rewrite E. f_equal. lia.
    + exists m'. split.
      * eapply returns_step; [|exact R]. cbv beta zeta.
        rewrite (ldb_cong m (s + i16 k) (s + k)) by apply add_i16.
        rewrite char_nz by auto. rewrite i16_add.
        rewrite (stb_cong m (d + i16 k) (d + k)) by apply add_i16. reflexivity.
      * cbn [app]. apply wrote_cons; [apply ldb_range| |].
        -- autorewrite with len. lia.
        -- replace (d + k + 1) with (d + (k + 1)) by lia. exact W.
Qed.

(* distance from s forward to d, in the circular address space *)
Lemma fwd_dist d s n : n < 65536 -> (d - s) mod 65536 = 0 \/ n < (d - s) mod 65536 -> fwd_ok d s n.
Proof.
  intros L H j i Hj Hi E. assert (E' : (d + j - (s + i)) mod 65536 = 0)
    by (rewrite Zminus_mod, E, Z.sub_diag; reflexivity).
  pose proof (Z.mod_pos_bound (d - s) 65536 ltac:(lia)).
  replace (d + j - (s + i)) with ((d - s) - (i - j)) in E' by lia.
  rewrite <- Zminus_mod_idemp_l in E'. apply Z.mod_divide in E'; [|lia].
  destruct E' as (q & E'). nia.
Qed.

Lemma strCpy_ok m d s l : str_at m s l ->
  (d - s) mod 65536 = 0 \/ len l < (d - s) mod 65536 ->
  exists m', returns (strCpy m d s) (m', d) /\ wrote m d (l ++ [0]) m'.
Proof.
  intros S H. pose proof (str_len _ _ _ S). destruct S as (F & B).
  destruct (strCpy_from l m d s 0) as (m' & R & W); auto.
  - now rewrite Z.add_0_r.
  - rewrite !Z.add_0_r. apply fwd_dist; auto.
  - exists m'. split; [|now rewrite Z.add_0_r in W].
    unfold strCpy. eapply returns_bind; [exact R|]. apply returns_ret.
Qed.

(* ---- strCat ---- *)
Lemma strCat_from l : forall m d s j k,
  Forall char_ok l -> len l < 65536 -> bytes_at m (s + k) (l ++ [0]) ->
  fwd_ok (d + j + k) (s + k) (len l) ->
  exists m', returns (loop (fun '(m, i) =>
    let c := ldb m (s + i16 (i - i16 j)) in
    let m' := stb m (d + i) c in
    if c =? 0 then inr m' else inl (m', i16 (i + 1))) (m, i16 (j + k))) m' /\
  wrote m (d + j + k) (l ++ [0]) m'.
Proof.
  assert (SI : forall (s j k : Z), (s + i16 (i16 (j + k) - i16 j)) mod 65536 = (s + k) mod 65536).
  { intros. rewrite add_i16, <- (Z.add_mod_idemp_r s), Zminus_mod, !i16_cong, <- Zminus_mod,
      Z.add_mod_idemp_r by lia. f_equal. lia. }
  assert (DI : forall (d j k : Z), (d + i16 (j + k)) mod 65536 = (d + j + k) mod 65536).
  { intros. rewrite add_i16. f_equal. lia. }
  induction l as [|c l IH]; intros m d s j k F L B O; cbn [app bytes_at] in B; destruct B as (B1 & B2).
  - eexists. split.
    + apply returns_done. cbv beta zeta.
      rewrite (ldb_cong m _ _ (SI s j k)). rewrite B1. reflexivity.
    + cbn [app]. apply wrote_cons; [lia|reflexivity|].
      rewrite (stb_cong m _ _ _ (DI d j k)). apply wrote_nil.
  - inversion F; subst. rewrite len_cons in L, O. pose proof (len_nonneg l).
    destruct (IH (stb m (d + j + k) (ldb m (s + k))) d s j (k + 1)) as (m' & R & W).
    + auto. + lia.
    + replace (s + (k + 1)) with (s + k + 1) by lia. apply bytes_at_stb; auto.
      intros i Hi E. autorewrite with len in Hi. apply (O 0 (1 + i)); try lia.
      rewrite Z.add_0_r, <- E. f_equal. lia.
    + intros j' i Hj Hi E. apply (O (1 + j') (1 + i)); try lia.
      replace (d + j + k + (1 + j')) with (d + j + (k + 1) + j') by lia. rewrite E. f_equal. lia.
    + exists m'. split.
      * eapply returns_step; [|exact R]. cbv beta zeta.
        rewrite (ldb_cong m _ _ (SI s j k)).
        rewrite char_nz by auto. rewrite i16_add.
        rewrite (stb_cong m _ _ _ (DI d j k)).
        replace (j + k + 1) with (j + (k + 1)) by lia. reflexivity.
      * cbn [app]. apply wrote_cons; [apply ldb_range| |].
        -- autorewrite with len. lia.
        -- replace (d + j + k + 1) with (d + j + (k + 1)) by lia. exact W.
Qed.

Lemma strCat_ok m d s l1 l2 : str_at m d l1 -> str_at m s l2 ->
  (d + len l1 - s) mod 65536 = 0 \/ len l2 < (d + len l1 - s) mod 65536 ->
  exists m', returns (strCat m d s) (m', d) /\ wrote m (d + len l1) (l2 ++ [0]) m'.
Proof.
  intros S1 S2 H. pose proof (str_len _ _ _ S1). pose proof (str_len _ _ _ S2).
  pose proof (strLen_ok _ _ _ S1) as R1.
  destruct S2 as (F & B).
  destruct (strCat_from l2 m d s (len l1) 0) as (m' & R & W); auto.
  - now rewrite Z.add_0_r.
  - rewrite !Z.add_0_r. apply fwd_dist; auto.
  - exists m'. rewrite Z.add_0_r in R, W. split; [|auto].
    unfold strCat. eapply returns_bind; [exact R1|]. eapply returns_bind; [exact R|]. apply returns_ret.
Qed.

(* what is in the destination afterwards *)
Lemma strCat_str m d s l1 l2 m' : str_at m d l1 -> str_at m s l2 ->
  len l1 + len l2 < 65536 ->
  wrote m (d + len l1) (l2 ++ [0]) m' -> str_at m' d (l1 ++ l2).
Proof.
  intros (F1 & B1) (F2 & B2) L (W1 & W2). split; [now apply Forall_app|].
  rewrite <- app_assoc. apply bytes_at_app. split; auto.
  apply bytes_at_app in B1. destruct B1 as (B1 & _).
  apply (bytes_at_ext m); auto. intros i Hi. apply W2. autorewrite with len.
  pose proof (len_nonneg l2).
  replace (d + i - (d + len l1)) with (65536 + i - len l1 + (-1) * 65536) by lia.
  rewrite Z_mod_plus_full, Z.mod_small by lia. lia.
Qed.
