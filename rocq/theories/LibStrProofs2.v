(* Bounded copies, comparison and search of lib/SrcCmm/string.cmm *)
From Coq Require Import ZArith Bool List Lia.
From Verif Require Import LibMem LibString LibSpec LibStrProofs.
Import ListNotations.
Open Scope Z_scope.

Lemma str_upto_of m a n l : str_at m a l -> str_upto m a n l.
Proof.
  intros (F & B). apply bytes_at_app in B. destruct B as (B & B0 & _).
  repeat split; auto.
Qed.

(* the part of l that a copy limited to n-1 characters takes *)
Lemma take_split m s n l : str_upto m s (n - 1) l ->
  let p := firstn (Z.to_nat (n - 1)) l in
  Forall char_ok p /\ bytes_at m s p /\ len p <= Z.max 0 (n - 1) /\
  (n - 1 <= len p \/ ldb m (s + len p) = 0).
Proof.
  intros (F & B & E) p. pose proof (firstn_skipn (Z.to_nat (n - 1)) l) as Q. fold p in Q.
  assert (LP : len p = Z.min (Z.max 0 (n - 1)) (len l)).
  { unfold p, len. rewrite firstn_length. lia. }
  pose proof (len_nonneg l). repeat split.
  - rewrite <- Q in F. apply Forall_app in F. tauto.
  - rewrite <- Q in B. apply bytes_at_app in B. tauto.
  - lia.
  - destruct E as [E|E]; [left; lia|]. destruct (Z_le_gt_dec (n - 1) (len l)).
    + left. lia.
    + right. replace (len p) with (len l) by lia. auto.
Qed.

Lemma strNcpy_copy n d s p : n <= 32767 -> -32767 <= n -> forall m k, 0 <= k ->
  k + len p <= Z.max 0 (n - 1) -> Forall char_ok p -> bytes_at m (s + k) p ->
  (n - 1 <= k + len p \/ ldb m (s + k + len p) = 0) ->
  fwd_ok (d + k) (s + k) (len p) ->
  exists m', returns (loop (fun '(m, i) =>
    if (i <? i16 (n - 1)) && negb (ldb m (s + i) =? 0)
    then inl (stb m (d + i) (ldb m (s + i)), i16 (i + 1)) else inr (m, i)) (m, k)) (m', k + len p) /\
  wrote m (d + k) p m'.
Proof.
  intros N1 N2. assert (N3 : i16 (n - 1) = n - 1) by (apply i16_id; lia).
  induction p as [|c p IH]; intros m k K L F B E O.
  - rewrite len_nil in *. exists m. split; [|apply wrote_nil]. apply returns_done. cbv beta.
    rewrite N3, !Z.add_0_r in *. destruct (k <? n - 1) eqn:Q; [|reflexivity].
    apply Z.ltb_lt in Q. destruct E as [E|E]; [lia|]. rewrite E. reflexivity.
  - rewrite len_cons in *. pose proof (len_nonneg p). inversion F; subst. destruct B as (B1 & B2).
    destruct (IH (stb m (d + k) (ldb m (s + k))) (k + 1)) as (m' & R & W); auto; try lia.
    + replace (s + (k + 1)) with (s + k + 1) by lia. apply bytes_at_stb; auto.
      intros i Hi Q. apply (O 0 (1 + i)); try lia. rewrite Z.add_0_r, <- Q. f_equal. lia.
    + destruct E as [E|E]; [left; lia|right].
      rewrite ldb_stb. destruct (_ =? _) eqn:Q.
      * apply Z.eqb_eq in Q. exfalso. apply (O 0 (1 + len p)); try lia.
        rewrite Z.add_0_r, <- Q. f_equal. lia.
      * rewrite <- E. f_equal. lia.
    + intros j i Hj Hi Q. apply (O (1 + j) (1 + i)); try lia.
      replace (d + k + (1 + j)) with (d + (k + 1) + j) by lia. rewrite Q. f_equal. lia.
    + exists m'. split.
      * eapply returns_step.
        -- cbv beta. rewrite N3, B1. rewrite char_nz by auto.
           replace (k <? n - 1) with true by (symmetry; apply Z.ltb_lt; lia). cbn [andb negb].
           rewrite i16_id by lia. reflexivity.
        -- rewrite B1 in R. replace (k + (1 + len p)) with (k + 1 + len p) by lia. exact R.
      * apply wrote_cons; [unfold char_ok in *; lia|lia|]. rewrite B1 in W.
        replace (d + k + 1) with (d + (k + 1)) by lia. exact W.
Qed.

Lemma fill_ok n d c : n <= 32767 -> forall m k, 0 <= k -> k + Z.of_nat c = Z.max k n ->
  exists m', returns (loop (fun '(m, i) =>
    if i <? n then inl (stb m (d + i) 0, i16 (i + 1)) else inr m) (m, k)) m' /\
  wrote m (d + k) (repeat 0 c) m'.
Proof.
  intros N. induction c as [|c IH]; intros m k K E.
  - exists m. split; [|apply wrote_nil]. apply returns_done. cbv beta.
    destruct (k <? n) eqn:Q; auto. apply Z.ltb_lt in Q. lia.
  - destruct (IH (stb m (d + k) 0) (k + 1)) as (m' & R & W); try lia.
    exists m'. split.
    + eapply returns_step; [|exact R]. cbv beta.
      replace (k <? n) with true by (symmetry; apply Z.ltb_lt; lia).
      rewrite i16_id by lia. reflexivity.
    + cbn [repeat]. apply wrote_cons; [lia| |].
      * unfold len. rewrite repeat_length. lia.
      * replace (d + k + 1) with (d + (k + 1)) by lia. exact W.
Qed.

Lemma strNcpy_ok m d s n l : 0 <= n <= 32767 -> str_upto m s (n - 1) l ->
  (d - s) mod 65536 = 0 \/ n < (d - s) mod 65536 ->
  exists m', let p := firstn (Z.to_nat (n - 1)) l in
    returns (strNcpy m d s n) (m', d) /\
    wrote m d (p ++ repeat 0 (Z.to_nat n - length p)) m'.
Proof.
  intros N U D. destruct (take_split m s n l U) as (F & B & L & E).
  set (p := firstn (Z.to_nat (n - 1)) l) in *. pose proof (len_nonneg p).
  destruct (strNcpy_copy n d s p ltac:(lia) ltac:(lia) m 0) as (m1 & R1 & W1); auto; try lia.
  - now rewrite Z.add_0_r.
  - now rewrite Z.add_0_r.
  - rewrite !Z.add_0_r. apply fwd_dist; [lia|]. destruct D; [auto|right; lia].
  - destruct (fill_ok n d (Z.to_nat n - length p) ltac:(lia) m1 (len p)) as (m2 & R2 & W2).
    + lia. + unfold len in *. lia.
    + exists m2. split.
      * unfold strNcpy. eapply returns_bind; [exact R1|]. cbv beta iota.
        rewrite Z.add_0_l. eapply returns_bind; [exact R2|]. apply returns_ret.
      * rewrite Z.add_0_r in W1. eapply wrote_app; [|exact W1|exact W2].
        unfold len in *. rewrite repeat_length. lia.
Qed.

(* ---- strNcat ---- *)
Lemma strNcat_copy n d s p : n <= 32767 -> -32767 <= n -> forall m i k, 0 <= k ->
  k + len p <= Z.max 0 (n - 1) -> Forall char_ok p -> bytes_at m (s + k) p ->
  (n - 1 <= k + len p \/ ldb m (s + k + len p) = 0) ->
  fwd_ok (d + i + k) (s + k) (len p) ->
  exists m', returns (loop (fun '(m, i, j) =>
    if (j <? i16 (n - 1)) && negb (ldb m (s + j) =? 0)
    then inl (stb m (d + i) (ldb m (s + j)), i16 (i + 1), i16 (j + 1)) else inr (m, i))
    (m, i16 (i + k), k)) (m', i16 (i + k + len p)) /\
  wrote m (d + i + k) p m'.
Proof.
  intros N1 N2. assert (N3 : i16 (n - 1) = n - 1) by (apply i16_id; lia).
  assert (DI : forall i k : Z, (d + i16 (i + k)) mod 65536 = (d + i + k) mod 65536).
  { intros. rewrite add_i16. f_equal. lia. }
  induction p as [|c p IH]; intros m i k K L F B E O.
  - rewrite len_nil in *. exists m. split; [|apply wrote_nil]. apply returns_done. cbv beta.
    rewrite N3, !Z.add_0_r in *. destruct (k <? n - 1) eqn:Q; [|reflexivity].
    apply Z.ltb_lt in Q. destruct E as [E|E]; [lia|]. rewrite E. reflexivity.
  - rewrite len_cons in *. pose proof (len_nonneg p). inversion F; subst. destruct B as (B1 & B2).
    destruct (IH (stb m (d + i + k) (ldb m (s + k))) i (k + 1)) as (m' & R & W); auto; try lia.
    + replace (s + (k + 1)) with (s + k + 1) by lia. apply bytes_at_stb; auto.
      intros i' Hi Q. apply (O 0 (1 + i')); try lia. rewrite Z.add_0_r, <- Q. f_equal. lia.
    + destruct E as [E|E]; [left; lia|right].
      rewrite ldb_stb. destruct (_ =? _) eqn:Q.
      * apply Z.eqb_eq in Q. exfalso. apply (O 0 (1 + len p)); try lia.
        rewrite Z.add_0_r, <- Q. f_equal. lia.
      * rewrite <- E. f_equal. lia.
    + intros j i' Hj Hi Q. apply (O (1 + j) (1 + i')); try lia.
      replace (d + i + k + (1 + j)) with (d + i + (k + 1) + j) by lia. rewrite Q. f_equal. lia.
    + exists m'. split.
      * eapply returns_step.
        -- cbv beta. rewrite N3, B1. rewrite char_nz by auto.
           replace (k <? n - 1) with true by (symmetry; apply Z.ltb_lt; lia). cbn [andb negb].
           rewrite (stb_cong m _ _ _ (DI i k)), i16_add, (i16_id (k + 1)) by lia.
           replace (i + k + 1) with (i + (k + 1)) by lia. reflexivity.
        -- rewrite B1 in R. replace (i + k + (1 + len p)) with (i + (k + 1) + len p) by lia. exact R.
      * apply wrote_cons; [unfold char_ok in *; lia|lia|]. rewrite B1 in W.
        replace (d + i + k + 1) with (d + i + (k + 1)) by lia. exact W.
Qed.

Lemma strNcat_ok m d s n l1 l2 : -32767 <= n <= 32767 ->
  str_at m d l1 -> str_upto m s (n - 1) l2 ->
  (d + len l1 - s) mod 65536 = 0 \/ Z.max 0 n < (d + len l1 - s) mod 65536 ->
  exists m', returns (strNcat m d s n) (m', d) /\
    wrote m (d + len l1) (firstn (Z.to_nat (n - 1)) l2 ++ [0]) m'.
Proof.
  intros N S1 U D. destruct (take_split m s n l2 U) as (F & B & L & E).
  set (p := firstn (Z.to_nat (n - 1)) l2) in *. pose proof (len_nonneg p).
  pose proof (strLen_ok _ _ _ S1) as R0.
  destruct (strNcat_copy n d s p ltac:(lia) ltac:(lia) m (len l1) 0) as (m1 & R1 & W1); auto; try lia.
  - now rewrite Z.add_0_r.
  - now rewrite Z.add_0_r.
  - rewrite !Z.add_0_r. apply fwd_dist; [lia|]. destruct D; [auto|right; lia].
  - rewrite Z.add_0_r in R1, W1. exists (stb m1 (d + i16 (len l1 + len p)) 0). split.
    + unfold strNcat. eapply returns_bind; [exact R0|]. cbv beta.
      eapply returns_bind; [exact R1|]. apply returns_ret.
    + eapply wrote_app; [|exact W1|].
      * change (len [0]) with 1. lia.
      * apply wrote_cons; [lia|reflexivity|].
        rewrite (stb_cong m1 (d + i16 (len l1 + len p)) (d + len l1 + len p) 0) by (rewrite add_i16; f_equal; lia).
        apply wrote_nil.
Qed.

(* ---- comparison ---- *)
Fixpoint cmpval (l1 l2 : list Z) : Z :=
  match l1, l2 with
  | [], [] => 0
  | [], b :: _ => - b
  | a :: _, [] => a
  | a :: l1', b :: l2' => if a =? b then cmpval l1' l2' else a - b
  end.

Lemma cmpval_range l1 : forall l2, Forall char_ok l1 -> Forall char_ok l2 -> -255 <= cmpval l1 l2 <= 255.
Proof.
  unfold char_ok. induction l1 as [|a l1 IH]; intros [|b l2] F1 F2; cbn [cmpval];
    inversion F1; inversion F2; subst; try lia.
  destruct (a =? b); [auto|lia].
Qed.

Lemma cmpval_sym l1 : forall l2, cmpval l2 l1 = - cmpval l1 l2.
Proof.
  induction l1 as [|a l1 IH]; intros [|b l2]; cbn [cmpval]; try lia.
  rewrite (Z.eqb_sym b a). destruct (a =? b); [auto|lia].
Qed.

Lemma lex_cons a l1 l2 : lex_lt l1 l2 -> lex_lt (a :: l1) (a :: l2).
Proof.
  intros (p & [(c & r & -> & ->)|(x & y & r1 & r2 & -> & -> & L)]); exists (a :: p).
  - left. exists c, r. auto.
  - right. exists x, y, r1, r2. auto.
Qed.

Lemma lex_cons_inv a b l1 l2 : lex_lt (a :: l1) (b :: l2) -> a < b \/ (a = b /\ lex_lt l1 l2).
Proof.
  intros (p & [(c & r & <- & E)|(x & y & r1 & r2 & E1 & E2 & L)]).
  - injection E as -> E. right. split; auto. exists l1. left. exists c, r. auto.
  - destruct p as [|z p]; cbn [app] in E1, E2.
    + left. congruence.
    + injection E1 as -> E1. injection E2 as -> E2. right. split; auto.
      exists p. right. exists x, y, r1, r2. auto.
Qed.

Lemma lex_nil_r l : ~ lex_lt l [].
Proof.
  intros (p & [(c & r & _ & E)|(x & y & r1 & r2 & _ & E & _)]); now apply app_cons_not_nil in E.
Qed.

Lemma cmpval_lt l1 : forall l2, Forall char_ok l1 -> Forall char_ok l2 ->
  (cmpval l1 l2 < 0 <-> lex_lt l1 l2).
Proof.
  unfold char_ok. induction l1 as [|a l1 IH]; intros [|b l2] F1 F2; cbn [cmpval];
    inversion F1; inversion F2; subst.
  - split; [lia|]. intros H; now apply lex_nil_r in H.
  - split; [|lia]. intros _. exists []. left. exists b, l2. auto.
  - split; [lia|]. intros H'; now apply lex_nil_r in H'.
  - destruct (a =? b) eqn:E.
    + apply Z.eqb_eq in E. subst b. rewrite IH by auto. split; [apply lex_cons|].
      intros L. apply lex_cons_inv in L. destruct L as [L|(_ & L)]; [lia|auto].
    + apply Z.eqb_neq in E. split.
      * intros L. exists []. right. exists a, b, l1, l2. repeat split; auto. lia.
      * intros L. apply lex_cons_inv in L. destruct L as [L|(L & _)]; lia.
Qed.

Lemma cmpval_eq l1 : forall l2, Forall char_ok l1 -> Forall char_ok l2 ->
  (cmpval l1 l2 = 0 <-> l1 = l2).
Proof.
  unfold char_ok. induction l1 as [|a l1 IH]; intros [|b l2] F1 F2; cbn [cmpval];
    inversion F1; inversion F2; subst.
  - tauto.
  - split; [intros; exfalso; lia|discriminate].
  - split; [intros; exfalso; lia|discriminate].
  - destruct (a =? b) eqn:E.
    + apply Z.eqb_eq in E. subst b. rewrite IH by auto. split; congruence.
    + apply Z.eqb_neq in E. split; [intros; exfalso; lia|congruence].
Qed.

Lemma strCmp_from m s1 s2 l1 : forall l2 k, Forall char_ok l1 -> Forall char_ok l2 ->
  bytes_at m (s1 + k) (l1 ++ [0]) -> bytes_at m (s2 + k) (l2 ++ [0]) ->
  returns (loop (fun i =>
    if ldb m (s1 + i) =? ldb m (s2 + i)
    then if ldb m (s1 + i) =? 0 then inr 0 else inl (i16 (i + 1))
    else inr (i16 (ldb m (s1 + i) - ldb m (s2 + i)))) (i16 k)) (cmpval l1 l2).
Proof.
  assert (A : forall s k : Z, (s + i16 k) mod 65536 = (s + k) mod 65536) by (intros; apply add_i16).
  induction l1 as [|a l1 IH]; intros [|b l2] k F1 F2; cbn [app bytes_at cmpval];
    intros (A1 & A2) (B1 & B2); inversion F1; inversion F2; subst; unfold char_ok in *.
  - apply returns_done. cbv beta. rewrite !(ldb_cong m _ _ (A _ _)), A1, B1. reflexivity.
  - apply returns_done. cbv beta. rewrite !(ldb_cong m _ _ (A _ _)), A1.
    destruct (0 =? _) eqn:Q; [apply Z.eqb_eq in Q; lia|].
    rewrite i16_id by lia. f_equal.
  - apply returns_done. cbv beta. rewrite !(ldb_cong m _ _ (A _ _)), B1.
    destruct (_ =? 0) eqn:Q; [apply Z.eqb_eq in Q; lia|].
    rewrite i16_id by lia. f_equal. lia.
  - destruct (ldb m (s1 + k) =? ldb m (s2 + k)) eqn:Q.
    + eapply returns_step.
      * cbv beta. rewrite !(ldb_cong m _ _ (A _ _)), Q.
        destruct (ldb m (s1 + k) =? 0) eqn:Q'; [apply Z.eqb_eq in Q'; lia|].
        rewrite i16_add. reflexivity.
      * apply IH; auto.
        -- replace (s1 + (k + 1)) with (s1 + k + 1) by lia. auto.
        -- replace (s2 + (k + 1)) with (s2 + k + 1) by lia. auto.
    + apply returns_done. cbv beta. rewrite !(ldb_cong m _ _ (A _ _)), Q.
      rewrite i16_id by lia. reflexivity.
Qed.

Lemma strCmp_ok m s1 s2 l1 l2 : str_at m s1 l1 -> str_at m s2 l2 ->
  returns (strCmp m s1 s2) (cmpval l1 l2).
Proof.
  intros (F1 & B1) (F2 & B2). unfold strCmp. apply (strCmp_from m s1 s2 l1 l2 0); auto;
    rewrite Z.add_0_r; auto.
Qed.

Lemma strNcmp_from m s1 s2 n l1 : n <= 32767 -> forall l2 k, 0 <= k ->
  Forall char_ok l1 -> Forall char_ok l2 ->
  bytes_at m (s1 + k) l1 -> bytes_at m (s2 + k) l2 ->
  (n <= k + len l1 \/ ldb m (s1 + k + len l1) = 0) ->
  (n <= k + len l2 \/ ldb m (s2 + k + len l2) = 0) ->
  returns (loop (fun i =>
    if (i <? n) && (ldb m (s1 + i) =? ldb m (s2 + i))
    then if ldb m (s1 + i) =? 0 then inr 0 else inl (i16 (i + 1))
    else if n <=? i then inr 0
    else inr (i16 (ldb m (s1 + i) - ldb m (s2 + i)))) k)
    (cmpval (firstn (Z.to_nat (n - k)) l1) (firstn (Z.to_nat (n - k)) l2)).
Proof.
  intros N. induction l1 as [|a l1 IH]; intros l2 k K F1 F2 A B E1 E2.
  - rewrite len_nil, Z.add_0_r in E1. rewrite Z.add_0_r in E1. rewrite firstn_nil.
    destruct (Z_le_gt_dec n k) as [G|G].
    + replace (Z.to_nat (n - k)) with O by lia. cbn [firstn cmpval].
      apply returns_done. cbv beta. replace (k <? n) with false by (symmetry; apply Z.ltb_ge; lia).
      cbn [andb]. replace (n <=? k) with true by (symmetry; apply Z.leb_le; lia). reflexivity.
    + destruct E1 as [E1|E1]; [lia|].
      destruct (Z.to_nat (n - k)) as [|t] eqn:T; [lia|].
      apply returns_done. cbv beta.
      replace (k <? n) with true by (symmetry; apply Z.ltb_lt; lia).
      replace (n <=? k) with false by (symmetry; apply Z.leb_gt; lia).
      rewrite E1. destruct l2 as [|b l2]; cbn [firstn cmpval].
      * rewrite len_nil, !Z.add_0_r in E2. destruct E2 as [E2|E2]; [lia|]. rewrite E2. reflexivity.
      * destruct B as (B1 & B2). inversion F2; subst. unfold char_ok in *.
        destruct (0 =? _) eqn:Q; [apply Z.eqb_eq in Q; lia|]. cbn [andb].
        rewrite i16_id by lia. f_equal.
  - destruct A as (A1 & A2). inversion F1; subst. unfold char_ok in *. pose proof (len_nonneg l1).
    destruct (Z_le_gt_dec n k) as [G|G].
    + replace (Z.to_nat (n - k)) with O by lia. cbn [firstn cmpval].
      apply returns_done. cbv beta. replace (k <? n) with false by (symmetry; apply Z.ltb_ge; lia).
      cbn [andb]. replace (n <=? k) with true by (symmetry; apply Z.leb_le; lia). reflexivity.
    + replace (Z.to_nat (n - k)) with (S (Z.to_nat (n - (k + 1)))) by lia.
      assert (K1 : (k <? n) = true) by (apply Z.ltb_lt; lia).
      assert (K2 : (n <=? k) = false) by (apply Z.leb_gt; lia).
      destruct l2 as [|b l2]; cbn [firstn cmpval].
      * rewrite len_nil, !Z.add_0_r in E2. destruct E2 as [E2|E2]; [lia|].
        apply returns_done. cbv beta. rewrite K1, K2, E2.
        destruct (_ =? 0) eqn:Q; [apply Z.eqb_eq in Q; lia|]. cbn [andb].
        rewrite i16_id by lia. f_equal. lia.
      * destruct B as (B1 & B2). inversion F2; subst. unfold char_ok in *. pose proof (len_nonneg l2).
        rewrite len_cons in E1, E2.
        destruct (ldb m (s1 + k) =? ldb m (s2 + k)) eqn:Q.
        -- eapply returns_step.
           ++ cbv beta. rewrite K1, Q. cbn [andb].
              destruct (ldb m (s1 + k) =? 0) eqn:Q'; [apply Z.eqb_eq in Q'; lia|].
              rewrite i16_id by lia. reflexivity.
           ++ apply IH; auto; try lia.
              ** replace (s1 + (k + 1)) with (s1 + k + 1) by lia. auto.
              ** replace (s2 + (k + 1)) with (s2 + k + 1) by lia. auto.
              ** destruct E1 as [E1|E1]; [left; lia|right]. rewrite <- E1. f_equal. lia.
              ** destruct E2 as [E2|E2]; [left; lia|right]. rewrite <- E2. f_equal. lia.
        -- apply returns_done. cbv beta. rewrite K1, K2, Q. cbn [andb].
           rewrite i16_id by lia. reflexivity.
Qed.

Lemma strNcmp_ok m s1 s2 n l1 l2 : n <= 32767 -> str_upto m s1 n l1 -> str_upto m s2 n l2 ->
  returns (strNcmp m s1 s2 n) (cmpval (firstn (Z.to_nat n) l1) (firstn (Z.to_nat n) l2)).
Proof.
  intros N (F1 & B1 & E1) (F2 & B2 & E2). unfold strNcmp.
  pose proof (strNcmp_from m s1 s2 n l1 N l2 0 ltac:(lia) F1 F2) as H.
  rewrite Z.sub_0_r in H. apply H; rewrite ?Z.add_0_r; auto.
Qed.

(* ---- strChr, strRchr ---- *)
Lemma strChr_from m s c l : forall k, 0 <= k -> k + len l <= 32767 ->
  Forall char_ok l -> bytes_at m (s + k) (l ++ [0]) ->
  exists r, returns (loop (fun i =>
    if negb (ldb m (s + i) =? 0)
    then if ldb m (s + i) =? c then inr i else inl (i16 (i + 1))
    else inr (-1)) k) r /\
  ((r = -1 /\ ~ In c l) \/ exists p q, l = p ++ c :: q /\ ~ In c p /\ r = k + len p).
Proof.
  induction l as [|a l IH]; intros k K L F B; cbn [app bytes_at] in B; destruct B as (B1 & B2).
  - exists (-1). split; [|left; auto]. apply returns_done. cbv beta. rewrite B1. reflexivity.
  - rewrite len_cons in L. pose proof (len_nonneg l). inversion F; subst.
    destruct (ldb m (s + k) =? c) eqn:Q.
    + exists k. split.
      * apply returns_done. cbv beta. rewrite char_nz by auto. cbn [negb]. now rewrite Q.
      * apply Z.eqb_eq in Q. right. exists [], l. rewrite Q, len_nil. repeat split; auto. lia.
    + destruct (IH (k + 1)) as (r & R & S); auto; try lia.
      { replace (s + (k + 1)) with (s + k + 1) by lia. auto. }
      exists r. split.
      * eapply returns_step; [|exact R]. cbv beta. rewrite char_nz by auto. cbn [negb].
        rewrite Q, i16_id by lia. reflexivity.
      * apply Z.eqb_neq in Q. destruct S as [(-> & S)|(p & q & -> & S & ->)].
        -- left. split; auto. intros [E|E]; [congruence|auto].
        -- right. exists (ldb m (s + k) :: p), q. rewrite len_cons. repeat split; auto; [|lia].
           intros [E|E]; [congruence|auto].
Qed.

Lemma strRchr_from m s c l : forall k j0, 0 <= k -> k + len l <= 32767 ->
  Forall char_ok l -> bytes_at m (s + k) (l ++ [0]) ->
  exists r, returns (loop (fun '(i, j) =>
    if negb (ldb m (s + i) =? 0)
    then inl (i16 (i + 1), if ldb m (s + i) =? c then i else j)
    else inr j) (k, j0)) r /\
  ((r = j0 /\ ~ In c l) \/ exists p q, l = p ++ c :: q /\ ~ In c q /\ r = k + len p).
Proof.
  induction l as [|a l IH]; intros k j0 K L F B; cbn [app bytes_at] in B; destruct B as (B1 & B2).
  - exists j0. split; [|left; auto]. apply returns_done. cbv beta. rewrite B1. reflexivity.
  - rewrite len_cons in L. pose proof (len_nonneg l). inversion F; subst.
    destruct (IH (k + 1) (if ldb m (s + k) =? c then k else j0)) as (r & R & S); auto; try lia.
    { replace (s + (k + 1)) with (s + k + 1) by lia. auto. }
    exists r. split.
    + eapply returns_step; [|exact R]. cbv beta. rewrite char_nz by auto. cbn [negb].
      rewrite i16_id by lia. reflexivity.
    + destruct S as [(-> & S)|(p & q & -> & S & ->)].
      * destruct (ldb m (s + k) =? c) eqn:Q.
        -- apply Z.eqb_eq in Q. right. exists [], l. rewrite Q, len_nil. repeat split; auto. lia.
        -- apply Z.eqb_neq in Q. left. split; auto. intros [E|E]; [congruence|auto].
      * right. exists (ldb m (s + k) :: p), q. rewrite len_cons. repeat split; auto. lia.
Qed.

(* ---- strStr ---- *)
Lemma strStr_inner m s1 s2 l i : l <= 32767 -> forall y k, 0 <= k -> k + len y = l ->
  bytes_at m (s2 + k) y ->
  exists j, returns (loop (fun j =>
        if j <? l then
          if negb (ldb m (s1 + i16 (i + j)) =? ldb m (s2 + j)) then inr j
          else inl (i16 (j + 1))
        else inr j) k) j /\ (j = l <-> bytes_at m (s1 + i + k) y) /\ k <= j <= l.
Proof.
  intros Hl. induction y as [|c y IH]; intros k K E B.
  - rewrite len_nil in E. exists k. split; [|cbn [bytes_at]; split; [intuition lia|lia]].
    apply returns_done. cbv beta. replace (k <? l) with false by (symmetry; apply Z.ltb_ge; lia).
    reflexivity.
  - rewrite len_cons in *. pose proof (len_nonneg y). destruct B as (B1 & B2).
    assert (A : (s1 + i16 (i + k)) mod 65536 = (s1 + i + k) mod 65536)
      by (rewrite add_i16; f_equal; lia).
    destruct (ldb m (s1 + i + k) =? c) eqn:Q.
    + destruct (IH (k + 1)) as (j & R & J & JR); try lia.
        { replace (s2 + (k + 1)) with (s2 + k + 1) by lia. auto. }
        exists j. split; [|split; [|lia]].
        -- eapply returns_step; [|exact R]. cbv beta.
           replace (k <? l) with true by (symmetry; apply Z.ltb_lt; lia).
           rewrite (ldb_cong m _ _ A), B1, Q. cbn [negb]. rewrite i16_id by lia. reflexivity.
        -- rewrite J. apply Z.eqb_eq in Q. cbn [bytes_at].
           replace (s1 + i + (k + 1)) with (s1 + i + k + 1) by lia. tauto.
    + apply Z.eqb_neq in Q. exists k. split; [|split; [|lia]].
      * apply returns_done. cbv beta.
        replace (k <? l) with true by (symmetry; apply Z.ltb_lt; lia).
        rewrite (ldb_cong m _ _ A), B1. apply Z.eqb_neq in Q. rewrite Q. reflexivity.
      * cbn [bytes_at]. split; [lia|intros (H1 & _); contradiction].
Qed.

Lemma skipn_plus (l : list Z) : forall a b, skipn (a + b) l = skipn b (skipn a l).
Proof.
  induction l as [|c l IH]; intros a b; [now rewrite !skipn_nil|].
  destruct a as [|a]; [reflexivity|]. cbn [Nat.add skipn]. apply IH.
Qed.

(* occurrence in the list = occurrence in memory *)
Lemma occurs_mem m s l x i : str_at m s l -> 0 <= i -> i + len x <= len l ->
  (bytes_at m (s + i) x <-> occurs_at x l i).
Proof.
  intros (F & B) I L. apply bytes_at_app in B. destruct B as (B & _). split.
  - intros H. exists (firstn (Z.to_nat i) l), (skipn (Z.to_nat i + length x) l).
    assert (LP : len (firstn (Z.to_nat i) l) = i).
    { unfold len in *. rewrite firstn_length. lia. }
    split; [|exact LP].
    pose proof (firstn_skipn (Z.to_nat i) l) as Q. rewrite <- Q at 1. f_equal.
    rewrite <- Q in B. apply bytes_at_app in B. destruct B as (_ & B). rewrite LP in B.
    assert (LS : (length x <= length (skipn (Z.to_nat i) l))%nat)
      by (rewrite skipn_length; unfold len in *; lia).
    rewrite skipn_plus.
    revert H B LS. generalize (skipn (Z.to_nat i) l) as t. generalize (s + i). clear.
    induction x as [|c x IH]; intros a t H B LS; [reflexivity|].
    destruct t as [|d t]; [simpl in LS; lia|]. destruct H as (H1 & H2), B as (B1 & B2).
    cbn [length skipn app]. cbn [length] in LS. f_equal; [congruence|].
    apply (IH (a + 1)); auto. lia.
  - intros (p & q & -> & E). apply bytes_at_app in B. destruct B as (_ & B).
    apply bytes_at_app in B. destruct B as (B & _). now rewrite E in B.
Qed.

Lemma strStr_from m s1 s2 l1 l2 : len l1 <= 32767 -> len l2 <= 32767 ->
  str_at m s1 l1 -> str_at m s2 l2 ->
  forall c k, 0 <= k -> k + Z.of_nat c = Z.max k (len l1 - len l2) ->
  exists r, returns (loopM (fun i =>
    if i <? len l1 - len l2 then
      let! j := loop (fun j =>
        if j <? len l2 then
          if negb (ldb m (s1 + i16 (i + j)) =? ldb m (s2 + j)) then inr j
          else inl (i16 (j + 1))
        else inr j) 0 in
      ret (if j =? len l2 then inr i else inl (i16 (i + 1)))
    else ret (inr (-1))) k) r /\
  ((r = -1 /\ forall i, k <= i < len l1 - len l2 -> ~ occurs_at l2 l1 i) \/
   (k <= r < len l1 - len l2 /\ occurs_at l2 l1 r /\ forall i, k <= i < r -> ~ occurs_at l2 l1 i)).
Proof.
  intros L1 L2 S1 S2. pose proof (len_nonneg l2). pose proof (len_nonneg l1).
  induction c as [|c IH]; intros k K E.
  - exists (-1). split.
    + apply returns_doneM. replace (k <? len l1 - len l2) with false by (symmetry; apply Z.ltb_ge; lia).
      apply returns_ret.
    + left. split; auto. intros i Hi. lia.
  - assert (B2 : bytes_at m (s2 + 0) l2).
    { rewrite Z.add_0_r. destruct S2 as (_ & B). apply bytes_at_app in B. tauto. }
    destruct (strStr_inner m s1 s2 (len l2) k L2 l2 0 ltac:(lia) ltac:(lia) B2) as (j & R & J & JR).
    rewrite Z.add_0_r, (occurs_mem m s1 l1 l2 k S1 K ltac:(lia)) in J.
    destruct (j =? len l2) eqn:Q.
    + exists k. split.
      * apply returns_doneM. replace (k <? len l1 - len l2) with true by (symmetry; apply Z.ltb_lt; lia).
        eapply returns_bind; [exact R|]. cbv beta. rewrite Q. apply returns_ret.
      * apply Z.eqb_eq in Q. right. split; [lia|]. split; [tauto|]. intros i Hi. lia.
    + destruct (IH (k + 1)) as (r & RR & S); try lia. exists r. split.
      * eapply returns_stepM; [|exact RR].
        replace (k <? len l1 - len l2) with true by (symmetry; apply Z.ltb_lt; lia).
        eapply returns_bind; [exact R|]. cbv beta. rewrite Q, i16_id by lia. apply returns_ret.
      * apply Z.eqb_neq in Q.
        assert (NK : ~ occurs_at l2 l1 k) by tauto.
        destruct S as [(-> & S)|(RR1 & O & S)]; [left|right].
        -- split; auto. intros i Hi. destruct (Z.eq_dec i k) as [->|]; [auto|apply S; lia].
        -- split; [lia|]. split; auto. intros i Hi.
           destruct (Z.eq_dec i k) as [->|]; [auto|apply S; lia].
Qed.

Lemma strStr_ok m s1 s2 l1 l2 : len l1 <= 32767 -> len l2 <= 32767 ->
  str_at m s1 l1 -> str_at m s2 l2 ->
  exists r, returns (strStr m s1 s2) r /\
  ((r = -1 /\ forall i, 0 <= i < len l1 - len l2 -> ~ occurs_at l2 l1 i) \/
   (0 <= r < len l1 - len l2 /\ occurs_at l2 l1 r /\ forall i, 0 <= i < r -> ~ occurs_at l2 l1 i)).
Proof.
  intros L1 L2 S1 S2. pose proof (len_nonneg l2). pose proof (len_nonneg l1).
  destruct (strStr_from m s1 s2 l1 l2 L1 L2 S1 S2 (Z.to_nat (len l1 - len l2)) 0) as (r & R & S);
    try lia.
  exists r. split; [|exact S]. unfold strStr.
  eapply returns_bind; [apply (strLen_ok m s2 l2 S2)|].
  eapply returns_bind; [apply (strLen_ok m s1 l1 S1)|]. cbv beta zeta.
  rewrite !i16_id by (try rewrite !i16_id; lia). exact R.
Qed.
