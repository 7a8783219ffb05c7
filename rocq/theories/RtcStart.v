From Coq Require Import ZArith Bool Lia List String Ascii.
From Verif Require Import Lexer CCode RtcHeap RtcSpec RtcProofs.
Import ListNotations.
Open Scope Z_scope.

Lemma store_elem : forall k s1 e1 x e2 s2 v h, holds (s1 ++ Arr k (e1 ++ x :: e2) :: s2) h ->
  exists h', store (List.length s1) (hdr k + Z.of_nat (width k) * Z.of_nat (List.length e1)) (width k) v h = ROk tt h' /\
             holds (s1 ++ Arr k (e1 ++ kept k v :: e2) :: s2) h'.
Proof.
  intros k s1 e1 x e2 s2 v h H.
  assert (E : nth_error (s1 ++ Arr k (e1 ++ x :: e2) :: s2) (List.length s1) = Some (Arr k (e1 ++ x :: e2))) by apply nth_mid.
  assert (B : 0 <= Z.of_nat (List.length e1) < Z.of_nat (List.length (e1 ++ x :: e2))) by (rewrite app_length; cbn [List.length]; lia).
  destruct (put_ok k _ h _ _ (Z.of_nat (List.length e1)) v [] 0 H E) as [(s1' & e1' & x' & e2' & s2' & h' & A1 & A2 & A3 & A4 & A5)|(A & _)]; [|now elim A].
  unfold putElem in A4. rewrite (check_ok k _ h _ _ _ [] 0 H E) in A4.
  replace ((Z.of_nat (List.length e1) <? 0) || (Z.of_nat (List.length (e1 ++ x :: e2)) <=? Z.of_nat (List.length e1))) with false in A4
    by (symmetry; apply orb_false_intro; [apply Z.ltb_ge|apply Z.leb_gt]; lia).
  cbn [rbind] in A4. exists h'. split; [exact A4|].
  apply Nat2Z.inj in A3. assert (Q : Arr k (e1 ++ x :: e2) = Arr k (e1' ++ x' :: e2') /\ s1 = s1' /\ s2 = s2').
  { clear - A1 A2. revert s1' A1 A2. induction s1 as [|a s1 IH]; intros [|a' s1'] A1 A2; try discriminate A2.
    - cbn [app] in A1. injection A1 as A1 A1'. now repeat split; congruence.
    - cbn [app] in A1. injection A1 as -> A1. injection A2 as A2. destruct (IH _ A1 A2) as (P & -> & ->). now repeat split. }
  destruct Q as (Q & <- & <-). assert (Q' : e1 ++ x :: e2 = e1' ++ x' :: e2') by congruence.
  assert (R : e1 = e1' /\ e2 = e2').
  { clear - Q' A3. revert e1' Q' A3. induction e1 as [|a e1 IH]; intros [|a' e1'] A1 A2; try discriminate A2.
    - cbn [app] in A1. injection A1 as A1 A1'. now split.
    - cbn [app] in A1. injection A1 as -> A1. injection A2 as A2. destruct (IH _ A1 A2) as (-> & ->). now split. }
  destruct R as (-> & ->). exact A5.
Qed.

Lemma flat_bytes : forall s, Forall (fun c => 0 <= c < 256) s -> flat_map (enc 1) s = s.
Proof.
  induction 1 as [|c s B F IH]; [reflexivity|]. change (flat_map (enc 1) (c :: s)) with (c mod 256 :: flat_map (enc 1) s). rewrite IH, Z.mod_small by lia. reflexivity.
Qed.

Section M.
Variable malloc : heap -> Z -> option (list Z).
Variable addr : nat -> Z.
Hypothesis MO : malloc_ok malloc.
Hypothesis AO : addr_ok addr.

Lemma mkStr_ok : forall s st h, holds st h -> Forall (fun c => 0 < c < 256) s -> Z.of_nat (List.length s) + 5 < 2 ^ 31 ->
  mkStr malloc s h = RExit \/ exists h', mkStr malloc s h = ROk (List.length st) h' /\ holds (st ++ [Arr KChar (s ++ [0])]) h'.
Proof.
  intros s st h H F B. unfold mkStr. cbn [hdr]. set (n := Z.of_nat (List.length s)) in *.
  destruct (mAlloc_ok malloc MO (4 + n + 1) h) as [-> | (m & L & _ & ->)]; [lia|now left|right]. cbn [rbind].
  unfold store. rewrite store_last by (rewrite enc_len; unfold inside; apply andb_true_intro; split; [reflexivity|apply Z.leb_le; lia]).
  cbn [rbind]. unfold storeB. rewrite nth_mid.
  assert (Es : splice 0 (enc 4 (int32 (n + 1))) m = enc 4 (n + 1) ++ skipn 4 m ++ []).
  { unfold splice. rewrite app_nil_r, enc_len, int32_id by lia. reflexivity. }
  assert (Ls : List.length (s ++ [0]) = List.length (skipn 4 m)) by (rewrite app_length, skipn_length; cbn [List.length]; lia).
  rewrite Es. change 4 with (Z.of_nat (List.length (enc 4 (n + 1)))). rewrite Ls, inside_app, splice_app by (symmetry; exact Ls).
  cbn [rbind]. rewrite setAt_app. eexists. rewrite <- (f2_len _ _ _ _ _ H). split; [reflexivity|].
  apply Forall2_app; [exact H|]. constructor; [|constructor]. eexists. split; [reflexivity|]. exists []. unfold alen. cbn [akind elems width app].
  assert (F0 : Forall (fun c => 0 <= c < 256) (s ++ [0])).
  { apply Forall_app. split; [|constructor; [lia|constructor]]. eapply Forall_impl; [|exact F]. cbn. lia. }
  rewrite app_nil_r, flat_bytes by exact F0. rewrite app_length. cbn [List.length]. split.
  - f_equal. f_equal. lia.
  - split; [reflexivity|]. split; [exact F0|lia].
Qed.

Lemma mkStrs_ok : forall ss s0 e1 e2 ts h, holds (s0 ++ Arr KRef (e1 ++ e2 ++ [0]) :: ts) h -> List.length e2 = List.length ss ->
  Forall (fun s => Forall (fun c => 0 < c < 256) s /\ Z.of_nat (List.length s) + 5 < 2 ^ 31) ss ->
  mkStrs malloc addr (List.length s0) (Z.of_nat (List.length e1)) ss h = RExit \/
  exists h', mkStrs malloc addr (List.length s0) (Z.of_nat (List.length e1)) ss h = ROk tt h' /\
    holds (s0 ++ Arr KRef (e1 ++ map addr (seq (List.length s0 + 1 + List.length ts) (List.length ss)) ++ [0]) :: ts ++ map (fun s => Arr KChar (s ++ [0])) ss) h'.
Proof.
  induction ss as [|s ss IH]; intros s0 e1 e2 ts h H L F.
  - right. exists h. split; [reflexivity|]. destruct e2; [|discriminate L]. cbn [map List.length seq app] in *. now rewrite app_nil_r.
  - destruct e2 as [|x e2]; [discriminate L|]. injection L as L. inversion F as [|? ? [F1 F2] F']; subst. cbn [mkStrs].
    destruct (mkStr_ok s _ h H F1 F2) as [-> | (h' & -> & H')]; [now left|]. cbn [rbind].
    rewrite <- app_assoc in H'. cbn [app] in H'. 
    destruct (store_elem KRef s0 e1 x (e2 ++ [0]) (ts ++ [Arr KChar (s ++ [0])]) (addr (List.length s0 + 1 + List.length ts)%nat) h' H') as (h2 & E2 & H2).
    replace (List.length (s0 ++ Arr KRef (e1 ++ (x :: e2) ++ [0]) :: ts)) with (List.length s0 + 1 + List.length ts)%nat by (rewrite app_length; cbn [List.length]; lia).
    cbn [width] in E2. change (Z.of_nat 8) with 8 in E2. rewrite E2. cbn [rbind].
    rewrite kept_id in H2 by (pose proof (AO (List.length s0 + 1 + List.length ts)%nat); cbn [elem_ok]; lia).
    replace (e1 ++ addr (List.length s0 + 1 + List.length ts)%nat :: e2 ++ [0]) with ((e1 ++ [addr (List.length s0 + 1 + List.length ts)%nat]) ++ e2 ++ [0]) in H2
      by (now rewrite <- app_assoc).
    replace (Z.of_nat (List.length e1) + 1) with (Z.of_nat (List.length (e1 ++ [addr (List.length s0 + 1 + List.length ts)%nat])))
      by (rewrite app_length; cbn [List.length]; lia).
    destruct (IH s0 _ e2 _ h2 H2 L F') as [->|(h3 & -> & H3)]; [now left|right]. exists h3. split; [reflexivity|].
    rewrite app_length in H3. cbn [List.length] in H3. rewrite <- !app_assoc in H3. cbn [app] in H3.
    replace (List.length s0 + 1 + (List.length ts + 1))%nat with (S (List.length s0 + 1 + List.length ts)) in H3 by lia. exact H3.
Qed.

Lemma mkVec_ok : forall ss st h, holds st h -> strings_ok ss ->
  mkVec malloc addr ss h = RExit \/
  exists h', mkVec malloc addr ss h = ROk (List.length st) h' /\ holds (st ++ vector addr (List.length st) ss) h'.
Proof.
  intros ss st h H [F B]. unfold mkVec. set (n := Z.of_nat (List.length ss)) in *.
  pose proof (new_ok malloc MO KRef (n + 1) st h H) as N. unfold newArr in N. cbn [hdr width] in N |- *.
  rewrite (Z.mod_small (n + 1)), (Z.mod_small (8 + _)) in N by lia. rewrite (int32_id (n + 1)) by lia.
  change (Z.of_nat 8) with 8 in N.
  destruct N as [E|(es & h' & E1 & E2 & E3 & H')].
  { unfold size_ok. cbn [hdr width]. lia. }
  - left. destruct (mAlloc malloc (int32 (8 + 8 * (n + 1))) h) as [b h1| | |]; try discriminate E; [|reflexivity]. cbn [rbind] in E |- *.
    destruct (store b 0 4 (n + 1) h1); try discriminate E; reflexivity.
  - destruct (mAlloc malloc (int32 (8 + 8 * (n + 1))) h) as [b h1| | |]; try discriminate E3. cbn [rbind] in E3 |- *.
    destruct (store b 0 4 (n + 1) h1) as [u h2| | |]; try discriminate E3. cbn [rbind] in E3 |- *. injection E3 as -> ->.
    destruct (nth_split_z _ es n ltac:(lia)) as (e2 & x & e3 & -> & L). rewrite app_length in E1. cbn [List.length] in E1.
    destruct e3; [|cbn [List.length] in E1; lia].
    destruct (store_elem KRef st e2 x [] [] 0 h' H') as (h3 & S3 & H3). cbn [hdr width] in S3. change (Z.of_nat 8) with 8 in S3. rewrite L in S3.
    rewrite S3. cbn [rbind]. change (kept KRef 0) with 0 in H3.
    destruct (mkStrs_ok ss st [] e2 [] h3 H3 ltac:(lia) F) as [Q|(h4 & Q & H4)]; cbn [List.length Z.of_nat] in Q; rewrite Q; cbn [rbind]; [now left|right].
    exists h4. split; [reflexivity|]. cbn [app List.length] in H4. rewrite Nat.add_0_r in H4. exact H4.
Qed.

Theorem start_ok : forall argv envp st h, holds st h -> strings_ok argv -> strings_ok envp ->
  start malloc addr argv envp h = RExit \/
  exists h', start malloc addr argv envp h = ROk (List.length st, List.length st + 1 + List.length argv)%nat h' /\
    holds (st ++ vector addr (List.length st) argv ++ vector addr (List.length st + 1 + List.length argv) envp) h'.
Proof.
  intros argv envp st h H A E. unfold start.
  destruct (mkVec_ok argv st h H A) as [-> | (h1 & -> & H1)]; [now left|]. cbn [rbind].
  destruct (mkVec_ok envp _ h1 H1 E) as [-> | (h2 & -> & H2)]; [now left|right]. cbn [rbind].
  assert (L : List.length (st ++ vector addr (List.length st) argv) = (List.length st + 1 + List.length argv)%nat).
  { unfold vector. rewrite app_length. cbn [List.length]. rewrite map_length. lia. }
  rewrite L in *. exists h2. split; [reflexivity|]. now rewrite <- app_assoc in H2.
Qed.
End M.

(* ---- fgets into a buffer that is long enough ---- *)
Lemma lineOf_len : forall n s, (List.length (lineOf n s) <= n)%nat.
Proof. induction n as [|n IH]; intros [|c s]; cbn [lineOf List.length]; try lia. destruct (c =? 10); cbn [List.length]; [lia|]. specialize (IH s). lia. Qed.
Lemma lineOf_bytes : forall n s, Forall (fun c => 0 <= c < 256) s -> Forall (fun c => 0 <= c < 256) (lineOf n s).
Proof.
  induction n as [|n IH]; intros [|c s] F; cbn [lineOf]; try constructor. inversion F; subst.
  destruct (c =? 10); constructor; auto.
Qed.
Lemma lineOf_first : forall m s, first_line m s (lineOf m s).
Proof.
  induction m as [|m IH]; intros [|c s]; cbn [lineOf].
  - exists []. split; [reflexivity|]. split; [cbn; lia|]. right. split; [intros []|left; reflexivity].
  - exists (c :: s). split; [reflexivity|]. split; [cbn; lia|]. right. split; [intros []|right; reflexivity].
  - exists []. split; [reflexivity|]. split; [cbn; lia|]. right. split; [intros []|left; reflexivity].
  - destruct (c =? 10) eqn:E.
    + apply Z.eqb_eq in E. subst c. exists s. split; [reflexivity|]. split; [cbn; lia|]. left. exists []. split; [reflexivity|intros []].
    + apply Z.eqb_neq in E. destruct (IH s) as (r & E1 & E2 & E3). exists r. split; [cbn [app]; now rewrite <- E1|]. split; [cbn [List.length]; lia|].
      destruct E3 as [(l & E3 & E4)|(E3 & E4)].
      * left. exists (c :: l). split; [cbn [app]; now rewrite E3|]. intros [X|X]; [exact (E X)|exact (E4 X)].
      * right. split; [intros [X|X]; [exact (E X)|exact (E3 X)]|]. destruct E4 as [E4|E4]; [now left|right]. cbn [List.length]. now rewrite E4.
Qed.
Lemma fgets_fits : forall s1 es s2 n s h, holds (s1 ++ Arr KChar es :: s2) h -> n <= Z.of_nat (List.length es) -> Forall (fun c => 0 <= c < 256) s ->
  (lineOf (Z.to_nat (n - 1)) s = [] /\ fgets (Some (List.length s1)) n s h = ROk (None, false) h) \/
  exists h', lineOf (Z.to_nat (n - 1)) s <> [] /\ fgets (Some (List.length s1)) n s h = ROk (Some (List.length s1), false) h' /\
    holds (s1 ++ Arr KChar (lineOf (Z.to_nat (n - 1)) s ++ 0 :: skipn (S (List.length (lineOf (Z.to_nat (n - 1)) s))) es) :: s2) h'.
Proof.
  intros s1 es s2 n s h H B F. assert (E : nth_error (s1 ++ Arr KChar es :: s2) (List.length s1) = Some (Arr KChar es)) by apply nth_mid.
  destruct (holds_split _ _ _ _ H E) as (s1' & s2' & h1 & m & h2 & Q & -> & L1 & L2 & (pad & Em & Lp & Fe & Be) & H1 & H2).
  assert (Q' : s1 = s1' /\ s2 = s2').
  { clear - Q L1. revert s1' Q L1. induction s1 as [|a s1 IH]; intros [|a' s1'] A1 A2; try discriminate A2.
    - cbn [app] in A1. injection A1 as A1. now split.
    - cbn [app] in A1. injection A1 as -> A1. injection A2 as A2. destruct (IH _ A1 A2) as (-> & ->). now split. }
  destruct Q' as (<- & <-). cbn [akind elems width hdr] in *. unfold alen in *. cbn [elems] in *. destruct pad as [|]; [|cbn [List.length] in Lp; lia].
  cbn [app] in Em. unfold fgets.
  assert (Ld : load (List.length s1) 0 4 (h1 ++ Some m :: h2) = ROk (Z.of_nat (List.length es)) (h1 ++ Some m :: h2)).
  { change 0 with (Z.of_nat (List.length (@nil Z))) at 1. rewrite <- (enc_len 4 (Z.of_nat (List.length es))) at 1.
    rewrite (load_app _ _ [] _ (flat_map (enc 1) es)) by (rewrite <- L2, nth_mid, Em; reflexivity).
    rewrite dec_enc. change (256 ^ Z.of_nat 4) with (2 ^ 32). rewrite Z.mod_small by lia. reflexivity. }
  rewrite Ld. cbn [rbind]. rewrite int32_id by lia. replace (Z.of_nat (List.length es) <? n) with false by (symmetry; apply Z.ltb_ge; lia).
  pose proof (lineOf_len (Z.to_nat (n - 1)) s) as LL. pose proof (lineOf_bytes (Z.to_nat (n - 1)) s F) as LF.
  destruct (lineOf (Z.to_nat (n - 1)) s) as [|c line] eqn:EL; [left; now split|right].
  set (ln := c :: line) in *.
  assert (Es : es = firstn (S (List.length ln)) es ++ skipn (S (List.length ln)) es) by (symmetry; apply firstn_skipn).
  assert (Ln : 0 <= n - 1) by (destruct (Z.to_nat (n - 1)) eqn:?; [cbn [List.length] in LL; unfold ln in LL; cbn [List.length] in LL; lia|lia]).
  assert (Lf : List.length (flat_map (enc 1) (firstn (S (List.length ln)) es)) = List.length (ln ++ [0])).
  { rewrite flat_len, firstn_length, app_length. cbn [List.length]. lia. }
  exists (h1 ++ Some (enc 4 (Z.of_nat (List.length es)) ++ (ln ++ [0]) ++ flat_map (enc 1) (skipn (S (List.length ln)) es)) :: h2).
  split; [discriminate|]. split.
  - change (hdr KChar) with (Z.of_nat (List.length (enc 4 (Z.of_nat (List.length es))))).
    rewrite (store_app _ _ _ (flat_map (enc 1) (firstn (S (List.length ln)) es)) (ln ++ [0]) (flat_map (enc 1) (skipn (S (List.length ln)) es))); [|rewrite <- L2, nth_mid, Em, <- flat_map_app, <- Es; reflexivity|exact Lf].
    cbn [rbind]. rewrite <- L2, setAt_app. reflexivity.
  - apply holds_join; [exact H1| |exact H2]. exists []. unfold alen. cbn [akind elems width app hdr].
    assert (Lx : List.length (ln ++ 0 :: skipn (S (List.length ln)) es) = List.length es).
    { rewrite app_length. cbn [List.length]. rewrite skipn_length. lia. }
    assert (Fs : Forall (fun c => 0 <= c < 256) (ln ++ [0])) by (apply Forall_app; split; [exact LF|constructor; [lia|constructor]]).
    rewrite Lx. split; [|split; [reflexivity|split; [|lia]]].
    + f_equal. replace (ln ++ 0 :: skipn (S (List.length ln)) es) with ((ln ++ [0]) ++ skipn (S (List.length ln)) es) by (now rewrite <- app_assoc).
      rewrite (flat_map_app _ (ln ++ [0])), (flat_bytes (ln ++ [0]) Fs). reflexivity.
    + replace (ln ++ 0 :: skipn (S (List.length ln)) es) with ((ln ++ [0]) ++ skipn (S (List.length ln)) es) by (now rewrite <- app_assoc).
      apply Forall_app. split; [exact Fs|]. rewrite Es in Fe. apply Forall_app in Fe. exact (proj2 Fe).
Qed.

Lemma fgets_line : forall s1 es s2 n s h, holds (s1 ++ Arr KChar es :: s2) h -> n <= Z.of_nat (List.length es) -> Forall (fun c => 0 <= c < 256) s ->
  exists line, first_line (Z.to_nat (n - 1)) s line /\
  ((line = [] /\ fgets (Some (List.length s1)) n s h = ROk (None, false) h) \/
   exists h', line <> [] /\ fgets (Some (List.length s1)) n s h = ROk (Some (List.length s1), false) h' /\
     holds (s1 ++ Arr KChar (line ++ 0 :: skipn (S (List.length line)) es) :: s2) h').
Proof. intros s1 es s2 n s h H B F. exists (lineOf (Z.to_nat (n - 1)) s). split; [apply lineOf_first|]. exact (fgets_fits s1 es s2 n s h H B F). Qed.
