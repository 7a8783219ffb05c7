(* Proofs about lib/SrcC/printf.c *)
From Coq Require Import String Ascii ZArith Bool List Lia.
From Verif Require Import LibMem LibSpec LibStrProofs LibStdProofs LibPrintfSpec LibPrintfProofs
  Properties_Str Properties_Std CPrintf CPrintfSpec.
Import ListNotations.
Open Scope Z_scope.

Definition tx (l : list Z) : list Z * Z := (l, nuls l).
Definition byte (c : Z) : Prop := 0 <= c <= 255.

Lemma nuls_app a b : nuls (a ++ b) = nuls a + nuls b.
Proof. unfold nuls. now rewrite filter_app, len_app. Qed.
Lemma also_tx a b : also (tx a) (tx b) = tx (a ++ b).
Proof. unfold also, tx. cbn [fst snd]. now rewrite nuls_app. Qed.
Lemma nothing_tx : nothing = tx []. Proof. reflexivity. Qed.
Lemma putC_tx c : putC c = tx [c mod 256].
Proof.
  unfold putC, tx, nuls. cbv zeta. cbn [filter]. destruct (Z.eqb_spec (c mod 256) 0); reflexivity.
Qed.
Lemma putC_byte c : byte c -> putC c = tx [c].
Proof. intros B. unfold byte in B. now rewrite putC_tx, Z.mod_small by lia. Qed.

Lemma putTimes_tx c n : byte c -> putTimes c n = tx (repeat c n).
Proof.
  intros B. induction n as [|n IH]; [reflexivity|]. cbn [putTimes repeat].
  rewrite putC_byte, IH, also_tx by exact B. reflexivity.
Qed.
Lemma putN_tx c n : byte c -> putN c n = tx (repeat c (Z.to_nat n)).
Proof. apply putTimes_tx. Qed.
Lemma putN_neg c n : n <= 0 -> putN c n = nothing.
Proof. intros N. unfold putN. replace (Z.to_nat n) with O by lia. reflexivity. Qed.
Lemma putChars_tx s : Forall char_ok s -> putChars s = tx s.
Proof.
  induction 1 as [|c s C F IH]; [reflexivity|]. cbn [putChars]. unfold char_ok in C.
  rewrite putC_byte, IH, also_tx by (unfold byte; lia). reflexivity.
Qed.

(* pad, body, pad *)
Lemma field_tx (lf zero : bool) w l n mid :
  n = w - len l -> mid = tx l ->
  also (if negb lf then putN (if zero then 48 else 32) n else nothing)
  (also mid (if lf then putN 32 n else nothing)) = tx (field lf zero w l).
Proof.
  intros -> ->. unfold field, padding.
  assert (B32 : byte 32) by (unfold byte; lia).
  assert (B : byte (if zero then 48 else 32)) by (destruct zero; unfold byte; lia).
  destruct lf; cbn [negb]; rewrite putN_tx, nothing_tx, !also_tx by assumption.
  - now cbn [app].
  - now rewrite app_nil_r.
Qed.
Lemma field_bare (lf zero : bool) w l n mid :
  n <= 0 -> w <= len l -> mid = tx l ->
  also (if negb lf then putN (if zero then 48 else 32) n else nothing)
  (also mid (if lf then putN 32 n else nothing)) = tx (field lf zero w l).
Proof.
  intros N W ->. unfold field, padding. replace (Z.to_nat (w - len l)) with O by lia. cbn [repeat].
  rewrite !putN_neg, app_nil_r by assumption.
  destruct lf; cbn [negb]; rewrite nothing_tx, !also_tx; now rewrite ?app_nil_r.
Qed.

Lemma digitChar_byte k : 0 <= k < 16 -> byte (LibPrintf.digitChar k).
Proof. intros K. unfold byte, LibPrintf.digitChar. destruct (Z.ltb_spec k 10); lia. Qed.

Lemma half d x b : 2 <= b -> 0 <= x < 2 ^ Z.of_nat (S d) -> 0 <= x / b < 2 ^ Z.of_nat d.
Proof.
  intros B X. split; [apply Z.div_pos; lia|]. apply Z.div_lt_upper_bound; [lia|].
  replace (Z.of_nat (S d)) with (Z.of_nat d + 1) in X by lia. rewrite Z.pow_add_r in X by lia.
  change (2 ^ 1) with 2 in X. pose proof (Z.pow_pos_nonneg 2 (Z.of_nat d) ltac:(lia) ltac:(lia)). nia.
Qed.

Lemma putNumD_tx b : 2 <= b <= 16 -> forall d x, 0 <= x < 2 ^ Z.of_nat d ->
  exists l, emptyOr b x l /\ putNumD d x b = tx l.
Proof.
  intros B. induction d as [|d IH]; intros x X.
  - change (2 ^ Z.of_nat 0) with 1 in X. exists []. split; [left; split; [lia|reflexivity]|reflexivity].
  - destruct (Z.eq_dec x 0) as [->|NZ]; [exists []; split; [now left|reflexivity]|].
    destruct (IH (x / b) (half d x b ltac:(lia) X)) as (l & E & P).
    pose proof (Z.mod_pos_bound x b ltac:(lia)) as M.
    exists (l ++ [LibPrintf.digitChar (x mod b)]). split; [right; split; [lia|now apply numeral_snoc; try lia]|].
    cbn [putNumD]. destruct (Z.eqb_spec x 0); [contradiction|].
    now rewrite P, putC_byte, also_tx by (apply digitChar_byte; lia).
Qed.
Lemma numLenD_ok b : 2 <= b <= 16 -> forall d x k, 0 <= x < 2 ^ Z.of_nat d ->
  exists l, emptyOr b x l /\ numLenD d x b k = k + len l.
Proof.
  intros B. induction d as [|d IH]; intros x k X.
  - change (2 ^ Z.of_nat 0) with 1 in X. exists []. split; [left; split; [lia|reflexivity]|].
    cbn [numLenD]. rewrite len_nil. lia.
  - destruct (Z.eq_dec x 0) as [->|NZ]; [exists []; split; [now left|cbn [numLenD Z.eqb]; rewrite len_nil; lia]|].
    destruct (IH (x / b) (k + 1) (half d x b ltac:(lia) X)) as (l & E & P).
    exists (l ++ [LibPrintf.digitChar (x mod b)]). split; [right; split; [lia|now apply numeral_snoc; try lia]|].
    cbn [numLenD]. destruct (Z.eqb_spec x 0); [contradiction|].
    rewrite Z.quot_div_nonneg by lia. rewrite P, len_app. change (len [LibPrintf.digitChar (x mod b)]) with 1. lia.
Qed.

Lemma numeral_zero b : 2 <= b -> numeral b 0 [48].
Proof.
  intros B. split; [constructor; [|constructor]|].
  { replace (Z.to_nat b) with (S (Z.to_nat (b - 1))) by lia. now left. }
  split; [reflexivity|]. split; [discriminate|]. now intros r [= <-].
Qed.
Lemma numeral_some b x l : numeral b x l -> 1 <= len l.
Proof.
  intros (_ & _ & N & _). destruct l; [congruence|]. rewrite len_cons. pose proof (len_nonneg l). lia.
Qed.

(* the digits of the unsigned reading *)
Lemma body_tx b x l : 2 <= b <= 16 -> is_int32 x -> numeral b (x mod two32) l ->
  (if negb (x =? 0) then putNum x b else putC 48) = tx l.
Proof.
  intros B X N. unfold two32 in N. pose proof (Z.mod_pos_bound x 4294967296 ltac:(lia)) as M.
  destruct (Z.eqb_spec x 0) as [->|NZ]; cbn [negb].
  - replace l with [48]; [reflexivity|]. apply (numeral_unique b 0); [lia|apply numeral_zero; lia|exact N].
  - unfold putNum. destruct (putNumD_tx b B 32 (x mod 4294967296)) as (l' & E & P); [exact M|].
    rewrite P. f_equal. destruct E as [(E & _)|(E & N')].
    + exfalso. apply Z.mod_divide in E; [|lia]. destruct E as (q & E). unfold is_int32 in X. lia.
    + apply (numeral_unique b (x mod 4294967296)); [lia|exact N'|exact N].
Qed.
Lemma numLen_ok b x l : 2 <= b <= 16 -> 0 <= x <= 2147483647 -> numeral b x l -> numLen x b = len l.
Proof.
  intros B X N. unfold numLen. destruct (numLenD_ok b B 32 x 0) as (l' & E & P).
  { change (2 ^ Z.of_nat 32) with 4294967296. lia. }
  cbv zeta. rewrite P, Z.add_0_l. destruct E as [(-> & ->)|(X0 & N')].
  - replace l with [48]; [reflexivity|]. apply (numeral_unique b 0); [lia|apply numeral_zero; lia|exact N].
  - rewrite (numeral_unique b x l l' ltac:(lia) N N'). pose proof (numeral_some _ _ _ N').
    destruct (Z.eqb_spec (len l') 0); [lia|reflexivity].
Qed.
Lemma numLen_pos b x : 1 <= numLen x b.
Proof.
  unfold numLen. assert (G : forall d x k, k <= numLenD d x b k).
  { induction d as [|d IH]; intros y k; cbn [numLenD]; [lia|]. destruct (y =? 0); [lia|].
    specialize (IH (Z.quot y b) (k + 1)). lia. }
  specialize (G 32%nat x 0). cbv zeta. destruct (Z.eqb_spec (numLenD 32 x b 0) 0); lia.
Qed.

Lemma uPutNum_tx b x (lf zero : bool) w l : 2 <= b <= 16 -> is_int32 x -> 0 <= x \/ w <= 1 ->
  numeral b (x mod two32) l ->
  uPutNum x w lf (if zero then 48 else 32) b = tx (field lf zero w l).
Proof.
  intros B X C N. unfold uPutNum. cbv zeta. destruct C as [C|C].
  - apply field_tx; [|now apply body_tx]. f_equal. unfold is_int32 in X. apply numLen_ok; [lia|lia|].
    unfold two32 in N. now rewrite Z.mod_small in N by lia.
  - pose proof (numLen_pos b x). apply field_bare; [lia| |now apply body_tx].
    pose proof (numeral_some _ _ _ N). lia.
Qed.

Lemma sPutNum_tx x (lf zero : bool) w l : is_int32 x -> x <> -2147483648 -> signed_text x l ->
  sPutNum x w lf (if zero then 48 else 32) 10 = Some (tx (field lf zero w l)).
Proof.
  intros X NM (n & N & ->). unfold sPutNum, int32. cbv zeta. unfold is_int32 in X.
  destruct (Z.ltb_spec x 0) as [NEG|POS].
  - rewrite Z.abs_neq in N by lia.
    destruct (Z.leb_spec (-2147483648) (- x)); [|lia]. destruct (Z.leb_spec (- x) 2147483647); [|lia]. cbn [andb negb].
    f_equal. assert (Bo : (if negb (- x =? 0) then putNum (- x) 10 else putC 48) = tx n).
    { apply body_tx; [lia|unfold is_int32; lia|]. unfold two32. now rewrite Z.mod_small by lia. }
    rewrite Bo, (putC_byte 45) by (unfold byte; lia).
    rewrite (numLen_ok 10 (- x) n) by (try assumption; lia).
    transitivity (also (if negb lf then putN (if zero then 48 else 32) (w - 1 - len n) else nothing)
       (also (tx ([45] ++ n)) (if lf then putN 32 (w - 1 - len n) else nothing))).
    { apply f_equal. destruct lf; [rewrite (putN_tx 32) by (unfold byte; lia)|rewrite nothing_tx]; rewrite !also_tx; now rewrite ?app_nil_r, ?app_assoc. }
    apply field_tx; [rewrite len_app; change (len [45]) with 1; lia|reflexivity].
  - rewrite Z.abs_eq in N by lia.
    destruct (Z.leb_spec (-2147483648) x); [|lia]. destruct (Z.leb_spec x 2147483647); [|lia]. cbn [andb negb app].
    f_equal. assert (Bo : (if negb (x =? 0) then putNum x 10 else putC 48) = tx n).
    { apply body_tx; [lia|unfold is_int32; lia|]. unfold two32. now rewrite Z.mod_small by lia. }
    rewrite Bo. rewrite (numLen_ok 10 x n) by (try assumption; lia).
    transitivity (also (if negb lf then putN (if zero then 48 else 32) (w - len n) else nothing)
       (also (tx n) (if lf then putN 32 (w - len n) else nothing))).
    { apply f_equal. rewrite nothing_tx. destruct lf; [rewrite (putN_tx 32) by (unfold byte; lia)|]; rewrite !also_tx; now rewrite ?app_nil_r. }
    apply field_tx; reflexivity.
Qed.

Lemma putCW_tx x (lf : bool) w : putCW x w lf = tx (field lf false w [x mod 256]).
Proof. unfold putCW. cbv zeta. apply (field_tx lf false); [reflexivity|apply putC_tx]. Qed.

Lemma i32_id x : is_int32 x -> i32 x = x.
Proof. unfold is_int32, i32. intros X. rewrite Z.mod_small by lia. lia. Qed.
Lemma putS_tx s (lf : bool) w : Forall char_ok s -> len s <= 2147483647 -> 0 <= w <= 2147483647 ->
  putS s w lf = tx (field lf false w s).
Proof.
  intros F L W. unfold putS. cbv zeta. fold (len s). pose proof (len_nonneg s).
  rewrite i32_id by (unfold is_int32; lia). apply (field_tx lf false); [reflexivity|now apply putChars_tx].
Qed.

(* a group of eight digits behind a number *)
Lemma group8 h hl k kl : 0 < h -> 0 <= k < 100000000 -> numeral 10 h hl -> numeral 10 k kl ->
  numeral 10 (h * 100000000 + k) (hl ++ field false true 8 kl) /\ len (field false true 8 kl) = 8.
Proof.
  intros H K Nh Nk. pose proof (numeral_len 10 k kl 8 ltac:(lia) ltac:(lia) Nk ltac:(change (10 ^ 8) with 100000000; lia) ltac:(lia)) as L8.
  assert (L : len (field false true 8 kl) = 8).
  { unfold field, padding. rewrite len_app, len_repeat. lia. }
  split; [|exact L]. destruct Nh as (F & V & NE & Z0). destruct Nk as (F' & V' & NE' & Z0').
  split; [|split; [|split]].
  - apply Forall_app. split; [exact F|]. unfold field, padding. apply Forall_app. split; [|exact F'].
    apply Forall_forall. intros c I. apply repeat_spec in I. subst c. now left.
  - rewrite radix_app by lia. rewrite L, V. change (10 ^ 8) with 100000000.
    unfold field, padding. rewrite radix_app by lia. pose proof (radix_zeros 10 (Z.to_nat (8 - len kl))) as Rz.
    unfold hexv in Rz. rewrite Rz, V'. lia.
  - destruct hl; [congruence|discriminate].
  - intros r E. destruct hl as [|c hl]; [congruence|]. cbn in E. injection E as -> E.
    rewrite (Z0 hl eq_refl) in V. cbn [radix_value] in V. change (pos_in 48 hexdigits) with 0 in V. lia.
Qed.

(* every number has a numeral *)
Lemma numeral_ex b x : 2 <= b <= 16 -> 0 <= x < 4294967296 -> exists l, numeral b x l.
Proof.
  intros B X. destruct (putNumD_tx b B 32 x X) as (l & [(-> & _)|(_ & N)] & _); [|eauto].
  exists [48]. apply numeral_zero. lia.
Qed.

Lemma field_front (zero : bool) w hl gl n : len gl = n ->
  field false zero w (hl ++ gl) = field false zero (w - n) hl ++ gl.
Proof.
  intros L. unfold field, padding. rewrite len_app, L, app_assoc. do 3 f_equal. lia.
Qed.

Lemma long_tx (zero : bool) w hi lo l va (lf : bool) : lf = false \/ val64 hi lo < 100000000 ->
  numeral 10 (val64 hi lo) l ->
  conv32 100 w lf (if zero then 48 else 32) (ALong hi lo :: va) = VOk (tx (field lf zero w l)) va.
Proof.
  intros C N. unfold conv32. cbn [Z.eqb Pos.eqb]. cbv zeta. unfold lToL. unfold val64, two32 in *.
  pose proof (Z.mod_pos_bound hi 4294967296 ltac:(lia)) as Hi.
  pose proof (Z.mod_pos_bound lo 4294967296 ltac:(lia)) as Lo.
  set (n := hi mod 4294967296 * 4294967296 + lo mod 4294967296) in *.
  assert (NB : 0 <= n < 18446744073709551616) by (unfold n; lia). clearbody n.
  pose proof (Z.div_mod n 100000000 ltac:(lia)) as D1. pose proof (Z.mod_pos_bound n 100000000 ltac:(lia)) as M1.
  set (n1 := n / 100000000) in *. set (k := n mod 100000000) in *.
  pose proof (Z.div_mod n1 100000000 ltac:(lia)) as D2. pose proof (Z.mod_pos_bound n1 100000000 ltac:(lia)) as M2.
  set (n2 := n1 / 100000000) in *. set (m := n1 mod 100000000) in *.
  assert (H2 : 0 <= n2 < 100000000) by lia.
  rewrite (Z.mod_small n2) by exact H2. clearbody n2 m k. clearbody n1.
  f_equal.
  assert (SM : forall x, 0 <= x < 100000000 -> is_int32 x /\ x mod two32 = x).
  { intros x X. unfold is_int32, two32. rewrite Z.mod_small by lia. lia. }
  assert (U : forall x w (lf zero : bool) l, 0 <= x < 100000000 -> numeral 10 x l ->
    uPutNum x w lf (if zero then 48 else 32) 10 = tx (field lf zero w l)).
  { intros x w' lf' z' l' X NX. destruct (SM x X) as (A1 & A2). apply uPutNum_tx; [lia|exact A1|left; lia|now rewrite A2]. }
  destruct (numeral_ex 10 k ltac:(lia) ltac:(lia)) as (kl & NK).
  destruct (numeral_ex 10 m ltac:(lia) ltac:(lia)) as (ml & NM).
  destruct (Z.eqb_spec n2 0) as [E2|NZ2]; cbn [negb]; [destruct (Z.eqb_spec m 0) as [E1|NZ1]; cbn [negb]|].
  - replace l with kl; [now apply U|]. apply (numeral_unique 10 n); [lia| |exact N]. replace n with k by lia. exact NK.
  - destruct C as [->|C]; [|lia].
    pose proof (U k 8 false true kl M1 NK) as Uk. cbv iota in Uk. rewrite Uk, (U m (w - 8) false zero ml M2 NM), also_tx.
    destruct (group8 m ml k kl ltac:(lia) M1 NM NK) as (G & L8). rewrite <- (field_front zero w ml _ 8 L8).
    do 2 f_equal. apply (numeral_unique 10 n); [lia| |exact N]. replace n with (m * 100000000 + k) by lia. exact G.
  - destruct C as [->|C]; [|lia].
    destruct (numeral_ex 10 n2 ltac:(lia) ltac:(lia)) as (hl & NH).
    pose proof (U k 8 false true kl M1 NK) as Uk. pose proof (U m 8 false true ml M2 NM) as Um. cbv iota in Uk, Um.
    rewrite Uk, Um, (U n2 (w - 16) false zero hl H2 NH), !also_tx.
    destruct (group8 n2 hl m ml ltac:(lia) M2 NH NM) as (G1 & L1).
    destruct (group8 (n2 * 100000000 + m) _ k kl ltac:(lia) M1 G1 NK) as (G2 & L2).
    rewrite <- (field_front zero w hl (field false true 8 ml ++ field false true 8 kl) 16).
    2: { rewrite len_app, L1, L2. reflexivity. }
    rewrite app_assoc. do 2 f_equal. apply (numeral_unique 10 n); [lia| |exact N].
    replace n with ((n2 * 100000000 + m) * 100000000 + k) by lia. exact G2.
Qed.

Lemma conv16_tx (lf zero : bool) w k va t va' c : conv_text lf zero w k va t va' -> kind_text k = [c] ->
  0 <= w <= 2147483647 ->
  conv16 c w lf (if zero then 48 else 32) va = VOk (tx t) va'.
Proof.
  intros C K W. unfold conv16.
  destruct C as [x va l X NM N|x va l X D N|x va l X D N|x va|s va F L|va|hi lo va l D N]; cbn in K;
    try discriminate K; injection K as <-; cbn [Z.eqb Pos.eqb].
  - now rewrite (sPutNum_tx x lf zero w l X NM N).
  - f_equal. apply uPutNum_tx; auto; lia.
  - f_equal. apply uPutNum_tx; auto; lia.
  - f_equal. apply putCW_tx.
  - f_equal. apply putS_tx; auto.
  - reflexivity.
Qed.

(* ---- the format ---- *)
Lemma digit_facts d : In d digits -> isdigit d = Some true /\ d - 48 = dec_digit d /\ 0 <= dec_digit d <= 9.
Proof.
  intros ID.
  assert (T : forallb (fun d => (match isdigit d with Some true => true | _ => false end) && (d - 48 =? dec_digit d) && (0 <=? dec_digit d) && (dec_digit d <=? 9))
                digits = true) by (vm_compute; reflexivity).
  rewrite forallb_forall in T. specialize (T d ID).
  rewrite !andb_true_iff, !Z.leb_le, Z.eqb_eq in T. destruct T as (((T & T1) & T2) & T3).
  split; [|auto]. destruct (isdigit d) as [[|]|]; try discriminate T. reflexivity.
Qed.
Lemma width_nonneg ws : Forall (fun c => In c digits) ws -> 0 <= width_of ws.
Proof.
  unfold width_of. induction 1 as [|d ws I F IH]; cbn [radix_value]; [lia|].
  destruct (digit_facts d I) as (_ & _ & R). pose proof (Z.pow_nonneg 10 (len ws) ltac:(lia)). nia.
Qed.

Lemma getWidth_fold k r : isdigit k = Some false -> forall ws, Forall (fun c => In c digits) ws -> forall w c s,
  0 <= w -> c :: s = ws ++ k :: r -> w * 10 ^ len ws + width_of ws <= 2147483647 ->
  getWidth w c s = Some (w * 10 ^ len ws + width_of ws, k, r).
Proof.
  intros NK ws F. induction F as [|d ws ID F IH]; intros w c s W E B.
  - cbn [app] in E. injection E as -> ->. destruct r; cbn [getWidth]; rewrite NK;
      rewrite len_nil; change (10 ^ 0) with 1; unfold width_of; cbn [radix_value]; do 3 f_equal; lia.
  - cbn [app] in E. injection E as -> E. destruct (digit_facts d ID) as (D1 & D2 & D3).
    pose proof (width_nonneg ws F) as WN.
    pose proof (Z.pow_pos_nonneg 10 (len ws) ltac:(lia) (len_nonneg ws)) as PP.
    assert (EQ : w * 10 ^ len (d :: ws) + width_of (d :: ws) = (w * 10 + dec_digit d) * 10 ^ len ws + width_of ws).
    { unfold width_of. cbn [radix_value]. rewrite len_cons, Z.pow_add_r by (pose proof (len_nonneg ws); lia).
      change (10 ^ 1) with 10. ring. }
    rewrite EQ in B |- *.
    assert (BB : w * 10 + dec_digit d <= 2147483647) by nia.
    assert (I32 : int32 (w * 10 + (d - 48)) = true).
    { unfold int32. rewrite D2. destruct (Z.leb_spec (-2147483648) (w * 10 + dec_digit d)); [|lia].
      destruct (Z.leb_spec (w * 10 + dec_digit d) 2147483647); [reflexivity|lia]. }
    destruct s as [|c s]; [destruct ws; discriminate E|]. cbn [getWidth]. rewrite D1. cbv zeta. rewrite I32. cbn [negb].
    rewrite D2. apply IH; [lia|exact E|exact B].
Qed.

Lemma not_minus d : In d digits -> d <> 45.
Proof. intros I ->. cbn in I. intuition discriminate. Qed.

Lemma zero_char ws k r c s : isdigit k = Some false -> c :: s = ws ++ k :: r ->
  (if c =? 48 then 48 else 32) = (if zero_flag ws then 48 else 32).
Proof.
  intros NK E. destruct ws as [|d ws]; cbn [app] in E; injection E as -> E.
  - destruct (Z.eqb_spec k 48) as [->|]; [discriminate NK|reflexivity].
  - unfold zero_flag. destruct (Z.eqb_spec d 48) as [->|N]; [reflexivity|].
    destruct d as [|p|p]; try reflexivity. do 6 (destruct p as [p|p|]; try reflexivity). congruence.
Qed.

(* what convert does with the letter k behind the flags and the width *)
Lemma convert_at (lf : bool) ws k r va : Forall (fun c => In c digits) ws -> width_of ws <= 2147483647 ->
  isdigit k = Some false -> k <> 45 ->
  convert ((if lf then codes "-" else []) ++ ws ++ k :: r) va =
  if k =? 108 then (conv32 (fst (next r)) (width_of ws) lf (if zero_flag ws then 48 else 32) va, snd (next r))
  else (conv16 k (width_of ws) lf (if zero_flag ws then 48 else 32) va, r).
Proof.
  intros F W NK NM.
  assert (E0 : exists c s, c :: s = ws ++ k :: r /\ c <> 45).
  { destruct ws as [|d ws]; [exists k, r; auto|]. exists d, (ws ++ k :: r). split; [reflexivity|].
    inversion F; subst. now apply not_minus. }
  destruct E0 as (c & s & E & NC). rewrite <- E.
  pose proof (getWidth_fold k r NK ws F 0 c s ltac:(lia) E ltac:(lia)) as G.
  replace (0 * 10 ^ len ws + width_of ws) with (width_of ws) in G by lia.
  pose proof (zero_char ws k r c s NK E) as ZC.
  assert (TL : forall lf, match getWidth 0 c s with
    | None => (VUndef, [])
    | Some (w, c0, s0) => if c0 =? 108 then let '(c1, s1) := next s0 in
        (conv32 c1 w lf (if c =? 48 then 48 else 32) va, s1)
      else (conv16 c0 w lf (if c =? 48 then 48 else 32) va, s0) end =
   if k =? 108 then (conv32 (fst (next r)) (width_of ws) lf (if zero_flag ws then 48 else 32) va, snd (next r))
  else (conv16 k (width_of ws) lf (if zero_flag ws then 48 else 32) va, r)).
  { intros lf'. rewrite G, ZC. destruct (k =? 108); [destruct (next r)|]; reflexivity. }
  destruct lf; unfold convert; cbn [app codes next Z.eqb].
  - change (Z.of_nat (nat_of_ascii "-")) with 45. cbn [Z.eqb Pos.eqb]. apply TL.
  - destruct (Z.eqb_spec c 45); [contradiction|]. apply TL.
Qed.

Lemma conv_length lf ws k : (1 <= List.length (item_text (Conv lf ws k)))%nat.
Proof. cbn. lia. Qed.

Lemma kind_cases k : kind_text k = codes "ld" \/ exists c, kind_text k = [c] /\ isdigit c = Some false /\ c <> 45 /\ c <> 108.
Proof. destruct k; try (right; eexists; split; [reflexivity|]; cbn; split; [reflexivity|split; discriminate]). now left. Qed.

Lemma printD_conv d x va o n : printD (S d) (37 :: x) va o n =
  match convert x va with
  | (VOk t va, s) => printD d s va (o ++ fst t) (n + snd t)
  | (VExit, _) => CExit o
  | (VUndef, _) => CUndef
  end.
Proof. reflexivity. Qed.

Lemma print_items f va t va' : text_of f va t va' -> Forall item_fits f -> forall d rest o n,
  (List.length (format_text f ++ rest) <= d)%nat ->
  exists d', (List.length rest <= d')%nat /\
  printD (S d) (format_text f ++ rest) va o n = printD (S d') rest va' (o ++ t) (n + nuls t).
Proof.
  induction 1 as [va|c f va t va' X IH|lf ws k f va t1 va1 t2 va2 C X IH]; intros OK d rest o n D.
  - exists d. cbn [format_text flat_map app] in *. rewrite app_nil_r. unfold nuls. cbn [filter]. rewrite len_nil, Z.add_0_r. auto.
  - inversion OK as [|? ? CO OK']; subst. destruct CO as (CO & NP). cbn [format_text flat_map item_text app List.length] in *.
    change (flat_map item_text f) with (format_text f) in *.
    destruct d as [|d]; [lia|].
    destruct (IH OK' d rest (o ++ [c]) (n + nuls [c]) ltac:(lia)) as (d' & L & E). exists d'. split; [exact L|].
    cbn [printD]. destruct (Z.eqb_spec c 37); [contradiction|].
    rewrite putC_byte by (unfold byte, char_ok in *; lia). unfold tx. cbn [fst snd].
    rewrite <- app_assoc in E. cbn [app] in E. change (c :: t) with ([c] ++ t). rewrite nuls_app, Z.add_assoc.
    exact E.
  - inversion OK as [|? ? FW OK']; subst. destruct FW as (F & W).
    pose proof (width_nonneg ws F) as WN.
    set (rest' := format_text f ++ rest) in *.
    assert (FE : format_text (Conv lf ws k :: f) ++ rest =
                 37 :: ((if lf then codes "-" else []) ++ ws ++ kind_text k ++ rest')).
    { unfold rest'. cbn [format_text flat_map item_text]. rewrite <- !app_assoc. reflexivity. }
    rewrite FE in D |- *. destruct d as [|d]; [cbn in D; lia|].
    assert (CV : convert ((if lf then codes "-" else []) ++ ws ++ kind_text k ++ rest') va = (VOk (tx t1) va1, rest')).
    { destruct (kind_cases k) as [KL|(c & KC & N1 & N2 & N3)].
      - assert (k = Kld) by (destruct k; try discriminate KL; reflexivity). subst k.
        change (kind_text Kld ++ rest') with (108 :: 100 :: rest').
        rewrite convert_at by (try assumption; try reflexivity; discriminate). cbn [Z.eqb Pos.eqb next fst snd].
        inversion C; subst. now rewrite long_tx with (l := l).
      - rewrite KC. change ([c] ++ rest') with (c :: rest').
        rewrite convert_at by assumption. destruct (Z.eqb_spec c 108); [contradiction|].
        now rewrite (conv16_tx lf (zero_flag ws) (width_of ws) k va t1 va1 c C KC ltac:(lia)). }
    assert (LR : (List.length rest' <= d)%nat).
    { cbn [List.length] in D. rewrite !app_length in D.
      assert (1 <= List.length (kind_text k))%nat by (destruct k; cbn; lia). lia. }
    destruct (IH OK' d rest (o ++ t1) (n + nuls t1) LR) as (d' & L & E). exists d'. split; [exact L|].
    rewrite nuls_app, (app_assoc o), Z.add_assoc, <- E.
    rewrite printD_conv, CV. reflexivity.
Qed.
