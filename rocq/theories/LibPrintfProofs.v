(* Proofs about printf.cmm *)
From Coq Require Import String Ascii ZArith Bool List Lia.
From Verif Require Import LibMem LibString LibSpec LibStrProofs LibStd LibStdProofs LibPrintf
  Properties_Str Properties_Std LibPrintfSpec.
Import ListNotations.
Open Scope Z_scope.

Definition emit (s : ost) (l : list Z) : ost := Ost (out s ++ l) (i16 (cnt s + len l)).

Definition int_cnt (s : ost) : Prop := -32768 <= cnt s < 32768.
Lemma emit_nil s : int_cnt s -> emit s [] = s.
Proof.
  intros I. unfold emit. rewrite app_nil_r, len_nil, Z.add_0_r, i16_id by exact I. now destruct s.
Qed.
Lemma emit_emit s a b : emit (emit s a) b = emit s (a ++ b).
Proof.
  unfold emit. cbn. rewrite app_assoc, len_app, i16_add. do 2 f_equal. lia.
Qed.
Lemma putC_emit c s : putC c s = emit s [c].
Proof. reflexivity. Qed.
Lemma emit_int s l : int_cnt (emit s l).
Proof. unfold int_cnt, emit; cbn. apply i16_range. Qed.

Lemma returns_rbind {A B} (c : comp (res A)) (k : A -> comp (res B)) a b :
  returns c (Done a) -> returns (k a) b -> returns (rbind c k) b.
Proof. intros H K. eapply returns_bind; [exact H|]. exact K. Qed.
Lemma returns_rbind_undef {A B} (c : comp (res A)) (k : A -> comp (res B)) :
  returns c Undef -> returns (rbind c k) Undef.
Proof. intros H. eapply returns_bind; [exact H|]. apply returns_ret. Qed.

Lemma putN_from c n : n <= 32767 -> forall j i s, int_cnt s -> 0 <= i -> Z.of_nat j = Z.max 0 (n - i) ->
  returns (loop (fun '(s, i) => if i <? n then inl (putC c s, i16 (i + 1)) else inr (Done s)) (s, i))
    (Done (emit s (repeat c j))).
Proof.
  intros N. induction j as [|j IH]; intros i s I Hi J.
  - cbn [repeat]. rewrite emit_nil by exact I. apply returns_done.
    destruct (Z.ltb_spec i n); [lia|reflexivity].
  - eapply returns_step.
    + destruct (Z.ltb_spec i n); [reflexivity|lia].
    + rewrite i16_id by lia. replace (emit s (repeat c (S j))) with (emit (putC c s) (repeat c j))
        by (rewrite putC_emit, emit_emit; reflexivity).
      apply IH; [apply emit_int|lia|lia].
Qed.
Lemma putN_ok c n s : n <= 32767 -> int_cnt s ->
  returns (putN c n s) (Done (emit s (repeat c (Z.to_nat n)))).
Proof. intros N I. unfold putN. apply putN_from; [exact N|exact I|lia|lia]. Qed.

(* ---- numerals ---- *)
Lemma radix_app b dig l1 l2 : 0 <= b ->
  radix_value b dig (l1 ++ l2) = radix_value b dig l1 * b ^ len l2 + radix_value b dig l2.
Proof.
  intros B. induction l1 as [|c l1 IH]; [cbn; lia|]. cbn [app radix_value].
  rewrite IH, len_app, Z.pow_add_r by apply len_nonneg. ring.
Qed.

Definition hexv (c : Z) : Z := pos_in c hexdigits.
Lemma digitChar_pos k : 0 <= k < 16 -> hexv (digitChar k) = k.
Proof.
  intros K. assert (C : k = Z.of_nat (Z.to_nat k)) by lia. rewrite C. clear C.
  assert (L : (Z.to_nat k < 16)%nat) by lia. revert L. generalize (Z.to_nat k). intros n L.
  do 16 (destruct n as [|n]; [reflexivity|]). lia.
Qed.
Lemma digitChar_in b k : 0 < b <= 16 -> 0 <= k < b -> In (digitChar k) (firstn (Z.to_nat b) hexdigits).
Proof.
  intros B K.
  assert (G : forall n j, (j < n <= 16)%nat -> In (digitChar (Z.of_nat j)) (firstn n hexdigits)).
  { intros n j L. do 17 (destruct n as [|n];
      [do 17 (destruct j as [|j]; [cbn; try tauto; try lia|]); lia|]). lia. }
  rewrite <- (Z2Nat.id k) by lia. apply G. lia.
Qed.

Definition emptyOr (b y : Z) (l : list Z) : Prop := (y = 0 /\ l = []) \/ (0 < y /\ numeral b y l).

(* division behaves as mathematical division on the unsigned readings up to u *)
Definition div_good (D : divsem) (b u : Z) : Prop :=
  forall y, 0 < y <= u -> dv D (i16 y) b = i16 (y / b) /\ md D (i16 y) b = y mod b.

Lemma numeral_snoc b y l : 2 <= b <= 16 -> 0 < y -> emptyOr b (y / b) l ->
  numeral b y (l ++ [digitChar (y mod b)]).
Proof.
  intros B Y E. pose proof (Z.mod_pos_bound y b ltac:(lia)) as M.
  pose proof (Z.div_mod y b ltac:(lia)) as DM.
  assert (P : radix_value b hexv [digitChar (y mod b)] = y mod b).
  { cbn [radix_value]. rewrite digitChar_pos by lia. rewrite len_nil. change (b ^ 0) with 1. lia. }
  destruct E as [(E & ->)|(E & F & V & N & Z0)].
  - split; [constructor; [apply digitChar_in; lia|constructor]|]. split.
    { etransitivity; [exact P|]. lia. }
    split; [discriminate|]. cbn. intros r [= _ H]. congruence.
  - split; [apply Forall_app; split; [exact F|constructor; [apply digitChar_in; lia|constructor]]|]. split.
    { rewrite radix_app by lia. unfold hexv in P. rewrite P, V. change (len [digitChar (y mod b)]) with 1.
      rewrite Z.pow_1_r. lia. }
    split; [destruct l; discriminate|]. intros r H. destruct l as [|c l]; [congruence|].
    cbn in H. injection H as -> H. specialize (Z0 l eq_refl). subst l.
    cbn [radix_value] in V. change (pos_in 48 hexdigits) with 0 in V. lia.
Qed.

Lemma i16_nz y : 0 < y < 65536 -> (i16 y =? 0) = false.
Proof.
  intros Y. apply Z.eqb_neq. intros E. pose proof (i16_cong y) as C. rewrite E in C.
  rewrite Z.mod_0_l, Z.mod_small in C by lia. lia.
Qed.

Lemma putNum_S D x b s f : putNum D x b s (S f) =
  if x =? 0 then Some (Done s)
  else match putNum D (dv D x b) b s f with
       | Some (Done s') => let k := md D x b in
           if (0 <=? k) && (k <? 16) then Some (Done (putC (digitChar k) s')) else Some Undef
       | r => r end.
Proof. reflexivity. Qed.

Lemma putNum_ok D b u : 2 <= b <= 16 -> u < 65536 -> div_good D b u ->
  forall y, 0 <= y <= u -> exists l, emptyOr b y l /\
    (forall n, 0 <= n -> y < 2 ^ n -> len l <= n) /\
    (forall s, int_cnt s -> returns (putNum D (i16 y) b s) (Done (emit s l))) /\
    (forall k, returns (loop (fun '(x, l) => if negb (x =? 0) then inl (dv D x b, i16 (l + 1)) else inr l)
                        (i16 y, i16 k)) (i16 (k + len l))).
Proof.
  intros B U G y Y. pattern y.
  assert (W : forall n, forall y, 0 <= y < Z.of_nat n -> y <= u -> exists l, emptyOr b y l /\
    (forall n, 0 <= n -> y < 2 ^ n -> len l <= n) /\
    (forall s, int_cnt s -> returns (putNum D (i16 y) b s) (Done (emit s l))) /\
    (forall k, returns (loop (fun '(x, l) => if negb (x =? 0) then inl (dv D x b, i16 (l + 1)) else inr l)
                        (i16 y, i16 k)) (i16 (k + len l)))).
  2: { apply (W (S (Z.to_nat y))); lia. }
  clear y Y. induction n as [|n IH]; intros y Y YU; [lia|].
  destruct (Z.eq_dec y 0) as [->|NZ].
  { exists []. split; [left; auto|]. split; [intros; cbn; lia|]. split.
    - intros s I. rewrite emit_nil by exact I. exists 1%nat. intros [|k] K; [lia|]. reflexivity.
    - intros k. apply returns_done. rewrite Z.add_0_r. reflexivity. }
  pose proof (Z.div_lt y b ltac:(lia) ltac:(lia)) as DL.
  pose proof (Z.div_pos y b ltac:(lia) ltac:(lia)) as DP.
  destruct (IH (y / b) ltac:(lia) ltac:(lia)) as (l & E & LN & P & L).
  destruct (G y ltac:(lia)) as (Dd & Dm).
  pose proof (Z.mod_pos_bound y b ltac:(lia)) as MB.
  exists (l ++ [digitChar (y mod b)]). split; [right; split; [lia|now apply numeral_snoc; try lia]|].
  split; [|split].
  - intros k K YK. rewrite len_app. change (len [digitChar (y mod b)]) with 1.
    destruct (Z.eq_dec k 0) as [->|]; [change (2 ^ 0) with 1 in YK; lia|].
    enough (len l <= k - 1) by lia. apply LN; [lia|]. apply Z.div_lt_upper_bound; [lia|].
    replace k with (1 + (k - 1)) in YK by lia. rewrite Z.pow_add_r in YK by lia.
    change (2 ^ 1) with 2 in YK. pose proof (Z.pow_pos_nonneg 2 (k - 1) ltac:(lia) ltac:(lia)). nia.
  - intros s I. destruct (P s I) as (N & HN). exists (S N). intros [|k] K; [lia|].
    rewrite putNum_S, i16_nz by lia. rewrite Dd, HN by lia. cbv zeta. rewrite Dm.
    destruct (Z.leb_spec 0 (y mod b)); [|lia]. destruct (Z.ltb_spec (y mod b) 16); [|lia]. cbn [andb].
    now rewrite putC_emit, emit_emit.
  - intros k. eapply returns_step.
    + rewrite i16_nz by lia. cbn [negb]. rewrite Dd, i16_add. reflexivity.
    + rewrite len_app. change (len [digitChar (y mod b)]) with 1.
      replace (k + (len l + 1)) with (k + 1 + len l) by lia. apply L.
Qed.

(* the body of a numeric field: numLen gives its length, putNum or a lone 0 prints it *)
Lemma number_ok D b y : 2 <= b <= 16 -> 0 <= y < 65536 -> div_good D b y ->
  exists l, numeral b y l /\ 1 <= len l <= 16 /\
    returns (numLen D (i16 y) b) (len l) /\
    forall s, int_cnt s ->
      returns (if negb (i16 y =? 0) then putNum D (i16 y) b s else ret (Done (putC 48 s)))
        (Done (emit s l)).
Proof.
  intros B Y G. destruct (putNum_ok D b y B ltac:(lia) G y ltac:(lia)) as (l & E & LN & P & L).
  destruct E as [(-> & ->)|(Y0 & N)].
  - exists [48]. change (i16 0) with 0 in *. cbn [Z.eqb negb]. split; [|split; [cbn; lia|split]].
    + split; [constructor; [|constructor]|].
      { replace (Z.to_nat b) with (S (Z.to_nat (b - 1))) by lia. now left. }
      split; [reflexivity|]. split; [discriminate|]. now intros r [= <-].
    + unfold numLen. eapply returns_bind; [apply (L 0)|]. apply returns_ret.
    + intros s I. apply returns_ret.
  - exists l. split; [exact N|]. assert (LL : 1 <= len l <= 16).
    { split; [|apply LN; [lia|change (2 ^ 16) with 65536; lia]].
      destruct N as (_ & _ & N & _). destruct l; [congruence|]. rewrite len_cons.
      pose proof (len_nonneg l). lia. }
    split; [exact LL|]. split.
    + unfold numLen. eapply returns_bind; [apply (L 0)|]. rewrite Z.add_0_l, i16_id by lia.
      destruct (Z.eqb_spec (len l) 0); [lia|]. apply returns_ret.
    + intros s I. rewrite i16_nz by lia. apply P, I.
Qed.

Lemma padding_eq w c l : padding w c l = repeat c (Z.to_nat (w - len l)). Proof. reflexivity. Qed.

(* the common shape: pad, body, pad *)
Lemma field_ok (left zero : bool) w l s (mid : ost -> comp (res ost)) :
  w - len l <= 32767 -> -32768 <= w - len l -> int_cnt s ->
  (forall s, int_cnt s -> returns (mid s) (Done (emit s l))) ->
  returns (do! s1 := (if negb left then putN (if zero then 48 else 32) (i16 (w - len l)) s else ret (Done s)) in
           do! s2 := mid s1 in
           if left then putN 32 (i16 (w - len l)) s2 else ret (Done s2))
    (Done (emit s (field left zero w l))).
Proof.
  intros W W' I M. rewrite i16_id by lia. destruct left; cbn [negb field].
  - eapply returns_rbind; [apply returns_ret|]. eapply returns_rbind; [apply M, I|].
    unfold field. rewrite <- emit_emit. apply putN_ok; [lia|apply emit_int].
  - eapply returns_rbind; [apply putN_ok; [lia|exact I]|].
    eapply returns_rbind; [apply M, emit_int|]. rewrite emit_emit. apply returns_ret.
Qed.

Lemma uPutNum_ok D b y (left zero : bool) w s : 2 <= b <= 16 -> 0 <= y < 65536 -> div_good D b y ->
  -32000 <= w <= 32767 -> int_cnt s ->
  exists l, numeral b y l /\ 1 <= len l <= 16 /\
    returns (uPutNum D (i16 y) w left (if zero then 48 else 32) b s)
            (Done (emit s (field left zero w l))).
Proof.
  intros B Y G W I. destruct (number_ok D b y B Y G) as (l & N & LL & L & P).
  exists l. split; [exact N|]. split; [exact LL|]. unfold uPutNum.
  eapply returns_bind; [exact L|]. cbv zeta. apply field_ok; try lia; auto.
Qed.

Lemma sPutNum_ok D x (left zero : bool) w s : is_int x -> div_good D 10 (Z.abs x) ->
  0 <= w <= 32767 -> int_cnt s ->
  exists l, signed_text x l /\
    returns (sPutNum D x w left (if zero then 48 else 32) 10 s)
            (Done (emit s (field left zero w l))).
Proof.
  intros X G W I. unfold is_int in X.
  destruct (number_ok D 10 (Z.abs x) ltac:(lia) ltac:(lia) G) as (n & N & LL & L & P).
  exists ((if x <? 0 then [45] else []) ++ n). split; [exists n; auto|].
  unfold sPutNum. cbv zeta. destruct (Z.ltb_spec x 0) as [NEG|POS].
  - rewrite Z.abs_neq in * by lia. rewrite (i16_id (w - 1)) by lia.
    eapply returns_bind; [exact L|]. cbv beta.
    pose proof (field_ok left zero w ([45] ++ n) s
      (fun s1 => if negb (i16 (- x) =? 0) then putNum D (i16 (- x)) 10 (putC 45 s1)
                 else ret (Done (putC 48 (putC 45 s1))))) as F.
    rewrite len_app in F. change (len [45]) with 1 in F.
    replace (w - (1 + len n)) with (w - 1 - len n) in F by lia.
    apply F; [lia|lia|exact I|]. intros s1 I1. rewrite <- emit_emit. apply P. apply emit_int.
  - rewrite Z.abs_eq in * by lia. rewrite i16_id in * by lia. cbn [app].
    eapply returns_bind; [exact L|]. apply field_ok; [lia|lia|exact I|]. exact P.
Qed.

Lemma putCW_ok c (left : bool) w s : 0 <= w <= 32767 -> int_cnt s ->
  returns (putCW c w left s) (Done (emit s (field left false w [c]))).
Proof.
  intros W I. unfold putCW. cbv zeta.
  pose proof (field_ok left false w [c] s (fun s1 => ret (Done (putC c s1)))) as F.
  change (len [c]) with 1 in F. apply F; [lia|lia|exact I|]. intros. apply returns_ret.
Qed.

Lemma putS_body m a l : forall k s, int_cnt s -> Forall char_ok l -> bytes_at m (a + k) (l ++ [0]) ->
  returns (loop (fun '(s, i) => if negb (ldb m (a + i) =? 0)
                    then inl (putC (ldb m (a + i)) s, i16 (i + 1)) else inr (Done s)) (s, i16 k))
    (Done (emit s l)).
Proof.
  induction l as [|c l IH]; intros k s I F B; destruct B as (B0 & B).
  - rewrite emit_nil by exact I. apply returns_done.
    rewrite (ldb_cong m _ _ (add_i16 a k)), B0. reflexivity.
  - inversion F as [|? ? F0 F1]; subst. eapply returns_step.
    + rewrite (ldb_cong m _ _ (add_i16 a k)). rewrite char_nz by exact F0. cbn [negb].
      rewrite i16_add. reflexivity.
    + rewrite putC_emit. change (ldb m (a + k) :: l) with ([ldb m (a + k)] ++ l). rewrite <- emit_emit.
      apply IH; [apply emit_int|exact F1|]. now rewrite Z.add_assoc.
Qed.
Lemma putS_ok m a l (left : bool) w s : str_at m a l -> len l <= 32767 -> 0 <= w <= 32767 -> int_cnt s ->
  returns (putS m a w left s) (Done (emit s (field left false w l))).
Proof.
  intros S L W I. unfold putS. eapply returns_bind; [apply strLen_ok, S|].
  pose proof (len_nonneg l). rewrite (i16_id (len l)) by lia. cbv zeta.
  refine (field_ok left false w l s (fun s1 => loop (fun '(s, i) => if negb (ldb m (a + i) =? 0)
                    then inl (putC (ldb m (a + i)) s, i16 (i + 1)) else inr (Done s)) (s1, 0)) _ _ I _); [lia|lia|].
  intros s1 I1. destruct S as (F & B).
  pose proof (putS_body m a l 0 s1 I1 F) as P. apply P. now rewrite Z.add_0_r.
Qed.

(* ---- %ld ---- *)
Lemma padding_two w p h k : padding w p (h ++ k) = repeat p (Z.to_nat (w - len k - len h)).
Proof. unfold padding. rewrite len_app. do 2 f_equal. lia. Qed.

Lemma radix_zeros b n : radix_value b hexv (repeat 48 n) = 0.
Proof. induction n; [reflexivity|]. cbn [repeat radix_value]. change (hexv 48) with 0. lia. Qed.
Lemma len_repeat c n : len (repeat c n) = Z.of_nat n.
Proof. unfold len. now rewrite repeat_length. Qed.

Lemma pos_in_nonneg t : forall c, 0 <= pos_in c t.
Proof.
  induction t as [|x t IHt]; intros c; cbn [pos_in]; [lia|].
  destruct (c =? x); [lia|]. specialize (IHt c). lia.
Qed.
Lemma numeral_len b y l n : 2 <= b -> 0 <= n -> numeral b y l -> y < b ^ n -> 1 <= n -> len l <= n.
Proof.
  intros B N (F & V & NE & Z0) Y N1. destruct l as [|c l]; [congruence|].
  destruct (Z.eq_dec c 48) as [->|NC].
  - rewrite (Z0 l eq_refl). change (len [48]) with 1. lia.
  - rewrite len_cons. destruct (Z.le_gt_cases (1 + len l) n) as [|GT]; [assumption|exfalso].
    cbn [radix_value] in V.
    assert (NN : forall l, 0 <= radix_value b (fun c => pos_in c hexdigits) l).
    { pose proof pos_in_nonneg as PN. induction l0 as [|d l0 IH]; cbn [radix_value]; [lia|].
      pose proof (Z.pow_nonneg b (len l0) ltac:(lia)). specialize (PN hexdigits d). nia. }
    assert (C1 : 1 <= pos_in c hexdigits).
    { change hexdigits with (48 :: tl hexdigits). cbn [pos_in].
      destruct (Z.eqb_spec c 48); [congruence|]. pose proof (pos_in_nonneg (tl hexdigits) c). lia. }
    specialize (NN l). pose proof (Z.pow_le_mono_r b n (len l) ltac:(lia) ltac:(lia)) as M.
    pose proof (Z.mul_le_mono_nonneg_r 1 _ (b ^ len l) (Z.pow_nonneg b (len l) ltac:(lia)) C1). lia.
Qed.

(* numeral of h followed by n zero-padded digits of k *)
Lemma numeral_group h hl k kl : 0 < h -> 0 <= k < 10000 -> numeral 10 h hl -> numeral 10 k kl ->
  numeral 10 (h * 10000 + k) (hl ++ field false true 4 kl) /\ len (field false true 4 kl) = 4.
Proof.
  intros H K Nh Nk. pose proof (numeral_len 10 k kl 4 ltac:(lia) ltac:(lia) Nk ltac:(change (10 ^ 4) with 10000; lia) ltac:(lia)) as L4.
  assert (L : len (field false true 4 kl) = 4).
  { unfold field, padding. rewrite len_app, len_repeat. lia. }
  split; [|exact L]. destruct Nh as (F & V & NE & Z0). destruct Nk as (F' & V' & NE' & Z0').
  split; [|split; [|split]].
  - apply Forall_app. split; [exact F|]. unfold field, padding. apply Forall_app. split; [|exact F'].
    apply Forall_forall. intros c I. apply repeat_spec in I. subst c. now left.
  - rewrite radix_app by lia. rewrite L, V. change (10 ^ 4) with 10000.
    unfold field, padding. rewrite radix_app by lia. pose proof (radix_zeros 10 (Z.to_nat (4 - len kl))) as Rz.
    unfold hexv in Rz. rewrite Rz, V'. lia.
  - destruct hl; [congruence|discriminate].
  - intros r E. destruct hl as [|c hl]; [congruence|]. cbn in E. injection E as -> E.
    rewrite (Z0 hl eq_refl) in V. cbn [radix_value] in V. change (pos_in 48 hexdigits) with 0 in V. lia.
Qed.

Lemma div_good_small D y b : D = signed_div \/ D = unsigned_div -> 2 <= b <= 16 -> y < 32768 -> div_good D b y.
Proof.
  intros [->| ->] B Y z Z; unfold signed_div, unsigned_div, dv, md;
    pose proof (Z.mod_pos_bound z b ltac:(lia)); rewrite (i16_id z) by lia.
  - rewrite Z.quot_div_nonneg, Z.rem_mod_nonneg by lia. now rewrite (i16_id (z mod b)) by lia.
  - rewrite !(Z.mod_small z 65536), (Z.mod_small b 65536) by lia. now rewrite (i16_id (z mod b)) by lia.
Qed.
Lemma div_good_unsigned y b : 2 <= b <= 16 -> y < 65536 -> div_good unsigned_div b y.
Proof.
  intros B Y z Z; unfold unsigned_div, dv, md. pose proof (Z.mod_pos_bound z b ltac:(lia)).
  rewrite i16_cong. rewrite !(Z.mod_small z 65536), (Z.mod_small b 65536) by lia.
  now rewrite (i16_id (z mod b)) by lia.
Qed.

Lemma val32_zero_hi m a : ldw (stw m a 0) a = 0 /\ ldw (stw m a 0) (a + 2) = ldw m (a + 2) /\
  val32 (stw m a 0) a = ldw m (a + 2).
Proof.
  assert (A : ldw (stw m a 0) a = 0) by (rewrite ldw_stw_same; reflexivity).
  assert (B : ldw (stw m a 0) (a + 2) = ldw m (a + 2)) by (apply ldw_stw_other, apart_small; lia).
  split; [exact A|]. split; [exact B|]. unfold val32. rewrite A, B. lia.
Qed.
Lemma apart_4_2 a x : apart a 4 x 1 -> apart a 2 x 1.
Proof. intros H i j I J. apply H; lia. Qed.

Lemma conv32_ok D m args pos (zero : bool) w s : D = signed_div \/ D = unsigned_div ->
  let arr := fst (getArg m args pos) in
  val32 m arr < 655360000 -> 0 <= w <= 32767 -> int_cnt s ->
  exists l m', numeral 10 (val32 m arr) l /\
    returns (conv32 D m args pos 100 w false (if zero then 48 else 32) s)
      (Done (emit s (field false zero w l), i16 (pos + 1), m')) /\
    val32 m' arr = val32 m arr / 100000000 /\
    (forall x, apart arr 4 x 1 -> ldb m' x = ldb m x).
Proof.
  intros HD arr V W I. unfold conv32, getArg in *. cbn [fst] in arr. fold arr. change (100 =? 100) with true. cbv iota.
  pose proof (val32_range m arr) as VR. set (v := val32 m arr) in *.
  assert (H1 : ldw m arr < 2 * 10000).
  { pose proof (ldw_range m (arr + 2)). unfold v, val32 in V. lia. }
  rewrite (mod32_ok m arr 10000 ltac:(lia) H1). fold v.
  destruct (div32_ok m arr 10000 ltac:(lia) H1) as (m1 & E1 & M1 & Q1 & F1). rewrite E1. fold v in M1, Q1.
  rewrite Z.mod_small in Q1 by (split; [apply Z.div_pos; lia|apply Z.div_lt_upper_bound; lia]).
  destruct (val32_zero_hi m1 arr) as (A1 & B1 & C1). rewrite Q1 in C1.
  set (m2 := stw m1 arr 0) in *.
  assert (H2 : ldw m2 arr < 2 * 10000) by lia.
  rewrite (mod32_ok m2 arr 10000 ltac:(lia) H2), C1.
  destruct (div32_ok m2 arr 10000 ltac:(lia) H2) as (m3 & E3 & M3 & Q3 & F3). rewrite E3. rewrite C1 in Q3.
  assert (V1 : 0 <= v / 10000 < 65536) by (split; [apply Z.div_pos; lia|apply Z.div_lt_upper_bound; lia]).
  assert (V2 : 0 <= v / 10000 / 10000 < 10) by (split; [apply Z.div_pos; lia|apply Z.div_lt_upper_bound; lia]).
  rewrite Z.mod_small in Q3 by lia.
  destruct (val32_zero_hi m3 arr) as (A3 & B3 & C3). rewrite Q3 in C3.
  set (m4 := stw m3 arr 0) in *.
  assert (H4 : ldw m4 arr < 2 * 10000) by lia.
  rewrite (mod32_ok m4 arr 10000 ltac:(lia) H4), C3.
  rewrite (Z.mod_small (v / 10000 / 10000) 10000) by lia.
  set (h := v / 10000 / 10000) in *. set (q := (v / 10000) mod 10000). set (lo := v mod 10000).
  assert (Hq : 0 <= q < 10000) by (apply Z.mod_pos_bound; lia).
  assert (Hlo : 0 <= lo < 10000) by (apply Z.mod_pos_bound; lia).
  assert (Hv : v = (h * 10000 + q) * 10000 + lo).
  { unfold h, q, lo. pose proof (Z.div_mod v 10000 ltac:(lia)). pose proof (Z.div_mod (v / 10000) 10000 ltac:(lia)). lia. }
  assert (Hh : h = v / 100000000) by (unfold h; now rewrite Z.div_div by lia).
  assert (FR : forall x, apart arr 4 x 1 -> ldb m4 x = ldb m x).
  { intros x X. unfold m4. rewrite ldb_stw_other by now apply apart_4_2. rewrite F3 by exact X.
    unfold m2. rewrite ldb_stw_other by now apply apart_4_2. now apply F1. }
  assert (GD : forall y, 0 <= y < 10000 -> div_good D 10 y) by (intros; apply div_good_small; auto; lia).
  rewrite Hh in C3. cbv beta.
  destruct (Z.eq_dec h 0) as [h0|hn].
  - rewrite h0. change (i16 0) with 0. cbn [Z.eqb negb].
    destruct (Z.eq_dec q 0) as [q0|qn].
    + rewrite q0. change (i16 0) with 0. cbn [Z.eqb negb].
      destruct (uPutNum_ok D 10 lo false zero w s ltac:(lia) ltac:(lia) (GD lo Hlo) ltac:(lia) I) as (l & N & LL & R).
      exists l, m4. split; [replace v with lo by lia; exact N|]. split; [|split; [exact C3|exact FR]].
      eapply returns_rbind; [exact R|apply returns_ret].
    + rewrite i16_nz by lia. cbn [negb]. rewrite (i16_id (w - 4)) by lia.
      destruct (uPutNum_ok D 10 q false zero (w - 4) s ltac:(lia) ltac:(lia) (GD q Hq) ltac:(lia) I) as (l & N & LL & R).
      destruct (uPutNum_ok D 10 lo false true 4 (emit s (field false zero (w - 4) l)) ltac:(lia) ltac:(lia)
        (GD lo Hlo) ltac:(lia) (emit_int _ _)) as (l' & N' & LL' & R').
      destruct (numeral_group q l lo l' ltac:(lia) Hlo N N') as (NN & L4).
      exists (l ++ field false true 4 l'), m4.
      split; [replace v with (q * 10000 + lo) by lia; exact NN|]. split; [|split; [exact C3|exact FR]].
      eapply returns_rbind; [eapply returns_rbind; [exact R|exact R']|].
      rewrite emit_emit. replace (field false zero (w - 4) l ++ field false true 4 l')
        with (field false zero w (l ++ field false true 4 l')); [apply returns_ret|].
      set (t := field false true 4 l') in *. unfold field. rewrite padding_two, L4, app_assoc. reflexivity.
  - rewrite i16_nz by lia. cbn [negb]. rewrite (i16_id (w - 8)) by lia.
    destruct (uPutNum_ok D 10 h false zero (w - 8) s ltac:(lia) ltac:(lia) (GD h ltac:(lia)) ltac:(lia) I) as (l & N & LL & R).
    destruct (uPutNum_ok D 10 q false true 4 (emit s (field false zero (w - 8) l)) ltac:(lia) ltac:(lia)
        (GD q Hq) ltac:(lia) (emit_int _ _)) as (l' & N' & LL' & R').
    rewrite emit_emit in R'.
    destruct (numeral_group h l q l' ltac:(lia) Hq N N') as (NN & L4).
    destruct (uPutNum_ok D 10 lo false true 4 (emit s (field false zero (w - 8) l ++ field false true 4 l')) ltac:(lia) ltac:(lia)
        (GD lo Hlo) ltac:(lia) (emit_int _ _)) as (l2 & N2 & LL2 & R2).
    rewrite emit_emit in R2.
    destruct (numeral_group (h * 10000 + q) _ lo l2 ltac:(lia) Hlo NN N2) as (NN2 & L42).
    eexists _, m4. split; [rewrite Hv; exact NN2|]. split; [|split; [exact C3|exact FR]].
    eapply returns_rbind; [eapply returns_rbind; [exact R|eapply returns_rbind; [exact R'|exact R2]]|].
    set (t := field false true 4 l') in *. set (t2 := field false true 4 l2) in *.
    replace ((field false zero (w - 8) l ++ t) ++ t2) with (field false zero w ((l ++ t) ++ t2)); [apply returns_ret|].
    unfold field. rewrite padding_two, L42, len_app, L4. unfold padding. rewrite !app_assoc. do 3 f_equal.
    f_equal. lia.
Qed.

(* ---- uniqueness of numerals ---- *)
Lemma numeral_unique b x l1 l2 : 2 <= b <= 16 -> numeral b x l1 -> numeral b x l2 -> l1 = l2.
Proof.
  intros B (F1 & V1 & N1 & Z1) (F2 & V2 & N2 & Z2).
  assert (DV : forall c, In c (firstn (Z.to_nat b) hexdigits) -> 0 <= hexv c < b /\ digitChar (hexv c) = c).
  { intros c I.
    assert (G : forall n, (n <= 16)%nat -> In c (firstn n hexdigits) -> 0 <= hexv c < Z.of_nat n /\ digitChar (hexv c) = c).
    { intros n Ln J.
      assert (T : forallb (fun c => (0 <=? hexv c) && (hexv c <? Z.of_nat n) && (digitChar (hexv c) =? c))
                    (firstn n hexdigits) = true).
      { clear J. do 17 (destruct n as [|n]; [vm_compute; reflexivity|]). lia. }
      rewrite forallb_forall in T. specialize (T c J). rewrite !andb_true_iff, Z.leb_le, Z.ltb_lt, Z.eqb_eq in T. tauto. }
    rewrite <- (Z2Nat.id b) by lia. apply G; [lia|exact I]. }
  assert (K : forall l1 l2, Forall (fun c => In c (firstn (Z.to_nat b) hexdigits)) l1 ->
    Forall (fun c => In c (firstn (Z.to_nat b) hexdigits)) l2 -> len l1 = len l2 ->
    radix_value b hexv l1 = radix_value b hexv l2 -> l1 = l2).
  { clear -DV B. intros l1. induction l1 as [|c l1 IH] using rev_ind; intros l2 F1 F2 L V.
    - destruct l2; [reflexivity|]. rewrite len_nil, len_cons in L. pose proof (len_nonneg l2). lia.
    - destruct l2 as [|d l2 _] using rev_ind.
      { rewrite len_app, len_nil in L. change (len [c]) with 1 in L. pose proof (len_nonneg l1). lia. }
      rewrite !len_app in L. change (len [c]) with 1 in L. change (len [d]) with 1 in L.
      apply Forall_app in F1. destruct F1 as (F1 & Fc). apply Forall_app in F2. destruct F2 as (F2 & Fd).
      inversion Fc as [|? ? Ic _]; subst. inversion Fd as [|? ? Id _]; subst.
      destruct (DV c Ic) as (Rc & Ec). destruct (DV d Id) as (Rd & Ed).
      rewrite !radix_app in V by lia. cbn [radix_value] in V. change (len [c]) with 1 in V. change (len [d]) with 1 in V.
      rewrite len_nil, Z.pow_1_r in V. change (b ^ 0) with 1 in V. rewrite !Z.mul_1_r, !Z.add_0_r in V.
      assert (hexv c = hexv d /\ radix_value b hexv l1 = radix_value b hexv l2) as (H1 & H2).
      { destruct (Z.div_mod_unique b (radix_value b hexv l1) (radix_value b hexv l2) (hexv c) (hexv d)); auto; lia. }
      f_equal; [apply IH; auto; lia|]. congruence. }
  assert (LE : forall l1 l2, Forall (fun c => In c (firstn (Z.to_nat b) hexdigits)) l1 ->
    radix_value b hexv l1 = x -> numeral b x l2 -> l1 <> [] -> len l2 <= len l1).
  { clear -DV B. intros l1 l2 F V N2 NE. apply (numeral_len b x); auto; try lia.
    - apply len_nonneg.
    - rewrite <- V. clear -F DV B. induction F as [|c l I F IH]; [cbn; lia|].
      cbn [radix_value]. rewrite len_cons, Z.pow_add_r by (pose proof (len_nonneg l); lia).
      rewrite Z.pow_1_r. destruct (DV c I) as (R & _). nia.
    - destruct l1; [congruence|]. rewrite len_cons. pose proof (len_nonneg l1). lia. }
  apply K; auto; [|exact (eq_trans V1 (eq_sym V2))].
  assert (len l2 <= len l1) by (apply LE; auto; repeat split; auto).
  assert (len l1 <= len l2) by (apply LE; auto; repeat split; auto). lia.
Qed.

(* ---- the format loop ---- *)
Lemma argv_getArg m args pos : getArg m args (i16 pos) = (argv m args pos, i16 (pos + 1)).
Proof.
  unfold getArg, argv. rewrite i16_add. do 2 f_equal. apply ldw_cong.
  rewrite <- (Z.add_mod_idemp_r _ (2 * i16 pos)), <- (Z.mul_mod_idemp_r 2 (i16 pos)), i16_cong by lia.
  now rewrite Z.mul_mod_idemp_r, Z.add_mod_idemp_r by lia.
Qed.
Lemma argv_int m args pos : is_int (argv m args pos).
Proof. apply i16_range. Qed.
Lemma field_det (P : list Z -> Prop) l l' : P l -> P l' -> (forall a b, P a -> P b -> a = b) -> l = l'.
Proof. auto. Qed.

Lemma i16_mod x : is_int x -> i16 (x mod 65536) = x.
Proof. intros I. rewrite <- (i16_id x I) at 2. apply i16_eq. now rewrite Z.mod_mod by lia. Qed.

Lemma conv16_ok D m args pos (lf zero : bool) w k t pos' c s :
  conv_spec D m args pos lf zero w k t pos' -> kind_text k = [c] -> 0 <= w <= 32767 -> int_cnt s ->
  returns (conv16 D m args (i16 pos) c w lf (if zero then 48 else 32) s) (Done (emit s t, i16 pos')).
Proof.
  intros C K W I. pose proof (argv_int m args pos) as AI. unfold conv16.
  destruct C as [l HD N|l HD N|l HD N| |l S L|]; cbn in K; injection K as <-; cbn [Z.eqb Pos.eqb];
    rewrite ?argv_getArg; set (x := argv m args pos) in *.
  - destruct (sPutNum_ok D x lf zero w s AI) as (l' & N' & R); [|exact W|exact I|].
    { unfold is_int in AI. destruct HD as [->|(-> & X)];
        [apply div_good_unsigned; lia|apply div_good_small; [now left|lia|lia]]. }
    replace l with l'; [eapply returns_rbind; [exact R|apply returns_ret]|].
    destruct N as (n & N & ->). destruct N' as (n' & N' & ->). f_equal. eapply numeral_unique; eauto; lia.
  - pose proof (Z.mod_pos_bound x 65536 ltac:(lia)) as XB.
    destruct (uPutNum_ok D 16 (x mod 65536) lf zero w s ltac:(lia) XB) as (l' & N' & _ & R); [|lia|exact I|].
    { destruct HD as [->|(-> & X)]; [apply div_good_unsigned; lia|apply div_good_small; [now left|lia|]].
      unfold is_int in AI. rewrite Z.mod_small; lia. }
    rewrite i16_mod in R by exact AI.
    replace l with l' by (eapply numeral_unique; eauto; lia).
    eapply returns_rbind; [exact R|apply returns_ret].
  - pose proof (Z.mod_pos_bound x 65536 ltac:(lia)) as XB.
    destruct (uPutNum_ok D 8 (x mod 65536) lf zero w s ltac:(lia) XB) as (l' & N' & _ & R); [|lia|exact I|].
    { destruct HD as [->|(-> & X)]; [apply div_good_unsigned; lia|apply div_good_small; [now left|lia|]].
      unfold is_int in AI. rewrite Z.mod_small; lia. }
    rewrite i16_mod in R by exact AI.
    replace l with l' by (eapply numeral_unique; eauto; lia).
    eapply returns_rbind; [exact R|apply returns_ret].
  - eapply returns_rbind; [apply putCW_ok; [exact W|exact I]|apply returns_ret].
  - eapply returns_rbind; [apply putS_ok; [exact S|exact L|exact W|exact I]|apply returns_ret].
  - apply returns_ret.
Qed.

Lemma getWidth_ok m fmt c ws : isDigit c = false -> Forall (fun c => In c digits) ws -> forall W i,
  bytes_at m (fmt + i) (ws ++ [c]) ->
  returns (getWidth m fmt (i16 W, i16 i, ldb m (fmt + i)))
    (i16 (fold_left (fun v c => v * 10 + dec_digit c) ws W), i16 (i + len ws), c).
Proof.
  intros NC F. induction F as [|d ws ID F IH]; intros W i B; destruct B as (B0 & B).
  - rewrite B0. apply returns_done. cbv beta iota. rewrite NC. cbn [fold_left]. rewrite len_nil, Z.add_0_r. reflexivity.
  - assert (Dd : isDigit d = true /\ d - 48 = dec_digit d /\ 0 <= dec_digit d <= 9).
    { assert (T : forallb (fun d => isDigit d && (d - 48 =? dec_digit d) && (0 <=? dec_digit d) && (dec_digit d <=? 9))
                    digits = true) by (vm_compute; reflexivity).
      rewrite forallb_forall in T. specialize (T d ID).
      rewrite !andb_true_iff, !Z.leb_le, Z.eqb_eq in T. tauto. }
    destruct Dd as (D1 & D2 & D3). eapply returns_step.
    + rewrite B0. cbv beta iota. rewrite D1, D2, (i16_add i 1).
      rewrite (ldb_cong m _ _ (add_i16 fmt (i + 1))). reflexivity.
    + fold (getWidth m fmt). cbn [fold_left]. rewrite len_cons.
      replace (i + (1 + len ws)) with (i + 1 + len ws) by lia.
      replace (i16 (i16 (i16 W * 10) + i16 (dec_digit d))) with (i16 (W * 10 + dec_digit d)).
      2: { rewrite i16_add, (i16_id (dec_digit d)) by lia. apply i16_eq.
           rewrite <- (Z.add_mod_idemp_l (i16 W * 10)), <- (Z.mul_mod_idemp_l (i16 W)), i16_cong by lia.
           now rewrite Z.mul_mod_idemp_l, Z.add_mod_idemp_l by lia. }
      apply IH. now rewrite Z.add_assoc.
Qed.

Definition printTail (D : divsem) (arg fmt : Z) (m : mem) (i pos c w : Z) (lf : bool) (p : Z) (s : ost)
  : comp (mem * Z * Z * ost + res (ost * mem)) :=
  if c =? 108 then
    let i := i16 (i + 1) in
    let c := ldb m (fmt + i) in
    let! r := conv32 D m arg pos c w lf p s in
    ret match r with
        | Done (s, pos, m) => inl (m, i16 (i + 1), pos, s)
        | Exit e => inr (Exit e) | Undef => inr Undef
        end
  else
    let! r := conv16 D m arg pos c w lf p s in
    ret match r with
        | Done (s, pos) => inl (m, i16 (i + 1), pos, s)
        | Exit e => inr (Exit e) | Undef => inr Undef
        end.

Lemma zero_flag_ok ws c m a : isDigit c = false -> bytes_at m a (ws ++ [c]) ->
  (if ldb m a =? 48 then 48 else 32) = (if zero_flag ws then 48 else 32).
Proof.
  intros NC B. destruct ws as [|d ws]; destruct B as (B0 & B); rewrite B0.
  - destruct (Z.eqb_spec c 48) as [->|]; [discriminate NC|reflexivity].
  - unfold zero_flag. destruct (Z.eqb_spec d 48) as [->|N]; [reflexivity|].
    destruct d as [|p|p]; try reflexivity. do 6 (destruct p as [p|p|]; try reflexivity). congruence.
Qed.

Lemma print_conv D args fmt m i pos s (lf : bool) ws c r :
  bytes_at m (fmt + i) (codes "%" ++ (if lf then codes "-" else []) ++ ws ++ [c]) ->
  Forall (fun c => In c digits) ws -> width_of ws <= 32767 -> isDigit c = false -> c <> 45 ->
  returns (printTail D args fmt m (i16 (i + 1 + (if lf then 1 else 0) + len ws)) (i16 pos) c (width_of ws) lf
             (if zero_flag ws then 48 else 32) s) r ->
  returns (printBody D args fmt (m, i16 i, i16 pos, s)) r.
Proof.
  intros B F W NC NM R. unfold printBody. cbv zeta. destruct B as (B0 & B).
  rewrite (ldb_cong m _ _ (add_i16 fmt i)), B0. change (Z.of_nat (nat_of_ascii "%")) with 37.
  cbn [Z.eqb Pos.eqb]. rewrite !(i16_add i 1). cbn [app codes] in B.
  rewrite (ldb_cong m _ _ (add_i16 fmt (i + 1))).
  assert (WW : 0 <= width_of ws).
  { clear -F. unfold width_of. induction F as [|d ws I F IH]; [cbn; lia|]. cbn [radix_value].
    pose proof (pos_in_nonneg digits d). pose proof (Z.pow_nonneg 10 (len ws) ltac:(lia)).
    unfold dec_digit at 1. nia. }
  assert (FW : i16 (fold_left (fun v c => v * 10 + dec_digit c) ws 0) = width_of ws).
  { rewrite fold_radix. rewrite Z.mul_0_l, Z.add_0_l. apply i16_id. unfold width_of in *. lia. }
  assert (X : exists j, j = i + 1 + (if lf then 1 else 0) /\ bytes_at m (fmt + j) (ws ++ [c])).
  { exists (i + 1 + (if lf then 1 else 0)). split; [reflexivity|]. destruct lf.
    - destruct B as (_ & B). cbn [app codes] in B. now replace (fmt + (i + 1 + 1)) with (fmt + i + 1 + 1) by lia.
    - cbn [app] in B. now replace (fmt + (i + 1 + 0)) with (fmt + i + 1) by lia. }
  destruct X as (j & J & Bj).
  assert (FIN : returns (let! (w, i, c) := getWidth m fmt (0, i16 j, ldb m (fmt + j)) in
        printTail D args fmt m i (i16 pos) c w lf (if ldb m (fmt + j) =? 48 then 48 else 32) s) r).
  { eapply returns_bind; [apply (getWidth_ok m fmt c ws NC F 0 j Bj)|]. cbv beta iota. rewrite FW.
    rewrite (zero_flag_ok ws c m (fmt + j) NC Bj). subst j. exact R. }
  destruct lf.
  - replace (ldb m (fmt + (i + 1))) with 45
      by (destruct B as (B & _); change (Z.of_nat (nat_of_ascii "-")) with 45 in B; rewrite <- B; f_equal; lia).
    cbn [Z.eqb Pos.eqb]. rewrite !(i16_add (i + 1) 1), (ldb_cong m _ _ (add_i16 fmt (i + 1 + 1))).
    subst j. exact FIN.
  - replace (i + 1) with j by lia.
    assert (N45 : (ldb m (fmt + j) =? 45) = false).
    { apply Z.eqb_neq. destruct ws as [|d ws]; destruct Bj as (E & _); rewrite E; [exact NM|].
      inversion F as [|? ? I _]; subst. intros E45. rewrite E45 in I. clear -I. cbn in I.
      repeat (destruct I as [I|I]; [discriminate I|]). exact I. }
    rewrite N45. exact FIN.
Qed.

Lemma kind_char k : k <> Kld -> exists c, kind_text k = [c] /\ isDigit c = false /\ c <> 45 /\ c <> 108.
Proof. intros N. destruct k; try congruence; eexists; (split; [reflexivity|]); repeat split; discriminate. Qed.

Lemma items_run D args fmt m : forall f pos t pos', items_spec D m args pos f t pos' ->
  Forall item_ok f -> forall i s rest r, int_cnt s ->
  bytes_at m (fmt + i) (format_text f ++ rest) ->
  returns (loopM (printBody D args fmt) (m, i16 (i + len (format_text f)), i16 pos', emit s t)) r ->
  returns (loopM (printBody D args fmt) (m, i16 i, i16 pos, s)) r.
Proof.
  intros f pos t pos' S. induction S as [pos|pos c f t pos' S IH|pos lf ws k f t1 pos1 t2 pos2 C S IH];
    intros OK i s rest r I B R.
  - cbn [format_text flat_map] in R. rewrite len_nil, Z.add_0_r, emit_nil in R by exact I. exact R.
  - inversion OK as [|? ? O OK']; subst. cbn [item_ok] in O. destruct O as (O1 & O2). cbn [format_text flat_map item_text app] in B. destruct B as (B0 & B).
    eapply returns_stepM.
    + unfold printBody. cbv zeta. rewrite (ldb_cong m _ _ (add_i16 fmt i)), B0, (char_nz c O1).
      destruct (Z.eqb_spec c 37); [congruence|]. rewrite (i16_add i 1). apply returns_ret.
    + rewrite putC_emit. eapply (IH OK' (i + 1)); [apply emit_int| |].
      * rewrite Z.add_assoc. exact B.
      * rewrite emit_emit. cbn [format_text flat_map item_text app] in R. rewrite len_cons in R.
        replace (i + 1 + len (format_text f)) with (i + (1 + len (format_text f))) by lia. exact R.
  - inversion OK as [|? ? O OK']; subst. cbn [item_ok] in O. destruct O as (O1 & O2).
    assert (NK : k <> Kld) by (intros ->; inversion C).
    destruct (kind_char k NK) as (c & K & ND & NM & NL).
    cbn [format_text flat_map item_text] in B, R. fold (format_text f) in B, R. rewrite K in B, R.
    set (pre := codes "%" ++ (if lf then codes "-" else []) ++ ws ++ [c]) in *.
    assert (LP : len pre = 1 + (if lf then 1 else 0) + len ws + 1).
    { unfold pre. rewrite !len_app. change (len (codes "%")) with 1. change (len [c]) with 1.
      destruct lf; [change (len (codes "-")) with 1|rewrite len_nil]; lia. }
    rewrite <- app_assoc in B. pose proof B as B'. apply bytes_at_app in B'. destruct B' as (Bp & Bf).
    assert (WW : 0 <= width_of ws <= 32767).
    { split; [|exact O2]. clear -O1. unfold width_of. induction O1 as [|d ws I F IH]; [cbn; lia|]. cbn [radix_value].
      pose proof (pos_in_nonneg digits d). pose proof (Z.pow_nonneg 10 (len ws) ltac:(lia)).
      unfold dec_digit at 1. nia. }
    eapply returns_stepM.
    + eapply print_conv; [exact Bp|exact O1|exact O2|exact ND|exact NM|]. unfold printTail.
      destruct (Z.eqb_spec c 108); [congruence|].
      eapply returns_bind; [eapply conv16_ok; [exact C|exact K|exact WW|exact I]|]. cbv beta iota.
      rewrite i16_add. apply returns_ret.
    + eapply (IH OK' (i + 1 + (if lf then 1 else 0) + len ws + 1)); [apply emit_int| |].
      * replace (fmt + (i + 1 + (if lf then 1 else 0) + len ws + 1)) with (fmt + i + len pre) by lia. exact Bf.
      * rewrite emit_emit. rewrite len_app in R. fold (format_text f) in R.
        replace (i + 1 + (if lf then 1 else 0) + len ws + 1 + len (format_text f))
          with (i + (len pre + len (format_text f))) by lia. exact R.
Qed.

Lemma print_end D args fmt m i pos s : ldb m (fmt + i) = 0 ->
  returns (loopM (printBody D args fmt) (m, i16 i, pos, s)) (Done (s, m)).
Proof.
  intros E. apply returns_doneM. unfold printBody. cbv zeta.
  rewrite (ldb_cong m _ _ (add_i16 fmt i)), E. apply returns_ret.
Qed.

(* the whole call *)
Lemma print_ok D m args offs f t pos' : 
  items_spec D m args (offs + 1) f t pos' -> Forall item_ok f ->
  bytes_at m (argv m args offs) (format_text f ++ [0]) -> -32768 <= offs < 32767 ->
  returns (print D m args offs) (Done (Ost t (i16 (len t)), m)).
Proof.
  intros S OK B O. unfold print. pose proof (argv_getArg m args offs) as G.
  rewrite (i16_id offs) in G by lia. rewrite G.
  assert (I0 : int_cnt (Ost [] 0)) by (unfold int_cnt; cbn; lia).
  change 0 with (i16 0) at 1.
  eapply (items_run D args _ m f _ t pos' S OK 0 (Ost [] 0) [0]); [exact I0|now rewrite Z.add_0_r|].
  rewrite Z.add_0_l. change (emit (Ost [] 0) t) with (Ost t (i16 (len t))).
  apply print_end. apply bytes_at_app in B. destruct B as (_ & (B & _)). exact B.
Qed.

Lemma bad_conv_ok D m args offs f t pos' (lf : bool) ws c rest :
  items_spec D m args (offs + 1) f t pos' -> Forall item_ok f ->
  Forall (fun c => In c digits) ws -> width_of ws <= 32767 ->
  ~ In c digits -> 0 <= c <= 255 -> c <> 45 -> c <> 108 -> ~ In c (codes "odxcs%") ->
  bytes_at m (argv m args offs) (format_text f ++ (codes "%" ++ (if lf then codes "-" else []) ++ ws ++ [c]) ++ rest) ->
  -32768 <= offs < 32767 ->
  returns (print D m args offs) (Exit EUFMT).
Proof.
  intros S OK F W ND CR NM NL NK B O. unfold print. pose proof (argv_getArg m args offs) as G.
  rewrite (i16_id offs) in G by lia. rewrite G.
  assert (I0 : int_cnt (Ost [] 0)) by (unfold int_cnt; cbn; lia).
  change 0 with (i16 0) at 1.
  eapply (items_run D args _ m f _ t pos' S OK 0 (Ost [] 0)); [exact I0|rewrite Z.add_0_r; exact B|].
  rewrite Z.add_0_l. apply returns_doneM. apply bytes_at_app in B. destruct B as (_ & B).
  apply bytes_at_app in B. destruct B as (B & _).
  eapply print_conv; [exact B|exact F|exact W| |exact NM|].
  - destruct (isDigit c) eqn:E; auto. exfalso. apply ND. apply (C34_classes c CR). exact E.
  - unfold printTail. destruct (Z.eqb_spec c 108); [congruence|].
    assert (CK : forall d, In d (codes "odxcs%") -> (c =? d) = false).
    { intros d I. apply Z.eqb_neq. intros ->. now apply NK. }
    eapply (returns_bind _ _ (Exit EUFMT)); [|apply returns_ret].
    unfold conv16. rewrite !CK by (cbn; tauto). apply returns_ret.
Qed.

Lemma lits_run D args fmt m' : forall cs i pos s, Forall (fun c => char_ok c /\ c <> 37) cs -> int_cnt s ->
  bytes_at m' (fmt + i) (cs ++ [0]) ->
  returns (loopM (printBody D args fmt) (m', i16 i, i16 pos, s)) (Done (emit s cs, m')).
Proof.
  intros cs i pos s F I B.
  assert (S : items_spec D m' args pos (map Lit cs) cs pos).
  { clear. induction cs; constructor; auto. }
  assert (OK : Forall item_ok (map Lit cs)).
  { clear -F. induction F; constructor; auto. }
  assert (T : format_text (map Lit cs) = cs).
  { clear. induction cs as [|c cs IH]; [reflexivity|]. cbn. f_equal. exact IH. }
  eapply (items_run D args fmt m' _ _ _ _ S OK i s [0]); [exact I|now rewrite T|].
  rewrite T. apply print_end. apply bytes_at_app in B. destruct B as (_ & (B & _)).
  now replace (fmt + (i + len cs)) with (fmt + i + len cs) by lia.
Qed.

Lemma print_ld_ok D m args offs f t pos' ws cs :
  D = signed_div \/ D = unsigned_div ->
  items_spec D m args (offs + 1) f t pos' -> Forall item_ok f ->
  Forall (fun c => In c digits) ws -> width_of ws <= 32767 ->
  Forall (fun c => char_ok c /\ c <> 37) cs ->
  let fmt := argv m args offs in
  let arr := argv m args pos' in
  let text := format_text f ++ item_text (Conv false ws Kld) ++ cs ++ [0] in
  bytes_at m fmt text -> apart arr 4 fmt (len text) -> -32768 <= offs < 32767 ->
  val32 m arr < 655360000 ->
  exists l m', numeral 10 (val32 m arr) l /\
    let out := t ++ field false (zero_flag ws) (width_of ws) l ++ cs in
    returns (print D m args offs) (Done (Ost out (i16 (len out)), m')) /\
    val32 m' arr = val32 m arr / 100000000 /\
    (forall x, apart arr 4 x 1 -> ldb m' x = ldb m x).
Proof.
  intros HD S OK F W FC fmt arr text B AP O V.
  assert (WW : 0 <= width_of ws).
  { clear -F. unfold width_of. induction F as [|d ws I F IH]; [cbn; lia|]. cbn [radix_value].
    pose proof (pos_in_nonneg digits d). pose proof (Z.pow_nonneg 10 (len ws) ltac:(lia)).
    unfold dec_digit at 1. nia. }
  assert (I0 : int_cnt (Ost [] 0)) by (unfold int_cnt; cbn; lia).
  destruct (conv32_ok D m args (i16 pos') (zero_flag ws) (width_of ws) (emit (Ost [] 0) t) HD) as (l & m' & N & R & V' & FR).
  { rewrite argv_getArg. exact V. } { lia. } { apply emit_int. }
  rewrite argv_getArg in N, V', FR. cbn [fst] in N, V', FR. fold arr in N, V', FR.
  exists l, m'. split; [exact N|]. split; [|split; [exact V'|exact FR]].
  unfold print. pose proof (argv_getArg m args offs) as G.
  rewrite (i16_id offs) in G by lia. rewrite G. fold fmt.
  change 0 with (i16 0) at 1.
  eapply (items_run D args _ m f _ t pos' S OK 0 (Ost [] 0)); [exact I0|rewrite Z.add_0_r; exact B|].
  rewrite Z.add_0_l.
  set (j := len (format_text f)).
  assert (Bj : bytes_at m (fmt + j) ((codes "%" ++ ws ++ [108]) ++ (100 :: cs ++ [0]))).
  { unfold text in B. apply bytes_at_app in B. destruct B as (_ & B). fold j in B.
    cbn [item_text kind_text] in B. cbn [app] in B.
    replace ((codes "%" ++ ws ++ [108]) ++ 100 :: cs ++ [0]) with ((codes "%" ++ ws ++ codes "ld") ++ cs ++ [0]); [exact B|].
    cbn. rewrite <- !app_assoc. reflexivity. }
  apply bytes_at_app in Bj. destruct Bj as (Bj & Bd).
  assert (L1 : len (codes "%" ++ ws ++ [108]) = 2 + len ws).
  { rewrite !len_app. change (len (codes "%")) with 1. change (len [108]) with 1. lia. }
  rewrite L1 in Bd. destruct Bd as (Bd & Bc).
  eapply returns_stepM.
  - eapply (print_conv D args fmt m j pos' _ false ws 108); [exact Bj|exact F|exact W|reflexivity|lia|].
    unfold printTail. cbn [Z.eqb Pos.eqb]. cbv zeta.
    rewrite i16_add, (ldb_cong m _ _ (add_i16 fmt (j + 1 + 0 + len ws + 1))).
    replace (fmt + (j + 1 + 0 + len ws + 1)) with (fmt + j + (2 + len ws)) by lia. rewrite Bd.
    eapply returns_bind; [exact R|]. cbv beta iota. rewrite !i16_add. apply returns_ret.
  - set (out := field false (zero_flag ws) (width_of ws) l).
    assert (BE : bytes_at m' (fmt + (j + 1 + 0 + len ws + 1 + 1)) (cs ++ [0])).
    { replace (fmt + (j + 1 + 0 + len ws + 1 + 1)) with (fmt + j + (2 + len ws) + 1) by lia.
      apply (bytes_at_ext m); [|exact Bc]. intros k K. apply FR. intros a b Ha Hb.
      replace b with 0 by lia. rewrite Z.add_0_r.
      replace (fmt + j + (2 + len ws) + 1 + k) with (fmt + (j + 3 + len ws + k)) by lia.
      apply AP; [exact Ha|]. pose proof (len_nonneg (format_text f)). pose proof (len_nonneg ws). fold j in H.
      unfold text. rewrite !len_app. cbn [item_text kind_text]. rewrite !len_app. cbn [app].
      change (len (codes "%")) with 1. change (len (codes "ld")) with 2. change (len [0]) with 1.
      rewrite len_app in K. change (len [0]) with 1 in K. fold j. rewrite ?len_nil. lia. }
    pose proof (lits_run D args fmt m' cs (j + 1 + 0 + len ws + 1 + 1) (pos' + 1)
      (emit (emit (Ost [] 0) t) out) FC (emit_int _ _) BE) as LR.
    rewrite !emit_emit in LR. rewrite !app_assoc. rewrite emit_emit.
    replace (Ost ((t ++ out) ++ cs) (i16 (len ((t ++ out) ++ cs)))) with (emit (Ost [] 0) ((t ++ out) ++ cs)) by reflexivity.
    exact LR.
Qed.
