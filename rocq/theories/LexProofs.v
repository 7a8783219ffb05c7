From Coq Require Import ZArith Bool Lia String Ascii List.
From Verif Require Import Lexer LexSpec.
Import ListNotations.
Open Scope Z_scope.

Lemma hd0_first l : hd0 l = first l. Proof. destruct l; reflexivity. Qed.

(* ---- character classes against the explicit tables ---- *)
Definition allb (f : Z -> bool) : bool := forallb f (map Z.of_nat (seq 0 256)).
Lemma allb_ok f : allb f = true -> forall c, 0 <= c <= 255 -> f c = true.
Proof.
  intros H c C. unfold allb in H. rewrite forallb_forall in H. apply H.
  apply in_map_iff. exists (Z.to_nat c). split; [lia|]. apply in_seq. lia.
Qed.
Definition inb (c : Z) (l : list Z) : bool := if in_dec Z.eq_dec c l then true else false.
Lemma inb_In c l : inb c l = true <-> In c l.
Proof. unfold inb. destruct (in_dec Z.eq_dec c l); split; intros; auto; discriminate. Qed.
Lemma inb_nIn c l : inb c l = false <-> ~ In c l.
Proof. unfold inb. destruct (in_dec Z.eq_dec c l); split; intros; auto; try discriminate; contradiction. Qed.

Lemma class_In (f : Z -> bool) (l : list Z) lo hi :
  forallb (fun c => btw lo c hi) l = true ->
  allb (fun c => Bool.eqb (f c) (inb c l)) = true -> 0 <= lo -> hi <= 255 ->
  (forall c, f c = true -> 0 <= c <= 255) ->
  forall c, f c = true <-> In c l.
Proof.
  intros R A L H F c. split; intros X.
  - pose proof (allb_ok _ A c (F c X)) as E. apply eqb_prop in E. rewrite X in E. now apply inb_In.
  - rewrite forallb_forall in R. specialize (R c X). unfold btw in R.
    rewrite andb_true_iff, !Z.leb_le in R.
    pose proof (allb_ok _ A c ltac:(lia)) as E. apply eqb_prop in E. rewrite E. now apply inb_In.
Qed.
Ltac class := apply (class_In _ _ 0 255);
  [vm_compute; reflexivity|vm_compute; reflexivity|lia|lia|].
Ltac rng := intros c H; unfold isDelim, c_isalnum, isOdigit, c_isxdigit, c_isdigit, c_isalpha, c_isspace, btw in H;
  rewrite ?orb_true_iff, ?andb_true_iff, ?Z.leb_le, ?Z.eqb_eq in H; lia.
Lemma isdigit_In : forall c, c_isdigit c = true <-> In c decimals. Proof. class. rng. Qed.
Lemma isOdigit_In : forall c, isOdigit c = true <-> In c octals. Proof. class. rng. Qed.
Lemma isxdigit_In : forall c, c_isxdigit c = true <-> In c hexadecimals. Proof. class. rng. Qed.
Lemma isword1_In : forall c, (c_isalpha c || (c =? 95)) = true <-> In c letters. Proof. class. rng. Qed.
Lemma blank_In : forall c, (negb (c =? 10) && c_isspace c) = true <-> In c blanks.
Proof.
  class. intros c. unfold c_isspace, btw. rewrite !andb_true_iff, orb_true_iff, andb_true_iff, !Z.leb_le, Z.eqb_eq. lia.
Qed.
Lemma not_false (b : bool) (P : Prop) : (b = true <-> P) -> (b = false <-> ~ P).
Proof. intros H. destruct b; split; intros; try discriminate; auto; tauto || (intros X; apply H in X; discriminate). Qed.
Lemma notDelim_word c : isDelim c = false <-> word_char c.
Proof.
  unfold isDelim, c_isalnum, word_char. rewrite <- isword1_In, <- isdigit_In.
  destruct (c_isalpha c), (c_isdigit c), (c =? 95); cbn; intuition discriminate.
Qed.

(* ---- nothing to skip ---- *)
Lemma at_self s : at_ s (cur s) (ln2 s) = s. Proof. destruct s; reflexivity. Qed.
Lemma skipL_stop p l n : p (hd0 l) = false \/ l = [] -> skipL p l n = (l, n).
Proof. destruct l as [|c r]; [reflexivity|]. intros [E|E]; [|discriminate]. cbn in *. now rewrite E. Qed.

Lemma skipSpace_stop f s : starts (cur s) -> skipSpaceF (S f) s = LOk s.
Proof.
  intros (A & B & C). cbn [skipSpaceF].
  assert (E : skipSpc s = s).
  { unfold skipSpc. rewrite skipL_stop; [apply at_self|]. left. apply (not_false _ _ (blank_In _)).
    now change hd0 with first. }
  rewrite E. unfold ch, nextch. change hd0 with first.
  destruct (Z.eqb_spec (first (cur s)) 47) as [E47|]; cbn [andb].
  - destruct (C E47). destruct (Z.eqb_spec (first (tl (cur s))) 42); [congruence|].
    destruct (Z.eqb_spec (first (tl (cur s))) 47); [congruence|]. cbn [andb].
    rewrite E47. reflexivity.
  - destruct (Z.eqb_spec (first (cur s)) 10) as [E10|]; [|reflexivity].
    rewrite (B E10). reflexivity.
Qed.

Definition newln (s : lx) : lx := Lx (cur s) (ln2 s) (ln2 s) (val s) (str s).
Definition dispatch (s : lx) : lres (Z * lx) :=
  if ch s =? -1 then LOk (EOFtok, s)
  else if (ch s =? 10) && (nextch s =? 35) then getSharp s
  else if c_isdigit (ch s) then getDigit s
  else if c_isalpha (ch s) || (ch s =? 95) then
    let* (t, s) := getWord s in
    LOk (if t =? LxTRUE then (LxLOGICAL, setVal s 1)
         else if t =? LxFALSE then (LxLOGICAL, setVal s 0) else (t, s))
  else if ch s =? 34 then getStr s
  else if ch s =? 39 then getChar s
  else getSign s.
Lemma lxGetTok_eq s : lxGetTok s =
  let* s := skipSpace (if ch s =? 0 then getCh s else s) in dispatch (newln s).
Proof. reflexivity. Qed.
Lemma lxGetTok_start s : starts (cur s) -> first (cur s) <> 0 -> lxGetTok s = dispatch (newln s).
Proof.
  intros S N. rewrite lxGetTok_eq. unfold ch. change hd0 with first.
  destruct (Z.eqb_spec (first (cur s)) 0); [congruence|].
  unfold skipSpace. rewrite skipSpace_stop by exact S. reflexivity.
Qed.

Lemma starts_char l : ~ In (first l) blanks -> first l <> 10 -> first l <> 47 -> starts l.
Proof. intros A B C. split; [exact A|]. split; intros; congruence. Qed.
Lemma starts_in l t : In (first l) t -> forallb (fun c => negb (inb c blanks) && negb (c =? 10) && negb (c =? 47)) t = true ->
  starts l.
Proof.
  intros I F. rewrite forallb_forall in F. specialize (F _ I).
  rewrite !andb_true_iff, !negb_true_iff, inb_nIn, !Z.eqb_neq in F. apply starts_char; tauto.
Qed.

(* ---- numerals ---- *)
Lemma number_fold b dig l : forall v,
  fold_left (fun v c => v * b + dig c) l v = v * b ^ Z.of_nat (List.length l) + number b dig l.
Proof.
  induction l as [|c l IH]; intros v; cbn [fold_left number List.length].
  - change (Z.of_nat 0) with 0. change (b ^ 0) with 1. lia.
  - rewrite IH, Nat2Z.inj_succ, Z.pow_succ_r by lia. ring.
Qed.
Lemma number_nonneg b dig l : 0 <= b -> (forall c, In c l -> 0 <= dig c) -> 0 <= number b dig l.
Proof.
  intros B. induction l as [|c l IH]; intros D; cbn [number]; [lia|].
  pose proof (Z.pow_nonneg b (Z.of_nat (List.length l)) B). specialize (D c (or_introl eq_refl)) as D0.
  specialize (IH (fun c I => D c (or_intror I))). nia.
Qed.

Fixpoint walk (t r : list Z) (n : Z) : Z :=
  (* the line count after the characters t have been passed, r following *)
  match t with [] => n | _ :: t' => walk t' r (bump (t' ++ r) n) end.

Lemma digitsL_ok p b dv dig t r : 1 <= b ->
  (forall c, In c t -> p c = true /\ dv c = dig c /\ 0 <= dig c) -> p (first r) = false \/ r = [] ->
  forall n v, 0 <= v -> v * b ^ Z.of_nat (List.length t) + number b dig t <= HostMax ->
  digitsL p b dv (t ++ r) n v = LOk (v * b ^ Z.of_nat (List.length t) + number b dig t, r, walk t r n).
Proof.
  intros B. induction t as [|c t IH]; intros P R n v V L.
  - cbn [app number List.length walk] in *. change (b ^ Z.of_nat 0) with 1 in *.
    rewrite Z.mul_1_r, Z.add_0_r. destruct r as [|c r]; [reflexivity|].
    destruct R as [R|R]; [|discriminate]. cbn [digitsL]. cbn in R. now rewrite R.
  - destruct (P c (or_introl eq_refl)) as (P1 & P2 & P3).
    assert (NN : 0 <= number b dig t).
    { apply number_nonneg; [lia|]. intros d I. apply P. now right. }
    cbn [app digitsL walk]. rewrite P1, P2.
    assert (E : v * b ^ Z.of_nat (List.length (c :: t)) + number b dig (c :: t) =
      (v * b + dig c) * b ^ Z.of_nat (List.length t) + number b dig t).
    { cbn [List.length number]. rewrite Nat2Z.inj_succ, Z.pow_succ_r by lia. ring. }
    rewrite E in L |- *.
    pose proof (Z.pow_pos_nonneg b (Z.of_nat (List.length t)) ltac:(lia) ltac:(lia)) as PP.
    cbv zeta. destruct (Z.leb_spec (v * b + dig c) HostMax) as [LE|GT]; [|nia].
    apply IH; [|exact R|nia|exact L]. intros d I. apply P. now right.
Qed.

Lemma getDigits_ok p b dv dig s t r : 1 <= b -> cur s = t ++ r ->
  (forall c, In c t -> p c = true /\ dv c = dig c /\ 0 <= dig c) -> p (first r) = false \/ r = [] ->
  number b dig t <= HostMax ->
  getDigits p b dv s = LOk (number b dig t, at_ s r (walk t r (ln2 s))).
Proof.
  intros B C P R L. unfold getDigits. rewrite C.
  rewrite (digitsL_ok p b dv dig t r B P R) by lia. cbn [lbind]. rewrite Z.mul_0_l, Z.add_0_l. reflexivity.
Qed.

Lemma dec_ok c : In c decimals -> c_isdigit c = true /\ c - 48 = dec_of c /\ 0 <= dec_of c.
Proof.
  intros I. split; [now apply isdigit_In|].
  assert (T : forallb (fun c => (c - 48 =? dec_of c) && (0 <=? dec_of c)) decimals = true) by (vm_compute; reflexivity).
  rewrite forallb_forall in T. specialize (T c I). rewrite andb_true_iff, Z.eqb_eq, Z.leb_le in T. exact T.
Qed.
Lemma oct_ok c : In c octals -> isOdigit c = true /\ c - 48 = dec_of c /\ 0 <= dec_of c.
Proof.
  intros I. split; [now apply isOdigit_In|].
  assert (T : forallb (fun c => (c - 48 =? dec_of c) && (0 <=? dec_of c)) octals = true) by (vm_compute; reflexivity).
  rewrite forallb_forall in T. specialize (T c I). rewrite andb_true_iff, Z.eqb_eq, Z.leb_le in T. exact T.
Qed.
Lemma hex_ok c : In c hexadecimals -> c_isxdigit c = true /\ hex c = hex_of c /\ 0 <= hex_of c.
Proof.
  intros I. split; [now apply isxdigit_In|].
  assert (T : forallb (fun c => (hex c =? hex_of c) && (0 <=? hex_of c)) hexadecimals = true) by (vm_compute; reflexivity).
  rewrite forallb_forall in T. specialize (T c I). rewrite andb_true_iff, Z.eqb_eq, Z.leb_le in T. exact T.
Qed.

Lemma digit_dispatch s : In (first (cur s)) decimals -> lxGetTok s = getDigit (newln s).
Proof.
  intros I. rewrite lxGetTok_start.
  - unfold dispatch. change (ch (newln s)) with (ch s). unfold ch. change hd0 with first.
    pose proof I as I'. apply isdigit_In in I'. rewrite I'.
    unfold c_isdigit, btw in I'. rewrite andb_true_iff, !Z.leb_le in I'.
    destruct (Z.eqb_spec (first (cur s)) (-1)); [lia|].
    destruct (Z.eqb_spec (first (cur s)) 10); [lia|]. reflexivity.
  - apply (starts_in _ _ I). vm_compute. reflexivity.
  - intros E. rewrite E in I. apply isdigit_In in I. discriminate.
Qed.

Lemma decimal_ok s w r : cur s = w ++ r -> w <> [] -> Forall (fun c => In c decimals) w ->
  first w <> 48 -> ~ In (first r) decimals -> number 10 dec_of w <= HostMax ->
  exists s', lxGetTok s = LOk (LxINTEGER, s') /\ val s' = number 10 dec_of w /\ cur s' = r /\
    ln s' = ln2 s /\ str s' = str s.
Proof.
  intros C NE F N0 ND L. destruct w as [|c w]; [congruence|].
  assert (FC : first (cur s) = c) by now rewrite C.
  assert (I : In c decimals) by now inversion F. rewrite digit_dispatch by (rewrite FC; exact I).
  unfold getDigit, newln. cbn [cur ch nextch]. unfold ch, nextch; cbn [cur]. change hd0 with first; rewrite FC.
  cbn [first] in N0. destruct (Z.eqb_spec c 48); [congruence|]. cbn [andb]. unfold getDec.
  rewrite (getDigits_ok _ 10 _ dec_of _ (c :: w) r ltac:(lia)).
  - cbn [lbind]. eexists. repeat split.
  - exact C.
  - intros d D. rewrite Forall_forall in F. apply dec_ok, F, D.
  - left. now apply (not_false _ _ (isdigit_In _)).
  - exact L.
Qed.

Lemma octal_ok s w r : cur s = 48 :: w ++ r -> Forall (fun c => In c octals) w ->
  ~ In (first r) octals -> (w = [] -> first r <> 120 /\ first r <> 88) -> number 8 dec_of w <= HostMax ->
  exists s', lxGetTok s = LOk (LxINTEGER, s') /\ val s' = number 8 dec_of w /\ cur s' = r /\
    ln s' = ln2 s /\ str s' = str s.
Proof.
  intros C F ND NX L.
  assert (FC : first (cur s) = 48) by now rewrite C.
  rewrite digit_dispatch by (rewrite FC; left; reflexivity).
  unfold getDigit, newln, ch, nextch. cbn [cur]. change hd0 with first; rewrite FC. cbn [Z.eqb Pos.eqb andb].
  assert (X : (first (tl (cur s)) =? 120) || (first (tl (cur s)) =? 88) = false).
  { rewrite C. cbn [tl]. destruct w as [|d w].
    - cbn [app]. destruct (NX eq_refl). apply orb_false_iff. now rewrite !Z.eqb_neq.
    - inversion F as [|? ? I _]; subst. cbn [app first].
      assert (T : forallb (fun d => negb ((d =? 120) || (d =? 88))) octals = true) by (vm_compute; reflexivity).
      rewrite forallb_forall in T. specialize (T d I). now apply negb_true_iff in T. }
  rewrite X. unfold getOct.
  rewrite (getDigits_ok _ 8 _ dec_of _ (48 :: w) r ltac:(lia)).
  - cbn [lbind]. eexists. split; [reflexivity|]. split; [|repeat split].
    cbn [val setVal number]. change (dec_of 48) with 0. lia.
  - exact C.
  - intros d D. apply oct_ok. destruct D as [<-|D]; [left; reflexivity|]. rewrite Forall_forall in F. now apply F.
  - left. now apply (not_false _ _ (isOdigit_In _)).
  - cbn [number]. change (dec_of 48) with 0. lia.
Qed.

Lemma hexa_ok s x w r : cur s = 48 :: x :: w ++ r -> x = 120 \/ x = 88 -> w <> [] ->
  Forall (fun c => In c hexadecimals) w -> ~ In (first r) hexadecimals -> number 16 hex_of w <= HostMax ->
  exists s', lxGetTok s = LOk (LxINTEGER, s') /\ val s' = number 16 hex_of w /\ cur s' = r /\
    ln s' = ln2 s /\ str s' = str s.
Proof.
  intros C X NE F ND L.
  assert (FC : first (cur s) = 48) by now rewrite C.
  rewrite digit_dispatch by (rewrite FC; left; reflexivity).
  unfold getDigit, newln, ch, nextch. cbn [cur]. change hd0 with first; rewrite FC. cbn [Z.eqb Pos.eqb andb].
  replace ((first (tl (cur s)) =? 120) || (first (tl (cur s)) =? 88)) with true
    by (rewrite C; cbn [tl first]; destruct X as [->| ->]; reflexivity).
  unfold getHex. destruct w as [|c w]; [congruence|].
  assert (G : cur (getCh (getCh (Lx (cur s) (ln2 s) (ln2 s) (val s) (str s)))) = (c :: w) ++ r) by (cbn; now rewrite C).
  replace (c_isxdigit (ch _)) with true.
  - rewrite (getDigits_ok _ 16 _ hex_of _ (c :: w) r ltac:(lia) G).
    + cbn [lbind]. eexists. repeat split.
    + intros d D. rewrite Forall_forall in F. apply hex_ok, F, D.
    + left. now apply (not_false _ _ (isxdigit_In _)).
    + exact L.
  - symmetry. unfold ch. rewrite G. cbn. apply isxdigit_In. now inversion F.
Qed.

Lemma hexa_bad s x r : cur s = 48 :: x :: r -> x = 120 \/ x = 88 -> ~ In (first r) hexadecimals ->
  lxGetTok s = LErr EHexForm.
Proof.
  intros C X ND.
  assert (FC : first (cur s) = 48) by now rewrite C.
  rewrite digit_dispatch by (rewrite FC; left; reflexivity).
  unfold getDigit, newln, ch, nextch. cbn [cur]. change hd0 with first; rewrite FC. cbn [Z.eqb Pos.eqb andb].
  replace ((first (tl (cur s)) =? 120) || (first (tl (cur s)) =? 88)) with true
    by (rewrite C; cbn [tl first]; destruct X as [->| ->]; reflexivity).
  unfold getHex, ch. cbn. rewrite C. cbn [tl]. change hd0 with first.
  apply (not_false _ _ (isxdigit_In _)) in ND. now rewrite ND.
Qed.

(* ---- words ---- *)
Lemma storeL_ok p t r : (forall c, In c t -> p c = true) -> p (first r) = false \/ r = [] ->
  forall n i acc, i + slen t <= StrMAX + 1 ->
  storeL p (t ++ r) n i acc = (r, walk t r n, i + slen t, acc ++ t).
Proof.
  induction t as [|c t IH]; intros P R n i acc L.
  - cbn [app walk]. unfold slen. cbn. rewrite Z.add_0_r, app_nil_r.
    destruct r as [|c r]; [reflexivity|]. destruct R as [R|R]; [|discriminate]. cbn in *. now rewrite R.
  - unfold slen in *. cbn [List.length] in *. cbn [app storeL walk]. rewrite (P c (or_introl eq_refl)).
    destruct (Z.leb_spec i StrMAX); [|unfold StrMAX in *; lia]. cbn [andb].
    rewrite IH; [|intros d I; apply P; now right|exact R|lia].
    f_equal; [f_equal; lia|]. now rewrite <- app_assoc.
Qed.
(* more than 129 characters: the loop stops with 129 stored *)
Lemma storeL_long p t r : (forall c, In c t -> p c = true) ->
  forall n i acc, 0 <= i <= StrMAX -> StrMAX + 1 < i + slen t ->
  exists t1 c t2 n', t = t1 ++ c :: t2 /\ i + slen t1 = StrMAX + 1 /\
    storeL p (t ++ r) n i acc = (c :: t2 ++ r, n', StrMAX + 1, acc ++ t1).
Proof.
  induction t as [|c t IH]; intros P n i acc I L; unfold slen in *; cbn [List.length] in *; [lia|].
  cbn [app storeL]. rewrite (P c (or_introl eq_refl)).
  destruct (Z.leb_spec i StrMAX); [|lia]. cbn [andb].
  destruct (Z.eq_dec i StrMAX) as [->|NE].
  - destruct t as [|d t]; [cbn in L; lia|]. exists [c], d, t. eexists.
    split; [reflexivity|]. split; [cbn; lia|]. cbn [app storeL].
    destruct (Z.leb_spec (StrMAX + 1) StrMAX); [lia|]. rewrite andb_false_r. reflexivity.
  - destruct (IH (fun d J => P d (or_intror J)) (bump (t ++ r) n) (i + 1) (acc ++ [c]) ltac:(lia) ltac:(lia))
      as (t1 & d & t2 & n' & -> & L1 & E).
    exists (c :: t1), d, t2, n'. split; [reflexivity|]. split; [cbn [List.length]; lia|].
    rewrite E. now rewrite <- app_assoc.
Qed.

Lemma zeqb_list_eq a : forall b, zeqb_list a b = true <-> a = b.
Proof.
  induction a as [|x a IH]; intros [|y b]; cbn; split; intros H; try discriminate; auto.
  - apply andb_true_iff in H. destruct H as (H & H'). apply Z.eqb_eq in H. apply IH in H'. congruence.
  - injection H as -> ->. rewrite Z.eqb_refl. now apply IH.
Qed.

Lemma word_dispatch s : In (first (cur s)) letters ->
  lxGetTok s = let* (t, s) := getWord (newln s) in
    LOk (if t =? LxTRUE then (LxLOGICAL, setVal s 1)
         else if t =? LxFALSE then (LxLOGICAL, setVal s 0) else (t, s)).
Proof.
  intros I. rewrite lxGetTok_start.
  - unfold dispatch. change (ch (newln s)) with (ch s). unfold ch. change hd0 with first.
    pose proof I as I'. apply isword1_In in I'. rewrite I'.
    assert (T : forallb (fun c => negb (c =? -1) && negb (c =? 10) && negb (c_isdigit c)) letters = true) by (vm_compute; reflexivity).
    rewrite forallb_forall in T. specialize (T _ I). rewrite !andb_true_iff, !negb_true_iff in T.
    destruct T as ((T1 & T2) & T3). now rewrite T1, T2, T3.
  - apply (starts_in _ _ I). vm_compute. reflexivity.
  - intros E. rewrite E in I. apply isword1_In in I. discriminate.
Qed.

Definition plain_word (k : Z) : Prop := k <> LxTRUE /\ k <> LxFALSE.

Lemma getWord_ok s w r : cur s = w ++ r -> Forall word_char w -> ~ word_char (first r) -> slen w <= StrMAX ->
  getWord s = LOk (searchRsv (firstn LxRsvNUM rsvWord) w, setStr (at_ s r (walk w r (ln2 s))) w).
Proof.
  intros C F ND L. unfold getWord. rewrite C.
  assert (D : isDelim (first r) = true).
  { destruct (isDelim (first r)) eqn:E; auto. now apply notDelim_word in E. }
  rewrite (storeL_ok _ w r).
  - cbn [at_ cur]. unfold ch. cbn [cur at_]. change hd0 with first; rewrite D. cbn [negb].
    destruct (Z.ltb_spec StrMAX (0 + slen w)); [lia|]. reflexivity.
  - intros c I. rewrite Forall_forall in F. apply F, notDelim_word in I. now rewrite I.
  - left. now rewrite D.
  - lia.
Qed.
Lemma getWord_129 s w r : cur s = w ++ r -> Forall word_char w -> ~ word_char (first r) -> slen w = StrMAX + 1 ->
  getWord s = LUndef UBuf.
Proof.
  intros C F ND L. unfold getWord. rewrite C.
  assert (D : isDelim (first r) = true).
  { destruct (isDelim (first r)) eqn:E; auto. now apply notDelim_word in E. }
  rewrite (storeL_ok _ w r).
  - cbn [at_ cur]. unfold ch. cbn [cur at_]. change hd0 with first; rewrite D. cbn [negb].
    destruct (Z.ltb_spec StrMAX (0 + slen w)); [reflexivity|lia].
  - intros c I. rewrite Forall_forall in F. apply F, notDelim_word in I. now rewrite I.
  - left. now rewrite D.
  - lia.
Qed.
Lemma getWord_long s w r : cur s = w ++ r -> Forall word_char w -> StrMAX + 1 < slen w ->
  getWord s = LErr ENameLong.
Proof.
  intros C F L. unfold getWord. rewrite C.
  assert (P : forall c, In c w -> negb (isDelim c) = true).
  { intros c I. rewrite Forall_forall in F. apply F, notDelim_word in I. now rewrite I. }
  destruct (storeL_long _ w r P (ln2 s) 0 [] ltac:(unfold StrMAX; lia) ltac:(lia)) as (t1 & c & t2 & n' & E & L1 & ->).
  unfold ch. cbn [cur at_ hd0]. rewrite (P c); [reflexivity|]. rewrite E. apply in_elt.
Qed.

(* ---- numerals that do not fit the host's int ---- *)
Lemma digitsL_big p b dv dig t r : 1 <= b ->
  (forall c, In c t -> p c = true /\ dv c = dig c /\ 0 <= dig c) ->
  forall n v, 0 <= v <= HostMax -> HostMax < v * b ^ Z.of_nat (List.length t) + number b dig t ->
  digitsL p b dv (t ++ r) n v = LUndef UOvf.
Proof.
  intros B. induction t as [|c t IH]; intros P n v V L.
  - cbn [number List.length] in L. change (b ^ Z.of_nat 0) with 1 in L. lia.
  - destruct (P c (or_introl eq_refl)) as (P1 & P2 & P3). cbn [app digitsL]. rewrite P1, P2. cbv zeta.
    destruct (Z.leb_spec (v * b + dig c) HostMax) as [LE|]; [|reflexivity].
    apply IH; [intros d I; apply P; now right|nia|].
    cbn [number List.length] in L. rewrite Nat2Z.inj_succ, Z.pow_succ_r in L by lia. nia.
Qed.
Lemma getDigits_big p b dv dig s t r : 1 <= b -> cur s = t ++ r ->
  (forall c, In c t -> p c = true /\ dv c = dig c /\ 0 <= dig c) -> HostMax < number b dig t ->
  getDigits p b dv s = LUndef UOvf.
Proof.
  intros B C P L. unfold getDigits. rewrite C, (digitsL_big p b dv dig t r B P); [reflexivity|unfold HostMax; lia|lia].
Qed.
Lemma decimal_big s w r : cur s = w ++ r -> Forall (fun c => In c decimals) w -> first w <> 48 ->
  HostMax < number 10 dec_of w -> lxGetTok s = LUndef UOvf.
Proof.
  intros C F N0 L. destruct w as [|c w]; [cbn in L; unfold HostMax in L; lia|].
  assert (FC : first (cur s) = c) by now rewrite C.
  assert (I : In c decimals) by now inversion F. rewrite digit_dispatch by (rewrite FC; exact I).
  unfold getDigit, newln, ch, nextch; cbn [cur]. change hd0 with first; rewrite FC.
  cbn [first] in N0. destruct (Z.eqb_spec c 48); [congruence|]. cbn [andb]. unfold getDec.
  rewrite (getDigits_big _ 10 _ dec_of _ (c :: w) r ltac:(lia)); [reflexivity|exact C| |exact L].
  intros d D. rewrite Forall_forall in F. apply dec_ok, F, D.
Qed.
