(* Layout independence of a token list; string and character literals; operators. *)
From Coq Require Import ZArith Bool Lia String Ascii List.
From Verif Require Import Lexer LexSpec LexProofs LexGap LexTok LexTotal LexLocal.
Import ListNotations.
Open Scope Z_scope.

Lemma gap_first g r : gap g r -> first r <> 0 -> first (g ++ r) <> 0.
Proof.
  intros G N. inversion G as [q|c g' q B G'|g' q F G'|b g' q F G'|b g' q F F2 G']; subst; cbn; try lia; try exact N.
  intros ->. apply blank_In in B. discriminate.
Qed.
Lemma lxGetTok_gap g r s : gap g r -> bytes g -> first r <> 0 -> cur s = g ++ r ->
  lxGetTok s = lxGetTok (at_ s r (walk g r (ln2 s))).
Proof.
  intros G B N C. rewrite !lxGetTok_eq. unfold ch. cbn [cur at_]. rewrite C. change hd0 with first.
  rewrite (proj2 (Z.eqb_neq _ _) N), (proj2 (Z.eqb_neq _ _) (gap_first g r G N)).
  rewrite (gap_skip g r G B s C). reflexivity.
Qed.

(* the text t alone is read as one token, all of it *)
Definition alone (v : Z) (st t : list Z) (k v' : Z) (st' : list Z) : Prop :=
  starts t /\ first t <> 0 /\ first t <> 10 /\ k <> EOFtok /\
  exists s', lxGetTok (Lx t 0 0 v st) = LOk (k, s') /\ cur s' = [] /\ val s' = v' /\ str s' = st'.
Inductive chain : Z -> list Z -> list (list Z) -> list (Z * Z * list Z) -> Prop :=
| ch_nil v st : chain v st [] [(EOFtok, v, st)]
| ch_cons v st t k v' st' ts out : alone v st t k v' st' -> chain v' st' ts out ->
    chain v st (t :: ts) ((k, v', st') :: out).
Definition strip (i : item) : Z * Z * list Z := let '(k, v, st, _) := i in (k, v, st).

Lemma starts_local t r : starts t -> first t <> 10 -> sep t r -> t <> [] -> starts (t ++ r).
Proof.
  intros (A & _ & C) N S NE. destruct t as [|c [|d t]]; [congruence| |].
  - cbn [app]. split; [exact A|]. split; [intros; cbn in *; congruence|].
    cbn [first tl]. intros ->. destruct S as [->|[S|(S1 & S2)]].
    + cbn. lia.
    + split; intros X; rewrite X in S; apply inb_In in S; discriminate.
    + congruence.
  - split; [exact A|]. split; [intros; cbn in *; congruence|]. exact C.
Qed.
Lemma alone_local v st t k v' st' r s : alone v st t k v' st' -> sep t r -> cur s = t ++ r -> val s = v -> str s = st ->
  exists s', lxGetTok s = LOk (k, s') /\ cur s' = r /\ val s' = v' /\ str s' = st' /\ ln s' = ln2 s.
Proof.
  intros (ST & N0 & N10 & NE & s1 & E & C1 & V1 & S1) SP C V S.
  rewrite lxGetTok_start in E by assumption.
  assert (NT : t <> []).
  { intros ->. vm_compute in E. injection E as <- _. now apply NE. }
  assert (F : first (t ++ r) = first t) by (destruct t; [congruence|reflexivity]).
  assert (LN : lone (newln (Lx t 0 0 v st)) t r k s1).
  { split; [reflexivity|]. split; [exact ST|]. split; [exact E|]. split; [exact C1|]. split; [exact NE|].
    intros X. unfold ch in X. cbn [cur newln] in X. change hd0 with first in X. congruence. }
  assert (STR : starts (cur s)) by (rewrite C; now apply starts_local).
  destruct (dispatch_local _ (newln s) t r k s1 LN SP C V S) as (s2 & D & C2 & V2 & S2).
  exists s2. rewrite lxGetTok_start; [|exact STR|rewrite C; congruence]. split; [exact D|].
  apply dispatch_inv in D; [|exact STR]. destruct D as (L & _). split; [exact C2|]. split; [congruence|]. split; [congruence|exact L].
Qed.

Lemma layout_lex ts text : layout ts text -> forall f s out, cur s = text -> bytes text -> (List.length text < f)%nat ->
  chain (val s) (str s) ts out -> exists items, lexAllF f s = LOk items /\ map strip items = out.
Proof.
  induction 1 as [g G|g t ts rest G SP LY IH]; intros f s out C BY L CH; (destruct f as [|f]; [lia|]); cbn [lexAllF].
  - inversion CH; subst. rewrite (lxGetTok_gap (cur s) [] s G BY ltac:(cbn; lia)) by now rewrite app_nil_r.
    eexists. split; [reflexivity|]. reflexivity.
  - inversion CH as [|v st t' k v' st' ts' out' AL CH']; subst.
    apply bytes_app in BY. destruct BY as (B1 & B2). apply bytes_app in B2. destruct B2 as (B2 & B3).
    pose proof AL as (_ & N0 & _ & NE & s1 & E1 & _).
    assert (NT : t <> []).
    { intros ->. vm_compute in E1. injection E1 as <- _. now apply NE. }
    assert (F : first (t ++ rest) = first t) by (destruct t; [congruence|reflexivity]).
    rewrite (lxGetTok_gap g (t ++ rest) s G B1 ltac:(congruence) C).
    set (s0 := at_ s (t ++ rest) _).
    destruct (alone_local _ _ _ _ _ _ rest s0 AL SP eq_refl eq_refl eq_refl) as (s2 & -> & C2 & V2 & S2 & _).
    cbn [lbind]. rewrite (proj2 (Z.eqb_neq _ _) NE).
    destruct (IH f s2 out' C2 B3) as (items & -> & M).
    + rewrite !app_length in L. destruct t; [congruence|]. cbn [List.length] in L. lia.
    + now rewrite V2, S2.
    + cbn [lbind]. eexists. split; [reflexivity|]. cbn [map strip]. now rewrite M, V2, S2.
Qed.
Lemma layout_file ts file out : layout ts file -> bytes file -> first file <> 35 -> chain 0 [] ts out ->
  exists items, lexAll file = LOk items /\ map strip items = out.
Proof.
  intros LY BY N CH. unfold lexAll. rewrite Nat.add_comm. cbn [Nat.add]. rewrite lexAllF_init.
  assert (LY' : layout ts (10 :: file)).
  { inversion LY as [g G|g t ts' rest G SP LY']; subst.
    - apply lay_end. constructor; [now rewrite app_nil_r|exact G].
    - apply (lay_tok (10 :: g)); auto. now constructor. }
  apply (layout_lex ts (10 :: file) LY' _ (Lx (10 :: file) 1 1 0 [])); [reflexivity|constructor; [lia|exact BY]|cbn [List.length]; lia|exact CH].
Qed.

(* ---- string literals ---- *)
Definition oct3 (v : Z) : list Z := [92; Z.land v 448 / 64 + 48; Z.land v 56 / 8 + 48; Z.land v 7 + 48].
Definition spell_item (i : sitem) : list Z :=
  match i with
  | Plain c => [c] | Esc c => [92; c] | Hex d => oct3 (number 16 hex_of d) | Oct d => oct3 (number 8 dec_of d)
  end.

Lemma hexStrL_ok d : forall c r n v, Forall (fun c => In c hexadecimals) d -> ~ In (first r) hexadecimals -> 0 <= v ->
  v * 16 ^ slen d + number 16 hex_of d <= 255 ->
  exists n2, hexStrL c (d ++ r) n v = LOk (v * 16 ^ slen d + number 16 hex_of d, last (c :: d) c :: r, n2).
Proof.
  induction d as [|x d IH]; intros c r n v F N V L.
  - cbn [app number last]. unfold slen. cbn [List.length]. change (16 ^ Z.of_nat 0) with 1.
    rewrite Z.mul_1_r, Z.add_0_r. destruct r as [|y r]; [eexists; reflexivity|].
    cbn [hexStrL]. cbn [first] in N. apply (not_false _ _ (isxdigit_In _)) in N. rewrite N. eexists. reflexivity.
  - inversion F as [|? ? F1 F2]; subst. cbn [app hexStrL].
    destruct (hex_ok x F1) as (P1 & P2 & P3). rewrite P1, P2. cbv zeta.
    assert (E : v * 16 ^ slen (x :: d) + number 16 hex_of (x :: d) =
      (v * 16 + hex_of x) * 16 ^ slen d + number 16 hex_of d).
    { unfold slen. cbn [List.length number]. rewrite Nat2Z.inj_succ, Z.pow_succ_r by lia. ring. }
    rewrite E in L |- *.
    assert (NN : 0 <= number 16 hex_of d).
    { apply number_nonneg; [lia|]. intros y I. rewrite Forall_forall in F2. apply hex_ok, F2, I. }
    pose proof (Z.pow_pos_nonneg 16 (slen d) ltac:(lia) ltac:(unfold slen; lia)) as PP.
    destruct (Z.ltb_spec 255 (v * 16 + hex_of x)) as [GT|LE]; [nia|].
    destruct (IH x r (bump (x :: d ++ r) n) (v * 16 + hex_of x) F2 N ltac:(lia) L) as (n2 & ->).
    eexists. do 3 f_equal. change (last (c :: x :: d) c) with (last (x :: d) c). clear.
    generalize x at 1 3. intros a. revert a. induction d as [|b d IH]; intros a; [reflexivity|]. cbn [last] in *.
    destruct d; [reflexivity|]. apply (IH b).
Qed.
Lemma last_in (d : list Z) c : d <> [] -> exists t, last (c :: d) c :: [] = t. Proof. eauto. Qed.

Lemma getHexStr_ok s x d r : cur s = x :: d ++ r -> d <> [] -> Forall (fun c => In c hexadecimals) d ->
  ~ In (first r) hexadecimals -> number 16 hex_of d <= 255 ->
  exists s', getHexStr s = LOk (number 16 hex_of d, s') /\ tl (cur s') = r /\ cur s' <> [] /\
    val s' = val s /\ str s' = str s /\ ln s' = ln s.
Proof.
  intros C NE F N L. unfold getHexStr, nextch, ch. rewrite C. cbn [tl hd0]. destruct d as [|y d]; [congruence|].
  cbn [app hd0]. inversion F as [|? ? F1 F2]; subst. destruct (hex_ok y F1) as (P1 & _). rewrite P1. cbn [negb].
  destruct (hexStrL_ok (y :: d) x r (ln2 s) 0 F N ltac:(lia) ltac:(lia)) as (n2 & E). cbn [app] in E. rewrite E.
  cbn [lbind]. rewrite Z.mul_0_l, Z.add_0_l. eexists. split; [reflexivity|]. repeat split. discriminate.
Qed.
Lemma getOctStr_ok s d r : cur s = d ++ r -> (1 <= List.length d <= 3)%nat -> Forall (fun c => In c octals) d ->
  (List.length d = 3%nat \/ ~ In (first r) octals) -> number 8 dec_of d <= 255 ->
  exists s', getOctStr s = LOk (number 8 dec_of d, s') /\ tl (cur s') = r /\ cur s' <> [] /\
    val s' = val s /\ str s' = str s /\ ln s' = ln s.
Proof.
  intros C LE F N L. unfold getOctStr.
  assert (NR : List.length d <> 3%nat -> isOdigit (first r) = false).
  { intros X. destruct N as [N|N]; [congruence|]. now apply (not_false _ _ (isOdigit_In _)). }
  destruct d as [|a [|b [|c [|? ?]]]]; cbn [List.length] in *; try lia.
  - inversion F as [|? ? A _]; subst. destruct (oct_ok a A) as (A1 & A2 & A3).
    cbn [octStrL]. cbv zeta. unfold ch, nextch. rewrite C. cbn [app hd0 tl]. change hd0 with first. rewrite (NR ltac:(lia)). cbn [negb].
    cbn [number List.length] in *. change (8 ^ Z.of_nat 0) with 1 in *.
    destruct (Z.ltb_spec 255 (0 * 8 + a - 48)); [lia|]. exists s. split; [do 2 f_equal; lia|]. rewrite C. repeat split. discriminate.
  - inversion F as [|? ? A F']; subst. inversion F' as [|? ? B _]; subst.
    destruct (oct_ok a A) as (A1 & A2 & A3). destruct (oct_ok b B) as (B1 & B2 & B3).
    cbn [octStrL]. cbv zeta. unfold ch, nextch, getCh. rewrite C. cbn [app hd0 tl cur]. change hd0 with first. rewrite (NR ltac:(lia)), B1. cbn [negb].
    cbn [number List.length] in *. change (8 ^ Z.of_nat 0) with 1 in *. change (8 ^ Z.of_nat 1) with 8 in *.
    destruct (Z.ltb_spec 255 (0 * 8 + a - 48)); [lia|]. destruct (Z.ltb_spec 255 ((0 * 8 + a - 48) * 8 + b - 48)); [lia|].
    eexists. split; [do 2 f_equal; lia|]. repeat split. discriminate.
  - inversion F as [|? ? A F']; subst. inversion F' as [|? ? B F'']; subst. inversion F'' as [|? ? D _]; subst.
    destruct (oct_ok a A) as (A1 & A2 & A3). destruct (oct_ok b B) as (B1 & B2 & B3). destruct (oct_ok c D) as (D1 & D2 & D3).
    cbn [octStrL]. cbv zeta. unfold ch, nextch, getCh. rewrite C. cbn [app hd0 tl cur]. rewrite B1, D1. cbn [negb].
    cbn [number List.length] in *. change (8 ^ Z.of_nat 0) with 1 in *. change (8 ^ Z.of_nat 1) with 8 in *. change (8 ^ Z.of_nat 2) with 64 in *.
    destruct (Z.ltb_spec 255 (0 * 8 + a - 48)); [lia|]. destruct (Z.ltb_spec 255 ((0 * 8 + a - 48) * 8 + b - 48)); [lia|].
    destruct (Z.ltb_spec 255 (((0 * 8 + a - 48) * 8 + b - 48) * 8 + c - 48)); [lia|].
    destruct (negb (isOdigit (hd0 r))); (eexists; split; [do 2 f_equal; lia|]; repeat split; discriminate).
Qed.

Lemma slen_app a b : slen (a ++ b) = slen a + slen b. Proof. unfold slen. rewrite app_length. lia. Qed.
Lemma spell_len i : slen (spell_item i) = spelling_size i. Proof. destruct i; reflexivity. Qed.
Lemma fits_le its : forall p, fits p its -> p <= 128.
Proof.
  induction its as [|i its IH]; intros p F; cbn [fits] in F; [exact F|]. destruct F as (_ & F). apply IH in F.
  destruct i; cbn in F; lia.
Qed.
Lemma src_first its r : first (src_items its ++ 34 :: r) = first (src_items its ++ [34]).
Proof. destruct (src_items its); reflexivity. Qed.

Lemma getStrF_ok its r : forall f s acc cnt, items_wf its -> fits (slen acc) its -> cur s <> [] ->
  tl (cur s) = src_items its ++ 34 :: r -> (List.length its < f)%nat ->
  exists s', getStrF f s acc cnt = LOk (s', acc ++ flat_map spell_item its, cnt + Z.of_nat (List.length its)) /\
    cur s' = 34 :: r /\ val s' = val s /\ str s' = str s /\ ln s' = ln s.
Proof.
  induction its as [|i its IH]; intros f s acc cnt W F NE C L; (destruct f as [|f]; [lia|]); cbn [getStrF]; cbv zeta.
  - cbn [src_items flat_map app] in *. unfold ch. unfold getCh at 1. cbn [cur]. rewrite C. cbn [hd0 Z.eqb Pos.eqb orb].
    unfold getCh at 1. cbn [cur]. rewrite C. cbn [hd0 Z.eqb Pos.eqb negb].
    eexists. split; [rewrite app_nil_r; cbn [List.length]; change (Z.of_nat 0) with 0; rewrite Z.add_0_r; reflexivity|].
    unfold getCh. cbn [cur val str ln]. rewrite C. auto.
  - cbn [items_wf] in W. destruct W as (W1 & W2). cbn [fits] in F. destruct F as (F1 & F2).
    cbn [src_items flat_map] in C. fold (src_items its) in C. rewrite <- app_assoc in C.
    pose proof (fits_le _ _ F2) as LE.
    assert (LA : StrMAX <? slen acc = false).
    { apply Z.ltb_ge. unfold StrMAX. destruct i; cbn in LE; lia. }
    assert (STEP : forall s1 a, a = acc ++ spell_item i -> cur s1 <> [] -> tl (cur s1) = src_items its ++ 34 :: r ->
      val s1 = val s -> str s1 = str s -> ln s1 = ln s ->
      exists s', getStrF f s1 a (cnt + 1) = LOk (s', acc ++ flat_map spell_item (i :: its), cnt + Z.of_nat (List.length (i :: its))) /\
      cur s' = 34 :: r /\ val s' = val s /\ str s' = str s /\ ln s' = ln s).
    { intros s1 a -> N1 T1 V1 S1 L1. destruct (IH f s1 (acc ++ spell_item i) (cnt + 1) W2) as (s' & E & R).
      - rewrite slen_app, spell_len. exact F2.
      - exact N1.
      - exact T1.
      - cbn [List.length] in L. lia.
      - exists s'. rewrite V1, S1, L1 in R. split; [|exact R]. rewrite E. cbn [flat_map List.length]. rewrite <- app_assoc.
        do 2 f_equal. lia. }
    assert (G1 : cur (getCh s) = src_item i ++ src_items its ++ 34 :: r) by exact C.
    assert (PO : forall v, spell_item i = oct3 v -> slen acc + 4 <= 127 -> putOctStr v (slen acc) acc = LOk (acc ++ oct3 v)).
    { intros v _ B. unfold putOctStr. destruct (Z.leb_spec StrMAX (slen acc + 4)); [unfold StrMAX in *; lia|reflexivity]. }
    destruct i as [c|c|d|d]; cbn [src_item item_wf] in *.
    + destruct W1 as (R1 & R2 & R3 & R4).
      assert (CH : ch (getCh s) = c) by (unfold ch; now rewrite G1).
      rewrite CH. rewrite (proj2 (Z.eqb_neq c 34) R3), (proj2 (Z.eqb_neq c (-1))) by lia. rewrite LA. cbn [orb].
      replace (c_iscntrl c) with false.
      2:{ symmetry. unfold c_iscntrl, btw. apply orb_false_iff. split; [|now apply Z.eqb_neq].
          apply andb_false_iff. right. apply Z.leb_gt. lia. }
      rewrite (proj2 (Z.eqb_neq c 92) R4). cbn [negb].
      apply STEP; auto; rewrite G1; [discriminate|reflexivity].
    + destruct W1 as (R1 & R2 & R3).
      assert (CH : ch (getCh s) = 92) by (unfold ch; now rewrite G1).
      rewrite CH, LA. cbn [Z.eqb Pos.eqb orb c_iscntrl btw]. change (c_iscntrl 92) with false. cbn [negb].
      assert (G2 : cur (getCh (getCh s)) = c :: src_items its ++ 34 :: r) by (unfold getCh at 1; cbn [cur]; rewrite G1; reflexivity).
      assert (CH2 : ch (getCh (getCh s)) = c) by (unfold ch; now rewrite G2).
      rewrite CH2. rewrite (proj2 (Z.eqb_neq c 120) R2). apply (not_false _ _ (isOdigit_In _)) in R3. rewrite R3.
      cbn [spelling_size] in LE. destruct (Z.ltb_spec StrMAX (slen acc + 1)); [unfold StrMAX in *; lia|].
      rewrite Z.mod_small by lia. apply STEP; auto; rewrite G2; [discriminate|reflexivity].
    + destruct W1 as (R1 & R2 & R3 & R4). rewrite <- src_first with (r := r) in R4.
      assert (CH : ch (getCh s) = 92) by (unfold ch; now rewrite G1).
      rewrite CH, LA. cbn [Z.eqb Pos.eqb orb]. change (c_iscntrl 92) with false. cbn [negb].
      assert (G2 : cur (getCh (getCh s)) = 120 :: d ++ src_items its ++ 34 :: r) by (unfold getCh at 1; cbn [cur]; rewrite G1; reflexivity).
      assert (CH2 : ch (getCh (getCh s)) = 120) by (unfold ch; now rewrite G2).
      rewrite CH2. cbn [Z.eqb Pos.eqb].
      destruct (getHexStr_ok _ _ _ _ G2 R1 R2 R4 R3) as (s3 & -> & T3 & N3 & V3 & S3 & L3). cbn [lbind].
      rewrite (PO _ eq_refl F1). cbn [lbind]. apply STEP; auto.
    + destruct W1 as (R1 & R2 & R3 & R4). rewrite <- src_first with (r := r) in R4.
      assert (CH : ch (getCh s) = 92) by (unfold ch; now rewrite G1).
      rewrite CH, LA. cbn [Z.eqb Pos.eqb orb]. change (c_iscntrl 92) with false. cbn [negb].
      assert (G2 : cur (getCh (getCh s)) = d ++ src_items its ++ 34 :: r) by (unfold getCh at 1; cbn [cur]; rewrite G1; reflexivity).
      destruct d as [|a d]; [cbn in R1; lia|].
      assert (CH2 : ch (getCh (getCh s)) = a) by (unfold ch; now rewrite G2).
      assert (A : In a octals) by now inversion R2.
      rewrite CH2. destruct (oct_ok a A) as (A1 & _). rewrite A1.
      destruct (Z.eqb_spec a 120) as [->|]; [discriminate|].
      destruct (getOctStr_ok _ _ _ G2 R1 R2 R4 R3) as (s3 & -> & T3 & N3 & V3 & S3 & L3). cbn [lbind].
      rewrite (PO _ eq_refl F1). cbn [lbind]. apply STEP; auto.
Qed.

Lemma oct3_value v : 0 <= v <= 255 -> forall a b c, oct3 v = [92; a; b; c] -> In a octals /\ number 8 dec_of [a; b; c] = v.
Proof.
  intros V a b c E.
  assert (T : allb (fun v => match oct3 v with [_; a; b; c] => inb a octals && (number 8 dec_of [a; b; c] =? v) | _ => false end) = true)
    by (vm_compute; reflexivity).
  pose proof (allb_ok _ T v V) as X. cbv beta in X. rewrite E in X. rewrite andb_true_iff, inb_In, Z.eqb_eq in X. exact X.
Qed.
Lemma spelled_ok esc its : items_wf its -> spelled esc (flat_map spell_item its) = map (item_byte esc) its.
Proof.
  induction its as [|i its IH]; intros W; [reflexivity|]. cbn [items_wf] in W. destruct W as (W1 & W2).
  specialize (IH W2). cbn [flat_map map].
  assert (NUM : forall v, 0 <= v <= 255 -> spelled esc (oct3 v ++ flat_map spell_item its) = v :: map (item_byte esc) its).
  { intros v V. unfold oct3. destruct (oct3_value v V _ _ _ eq_refl) as (A & B).
    cbn [app]. cbn [spelled]. destruct (in_dec Z.eq_dec _ octals) as [_|X]; [|contradiction]. rewrite B, IH. reflexivity. }
  destruct i as [c|c|d|d]; cbn [item_wf spell_item item_byte] in *.
  - destruct W1 as (R1 & R2 & R3 & R4). cbn [app].
    assert (G : forall l, spelled esc (c :: l) = c :: spelled esc l).
    { intros l. cbn [spelled]. destruct c as [|p|p]; try reflexivity.
      do 7 (destruct p as [p|p|]; try reflexivity). congruence. }
    rewrite G, IH. reflexivity.
  - destruct W1 as (R1 & R2 & R3). cbn [app spelled]. destruct (in_dec Z.eq_dec c octals); [contradiction|]. now rewrite IH.
  - destruct W1 as (R1 & R2 & R3 & R4). apply NUM. split; [|exact R3].
    apply number_nonneg; [lia|]. intros y I. rewrite Forall_forall in R2. apply hex_ok, R2, I.
  - destruct W1 as (R1 & R2 & R3 & R4). apply NUM. split; [|exact R3].
    apply number_nonneg; [lia|]. intros y I. rewrite Forall_forall in R2. apply oct_ok, R2, I.
Qed.

Lemma src_items_len its : items_wf its -> (List.length its <= List.length (src_items its))%nat.
Proof.
  induction its as [|i its IH]; intros W; [cbn; lia|]. destruct W as (W1 & W2). specialize (IH W2).
  cbn [src_items flat_map]. rewrite app_length. fold (src_items its). cbn [List.length].
  destruct i; cbn [src_item List.length app]; lia.
Qed.
Lemma start_dispatch s c : first (cur s) = c -> c <> 0 -> starts (cur s) -> lxGetTok s = dispatch (newln s).
Proof. intros F N S. apply lxGetTok_start; [exact S|congruence]. Qed.

Lemma string_ok s its r : cur s = 34 :: src_items its ++ 34 :: r -> items_wf its -> fits 0 its ->
  exists s', lxGetTok s = LOk (LxSTRING, s') /\ cur s' = r /\ str s' = flat_map spell_item its /\
    val s' = Z.of_nat (List.length its) + 1 /\ ln s' = ln2 s.
Proof.
  intros C W F.
  assert (F1 : first (cur s) = 34) by now rewrite C.
  rewrite (start_dispatch s 34 F1 ltac:(lia)).
  2:{ apply starts_char; rewrite F1; try lia. intros X. apply inb_In in X. discriminate. }
  assert (E : dispatch (newln s) = getStr (newln s)).
  { unfold dispatch. unfold ch. rewrite newln_cur. change hd0 with first. rewrite F1. reflexivity. }
  rewrite E. unfold getStr. rewrite newln_cur.
  destruct (getStrF_ok its r (S (List.length (cur s))) (newln s) [] 1 W F) as (s1 & -> & C1 & V1 & S1 & L1).
  - rewrite newln_cur, C. discriminate.
  - rewrite newln_cur, C. reflexivity.
  - rewrite C. cbn [List.length]. rewrite app_length. pose proof (src_items_len its W). cbn. lia.
  - cbn [lbind app]. 
    assert (LE : slen (flat_map spell_item its) <= 128).
    { clear - F. assert (G : forall its p, fits p its -> p + slen (flat_map spell_item its) <= 128).
      - induction its0 as [|i its0 IH]; intros p X; cbn [fits flat_map] in *; [unfold slen; cbn; lia|].
        destruct X as (_ & X). apply IH in X. rewrite slen_app, spell_len. lia.
      - apply (G its 0 F). }
    destruct (Z.ltb_spec StrMAX (slen (flat_map spell_item its))); [unfold StrMAX in *; lia|].
    eexists. split; [reflexivity|]. cbn [cur setVal setStr val str ln]. unfold getCh. cbn [cur ln]. rewrite C1. cbn [tl].
    repeat split; auto. lia.
Qed.

(* ---- character constants ---- *)
Lemma char_dispatch s r : cur s = 39 :: r -> lxGetTok s = getChar (newln s).
Proof.
  intros C. assert (F1 : first (cur s) = 39) by now rewrite C.
  rewrite (start_dispatch s 39 F1 ltac:(lia)).
  - unfold dispatch, ch. rewrite newln_cur. change hd0 with first. rewrite F1. reflexivity.
  - apply starts_char; rewrite F1; try lia. intros X. apply inb_In in X. discriminate.
Qed.
Lemma char_plain s c r : cur s = 39 :: c :: 39 :: r -> c <> 92 ->
  exists s', lxGetTok s = LOk (LxCHARACTER, s') /\ cur s' = r /\ val s' = c /\ ln s' = ln2 s.
Proof.
  intros C N. rewrite (char_dispatch s _ C). unfold getChar, getCh, ch, newln. cbn [cur ln2 ln val str]. rewrite C.
  cbn [tl hd0]. rewrite (proj2 (Z.eqb_neq c 92) N). cbn [lbind]. cbn [setVal cur tl hd0 Z.eqb Pos.eqb negb].
  eexists. split; [reflexivity|]. cbn. auto.
Qed.
Lemma char_esc s c r : cur s = 39 :: 92 :: c :: 39 :: r -> 32 <= c <= 126 -> c <> 120 -> c <> 88 -> ~ In c octals ->
  exists s', lxGetTok s = LOk (LxCHARACTER, s') /\ cur s' = r /\ val s' = char_escape c /\ ln s' = ln2 s.
Proof.
  intros C R N1 N2 NO. rewrite (char_dispatch s _ C). unfold getChar, getEsc, getCh, ch, newln. cbn [cur ln2 ln val str]. rewrite C.
  cbn [tl hd0 Z.eqb Pos.eqb cur ln2 ln val str]. apply (not_false _ _ (isOdigit_In _)) in NO.
  rewrite (proj2 (Z.eqb_neq c 120) N1), (proj2 (Z.eqb_neq c 88) N2), NO. cbn [orb].
  assert (P : c_isprint c = true) by (unfold c_isprint, btw; apply andb_true_iff; rewrite !Z.leb_le; lia). rewrite P.
  unfold char_escape. destruct (c =? 110); [|destruct (c =? 116); [|destruct (c =? 114)]]; cbn [lbind];
    cbn [setVal cur tl hd0 Z.eqb Pos.eqb negb]; (eexists; split; [reflexivity|]); cbn; auto.
Qed.
Lemma char_num s i r : cur s = 39 :: src_item i ++ 39 :: r -> item_wf i 39 ->
  match i with Hex _ | Oct _ => True | _ => False end ->
  exists s', lxGetTok s = LOk (LxCHARACTER, s') /\ cur s' = r /\ val s' = item_byte char_escape i /\ ln s' = ln2 s.
Proof.
  intros C W I. rewrite (char_dispatch s _ C). unfold getChar. cbv zeta. destruct i as [c|c|d|d]; try contradiction; cbn [src_item item_wf item_byte] in *.
  - destruct W as (R1 & R2 & R3 & R4).
    assert (G1 : cur (getCh (newln s)) = 92 :: 120 :: d ++ 39 :: r) by (unfold getCh; cbn [cur]; rewrite newln_cur, C; reflexivity).
    assert (CH1 : ch (getCh (newln s)) = 92) by (unfold ch; now rewrite G1). rewrite CH1. cbn [Z.eqb Pos.eqb].
    unfold getEsc. cbv zeta.
    assert (G2 : cur (getCh (getCh (newln s))) = 120 :: d ++ 39 :: r) by (unfold getCh at 1; cbn [cur]; rewrite G1; reflexivity).
    assert (CH2 : ch (getCh (getCh (newln s))) = 120) by (unfold ch; now rewrite G2). rewrite CH2. cbn [Z.eqb Pos.eqb orb].
    destruct (getHexStr_ok _ _ _ _ G2 R1 R2 R4 R3) as (s3 & -> & T3 & N3 & V3 & S3 & L3). cbn [lbind].
    unfold ch, getCh. cbn [cur setVal]. rewrite T3. cbn [hd0 Z.eqb Pos.eqb negb]. eexists. split; [reflexivity|].
    cbn [cur tl val ln]. rewrite L3. cbn. auto.
  - destruct W as (R1 & R2 & R3 & R4).
    assert (G1 : cur (getCh (newln s)) = 92 :: d ++ 39 :: r) by (unfold getCh; cbn [cur]; rewrite newln_cur, C; reflexivity).
    assert (CH1 : ch (getCh (newln s)) = 92) by (unfold ch; now rewrite G1). rewrite CH1. cbn [Z.eqb Pos.eqb].
    unfold getEsc. cbv zeta.
    assert (G2 : cur (getCh (getCh (newln s))) = d ++ 39 :: r) by (unfold getCh at 1; cbn [cur]; rewrite G1; reflexivity).
    destruct d as [|a d]; [cbn in R1; lia|].
    assert (CH2 : ch (getCh (getCh (newln s))) = a) by (unfold ch; now rewrite G2). rewrite CH2.
    assert (A : In a octals) by now inversion R2. destruct (oct_ok a A) as (A1 & _). rewrite A1.
    assert (NA : a <> 110 /\ a <> 116 /\ a <> 114 /\ a <> 120 /\ a <> 88) by (unfold isOdigit in A1; rewrite andb_true_iff, !Z.leb_le in A1; lia).
    destruct NA as (NA1 & NA2 & NA3 & NA4 & NA5).
    rewrite (proj2 (Z.eqb_neq _ _) NA1), (proj2 (Z.eqb_neq _ _) NA2), (proj2 (Z.eqb_neq _ _) NA3), (proj2 (Z.eqb_neq _ _) NA4), (proj2 (Z.eqb_neq _ _) NA5). cbn [orb].
    destruct (getOctStr_ok _ _ _ G2 R1 R2 R4 R3) as (s3 & -> & T3 & N3 & V3 & S3 & L3). cbn [lbind].
    unfold ch, getCh. cbn [cur setVal]. rewrite T3. cbn [hd0 Z.eqb Pos.eqb negb]. eexists. split; [reflexivity|].
    cbn [cur tl val ln]. rewrite L3. cbn. auto.
Qed.

(* ---- operators ---- *)
Lemma sign_dispatch s : sign_char (first (cur s)) ->
  (first (cur s) = 47 -> first (tl (cur s)) <> 42 /\ first (tl (cur s)) <> 47) -> lxGetTok s = getSign (newln s).
Proof.
  intros (R & NW & N1 & N2) N47. rewrite (start_dispatch s (first (cur s)) eq_refl ltac:(lia)).
  - unfold dispatch, ch. rewrite newln_cur. change hd0 with first.
    assert (A1 : c_isdigit (first (cur s)) = false).
    { apply (not_false _ _ (isdigit_In _)). intros X. apply NW. now right. }
    assert (A2 : c_isalpha (first (cur s)) || (first (cur s) =? 95) = false).
    { apply (not_false _ _ (isword1_In _)). intros X. apply NW. now left. }
    rewrite A1, A2, (proj2 (Z.eqb_neq _ _) N1), (proj2 (Z.eqb_neq _ _) N2).
    rewrite (proj2 (Z.eqb_neq _ (-1))), (proj2 (Z.eqb_neq _ 10)) by lia. reflexivity.
  - split; [|split; [intros; lia|exact N47]].
    intros X. unfold blanks in X. cbn in X. lia.
Qed.
Lemma operator_ok s t k r : In (t, k) operators -> cur s = t ++ r -> (t = text ".." -> first r <> 46) ->
  exists s', lxGetTok s = LOk (k, s') /\ cur s' = r /\ ln s' = ln2 s.
Proof.
  intros I C N. rewrite sign_dispatch.
  - unfold getSign, ch, nextch. rewrite newln_cur, C.
    unfold operators in I. cbn [In] in I.
    repeat (destruct I as [I|I]; [injection I as <- <-; try (eexists; split; [reflexivity|]; cbn; rewrite C; split; reflexivity)|]); [| |destruct I].
    + cbn -[getCh nextch Z.eqb]. unfold getCh. cbn [cur newln]. rewrite C. cbn -[Z.eqb]. change hd0 with first.
      rewrite (proj2 (Z.eqb_neq (first r) 46) (N eq_refl)). cbn. eexists. split; [reflexivity|]. auto.
    + cbn -[getCh nextch Z.eqb]. unfold getCh. cbn [cur newln]. rewrite C. cbn. eexists. split; [reflexivity|]. auto.
  - rewrite C. unfold operators in I. cbn [In] in I.
    repeat (destruct I as [I|I]; [injection I as <- <-; cbn [app text first]; split; [vm_compute; split; discriminate|split; [rewrite <- notDelim_word; vm_compute; discriminate|vm_compute; split; discriminate]]|]). destruct I.
  - intros X. exfalso. rewrite C in X. unfold operators in I. cbn [In] in I.
    repeat (destruct I as [I|I]; [injection I as <- <-; vm_compute in X; discriminate|]). destruct I.
Qed.
Lemma sign_ok s c r : sign_char c -> cur s = c :: r ->
  (forall t k, In (t, k) operators -> firstn 2 t <> [c; first r]) ->
  (c = 47 -> first r <> 42 /\ first r <> 47) ->
  exists s', lxGetTok s = LOk (c, s') /\ cur s' = r /\ ln s' = ln2 s.
Proof.
  intros SC C NO N47. rewrite sign_dispatch; [|now rewrite C|now rewrite C].
  unfold getSign, ch, nextch. rewrite newln_cur, C. cbn [hd0 tl]. change hd0 with first. cbv zeta.
  assert (P : forall a b k, In ([a; b], k) operators -> (c =? a) && (first r =? b) = false).
  { intros a b k I. apply not_true_iff_false. rewrite andb_true_iff, !Z.eqb_eq. intros (-> & <-). now apply (NO _ _ I). }
  rewrite (P 61 61 103), (P 124 124 101), (P 38 38 102), (P 33 61 104), (P 60 61 105), (P 62 61 106), (P 60 60 107),
    (P 62 62 108), (P 43 43 111), (P 45 45 112), (P 46 46 109) by (vm_compute; tauto).
  eexists. split; [reflexivity|]. unfold getCh. cbn [cur newln]. rewrite C. split; reflexivity.
Qed.
