(* C68: printf and fprintf of the C translator's library *)
From Coq Require Import String Ascii ZArith Bool List Lia.
From Verif Require Import LibMem LibSpec LibStrProofs LibStdProofs LibPrintfSpec LibPrintfProofs
  Properties_Str Properties_Std CPrintf CPrintfSpec CPrintfProofs.
Import ListNotations.
Open Scope Z_scope.

(* every 64-bit number has exactly one numeral in each base, so the texts of the
   specification exist and are unique *)
Theorem C68_numeral : forall b x, 2 <= b <= 16 -> 0 <= x < 18446744073709551616 ->
  exists l, numeral b x l /\ forall l', numeral b x l' -> l' = l.
Proof.
  intros b x B X. assert (E : exists l, numeral b x l).
  { destruct (putNumD_tx b B 64 x X) as (l & [(-> & _)|(_ & N)] & _); [|eauto]. exists [48]. apply numeral_zero. lia. }
  destruct E as (l & N). exists l. split; [exact N|]. intros l' N'. exact (numeral_unique b x l' l B N' N).
Qed.
Print Assumptions C68_numeral.
Lemma num_by (b x : Z) (l : list Z) :
  (forallb (fun c => existsb (Z.eqb c) (firstn (Z.to_nat b) hexdigits)) l
   && (radix_value b (fun c => pos_in c hexdigits) l =? x)
   && (match l with [] => false | c :: r => negb (c =? 48) || match r with [] => true | _ => false end end)) = true ->
  numeral b x l.
Proof.
  rewrite !andb_true_iff. intros ((F & V) & Z0). rewrite forallb_forall in F. apply Z.eqb_eq in V.
  split; [|split; [exact V|]].
  - apply Forall_forall. intros c I. specialize (F c I). apply existsb_exists in F. destruct F as (d & I' & E).
    apply Z.eqb_eq in E. now subst d.
  - destruct l as [|c r]; [discriminate|]. split; [discriminate|]. intros r' [= -> ->]. cbn in Z0.
    destruct r'; [reflexivity|discriminate].
Qed.
Example C68_numeral_ex : numeral 10 18446744073709551615 (codes "18446744073709551615") /\
  numeral 16 3735928559 (codes "deadbeef").
Proof. split; apply num_by; vm_compute; reflexivity. Qed.

(* printf writes the text of the format's items and takes just their arguments.
   Partial: %d of the least int, %x and %o of a negative number with a width above 1 and
   %-ld of a number of more than 8 digits are left out (refuted below) *)
Theorem C68_printf_partial : forall f va t va',
  text_of f va t va' -> Forall item_fits f ->
  exists n, printf (format_text f) va = COk t n va'.
Proof.
  intros f va t va' X OK. unfold printf.
  destruct (print_items f va t va' X OK (List.length (format_text f)) [] [] 0) as (d' & _ & E).
  { now rewrite app_nil_r. }
  rewrite app_nil_r in E. rewrite E. eexists. reflexivity.
Qed.
Print Assumptions C68_printf_partial.

(* "n=%-6d|%012x|%3s%%%25ld%c" *)
Definition cfmt1 : list item :=
  [Lit 110; Lit 61; Conv true (codes "6") Kd; Lit 124; Conv false (codes "012") Kx; Lit 124;
   Conv false (codes "3") Ks; Conv false [] Kpct; Conv false (codes "25") Kld; Conv false [] Kc].
Definition cva1 : list carg := [AInt (-42); AInt 48879; AStr (codes "ab"); ALong 23 (-2); AInt 33; AInt 7].
Definition ctext1 : list Z := codes "n=-42   |00000000beef| ab%             103079215102!".
Example C68_printf_ex :
  format_text cfmt1 = codes "n=%-6d|%012x|%3s%%%25ld%c" /\
  Forall item_fits cfmt1 /\ text_of cfmt1 cva1 ctext1 [AInt 7] /\
  printf (format_text cfmt1) cva1 = COk ctext1 0 [AInt 7].
Proof.
  split; [vm_compute; reflexivity|]. split.
  { unfold cfmt1. repeat (apply Forall_cons); try apply Forall_nil; cbn [item_fits]; try (split; [unfold char_ok; lia|lia]);
      (split; [repeat constructor; cbn; tauto|vm_compute; discriminate]). }
  split; [|vm_compute; reflexivity].
  unfold cfmt1, cva1. change ctext1 with
   (110 :: 61 :: codes "-42   " ++ 124 :: codes "00000000beef" ++ 124 :: codes " ab" ++ codes "%" ++
    codes "             103079215102" ++ codes "!" ++ []).
  apply Xlit, Xlit. eapply Xconv.
  { refine (Td true false 6 (-42) _ (codes "-42") _ _ _); [unfold is_int32; lia|lia|].
    exists (codes "42"). split; [apply num_by; vm_compute; reflexivity|reflexivity]. }
  apply Xlit. eapply Xconv.
  { refine (Tx false true 12 48879 _ (codes "beef") _ _ _); [unfold is_int32; lia|left; lia|apply num_by; vm_compute; reflexivity]. }
  apply Xlit. eapply Xconv.
  { refine (Ts false false 3 (codes "ab") _ _ _); [repeat constructor; unfold char_ok; cbn; lia|vm_compute; discriminate]. }
  eapply Xconv; [apply Tpct|]. eapply Xconv.
  { refine (Tld false false 25 23 (-2) _ (codes "103079215102") _ _); [now left|apply num_by; vm_compute; reflexivity]. }
  eapply Xconv; [exact (Tc false false 0 33 _)|]. apply Xnil.
Qed.

(* every list of arguments that fits the format has a text *)
Fixpoint fits (f : list item) (va : list carg) : Prop :=
  match f with
  | [] => True
  | Lit _ :: f => fits f va
  | Conv lf ws k :: f =>
    match k, va with
    | Kpct, _ => fits f va
    | Kd, AInt x :: va => is_int32 x /\ x <> -2147483648 /\ fits f va
    | Kx, AInt x :: va | Ko, AInt x :: va => is_int32 x /\ (0 <= x \/ width_of ws <= 1) /\ fits f va
    | Kc, AInt x :: va => is_int32 x /\ fits f va
    | Ks, AStr s :: va => Forall char_ok s /\ len s <= 2147483647 /\ fits f va
    | Kld, ALong hi lo :: va => (lf = false \/ val64 hi lo < 100000000) /\ fits f va
    | _, _ => False
    end
  end.
Theorem C68_defined_partial : forall f va, fits f va -> Forall item_fits f ->
  exists t n va', text_of f va t va' /\ printf (format_text f) va = COk t n va'.
Proof.
  intros f va F OK. assert (E : exists t va', text_of f va t va').
  { clear OK. revert va F. induction f as [|[c|lf ws k] f IH]; intros va F.
    - exists [], va. apply Xnil.
    - destruct (IH va F) as (t & va' & T). exists (c :: t), va'. now apply Xlit.
    - assert (N32 : forall b x, 2 <= b <= 16 -> exists l, numeral b (x mod two32) l).
      { intros b x B. pose proof (Z.mod_pos_bound x two32 ltac:(unfold two32; lia)).
        destruct (C68_numeral b (x mod two32) B) as (l & N & _); [unfold two32 in *; lia|eauto]. }
      assert (G : forall t1 va1, conv_text lf (zero_flag ws) (width_of ws) k va t1 va1 -> fits f va1 ->
                  exists t va', text_of (Conv lf ws k :: f) va t va').
      { intros t1 va1 C F1. destruct (IH va1 F1) as (t & va' & T). exists (t1 ++ t), va'. eapply Xconv; eauto. }
      cbn [fits] in F. destruct k.
      + destruct va as [|[x|s|hi lo] va]; try contradiction. destruct F as (X & NM & F).
        assert (AX : 0 <= Z.abs x < 18446744073709551616) by (unfold is_int32 in X; lia).
        destruct (C68_numeral 10 (Z.abs x) ltac:(lia) AX) as (l & N & _).
        eapply G; [|exact F]. eapply Td; [exact X|exact NM|]. exists l. split; [exact N|reflexivity].
      + destruct va as [|[x|s|hi lo] va]; try contradiction. destruct F as (X & NM & F).
        destruct (N32 16 x ltac:(lia)) as (l & N). eapply G; [|exact F]. eapply Tx; eauto.
      + destruct va as [|[x|s|hi lo] va]; try contradiction. destruct F as (X & NM & F).
        destruct (N32 8 x ltac:(lia)) as (l & N). eapply G; [|exact F]. eapply To; eauto.
      + destruct va as [|[x|s|hi lo] va]; try contradiction. destruct F as (X & F).
        eapply G; [|exact F]. apply Tc.
      + destruct va as [|[x|s|hi lo] va]; try contradiction. destruct F as (X & L & F).
        eapply G; [|exact F]. now apply Ts.
      + eapply G; [apply Tpct|exact F].
      + destruct va as [|[x|s|hi lo] va]; try contradiction. destruct F as (X & F).
        assert (V : 0 <= val64 hi lo < 18446744073709551616).
        { unfold val64, two32. pose proof (Z.mod_pos_bound hi 4294967296 ltac:(lia)).
          pose proof (Z.mod_pos_bound lo 4294967296 ltac:(lia)). lia. }
        destruct (C68_numeral 10 _ ltac:(lia) V) as (l & N & _). eapply G; [|exact F]. eapply Tld; [exact X|exact N]. }
  destruct E as (t & va' & T). destruct (C68_printf_partial f va t va' T OK) as (n & P). eauto.
Qed.
Print Assumptions C68_defined_partial.
Example C68_defined_ex : fits cfmt1 cva1.
Proof.
  cbn [fits cfmt1 cva1]. unfold is_int32. repeat split; try lia;
    first [now left|vm_compute; discriminate|repeat constructor; unfold char_ok; cbn; lia].
Qed.

(* what is returned is the number of characters of code 0 written, not the number of
   characters the manual promises *)
Theorem C68_counted : forall f va t va' n va'',
  text_of f va t va' -> Forall item_fits f -> printf (format_text f) va = COk t n va'' -> n = nuls t.
Proof.
  intros f va t va' n va'' X OK P. unfold printf in P.
  destruct (print_items f va t va' X OK (List.length (format_text f)) [] [] 0) as (d' & _ & E).
  { now rewrite app_nil_r. }
  rewrite app_nil_r in E. rewrite E in P. cbn [printD] in P. injection P as <- _. reflexivity.
Qed.
Print Assumptions C68_counted.
Theorem C68_count_refuted : exists f va t n va', text_of f va t va' /\ Forall item_fits f /\
  printf (format_text f) va = COk t n va' /\ n <> len t.
Proof.
  exists [Lit 104; Lit 105], [], (codes "hi"), 0, []. split; [apply Xlit, Xlit, Xnil|].
  split; [repeat constructor; unfold char_ok; lia|]. split; [vm_compute; reflexivity|vm_compute; discriminate].
Qed.
Print Assumptions C68_count_refuted.
Example C68_counted_ex : printf (codes "a%cb") [AInt 0] = COk [97; 0; 98] 1 [].
Proof. vm_compute. reflexivity. Qed.

(* an unknown letter, or a format that ends within a conversion, ends the program once
   the text of what came before has been written *)
Theorem C68_bad_conversion : forall f va t va' (lf : bool) ws tail,
  text_of f va t va' -> Forall item_fits f ->
  Forall (fun c => In c digits) ws -> width_of ws <= 2147483647 ->
  (tail = [] \/ exists c r, tail = c :: r /\ 1 <= c < 128 /\ ~ In c digits /\ ~ In c (codes "odxcs%-l")) ->
  printf (format_text f ++ codes "%" ++ (if lf then codes "-" else []) ++ ws ++ tail) va = CExit t.
Proof.
  intros f va t va' lf ws tail X OK F W T. unfold printf.
  destruct (print_items f va t va' X OK (List.length (format_text f ++ codes "%" ++ (if lf then codes "-" else []) ++ ws ++ tail))
    (codes "%" ++ (if lf then codes "-" else []) ++ ws ++ tail) [] 0 ltac:(lia)) as (d' & _ & E).
  rewrite E. cbn [app]. change (codes "%" ++ ?x) with (37 :: x). rewrite printD_conv.
  enough (C : exists s, convert ((if lf then codes "-" else []) ++ ws ++ tail) va' = (VExit, s))
    by (destruct C as (s & ->); reflexivity).
  destruct T as [->|(c & r & -> & C1 & ND & NK)].
  - (* as if the end were a character 0 *)
    assert (GW : forall ws, Forall (fun c => In c digits) ws -> forall w c s, 0 <= w -> c :: s = ws ->
       w * 10 ^ len ws + width_of ws <= 2147483647 -> exists w', getWidth w c s = Some (w', 0, [])).
    { clear. intros ws F. induction F as [|d ws ID F IH]; intros w c s W0 E B; [discriminate|].
      injection E as -> ->. destruct (digit_facts d ID) as (D1 & D2 & D3).
      pose proof (width_nonneg ws F) as WN.
      pose proof (Z.pow_pos_nonneg 10 (len ws) ltac:(lia) (len_nonneg ws)) as PP.
      assert (EQ : w * 10 ^ len (d :: ws) + width_of (d :: ws) = (w * 10 + dec_digit d) * 10 ^ len ws + width_of ws).
      { unfold width_of. cbn [radix_value]. rewrite len_cons, Z.pow_add_r by (pose proof (len_nonneg ws); lia).
        change (10 ^ 1) with 10. ring. }
      rewrite EQ in B.
      assert (I32 : int32 (w * 10 + (d - 48)) = true).
      { unfold int32. rewrite D2. destruct (Z.leb_spec (-2147483648) (w * 10 + dec_digit d)); [|lia].
        destruct (Z.leb_spec (w * 10 + dec_digit d) 2147483647); [reflexivity|nia]. }
      destruct ws as [|d' ws]; cbn [getWidth]; rewrite D1; cbv zeta; rewrite I32; cbn [negb]; [eauto|].
      apply IH; [lia|reflexivity|]. now rewrite D2. }
    rewrite app_nil_r. destruct ws as [|d ws].
    + exists []. destruct lf; vm_compute; reflexivity.
    + exists []. assert (ND : d <> 45) by (inversion F; subst; now apply not_minus).
      destruct (GW _ F 0 d ws ltac:(lia) eq_refl ltac:(lia)) as (w' & G).
      assert (TL : forall lf p, match getWidth 0 d ws with
         | None => (VUndef, [])
         | Some (w, c0, s0) => if c0 =? 108 then let '(c1, s1) := next s0 in (conv32 c1 w lf p va', s1)
           else (conv16 c0 w lf p va', s0) end = (VExit, [])).
      { intros. rewrite G. reflexivity. }
      destruct lf; unfold convert; cbn [app codes next].
      * change (Z.of_nat (nat_of_ascii "-")) with 45. cbn [Z.eqb Pos.eqb]. apply TL.
      * destruct (Z.eqb_spec d 45); [contradiction|]. apply TL.
  - assert (NI : isdigit c = Some false).
    { unfold isdigit. destruct (Z.leb_spec 128 c); [lia|]. f_equal.
      destruct (Z.leb_spec 48 c); [|reflexivity]. destruct (Z.leb_spec c 57); [|reflexivity]. exfalso. apply ND.
      apply inb_In. assert (Hc : exists k, (k < 10)%nat /\ c = 48 + Z.of_nat k) by (exists (Z.to_nat (c - 48)); lia).
      destruct Hc as (k & K & ->). do 10 (destruct k as [|k]; [reflexivity|]). lia. }
    assert (NN : forall d, In d (codes "odxcs%-l") -> (c =? d) = false).
    { intros d I. apply Z.eqb_neq. intros ->. contradiction. }
    assert (N45 : c <> 45) by (intros ->; apply NK; cbn; tauto).
    rewrite convert_at by assumption.
    exists r. rewrite (NN 108) by (cbn; tauto). f_equal. unfold conv16.
    rewrite (NN 111), (NN 100), (NN 120), (NN 99), (NN 115), (NN 37) by (cbn; tauto). reflexivity.
Qed.
Print Assumptions C68_bad_conversion.
Example C68_bad_conversion_ex : printf (codes "a=%d %5u") [AInt 7; AInt 8] = CExit (codes "a=7 ") /\
  printf (codes "100%") [] = CExit (codes "100").
Proof. split; vm_compute; reflexivity. Qed.

(* the cases left out above *)
Theorem C68_hex_width_refuted : exists x l, is_int32 x /\ numeral 16 (x mod two32) l /\
  printf (codes "%8x") [AInt x] <> COk (field false false 8 l) 0 [].
Proof.
  exists (-1), (codes "ffffffff"). split; [unfold is_int32; lia|]. split; [apply num_by; vm_compute; reflexivity|].
  vm_compute. discriminate.
Qed.
Print Assumptions C68_hex_width_refuted.
Example C68_hex_width_ex : printf (codes "%8x|") [AInt (-1)] = COk (codes "       ffffffff|") 0 [].
Proof. vm_compute. reflexivity. Qed.
Theorem C68_least_int_refuted : forall w : list Z, Forall (fun c => In c digits) w -> width_of w <= 2147483647 ->
  printf (codes "%" ++ w ++ codes "d") [AInt (-2147483648)] = CUndef.
Proof.
  intros w F W. unfold printf. change (codes "%" ++ w ++ codes "d") with (37 :: (w ++ [100])). rewrite printD_conv.
  pose proof (convert_at false w 100 [] [AInt (-2147483648)] F W eq_refl ltac:(lia)) as C. cbn [app] in C. rewrite C. reflexivity.
Qed.
Print Assumptions C68_least_int_refuted.
Theorem C68_ld_left_refuted : exists hi lo l, numeral 10 (val64 hi lo) l /\
  printf (codes "%-12ld|") [ALong hi lo] <> COk (field true false 12 l ++ codes "|") 0 [].
Proof.
  exists 0, 100000005, (codes "100000005"). split; [apply num_by; vm_compute; reflexivity|]. vm_compute. discriminate.
Qed.
Print Assumptions C68_ld_left_refuted.
Example C68_ld_left_ex : printf (codes "%-12ld|") [ALong 0 100000005] = COk (codes "1   5       |") 0 [].
Proof. vm_compute. reflexivity. Qed.
Theorem C68_zero_pad_refuted : printf (codes "%05d") [AInt (-42)] = COk (codes "00-42") 0 [].
Proof. vm_compute. reflexivity. Qed.
Print Assumptions C68_zero_pad_refuted.
