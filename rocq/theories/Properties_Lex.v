(* C01-C05, C46-C49: the lexer. *)
From Coq Require Import ZArith Bool Lia String Ascii List.
From Verif Require Import Lexer LexSpec LexProofs LexGap LexTok LexTotal LexLocal LexLayout.
Import ListNotations.
Open Scope Z_scope.

(* The state of the lexer: cur is the unread text, ln2 the line reached, val and str the
   value and spelling of the last token, ln its line. *)
Definition at_text (t : list Z) : lx := Lx t 1 1 0 [].

(* ==== C01 ==== *)
Theorem C01_decimal : forall s w r,
  cur s = w ++ r -> w <> [] -> Forall (fun c => In c decimals) w -> first w <> 48 ->
  ~ In (first r) decimals -> number 10 dec_of w <= 2147483647 ->
  exists s', lxGetTok s = LOk (LxINTEGER, s') /\ val s' = number 10 dec_of w /\ cur s' = r /\
    ln s' = ln2 s /\ str s' = str s.
Proof. exact decimal_ok. Qed.
Theorem C01_octal : forall s w r,
  cur s = 48 :: w ++ r -> Forall (fun c => In c octals) w ->
  ~ In (first r) octals -> (w = [] -> first r <> 120 /\ first r <> 88) -> number 8 dec_of w <= 2147483647 ->
  exists s', lxGetTok s = LOk (LxINTEGER, s') /\ val s' = number 8 dec_of w /\ cur s' = r /\
    ln s' = ln2 s /\ str s' = str s.
Proof. exact octal_ok. Qed.
Theorem C01_hexadecimal : forall s x w r,
  cur s = 48 :: x :: w ++ r -> x = 120 \/ x = 88 -> w <> [] ->
  Forall (fun c => In c hexadecimals) w -> ~ In (first r) hexadecimals -> number 16 hex_of w <= 2147483647 ->
  exists s', lxGetTok s = LOk (LxINTEGER, s') /\ val s' = number 16 hex_of w /\ cur s' = r /\
    ln s' = ln2 s /\ str s' = str s.
Proof. exact hexa_ok. Qed.
Theorem C01_hexadecimal_without_digit : forall s x r,
  cur s = 48 :: x :: r -> x = 120 \/ x = 88 -> ~ In (first r) hexadecimals -> lxGetTok s = LErr EHexForm.
Proof. exact hexa_bad. Qed.
(* outside the property's range: the host's int overflows *)
Theorem C01_out_of_range : forall s w r,
  cur s = w ++ r -> Forall (fun c => In c decimals) w -> first w <> 48 ->
  2147483647 < number 10 dec_of w -> lxGetTok s = LUndef UOvf.
Proof. exact decimal_big. Qed.
Print Assumptions C01_decimal.
Print Assumptions C01_octal.
Print Assumptions C01_hexadecimal.
Print Assumptions C01_hexadecimal_without_digit.
Print Assumptions C01_out_of_range.

Ltac chars := repeat (constructor; [apply inb_In; vm_compute; reflexivity|]); constructor.
Ltac notchar := apply inb_nIn; vm_compute; reflexivity.
Example C01_decimal_inhabited : number 10 dec_of (text "40962") = 40962 /\
  exists s', lxGetTok (at_text (text "40962+1")) = LOk (LxINTEGER, s') /\ val s' = 40962 /\ cur s' = text "+1".
Proof.
  split; [vm_compute; reflexivity|].
  destruct (C01_decimal (at_text (text "40962+1")) (text "40962") (text "+1") eq_refl) as (s' & A & B & C & _);
    [discriminate|chars|vm_compute; discriminate|notchar|vm_compute; discriminate|].
  exists s'. rewrite B. split; [exact A|]. split; [vm_compute; reflexivity|exact C].
Qed.
Example C01_octal_inhabited : exists s', lxGetTok (at_text (text "01778")) = LOk (LxINTEGER, s') /\ val s' = 127 /\ cur s' = text "8".
Proof.
  destruct (C01_octal (at_text (text "01778")) (text "177") (text "8") eq_refl) as (s' & A & B & C & _);
    [chars|notchar|discriminate|vm_compute; discriminate|].
  exists s'. rewrite B. split; [exact A|]. split; [vm_compute; reflexivity|exact C].
Qed.
Example C01_hexadecimal_inhabited : exists s', lxGetTok (at_text (text "0XfFg")) = LOk (LxINTEGER, s') /\ val s' = 255 /\ cur s' = text "g".
Proof.
  destruct (C01_hexadecimal (at_text (text "0XfFg")) 88 (text "fF") (text "g") eq_refl) as (s' & A & B & C & _);
    [now right|discriminate|chars|notchar|vm_compute; discriminate|].
  exists s'. rewrite B. split; [exact A|]. split; [vm_compute; reflexivity|exact C].
Qed.
Example C01_without_digit_inhabited : lxGetTok (at_text (text "0xg")) = LErr EHexForm.
Proof. apply (C01_hexadecimal_without_digit _ 120 (text "g")); [reflexivity|now left|notchar]. Qed.
Example C01_out_of_range_inhabited : lxGetTok (at_text (text "2147483648")) = LUndef UOvf.
Proof. apply (C01_out_of_range _ (text "2147483648") []); [reflexivity|chars|vm_compute; discriminate|vm_compute; reflexivity]. Qed.

(* ==== C02 ==== *)
(* a gap before a token only moves the line counter *)
Theorem C02_gap_invisible : forall g r s,
  gap g r -> bytes g -> first r <> 0 -> cur s = g ++ r ->
  exists line, lxGetTok s = lxGetTok (Lx r line (ln s) (val s) (str s)) /\
    line = ln2 s - (if first (g ++ r) =? 10 then 1 else 0) + newlines g + (if first r =? 10 then 1 else 0).
Proof.
  intros g r s G B N C. exists (walk g r (ln2 s)). split; [exact (lxGetTok_gap g r s G B N C)|].
  pose proof (walk_base g r (ln2 s)). lia.
Qed.
Theorem C02_unterminated : forall s b, cur s = text "/*" ++ b -> (forall p q, b <> p ++ text "*/" ++ q) ->
  lxGetTok s = LErr EComment.
Proof.
  intros s b C N. rewrite lxGetTok_eq. unfold ch at 1. rewrite C. cbn [text app hd0 Z.eqb]. 
  change (Z.of_nat _ =? 0) with false. rewrite skipSpace_eq. rewrite skipSpc_stop.
  2:{ rewrite C. intros X. apply blank_In in X. discriminate. }
  cbv zeta. unfold ch, nextch. rewrite C. cbn [text app hd0 tl].
  change ((_ =? 47) && (_ =? 42)) with true. cbv iota. unfold skipCom, getCh. rewrite C. cbn [text app tl cur ln2].
  rewrite (skipComL_bad b); [reflexivity|]. exact N.
Qed.
(* the text of a token, read whole when nothing follows it, is read the same whatever
   white space or comment follows *)
Theorem C02_token_ends_at_gap : forall v st t k v' st' r s,
  alone v st t k v' st' -> sep t r -> cur s = t ++ r -> val s = v -> str s = st ->
  exists s', lxGetTok s = LOk (k, s') /\ cur s' = r /\ val s' = v' /\ str s' = st' /\ ln s' = ln2 s.
Proof. exact alone_local. Qed.
(* two ways to lay out the same tokens give the same token sequence *)
Theorem C02_layout : forall ts out file1 file2,
  chain 0 [] ts out ->
  layout ts file1 -> bytes file1 -> first file1 <> 35 ->
  layout ts file2 -> bytes file2 -> first file2 <> 35 ->
  exists items1 items2, lexAll file1 = LOk items1 /\ lexAll file2 = LOk items2 /\
    map strip items1 = out /\ map strip items2 = out.
Proof.
  intros ts out f1 f2 CH L1 B1 N1 L2 B2 N2.
  destruct (layout_file ts f1 out L1 B1 N1 CH) as (i1 & E1 & M1).
  destruct (layout_file ts f2 out L2 B2 N2 CH) as (i2 & E2 & M2). exists i1, i2. auto.
Qed.
Print Assumptions C02_gap_invisible.
Print Assumptions C02_unterminated.
Print Assumptions C02_token_ends_at_gap.
Print Assumptions C02_layout.

Ltac blank := apply gap_blank; [apply inb_In; vm_compute; reflexivity|].
Definition nl (s : string) : list Z := map (fun c => if c =? 36 then 10 else c) (text s).
(* in examples $ stands for a newline *)
Lemma no_close_check b : (forallb (fun p => negb (zeqb_list (firstn 2 (skipn p (b ++ [42; 47]))) [42; 47])) (seq 0 (List.length b))) = true -> no_close b.
Proof.
  intros F p q E. rewrite forallb_forall in F.
  destruct (Nat.lt_ge_cases (List.length p) (List.length b)) as [LT|GE].
  - exfalso. specialize (F (List.length p)). rewrite E in F. rewrite skipn_app, Nat.sub_diag, skipn_all in F. cbn [skipn app firstn] in F.
    specialize (F ltac:(apply in_seq; lia)). cbn in F. discriminate.
  - apply (f_equal (@List.length Z)) in E. rewrite !app_length in E. cbn in E. destruct q; [reflexivity|cbn in E; lia].
Qed.
Definition ex_gap := nl " /* a**/ // b$$".
Example ex_gap_ok : gap ex_gap (text "x").
Proof.
  unfold ex_gap. change (nl " /* a**/ // b$$") with (32 :: [47; 42] ++ text " a*" ++ [42; 47] ++ 32 :: [47; 47] ++ text " b" ++ [10; 10]).
  blank. apply gap_block; [apply no_close_check; vm_compute; reflexivity|]. blank.
  apply gap_line; [apply inb_nIn; vm_compute; reflexivity|now left|].
  apply gap_newline; [vm_compute; discriminate|]. apply gap_newline; [vm_compute; discriminate|]. constructor.
Qed.
Lemma bytes_check l : forallb (fun c => btw 0 c 255) l = true -> bytes l.
Proof.
  intros F. apply Forall_forall. intros c I. rewrite forallb_forall in F. specialize (F c I).
  unfold btw in F. rewrite andb_true_iff, !Z.leb_le in F. exact F.
Qed.
Example C02_gap_inhabited : exists line, lxGetTok (at_text (ex_gap ++ text "x")) = lxGetTok (Lx (text "x") line 1 0 []) /\ line = 3.
Proof.
  destruct (C02_gap_invisible ex_gap (text "x") (at_text (ex_gap ++ text "x")) ex_gap_ok
    (bytes_check ex_gap eq_refl) ltac:(vm_compute; discriminate) eq_refl) as (l & A & B).
  exists l. split; [exact A|]. rewrite B. vm_compute. reflexivity.
Qed.
Example C02_unterminated_inhabited : lxGetTok (at_text (text "/* x /")) = LErr EComment.
Proof.
  apply (C02_unterminated _ (text " x /")); [reflexivity|]. intros p q E.
  apply (f_equal (fun l => inb 42 l)) in E. vm_compute in E. symmetry in E. apply inb_nIn in E. apply E.
  apply in_or_app. right. now left.
Qed.
Definition ex_tokens := [text "x"; text "=="; text "/"].
Example ex_chain : chain 0 [] ex_tokens [(LxNAME, 0, text "x"); (LxEQU, 0, text "x"); (47, 0, text "x"); (EOFtok, 0, text "x")].
Proof.
  do 3 (eapply ch_cons; [split; [split; [apply inb_nIn; vm_compute; reflexivity|split; vm_compute; intuition discriminate]|];
    repeat (split; [vm_compute; discriminate|]);
    eexists; split; [vm_compute; reflexivity|vm_compute; repeat split]|]).
  constructor.
Qed.
Definition ex_file1 := text "x == / ".
Definition ex_file2 := nl "// c$x/**/==$/$".
Example C02_layout_inhabited : layout ex_tokens ex_file1 /\ layout ex_tokens ex_file2 /\
  exists items1 items2, lexAll ex_file1 = LOk items1 /\ lexAll ex_file2 = LOk items2 /\ map strip items1 = map strip items2.
Proof.
  assert (L1 : layout ex_tokens ex_file1).
  { apply (lay_tok [] (text "x") _ (text " == / ")); [constructor|right; left; apply inb_In; vm_compute; reflexivity|].
    apply (lay_tok (text " ") (text "==") _ (text " / ")); [blank; constructor|right; left; apply inb_In; vm_compute; reflexivity|].
    apply (lay_tok (text " ") (text "/") _ (text " ")); [blank; constructor|right; left; apply inb_In; vm_compute; reflexivity|].
    apply lay_end. blank. constructor. }
  assert (L2 : layout ex_tokens ex_file2).
  { apply (lay_tok (nl "// c$") (text "x") _ (nl "/**/==$/$")).
    - change (nl "// c$") with ([47; 47] ++ text " c" ++ [10]).
      apply gap_line; [apply inb_nIn; vm_compute; reflexivity|now left|]. apply gap_newline; [vm_compute; discriminate|constructor].
    - right. right. split; [reflexivity|vm_compute; discriminate].
    - apply (lay_tok (text "/**/") (text "==") _ (nl "$/$")).
      + change (text "/**/") with ([47; 42] ++ [] ++ [42; 47] ++ []). apply gap_block; [apply no_close_check; reflexivity|constructor].
      + right; left; apply inb_In; vm_compute; reflexivity.
      + apply (lay_tok (nl "$") (text "/") _ (nl "$")).
        * apply gap_newline; [vm_compute; discriminate|constructor].
        * right; left; apply inb_In; vm_compute; reflexivity.
        * apply lay_end. apply gap_newline; [vm_compute; discriminate|constructor]. }
  split; [exact L1|]. split; [exact L2|].
  destruct (C02_layout _ _ ex_file1 ex_file2 ex_chain L1 (bytes_check ex_file1 eq_refl) ltac:(vm_compute; discriminate)
    L2 (bytes_check ex_file2 eq_refl) ltac:(vm_compute; discriminate)) as (i1 & i2 & A & B & C & D).
  exists i1, i2. split; [exact A|]. split; [exact B|]. congruence.
Qed.

(* ==== C03 ==== *)
(* what the buffer (129 bytes, 128 characters and the terminator) does with a word *)
Theorem C03_word_lengths : forall s w r,
  cur s = w ++ r -> is_word w -> ~ word_char (first r) ->
  (Z.of_nat (List.length w) <= 128 -> exists k s', lxGetTok s = LOk (k, s')) /\
  (Z.of_nat (List.length w) = 129 -> lxGetTok s = LUndef UBuf) /\
  (129 < Z.of_nat (List.length w) -> lxGetTok s = LErr ENameLong).
Proof.
  intros s w r C (W1 & W2) N.
  assert (F : In (first (cur s)) letters).
  { rewrite C. destruct w; [|exact W1]. apply isword1_In in W1. discriminate. }
  rewrite (word_dispatch s F). split; [|split]; intros L.
  - rewrite (getWord_ok (newln s) w r C W2 N L). cbn [lbind]. destruct (_ =? _); [eauto|]. destruct (_ =? _); eauto.
  - rewrite (getWord_129 (newln s) w r C W2 N L). reflexivity.
  - rewrite (getWord_long (newln s) w r C W2 L). reflexivity.
Qed.
(* the property fails: a file holding a word of 129 characters *)
Theorem C03_refuted : exists file, bytes file /\ lexAll file = LUndef UBuf.
Proof.
  exists (repeat 97 129 ++ [10]). split; [apply bytes_check; vm_compute; reflexivity|]. vm_compute. reflexivity.
Qed.
(* and one holding a string of 129 characters *)
Theorem C03_string_refuted : exists file, bytes file /\ lexAll file = LUndef UBuf /\ ~ In 97 file.
Proof.
  exists (34 :: repeat 98 129 ++ [34; 10]). split; [apply bytes_check; vm_compute; reflexivity|].
  split; [vm_compute; reflexivity|apply inb_nIn; vm_compute; reflexivity].
Qed.
(* what holds: when every 64 characters in a row contain a newline and no backslash
   stands before a newline, the buffer is never overrun.
   Missing for the full property: longer lines. *)
Theorem C03_short_lines_partial : forall file,
  (forall a b c, file = a ++ b ++ c -> (64 <= List.length b)%nat -> In 10 b) ->
  (forall a b, file <> a ++ [92; 10] ++ b) ->
  lexAll file <> LUndef UBuf.
Proof.
  intros file H1 H2. apply lexAll_buf. split; [|exact H2]. intros a b ->.
  assert (R : forall b, exists p q, b = p ++ q /\ run b = Z.of_nat (List.length p) /\ ~ In 10 p).
  { clear. induction b as [|c b (p & q & E & L & N)]; [exists [], []; auto|]. cbn [run]. destruct (Z.eqb_spec c 10) as [->|NE].
    - exists [], (10 :: b). auto.
    - exists (c :: p), q. split; [now rewrite E|]. split; [cbn [List.length]; lia|]. intros [X|X]; auto. }
  destruct (R b) as (p & q & -> & L & N).
  destruct (Z.lt_ge_cases (run (p ++ q)) 64) as [|GE]; [assumption|]. exfalso. apply N.
  apply (H1 a p q eq_refl). lia.
Qed.
Print Assumptions C03_word_lengths.
Print Assumptions C03_refuted.
Print Assumptions C03_string_refuted.
Print Assumptions C03_short_lines_partial.

Lemma short_check file :
  forallb (fun i => inb 10 (firstn 64 (skipn i file))) (seq 0 (List.length file - 63)) = true ->
  forall a b c, file = a ++ b ++ c -> (64 <= List.length b)%nat -> In 10 b.
Proof.
  intros F a b c E L. rewrite forallb_forall in F. specialize (F (List.length a)). rewrite E in F.
  rewrite !app_length in F. specialize (F ltac:(apply in_seq; lia)). apply inb_In in F.
  rewrite skipn_app, skipn_all, Nat.sub_diag in F. cbn [skipn app] in F. rewrite firstn_app in F.
  replace (64 - List.length b)%nat with 0%nat in F by lia. cbn [firstn] in F. rewrite app_nil_r in F.
  rewrite <- (firstn_skipn 64 b). apply in_or_app. now left.
Qed.
Definition ex_short := nl "int main() {$  return 'a';$}$".
Example C03_short_inhabited : lexAll ex_short <> LUndef UBuf /\ exists items, lexAll ex_short = LOk items.
Proof.
  split.
  - apply C03_short_lines_partial; [apply short_check; vm_compute; reflexivity|]. intros a b E.
    apply (f_equal (fun l => inb 92 l)) in E. vm_compute in E. symmetry in E. apply inb_nIn in E. apply E.
    apply in_or_app. right. now left.
  - eexists. vm_compute. reflexivity.
Qed.
Example C03_word_inhabited : lxGetTok (at_text (repeat 97 129 ++ [32])) = LUndef UBuf.
Proof.
  apply (C03_word_lengths (at_text (repeat 97 129 ++ [32])) (repeat 97 129) [32]); [reflexivity| |rewrite <- notDelim_word; vm_compute; discriminate|vm_compute; reflexivity].
  split; [apply inb_In; vm_compute; reflexivity|]. apply Forall_forall. intros c I. apply repeat_spec in I. subst c.
  left. apply inb_In. vm_compute. reflexivity.
Qed.

(* ==== C04 ==== *)
Lemma word_tok s w r : cur s = w ++ r -> is_word w -> ~ word_char (first r) -> Z.of_nat (List.length w) <= 128 ->
  lxGetTok s = let t := searchRsv (firstn LxRsvNUM rsvWord) w in
    let s' := setStr (at_ (newln s) r (walk w r (ln2 s))) w in
    LOk (if t =? LxTRUE then (LxLOGICAL, setVal s' 1)
         else if t =? LxFALSE then (LxLOGICAL, setVal s' 0) else (t, s')).
Proof.
  intros C (W1 & W2) N L.
  assert (F : In (first (cur s)) letters).
  { rewrite C. destruct w; [|exact W1]. apply isword1_In in W1. discriminate. }
  rewrite (word_dispatch s F), (getWord_ok (newln s) w r C W2 N L). reflexivity.
Qed.
Theorem C04_reserved : forall s w k r,
  In (w, k) reserved -> cur s = w ++ r -> ~ word_char (first r) ->
  exists s', lxGetTok s = LOk (k, s') /\ cur s' = r /\ ln s' = ln2 s.
Proof.
  intros s w k r I C N.
  assert (T : forallb (fun p => inb (first (fst p)) letters && forallb (fun c => negb (isDelim c)) (fst p) &&
      (Z.of_nat (List.length (fst p)) <=? 128) && (searchRsv (firstn LxRsvNUM rsvWord) (fst p) =? snd p) &&
      negb (snd p =? LxTRUE) && negb (snd p =? LxFALSE)) reserved = true) by (vm_compute; reflexivity).
  rewrite forallb_forall in T. specialize (T _ I). cbn [fst snd] in T. rewrite !andb_true_iff in T.
  destruct T as (((((T1 & T2) & T3) & T4) & T5) & T6).
  rewrite (word_tok s w r C); [|split; [now apply inb_In|]|exact N|now apply Z.leb_le].
  - apply Z.eqb_eq in T4. rewrite T4. cbv zeta. apply negb_true_iff in T5, T6. rewrite T5, T6.
    eexists. split; [reflexivity|]. auto.
  - apply Forall_forall. intros c J. rewrite forallb_forall in T2. apply T2, negb_true_iff, notDelim_word in J. exact J.
Qed.
Theorem C04_literal : forall s w v r,
  In (w, v) literal_words -> cur s = w ++ r -> ~ word_char (first r) ->
  exists s', lxGetTok s = LOk (LxLOGICAL, s') /\ val s' = v /\ cur s' = r /\ ln s' = ln2 s.
Proof.
  intros s w v r I C N.
  assert (W : is_word w).
  { destruct I as [I|[I|[]]]; injection I as <- <-; (split; [apply inb_In; vm_compute; reflexivity|]);
      repeat (constructor; [left; apply inb_In; vm_compute; reflexivity|]); constructor. }
  rewrite (word_tok s w r C W N).
  - destruct I as [I|[I|[]]]; injection I as <- <-; (eexists; split; [reflexivity|]; auto).
  - destruct I as [I|[I|[]]]; injection I as <- <-; vm_compute; discriminate.
Qed.
Theorem C04_name : forall s w r,
  cur s = w ++ r -> is_word w -> ~ word_char (first r) -> Z.of_nat (List.length w) <= 128 ->
  ~ In w (map fst reserved) -> ~ In w (map fst literal_words) ->
  exists s', lxGetTok s = LOk (LxNAME, s') /\ str s' = w /\ cur s' = r /\ ln s' = ln2 s.
Proof.
  intros s w r C W N L N1 N2. rewrite (word_tok s w r C W N L).
  assert (E : searchRsv (firstn LxRsvNUM rsvWord) w = LxNAME).
  { assert (G : forall t, (forall x, In x (map fst t) -> In x (map fst reserved) \/ In x (map fst literal_words)) ->
      searchRsv t w = LxNAME).
    { induction t as [|[x k] t IH]; intros H; [reflexivity|]. cbn [searchRsv].
      destruct (zeqb_list w x) eqn:Q.
      - apply zeqb_list_eq in Q. subst x. destruct (H w (or_introl eq_refl)); contradiction.
      - apply IH. intros y Y. apply H. now right. }
    apply G. intros x X.
    assert (T : forallb (fun x => existsb (zeqb_list x) (map fst reserved ++ map fst literal_words)) (map fst (firstn LxRsvNUM rsvWord)) = true)
      by (vm_compute; reflexivity).
    rewrite forallb_forall in T. apply T, existsb_exists in X. destruct X as (y & Y & Q). apply zeqb_list_eq in Q. subst y.
    apply in_app_or in Y. exact Y. }
  rewrite E. cbv zeta. eexists. split; [reflexivity|]. auto.
Qed.
(* the three sets of codes are apart, so the token tells which case applied *)
Theorem C04_codes_apart : forall w k, In (w, k) reserved -> k <> LxNAME /\ k <> LxLOGICAL /\
  forall w', In (w', k) reserved -> w' = w.
Proof.
  intros w k I.
  assert (T : forallb (fun p => negb (snd p =? LxNAME) && negb (snd p =? LxLOGICAL) &&
    forallb (fun q => negb (snd q =? snd p) || zeqb_list (fst q) (fst p)) reserved) reserved = true) by (vm_compute; reflexivity).
  rewrite forallb_forall in T. specialize (T _ I). cbn [fst snd] in T. rewrite !andb_true_iff, !negb_true_iff, !Z.eqb_neq in T.
  destruct T as ((A & B) & D). split; [exact A|]. split; [exact B|]. intros w' I'.
  rewrite forallb_forall in D. specialize (D _ I'). cbn [fst snd] in D. rewrite Z.eqb_refl in D. cbn in D. now apply zeqb_list_eq.
Qed.
Print Assumptions C04_reserved.
Print Assumptions C04_literal.
Print Assumptions C04_name.
Print Assumptions C04_codes_apart.

Ltac nodelim := rewrite <- notDelim_word; vm_compute; discriminate.
Example C04_reserved_inhabited : exists s', lxGetTok (at_text (text "while(")) = LOk (LxWHILE, s') /\ cur s' = text "(".
Proof.
  destruct (C04_reserved (at_text (text "while(")) (text "while") 9 (text "(")) as (s' & A & B & _);
    [do 8 right; now left|reflexivity|nodelim|]. exists s'. auto.
Qed.
Example C04_name_inhabited : exists s', lxGetTok (at_text (text "while1;")) = LOk (LxNAME, s') /\ str s' = text "while1".
Proof.
  destruct (C04_name (at_text (text "while1;")) (text "while1") (text ";")) as (s' & A & B & _).
  - reflexivity.
  - split; [apply inb_In; vm_compute; reflexivity|]. repeat (constructor; [rewrite <- notDelim_word; vm_compute; reflexivity|]). constructor.
  - nodelim.
  - vm_compute. discriminate.
  - intros X. vm_compute in X. intuition discriminate.
  - intros X. vm_compute in X. intuition discriminate.
  - exists s'. auto.
Qed.
Example C04_literal_inhabited : exists s', lxGetTok (at_text (text "true)")) = LOk (LxLOGICAL, s') /\ val s' = 1.
Proof.
  destruct (C04_literal (at_text (text "true)")) (text "true") 1 (text ")")) as (s' & A & B & _);
    [now left|reflexivity|nodelim|]. exists s'. auto.
Qed.

(* ==== C05 ==== *)
(* esc is whatever the assembler takes backslash-c to mean *)
Theorem C05_string : forall s its r,
  cur s = [34] ++ src_items its ++ [34] ++ r -> items_wf its -> fits 0 its ->
  exists s', lxGetTok s = LOk (LxSTRING, s') /\ cur s' = r /\ ln s' = ln2 s /\
    (forall esc, spelled esc (str s') = map (item_byte esc) its) /\
    val s' = Z.of_nat (List.length its) + 1.
Proof.
  intros s its r C W F. destruct (string_ok s its r C W F) as (s' & A & B & D & E & G).
  exists s'. repeat split; auto. intros esc. rewrite D. now apply spelled_ok.
Qed.
Print Assumptions C05_string.
Definition ex_items := [Plain 97; Esc 110; Oct (text "12"); Plain 57; Hex (text "4a"); Plain 122].
(* the literal a\n\129\x4az *)
Example C05_string_inhabited : exists s',
  lxGetTok (at_text ([34] ++ src_items ex_items ++ [34] ++ text ";")) = LOk (LxSTRING, s') /\
  val s' = 7 /\ spelled (fun c => if c =? 110 then 10 else c) (str s') = [97; 10; 10; 57; 74; 122].
Proof.
  destruct (C05_string (at_text ([34] ++ src_items ex_items ++ [34] ++ text ";")) ex_items (text ";")) as (s' & A & B & _ & D & E).
  - reflexivity.
  - repeat split; try (vm_compute; discriminate); try lia; try (apply inb_nIn; vm_compute; reflexivity); try (cbn; lia);
      try (match goal with |- Forall _ _ => chars end).
  - cbn. lia.
  - exists s'. split; [exact A|]. split; [rewrite E; reflexivity|]. rewrite D. vm_compute. reflexivity.
Qed.

(* ==== C46: line numbers ==== *)
Theorem C46_lines : forall file items, bytes file -> lexAll file = LOk items -> placed 0 ([10] ++ file) items.
Proof. exact lexAll_placed. Qed.
Print Assumptions C46_lines.
Definition ex_lines := nl "a$/* $ */ b$# 7 'f'$c$".
Definition ex_lines' := map (fun c => if c =? 39 then 34 else c) ex_lines.
Example C46_inhabited : exists items, lexAll ex_lines' = LOk items /\ placed 0 ([10] ++ ex_lines') items /\
  map (fun i : item => let '(k, _, _, l) := i in (k, l)) items =
    [(LxNAME, 1); (LxNAME, 3); (LxFILE, 4); (LxNAME, 7); (EOFtok, 8)].
Proof.
  destruct (lexAll ex_lines') as [items| |] eqn:E.
  - exists items. split; [reflexivity|]. split; [apply C46_lines; [apply bytes_check; vm_compute; reflexivity|exact E]|].
    vm_compute in E. injection E as <-. vm_compute. reflexivity.
  - exfalso. vm_compute in E. discriminate.
  - exfalso. vm_compute in E. discriminate.
Qed.

(* ==== C47: the lexer always comes to an end ==== *)
(* The fuel of the model (the length of the text) is never used up: for every file the
   result is a token list, a diagnostic, or one of the two kinds of undefined behaviour. *)
Theorem C47_ends : forall file,
  (exists items, lexAll file = LOk items) \/ (exists e, lexAll file = LErr e) \/
  lexAll file = LUndef UBuf \/ lexAll file = LUndef UOvf.
Proof.
  intros file. pose proof (lexAll_nofuel file) as N.
  destruct (lexAll file) as [i|e|[]]; eauto. congruence.
Qed.
(* and every token but the last takes text off the input *)
Theorem C47_progress : forall s k s', lxGetTok s = LOk (k, s') ->
  k = EOFtok \/ exists t, t <> [] /\ cur s = t ++ cur s'.
Proof.
  intros s k s' H. destruct (tok_shorter s k s' H) as [->|L]; [now left|]. right.
  destruct (tok_suffix s k s' H) as (t & C). exists t. split; [|exact C]. intros ->. cbn in C. rewrite C in L. lia.
Qed.
Print Assumptions C47_ends.
Print Assumptions C47_progress.
Example C47_inhabited : exists s', lxGetTok (at_text (text "a b")) = LOk (LxNAME, s') /\ cur s' = text " b".
Proof. eexists. split; [vm_compute; reflexivity|reflexivity]. Qed.

(* ==== C48: character constants ==== *)
Theorem C48_plain : forall s c r, cur s = [39; c; 39] ++ r -> c <> 92 ->
  exists s', lxGetTok s = LOk (LxCHARACTER, s') /\ cur s' = r /\ val s' = c /\ ln s' = ln2 s.
Proof. exact char_plain. Qed.
Theorem C48_escape : forall s c r, cur s = [39; 92; c; 39] ++ r -> 32 <= c <= 126 -> c <> 120 -> c <> 88 -> ~ In c octals ->
  exists s', lxGetTok s = LOk (LxCHARACTER, s') /\ cur s' = r /\ val s' = char_escape c /\ ln s' = ln2 s.
Proof. exact char_esc. Qed.
Theorem C48_numeric : forall s i r, cur s = [39] ++ src_item i ++ [39] ++ r -> item_wf i 39 ->
  match i with Hex _ | Oct _ => True | _ => False end ->
  exists s', lxGetTok s = LOk (LxCHARACTER, s') /\ cur s' = r /\ val s' = item_byte char_escape i /\ ln s' = ln2 s.
Proof. exact char_num. Qed.
Print Assumptions C48_plain.
Print Assumptions C48_escape.
Print Assumptions C48_numeric.
Example C48_inhabited :
  (exists s', lxGetTok (at_text ([39; 65; 39] ++ text ";")) = LOk (LxCHARACTER, s') /\ val s' = 65) /\
  (exists s', lxGetTok (at_text ([39; 92; 110; 39] ++ text ";")) = LOk (LxCHARACTER, s') /\ val s' = 10) /\
  (exists s', lxGetTok (at_text ([39] ++ src_item (Oct (text "177")) ++ [39] ++ text ";")) = LOk (LxCHARACTER, s') /\ val s' = 127).
Proof.
  split; [|split].
  - destruct (C48_plain (at_text ([39; 65; 39] ++ text ";")) 65 (text ";") eq_refl ltac:(lia)) as (s' & A & _ & B & _). eauto.
  - destruct (C48_escape (at_text ([39; 92; 110; 39] ++ text ";")) 110 (text ";") eq_refl ltac:(lia) ltac:(lia) ltac:(lia) ltac:(notchar))
      as (s' & A & _ & B & _). exists s'. split; [exact A|]. rewrite B. reflexivity.
  - destruct (C48_numeric (at_text ([39] ++ src_item (Oct (text "177")) ++ [39] ++ text ";")) (Oct (text "177")) (text ";") eq_refl) as (s' & A & _ & B & _).
    + split; [cbn; lia|]. split; [chars|]. split; [vm_compute; discriminate|]. now left.
    + exact I.
    + exists s'. split; [exact A|]. rewrite B. vm_compute. reflexivity.
Qed.

(* ==== C49: operators, longest first ==== *)
Theorem C49_operator : forall s t k r,
  In (t, k) operators -> cur s = t ++ r -> (t = text ".." -> first r <> 46) ->
  exists s', lxGetTok s = LOk (k, s') /\ cur s' = r /\ ln s' = ln2 s.
Proof. exact operator_ok. Qed.
Theorem C49_single : forall s c r,
  sign_char c -> cur s = [c] ++ r ->
  (forall t k, In (t, k) operators -> firstn 2 t <> [c; first r]) ->
  (c = 47 -> first r <> 42 /\ first r <> 47) ->
  exists s', lxGetTok s = LOk (c, s') /\ cur s' = r /\ ln s' = ln2 s.
Proof. exact sign_ok. Qed.
(* a stray byte is taken for a reserved word: byte 9 + 2 is white space, but byte 2 is read as int *)
Theorem C49_stray_byte_refuted : exists file items,
  bytes file /\ (forall c, In c file -> ~ word_char c) /\ lexAll file = LOk items /\
  In LxINT (map (fun i : item => let '(k, _, _, _) := i in k) items).
Proof.
  exists [2], [(LxINT, 0, [], 1); (EOFtok, 0, [], 1)]. split; [apply bytes_check; reflexivity|].
  split; [intros c [<-|[]]; nodelim|]. split; [vm_compute; reflexivity|]. now left.
Qed.
Print Assumptions C49_operator.
Print Assumptions C49_single.
Print Assumptions C49_stray_byte_refuted.
Example C49_inhabited :
  (exists s', lxGetTok (at_text (text "<<=")) = LOk (LxSHL, s') /\ cur s' = text "=") /\
  (exists s', lxGetTok (at_text (text "<x")) = LOk (60, s') /\ cur s' = text "x").
Proof.
  split.
  - destruct (C49_operator (at_text (text "<<=")) (text "<<") 107 (text "=")) as (s' & A & B & _);
      [do 6 right; now left|reflexivity|intros X; vm_compute in X; discriminate|]. eauto.
  - destruct (C49_single (at_text (text "<x")) 60 (text "x")) as (s' & A & B & _); [|reflexivity| |lia|eauto].
    + unfold sign_char. split; [lia|]. split; [nodelim|lia].
    + intros t k I. unfold operators in I. cbn [In] in I.
      repeat (destruct I as [I|I]; [injection I as <- <-; vm_compute; discriminate|]). destruct I.
Qed.
