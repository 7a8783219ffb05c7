(* C37: number formatting by printf and fprintf *)
From Coq Require Import String Ascii ZArith Bool List Lia.
From Verif Require Import LibMem LibString LibSpec LibStrProofs LibStd LibStdProofs LibPrintf
  Properties_Str Properties_Std LibPrintfSpec LibPrintfProofs.
Import ListNotations.
Open Scope Z_scope.

(* every number has exactly one numeral in each base *)
Theorem C37_numeral : forall b x, 2 <= b <= 16 -> 0 <= x < 65536 ->
  exists l, numeral b x l /\ forall l', numeral b x l' -> l' = l.
Proof.
  intros b x B X. destruct (number_ok unsigned_div b x B X) as (l & N & _); [apply div_good_unsigned; lia|].
  exists l. split; [exact N|]. intros l' N'. exact (numeral_unique b x l' l B N' N).
Qed.
Print Assumptions C37_numeral.
Example C37_numeral_ex : numeral 16 48879 (codes "beef") /\ numeral 10 0 (codes "0") /\ ~ numeral 10 7 (codes "07").
Proof.
  split; [|split].
  - split; [repeat (apply Forall_cons; [apply inb_In; vm_compute; reflexivity|]); apply Forall_nil|]. split; [reflexivity|]. split; [discriminate|]. discriminate.
  - split; [repeat constructor|]. split; [reflexivity|]. split; [discriminate|]. now intros r [= <-].
  - intros (_ & _ & _ & H). specialize (H _ eq_refl). discriminate.
Qed.

(* printf prints the text of the format's items, returns its length, and changes no memory *)
Theorem C37_printf : forall D m args f t pos',
  items_spec D m args 1 f t pos' -> Forall item_ok f ->
  str_at m (argv m args 0) (format_text f) ->
  returns (printf D m args) (Done (Ost t (i16 (len t)), m)).
Proof. intros D m args f t pos' S OK (_ & B). exact (print_ok D m args 0 f t pos' S OK B ltac:(lia)). Qed.
Print Assumptions C37_printf.
Theorem C37_fprintf : forall D m args f t pos',
  items_spec D m args 2 f t pos' -> Forall item_ok f ->
  str_at m (argv m args 1) (format_text f) ->
  returns (fprintf D m args) (Done (Ost t (i16 (len t)), m)).
Proof. intros D m args f t pos' S OK (_ & B). exact (print_ok D m args 1 f t pos' S OK B ltac:(lia)). Qed.
Print Assumptions C37_fprintf.

Definition outText (r : option (res (ost * mem))) : list Z :=
  match r with Some (Done (s, _)) => out s | _ => [] end.
(* "n=%-6d|%04x|%3s%%" with -42, 0xbeef, "ab" *)
Definition fmt1 : list item :=
  [Lit 110; Lit 61; Conv true (codes "6") Kd; Lit 124; Conv false (codes "04") Kx; Lit 124;
   Conv false (codes "3") Ks; Conv false [] Kpct].
Definition mp : mem :=
  put (put (put (fun _ => 0) 100 (codes "n=%-6d|%04x|%3s%%" ++ [0]))
           200 [0; 100; 255; 214; 190; 239; 1; 44]) 300 (codes "ab" ++ [0]).
Example C37_printf_ex :
  format_text fmt1 = codes "n=%-6d|%04x|%3s%%" /\ str_at mp (argv mp 200 0) (format_text fmt1) /\
  Forall item_ok fmt1 /\
  items_spec unsigned_div mp 200 1 fmt1 (codes "n=-42   |beef| ab%") 4 /\
  outText (printf unsigned_div mp 200 40%nat) = codes "n=-42   |beef| ab%".
Proof.
  split; [reflexivity|]. split.
  { split; [repeat constructor; unfold char_ok; cbn; lia|vm_compute; repeat split]. }
  split.
  { unfold fmt1. repeat (apply Forall_cons); try apply Forall_nil; cbn [item_ok]; try (split; [unfold char_ok; lia|lia]);
      (split; [repeat constructor; cbn; tauto|vm_compute; discriminate]). }
  split.
  { unfold fmt1. apply Slit, Slit.
    eapply (Sconv unsigned_div mp 200 1 true (codes "6") Kd _ (codes "-42   ")).
    { apply (Sd unsigned_div mp 200 1 true false 6 (codes "-42")); [now left|].
      exists (codes "42"). split; [|reflexivity].
      split; [repeat (apply Forall_cons; [apply inb_In; vm_compute; reflexivity|]); apply Forall_nil|]. split; [vm_compute; reflexivity|]. split; discriminate. }
    apply Slit.
    eapply (Sconv unsigned_div mp 200 2 false (codes "04") Kx _ (codes "beef")).
    { apply (Sx unsigned_div mp 200 2 false true 4 (codes "beef")); [now left|].
      split; [repeat (apply Forall_cons; [apply inb_In; vm_compute; reflexivity|]); apply Forall_nil|]. split; [vm_compute; reflexivity|]. split; discriminate. }
    apply Slit.
    eapply (Sconv unsigned_div mp 200 3 false (codes "3") Ks _ (codes " ab")).
    { apply (Ss unsigned_div mp 200 3 false false 3 (codes "ab")); [|vm_compute; discriminate].
      split; [repeat constructor; unfold char_ok; cbn; lia|vm_compute; repeat split]. }
    eapply (Sconv unsigned_div mp 200 4 false [] Kpct _ (codes "%")); [apply Spct|apply Snil]. }
  vm_compute. reflexivity.
Qed.

(* an unknown conversion letter stops the program with the documented code *)
Theorem C37_bad_conversion : forall D m args f t pos' (lf : bool) ws c rest,
  items_spec D m args 1 f t pos' -> Forall item_ok f ->
  Forall (fun c => In c digits) ws -> width_of ws <= 32767 ->
  ~ In c digits -> 0 <= c <= 255 -> c <> 45 -> c <> 108 -> ~ In c (codes "odxcs%") ->
  bytes_at m (argv m args 0)
    (format_text f ++ (codes "%" ++ (if lf then codes "-" else []) ++ ws ++ [c]) ++ rest) ->
  returns (printf D m args) (Exit EUFMT).
Proof.
  intros D m args f t pos' lf ws c rest S OK F W ND CR NM NL NK B.
  exact (bad_conv_ok D m args 0 f t pos' lf ws c rest S OK F W ND CR NM NL NK B ltac:(lia)).
Qed.
Print Assumptions C37_bad_conversion.
Definition mbad : mem := put (put (fun _ => 0) 100 (codes "a%5u" ++ [0])) 200 [0; 100; 0; 7].
Example C37_bad_conversion_ex :
  items_spec signed_div mbad 200 1 [Lit 97] (codes "a") 1 /\
  bytes_at mbad (argv mbad 200 0) (format_text [Lit 97] ++ (codes "%" ++ [] ++ codes "5" ++ [117]) ++ [0]) /\
  ~ In 117 (codes "odxcs%") /\ printf signed_div mbad 200 20%nat = Some (Exit EUFMT).
Proof.
  split; [apply Slit, Snil|]. split; [vm_compute; repeat split|]. split; [|vm_compute; reflexivity].
  cbn. intros H. repeat (destruct H as [H|H]; [discriminate H|]). exact H.
Qed.

(* %ld, right-justified, for numbers below 655360000; it overwrites the caller's number.
   Missing for the full claim: larger numbers and the '-' flag (refuted below). *)
Theorem C37_ld_partial : forall D m args f t pos' ws cs,
  D = signed_div \/ D = unsigned_div ->
  items_spec D m args 1 f t pos' -> Forall item_ok f ->
  Forall (fun c => In c digits) ws -> width_of ws <= 32767 ->
  Forall (fun c => char_ok c /\ c <> 37) cs ->
  let fmt := argv m args 0 in
  let arr := argv m args pos' in
  let text := format_text f ++ item_text (Conv false ws Kld) ++ cs ++ [0] in
  bytes_at m fmt text -> apart arr 4 fmt (len text) ->
  val32 m arr < 655360000 ->
  exists l m', numeral 10 (val32 m arr) l /\
    let out := t ++ field false (zero_flag ws) (width_of ws) l ++ cs in
    returns (printf D m args) (Done (Ost out (i16 (len out)), m')) /\
    val32 m' arr = val32 m arr / 100000000 /\
    (forall x, apart arr 4 x 1 -> ldb m' x = ldb m x).
Proof.
  intros D m args f t pos' ws cs HD S OK F W FC fmt arr text B AP V.
  exact (print_ld_ok D m args 0 f t pos' ws cs HD S OK F W FC B AP ltac:(lia) V).
Qed.
Print Assumptions C37_ld_partial.
Definition mld (w : string) (v : list Z) : mem :=
  put (put (put (fun _ => 0) 100 (codes w ++ [0])) 200 [0; 100; 1; 44]) 300 v.
(* 123456789 = 0x075bcd15 *)
Definition ld_ex_mem : mem := mld "%12ld!" [7; 91; 205; 21].
Example C37_ld_ex : val32 ld_ex_mem (argv ld_ex_mem 200 1) = 123456789 /\
  bytes_at ld_ex_mem (argv ld_ex_mem 200 0) (format_text [] ++ item_text (Conv false (codes "12") Kld) ++ codes "!" ++ [0]) /\
  apart (argv ld_ex_mem 200 1) 4 (argv ld_ex_mem 200 0) 7 /\
  outText (printf signed_div ld_ex_mem 200 30%nat) = codes "   123456789!".
Proof.
  split; [vm_compute; reflexivity|]. split; [vm_compute; repeat split|].
  split; [apply apart_small; vm_compute; intuition discriminate|vm_compute; reflexivity].
Qed.
(* 2^31 and the '-' flag *)
Theorem C37_ld_refuted :
  outText (printf signed_div (mld "%ld" [128; 0; 0; 0]) 200 30%nat) <> codes "2147483648" /\
  outText (printf signed_div (mld "%-12ld!" [0; 1; 0; 10]) 200 30%nat) = codes "6       5546!".
Proof. split; [vm_compute; discriminate|vm_compute; reflexivity]. Qed.
Print Assumptions C37_ld_refuted.

(* with a machine whose division is signed, %x of a negative int reads outside the
   digit table, and so does %d of -32768 *)
Definition mneg (w : string) (hi lo : Z) : mem :=
  put (put (fun _ => 0) 100 (codes w ++ [0])) 200 [0; 100; hi; lo].
Theorem C37_signed_division_refuted :
  printf signed_div (mneg "%x" 255 255) 200 30%nat = Some Undef /\
  printf signed_div (mneg "%d" 128 0) 200 30%nat = Some Undef /\
  outText (printf unsigned_div (mneg "%x" 255 255) 200 30%nat) = codes "ffff" /\
  outText (printf unsigned_div (mneg "%d" 128 0) 200 30%nat) = codes "-32768".
Proof. vm_compute. repeat split; reflexivity. Qed.
Print Assumptions C37_signed_division_refuted.
(* zero padding goes before the minus sign, so the text is not a numeral any more *)
Theorem C37_zero_pad_refuted : forall D, D = signed_div \/ D = unsigned_div ->
  outText (printf D (mneg "%05d" 255 214) 200 30%nat) = codes "00-42".
Proof. intros D [->| ->]; vm_compute; reflexivity. Qed.
Print Assumptions C37_zero_pad_refuted.
