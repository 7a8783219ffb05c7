(* Specification side for the lexical properties (C01-C05, C46, C47): numerals,
   words, gaps, string literals as the language manual describes them. *)
From Coq Require Import ZArith Bool Lia String Ascii List.
Import ListNotations.
Open Scope Z_scope.

Fixpoint text (s : string) : list Z :=
  match s with EmptyString => [] | String a r => Z.of_nat (nat_of_ascii a) :: text r end.
(* a string given in single quotes for double quotes, to ease writing examples *)
Definition quoted (s : string) : list Z := map (fun c => if c =? 39 then 34 else c) (text s).

Definition first (l : list Z) : Z := match l with c :: _ => c | [] => -1 end.
Definition bytes (l : list Z) : Prop := Forall (fun c => 0 <= c <= 255) l.

(* numerals *)
Fixpoint place (c : Z) (l : list Z) : Z :=
  match l with [] => 0 | x :: r => if c =? x then 0 else 1 + place c r end.
Fixpoint number (b : Z) (dig : Z -> Z) (l : list Z) : Z :=
  match l with [] => 0 | c :: r => dig c * b ^ Z.of_nat (length r) + number b dig r end.
Definition decimals := text "0123456789".
Definition octals := text "01234567".
Definition hexadecimals := text "0123456789abcdefABCDEF".
Definition dec_of (c : Z) : Z := place c decimals.
Definition hex_of (c : Z) : Z :=
  if in_dec Z.eq_dec c (text "ABCDEF") then place c (text "0123456789ABCDEF")
  else place c (text "0123456789abcdef").

(* words *)
Definition letters := text "abcdefghijklmnopqrstuvwxyzABCDEFGHIJKLMNOPQRSTUVWXYZ_".
Definition word_char (c : Z) : Prop := In c letters \/ In c decimals.
Definition is_word (w : list Z) : Prop :=
  In (first w) letters /\ Forall word_char w.

(* white space and comments.  gap g r: the text g, followed by r, is white space and
   comments only.  A newline directly followed by # starts a directive, so it is no gap. *)
Definition blanks : list Z := [32; 9; 11; 12; 13].
Definition no_close (b : list Z) : Prop :=
  (* the first star-slash in b ++ star-slash is the one at the end *)
  forall p q, b ++ [42; 47] = p ++ [42; 47] ++ q -> q = [].
Inductive gap : list Z -> list Z -> Prop :=
| gap_nil r : gap [] r
| gap_blank c g r : In c blanks -> gap g r -> gap (c :: g) r
| gap_newline g r : first (g ++ r) <> 35 -> gap g r -> gap (10 :: g) r
| gap_block b g r : no_close b -> gap g r -> gap ([47; 42] ++ b ++ [42; 47] ++ g) r
| gap_line b g r : ~ In 10 b -> first (g ++ r) = 10 \/ g ++ r = [] -> gap g r ->
    gap ([47; 47] ++ b ++ g) r.

Definition newlines (l : list Z) : Z := Z.of_nat (count_occ Z.eq_dec l 10).

(* string literals: what may stand between the quotes *)
Inductive sitem :=
| Plain (c : Z)          (* a character *)
| Esc (c : Z)            (* backslash c *)
| Hex (d : list Z)       (* backslash x digits *)
| Oct (d : list Z).      (* backslash digits *)
Definition src_item (i : sitem) : list Z :=
  match i with
  | Plain c => [c] | Esc c => [92; c] | Hex d => [92; 120] ++ d | Oct d => [92] ++ d
  end.
Definition src_items (l : list sitem) : list Z := flat_map src_item l.
Definition item_wf (i : sitem) (next : Z) : Prop :=
  match i with
  | Plain c => 32 <= c <= 255 /\ c <> 127 /\ c <> 34 /\ c <> 92
  | Esc c => 0 <= c <= 255 /\ c <> 120 /\ ~ In c octals
  | Hex d => d <> [] /\ Forall (fun c => In c hexadecimals) d /\ number 16 hex_of d <= 255 /\
             ~ In next hexadecimals
  | Oct d => (1 <= length d <= 3)%nat /\ Forall (fun c => In c octals) d /\ number 8 dec_of d <= 255 /\
             (length d = 3%nat \/ ~ In next octals)
  end.
Fixpoint items_wf (l : list sitem) : Prop :=
  match l with
  | [] => True
  | i :: r => item_wf i (first (src_items r ++ [34])) /\ items_wf r
  end.
(* the byte an item denotes; esc gives the meaning of backslash c *)
Definition item_byte (esc : Z -> Z) (i : sitem) : Z :=
  match i with
  | Plain c => c | Esc c => esc c
  | Hex d => number 16 hex_of d | Oct d => number 8 dec_of d
  end.
(* reading a spelling handed to the assembler: backslash and three octal digits, or
   backslash and another character, or a plain character *)
Fixpoint spelled (esc : Z -> Z) (l : list Z) : list Z :=
  match l with
  | 92 :: a :: r =>
    if in_dec Z.eq_dec a octals then
      match r with
      | b :: c :: r => number 8 dec_of [a; b; c] :: spelled esc r
      | _ => []
      end
    else esc a :: spelled esc r
  | c :: r => c :: spelled esc r
  | [] => []
  end.
(* bytes of the emitted spelling *)
Definition spelling_size (i : sitem) : Z :=
  match i with Plain _ => 1 | Esc _ => 2 | Hex _ | Oct _ => 4 end.

(* the spelling buffer holds 128 characters; a numeric escape must end before its last one *)
Fixpoint fits (p : Z) (l : list sitem) : Prop :=
  match l with
  | [] => p <= 128
  | i :: r => match i with Hex _ | Oct _ => p + 4 <= 127 | _ => True end /\ fits (p + spelling_size i) r
  end.

(* operators of more than one character *)
Definition operators : list (list Z * Z) :=
  [(text "||", 101); (text "&&", 102); (text "==", 103); (text "!=", 104); (text "<=", 105);
   (text ">=", 106); (text "<<", 107); (text ">>", 108); (text "..", 109); (text "...", 110);
   (text "++", 111); (text "--", 112)].
(* reserved words *)
Definition reserved : list (list Z * Z) :=
  [(text "void", 1); (text "int", 2); (text "char", 3); (text "interrupt", 4); (text "struct", 5);
   (text "array", 6); (text "if", 7); (text "else", 8); (text "while", 9); (text "for", 10);
   (text "return", 11); (text "break", 12); (text "continue", 13); (text "do", 14); (text "null", 15);
   (text "boolean", 16); (text "sizeof", 19); (text "addrof", 20); (text "public", 21); (text "ord", 22);
   (text "chr", 23); (text "bool", 24); (text "typedef", 25)].
Definition literal_words : list (list Z * Z) := [(text "true", 1); (text "false", 0)].
(* meaning of a simple escape in a character constant *)
Definition char_escape (c : Z) : Z := if c =? 110 then 10 else if c =? 116 then 9 else if c =? 114 then 13 else c.

(* a token starts here: no white space, comment or plain newline *)
Definition starts (l : list Z) : Prop :=
  (* the first token begins right here *)
  ~ In (first l) blanks /\ (first l = 10 -> first (tl l) = 35) /\
  (first l = 47 -> first (tl l) <> 42 /\ first (tl l) <> 47).


(* a gap, possibly after a NUL byte, which is skipped where a token is expected *)
Definition gapz (g r : list Z) : Prop := gap g r \/ exists g', g = 0 :: g' /\ gap g' r.

(* where the tokens (code, value, spelling, line) of a text stand; code -1 is the end of
   the file, 205 a line directive.  n newlines precede the text *)
Inductive placed : Z -> list Z -> list (Z * Z * list Z * Z) -> Prop :=
| pl_eof n g v st l : gapz g [] -> l = n + newlines g -> placed n g [(-1, v, st, l)]
| pl_tok n g w rest k v st l its :
    gapz g (w ++ rest) -> starts (w ++ rest) -> w <> [] -> l = n + newlines g ->
    placed (n + newlines (g ++ w)) rest its -> placed n (g ++ w ++ rest) ((k, v, st, l) :: its)
| pl_file n g w rest v st l its :
    gapz g ([10; 35] ++ w ++ rest) -> newlines w = 0 -> first rest = 10 \/ rest = [] ->
    l = n + newlines g + 1 ->
    placed (if first rest =? 10 then v - 1 else v) rest its ->
    placed n (g ++ [10; 35] ++ w ++ rest) ((205, v, st, l) :: its).

(* tokens may be followed by nothing, white space, or a slash that they do not join *)
Definition sep (t r : list Z) : Prop :=
  r = [] \/ In (first r) (10 :: blanks) \/ (first r = 47 /\ t <> [47]).

(* a text in which the tokens ts stand one after the other, separated by gaps *)
Inductive layout : list (list Z) -> list Z -> Prop :=
| lay_end g : gap g [] -> layout [] g
| lay_tok g t ts rest : gap g (t ++ rest) -> sep t rest -> layout ts rest -> layout (t :: ts) (g ++ t ++ rest).

(* a character that is neither part of a word nor a quote *)
Definition sign_char (c : Z) : Prop :=
  33 <= c <= 126 /\ ~ word_char c /\ c <> 34 /\ c <> 39.
