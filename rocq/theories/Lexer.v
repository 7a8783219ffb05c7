(* Model of src/lexer.c and the character tests of src/util.c, function by function.
   Source bytes are 0..255, EOF is -1.  The pair (ch, nextch) and the unread rest
   of the file are one list: its head is ch, its second element nextch; beyond its
   end every character is EOF.  C's <ctype.h> is the C locale's.
   Outcomes: a result, exit(1) with a diagnostic, or undefined behaviour of the
   host program (store outside a buffer, overflow of a host int). *)
From Coq Require Import ZArith Bool List Lia String Ascii.
Import ListNotations.
Open Scope Z_scope.

Inductive lerr :=
| EComment | EHexForm | ESharpLine | ESharpName | ESharpQuote | ENameLong
| EHexEsc | EHexRange | EOctRange | EBadEsc | EStrLong | EStrEnd | ECharEnd.

(* undefined behaviour: store outside the buffer, overflow of an int.  NoFuel is not
   an outcome of the program: it never occurs (see C47 in Properties_Lex.v) *)
Inductive undef := UBuf | UOvf | NoFuel.
Inductive lres (A : Type) := LOk (a : A) | LErr (e : lerr) | LUndef (u : undef).
Arguments LOk {A} a. Arguments LErr {A} e. Arguments LUndef {A} u.
Definition lbind {A B} (x : lres A) (f : A -> lres B) : lres B :=
  match x with LOk a => f a | LErr e => LErr e | LUndef u => LUndef u end.
Notation "'let*' x ':=' c 'in' k" := (lbind c (fun x => k))
  (at level 200, x pattern, c at level 100, k at level 200).

(* util.h:41 *)
Definition StrMAX : Z := 128.
Definition HostMax : Z := 2147483647.

(* ---- <ctype.h>, C locale ---- *)
Definition btw (a c b : Z) : bool := (a <=? c) && (c <=? b).
Definition c_isspace (c : Z) : bool := btw 9 c 13 || (c =? 32).
Definition c_isdigit (c : Z) : bool := btw 48 c 57.
Definition c_isalpha (c : Z) : bool := btw 65 c 90 || btw 97 c 122.
Definition c_isalnum (c : Z) : bool := c_isalpha c || c_isdigit c.
Definition c_isxdigit (c : Z) : bool := c_isdigit c || btw 65 c 70 || btw 97 c 102.
Definition c_isprint (c : Z) : bool := btw 32 c 126.
Definition c_iscntrl (c : Z) : bool := btw 0 c 31 || (c =? 127).
Definition c_toupper (c : Z) : Z := if btw 97 c 122 then c - 32 else c.
(* util.c:95-97 *)
Definition isDelim (c : Z) : bool := negb (c_isalnum c) && negb (c =? 95).
(* util.c:100-102 *)
Definition isOdigit (c : Z) : bool := (48 <=? c) && (c <=? 55).

(* lexer.c:79-85: cur = ch, nextch, rest of the file; ln2; ln; val; str (up to its NUL) *)
Record lx := Lx { cur : list Z; ln2 : Z; ln : Z; val : Z; str : list Z }.
Definition hd0 (l : list Z) : Z := match l with c :: _ => c | [] => -1 end.
Definition ch (s : lx) : Z := hd0 (cur s).
Definition nextch (s : lx) : Z := hd0 (tl (cur s)).
(* lexer.c:79-82: before the first call ch = 0, nextch = '\n' *)
Definition lxInit (file : list Z) : lx := Lx (0 :: 10 :: file) 0 1 0 [].

(* lexer.c:88-96: a newline is counted when it becomes the current character *)
Definition bump (r : list Z) (n : Z) : Z := if hd0 r =? 10 then n + 1 else n.
Definition getCh (s : lx) : lx :=
  let r := tl (cur s) in Lx r (bump r (ln2 s)) (ln s) (val s) (str s).
(* continue with the characters l, line l2 *)
Definition at_ (s : lx) (l : list Z) (l2 : Z) : lx := Lx l l2 (ln s) (val s) (str s).
Definition setVal (s : lx) (v : Z) : lx := Lx (cur s) (ln2 s) (ln s) v (str s).
Definition setStr (s : lx) (t : list Z) : lx := Lx (cur s) (ln2 s) (ln s) (val s) t.

(* lexer.c:102-106, the loop; c = ch, r = nextch and the rest *)
Fixpoint skipComL (l : list Z) (n : Z) : lres (list Z * Z) :=
  match l with
  | [] => LErr EComment
  | c :: r =>
    if (c =? 42) && (hd0 r =? 47) then LOk (l, n)
    else if hd0 r =? -1 then LErr EComment
    else skipComL r (bump r n)
  end.
(* lexer.c:99-109 *)
Definition skipCom (s : lx) : lres lx :=
  let s := getCh (getCh s) in
  let* (l, n) := skipComL (cur s) (ln2 s) in
  LOk (getCh (getCh (at_ s l n))).

(* loops of the form while (p(ch)) getCh(); *)
Fixpoint skipL (p : Z -> bool) (l : list Z) (n : Z) : list Z * Z :=
  match l with
  | [] => ([], n)
  | c :: r => if p c then skipL p r (bump r n) else (l, n)
  end.
(* lexer.c:112-115 *)
Definition skipSpc (s : lx) : lx :=
  let '(l, n) := skipL (fun c => negb (c =? 10) && c_isspace c) (cur s) (ln2 s) in at_ s l n.
(* lexer.c:118-121 *)
Definition skipToEol (s : lx) : lx :=
  let '(l, n) := skipL (fun c => negb (c =? 10)) (cur s) (ln2 s) in at_ s l n.
(* lexer.c:124-126 *)
Definition skipCppCom (s : lx) : lx := skipToEol s.

(* lexer.c:129-140; fuel: one round per consumed character at most, see skipSpace_fuel *)
Fixpoint skipSpaceF (fuel : nat) (s : lx) : lres lx :=
  match fuel with
  | O => LUndef NoFuel
  | S f =>
    let s := skipSpc s in
    if (ch s =? 47) && (nextch s =? 42) then let* s := skipCom s in skipSpaceF f s
    else if (ch s =? 47) && (nextch s =? 47) then skipSpaceF f (skipCppCom s)
    else if (ch s =? 10) && negb (nextch s =? 35) then skipSpaceF f (getCh s)
    else LOk s
  end.
Definition skipSpace (s : lx) : lres lx := skipSpaceF (S (List.length (cur s))) s.

(* lexer.c:143-147 *)
Definition hex (c : Z) : Z := if c_isdigit c then c - 48 else c_toupper c - 65 + 10.

(* digits in base b: lexer.c:154-157, 164-167, 174-177; overflow of int is undefined *)
Fixpoint digitsL (p : Z -> bool) (b : Z) (dv : Z -> Z) (l : list Z) (n v : Z) : lres (Z * list Z * Z) :=
  match l with
  | c :: r =>
    if p c then
      let v' := v * b + dv c in
      if v' <=? HostMax then digitsL p b dv r (bump r n) v' else LUndef UOvf
    else LOk (v, l, n)
  | [] => LOk (v, l, n)
  end.
Definition getDigits (p : Z -> bool) (b : Z) (dv : Z -> Z) (s : lx) : lres (Z * lx) :=
  let* (v, l, n) := digitsL p b dv (cur s) (ln2 s) 0 in LOk (v, at_ s l n).
(* lexer.c:150-159 *)
Definition getHex (s : lx) : lres (Z * lx) :=
  if c_isxdigit (ch s) then getDigits c_isxdigit 16 hex s else LErr EHexForm.
(* lexer.c:162-169 *)
Definition getOct (s : lx) : lres (Z * lx) := getDigits isOdigit 8 (fun c => c - 48) s.
(* lexer.c:172-179 *)
Definition getDec (s : lx) : lres (Z * lx) := getDigits c_isdigit 10 (fun c => c - 48) s.

(* lexer.h:43-90 *)
Definition LxVOID := 1. Definition LxINT := 2. Definition LxCHAR := 3. Definition LxINTR := 4.
Definition LxSTRUCT := 5. Definition LxARRAY := 6. Definition LxIF := 7. Definition LxELSE := 8.
Definition LxWHILE := 9. Definition LxFOR := 10. Definition LxRETURN := 11. Definition LxBREAK := 12.
Definition LxCONTINUE := 13. Definition LxDO := 14. Definition LxNUL := 15. Definition LxBOOL := 16.
Definition LxTRUE := 17. Definition LxFALSE := 18. Definition LxSIZEOF := 19. Definition LxADDROF := 20.
Definition LxPUBLIC := 21. Definition LxORD := 22. Definition LxCHR := 23. Definition LxBOL := 24.
Definition LxTYPEDEF := 25. Definition LxRsvNUM := 25%nat.
Definition LxOR := 101. Definition LxAND := 102. Definition LxEQU := 103. Definition LxNEQ := 104.
Definition LxLTE := 105. Definition LxGTE := 106. Definition LxSHL := 107. Definition LxSHR := 108.
Definition LxDOTDOT := 109. Definition LxDOTDOTDOT := 110. Definition LxPP := 111. Definition LxMM := 112.
Definition LxLOGICAL := 200. Definition LxINTEGER := 201. Definition LxNAME := 202.
Definition LxSTRING := 203. Definition LxCHARACTER := 204. Definition LxFILE := 205.
Definition EOFtok := -1.

(* lexer.c:182-194 *)
Definition getDigit (s : lx) : lres (Z * lx) :=
  let* (v, s) :=
    (if (ch s =? 48) && ((nextch s =? 120) || (nextch s =? 88)) then getHex (getCh (getCh s))
     else if ch s =? 48 then getOct s
     else getDec s) in
  LOk (LxINTEGER, setVal s v).

(* characters stored one by one from position i on while p holds and i <= StrMAX:
   lexer.c:207-211, 222-225 *)
Fixpoint storeL (p : Z -> bool) (l : list Z) (n i : Z) (acc : list Z) : list Z * Z * Z * list Z :=
  match l with
  | c :: r => if p c && (i <=? StrMAX) then storeL p r (bump r n) (i + 1) (acc ++ [c]) else (l, n, i, acc)
  | [] => (l, n, i, acc)
  end.

(* lexer.c:197-217; str[i] = '\0' with i = 129 is outside the buffer *)
Definition getSharp (s : lx) : lres (Z * lx) :=
  let s := skipSpc (getCh (getCh s)) in
  if negb (c_isdigit (ch s)) then LErr ESharpLine else
  let* (v, s) := getDec s in
  let s := skipSpc (setVal s v) in
  if negb (ch s =? 34) then LErr ESharpName else
  let s := getCh s in
  let '(l, n, i, acc) := storeL (fun c => negb ((c =? 34) || (c =? 10))) (cur s) (ln2 s) 0 [] in
  if StrMAX <? i then LUndef UBuf else
  let s := setStr (at_ s l n) acc in
  if negb (ch s =? 34) then LErr ESharpQuote else
  let s := skipToEol s in
  LOk (LxFILE, Lx (cur s) v (ln s) (val s) (str s)).

Fixpoint codes (s : string) : list Z :=
  match s with
  | EmptyString => []
  | String a r => Z.of_N (N_of_ascii a) :: codes r
  end.
(* lexer.c:63-77 *)
Definition rsvWord : list (list Z * Z) :=
  [(codes "void", LxVOID); (codes "int", LxINT); (codes "char", LxCHAR); (codes "interrupt", LxINTR);
   (codes "array", LxARRAY); (codes "if", LxIF); (codes "else", LxELSE); (codes "while", LxWHILE);
   (codes "for", LxFOR); (codes "return", LxRETURN); (codes "break", LxBREAK);
   (codes "continue", LxCONTINUE); (codes "struct", LxSTRUCT); (codes "do", LxDO); (codes "null", LxNUL);
   (codes "boolean", LxBOOL); (codes "true", LxTRUE); (codes "false", LxFALSE); (codes "sizeof", LxSIZEOF);
   (codes "addrof", LxADDROF); (codes "public", LxPUBLIC); (codes "ord", LxORD); (codes "chr", LxCHR);
   (codes "bool", LxBOL); (codes "typedef", LxTYPEDEF)].
Fixpoint zeqb_list (a b : list Z) : bool :=
  match a, b with
  | [], [] => true
  | x :: a, y :: b => (x =? y) && zeqb_list a b
  | _, _ => false
  end.
(* lexer.c:230-234 *)
Fixpoint searchRsv (t : list (list Z * Z)) (w : list Z) : Z :=
  match t with
  | [] => LxNAME
  | (n, k) :: t => if zeqb_list w n then k else searchRsv t w
  end.
(* lexer.c:220-235 *)
Definition getWord (s : lx) : lres (Z * lx) :=
  let '(l, n, i, acc) := storeL (fun c => negb (isDelim c)) (cur s) (ln2 s) 0 [] in
  let s := at_ s l n in
  if negb (isDelim (ch s)) then LErr ENameLong else
  if StrMAX <? i then LUndef UBuf else
  LOk (searchRsv (firstn LxRsvNUM rsvWord) acc, setStr s acc).

(* lexer.c:242-246; l = nextch and the rest, c = ch *)
Fixpoint hexStrL (c : Z) (l : list Z) (n v : Z) : lres (Z * list Z * Z) :=
  match l with
  | d :: r =>
    if c_isxdigit d then
      let v := v * 16 + hex d in
      if 255 <? v then LErr EHexRange else hexStrL d r (bump l n) v
    else LOk (v, c :: l, n)
  | [] => LOk (v, c :: l, n)
  end.
(* lexer.c:239-248, entered with ch = 'x' *)
Definition getHexStr (s : lx) : lres (Z * lx) :=
  if negb (c_isxdigit (nextch s)) then LErr EHexEsc else
  let* (v, l, n) := hexStrL (ch s) (tl (cur s)) (ln2 s) 0 in
  LOk (v, at_ s l n).

(* lexer.c:251-263: at most three rounds; k = rounds left *)
Fixpoint octStrL (k : nat) (s : lx) (v : Z) : lres (Z * lx) :=
  let v := v * 8 + ch s - 48 in
  if 255 <? v then LErr EOctRange else
  if negb (isOdigit (nextch s)) then LOk (v, s) else
  match k with
  | O => LOk (v, s)
  | S k => octStrL k (getCh s) v
  end.
Definition getOctStr (s : lx) : lres (Z * lx) := octStrL 2 s 0.

(* lexer.c:265-288 *)
Definition getEsc (s : lx) : lres (Z * lx) :=
  let s := getCh s in
  if ch s =? 110 then LOk (10, getCh s)
  else if ch s =? 116 then LOk (9, getCh s)
  else if ch s =? 114 then LOk (13, getCh s)
  else if (ch s =? 120) || (ch s =? 88) then let* (n, s) := getHexStr s in LOk (n, getCh s)
  else if isOdigit (ch s) then let* (n, s) := getOctStr s in LOk (n, getCh s)
  else if c_isprint (ch s) then LOk (ch s, getCh s)
  else LErr EBadEsc.

(* lexer.c:291-298 *)
Definition putOctStr (v p : Z) (acc : list Z) : lres (list Z) :=
  if StrMAX <=? p + 4 then LErr EStrLong
  else LOk (acc ++ [92; Z.land v 448 / 64 + 48; Z.land v 56 / 8 + 48; Z.land v 7 + 48]).

Definition slen (l : list Z) : Z := Z.of_nat (List.length l).
(* lexer.c:304-327 and 328-333; acc = str[0..i-1].  fuel: see getStr_fuel *)
Fixpoint getStrF (fuel : nat) (s : lx) (acc : list Z) (cnt : Z) : lres (lx * list Z * Z) :=
  match fuel with
  | O => LUndef NoFuel
  | S f =>
    let i := slen acc in
    let s := getCh s in
    let leave := if negb (ch s =? 34) then LErr EStrEnd else LOk (s, acc, cnt) in
    if (ch s =? 34) || (ch s =? -1) || (StrMAX <? i) then leave
    else if c_iscntrl (ch s) then leave
    else if negb (ch s =? 92) then getStrF f s (acc ++ [ch s]) (cnt + 1)
    else
      let s := getCh s in
      if ch s =? 120 then
        let* (v, s) := getHexStr s in let* acc := putOctStr v i acc in getStrF f s acc (cnt + 1)
      else if isOdigit (ch s) then
        let* (v, s) := getOctStr s in let* acc := putOctStr v i acc in getStrF f s acc (cnt + 1)
      else if StrMAX <? i + 1 then LUndef UBuf
      else getStrF f s (acc ++ [92; ch s mod 256]) (cnt + 1)
  end.
Definition getStr (s : lx) : lres (Z * lx) :=
  let* (s, acc, cnt) := getStrF (S (List.length (cur s))) s [] 1 in
  let s := getCh s in
  if StrMAX <? slen acc then LUndef UBuf
  else LOk (LxSTRING, setVal (setStr s acc) cnt).

(* lexer.c:338-350 *)
Definition getChar (s : lx) : lres (Z * lx) :=
  let s := getCh s in
  let* (v, s) := (if ch s =? 92 then getEsc s else LOk (ch s, getCh s)) in
  let s := setVal s v in
  if negb (ch s =? 39) then LErr ECharEnd else
  LOk (LxCHARACTER, getCh s).

(* lexer.c:353-396 *)
Definition getSign (s : lx) : lres (Z * lx) :=
  let c := ch s in let d := nextch s in
  if (c =? 61) && (d =? 61) then LOk (LxEQU, getCh (getCh s))
  else if (c =? 124) && (d =? 124) then LOk (LxOR, getCh (getCh s))
  else if (c =? 38) && (d =? 38) then LOk (LxAND, getCh (getCh s))
  else if (c =? 33) && (d =? 61) then LOk (LxNEQ, getCh (getCh s))
  else if (c =? 60) && (d =? 61) then LOk (LxLTE, getCh (getCh s))
  else if (c =? 62) && (d =? 61) then LOk (LxGTE, getCh (getCh s))
  else if (c =? 60) && (d =? 60) then LOk (LxSHL, getCh (getCh s))
  else if (c =? 62) && (d =? 62) then LOk (LxSHR, getCh (getCh s))
  else if (c =? 43) && (d =? 43) then LOk (LxPP, getCh (getCh s))
  else if (c =? 45) && (d =? 45) then LOk (LxMM, getCh (getCh s))
  else if (c =? 46) && (d =? 46) then
    let s := getCh s in
    if nextch s =? 46 then LOk (LxDOTDOTDOT, getCh (getCh s)) else LOk (LxDOTDOT, getCh s)
  else LOk (c, getCh s).

(* lexer.c:401-425 *)
Definition lxGetTok (s : lx) : lres (Z * lx) :=
  let s := if ch s =? 0 then getCh s else s in
  let* s := skipSpace s in
  let s := Lx (cur s) (ln2 s) (ln2 s) (val s) (str s) in
  if ch s =? -1 then LOk (EOFtok, s)
  else if (ch s =? 10) && (nextch s =? 35) then getSharp s
  else if c_isdigit (ch s) then getDigit s
  else if c_isalpha (ch s) || (ch s =? 95) then
    let* (t, s) := getWord s in
    LOk (if t =? LxTRUE then (LxLOGICAL, setVal s 1)
         else if t =? LxFALSE then (LxLOGICAL, setVal s 0) else (t, s))
  else if ch s =? 34 then getStr s
  else if ch s =? 39 then getChar s
  else getSign s.

(* the tokens of a file, as the parser sees them: token, value, spelling, line *)
Definition item : Type := (Z * Z * list Z * Z)%type.
Fixpoint lexAllF (fuel : nat) (s : lx) : lres (list item) :=
  match fuel with
  | O => LUndef NoFuel
  | S f =>
    let* (t, s) := lxGetTok s in
    let it := (t, val s, str s, ln s) in
    if t =? EOFtok then LOk [it]
    else let* r := lexAllF f s in LOk (it :: r)
  end.
Definition lexAll (file : list Z) : lres (list item) := lexAllF (List.length file + 3) (lxInit file).
