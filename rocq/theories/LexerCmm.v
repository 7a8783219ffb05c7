(* Model of src--/lexer.cmm, the lexer of the compiler written in C-- itself, and of the
   character tests of src--/util.cmm.  A char of C-- is a byte, 0..255, so the end of the
   file is the byte 255 (lexer.cmm:59) and a byte 255 in the file is refused when it is
   read.  Unlike in Lexer.v, ch, nextch and the unread bytes are separate, and every loop
   is a loop: whileM with fuel.  The tests isSpace, isPrint, ... are those of
   lib/SrcCmm/ctype.cmm (LibString.v).  int is that of the build with cm2c (32 bits);
   overflow is undefined there.  A store past the end of str is an outcome of its own. *)
From Coq Require Import ZArith Bool List Lia.
From Verif Require Import Lexer.
From Verif Require LibString.
Import ListNotations.
Open Scope Z_scope.

(* a result; exit(1) with a message of lexer.c too; exit(1) with "not UTF-8"; undefined *)
Inductive mres (A : Type) := MOk (a : A) | MErr (e : lerr) | MNotUtf8 | MUndef (u : undef).
Arguments MOk {A} a. Arguments MErr {A} e. Arguments MNotUtf8 {A}. Arguments MUndef {A} u.
Definition mbind {A B} (x : mres A) (f : A -> mres B) : mres B :=
  match x with MOk a => f a | MErr e => MErr e | MNotUtf8 => MNotUtf8 | MUndef u => MUndef u end.
Notation "'do*' x ':=' c 'in' k" := (mbind c (fun x => k))
  (at level 200, x pattern, c at level 100, k at level 200).

(* while (p) b *)
Fixpoint whileM {A} (fuel : nat) (p : A -> bool) (b : A -> mres A) (a : A) : mres A :=
  match fuel with
  | O => MUndef NoFuel
  | S f => if p a then do* a := b a in whileM f p b a else MOk a
  end.

(* lexer.cmm:59 *)
Definition mEOF : Z := 255.
(* lexer.hmm:91 *)
Definition LxEOF : Z := 255.

(* lexer.cmm:83-89 *)
Record cx := Cx { cch : Z; cnx : Z; rest : list Z; cl2 : Z; cln : Z; cval : Z; cstr : list Z }.
Definition cxInit (file : list Z) : cx := Cx 0 10 file 0 1 0 [].
Definition cSetVal (m : cx) (v : Z) : cx := Cx (cch m) (cnx m) (rest m) (cl2 m) (cln m) v (cstr m).
Definition cSetStr (m : cx) (t : list Z) : cx := Cx (cch m) (cnx m) (rest m) (cl2 m) (cln m) (cval m) t.

(* lexer.cmm:92-105; feof is true exactly when nothing is left *)
Definition cGetCh (m : cx) : mres cx :=
  let c := cnx m in
  do* (n, r) := match rest m with
                | [] => MOk (mEOF, [])
                | b :: r => if b =? mEOF then MNotUtf8 else MOk (b, r)
                end in
  MOk (Cx c n r (if c =? 10 then cl2 m + 1 else cl2 m) (cln m) (cval m) (cstr m)).

(* rounds any loop can make: one per character at most *)
Definition fuelOf (m : cx) : nat := S (S (S (List.length (rest m)))).

(* util.cmm:106-108, 111-113 *)
Definition mIsDelim (c : Z) : bool := negb (LibString.isAlnum c) && negb (c =? 95).
Definition mIsOdigit (c : Z) : bool := (48 <=? c) && (c <=? 55).

(* lexer.cmm:108-117 *)
Definition cSkipCom (m : cx) : mres cx :=
  do* m := cGetCh m in
  do* m := cGetCh m in
  do* m := whileM (fuelOf m) (fun m => negb (cch m =? 42) || negb (cnx m =? 47))
             (fun m => if cnx m =? mEOF then MErr EComment else cGetCh m) m in
  do* m := cGetCh m in
  cGetCh m.
(* lexer.cmm:120-123 *)
Definition cSkipSpc (m : cx) : mres cx :=
  whileM (fuelOf m) (fun m => negb (cch m =? 10) && LibString.isSpace (cch m)) cGetCh m.
(* lexer.cmm:126-129 *)
Definition cSkipToEol (m : cx) : mres cx :=
  whileM (fuelOf m) (fun m => negb (cch m =? 10) && negb (cch m =? mEOF)) cGetCh m.
(* lexer.cmm:132-134 *)
Definition cSkipCppCom (m : cx) : mres cx := cSkipToEol m.
(* lexer.cmm:137-148 *)
Fixpoint cSkipSpaceF (fuel : nat) (m : cx) : mres cx :=
  match fuel with
  | O => MUndef NoFuel
  | S f =>
    do* m := cSkipSpc m in
    if (cch m =? 47) && (cnx m =? 42) then do* m := cSkipCom m in cSkipSpaceF f m
    else if (cch m =? 47) && (cnx m =? 47) then do* m := cSkipCppCom m in cSkipSpaceF f m
    else if (cch m =? 10) && negb (cnx m =? 35) then do* m := cGetCh m in cSkipSpaceF f m
    else MOk m
  end.
Definition cSkipSpace (m : cx) : mres cx := cSkipSpaceF (fuelOf m) m.

(* lexer.cmm:151-155 *)
Definition mHex (c : Z) : Z := if LibString.isDigit c then c - 48 else LibString.toUpper c - 65 + 10.

(* the loops of lexer.cmm:162-165, 172-175, 182-185 *)
Definition cDigits (p : Z -> bool) (b : Z) (dv : Z -> Z) (m : cx) : mres (cx * Z) :=
  whileM (fuelOf m) (fun a => p (cch (fst a)))
    (fun a => let v := snd a * b + dv (cch (fst a)) in
              if v <=? HostMax then do* m := cGetCh (fst a) in MOk (m, v) else MUndef UOvf)
    (m, 0).
(* lexer.cmm:158-167 *)
Definition cGetHex (m : cx) : mres (cx * Z) :=
  if LibString.isXdigit (cch m) then cDigits LibString.isXdigit 16 mHex m else MErr EHexForm.
(* lexer.cmm:170-177 *)
Definition cGetOct (m : cx) : mres (cx * Z) := cDigits mIsOdigit 8 (fun c => c - 48) m.
(* lexer.cmm:180-187 *)
Definition cGetDec (m : cx) : mres (cx * Z) := cDigits LibString.isDigit 10 (fun c => c - 48) m.
(* lexer.cmm:190-202 *)
Definition cGetDigit (m : cx) : mres (Z * cx) :=
  do* (m, v) :=
    (if (cch m =? 48) && ((cnx m =? 120) || (cnx m =? 88)) then
       do* m := cGetCh m in do* m := cGetCh m in cGetHex m
     else if cch m =? 48 then cGetOct m
     else cGetDec m) in
  MOk (LxINTEGER, cSetVal m v).

(* str[i] = ch; i = i + 1; getCh(): lexer.cmm:215-219, 230-233.  The stored bytes are the
   list, i its length *)
Definition cStore (p : Z -> bool) (m : cx) : mres (cx * list Z) :=
  whileM (fuelOf m) (fun a => p (cch (fst a)) && (slen (snd a) <=? StrMAX))
    (fun a => do* m := cGetCh (fst a) in MOk (m, snd a ++ [cch (fst a)])) (m, []).

(* lexer.cmm:205-225 *)
Definition cGetSharp (m : cx) : mres (Z * cx) :=
  do* m := cGetCh m in
  do* m := cGetCh m in
  do* m := cSkipSpc m in
  if negb (LibString.isDigit (cch m)) then MErr ESharpLine else
  do* (m, v) := cGetDec m in
  do* m := cSkipSpc (cSetVal m v) in
  if negb (cch m =? 34) then MErr ESharpName else
  do* m := cGetCh m in
  do* (m, acc) := cStore (fun c => negb ((c =? 34) || (c =? 10) || (c =? mEOF))) m in
  if StrMAX <? slen acc then MUndef UBuf else
  let m := cSetStr m acc in
  if negb (cch m =? 34) then MErr ESharpQuote else
  do* m := cSkipToEol m in
  MOk (LxFILE, Cx (cch m) (cnx m) (rest m) (cval m) (cln m) (cval m) (cstr m)).

(* lexer.cmm:67-81, 228-243: the table of reserved words is that of lexer.c *)
Definition cGetWord (m : cx) : mres (Z * cx) :=
  do* (m, acc) := cStore (fun c => negb (mIsDelim c)) m in
  if negb (mIsDelim (cch m)) then MErr ENameLong else
  if StrMAX <? slen acc then MUndef UBuf else
  MOk (searchRsv (firstn LxRsvNUM rsvWord) acc, cSetStr m acc).

(* lexer.cmm:246-255 *)
Definition cGetHexStr (m : cx) : mres (cx * Z) :=
  if negb (LibString.isXdigit (cnx m)) then MErr EHexEsc else
  do* (m, v) := whileM (fuelOf m) (fun a => LibString.isXdigit (cnx (fst a)))
    (fun a => let v := snd a * 16 + mHex (cnx (fst a)) in
              if 255 <? v then MErr EHexRange else do* m := cGetCh (fst a) in MOk (m, v))
    (m, 0) in
  MOk (m, v mod 256).

(* lexer.cmm:258-270; i = rounds so far *)
Fixpoint cOctStr (k : nat) (m : cx) (v i : Z) : mres (cx * Z) :=
  let v := v * 8 + cch m - 48 in
  if 255 <? v then MErr EOctRange else
  if negb (mIsOdigit (cnx m)) then MOk (m, v mod 256) else
  let i := i + 1 in
  if 3 <=? i then MOk (m, v mod 256) else
  match k with
  | O => MUndef NoFuel
  | S k => do* m := cGetCh m in cOctStr k m v i
  end.
Definition cGetOctStr (m : cx) : mres (cx * Z) := cOctStr (fuelOf m) m 0 0.

(* lexer.cmm:273-296 *)
Definition cGetEsc (m : cx) : mres (cx * Z) :=
  do* m := cGetCh m in
  if cch m =? 110 then do* m := cGetCh m in MOk (m, 10)
  else if cch m =? 116 then do* m := cGetCh m in MOk (m, 9)
  else if cch m =? 114 then do* m := cGetCh m in MOk (m, 13)
  else if (cch m =? 120) || (cch m =? 88) then
    do* (m, n) := cGetHexStr m in do* m := cGetCh m in MOk (m, n)
  else if mIsOdigit (cch m) then do* (m, n) := cGetOctStr m in do* m := cGetCh m in MOk (m, n)
  else if LibString.isPrint (cch m) then
    let n := cch m in do* m := cGetCh m in MOk (m, n)
  else MErr EBadEsc.

(* lexer.cmm:299-306 *)
Definition cPutOctStr (c : Z) (acc : list Z) : mres (list Z) :=
  if StrMAX <=? slen acc + 4 then MErr EStrLong
  else MOk (acc ++ [92; Z.land c 448 / 64 + 48; Z.land c 56 / 8 + 48; Z.land c 7 + 48]).

(* lexer.cmm:309-343 *)
Fixpoint cGetStrF (fuel : nat) (m : cx) (acc : list Z) (cnt : Z) : mres (cx * list Z * Z) :=
  match fuel with
  | O => MUndef NoFuel
  | S f =>
    do* m := cGetCh m in
    if (cch m =? 34) || (cch m =? mEOF) || (StrMAX <? slen acc) || negb (LibString.isPrint (cch m)) then
      if negb (cch m =? 34) then MErr EStrEnd else MOk (m, acc, cnt)
    else if negb (cch m =? 92) then cGetStrF f m (acc ++ [cch m]) (cnt + 1)
    else
      do* m := cGetCh m in
      if cch m =? 120 then
        do* (m, v) := cGetHexStr m in do* acc := cPutOctStr v acc in cGetStrF f m acc (cnt + 1)
      else if mIsOdigit (cch m) then
        do* (m, v) := cGetOctStr m in do* acc := cPutOctStr v acc in cGetStrF f m acc (cnt + 1)
      else if StrMAX <? slen acc + 1 then MUndef UBuf
      else cGetStrF f m (acc ++ [92; cch m]) (cnt + 1)
  end.
Definition cGetStr (m : cx) : mres (Z * cx) :=
  do* (m, acc, cnt) := cGetStrF (fuelOf m) m [] 1 in
  do* m := cGetCh m in
  if StrMAX <? slen acc then MUndef UBuf
  else MOk (LxSTRING, cSetVal (cSetStr m acc) cnt).

(* lexer.cmm:346-358 *)
Definition cGetChar (m : cx) : mres (Z * cx) :=
  do* m := cGetCh m in
  do* (m, v) := (if cch m =? 92 then cGetEsc m
                 else let v := cch m in do* m := cGetCh m in MOk (m, v)) in
  let m := cSetVal m v in
  if negb (cch m =? 39) then MErr ECharEnd else
  do* m := cGetCh m in MOk (LxCHARACTER, m).

(* lexer.cmm:361-404 *)
Definition cGetSign (m : cx) : mres (Z * cx) :=
  let c := cch m in let d := cnx m in
  let two k := do* m := cGetCh m in do* m := cGetCh m in MOk (k, m) in
  if (c =? 61) && (d =? 61) then two LxEQU
  else if (c =? 124) && (d =? 124) then two LxOR
  else if (c =? 38) && (d =? 38) then two LxAND
  else if (c =? 33) && (d =? 61) then two LxNEQ
  else if (c =? 60) && (d =? 61) then two LxLTE
  else if (c =? 62) && (d =? 61) then two LxGTE
  else if (c =? 60) && (d =? 60) then two LxSHL
  else if (c =? 62) && (d =? 62) then two LxSHR
  else if (c =? 43) && (d =? 43) then two LxPP
  else if (c =? 45) && (d =? 45) then two LxMM
  else if (c =? 46) && (d =? 46) then
    do* m := cGetCh m in
    if cnx m =? 46 then do* m := cGetCh m in do* m := cGetCh m in MOk (LxDOTDOTDOT, m)
    else do* m := cGetCh m in MOk (LxDOTDOT, m)
  else do* m := cGetCh m in MOk (c, m).

(* lexer.cmm:409-433 *)
Definition cGetTok (m : cx) : mres (Z * cx) :=
  do* m := (if cch m =? 0 then cGetCh m else MOk m) in
  do* m := cSkipSpace m in
  let m := Cx (cch m) (cnx m) (rest m) (cl2 m) (cl2 m) (cval m) (cstr m) in
  if cch m =? mEOF then MOk (LxEOF, m)
  else if (cch m =? 10) && (cnx m =? 35) then cGetSharp m
  else if LibString.isDigit (cch m) then cGetDigit m
  else if LibString.isAlpha (cch m) || (cch m =? 95) then
    do* (t, m) := cGetWord m in
    MOk (if t =? LxTRUE then (LxLOGICAL, cSetVal m 1)
         else if t =? LxFALSE then (LxLOGICAL, cSetVal m 0) else (t, m))
  else if cch m =? 34 then cGetStr m
  else if cch m =? 39 then cGetChar m
  else cGetSign m.

(* the tokens of a file, as the parser sees them: token, value, spelling, line
   (lexer.cmm:435-439) *)
Fixpoint lexAllMF (fuel : nat) (m : cx) : mres (list item) :=
  match fuel with
  | O => MUndef NoFuel
  | S f =>
    do* (t, m) := cGetTok m in
    let it := (t, cval m, cstr m, cln m) in
    if t =? LxEOF then MOk [it]
    else do* r := lexAllMF f m in MOk (it :: r)
  end.
Definition lexAllM (file : list Z) : mres (list item) := lexAllMF (List.length file + 3) (cxInit file).
