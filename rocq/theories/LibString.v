(* Model of lib/SrcCmm/string.cmm and lib/SrcCmm/ctype.cmm, function by function.
   int arithmetic is wrapped with i16 wherever the source computes an int.
   The run-time index check of the translator build is not modelled. *)
From Coq Require Import ZArith Bool List Lia.
From Verif Require Import LibMem.
Import ListNotations.
Open Scope Z_scope.

(* string.cmm:35-39  for (int i=0; (d[i]=s[i])!='\0'; i=i+1) ; return d; *)
Definition strCpy (m : mem) (d s : Z) : comp (mem * Z) :=
  let! m' := loop (fun '(m, i) =>
    let c := ldb m (s + i) in
    let m' := stb m (d + i) c in
    if c =? 0 then inr m' else inl (m', i16 (i + 1))) (m, 0) in
  ret (m', d).

(* string.cmm:42-49 *)
Definition strNcpy (m : mem) (d s n : Z) : comp (mem * Z) :=
  let! (m1, i) := loop (fun '(m, i) =>
    if (i <? i16 (n - 1)) && negb (ldb m (s + i) =? 0)
    then inl (stb m (d + i) (ldb m (s + i)), i16 (i + 1)) else inr (m, i)) (m, 0) in
  let! m2 := loop (fun '(m, i) =>
    if i <? n then inl (stb m (d + i) 0, i16 (i + 1)) else inr m) (m1, i) in
  ret (m2, d).

(* string.cmm:52-59 *)
Definition strCat (m : mem) (d s : Z) : comp (mem * Z) :=
  let! i0 := loop (fun i => if negb (ldb m (d + i) =? 0) then inl (i16 (i + 1)) else inr i) 0 in
  let j := i0 in
  let! m' := loop (fun '(m, i) =>
    let c := ldb m (s + i16 (i - j)) in
    let m' := stb m (d + i) c in
    if c =? 0 then inr m' else inl (m', i16 (i + 1))) (m, i0) in
  ret (m', d).

(* string.cmm:62-70 *)
Definition strNcat (m : mem) (d s n : Z) : comp (mem * Z) :=
  let! i0 := loop (fun i => if negb (ldb m (d + i) =? 0) then inl (i16 (i + 1)) else inr i) 0 in
  let! (m1, i) := loop (fun '(m, i, j) =>
    if (j <? i16 (n - 1)) && negb (ldb m (s + j) =? 0)
    then inl (stb m (d + i) (ldb m (s + j)), i16 (i + 1), i16 (j + 1)) else inr (m, i)) (m, i0, 0) in
  ret (stb m1 (d + i) 0, d).

(* string.cmm:73-78 *)
Definition strCmp (m : mem) (s1 s2 : Z) : comp Z :=
  loop (fun i =>
    if ldb m (s1 + i) =? ldb m (s2 + i)
    then if ldb m (s1 + i) =? 0 then inr 0 else inl (i16 (i + 1))
    else inr (i16 (ldb m (s1 + i) - ldb m (s2 + i)))) 0.

(* string.cmm:81-87 *)
Definition strNcmp (m : mem) (s1 s2 n : Z) : comp Z :=
  loop (fun i =>
    if (i <? n) && (ldb m (s1 + i) =? ldb m (s2 + i))
    then if ldb m (s1 + i) =? 0 then inr 0 else inl (i16 (i + 1))
    else if n <=? i then inr 0
    else inr (i16 (ldb m (s1 + i) - ldb m (s2 + i)))) 0.

(* string.cmm:90-94 *)
Definition strLen (m : mem) (s : Z) : comp Z :=
  loop (fun i => if negb (ldb m (s + i) =? 0) then inl (i16 (i + 1)) else inr i) 0.

(* string.cmm:99-104 *)
Definition strChr (m : mem) (s c : Z) : comp Z :=
  loop (fun i =>
    if negb (ldb m (s + i) =? 0)
    then if ldb m (s + i) =? c then inr i else inl (i16 (i + 1))
    else inr (-1)) 0.

(* string.cmm:107-112 *)
Definition strRchr (m : mem) (s c : Z) : comp Z :=
  loop (fun '(i, j) =>
    if negb (ldb m (s + i) =? 0)
    then inl (i16 (i + 1), if ldb m (s + i) =? c then i else j)
    else inr j) (0, -1).

(* string.cmm:115-126; the inner loop leaves j *)
Definition strStr (m : mem) (s1 s2 : Z) : comp Z :=
  let! l := strLen m s2 in
  let! l1 := strLen m s1 in
  let d := i16 (l1 - l) in
  loopM (fun i =>
    if i <? d then
      let! j := loop (fun j =>
        if j <? l then
          if negb (ldb m (s1 + i16 (i + j)) =? ldb m (s2 + j)) then inr j
          else inl (i16 (j + 1))
        else inr j) 0 in
      ret (if j =? l then inr i else inl (i16 (i + 1)))
    else ret (inr (-1))) 0.

(* ---- ctype.cmm:32-84; a char is its code, 0..255 ---- *)
(* ctype.cmm:32-35 *)
Definition isSpace (c : Z) : bool :=
  (c =? 9) || (c =? 10) || (c =? 11) || (c =? 12) || (c =? 13) || (c =? 32).
(* ctype.cmm:38-40 *)
Definition isDigit (c : Z) : bool := (48 <=? c) && (c <=? 57).
(* ctype.cmm:43-47 *)
Definition isXdigit (c : Z) : bool :=
  isDigit c || ((65 <=? c) && (c <=? 70)) || ((97 <=? c) && (c <=? 102)).
(* ctype.cmm:50-52 *)
Definition isPrint (c : Z) : bool := 32 <=? c.
(* ctype.cmm:55-57 *)
Definition isLower (c : Z) : bool := (97 <=? c) && (c <=? 122).
(* ctype.cmm:60-62 *)
Definition isUpper (c : Z) : bool := (65 <=? c) && (c <=? 90).
(* ctype.cmm:65-67 *)
Definition isAlpha (c : Z) : bool := isUpper c || isLower c.
(* ctype.cmm:70-72 *)
Definition isAlnum (c : Z) : bool := isDigit c || isAlpha c.
(* ctype.cmm:75-78; chr() keeps the low byte *)
Definition toLower (c : Z) : Z := if isUpper c then (c + 32) mod 256 else c.
(* ctype.cmm:81-84 *)
Definition toUpper (c : Z) : Z := if isLower c then (c - 32) mod 256 else c.
