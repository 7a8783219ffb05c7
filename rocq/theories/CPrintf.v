(* Model of lib/SrcC/printf.c (with lToL of lib/SrcC/wrapper.h), function by function,
   in the build without _RTC.  The library is compiled by the host's C compiler:
   int has 32 bits and is signed, an overflow is undefined; unsigned int wraps.
   The format and the strings are lists of byte values, the arguments a list of
   tagged values; va_arg of an argument that is not there, or of another kind, is
   undefined.
   Simplification: the stream accepts every character, so fputc returns the
   character it wrote. *)
From Coq Require Import ZArith Bool List Lia.
From Verif Require Import LibMem LibPrintf.
Import ListNotations.
Open Scope Z_scope.

(* the values a variable argument list holds: int (also char and boolean), char*,
   and int* that points to two ints *)
Inductive carg := AInt (x : Z) | AStr (s : list Z) | ALong (hi lo : Z).

(* the characters written, the counter of printf.c:46, the arguments left *)
Inductive cres := COk (o : list Z) (n : Z) (va : list carg) | CExit (o : list Z) | CUndef.

(* int arithmetic that may overflow *)
Definition int32 (x : Z) : bool := (-2147483648 <=? x) && (x <=? 2147483647).
(* what a wider value becomes when it is stored in an int *)
Definition i32 (z : Z) : Z := (z + 2147483648) mod 4294967296 - 2147483648.

(* one character: what is written, what the counter is increased by.
   printf.c:48-50: fputc(c, out) gives (unsigned char)c, the counter goes up when
   that is zero *)
Definition putC (c : Z) : list Z * Z := let r := c mod 256 in ([r], if r =? 0 then 1 else 0).
Definition also (a b : list Z * Z) : list Z * Z := (fst a ++ fst b, snd a + snd b).
Definition nothing : list Z * Z := ([], 0).

(* printf.c:52-55 *)
Fixpoint putTimes (c : Z) (n : nat) : list Z * Z :=
  match n with O => nothing | S n => also (putC c) (putTimes c n) end.
Definition putN (c n : Z) : list Z * Z := putTimes c (Z.to_nat n).

(* printf.c:58-63 *)
Definition putCW (c w : Z) (lf : bool) : list Z * Z :=
  let l := w - 1 in
  also (if negb lf then putN 32 l else nothing)
  (also (putC c) (if lf then putN 32 l else nothing)).

(* printf.c:69-70 *)
Fixpoint putChars (s : list Z) : list Z * Z :=
  match s with [] => nothing | c :: s => also (putC c) (putChars s) end.
(* printf.c:66-72; w - strlen(s) is unsigned long, stored in an int *)
Definition putS (s : list Z) (w : Z) (lf : bool) : list Z * Z :=
  let l := i32 (w - Z.of_nat (List.length s)) in
  also (if negb lf then putN 32 l else nothing)
  (also (putChars s) (if lf then putN 32 l else nothing)).

(* printf.c:75-80; x unsigned, so / and % are those of natural numbers. The depth of
   the recursion is at most the number of bits of x *)
Fixpoint putNumD (depth : nat) (x b : Z) : list Z * Z :=
  match depth with
  | O => nothing
  | S d => if x =? 0 then nothing else also (putNumD d (x / b) b) (putC (digitChar (x mod b)))
  end.
Definition putNum (x b : Z) : list Z * Z := putNumD 32 (x mod 4294967296) b.

(* printf.c:83-89; x signed, so / rounds to zero *)
Fixpoint numLenD (depth : nat) (x b l : Z) : Z :=
  match depth with
  | O => l
  | S d => if x =? 0 then l else numLenD d (Z.quot x b) b (l + 1)
  end.
Definition numLen (x b : Z) : Z := let l := numLenD 32 x b 0 in if l =? 0 then 1 else l.

(* printf.c:92-98 *)
Definition uPutNum (x w : Z) (lf : bool) (p b : Z) : list Z * Z :=
  let l := w - numLen x b in
  also (if negb lf then putN p l else nothing)
  (also (if negb (x =? 0) then putNum x b else putC 48)
        (if lf then putN 32 l else nothing)).

(* printf.c:101-114; -x of the least int is undefined *)
Definition sPutNum (x w : Z) (lf : bool) (p b : Z) : option (list Z * Z) :=
  let minus := x <? 0 in
  let x := if minus then - x else x in
  let w := if minus then w - 1 else w in
  if negb (int32 x) then None
  else
    let l := w - numLen x b in
    Some (also (if negb lf then putN p l else nothing)
         (also (if minus then putC 45 else nothing)
         (also (if negb (x =? 0) then putNum x b else putC 48)
               (if lf then putN 32 l else nothing)))).

(* a conversion: what it writes and the arguments left, or the end of the program,
   or undefined behaviour *)
Inductive conv := VOk (t : list Z * Z) (va : list carg) | VExit | VUndef.

(* printf.c:120-141; exit(1) *)
Definition conv16 (c w : Z) (lf : bool) (p : Z) (va : list carg) : conv :=
  if c =? 111 then match va with AInt x :: va => VOk (uPutNum x w lf p 8) va | _ => VUndef end
  else if c =? 100 then
    match va with
    | AInt x :: va => match sPutNum x w lf p 10 with Some t => VOk t va | None => VUndef end
    | _ => VUndef
    end
  else if c =? 120 then match va with AInt x :: va => VOk (uPutNum x w lf p 16) va | _ => VUndef end
  else if c =? 99 then match va with AInt x :: va => VOk (putCW x w lf) va | _ => VUndef end
  else if c =? 115 then match va with AStr s :: va => VOk (putS s w lf) va | _ => VUndef end
  else if c =? 37 then VOk (putC 37) va
  else VExit.

(* wrapper.h:148-150, as an unsigned long: the two ints are read as unsigned. The
   shift is that of GCC and Clang, which drop the bits above 64 (here: none) *)
Definition lToL (hi lo : Z) : Z := (hi mod 4294967296) * 4294967296 + lo mod 4294967296.

(* printf.c:145-172; the argument is taken before the letter is looked at *)
Definition conv32 (c w : Z) (lf : bool) (p : Z) (va : list carg) : conv :=
  match va with
  | ALong hi lo :: va =>
    if c =? 100 then
      let n := lToL hi lo in
      let l := n mod 100000000 in
      let n := n / 100000000 in
      let m := n mod 100000000 in
      let n := n / 100000000 in
      let h := n mod 100000000 in
      VOk (if negb (h =? 0) then
             also (uPutNum h (w - 16) lf p 10)
             (also (uPutNum m 8 lf 48 10) (uPutNum l 8 lf 48 10))
           else if negb (m =? 0) then
             also (uPutNum m (w - 8) lf p 10) (uPutNum l 8 lf 48 10)
           else uPutNum l w lf p 10) va
    else VExit
  | _ => VUndef
  end.

(* the character at the front of the rest of the format, and what is behind it;
   the end of the string is the character 0, and nothing behind it is read: after
   printf.c:196 with c = 0 the program ends *)
Definition next (s : list Z) : Z * list Z := match s with [] => (0, []) | c :: r => (c, r) end.

(* the outcome of isdigit, <ctype.h>: char is signed on the hosts, so a byte of 128 or
   more is a negative argument, for which it is undefined *)
Definition isdigit (c : Z) : option bool := if 128 <=? c then None else Some ((48 <=? c) && (c <=? 57)).

(* printf.c:188-191: c is the character at hand, s what follows it. None: undefined *)
Fixpoint getWidth (w c : Z) (s : list Z) : option (Z * Z * list Z) :=
  match isdigit c with
  | None => None
  | Some false => Some (w, c, s)
  | Some true =>
    let w := w * 10 + (c - 48) in
    if negb (int32 w) then None
    else match s with [] => Some (w, 0, []) | c :: s => getWidth w c s end
  end.

(* printf.c:179-197: one conversion, s what follows the % *)
Definition convert (s : list Z) (va : list carg) : conv * list Z :=
  let '(c, s) := next s in
  let '(lf, c, s) := if c =? 45 then (let '(c, s) := next s in (true, c, s)) else (false, c, s) in
  let p := if c =? 48 then 48 else 32 in
  match getWidth 0 c s with
  | None => (VUndef, [])
  | Some (w, c, s) =>
    if c =? 108 then
      let '(c, s) := next s in (conv32 c w lf p va, s)
    else (conv16 c w lf p va, s)
  end.

(* printf.c:174-202; each round takes at least one character of the format *)
Fixpoint printD (depth : nat) (fmt : list Z) (va : list carg) (o : list Z) (cnt : Z) : cres :=
  match depth with
  | O => CUndef
  | S d =>
    match fmt with
    | [] => COk o cnt va
    | c :: s =>
      if c =? 37 then
        match convert s va with
        | (VOk t va, s) => printD d s va (o ++ fst t) (cnt + snd t)
        | (VExit, _) => CExit o
        | (VUndef, _) => CUndef
        end
      else printD d s va (o ++ fst (putC c)) (cnt + snd (putC c))
    end
  end.

(* printf.c:222-236: fprintf and printf differ in the stream only *)
Definition printf (fmt : list Z) (va : list carg) : cres := printD (S (List.length fmt)) fmt va [] 0.
