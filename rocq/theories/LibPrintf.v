(* Model of lib/SrcTac/printf.cmm, function by function.
   Simplification: fputc(c, out) always succeeds (returns false), so every putC
   appends one character to the output and counts it; the stream itself is
   modelled in LibStdio.v.  The digit string is a constant array: an index
   outside 0..15 is undefined behaviour.
   The division the compiled code performs is a parameter: the language manual
   says int is signed, so `/` and `%` truncate towards zero (sdiv, smod); the
   unsigned alternative is udiv, umod. *)
From Coq Require Import ZArith Bool List Lia.
From Verif Require Import LibMem LibString LibStd.
Import ListNotations.
Open Scope Z_scope.

(* errno.hmm:75 *)
Definition EUFMT : Z := -32.

Inductive res (A : Type) := Done (a : A) | Exit (code : Z) | Undef.
Arguments Done {A} a. Arguments Exit {A} code. Arguments Undef {A}.

Definition rbind {A B} (c : comp (res A)) (k : A -> comp (res B)) : comp (res B) :=
  let! r := c in
  match r with Done a => k a | Exit e => ret (Exit e) | Undef => ret Undef end.
Notation "'do!' x ':=' c 'in' k" := (rbind c (fun x => k))
  (at level 200, x pattern, c at level 100, k at level 200).

Record divsem := Divs { dv : Z -> Z -> Z; md : Z -> Z -> Z }.
Definition signed_div : divsem :=
  Divs (fun x b => i16 (Z.quot x b)) (fun x b => i16 (Z.rem x b)).
Definition unsigned_div : divsem :=
  Divs (fun x b => i16 ((x mod 65536) / (b mod 65536)))
       (fun x b => i16 ((x mod 65536) mod (b mod 65536))).

(* printf.cmm:40-41: output so far, character count *)
Record ost := Ost { out : list Z; cnt : Z }.

(* printf.cmm:43-45 *)
Definition putC (c : Z) (s : ost) : ost := Ost (out s ++ [c]) (i16 (cnt s + 1)).

(* printf.cmm:47-50 *)
Definition putN (c n : Z) (s : ost) : comp (res ost) :=
  loop (fun '(s, i) => if i <? n then inl (putC c s, i16 (i + 1)) else inr (Done s)) (s, 0).

(* printf.cmm:53-58 *)
Definition putCW (c w : Z) (lf : bool) (s : ost) : comp (res ost) :=
  let l := i16 (w - 1) in
  do! s1 := (if negb lf then putN 32 l s else ret (Done s)) in
  let s2 := putC c s1 in
  if lf then putN 32 l s2 else ret (Done s2).

(* printf.cmm:61-67 *)
Definition putS (m : mem) (a w : Z) (lf : bool) (s : ost) : comp (res ost) :=
  let! n := strLen m a in
  let l := i16 (w - n) in
  do! s1 := (if negb lf then putN 32 l s else ret (Done s)) in
  do! s2 := loop (fun '(s, i) => if negb (ldb m (a + i) =? 0)
                    then inl (putC (ldb m (a + i)) s, i16 (i + 1)) else inr (Done s)) (s1, 0) in
  if lf then putN 32 l s2 else ret (Done s2).

(* the string constant of printf.cmm:73 *)
Definition digitChar (k : Z) : Z := if k <? 10 then 48 + k else 87 + k.

(* printf.cmm:70-75; recursion depth is fuel *)
Fixpoint putNum (D : divsem) (x b : Z) (s : ost) (fuel : nat) : option (res ost) :=
  match fuel with
  | O => None
  | S f =>
    if x =? 0 then Some (Done s)
    else match putNum D (dv D x b) b s f with
         | Some (Done s') =>
           let k := md D x b in
           if (0 <=? k) && (k <? 16) then Some (Done (putC (digitChar k) s')) else Some Undef
         | r => r
         end
  end.

(* printf.cmm:78-84 *)
Definition numLen (D : divsem) (x b : Z) : comp Z :=
  let! l := loop (fun '(x, l) => if negb (x =? 0) then inl (dv D x b, i16 (l + 1)) else inr l) (x, 0) in
  ret (if l =? 0 then 1 else l).

(* printf.cmm:87-93 *)
Definition uPutNum (D : divsem) (x w : Z) (lf : bool) (p b : Z) (s : ost) : comp (res ost) :=
  let! n := numLen D x b in
  let l := i16 (w - n) in
  do! s1 := (if negb lf then putN p l s else ret (Done s)) in
  do! s2 := (if negb (x =? 0) then putNum D x b s1 else ret (Done (putC 48 s1))) in
  if lf then putN 32 l s2 else ret (Done s2).

(* printf.cmm:96-109 *)
Definition sPutNum (D : divsem) (x w : Z) (lf : bool) (p b : Z) (s : ost) : comp (res ost) :=
  let minus := x <? 0 in
  let x := if minus then i16 (- x) else x in
  let w := if minus then i16 (w - 1) else w in
  let! n := numLen D x b in
  let l := i16 (w - n) in
  do! s1 := (if negb lf then putN p l s else ret (Done s)) in
  let s2 := if minus then putC 45 s1 else s1 in
  do! s3 := (if negb (x =? 0) then putNum D x b s2 else ret (Done (putC 48 s2))) in
  if lf then putN 32 l s3 else ret (Done s3).

(* printf.cmm:112-119: the argument array and the position of the next one.
   args[pos] is the word at args + 2*pos, read as a signed int *)
Definition getArg (m : mem) (args pos : Z) : Z * Z :=
  (i16 (ldw m (args + 2 * pos)), i16 (pos + 1)).

(* printf.cmm:127-141 *)
Definition conv16 (D : divsem) (m : mem) (args pos c w : Z) (lf : bool) (p : Z) (s : ost)
  : comp (res (ost * Z)) :=
  if c =? 111 then let '(a, pos) := getArg m args pos in
    do! s := uPutNum D a w lf p 8 s in ret (Done (s, pos))
  else if c =? 100 then let '(a, pos) := getArg m args pos in
    do! s := sPutNum D a w lf p 10 s in ret (Done (s, pos))
  else if c =? 120 then let '(a, pos) := getArg m args pos in
    do! s := uPutNum D a w lf p 16 s in ret (Done (s, pos))
  else if c =? 99 then let '(a, pos) := getArg m args pos in
    do! s := putCW (a mod 256) w lf s in ret (Done (s, pos))
  else if c =? 115 then let '(a, pos) := getArg m args pos in
    do! s := putS m a w lf s in ret (Done (s, pos))
  else if c =? 37 then ret (Done (putC 37 s, pos))
  else ret (Exit EUFMT).

(* printf.cmm:144-165; arg[0] = 0 is a word store *)
Definition conv32 (D : divsem) (m : mem) (args pos c w : Z) (lf : bool) (p : Z) (s : ost)
  : comp (res (ost * Z * mem)) :=
  let '(arg, pos) := getArg m args pos in
  if c =? 100 then
    let l := i16 (mod32 m arg 10000) in
    let '(m, _) := div32 m arg 10000 in
    let m := stw m arg 0 in
    let md := i16 (mod32 m arg 10000) in
    let '(m, _) := div32 m arg 10000 in
    let m := stw m arg 0 in
    let h := i16 (mod32 m arg 10000) in
    do! s := (if negb (h =? 0) then
        do! s := uPutNum D h (i16 (w - 8)) lf p 10 s in
        do! s := uPutNum D md 4 lf 48 10 s in
        uPutNum D l 4 lf 48 10 s
      else if negb (md =? 0) then
        do! s := uPutNum D md (i16 (w - 4)) lf p 10 s in
        uPutNum D l 4 lf 48 10 s
      else uPutNum D l w lf p 10 s) in
    ret (Done (s, pos, m))
  else ret (Exit EUFMT).

(* printf.cmm:183-186: the width digits; state: w, i, c *)
Definition getWidth (m : mem) (fmt : Z) : Z * Z * Z -> comp (Z * Z * Z) :=
  loop (fun '(w, i, c) =>
    if isDigit c
    then inl (i16 (i16 (w * 10) + i16 (c - 48)), i16 (i + 1), ldb m (fmt + i16 (i + 1)))
    else inr (w, i, c)).

(* printf.cmm:171-195, one round of the loop.  State: memory, i, pos, output *)
Definition printBody (D : divsem) (arg fmt : Z) : mem * Z * Z * ost ->
    comp (mem * Z * Z * ost + res (ost * mem)) := fun '(m, i, pos, s) =>
    let c := ldb m (fmt + i) in
    if c =? 0 then ret (inr (Done (s, m)))
    else if c =? 37 then
      let i := i16 (i + 1) in
      let c := ldb m (fmt + i) in
      let '(lf, i, c) := if c =? 45 then (true, i16 (i + 1), ldb m (fmt + i16 (i + 1)))
                         else (false, i, c) in
      let p := if c =? 48 then 48 else 32 in
      let! (w, i, c) := getWidth m fmt (0, i, c) in
      if c =? 108 then
        let i := i16 (i + 1) in
        let c := ldb m (fmt + i) in
        let! r := conv32 D m arg pos c w lf p s in
        ret match r with
            | Done (s, pos, m) => inl (m, i16 (i + 1), pos, s)
            | Exit e => inr (Exit e) | Undef => inr Undef
            end
      else
        let! r := conv16 D m arg pos c w lf p s in
        ret match r with
            | Done (s, pos) => inl (m, i16 (i + 1), pos, s)
            | Exit e => inr (Exit e) | Undef => inr Undef
            end
    else ret (inl (m, i16 (i + 1), pos, putC c s)).

(* printf.cmm:167-197 *)
Definition print (D : divsem) (m : mem) (arg offs : Z) : comp (res (ost * mem)) :=
  let '(fmt, pos) := getArg m arg offs in
  loopM (printBody D arg fmt) (m, 0, pos, Ost [] 0).

(* printf.cmm:205-208: printf(fmt, ...); args is the address of fmt on the stack *)
Definition printf (D : divsem) (m : mem) (args : Z) : comp (res (ost * mem)) := print D m args 0.
(* printf.cmm:200-203: fprintf(fp, fmt, ...) skips fp *)
Definition fprintf (D : divsem) (m : mem) (args : Z) : comp (res (ost * mem)) := print D m args 1.
