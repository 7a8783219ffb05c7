(* Model of the heap of lib/SrcTac/stdlib.cmm: _stdlibInit, malloc, free, calloc.

   Pointers and sizes are words 0..65535.  A MemBlk is two words in memory: next at offset 0,
   size at offset 2 (doc/chap3.tex: fields of a struct are words, in order).  memPool is the
   address of the statically initialised struct {null, 0} (line 50), the same value as MAGIC
   (line 39); nothing assigns the variable memPool itself, so it is a parameter here.  sp is what
   _sp() returns during the call (crt0.s:209-212).  _exit(code) ends the program: HExit. *)
From Coq Require Import ZArith Bool List Lia.
From Verif Require Import LibMem LibStd.
Import ListNotations.
Open Scope Z_scope.

Inductive hres (A : Type) := HRet (a : A) | HExit (code : Z).
Arguments HRet {A} a. Arguments HExit {A} code.

(* include/errno.hmm:76-77 *)
Definition EUNOMEM : Z := -33.
Definition EUBADA : Z := -34.

Definition wd (z : Z) : Z := z mod 65536.
Definition nextOf (m : mem) (b : Z) : Z := ldw m b.          (* b.next *)
Definition sizeOf (m : mem) (b : Z) : Z := ldw m (b + 2).    (* b.size *)
Definition setNext (m : mem) (b v : Z) : mem := stw m b v.
Definition setSize (m : mem) (b v : Z) : mem := stw m (b + 2) v.

Section Heap.
Variable pool : Z.                       (* memPool, MAGIC *)

(* stdlib.cmm:57-62: end is addrof(_end); the memory and _alcAddr *)
Definition stdlibInit (end_ sp : Z) (m : mem) : mem * Z :=
  let m := setNext m pool end_ in
  let b := nextOf m pool in
  let m := setSize m b (wd (sp - end_)) in
  let m := setNext m b 0 in
  (m, end_).

(* stdlib.cmm:71-75 *)
Definition findFit (m : mem) (s : Z) : comp (hres (Z * Z)) :=
  loop (fun '(p, b) =>
    if uCmp (sizeOf m b) s <? 0 then
      let b' := nextOf m b in
      if b' =? 0 then inr (HExit EUNOMEM) else inl (b, b')
    else inr (HRet (p, b))) (pool, nextOf m pool).

(* stdlib.cmm:67-104: the memory, _alcAddr and the result *)
Definition malloc (sp siz : Z) (m : mem) (alc : Z) : comp (hres (mem * Z * Z)) :=
  let s := Z.land (wd (siz + 4 + 1)) 65534 in
  let! r := findFit m s in
  match r with
  | HExit e => ret (HExit e)
  | HRet (p, b) =>
    let tight := uCmp (sizeOf m b) (wd (s + 4 + 2)) <=? 0 in
    if tight && (nextOf m b =? 0) then ret (HExit EUNOMEM) else
    let s := if tight then sizeOf m b else s in
    let n := wd (b + s) in
    if 0 <=? uCmp n (wd (sp - 10)) then ret (HExit EUNOMEM) else
    let m :=
      (if s =? sizeOf m b then setNext m p (nextOf m b)
       else
         let m1 := setNext m n (nextOf m b) in
         let m2 := setSize m1 n (wd (sizeOf m1 b - s)) in
         let m3 := setNext m2 p n in
         setSize m3 b s) in
    let m := setNext m b pool in
    let alc := if 0 <? uCmp n alc then n else alc in
    ret (HRet (m, alc, wd (b + 4)))
  end.

(* stdlib.cmm:120-124 *)
Definition findPos (m : mem) (q : Z) : comp (Z * Z) :=
  loop (fun '(p, b) =>
    if uCmp b q <? 0 then
      let b' := nextOf m b in
      if b' =? 0 then inr (b, b') else inl (b, b')
    else inr (p, b)) (pool, nextOf m pool).

(* stdlib.cmm:114-146 *)
Definition free (ptr : Z) (m : mem) : comp (hres mem) :=
  let q := wd (ptr - 4) in
  if negb (nextOf m q =? pool) then ret (HExit EUBADA) else
  let! (p, b) := findPos m q in
  let ql := wd (q + sizeOf m q) in
  let pl := wd (p + sizeOf m p) in
  if (uCmp q pl <? 0) || (negb (b =? 0) && (uCmp b ql <? 0)) then ret (HExit EUBADA) else
  ret (HRet
    (if pl =? q then
       let m1 := setSize m p (wd (sizeOf m p + sizeOf m q)) in
       if ql =? b then setNext (setSize m1 p (wd (sizeOf m1 p + sizeOf m1 b))) p (nextOf m1 b) else m1
     else if ql =? b then
       let m1 := setSize m q (wd (sizeOf m q + sizeOf m b)) in
       let m2 := setNext m1 q (nextOf m1 b) in
       setNext m2 p q
     else setNext (setNext m p q) q b)).

(* stdlib.cmm:149-154; n*s is an int *)
Definition calloc (sp n s : Z) (m : mem) (alc : Z) : comp (hres (mem * Z * Z)) :=
  let! r := malloc sp (i16 (n * s)) m alc in
  match r with
  | HExit e => ret (HExit e)
  | HRet (m, alc, p) =>
    let! m' := loop (fun '(i, m) => if i <? i16 (n * s) then inl (i16 (i + 1), stb m (p + i) 0) else inr m) (0, m) in
    ret (HRet (m', alc, p))
  end.
End Heap.
