(* Model of the run time of programs translated with run-time checks (cm2c -rtc):
   the checking functions and the allocators of lib/SrcC/wrapper.h under _RTC, and
   the start-up of lib/SrcC/wrapper.c. Memory is a list of blocks of bytes; a block
   is got from malloc or laid down by the C compiler, None is a block that was freed.
   An access outside a block, or to a freed one, is RUndef: undefined in C. int has 4
   bytes, a pointer 8, both stored with the lowest byte first; sizeof(_IA) and
   sizeof(_CA) are 4, sizeof(_RA) is 8. A reference is None (null) or a block. *)
From Coq Require Import ZArith Bool List String Ascii.
From Verif Require Import Lexer CCode.
Import ListNotations.
Open Scope Z_scope.

Definition heap := list (option (list Z)).
Definition ref := option nat.

(* RAbort: the text on stderr, then abort(); RExit: perror("malloc"); exit(1) *)
Inductive rres (A : Type) := ROk (a : A) (h : heap) | RAbort (msg : list Z) | RExit | RUndef.
Arguments ROk {A}. Arguments RAbort {A}. Arguments RExit {A}. Arguments RUndef {A}.
Definition rbind {A B} (r : rres A) (k : A -> heap -> rres B) : rres B :=
  match r with ROk a h => k a h | RAbort m => RAbort m | RExit => RExit | RUndef => RUndef end.

(* bytes of a number and back; C's conversion to int *)
Fixpoint enc (w : nat) (v : Z) : list Z := match w with O => [] | S w => v mod 256 :: enc w (v / 256) end.
Fixpoint decB (b : list Z) : Z := match b with [] => 0 | x :: b => x + 256 * decB b end.
Definition int32 (v : Z) : Z := (v + 2 ^ 31) mod 2 ^ 32 - 2 ^ 31.

Definition slice (off : Z) (w : nat) (m : list Z) : list Z := firstn w (skipn (Z.to_nat off) m).
Definition splice (off : Z) (b m : list Z) : list Z :=
  firstn (Z.to_nat off) m ++ b ++ skipn (Z.to_nat off + List.length b)%nat m.
Fixpoint setAt {A} (n : nat) (x : A) (l : list A) : list A :=
  match n, l with O, _ :: l => x :: l | S n, y :: l => y :: setAt n x l | _, [] => [] end.
Definition inside (off : Z) (w : nat) (m : list Z) : bool := (0 <=? off) && (off + Z.of_nat w <=? Z.of_nat (List.length m)).
(* an access of w bytes *)
Definition load (b : nat) (off : Z) (w : nat) (h : heap) : rres Z :=
  match nth_error h b with
  | Some (Some m) => if inside off w m then ROk (decB (slice off w m)) h else RUndef
  | _ => RUndef
  end.
Definition storeB (b : nat) (off : Z) (x : list Z) (h : heap) : rres unit :=
  match nth_error h b with
  | Some (Some m) => if inside off (List.length x) m then ROk tt (setAt b (Some (splice off x m)) h) else RUndef
  | _ => RUndef
  end.
Definition store (b : nat) (off : Z) (w : nat) (v : Z) (h : heap) : rres unit := storeB b off (enc w v) h.

(* wrapper.h:52-58: _IA, _CA (also of boolean), _RA *)
Inductive kind := KInt | KChar | KRef.
Definition width (k : kind) : nat := match k with KInt => 4 | KChar => 1 | KRef => 8 end%nat.
Definition hdr (k : kind) : Z := match k with KRef => 8 | _ => 4 end.
(* an element as its bytes are read by C; char and references as their bit patterns *)
Definition asElem (k : kind) (v : Z) : Z := match k with KInt => int32 v | _ => v end.

Section Run.
(* what malloc gives: the contents of a new block, or None (the null pointer) *)
Variable malloc : heap -> Z -> option (list Z).
(* the bit pattern of the address of a block; null is 0 *)
Variable addr : nat -> Z.
Definition pattern (p : ref) : Z := match p with None => 0 | Some b => addr b end.

(* wrapper.c:85-92, s an int; malloc takes a size_t *)
Definition mAlloc (s : Z) (h : heap) : rres nat :=
  match malloc h (s mod 2 ^ 64) with Some m => ROk (List.length h) (h ++ [Some m]) | None => RExit end.

(* wrapper.h:248-274: iMalloc, cMalloc, bMalloc, rMalloc; the size is computed as a
   size_t and converted to int when it is passed *)
Definition newArr (k : kind) (n : Z) (h : heap) : rres nat :=
  rbind (mAlloc (int32 ((hdr k + Z.of_nat (width k) * (n mod 2 ^ 64)) mod 2 ^ 64)) h) (fun b h =>
  rbind (store b 0 4 n h) (fun _ h => ROk b h)).

(* wrapper.h:62-72, 75-85, 88-98: _ICA, _CCA, _RCA *)
Definition nullMsg (k : kind) (file : list Z) (line i : Z) : list Z :=
  file ++ codes ":" ++ dec line ++
  match k with KInt => codes " Null Pointer idx=" ++ dec i ++ codes " " | _ => codes " Null Pointer(idx=" ++ dec i ++ codes ")" end ++ [10].
Definition boundMsg (k : kind) (file : list Z) (line i : Z) : list Z :=
  file ++ codes ":" ++ dec line ++
  match k with KInt => codes " Out of Bound idx=" ++ dec i | _ => codes " Out of Bound(idx=" ++ dec i ++ codes ")" end ++ [10].
Definition checkIdx (k : kind) (p : ref) (i : Z) (file : list Z) (line : Z) (h : heap) : rres (nat * Z) :=
  match p with
  | None => RAbort (nullMsg k file line i)
  | Some b =>
    rbind (load b 0 4 h) (fun l h =>
    if (i <? 0) || (int32 l <=? i) then RAbort (boundMsg k file line i)
    else ROk (b, hdr k + Z.of_nat (width k) * i) h)
  end.
(* wrapper.h:101-107: _CP *)
Definition derefMsg (file : list Z) (line : Z) : list Z := file ++ codes ":" ++ dec line ++ codes " Null Pointer" ++ [10].
Definition checkRef (p : ref) (file : list Z) (line : Z) (h : heap) : rres ref :=
  match p with None => RAbort (derefMsg file line) | Some b => ROk p h end.

(* the expressions *_ICA(p,i,file,line), and its assignment (cCode.c:171-184) *)
Definition getElem (k : kind) (p : ref) (i : Z) (file : list Z) (line : Z) (h : heap) : rres Z :=
  rbind (checkIdx k p i file line h) (fun '(b, off) h =>
  rbind (load b off (width k) h) (fun v h => ROk (asElem k v) h)).
Definition putElem (k : kind) (p : ref) (i v : Z) (file : list Z) (line : Z) (h : heap) : rres unit :=
  rbind (checkIdx k p i file line h) (fun '(b, off) h => store b off (width k) v h).

(* wrapper.c:50-55 and 69-74: a C string made into a char array *)
Definition mkStr (s : list Z) (h : heap) : rres nat :=
  let n := Z.of_nat (List.length s) in
  rbind (mAlloc (int32 (hdr KChar + n + 1)) h) (fun b h =>
  rbind (store b 0 4 (int32 (n + 1)) h) (fun _ h =>
  rbind (storeB b (hdr KChar) (s ++ [0]) h) (fun _ h => ROk b h))).
Fixpoint mkStrs (a : nat) (i : Z) (ss : list (list Z)) (h : heap) : rres unit :=
  match ss with
  | [] => ROk tt h
  | s :: ss =>
    rbind (mkStr s h) (fun b h =>
    rbind (store a (hdr KRef + 8 * i) 8 (addr b) h) (fun _ h => mkStrs a (i + 1) ss h))
  end.
(* wrapper.c:47-55 (argv) and 64-74 (envp) *)
Definition mkVec (ss : list (list Z)) (h : heap) : rres nat :=
  let n := Z.of_nat (List.length ss) in
  rbind (mAlloc (int32 (hdr KRef + 8 * (n + 1))) h) (fun a h =>
  rbind (store a 0 4 (int32 (n + 1)) h) (fun _ h =>
  rbind (store a (hdr KRef + 8 * n) 8 0 h) (fun _ h =>
  rbind (mkStrs a 0 ss h) (fun _ h => ROk a h)))).
(* wrapper.c:45-79: what main passes to the program *)
Definition start (argv envp : list (list Z)) (h : heap) : rres (nat * nat) :=
  rbind (mkVec argv h) (fun a h => rbind (mkVec envp h) (fun e h => ROk (a, e) h)).

(* wrapper.h:216-226: __getenv; val is what getenv gives, old the block it gave the last time *)
Definition freeB (p : ref) (h : heap) : heap := match p with None => h | Some b => setAt b None h end.
Definition getEnv (val : option (list Z)) (old : ref) (h : heap) : rres (ref * ref) :=
  match val with
  | None => ROk (None, old) h
  | Some s =>
    let n := Z.of_nat (List.length s) + 1 in
    let h := freeB old h in
    match malloc h (hdr KChar + n) with
    | None => RUndef                       (* ->l of the null pointer *)
    | Some m =>
      let b := List.length h in
      rbind (store b 0 4 n (h ++ [Some m])) (fun _ h =>
      rbind (storeB b (hdr KChar) (s ++ [0]) h) (fun _ h => ROk (Some b, Some b) h))
    end
  end.

(* wrapper.h:186-190: _fgets; line: the characters C's fgets finds, at most n-1, up to
   and with the newline. The text of the warning is left out: the flag *)
Fixpoint lineOf (n : nat) (s : list Z) : list Z :=
  match n, s with
  | S n, c :: s => if c =? 10 then [c] else c :: lineOf n s
  | _, _ => []
  end.
Definition fgets (buf : ref) (n : Z) (s : list Z) (h : heap) : rres (ref * bool) :=
  match buf with
  | None => RUndef
  | Some b =>
    rbind (load b 0 4 h) (fun l h =>
    let warn := int32 l <? n in
    match lineOf (Z.to_nat (n - 1)) s with
    | [] => ROk (None, warn) h
    | line => rbind (storeB b (hdr KChar) (line ++ [0]) h) (fun _ h => ROk (Some b, warn) h)
    end)
  end.

(* ---- the operations a program makes, one after another ---- *)
Inductive rop :=
| New (k : kind) (n : Z)
| Get (k : kind) (p : ref) (i : Z) (file : list Z) (line : Z)
| Put (k : kind) (p : ref) (i v : Z) (file : list Z) (line : Z)
| Deref (p : ref) (file : list Z) (line : Z).
Inductive reply := Made (b : nat) | Value (v : Z) | Done.
Definition runOp (o : rop) (h : heap) : rres reply :=
  match o with
  | New k n => rbind (newArr k n h) (fun b h => ROk (Made b) h)
  | Get k p i file line => rbind (getElem k p i file line h) (fun v h => ROk (Value v) h)
  | Put k p i v file line => rbind (putElem k p i v file line h) (fun _ h => ROk Done h)
  | Deref p file line => rbind (checkRef p file line h) (fun _ h => ROk Done h)
  end.
(* how a run ends *)
Inductive ending := Goes (h : heap) | Aborted (msg : list Z) | NoMemory | Undefined.
Fixpoint runOps (os : list rop) (h : heap) : list reply * ending :=
  match os with
  | [] => ([], Goes h)
  | o :: os =>
    match runOp o h with
    | ROk r h => let (rs, e) := runOps os h in (r :: rs, e)
    | RAbort m => ([], Aborted m)
    | RExit => ([], NoMemory)
    | RUndef => ([], Undefined)
    end
  end.
End Run.
