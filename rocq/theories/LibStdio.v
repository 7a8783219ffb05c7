(* Model of the streams of lib/SrcTac/stdio.cmm: fopen, fclose, fflush, fputc, fputs, feof, fgetc,
   fgets, fseek, ferror, _flushAll, and exit of stdlib.cmm.

   Simplifications.  A FILE structure is a record and its buffer a list; the address of a
   structure is a number, and what lies at an address that is not an open stream is arbitrary
   (the map [files] is total).  An index outside a buffer is the outcome Undef.  The operating
   system and the allocator are a parameter: functions of the events so far, so any behaviour is
   covered.  _exit ends the program: Exit.  Strings given to fputs are lists of non-zero bytes,
   the comparison of mode strings is list equality (C30), file names are opaque. *)
From Coq Require Import ZArith Bool List Lia.
From Verif Require Import LibMem.
Import ListNotations.
Open Scope Z_scope.

(* include/errno.hmm:68-74, include/syslib.hmm:42-44 *)
Definition EUMODE : Z := -27.
Definition EUBADF : Z := -28.
Definition EUEOF : Z := -29.
Definition EUNFILE : Z := -30.
Definition EUSTDIO : Z := -31.
Definition ENOENT : Z := -2.
Definition RDONLY : Z := 0.
Definition WRONLY : Z := 1.
Definition APPEND : Z := 2.

(* struct FILE, include/stdio.hmm; buf==null is hasbuf = false *)
Record file : Type := File {
  fd : Z; mode : Z; hasbuf : bool; buf : list Z; size : Z; len : Z; cnt : Z;
  tty : bool; eof : bool; err : bool; slot : Z }.

(* what the operating system sees *)
Inductive ev : Type :=
| EOpen (fd mode : Z)              (* open succeeded *)
| ECreat                           (* creat succeeded *)
| EClose (fd : Z)                  (* close succeeded *)
| EWrite (fd : Z) (bs : list Z)    (* write: the bytes taken *)
| ESeek (fd h l : Z)
| ERead (fd : Z) (bs : option (list Z))   (* read: the bytes given, None an error *)
| ECon (src : Z) (bs : list Z)     (* ttyWrite: the bytes shown; src is the stream, a ghost *)
| EKey (bs : list Z).              (* ttyRead: the bytes given *)

Record kernel : Type := Kernel {
  kOpen : list ev -> list Z -> Z -> Z;        (* name, mode: descriptor, or errno *)
  kCreat : list ev -> list Z -> Z;
  kClose : list ev -> Z -> Z;
  kWrite : list ev -> Z -> list Z -> Z;       (* descriptor, bytes: the result of write *)
  kRead : list ev -> Z -> Z -> option (list Z);
  kSeek : list ev -> Z -> Z -> Z -> Z;
  kTtyR : list ev -> Z -> list Z;
  kTtyW : list ev -> list Z -> Z;             (* how many bytes are shown *)
  kAlloc : list ev -> list Z -> Z;            (* calloc: a new address, given those in use *)
  kJunk : list ev -> Z -> Z }.                (* what cMalloc finds in the new buffer *)

Record st : Type := St { files : Z -> file; slots : list Z; tr : list ev }.

Definition put (s : st) (p : Z) (f : file) (t : list ev) : st :=
  St (fun q => if q =? p then f else files s q) (slots s) (tr s ++ t).

Inductive out (A : Type) := Go (a : A) (s : st) | Exit (code : Z) (s : st) | Undef.
Arguments Go {A}. Arguments Exit {A}. Arguments Undef {A}.

Definition setNth (l : list Z) (i : nat) (v : Z) : list Z := firstn i l ++ v :: skipn (S i) l.
Definition setCnt (f : file) c := File (fd f) (mode f) (hasbuf f) (buf f) (size f) (len f) c (tty f) (eof f) (err f) (slot f).
Definition setErr (f : file) b := File (fd f) (mode f) (hasbuf f) (buf f) (size f) (len f) (cnt f) (tty f) b b (slot f).

Section Stdio.
Variable K : kernel.
Variables pin pout perr : Z.               (* the addresses of the three standard streams *)

(* stdio.cmm:55-75, the state after _stdioInit; [any] is the rest of memory *)
Definition stdinF (b : list Z) := File (-1) RDONLY true b 80 0 0 true false false 0.
Definition stdoutF (b : list Z) := File (-2) WRONLY true b 80 0 0 true false false 1.
Definition stderrF := File (-3) WRONLY false [] 0 0 0 true false false 2.
Definition init (any : Z -> file) (b0 b1 : list Z) : st :=
  St (fun q => if q =? pin then stdinF b0 else if q =? pout then stdoutF b1 else if q =? perr then stderrF else any q)
     [pin; pout; perr; 0; 0; 0; 0; 0] [].

(* stdio.cmm:78-82: is the pointer good? *)
Definition goodFp (s : st) (fp : Z) : bool :=
  negb ((fp =? 0) || (slot (files s fp) <? 0) || (8 <=? slot (files s fp))
        || negb (nth (Z.to_nat (slot (files s fp))) (slots s) 0 =? fp)).

(* ---- output ---- *)
(* stdio.cmm:90-102, after the checks; [p] is the stream, [t] the events so far.
   The result of fflush is the error flag afterwards. *)
Definition flushF (t : list ev) (p : Z) (f : file) : file * list ev :=
  if err f then (f, []) else
  if negb (hasbuf f) then (f, []) else
  if cnt f =? 0 then (f, []) else
  let bs := firstn (Z.to_nat (cnt f)) (buf f) in
  if tty f then (setErr (setCnt f 0) false, [ECon p (firstn (Z.to_nat (kTtyW K t bs)) bs)])
  else
    let l := kWrite K t (fd f) bs in
    let c := if 0 <? l then cnt f - l else cnt f in
    (setErr (setCnt f c) (negb (c =? 0)), [EWrite (fd f) (firstn (Z.to_nat l) bs)]).

(* stdio.cmm:86-103 *)
Definition fflush (fp : Z) (s : st) : out bool :=
  if negb (goodFp s fp) then Exit EUBADF s else
  if mode (files s fp) =? RDONLY then Exit EUMODE s else
  let '(f, t) := flushF (tr s) fp (files s fp) in Go (err f) (put s fp f t).

(* stdio.cmm:118-128, after the checks; None is an index outside the buffer *)
Definition putcF (t : list ev) (p c : Z) (f : file) : option (file * list ev) :=
  if err f then Some (f, []) else
  if negb (hasbuf f) then Some (f, [ECon p (firstn (Z.to_nat (kTtyW K t [c])) [c])]) else
  if (0 <=? cnt f) && (cnt f <? Z.of_nat (length (buf f))) then
    let f1 := File (fd f) (mode f) (hasbuf f) (setNth (buf f) (Z.to_nat (cnt f)) c) (size f) (len f) (cnt f + 1) (tty f) (eof f) (err f) (slot f) in
    if (size f1 <=? cnt f1) || tty f1 && (c =? 10) then Some (flushF t p f1) else Some (f1, [])
  else None.

(* stdio.cmm:115-129 *)
Definition fputc (c fp : Z) (s : st) : out bool :=
  if negb (goodFp s fp) then Exit EUBADF s else
  if mode (files s fp) =? RDONLY then Exit EUMODE s else
  match putcF (tr s) fp c (files s fp) with
  | Some (f, t) => Go (err f) (put s fp f t)
  | None => Undef
  end.

(* stdio.cmm:136-140 *)
Fixpoint fputs (str : list Z) (fp : Z) (s : st) : out bool :=
  match str with
  | [] => Go false s
  | c :: r =>
      match fputc c fp s with
      | Go true s' => Go true s'
      | Go false s' => fputs r fp s'
      | Exit e s' => Exit e s'
      | Undef => Undef
      end
  end.

(* ---- input ---- *)
(* stdio.cmm:148-165 *)
Definition fillF (t : list ev) (f : file) : file * list ev :=
  if tty f then
    let bs := kTtyR K t (size f) in
    (File (fd f) (mode f) (hasbuf f) (bs ++ skipn (length bs) (buf f)) (size f) (Z.of_nat (length bs)) 0 (tty f) (eof f) (err f) (slot f), [EKey bs])
  else
    let r := kRead K t (fd f) (size f) in
    match r with
    | None => (File (fd f) (mode f) (hasbuf f) (buf f) (size f) 0 0 (tty f) true true (slot f), [ERead (fd f) r])
    | Some bs =>
        (File (fd f) (mode f) (hasbuf f) (bs ++ skipn (length bs) (buf f)) (size f) (Z.of_nat (length bs)) 0 (tty f)
           (Z.of_nat (length bs) =? 0) (err f) (slot f), [ERead (fd f) r])
    end.
(* stdio.cmm:171, 179 *)
Definition needF (t : list ev) (f : file) : file * list ev := if len f <=? cnt f then fillF t f else (f, []).

(* stdio.cmm:168-173 *)
Definition feof (fp : Z) (s : st) : out bool :=
  if negb (goodFp s fp) then Exit EUBADF s else
  if negb (mode (files s fp) =? RDONLY) then Exit EUMODE s else
  let '(f, t) := needF (tr s) (files s fp) in Go (eof f) (put s fp f t).

(* stdio.cmm:176-186 *)
Definition fgetc (fp : Z) (s : st) : out Z :=
  if negb (goodFp s fp) then Exit EUBADF s else
  if negb (mode (files s fp) =? RDONLY) then Exit EUMODE s else
  let '(f, t) := needF (tr s) (files s fp) in
  if eof f then Exit EUEOF (put s fp f t) else
  if (0 <=? cnt f) && (cnt f <? Z.of_nat (length (buf f))) then
    Go (nth (Z.to_nat (cnt f)) (buf f) 0) (put s fp (setCnt f (cnt f + 1)) t)
  else Undef.

(* stdio.cmm:196-200: at most k characters; the characters stored *)
Fixpoint getsLoop (k : nat) (fp : Z) (acc : list Z) (s : st) : out (list Z) :=
  match k with
  | O => Go acc s
  | S k =>
      match feof fp s with
      | Go true s1 => Go acc s1
      | Go false s1 =>
          match fgetc fp s1 with
          | Go c s2 => if c =? 10 then Go (acc ++ [c]) s2 else getsLoop k fp (acc ++ [c]) s2
          | Exit e s2 => Exit e s2
          | Undef => Undef
          end
      | Exit e s1 => Exit e s1
      | Undef => Undef
      end
  end.
(* stdio.cmm:193-205: what is stored from str on, and whether str (true) or null is returned *)
Definition fgets (n fp : Z) (s : st) : out (list Z * bool) :=
  match getsLoop (Z.to_nat (i16 (n - 1))) fp [] s with
  | Go l s' => Go (l ++ [0], negb (Z.of_nat (length l) =? 0)) s'
  | Exit e s' => Exit e s'
  | Undef => Undef
  end.

(* stdio.cmm:208-217 *)
Definition fseek (fp h l : Z) (s : st) : out bool :=
  if negb (goodFp s fp) then Exit EUBADF s else
  let f0 := files s fp in
  let '(f1, t1) := if negb (mode f0 =? RDONLY) then flushF (tr s) fp f0 else (f0, []) in
  let r := kSeek K (tr s ++ t1) (fd f1) h l in
  if negb (r =? 0) then Exit r (put s fp f1 t1) else
  let t2 := t1 ++ [ESeek (fd f1) h l] in
  if mode f0 =? RDONLY then
    let '(f2, t3) := fillF (tr s ++ t2) f1 in Go false (put s fp f2 (t2 ++ t3))
  else Go false (put s fp f1 t2).

(* ---- open and close ---- *)
(* stdio.cmm:258-268 *)
Fixpoint srchFrom (i : Z) (l : list Z) : option Z :=
  match l with
  | [] => None
  | p :: r => if p =? 0 then Some i else srchFrom (i + 1) r
  end.
(* stdio.cmm:271-281 *)
Definition allocFile (d m siz : Z) (s : st) : out Z :=
  match srchFrom 0 (slots s) with
  | None => Exit EUNFILE s
  | Some i =>
      let p := kAlloc K (tr s) (slots s) in
      let b := map (fun j => kJunk K (tr s) (Z.of_nat j)) (seq 0 (Z.to_nat siz)) in
      let s1 := put s p (File d m true b siz 0 0 false false false i) [] in
      Go p (St (files s1) (setNth (slots s) (Z.to_nat i) p) (tr s1))
  end.

Definition logged (s : st) (e : ev) : st := St (files s) (slots s) (tr s ++ [e]).

(* stdio.cmm:284-313; creat is the system call with the same name. A descriptor is logged when
   the system call succeeds. *)
Definition fopen (name md : list Z) (s : st) : out Z :=
  let tryOpen m s :=
    let d := kOpen K (tr s) name m in
    if d <? 0 then Go 0 s else allocFile d m 128 (logged s (EOpen d m)) in
  let awOpen m s :=
    let d := kOpen K (tr s) name m in
    if d <? 0 then
      if (d =? ENOENT) && (0 <=? kCreat K (tr s) name) then tryOpen m (logged s ECreat) else Go 0 s
    else allocFile d m 128 (logged s (EOpen d m)) in
  if list_eq_dec Z.eq_dec md [114] then tryOpen RDONLY s else
  if list_eq_dec Z.eq_dec md [119] then awOpen WRONLY s else
  if list_eq_dec Z.eq_dec md [97] then awOpen APPEND s else
  Exit EUMODE s.

(* stdio.cmm:316-331; free is C35's *)
Definition fclose (fp : Z) (s : st) : out bool :=
  if negb (goodFp s fp) then Exit EUBADF s else
  let f0 := files s fp in
  if slot f0 <? 3 then Exit EUSTDIO s else
  let '(f1, t1) := if negb (mode f0 =? RDONLY) then flushF (tr s) fp f0 else (f0, []) in
  if negb (mode f0 =? RDONLY) && err f1 then Go true (put s fp f1 t1) else
  if kClose K (tr s ++ t1) (fd f1) <? 0 then Go true (put s fp (setErr f1 true) t1) else
  let s1 := put s fp f1 (t1 ++ [EClose (fd f1)]) in
  Go false (St (files s1) (setNth (slots s) (Z.to_nat (slot f1)) 0) (tr s1)).

(* stdio.cmm:334-337 *)
Definition ferror (fp : Z) (s : st) : out bool :=
  if negb (goodFp s fp) then Exit EUBADF s else Go (err (files s fp)) s.

(* stdio.cmm:106-111 *)
Fixpoint flushAll (l : list Z) (s : st) : out unit :=
  match l with
  | [] => Go tt s
  | p :: r =>
      if negb (p =? 0) && negb (mode (files s p) =? RDONLY) then
        match fflush p s with
        | Go _ s' => flushAll r s'
        | Exit e s' => Exit e s'
        | Undef => Undef
        end
      else flushAll r s
  end.
(* stdlib.cmm:182-185 *)
Definition exit_ (status : Z) (s : st) : out unit :=
  match flushAll (slots s) s with
  | Go _ s' => Exit status s'
  | Exit e s' => Exit e s'
  | Undef => Undef
  end.

(* ---- histories ---- *)
Inductive op : Type :=
| Fopen (name md : list Z) | Fclose (fp : Z) | Fflush (fp : Z) | Fputc (c fp : Z) | Fputs (str : list Z) (fp : Z)
| Feof (fp : Z) | Fgetc (fp : Z) | Fgets (n fp : Z) | Fseek (fp h l : Z) | Ferror (fp : Z) | FexitOp (status : Z).
Inductive res : Type := RBool (b : bool) | RChar (c : Z) | RPtr (p : Z) | RLine (stored : list Z) (nonnull : bool) | RNone.

Definition ret_ {A} (g : A -> res) (o : out A) : out res :=
  match o with Go a s => Go (g a) s | Exit c s => Exit c s | Undef => Undef end.
Definition step (o : op) (s : st) : out res :=
  match o with
  | Fopen n m => ret_ RPtr (fopen n m s)
  | Fclose p => ret_ RBool (fclose p s)
  | Fflush p => ret_ RBool (fflush p s)
  | Fputc c p => ret_ RBool (fputc c p s)
  | Fputs w p => ret_ RBool (fputs w p s)
  | Feof p => ret_ RBool (feof p s)
  | Fgetc p => ret_ RChar (fgetc p s)
  | Fgets n p => ret_ (fun '(l, b) => RLine l b) (fgets n p s)
  | Fseek p h l => ret_ RBool (fseek p h l s)
  | Ferror p => ret_ RBool (ferror p s)
  | FexitOp c => ret_ (fun _ => RNone) (exit_ c s)
  end.

(* calls with their results, the program going on after each *)
Inductive hist : st -> list (op * res) -> st -> Prop :=
| H_nil : forall s, hist s [] s
| H_step : forall s o r s' h s'', step o s = Go r s' -> hist s' h s'' -> hist s ((o, r) :: h) s''.
End Stdio.
