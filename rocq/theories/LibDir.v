(* Model of readDir and _perror of lib/SrcTac/stdio.cmm.  A directory that is open is what its
   next calls of read give: the bytes of one call after the other, and at the end the value e
   (0, or the number of an error).  The buffer is a variable of the library: a short read leaves
   the rest of it as it was.  References into arrays are checked (get and set of LibEnviron.v). *)
From Coq Require Import ZArith Bool String List.
From Verif Require Import Lexer LibEnviron LibDirSpec.
Import ListNotations.
Open Scope Z_scope.

(* stdio.cmm:409-410 *)
Fixpoint copyName (k : nat) (i : Z) (buf name : list Z) : out (list Z) :=
  match k with
  | O => Ok name
  | S k => do! c <- get buf i in do! name <- set name i c in copyName k (i + 1) buf name
  end.
(* stdio.cmm:398: words of 16 bits *)
Definition wordLE (buf : list Z) (i : Z) : out Z :=
  do! h <- get buf (i + 1) in do! l <- get buf i in Ok (Z.lor (Z.shiftl h 8 mod 65536) l).
(* stdio.cmm:401-423: the result, the structure, the buffer and what is still to be read *)
Fixpoint readDir (rest : list (list Z)) (e : Z) (buf : list Z) (d : dirInfo) : out (Z * dirInfo * list Z * list (list Z)) :=
  match rest with
  | [] => Ok (e, d, buf, [])
  | b :: rest =>
    let buf := b ++ skipn (length b) buf in
    do! flag <- get buf 0 in
    do! attr <- get buf 11 in
    if flag =? 0 then Ok (0, d, buf, rest)
    else if negb (flag =? 229) && (Z.land attr 10 =? 0) then
      do! name <- copyName 11 0 buf (dname d) in
      do! name <- (if flag =? 5 then set name 0 229 else Ok name) in
      do! name <- set name 11 0 in
      do! clst <- wordLE buf 26 in
      do! lenH <- wordLE buf 30 in
      do! lenL <- wordLE buf 28 in
      Ok (1, DirInfo name attr clst lenH lenL, buf, rest)
    else readDir rest e buf d
  end.
(* a caller as in doc/chap4.tex:361-366: the entries it is told of, the last result; n calls at
   most (None: there were more) *)
Fixpoint listDir (n : nat) (rest : list (list Z)) (e : Z) (buf : list Z) (d : dirInfo) : out (option (list dirInfo * Z)) :=
  match n with
  | O => Ok None
  | S n =>
    do! (r, d, buf, rest) <- readDir rest e buf d in
    if 0 <? r then do! x <- listDir n rest e buf d in Ok (match x with Some (l, r) => Some (d :: l, r) | None => None end)
    else Ok (Some ([], r))
  end.

(* stdio.cmm:340-383 *)
Definition errList : list string := [
  "Undefined error"%string;
  "Invalid file name"%string;
  "No such file or directrory"%string;
  "File exists"%string;
  "File is opened"%string;
  "File table overflow"%string;
  "Bad file number"%string;
  "No space left on device"%string;
  "Bad path"%string;
  "Bad mode"%string;
  "Bad attribute"%string;
  "Directory is not empty"%string;
  "Invalid argument"%string;
  "Process table overflow"%string;
  "Bad EXE file"%string;
  "Bad MAGIC number"%string;
  "Too many open files"%string;
  "No children"%string;
  "No zombie children"%string;
  "Not enough memory"%string;
  "Try again"%string;
  "Invalid system call number"%string;
  "Zero division"%string;
  "Privilege violation"%string;
  "Illegal instruction"%string;
  "Memory violation"%string;
  "Stack overflow"%string;
  "stdio: Bad open mode"%string;
  "stdio: Bad file pointer"%string;
  "fgetc: EOF was ignored"%string;
  "fopen: Too many open files"%string;
  "fclose: Standard i/o should not be closed"%string;
  "fprintf: Invalid conversion"%string;
  "malloc: Insufficient memory"%string;
  "free: Bad address"%string].
(* stdio.cmm:385-390: what is written to stderr; None is null *)
Definition perrorText (msg : option (list Z)) (err : Z) : out (list Z) :=
  let err := if (err <? -34) || (0 <=? err) then 0 else err in
  let head := match msg with Some (c :: r) => (c :: r) ++ codes ": " | _ => [] end in
  do! m <- get errList (- err) in Ok (head ++ codes m ++ [10]).
