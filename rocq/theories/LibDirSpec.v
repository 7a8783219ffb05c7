(* What readDir and perror of the TacOS library promise. *)
From Coq Require Import ZArith Bool String List.
From Verif Require Import Lexer.
Import ListNotations.
Open Scope Z_scope.

(* ==== readDir: the directories of FAT16 ==== *)
(* an entry: 32 bytes *)
Definition entry (e : list Z) : Prop := length e = 32%nat /\ Forall (fun b => 0 <= b < 256) e.
Definition byte (e : list Z) (i : nat) : Z := nth i e 0.
(* the entries before the first whose first byte is 0: after it there are none *)
Fixpoint used (es : list (list Z)) : list (list Z) :=
  match es with [] => [] | e :: r => if byte e 0 =? 0 then [] else e :: used r end.
Definition hasEnd (es : list (list Z)) : Prop := exists e, In e es /\ byte e 0 = 0.
(* a file or a directory: not erased (first byte 0xe5), not hidden (bit 1 of the attributes), not
   the label of the volume (bit 3) *)
Definition shown (e : list Z) : bool := negb (byte e 0 =? 229) && negb (Z.testbit (byte e 11) 1) && negb (Z.testbit (byte e 11) 3).
Record dirInfo := DirInfo { dname : list Z; dattr : Z; dclst : Z; dlenH : Z; dlenL : Z }.
(* what the caller is told about the entry: eleven characters and a 0, where 5 at the start stands
   for 0xe5; attributes, first cluster, and the length in two words *)
Definition describes (e : list Z) (d : dirInfo) : Prop :=
  length (dname d) = 12%nat /\ nth 11 (dname d) 1 = 0 /\
  nth 0 (dname d) 0 = (if byte e 0 =? 5 then 229 else byte e 0) /\
  (forall i, (1 <= i < 11)%nat -> nth i (dname d) 0 = byte e i) /\
  dattr d = byte e 11 /\ dclst d = byte e 26 + 256 * byte e 27 /\
  0 <= dlenL d < 65536 /\ dlenH d * 65536 + dlenL d = byte e 28 + 256 * byte e 29 + 65536 * byte e 30 + 16777216 * byte e 31.

(* ==== perror ==== *)
(* doc/chap4.tex:395-429 with the numbers of include/errno.hmm *)
Definition errTable : list (Z * string) := [
  (-1, "Invalid file name"%string);
  (-2, "No such file or directrory"%string);
  (-3, "File exists"%string);
  (-4, "File is opened"%string);
  (-5, "File table overflow"%string);
  (-6, "Bad file number"%string);
  (-7, "No space left on device"%string);
  (-8, "Bad path"%string);
  (-9, "Bad mode"%string);
  (-10, "Bad attribute"%string);
  (-11, "Directory is not empty"%string);
  (-12, "Invalid argument"%string);
  (-13, "Process table overflow"%string);
  (-14, "Bad EXE file"%string);
  (-15, "Bad MAGIC number"%string);
  (-16, "Too many open files"%string);
  (-17, "No children"%string);
  (-18, "No zombie children"%string);
  (-19, "Not enough memory"%string);
  (-20, "Try again"%string);
  (-21, "Invalid system call number"%string);
  (-22, "Zero division"%string);
  (-23, "Privilege violation"%string);
  (-24, "Illegal instruction"%string);
  (-25, "Memory violation"%string);
  (-26, "Stack overflow"%string);
  (-27, "stdio: Bad open mode"%string);
  (-28, "stdio: Bad file pointer"%string);
  (-29, "fgetc: EOF was ignored"%string);
  (-30, "fopen: Too many open files"%string);
  (-31, "fclose: Standard i/o should not be closed"%string);
  (-32, "fprintf: Invalid conversion"%string);
  (-33, "malloc: Insufficient memory"%string);
  (-34, "free: Bad address"%string)].
