(* Model of functions of lib/SrcC/wrapper.c, the library of the C translator, for
   which C and the operating system differ from C--: htoi, feof, fseek, fsize.
   int has 32 bits, long 64. An overflow of int is None: undefined in C. *)
From Coq Require Import ZArith Bool List String Ascii.
From Verif Require Import Lexer RtcHeap.
Import ListNotations.
Open Scope Z_scope.

Definition inInt (v : Z) : option Z := if (- 2 ^ 31 <=? v) && (v <? 2 ^ 31) then Some v else None.

(* ctype.h in the C locale *)
Definition isdig (c : Z) : bool := (48 <=? c) && (c <=? 57).
Definition isxdig (c : Z) : bool := isdig c || ((97 <=? c) && (c <=? 102)) || ((65 <=? c) && (c <=? 70)).
Definition toup (c : Z) : Z := if (97 <=? c) && (c <=? 122) then c - 32 else c.

(* wrapper.c:126-138; s: the characters of the string up to its 0 *)
Fixpoint htoiLoop (v : Z) (s : list Z) : option Z :=
  match s with
  | [] => Some v
  | c :: s =>
    if isxdig c then
      match inInt (v * 16) with
      | None => None
      | Some p => match inInt (p + (if isdig c then c - 48 else 10 + toup c - 65)) with None => None | Some v => htoiLoop v s end
      end
    else Some v
  end.
Definition htoi (s : list Z) : option Z := htoiLoop 0 s.

(* a C stream: what was pushed back, and what follows *)
Record stream := Stream { pushed : option Z; coming : list Z }.
(* C's fgetc (None: EOF) and ungetc *)
Definition fgetc (f : stream) : option Z * stream :=
  match f with
  | Stream (Some c) r => (Some c, Stream None r)
  | Stream None (c :: r) => (Some c, Stream None r)
  | Stream None [] => (None, f)
  end.
Definition ungetc (c : Z) (f : stream) : stream := Stream (Some c) (coming f).
(* wrapper.c:106-111 *)
Definition feof (f : stream) : bool * stream :=
  match fgetc f with
  | (None, f) => (true, f)
  | (Some c, f) => (false, ungetc c f)
  end.

(* wrapper.c:114-116: the offset passed to C's fseek *)
Definition seekTo (offsh offsl : Z) : Z :=
  let l := Z.lor (Z.shiftl offsh 32) offsl in (l + 2 ^ 63) mod 2 ^ 64 - 2 ^ 63.
(* wrapper.c:119-125, once lstat succeeded; the two ints of size *)
Definition fsize (st_size : Z) : Z * Z :=
  (int32 (Z.land (Z.shiftr st_size 32) 4294967295), int32 (Z.land st_size 4294967295)).

(* the loop of the manual, doc/chap4.tex:478: while (!feof(fp)) { c = fgetc(fp); ... } *)
Fixpoint readAll (fuel : nat) (f : stream) : option (list Z) :=
  match fuel with
  | O => None
  | S n =>
    match feof f with
    | (true, _) => Some []
    | (false, f) =>
      match fgetc f with
      | (Some c, f) => option_map (cons c) (readAll n f)
      | (None, _) => None
      end
    end
  end.
