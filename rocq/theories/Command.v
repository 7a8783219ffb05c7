(* Model of the main program of the compiler and of the translator (src/main.c) and of setFname
   and eOpen (src/util.c).  argc is at least 1; argv[0] and the texts of the messages are left
   out.  The compiler proper is a parameter: from optFlag, krnFlag and the source text to its
   output; what it has written before an error is left out. *)
From Coq Require Import ZArith Bool List String.
From Verif Require Import Lexer CCode CommandSpec.
Import ListNotations.
Open Scope Z_scope.

(* strcmp(a, b) == 0 *)
Definition same (a b : argument) : bool := if list_eq_dec Z.eq_dec a b then true else false.
(* util.c:51-59: k places of fname are left; None: fname[StrMAX+1] is read *)
Fixpoint copyName (k : nat) (s : list Z) : option (list Z) :=
  match k with
  | O => None
  | S k =>
    match s with
    | [] => Some []
    | c :: s => match copyName k s with Some r => Some (c :: r) | None => None end
    end
  end.
Definition setFname (s : list Z) : option (list Z) := copyName 129 s.

Section Main.
Variable tool : bool -> bool -> list Z -> done.
(* the files that can be read; the standard input *)
Variable file : argument -> option (list Z).
Variable stdin : list Z.

(* main.c:102-105 *)
Definition go (opt krn : bool) (text : list Z) : ran :=
  match tool opt krn text with Text t => Wrote t | Error => Rejected | Undef => NotDefined end.
(* main.c:91-100 *)
Definition openSrc (opt krn : bool) (rest : list argument) : ran :=
  match rest with
  | [f] =>
    match file f with
    | Some text => match setFname f with Some _ => go opt krn text | None => NotDefined end
    | None => CannotOpen f
    end
  | [] => go opt krn stdin
  | _ => UsageText 1
  end.
(* main.c:85-89 *)
Definition argK (opt : bool) (args : list argument) : ran :=
  match args with
  | w :: r => if same w (codes "-K") then openSrc opt true r else openSrc opt false args
  | [] => openSrc opt false args
  end.
(* main.c:79-83 *)
Definition argO0 (opt : bool) (args : list argument) : ran :=
  match args with
  | w :: r => if same w (codes "-O0") then argK false r else argK opt args
  | [] => argK opt args
  end.
(* main.c:72-77; optFlag is true at the start, parser.c:119 *)
Definition argO (args : list argument) : ran :=
  match args with
  | w :: r => if same w (codes "-O") || same w (codes "-O1") then argO0 true r else argO0 true args
  | [] => argO0 true args
  end.
(* main.c:61-70 *)
Definition command (args : list argument) : ran :=
  match args with
  | w :: _ => if same w (codes "-v") || same w (codes "-h") then UsageText 0 else argO args
  | [] => argO args
  end.
End Main.
