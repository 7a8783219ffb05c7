(* What a user may ask of the compiler on its command line, after the manual (doc/command.tex,
   "c--": [-O0] [-O] [-O1] [-K] [<source file>]) and the order in which the options are taken. *)
From Coq Require Import ZArith Bool List String.
From Verif Require Import Lexer CCode.
Import ListNotations.
Open Scope Z_scope.

Definition argument := list Z.
Definition isOption (w : argument) : Prop :=
  w = codes "-O" \/ w = codes "-O1" \/ w = codes "-O0" \/ w = codes "-K".
Definition asksHelp (args : list argument) : Prop :=
  exists w r, args = w :: r /\ (w = codes "-h" \/ w = codes "-v").
(* the arguments ask for the compilation of src (None: the standard input) with constants
   computed beforehand (opt) and in kernel mode (krn) *)
Definition asks (args : list argument) (opt krn : bool) (src : option argument) : Prop :=
  exists a b c, args = a ++ b ++ c ++ match src with Some f => [f] | None => [] end /\
    (a = [] \/ a = [codes "-O"] \/ a = [codes "-O1"]) /\
    (b = if opt then [] else [codes "-O0"]) /\
    (c = if krn then [codes "-K"] else []) /\
    (forall f, src = Some f -> ~ isOption f /\ f <> codes "-h" /\ f <> codes "-v").
(* what becomes of a run: the text written and status 0, the usage text and a status, a source
   file that cannot be read, a source text that is rejected (both status 1), or something the
   C standard does not define *)
Inductive ran := Wrote (text : list Z) | UsageText (status : Z) | CannotOpen (name : argument) | Rejected | NotDefined.
(* what the compiler proper does with a source text *)
Inductive done := Text (text : list Z) | Error | Undef.
