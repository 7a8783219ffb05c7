(* Files, tools and what the driver cm2c promises.  A file is known by its directory, the name
   before the last dot and the extension; one file has one such path (directories are not
   spelled in two ways). *)
From Coq Require Import ZArith Bool List String.
From Verif Require Import Lexer CCode.
Import ListNotations.
Open Scope Z_scope.

Record path := Path { pdir : list Z; pstem : list Z; pext : list Z }.
Definition files := path -> option (list Z).
Definition here : list Z := codes ".".
Definition withExt (p : path) (e : string) : path := Path (pdir p) (pstem p) (codes e).
Definition isA (p : path) (e : string) : Prop := pext p = codes e.

(* the preprocessor with the headers as they are, the translator, the C compiler and the linker
   with the library: None if they report an error *)
Record tools := Tools {
  cpp : list Z -> option (list Z);
  trans : list Z -> option (list Z);
  cc : list Z -> option (list Z);
  link : list (list Z) -> option (list Z) }.

(* the flags -S, -c, -E and the name after -o *)
Record flags := Flags { fS : bool; fC : bool; fE : bool; exe : path }.
Definition links (f : flags) : Prop := fS f = false /\ fC f = false /\ fE f = false.

(* a source as it is translated, and compiled *)
Definition translated (T : tools) (F : files) (p : path) (c : list Z) : Prop :=
  exists s t, F p = Some s /\ cpp T s = Some t /\ trans T t = Some c.
Definition compiled (T : tools) (F : files) (p : path) (o : list Z) : Prop :=
  (isA p ".cmm" /\ exists c, translated T F p c /\ cc T c = Some o) \/
  (isA p ".c" /\ exists c, F p = Some c /\ cc T c = Some o) \/
  (isA p ".o" /\ F p = Some o).

(* the files that a run on the arguments may make, change or remove *)
Definition mayTouch (f : flags) (args : list path) (q : path) : Prop :=
  (exists p, In p args /\ isA p ".cmm" /\ q = withExt p ".c") \/
  (exists p, In p args /\ (isA p ".cmm" \/ isA p ".c") /\ (q = withExt p ".o" \/ q = Path here (pstem p) (codes ".o"))) \/
  (links f /\ q = exe f).
