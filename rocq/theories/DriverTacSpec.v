(* Tools of the driver cm2e and what it promises (files and paths as in DriverSpec.v). *)
From Coq Require Import ZArith Bool List String.
From Verif Require Import Lexer CCode DriverSpec.
Import ListNotations.
Open Scope Z_scope.

(* the assembler makes an object and a listing, or it fails, and may leave either *)
Inductive asmResult := Assembled (o l : list Z) | AsmFailed (o l : option (list Z)).
(* the preprocessor with the headers as they are, the translator, the assembler, the linker with
   the library, and objexe, which makes the executable and prints the map (here: sorted) *)
Record tacTools := TacTools {
  tcpp : list Z -> option (list Z);
  ttrans : list Z -> option (list Z);
  tasm : list Z -> asmResult;
  tld : list (list Z) -> option (list Z);
  tobjexe : list Z -> option (list Z * list Z) }.

(* the executable: the name after -o, to which .exe is added if it has no extension *)
Definition exeOf (f : flags) : path := match pext (exe f) with [] => withExt (exe f) ".exe" | _ => exe f end.

(* a source as it is translated, and assembled *)
Definition translatedE (T : tacTools) (F : files) (p : path) (c : list Z) : Prop :=
  exists s t, F p = Some s /\ tcpp T s = Some t /\ ttrans T t = Some c.
Definition assembles (T : tacTools) (c o : list Z) : Prop := exists l, tasm T c = Assembled o l.
Definition compiledE (T : tacTools) (F : files) (p : path) (o : list Z) : Prop :=
  (isA p ".cmm" /\ exists c, translatedE T F p c /\ assembles T c o) \/
  (isA p ".s" /\ exists c, F p = Some c /\ assembles T c o) \/
  (isA p ".o" /\ F p = Some o).

(* the files that a run on the arguments may make, change or remove, besides its own temporary
   files: none with -E; with -S the translations; otherwise objects and listings too *)
Definition mayTouchE (f : flags) (args : list path) (q : path) : Prop :=
  (fE f = false /\ exists p, In p args /\ isA p ".cmm" /\ q = withExt p ".s") \/
  (fE f = false /\ fS f = false /\ exists p, In p args /\ (isA p ".cmm" \/ isA p ".s") /\ (q = withExt p ".o" \/ q = withExt p ".lst")) \/
  (links f /\ (q = exeOf f \/ q = withExt (exeOf f) ".map")).
(* where a file is, without its extension *)
Definition placeOf (p : path) : list Z * list Z := (pdir p, pstem p).
