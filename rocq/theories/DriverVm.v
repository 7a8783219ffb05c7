(* Model of the drivers cm2v and cm2i (src/cm2v.in and src/cm2i.in, the part after the options,
   lines 43-71; the scripts differ in the translator and the extension of its output, line 59):
   what they do to the files, the status and what -E prints.  Simplified as in Driver.v. *)
From Coq Require Import ZArith Bool List String.
From Verif Require Import Lexer CCode DriverSpec Driver.
Import ListNotations.
Open Scope Z_scope.

Section ScriptVm.
Variable T : tools.
Variable e : string.   (* ".v" or ".i" *)
Variable eflag : bool.
Variable pid : list Z.
(* one argument (50-67): None is exit 1 *)
Definition vArg (F : files) (o : list Z) (p : path) : bool * files * list Z :=
  if hasExt p ".cmm" then
    let t := match F p with Some x => cpp T x | None => None end in
    if eflag then match t with Some t => (true, F, o ++ t) | None => (false, F, o) end
    else
      match t with
      | None => (false, put F (tmpFile pid) None, o)
      | Some t =>
        let F := put F (tmpFile pid) (Some t) in
        match trans T t with
        | None => (false, put (put F (tmpFile pid) None) (withExt p e) None, o)
        | Some c => (true, put (put F (withExt p e) (Some c)) (tmpFile pid) None, o)
        end
      end
  else (false, F, o).
(* 49-69 *)
Fixpoint vLoop (F : files) (o : list Z) (args : list path) : Z * files * list Z :=
  match args with
  | [] => (0, F, o)
  | p :: r => let '(b, F, o) := vArg F o p in if b then vLoop F o r else (1, F, o)
  end.
(* 44-71 *)
Definition cm2x (args : list path) (F : files) : Z * files * list Z :=
  match args with
  | [] => (1, F, [])
  | _ => vLoop F [] args
  end.
End ScriptVm.
Definition cm2v (T : tools) := cm2x T ".v".
Definition cm2i (T : tools) := cm2x T ".i".
