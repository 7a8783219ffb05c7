(* Model of the driver cm2e (src/cm2e.in, the part after the options, lines 61-124): what it does
   to the files, its status and what -E prints.  The tools are parameters (DriverTacSpec.v): of
   as--, ld-- and objexe--, which are not in the repository, only which files they read and write
   is fixed.  pid is the number of the process.  The options -I, -D, -K, -P and -nostdinc
   choose the tools and are left out, and so are names with blanks, which the shell splits. *)
From Coq Require Import ZArith Bool List String.
From Verif Require Import Lexer CCode DriverSpec Driver DriverTacSpec.
Import ListNotations.
Open Scope Z_scope.

Section Script.
Variable T : tacTools.
Variable f : flags.
Variable pid : list Z.
(* cm2e.in:119: the linked program *)
Definition linkFile : path := Path here pid (codes ".o").
(* cm2e.in:66-70: the name of the executable *)
Definition exeFile : path := if list_eq_dec Z.eq_dec (pext (exe f)) [] then withExt (exe f) ".exe" else exe f.
(* as-- on the text at withExt p ".s": the object and the listing are put beside it *)
Definition asTo (p : path) (F : files) : bool * files :=
  match F (withExt p ".s") with
  | None => (false, F)
  | Some c =>
    match tasm T c with
    | Assembled o l => (true, put (put F (withExt p ".o") (Some o)) (withExt p ".lst") (Some l))
    | AsmFailed o l =>
      let F := match o with Some o => put F (withExt p ".o") (Some o) | None => F end in
      (false, match l with Some l => put F (withExt p ".lst") (Some l) | None => F end)
    end
  end.
(* cm2e.in:80-114: one argument; error is cm2e.in:3-7, as in cm2c (Driver.v) *)
Definition argE (s : st) (p : path) : res :=
  let F := sF s in
  if hasExt p ".cmm" then
    let t := match F p with Some x => tcpp T x | None => None end in
    if fE f then
      match t with Some t => Next (St F (objs s) (tmps s) (out s ++ t)) | None => error F s end
    else
      match t with
      | None => error (put F (tmpFile pid) None) s
      | Some t =>
        let F := put F (tmpFile pid) (Some t) in
        match ttrans T t with
        | None => error (put (put F (tmpFile pid) None) (withExt p ".s") None) s
        | Some c =>
          let F := put (put F (withExt p ".s") (Some c)) (tmpFile pid) None in
          if fS f then Next (St F (objs s) (tmps s) (out s))
          else
            let s := St F (objs s ++ [withExt p ".o"]) (tmps s ++ [withExt p ".o"]) (out s) in
            let (ok, F) := asTo p F in
            let F := put (put F (withExt p ".s") None) (withExt p ".lst") None in
            if ok then Next (St F (objs s) (tmps s) (out s)) else error F s
        end
      end
  else if hasExt p ".s" then
    if negb (fE f) && negb (fS f) then
      let s := St F (objs s ++ [withExt p ".o"]) (tmps s ++ [withExt p ".o"]) (out s) in
      let (ok, F) := asTo p F in
      let F := put F (withExt p ".lst") None in
      if ok then Next (St F (objs s) (tmps s) (out s)) else error F s
    else Next s
  else if hasExt p ".o" then Next (St F (objs s ++ [withExt p ".o"]) (tmps s) (out s))
  else error F s.
(* cm2e.in:79-115 *)
Fixpoint loopE (s : st) (args : list path) : res :=
  match args with
  | [] => Next s
  | p :: r => match argE s p with Next s => loopE s r | Stop F o => Stop F o end
  end.
(* cm2e.in:117-122: the status of ld-- and objexe-- is not looked at; the map is made by the
   shell even if objexe-- fails, then it is empty *)
Definition buildE (s : st) : files :=
  let F := sF s in
  let F := match contents F (objs s) with
           | Some xs => match tld T xs with Some x => put F linkFile (Some x) | None => F end
           | None => F
           end in
  let F := match match F linkFile with Some x => tobjexe T x | None => None end with
           | Some (x, m) => put (put F exeFile (Some x)) (withExt exeFile ".map") (Some m)
           | None => put F (withExt exeFile ".map") (Some [])
           end in
  rmAll (tmps s ++ [linkFile]) F.
(* cm2e.in:61-124: the status, the files, the output *)
Definition cm2e (args : list path) (F : files) : Z * files * list Z :=
  match args with
  | [] => (1, F, [])
  | _ =>
    if hasExt exeFile ".exe" then
      match loopE (St F [] [] []) args with
      | Stop F o => (1, F, o)
      | Next s => (0, if negb (fE f) && negb (fS f) && negb (fC f) then buildE s else sF s, out s)
      end
    else (1, F, [])
  end.
End Script.
