(* Model of the driver cm2c (src/cm2c.in, the part after the options, lines 86-139): what it does
   to the files, its status and what -E prints.  The tools are parameters (DriverSpec.v); pid is
   the number of the process ($$).  The options -I, -D, -nostdinc, -rtc and -nortc choose the
   tools and are left out, and so are names with blanks, which the shell splits. *)
From Coq Require Import ZArith Bool List String.
From Verif Require Import Lexer CCode DriverSpec.
Import ListNotations.
Open Scope Z_scope.

Definition path_dec (p q : path) : {p = q} + {p <> q}.
Proof. decide equality; apply list_eq_dec; apply Z.eq_dec. Defined.
Definition put (F : files) (p : path) (v : option (list Z)) : files := fun q => if path_dec p q then v else F q.
(* rm -f *)
Definition rmAll (l : list path) (F : files) : files := fold_left (fun F p => put F p None) l F.
Definition hasExt (p : path) (e : string) : bool := if list_eq_dec Z.eq_dec (pext p) (codes e) then true else false.

Section Script.
Variable T : tools.
Variable f : flags.
Variable pid : list Z.
Definition tmpFile : path := Path here pid (codes ".tmp").
(* the files, ${objs}, ${tmps}, the standard output *)
Record st := St { sF : files; objs : list path; tmps : list path; out : list Z }.
Inductive res := Next (s : st) | Stop (F : files) (o : list Z).
(* cm2c.in:3-7, after the command given to it *)
Definition error (F : files) (s : st) : res := Stop (rmAll (tmps s) F) (out s).
(* the object of the source p in the C text c, which is at withExt p ".c": cc -c puts it in the
   current directory; None: cc reports an error *)
Definition ccTo (p : path) (F : files) : option files :=
  match F (withExt p ".c") with
  | Some c => match cc T c with Some o => Some (put F (Path here (pstem p) (codes ".o")) (Some o)) | None => None end
  | None => None
  end.
(* cm2c.in:94-129: one argument *)
Definition arg (s : st) (p : path) : res :=
  let F := sF s in
  if hasExt p ".cmm" then
    let t := match F p with Some x => cpp T x | None => None end in
    if fE f then
      match t with Some t => Next (St F (objs s) (tmps s) (out s ++ t)) | None => error F s end
    else
      match t with
      | None => error (put F tmpFile None) s
      | Some t =>
        let F := put F tmpFile (Some t) in
        match trans T t with
        | None => error (put (put F tmpFile None) (withExt p ".c") None) s
        | Some c =>
          let F := put (put F (withExt p ".c") (Some c)) tmpFile None in
          if fS f then Next (St F (objs s) (tmps s) (out s))
          else
            let s := St F (objs s ++ [withExt p ".o"]) (tmps s ++ [withExt p ".o"]) (out s) in
            match ccTo p F with
            | None => error (put F (withExt p ".c") None) s
            | Some F => Next (St (put F (withExt p ".c") None) (objs s) (tmps s) (out s))
            end
        end
      end
  else if hasExt p ".c" then
    if negb (fE f) && negb (fS f) then
      let s := St F (objs s ++ [withExt p ".o"]) (tmps s ++ [withExt p ".o"]) (out s) in
      match ccTo p F with
      | None => error F s
      | Some F => Next (St F (objs s) (tmps s) (out s))
      end
    else Next s
  else if hasExt p ".o" then Next (St F (objs s ++ [withExt p ".o"]) (tmps s) (out s))
  else error F s.
(* cm2c.in:93-131 *)
Fixpoint loop (s : st) (args : list path) : res :=
  match args with
  | [] => Next s
  | p :: r => match arg s p with Next s => loop s r | Stop F o => Stop F o end
  end.
(* the contents of the objects, if they are all there *)
Fixpoint contents (F : files) (l : list path) : option (list (list Z)) :=
  match l with
  | [] => Some []
  | p :: r => match F p, contents F r with Some x, Some xs => Some (x :: xs) | _, _ => None end
  end.
(* cm2c.in:133-137: the status of cc is not looked at; if it fails, no executable is made *)
Definition build (s : st) : files :=
  rmAll (tmps s)
    match contents (sF s) (objs s) with
    | Some xs => match link T xs with Some x => put (sF s) (exe f) (Some x) | None => sF s end
    | None => sF s
    end.
(* cm2c.in:86-139: the status, the files, the output *)
Definition cm2c (args : list path) (F : files) : Z * files * list Z :=
  match args with
  | [] => (1, F, [])
  | _ =>
    match loop (St F [] [] []) args with
    | Stop F o => (1, F, o)
    | Next s => (0, if negb (fE f) && negb (fS f) && negb (fC f) then build s else sF s, out s)
    end
  end.
End Script.
