(* Model of lib/SrcTac/wrap-syslib.cmm: the system calls that take a path.  The kernel is a
   parameter: a call on a path changes its state and has a result.  errno is what the variable
   holds when absPath has failed.  buf is what cMalloc(80) contains.  The heap is seen only as the
   sequence of cMalloc and free. *)
From Coq Require Import ZArith Bool List.
From Verif Require Import LibEnviron.
Import ListNotations.
Open Scope Z_scope.

(* the calls, with their other arguments as words *)
Inductive sysCall := SExec (argv envp : Z) | SCreat | SRemove | SMkDir | SRmDir | SOpen (mode : Z) | SStat (st : Z).
Inductive heapEvent := Allocated | Freed.

Section W.
Variable K : Type.
Variable kernel : sysCall -> str -> K -> K * Z.
Variable stat : str -> option Z.

(* wrap-syslib.cmm:48-55, newAbsPath: the path, None if it is null, and what was done to the heap *)
Definition newAbsPath (e : env) (path : str) (buf : list Z) : out (option str * list heapEvent) :=
  do! (fail, b, at_) <- absPath stat e path buf 80 in
  Ok (if fail : bool then (None, [Allocated; Freed]) else (Some (strAt b), [Allocated])).
(* wrap-syslib.cmm:59-114: exec, creat, remove, mkDir, rmDir, open and stat are the same but for the
   system call; the result, the kernel afterwards, what was done to the heap *)
Definition wrapped (c : sysCall) (e : env) (path : str) (buf : list Z) (errno : Z) (k : K) : out (Z * K * list heapEvent) :=
  do! (p, h) <- newAbsPath e path buf in
  match p with
  | None => Ok (errno, k, h)
  | Some p => let (k, r) := kernel c p k in Ok (r, k, h ++ [Freed])
  end.
End W.
