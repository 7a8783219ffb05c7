(* Model of lib/SrcTac/environ.cmm, function by function.
   Strings are lists of non-zero bytes; a call that copies a string makes a new list, so the
   model does not cover callers who pass a pointer into the environment itself.  malloc succeeds
   (it ends the program otherwise).  References into an array are checked: Undef is an access
   outside it.  errno is left out.  The string functions used are those of string.cmm, here over
   lists (their byte-level model is LibString.v). *)
From Coq Require Import ZArith Bool Lia List.
Import ListNotations.
Open Scope Z_scope.

Definition str := list Z.
Inductive out (A : Type) := Ok (a : A) | Undef.
Arguments Ok {A}. Arguments Undef {A}.
Definition andThen {A B} (x : out A) (f : A -> out B) : out B := match x with Ok a => f a | Undef => Undef end.
Notation "'do!' x '<-' c 'in' k" := (andThen c (fun x => k)) (at level 200, x pattern, c at level 100, k at level 200).

(* a[i] and a[i] = v *)
Definition get {A} (a : list A) (i : Z) : out A :=
  if i <? 0 then Undef else match nth_error a (Z.to_nat i) with Some x => Ok x | None => Undef end.
Fixpoint upd {A} (a : list A) (i : nat) (v : A) : list A :=
  match a, i with
  | [], _ => []
  | _ :: t, O => v :: t
  | x :: t, S i => x :: upd t i v
  end.
Definition set {A} (a : list A) (i : Z) (v : A) : out (list A) :=
  if (i <? 0) || (Z.of_nat (length a) <=? i) then Undef else Ok (upd a (Z.to_nat i) v).

(* string.cmm:90-94, 99-104, 81-87 (only whether the result is 0) *)
Definition strLen (s : str) : Z := Z.of_nat (length s).
Fixpoint chrFrom (s : str) (c i : Z) : Z :=
  match s with [] => -1 | x :: t => if x =? c then i else chrFrom t c (i + 1) end.
Definition strChr (s : str) (c : Z) : Z := chrFrom s c 0.
Fixpoint ncmp0 (n : nat) (a b : str) : bool :=
  match n with
  | O => true
  | S n => match a, b with
           | [], [] => true
           | x :: a, y :: b => (x =? y) && ncmp0 n a b
           | _, _ => false
           end
  end.

(* ---- environment variables ---- *)
(* environ.cmm:40-43; None is null *)
Record env := Env { arr : list (option str); cap : Z }.

Section E.
(* what rMalloc(n) contains (malloc does not clear) *)
Variable raw : Z -> list (option str).

(* environ.cmm:64-71: the loop over a null-terminated array from index i *)
Fixpoint copyTo (l : list str) (i : Z) (a : list (option str)) : out (list (option str)) :=
  match l with
  | [] => set a i None
  | s :: l => do! a <- set a i (Some s) in copyTo l (i + 1) a
  end.
(* environ.cmm:46-59; envp is the list up to its null *)
Definition environInit (envp : list str) : out env :=
  let n := Z.of_nat (length envp) + 1 in
  do! a <- copyTo envp 0 (raw n) in Ok (Env a n).

(* environ.cmm:63-72; fuel is the size of the array *)
Fixpoint idxFrom (k : nat) (a : list (option str)) (name : str) (len i : Z) : out Z :=
  match k with
  | O => Undef
  | S k =>
      do! e <- get a i in
      match e with
      | None => Ok i
      | Some s => if (len =? strChr s 61) && ncmp0 (Z.to_nat len) s name then Ok i else idxFrom k a name len (i + 1)
      end
  end.
Definition envIndex (e : env) (name : str) (len : Z) : out Z := idxFrom (length (arr e)) (arr e) name len 0.

(* environ.cmm:75-81 *)
Definition getEnv (e : env) (name : str) : out (option str) :=
  do! i <- envIndex e name (strLen name) in
  do! x <- get (arr e) i in
  match x with
  | None => Ok None
  | Some s => Ok (Some (skipn (Z.to_nat (strLen name + 1)) s))
  end.

(* environ.cmm:84-94: the entries up to the null are copied *)
Fixpoint upTo (k : nat) (a : list (option str)) (i : Z) (acc : list str) : out (list str) :=
  match k with
  | O => Undef
  | S k => do! x <- get a i in match x with None => Ok acc | Some s => upTo k a (i + 1) (acc ++ [s]) end
  end.
Definition reallocEnv (e : env) (newCap : Z) : out env :=
  do! l <- upTo (length (arr e)) (arr e) 0 [] in
  do! a <- copyTo l 0 (raw newCap) in Ok (Env a newCap).

(* environ.cmm:97-103 *)
Definition makeEnvStr (name : str) (len : Z) (value : str) : str := firstn (Z.to_nat len) name ++ [61] ++ value.

(* environ.cmm:106-123; overwrite is not used.  The name is never null here *)
Definition setNEnv (e : env) (name : str) (len : Z) (value : str) (overwrite : bool) : out (bool * env) :=
  if len <=? 0 then Ok (true, e) else
  do! i <- envIndex e name len in
  do! x <- get (arr e) i in
  do! e' <- match x with
            | None =>
                let size := i + 2 in
                do! e1 <- (if cap e <? size then reallocEnv e size else Ok e) in
                do! a <- set (arr e1) (i + 1) None in Ok (Env a (cap e1))
            | Some _ => Ok e
            end in
  do! a <- set (arr e') i (Some (makeEnvStr name len value)) in
  Ok (false, Env a (cap e')).

(* environ.cmm:126-130 *)
Definition putEnv (e : env) (s : str) : out (bool * env) :=
  let len := strChr s 61 in setNEnv e s len (skipn (Z.to_nat (len + 1)) s) true.

(* environ.cmm:134-140 *)
Definition setEnv (e : env) (name value : str) (overwrite : bool) : out (bool * env) :=
  if 0 <=? strChr name 61 then Ok (true, e) else setNEnv e name (strLen name) value overwrite.

(* environ.cmm:143-153 *)
Fixpoint shift (k : nat) (a : list (option str)) (i : Z) : out (list (option str)) :=
  match k with
  | O => Undef
  | S k =>
      do! x <- get a i in
      match x with
      | None => Ok a
      | Some _ => do! y <- get a (i + 1) in do! a <- set a i y in shift k a (i + 1)
      end
  end.
Definition unsetEnv (e : env) (name : str) : out (bool * env) :=
  do! i <- envIndex e name (strLen name) in
  do! x <- get (arr e) i in
  match x with
  | None => Ok (false, e)
  | Some _ => do! a <- shift (length (arr e)) (arr e) i in Ok (false, Env a (cap e))
  end.
End E.

(* ---- paths ---- *)
(* the string at the beginning of a char array *)
Fixpoint strAt (p : list Z) : str := match p with [] => [] | c :: t => if c =? 0 then [] else c :: strAt t end.

(* environ.cmm:156-167; the fuel is the size of the array *)
Fixpoint delDot (k : nat) (p : list Z) (l h : Z) : out (list Z) :=
  match k with
  | O => Undef
  | S k =>
      do! c <- get p h in
      if c =? 0 then set p l 0 else
      do! p <- set p l c in
      let l := l + 1 in
      do! c0 <- get p h in
      do! skip <- (if c0 =? 47 then
                     do! c1 <- get p (h + 1) in
                     if c1 =? 46 then
                       do! c2 <- get p (h + 2) in
                       if c2 =? 47 then Ok true else do! c2 <- get p (h + 2) in Ok (c2 =? 0)
                     else Ok false
                   else Ok false) in
      let h := if skip : bool then h + 1 else h in
      delDot k p l (h + 1)
  end.
Definition delDotDir (p : list Z) : out (list Z) := delDot (length p) p 0 0.

(* environ.cmm:173-174: the inner loop *)
Fixpoint skipSl (k : nat) (p : list Z) (h : Z) : out Z :=
  match k with
  | O => Undef
  | S k =>
      do! c <- get p h in
      if c =? 47 then do! c1 <- get p (h + 1) in if c1 =? 47 then skipSl k p (h + 1) else Ok h
      else Ok h
  end.
(* environ.cmm:170-180 *)
Fixpoint oneSl (k : nat) (p : list Z) (l h : Z) : out (list Z * Z) :=
  match k with
  | O => Undef
  | S k =>
      do! c <- get p h in
      if c =? 0 then Ok (p, l) else
      do! h <- skipSl (length p) p h in
      do! c <- get p h in
      do! p <- set p l c in
      oneSl k p (l + 1) (h + 1)
  end.
Definition oneSlash (p : list Z) : out (list Z) :=
  do! (p, l) <- oneSl (length p) p 0 0 in
  do! l <- (if 1 <? l then do! c <- get p (l - 1) in Ok (if c =? 47 then l - 1 else l) else Ok l) in
  set p l 0.

(* environ.cmm:190-191: back to the last slash *)
Fixpoint back (k : nat) (p : list Z) (l : Z) : out Z :=
  match k with
  | O => Undef
  | S k => if 0 <? l then do! c <- get p l in if c =? 47 then Ok l else back k p (l - 1) else Ok l
  end.
(* environ.cmm:183-202 *)
Fixpoint delDD (k : nat) (p : list Z) (l h : Z) : out (list Z) :=
  match k with
  | O => Undef
  | S k =>
      do! c <- get p h in
      if c =? 0 then set p l 0 else
      do! isDD <- (if c =? 47 then
                     do! c1 <- get p (h + 1) in
                     if c1 =? 46 then
                       do! c2 <- get p (h + 2) in
                       if c2 =? 46 then
                         do! c3 <- get p (h + 3) in
                         if c3 =? 47 then Ok true else Ok (c3 =? 0)
                       else Ok false
                     else Ok false
                   else Ok false) in
      if isDD : bool then
        do! l <- (if 0 <? l then back (length p) p (l - 1) else Ok l) in
        delDD k p l (h + 2 + 1)
      else
      do! last <- (if c =? 47 then do! c1 <- get p (h + 1) in Ok (c1 =? 0) else Ok false) in
      if last : bool then set p l 0 else
      do! p <- set p l c in
      delDD k p (l + 1) (h + 1)
  end.
Definition delDotDotDir (p : list Z) : out (list Z) := delDD (length p) p 0 0.

(* string.cmm:35-39 and 52-59 with d an array: write s and a zero from index i on *)
Fixpoint store (p : list Z) (i : Z) (s : str) : out (list Z) :=
  match s with
  | [] => set p i 0
  | c :: s => do! p <- set p i c in store p (i + 1) s
  end.
(* string.cmm:107-112 *)
Fixpoint rchrFrom (s : str) (c i j : Z) : Z :=
  match s with [] => j | x :: t => rchrFrom t c (i + 1) (if x =? c then i else j) end.
Definition strRchr (s : str) (c : Z) : Z := rchrFrom s c 0 (-1).

(* environ.cmm:240-244 *)
Definition getWd (e : env) : out str :=
  do! v <- getEnv e [80; 87; 68] in Ok (match v with None => [47] | Some v => v end).

Section P.
(* the system call _stat: the attributes of a path, None an error (syslib.hmm) *)
Variable stat : str -> option Z.

(* environ.cmm:205-238; the boolean is the result, with the array and the attribute field of sta
   (None when it was not set by this call) *)
Definition absPath (e : env) (path : str) (buf : list Z) (bufSiz : Z) : out (bool * list Z * option Z) :=
  do! r <- (if match path with c :: _ => c =? 47 | [] => false end then do! b <- store buf 0 [47] in Ok (Some b)
            else
              do! pwd <- getWd e in
              if bufSiz - 2 <=? strLen pwd then Ok None
              else do! b <- store buf 0 pwd in do! b <- store b (strLen (strAt b)) [47] in Ok (Some b)) in
  match r with
  | None => Ok (true, buf, None)
  | Some b =>
      if bufSiz - 1 <=? strLen (strAt b) + strLen path then Ok (true, b, None) else
      do! b <- store b (strLen (strAt b)) path in
      do! b <- delDotDir b in
      do! b <- oneSlash b in
      let l := strRchr (strAt b) 47 + 1 in
      do! (fail, b, at_) <- (if 0 <? l then
                  do! c <- get b l in
                  do! b1 <- set b l 0 in
                  match stat (strAt b1) with
                  | None => Ok (true, b1, None)
                  | Some at_ =>
                      if Z.land at_ 16 =? 0 then Ok (true, b1, Some at_)
                      else do! b2 <- set b1 l c in Ok (false, b2, Some at_)
                  end
                else Ok (false, b, None)) in
      if fail : bool then Ok (true, b, at_) else
      do! b <- delDotDotDir b in
      do! c <- get b 0 in
      do! b <- (if c =? 0 then store b 0 [47] else Ok b) in
      Ok (false, b, at_)
  end.

(* environ.cmm:246-262; at0 is the attribute field of sta before the call, buf what cMalloc(80)
   contains *)
Variable raw : Z -> list (option str).
Definition chDir (e : env) (path : str) (buf : list Z) (at0 : Z) : out (bool * env) :=
  do! (err, b, at_) <- absPath e path buf 80 in
  if err : bool then Ok (true, e)
  else if Z.land (match at_ with Some a => a | None => at0 end) 16 =? 0 then Ok (true, e)
  else setEnv raw e [80; 87; 68] (strAt b) true.
End P.
