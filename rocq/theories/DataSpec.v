(* What the data directives written for the initialiser of a global variable
   should describe. An initialiser is a tree of values; the directives describe a
   tree of blocks of storage linked by labels. Nothing here refers to how the
   directives are produced. *)
From Coq Require Import ZArith Bool List.
From Verif Require Import Lexer NameTable SyTree Parser ParserStmt ProgSpec.
Import ListNotations.
Open Scope Z_scope.

(* initialisers: a number, the address of a function or variable, a string
   constant (which has been given a label), a list in braces, array(n1, n2, ..).
   The flag says that the elements are single bytes *)
Inductive init :=
| IWord (v : Z)
| IName (i : Z)
| IStr (l : Z)
| IList (bytes : bool) (xs : list init)
| IArray (bytes : bool) (dims : list Z).

(* where a block of storage ends: the next label or name *)
Definition isMark (a : asm) : bool := match a with ALab _ | ANam _ => true | _ => false end.
Definition fresh (c : list asm) : Prop := match c with [] => True | a :: _ => isMark a = true end.
(* the storage at label l of the assembly text c is exactly b *)
Definition block (c : list asm) (l : Z) (b : list asm) : Prop :=
  exists pre post, c = pre ++ ALab l :: b ++ post /\ forallb (fun a => negb (isMark a)) b = true /\ fresh post.

(* the directive w holds, in the assembly text c, the value i; ls lists the blocks
   of storage that belong to it *)
Inductive reaches (c : list asm) : asm -> init -> list Z -> Prop :=
| R_word v : reaches c (ADwCns v) (IWord v) []
| R_name i : reaches c (ADwName i) (IName i) []
| R_str l : reaches c (ADwLab l) (IStr l) []
| R_bytes l vs : block c l (map ADbCns vs) -> reaches c (ADwLab l) (IList true (map IWord vs)) [l]
| R_list l b xs ls : block c l b -> reachAll c b xs ls -> reaches c (ADwLab l) (IList false xs) (l :: ls)
| R_space l bytes n : block c l [if bytes : bool then ABs n else AWs n] -> reaches c (ADwLab l) (IArray bytes [n]) [l]
| R_rows l bytes n rest b ls : rest <> [] -> block c l b ->
    reachAll c b (repeat (IArray bytes rest) (Z.to_nat n)) ls -> reaches c (ADwLab l) (IArray bytes (n :: rest)) (l :: ls)
(* the directives of a block, one for each value, in order *)
with reachAll (c : list asm) : list asm -> list init -> list Z -> Prop :=
| R_nil : reachAll c [] [] []
| R_cons a b x xs l1 l2 : reaches c a x l1 -> reachAll c b xs l2 -> reachAll c (a :: b) (x :: xs) (l1 ++ l2).

(* ---- the initialisers of a type ---- *)
(* the number of levels of lists and arrays *)
Fixpoint levels (i : init) : nat :=
  match i with
  | IList _ xs => S (fold_right (fun x m => Nat.max (levels x) m) O xs)
  | IArray _ _ => 1
  | _ => O
  end.
(* the sizes in array(..) are positive *)
Fixpoint positive (i : init) : Prop :=
  match i with
  | IList _ xs => fold_right (fun x P => positive x /\ P) True xs
  | IArray _ dims => Forall (fun n => 0 < n) dims
  | _ => True
  end.
(* one word, of a scalar *)
Inductive scalar : init -> Prop :=
| S_word v : scalar (IWord v)
| S_name i : scalar (IName i)
| S_str l : scalar (IStr l).
(* t has byte elements: char and boolean *)
Definition byteType (t : Z) : bool := (t =? TyCHAR) || (t =? TyBOOL).
(* i initialises a variable of type t and dimension d (d = 0: t itself) *)
Inductive typed (t : Z) : nat -> init -> Prop :=
| T_scalar i : 0 < t -> scalar i -> typed t O i
| T_null d : typed t d (IWord 0)
| T_struct xs : t <= 0 -> Forall scalar xs -> typed t O (IList false xs)
| T_string l : t = TyCHAR -> typed t 1 (IStr l)
| T_list d xs : xs <> [] -> Forall (typed t d) xs -> typed t (S d) (IList (byteType t && (S d =? 1)%nat) xs)
| T_array d dims : (length dims <= S d)%nat -> Forall (fun n => 0 < n) dims ->
    typed t (S d) (IArray (byteType t && (length dims =? S d)%nat) dims).

(* ---- the syntax tree of an initialiser ---- *)
(* array(n1, n2, ..): the sizes, outermost first *)
Fixpoint dimsOf (d : dat) : list Z :=
  match d with
  | DSemi lv (DCnst n) => n :: dimsOf lv
  | DCnst n => [n]
  | _ => []
  end.
(* the second field of an array node is the dimension of an array of bytes, or 0 *)
Definition arrFlag (r : Z) (x : dat) : bool := (0 <? Z.of_nat (length (dimsOf x))) && (r =? Z.of_nat (length (dimsOf x))).
(* the values a tree stands for *)
Fixpoint inits (d : dat) : list init :=
  match d with
  | DNull => []
  | DCnst v => [IWord v]
  | DAddr i => [IName i]
  | DStr l => [IStr l]
  | DSemi a b => inits a ++ inits b
  | DList x r => [IList (r =? 1) (inits x)]
  | DArry x r => [IArray (arrFlag r x) (dimsOf x)]
  end.

