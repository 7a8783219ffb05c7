(* What the environment functions are supposed to do (comments of environ.cmm): a map from names
   to values; and what a path means. *)
From Coq Require Import ZArith Bool Lia List.
Import ListNotations.
Open Scope Z_scope.

Definition bytes := list Z.
Definition eqStr (a b : bytes) : bool := if list_eq_dec Z.eq_dec a b then true else false.

(* name=value: cut at the first = (61) *)
Fixpoint cut (s : bytes) : option (bytes * bytes) :=
  match s with
  | [] => None
  | c :: t => if c =? 61 then Some ([], t) else match cut t with Some (k, v) => Some (c :: k, v) | None => None end
  end.
Definition vars := bytes -> option bytes.
Fixpoint initial (envp : list bytes) : vars := fun k =>
  match envp with
  | [] => None
  | s :: l => match cut s with Some (k', v) => if eqStr k k' then Some v else initial l k | None => initial l k end
  end.
Definition namesOf (envp : list bytes) : list bytes :=
  flat_map (fun s => match cut s with Some (k, _) => [k] | None => [] end) envp.

Inductive call := Put (s : bytes) | Set_ (k v : bytes) (overwrite : bool) | Unset (k : bytes) | Get (k : bytes).
Inductive answer := Failed (b : bool) | Value (v : option bytes).
Definition with_ (m : vars) (k : bytes) (v : option bytes) : vars := fun k' => if eqStr k' k then v else m k'.
Definition validName (k : bytes) : bool := negb (eqStr k []) && negb (existsb (fun c => c =? 61) k).

(* what a call returns and how it changes the variables *)
Definition spec (c : call) (m : vars) : answer * vars :=
  match c with
  | Put s => match cut s with
             | Some (k, v) => if validName k then (Failed false, with_ m k (Some v)) else (Failed true, m)
             | None => (Failed true, m)
             end
  | Set_ k v ow =>
      if validName k then
        (Failed false, match m k with Some _ => if ow then with_ m k (Some v) else m | None => with_ m k (Some v) end)
      else (Failed true, m)
  | Unset k => (Failed false, with_ m k None)
  | Get k => (Value (m k), m)
  end.
Fixpoint specAll (cs : list call) (m : vars) : list answer :=
  match cs with [] => [] | c :: cs => let '(a, m') := spec c m in a :: specAll cs m' end.
(* overwrite false is only used for variables that do not exist *)
Fixpoint overwrites (cs : list call) (m : vars) : Prop :=
  match cs with
  | [] => True
  | c :: cs => match c with Set_ k _ false => m k = None | _ => True end /\ overwrites cs (snd (spec c m))
  end.

(* ---- paths: 47 is the slash, 46 the dot ---- *)
Fixpoint parts (s : bytes) : list bytes :=
  match s with
  | [] => [[]]
  | c :: t => if c =? 47 then [] :: parts t
              else match parts t with p :: ps => (c :: p) :: ps | [] => [[c]] end
  end.
(* walking from the root: the names of the directories passed, last first *)
Fixpoint walk (ps : list bytes) (here : list bytes) : list bytes :=
  match ps with
  | [] => rev here
  | p :: ps =>
      if eqStr p [] || eqStr p [46] then walk ps here
      else if eqStr p [46; 46] then walk ps (tl here)
      else walk ps (p :: here)
  end.
Definition placeOf (s : bytes) : list bytes := walk (parts s) [].
Definition slashed (ps : list bytes) : bytes := flat_map (fun p => 47 :: p) ps.
(* the path without dots and doubled slashes *)
Definition plain (ps : list bytes) : bytes := match ps with [] => [47] | _ => slashed ps end.

(* the parts that lead somewhere, and the directory part of a path *)
Definition named (s : bytes) : list bytes := filter (fun p => negb (eqStr p [] || eqStr p [46])) (parts s).
Definition dirOf (s : bytes) : bytes := slashed (removelast (named s)) ++ [47].
(* the working directory: the variable PWD, or the root *)
Definition wdOf (m : vars) : bytes := match m [80; 87; 68] with Some v => v | None => [47] end.
Definition isAbs (path : bytes) : bool := match path with c :: _ => c =? 47 | [] => false end.
(* the path seen from the root *)
Definition whole (m : vars) (path : bytes) : bytes := (if isAbs path then [47] else wdOf m ++ [47]) ++ path.
(* bit 16 of the attributes marks a directory (sys/fs.hmm); None: no such file *)
Definition isDir (at_ : option Z) : bool := match at_ with Some a => negb (Z.land a 16 =? 0) | None => false end.
