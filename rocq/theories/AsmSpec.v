(* How an assembly text is read, line by line.  Specification; nothing here refers to the
   compiler.  A line is
        label TAB operation TAB operand,operand,...
   where label and operands may be missing; a line that begins with a semicolon is a comment.
   An operand is a decimal number, a symbol or register, one of these after # or @, or a
   string in quotation marks, which reaches to the end of the line. *)
From Coq Require Import ZArith Bool List.
Import ListNotations.
Open Scope Z_scope.

(* the parts of a text between the characters c *)
Fixpoint cut (c : Z) (s : list Z) : list (list Z) :=
  match s with
  | [] => [[]]
  | x :: r => if x =? c then [] :: cut c r
              else match cut c r with w :: ws => (x :: w) :: ws | [] => [[x]] end
  end.
(* up to the first character c, and what follows it *)
Fixpoint upto (c : Z) (s : list Z) : list Z * option (list Z) :=
  match s with
  | [] => ([], None)
  | x :: r => if x =? c then ([], Some r) else let (a, b) := upto c r in (x :: a, b)
  end.
Definition isDigit (c : Z) : bool := (48 <=? c) && (c <=? 57).
Definition digits (s : list Z) : option Z :=
  match s with
  | [] => None
  | _ => if forallb isDigit s then Some (fold_left (fun a c => a * 10 + (c - 48)) s 0) else None
  end.
Definition decimal (s : list Z) : option Z :=
  match s with
  | 45 :: r => option_map Z.opp (digits r)
  | _ => digits s
  end.

Inductive atom := Num (n : Z) | Sym (s : list Z).
Inductive arg := Plain (a : atom) | Hash (a : atom) | At (a : atom) | Str (s : list Z).
Definition readAtom (w : list Z) : atom := match decimal w with Some n => Num n | None => Sym w end.
Definition readArg (w : list Z) : arg :=
  match w with
  | 35 :: r => Hash (readAtom r)
  | 64 :: r => At (readAtom r)
  | _ => Plain (readAtom w)
  end.
Definition readArgs (s : list Z) : list arg :=
  match s with
  | 34 :: r => [Str (removelast r)]
  | _ => map readArg (cut 44 s)
  end.
Record sline := SLine { sLab : option (list Z); sOp : option (list Z * list arg) }.
Definition readLine (s : list Z) : list sline :=
  match s with
  | [] => []
  | 59 :: _ => []
  | _ =>
    let (l, r) := upto 9 s in
    [SLine (match l with [] => None | _ => Some l end)
           (match r with
            | None => None
            | Some r => let (o, a) := upto 9 r in Some (o, match a with None => [] | Some a => readArgs a end)
            end)]
  end.
(* a text is a sequence of lines, each ended by a newline character *)
Fixpoint lines (l : list (list Z)) : option (list sline) :=
  match l with
  | [] => None
  | [last] => match last with [] => Some [] | _ => None end
  | b :: r => option_map (app (readLine b)) (lines r)
  end.
Definition readAsm (s : list Z) : option (list sline) := lines (cut 10 s).
