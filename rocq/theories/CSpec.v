(* How C reads a text: tokens by the longest match (C99 6.4), expressions by
   precedence and associativity (C99 6.5), statements (C99 6.8), for the part of C
   that has no comments, characters, conditional operator, labels, switch or
   initialisers in declarations, and no backslash in strings. Nothing here refers to the translator. *)
From Coq Require Import ZArith Bool List String Ascii.
From Verif Require Import Lexer.
Import ListNotations.
Open Scope Z_scope.

Inductive ctok := TId (w : list Z) | TNum (v : Z) | TP (p : list Z) | TStr (s : list Z).

Fixpoint eqs (a b : list Z) : bool :=
  match a, b with [], [] => true | x :: a, y :: b => (x =? y) && eqs a b | _, _ => false end.
Fixpoint member (w : list Z) (l : list (list Z)) : bool := match l with [] => false | x :: l => eqs w x || member w l end.
Fixpoint prefix (a b : list Z) : bool :=
  match a, b with [], _ => true | x :: a, y :: b => (x =? y) && prefix a b | _, _ => false end.

Definition digit (c : Z) : bool := (48 <=? c) && (c <=? 57).
Definition idStart (c : Z) : bool := ((97 <=? c) && (c <=? 122)) || ((65 <=? c) && (c <=? 90)) || (c =? 95).
Definition idChar (c : Z) : bool := idStart c || digit c.
Definition numChar (c : Z) : bool := idChar c || (c =? 46).
Definition blank (c : Z) : bool := (c =? 32) || ((9 <=? c) && (c <=? 13)).
Fixpoint span (p : Z -> bool) (s : list Z) : list Z * list Z :=
  match s with
  | [] => ([], [])
  | c :: r => if p c then let (a, b) := span p r in (c :: a, b) else ([], s)
  end.

(* 6.4.5: the characters of a string that stand for themselves *)
Definition plainChar (c : Z) : bool := negb ((c =? 34) || (c =? 92) || (c =? 10)).

(* 6.4.6, longest first *)
Definition puncts : list (list Z) := map codes
  ["<<="; ">>="; "..."; "->"; "++"; "--"; "<<"; ">>"; "<="; ">="; "=="; "!="; "&&"; "||"; "*="; "/="; "%="; "+="; "-="; "&="; "^="; "|="; "##";
   "["; "]"; "("; ")"; "{"; "}"; "."; "&"; "*"; "+"; "-"; "~"; "!"; "/"; "%"; "<"; ">"; "^"; "|"; "?"; ":"; ";"; "="; ","; "#"]%string.
Fixpoint munch (l : list (list Z)) (s : list Z) : option (list Z) :=
  match l with [] => None | p :: l => if prefix p s then Some p else munch l s end.

(* 6.4.4.1: decimal, octal (leading 0), hexadecimal; no suffixes *)
Definition digVal (c : Z) : Z := if digit c then c - 48 else if (97 <=? c) && (c <=? 102) then c - 87 else if (65 <=? c) && (c <=? 70) then c - 55 else 99.
Fixpoint numVal (base acc : Z) (s : list Z) : option Z :=
  match s with
  | [] => Some acc
  | c :: r => if digVal c <? base then numVal base (acc * base + digVal c) r else None
  end.
Definition number (s : list Z) : option Z :=
  match s with
  | 48 :: 120 :: r | 48 :: 88 :: r => match r with [] => None | _ => numVal 16 0 r end
  | 48 :: r => numVal 8 0 r
  | _ => numVal 10 0 s
  end.

Fixpoint clex (fuel : nat) (s : list Z) : option (list ctok) :=
  match s with
  | [] => Some []
  | c :: r =>
    match fuel with
    | O => None
    | S f =>
      if blank c then clex f r
      else if idStart c then let (w, r) := span idChar s in option_map (cons (TId w)) (clex f r)
      else if digit c then
        let (w, r) := span numChar s in
        match number w with Some v => option_map (cons (TNum v)) (clex f r) | None => None end
      else if c =? 34 then
        match span plainChar r with
        | (w, 34 :: r) => option_map (cons (TStr w)) (clex f r)
        | _ => None
        end
      else if prefix (codes "/*") s || prefix (codes "//") s then None
      else match munch puncts s with
           | Some p => option_map (cons (TP p)) (clex f (skipn (List.length p) s))
           | None => None
           end
    end
  end.

(* ---- expressions ---- *)
Inductive cexp :=
| CNum (v : Z) | CId (w : list Z) | CUn (op : list Z) (e : cexp) | CPost (op : list Z) (e : cexp)
| CBin (op : list Z) (l r : cexp) | CIdx (a i : cexp) | CArrow (a : cexp) (f : list Z) | CDot (a : cexp) (f : list Z)
| CCall (f : cexp) (args : list cexp) | CCast (t : list Z) (e : cexp) | CStr (s : list Z).

Definition keywords : list (list Z) := map codes
  ["auto"; "break"; "case"; "char"; "const"; "continue"; "default"; "do"; "double"; "else"; "enum"; "extern"; "float"; "for"; "goto"; "if";
   "inline"; "int"; "long"; "register"; "restrict"; "return"; "short"; "signed"; "sizeof"; "static"; "struct"; "switch"; "typedef"; "union";
   "unsigned"; "void"; "volatile"; "while"; "_Bool"; "_Complex"; "_Imaginary"]%string.
Definition isKw (w : list Z) : bool := member w keywords.
Definition is (t : list Z) (s : string) : bool := eqs t (codes s).
(* binding strength of the operators of two operands, 6.5.5-6.5.17; the second: groups to the right *)
Definition strength (op : list Z) : option (nat * bool) :=
  if is op "," then Some (1%nat, false)
  else if member op (map codes ["="; "*="; "/="; "%="; "+="; "-="; "<<="; ">>="; "&="; "^="; "|="]%string) then Some (2%nat, true)
  else if is op "||" then Some (4%nat, false)
  else if is op "&&" then Some (5%nat, false)
  else if is op "|" then Some (6%nat, false)
  else if is op "^" then Some (7%nat, false)
  else if is op "&" then Some (8%nat, false)
  else if is op "==" || is op "!=" then Some (9%nat, false)
  else if is op "<" || is op ">" || is op "<=" || is op ">=" then Some (10%nat, false)
  else if is op "<<" || is op ">>" then Some (11%nat, false)
  else if is op "+" || is op "-" then Some (12%nat, false)
  else if is op "*" || is op "/" || is op "%" then Some (13%nat, false)
  else None.
Definition prefixOps : list (list Z) := map codes ["&"; "*"; "+"; "-"; "~"; "!"; "++"; "--"]%string.

(* pE m: an expression whose operators outside of brackets bind at least as m;
   pL m l: the operators that follow l; pU: an operand with its prefix operators;
   pS e: the postfix operators that follow e; pA: arguments up to the bracket.
   A cast is written with a type of one word, or with one word and a star. The left side of an assignment is not
   restricted to unary expressions (a text C rejects is read as something) *)
Fixpoint pE (fuel : nat) (m : nat) (t : list ctok) : option (cexp * list ctok) :=
  match fuel with
  | O => None
  | S f => match pU f t with Some (l, t) => pL f m l t | None => None end
  end
with pL (fuel : nat) (m : nat) (l : cexp) (t : list ctok) : option (cexp * list ctok) :=
  match fuel with
  | O => None
  | S f =>
    match t with
    | TP op :: r =>
      match strength op with
      | Some (p, rt) =>
        if (m <=? p)%nat then
          match pE f (if rt : bool then p else S p) r with Some (e, r) => pL f m (CBin op l e) r | None => None end
        else Some (l, t)
      | None => Some (l, t)
      end
    | _ => Some (l, t)
    end
  end
with pU (fuel : nat) (t : list ctok) : option (cexp * list ctok) :=
  match fuel with
  | O => None
  | S f =>
    match t with
    | TNum v :: r => pS f (CNum v) r
    | TStr s :: r => pS f (CStr s) r
    | TId w :: r => if isKw w then None else pS f (CId w) r
    | TP op :: r =>
      if is op "(" then
        match r with
        | TId w :: TP q :: r' =>
          if (is w "int" || is w "char" || is w "void") && is q ")" then
            match pU f r' with Some (e, r') => Some (CCast w e, r') | None => None end
          else if is q "*" && match r' with TP c :: _ => is c ")" | _ => false end then
            match pU f (tl r') with Some (e, r') => Some (CCast (w ++ codes "*") e, r') | None => None end
          else match pE f 0 r with Some (e, TP c :: r) => if is c ")" then pS f e r else None | _ => None end
        | _ => match pE f 0 r with Some (e, TP c :: r) => if is c ")" then pS f e r else None | _ => None end
        end
      else if member op prefixOps then match pU f r with Some (e, r) => Some (CUn op e, r) | None => None end
      else None
    | [] => None
    end
  end
with pS (fuel : nat) (e : cexp) (t : list ctok) : option (cexp * list ctok) :=
  match fuel with
  | O => None
  | S f =>
    match t with
    | TP op :: r =>
      if is op "[" then
        match pE f 0 r with Some (i, TP c :: r) => if is c "]" then pS f (CIdx e i) r else None | _ => None end
      else if is op "(" then
        match r with
        | TP c :: r' => if is c ")" then pS f (CCall e []) r'
                        else match pA f r with Some (a, r) => pS f (CCall e a) r | None => None end
        | _ => match pA f r with Some (a, r) => pS f (CCall e a) r | None => None end
        end
      else if is op "->" || is op "." then
        match r with TId w :: r => if isKw w then None else pS f (if is op "->" then CArrow e w else CDot e w) r | _ => None end
      else if is op "++" || is op "--" then pS f (CPost op e) r
      else Some (e, t)
    | _ => Some (e, t)
    end
  end
with pA (fuel : nat) (t : list ctok) : option (list cexp * list ctok) :=
  match fuel with
  | O => None
  | S f =>
    match pE f 2 t with
    | Some (e, TP c :: r) =>
      if is c ")" then Some ([e], r)
      else if is c "," then match pA f r with Some (a, r) => Some (e :: a, r) | None => None end
      else None
    | _ => None
    end
  end.

(* ---- statements ---- *)
Inductive cstm :=
| KEmpty | KExp (e : cexp) | KIf (c : cexp) (s : cstm) | KElse (c : cexp) (s1 s2 : cstm)
| KWhile (c : cexp) (s : cstm) | KFor (c r : option cexp) (s : cstm) | KDo (s : cstm) (c : cexp)
| KBreak | KContinue | KRet (e : option cexp) | KVar (t : list Z) (stars : nat) (w : list Z)
| KBlk (l : list cstm).

(* isType: the names declared by typedef *)
Fixpoint starsOf (t : list ctok) : nat * list ctok :=
  match t with TP p :: r => if is p "*" then let (n, r) := starsOf r in (S n, r) else (O, t) | _ => (O, t) end.
Definition typeWord (isType : list Z -> bool) (w : list Z) : bool := is w "int" || is w "char" || is w "void" || isType w.
(* an expression up to the token c, or nothing *)
Definition upTo (f : nat) (c : string) (t : list ctok) : option (option cexp * list ctok) :=
  match t with
  | TP p :: r => if is p c then Some (None, r)
                 else match pE f 0 t with Some (e, TP q :: r) => if is q c then Some (Some e, r) else None | _ => None end
  | _ => match pE f 0 t with Some (e, TP q :: r) => if is q c then Some (Some e, r) else None | _ => None end
  end.
Definition punct (c : string) (t : list ctok) : option (list ctok) :=
  match t with TP p :: r => if is p c then Some r else None | _ => None end.
Definition word (c : string) (t : list ctok) : option (list ctok) :=
  match t with TId p :: r => if is p c then Some r else None | _ => None end.
Notation "'do' x <- m ; k" := (match m with Some x => k | None => None end) (at level 200, x pattern, right associativity).

Fixpoint pStm (isType : list Z -> bool) (fuel : nat) (t : list ctok) {struct fuel} : option (cstm * list ctok) :=
  match fuel with
  | O => None
  | S f =>
    match t with
    | TP p :: r =>
      if is p "{" then do (l, r) <- pStms isType f r; do r <- punct "}" r; Some (KBlk l, r)
      else if is p ";" then Some (KEmpty, r)
      else do (e, r) <- pE f 0 t; do r <- punct ";" r; Some (KExp e, r)
    | TId w :: r =>
      if is w "if" then
        do r <- punct "(" r; do (c, r) <- pE f 0 r; do r <- punct ")" r;
        do (s1, r) <- pStm isType f r;
        (match word "else" r with
         | Some r => do (s2, r) <- pStm isType f r; Some (KElse c s1 s2, r)
         | None => Some (KIf c s1, r)
         end)
      else if is w "while" then
        do r <- punct "(" r; do (c, r) <- pE f 0 r; do r <- punct ")" r; do (s, r) <- pStm isType f r; Some (KWhile c s, r)
      else if is w "for" then
        do r <- punct "(" r; do (i, r) <- upTo f ";" r;
        (match i with
         | Some _ => None      (* an initialisation: not in this part of C *)
         | None => do (c, r) <- upTo f ";" r; do (e, r) <- upTo f ")" r; do (s, r) <- pStm isType f r; Some (KFor c e s, r)
         end)
      else if is w "do" then
        do (s, r) <- pStm isType f r; do r <- word "while" r; do r <- punct "(" r; do (c, r) <- pE f 0 r;
        do r <- punct ")" r; do r <- punct ";" r; Some (KDo s c, r)
      else if is w "break" then do r <- punct ";" r; Some (KBreak, r)
      else if is w "continue" then do r <- punct ";" r; Some (KContinue, r)
      else if is w "return" then do (e, r) <- upTo f ";" r; Some (KRet e, r)
      else do (e, r) <- pE f 0 t; do r <- punct ";" r; Some (KExp e, r)
    | _ => do (e, r) <- pE f 0 t; do r <- punct ";" r; Some (KExp e, r)
    end
  end
(* the items of a block, 6.8.2, up to the bracket *)
with pStms (isType : list Z -> bool) (fuel : nat) (t : list ctok) {struct fuel} : option (list cstm * list ctok) :=
  match fuel with
  | O => None
  | S f =>
    match t with
    | [] => Some ([], t)
    | TP p :: _ => if is p "}" then Some ([], t) else do (s, r) <- pStm isType f t; do (l, r) <- pStms isType f r; Some (s :: l, r)
    | TId w :: r =>
      if typeWord isType w then
        let (n, r) := starsOf r in
        match r with
        | TId v :: r => if isKw v || isType v then None else do r <- punct ";" r; do (l, r) <- pStms isType f r; Some (KVar w n v :: l, r)
        | _ => None
        end
      else do (s, r) <- pStm isType f t; do (l, r) <- pStms isType f r; Some (s :: l, r)
    | _ => do (s, r) <- pStm isType f t; do (l, r) <- pStms isType f r; Some (s :: l, r)
    end
  end.

(* the text s is the expression e; the text s is the statement b *)
Definition readsE (s : list Z) (e : cexp) : Prop := exists f toks, clex f s = Some toks /\ pE f 0 toks = Some (e, []).
Definition readsS (isType : list Z -> bool) (s : list Z) (b : cstm) : Prop := exists f toks, clex f s = Some toks /\ pStm isType f toks = Some (b, []).
