(* Model of src/optree.c in the build of the C translator (GNUmakefile:98-112: -D_C -DNWORD=32).
   WMSK is 0xffffffff (util.h:50): the sign extension does nothing, and the constants of a tree
   are values of the host's int.  The host's int overflows where NWORD=16
   wraps: signed overflow of + - * and of the negation, and INT_MIN / -1, are undefined in C and
   become the outcome [Err EUndef].  Shifts of an int by 0..31 places are given their usual two's
   complement meaning, as in OpTree.v (the bits beyond an int go with the mask at the end).  The functions that only move nodes are those of OpTree.v. *)
From Coq Require Import ZArith Bool List.
From Verif Require Import SyTree OpTree.
Import ListNotations.
Open Scope Z_scope.

(* the host's int *)
Definition IMIN : Z := -2147483648.
Definition IMAX : Z := 2147483647.
Definition isInt (v : Z) : bool := (IMIN <=? v) && (v <=? IMAX).
(* the int with the same low 32 bits *)
Definition i32 (v : Z) : Z := (v + 2147483648) mod 4294967296 - 2147483648.
(* a signed result that must fit *)
Definition cInt (v : Z) : res expr := if isInt v then Ok (Cnst v) else Err EUndef.

(* optree.c:100-103; n & WMSK is compared as an unsigned int with the value *)
Definition cIsN (e : expr) (n : Z) : bool :=
  match e with Cnst v => v =? n | _ => false end.

(* optree.c:129-156 *)
Definition cOpt1 (o : op1) (l : expr) : res expr :=
  match l with
  | Cnst v =>
      match o with
      | NEG => cInt (- v)
      | NOT => Ok (setBool (negb (getBool v)))
      | BNOT => Ok (Cnst (Z.lnot v))
      | CHR => Ok (Cnst (Z.land v BMSK))
      | BOOL => Ok (setBool (getBool v))
      end
  | _ => Ok (E1 o l)
  end.

(* optree.c:163-170 *)
Definition cAdd (l r : expr) : res expr :=
  match l, r with
  | Cnst a, Cnst b => cInt (a + b)
  | _, _ => if cIsN l 0 then Ok r else if cIsN r 0 then Ok l else Ok (E2 ADD l r)
  end.
(* optree.c:173-180 *)
Definition cSub (l r : expr) : res expr :=
  match l, r with
  | Cnst a, Cnst b => cInt (a - b)
  | _, _ => if cIsN l 0 then Ok (E1 NEG r) else if cIsN r 0 then Ok l else Ok (E2 SUB l r)
  end.
(* optree.c:183-191, 194-202: the bound is NWORD *)
Definition cShl (l r : expr) : res expr :=
  match r with
  | Cnst n =>
      if (n <? 0) || (32 <=? n) then Err EShl
      else if cIsN r 0 then Ok l
      else match l with
           | Cnst a => Ok (Cnst (Z.shiftl a n))
           | _ => Ok (E2 SHL l r)
           end
  | _ => Ok (E2 SHL l r)
  end.
Definition cShr (l r : expr) : res expr :=
  match r with
  | Cnst n =>
      if (n <? 0) || (32 <=? n) then Err EShr
      else if cIsN r 0 then Ok l
      else match l with
           | Cnst a => Ok (Cnst (Z.shiftr a n))
           | _ => Ok (E2 SHR l r)
           end
  | _ => Ok (E2 SHR l r)
  end.
(* optree.c:205-240; WMSK as an int is -1 *)
Definition cBAnd (l r : expr) : expr :=
  match l, r with
  | Cnst a, Cnst b => Cnst (Z.land a b)
  | _, _ =>
      if cIsN l 0 || cIsN r 0 then Cnst 0
      else if cIsN l (-1) then r
      else if cIsN r (-1) then l
      else E2 BAND l r
  end.
Definition cBOr (l r : expr) : expr :=
  match l, r with
  | Cnst a, Cnst b => Cnst (Z.lor a b)
  | _, _ =>
      if cIsN l (-1) || cIsN r (-1) then Cnst (-1)
      else if cIsN l 0 then r
      else if cIsN r 0 then l
      else E2 BOR l r
  end.
Definition cBXor (l r : expr) : expr :=
  match l, r with
  | Cnst a, Cnst b => Cnst (Z.lxor a b)
  | _, _ =>
      if cIsN l (-1) then E1 BNOT r
      else if cIsN l 0 then r
      else if cIsN r (-1) then E1 BNOT l
      else if cIsN r 0 then l
      else E2 BXOR l r
  end.
(* optree.c:243-256 *)
Definition cMul (l r : expr) : res expr :=
  match l, r with
  | Cnst a, Cnst b => cInt (a * b)
  | _, _ =>
      if cIsN l 0 || cIsN r 0 then Ok (Cnst 0)
      else if cIsN l 1 then Ok r
      else if cIsN r 1 then Ok l
      else if cIsN l (-1) then Ok (E1 NEG r)
      else if cIsN r (-1) then Ok (E1 NEG l)
      else Ok (E2 MUL l r)
  end.
(* optree.c:259-276; INT_MIN % -1 is undefined as well *)
Definition cDiv (l r : expr) : res expr :=
  if cIsN r 0 then Err EDiv0
  else match l, r with
       | Cnst a, Cnst b => cInt (Z.quot a b)
       | _, _ => if cIsN r 1 then Ok l else Ok (E2 DIV l r)
       end.
Definition cMod (l r : expr) : res expr :=
  if cIsN r 0 then Err EMod0
  else match l, r with
       | Cnst a, Cnst b => if isInt (Z.quot a b) then Ok (Cnst (Z.rem a b)) else Err EUndef
       | _, _ => if cIsN r 1 then Ok (Cnst 0) else Ok (E2 MOD l r)
       end.
(* optree.c:291-324 *)
Definition cCmp (o : op2) (l r : expr) : expr :=
  match l, r with
  | Cnst a, Cnst b =>
      setBool (match o with
               | GT => b <? a
               | GE => b <=? a
               | LT => a <? b
               | LE => a <=? b
               | EQU => a =? b
               | _ => negb (a =? b)
               end)
  | _, _ => E2 o l r
  end.
(* optree.c:327-344 *)
Definition cOr (l r : expr) : expr :=
  if cIsN l 1 || cIsN r 1 then setBool true
  else if cIsN l 0 then r
  else if cIsN r 0 then l
  else E2 OR l r.
Definition cAnd (l r : expr) : expr :=
  if cIsN l 0 || cIsN r 0 then setBool false
  else if cIsN l 1 then r
  else if cIsN r 1 then l
  else E2 AND l r.
(* optree.c:356-383 *)
Definition cOpt2 (o : op2) (l r : expr) : res expr :=
  match o with
  | ADD => cAdd l r | SUB => cSub l r
  | SHL => cShl l r | SHR => cShr l r
  | BAND => Ok (cBAnd l r) | BOR => Ok (cBOr l r) | BXOR => Ok (cBXor l r)
  | MUL => cMul l r | DIV => cDiv l r | MOD => cMod l r
  | GT | GE | LT | LE | EQU | NEQ => Ok (cCmp o l r)
  | OR => Ok (cOr l r) | AND => Ok (cAnd l r)
  | _ => Ok (E2 o l r)
  end.
(* optree.c:386-387: v & WMSK is an unsigned int, stored in an int *)
Definition maskI (e : expr) : expr := match e with Cnst v => Cnst (i32 v) | _ => e end.
(* optree.c:347-389 *)
Fixpoint cCal (e : expr) : res expr :=
  match e with
  | ENull => Err ENullDeref
  | ELeaf k => Ok (maskI (ELeaf k))
  | E1 o l => l' <- cCal l ;; e' <- cOpt1 o l' ;; Ok (maskI e')
  | E2 o l r => l' <- cCal l ;; r' <- cCal r ;; e' <- cOpt2 o l' r' ;; Ok (maskI e')
  | EFunc f a =>
      match a with
      | ENull => Ok e
      | _ => a' <- cCal a ;; Ok (EFunc f a')
      end
  end.
(* optree.c:450-457 *)
Definition cNormSub (o : op2) (r : expr) : res (op2 * expr) :=
  match o, r with
  | SUB, Cnst v => if isInt (- v) then Ok (ADD, Cnst (- v)) else Err EUndef
  | _, _ => Ok (o, r)
  end.
(* optree.c:460-491; pushC of OpTree.v only moves nodes *)
Definition cMoveCnst (o : op2) (l r : expr) : res expr :=
  p <- cNormSub o r ;; let '(o', r') := p in
  Ok (if movable o' && is_cnst r' then pushC o' l r' else E2 o' l r').
(* optree.c:495-503 *)
Fixpoint cArr (e : expr) : res expr :=
  match e with
  | ENull => Err ENullDeref
  | ELeaf k => cCal (ELeaf k)
  | E1 o l => l' <- cArr l ;; cCal (E1 o l')
  | E2 o l r => r' <- cArr r ;; l' <- cArr l ;; e' <- cMoveCnst o l' r' ;; cCal e'
  | EFunc f a =>
      match a with
      | ENull => cCal e
      | _ => a' <- cArr a ;; cCal (EFunc f a')
      end
  end.
(* optree.c:506-510 *)
Definition cOptExp (e : expr) : res expr :=
  match e with ENull => Ok ENull | _ => cArr (moveLeft e) end.

(* optree.c:516-620 *)
Fixpoint cOptTree (s : stmt) : res stmt :=
  match s with
  | SNull => Ok SNull
  | SVar i => Ok s
  | SBrk => Ok s
  | SCnt => Ok s
  | SExpr e => e' <- cOptExp e ;; Ok (SExpr e')
  | SIf c b =>
      c' <- cOptExp c ;;
      match c' with
      | Cnst v => if getBool v then b' <- cOptTree b ;; Ok (copyStmt b')
                  else Ok (SExpr c')
      | _ => b' <- cOptTree b ;; Ok (SIf c' b')
      end
  | SEls c b1 b2 =>
      c' <- cOptExp c ;;
      match c' with
      | Cnst v => if getBool v then b' <- cOptTree b1 ;; Ok (copyStmt b')
                  else b' <- cOptTree b2 ;; Ok (copyStmt b')
      | _ => b2' <- cOptTree b2 ;; b1' <- cOptTree b1 ;; Ok (SEls c' b1' b2')
      end
  | SWhl c b re =>
      c' <- cOptExp c ;;
      match c' with
      | Cnst v => if getBool v then
                    b' <- cOptTree b ;; re' <- cOptExp re ;; Ok (SWhl ENull b' re')
                  else Ok (SExpr c')
      | _ => b' <- cOptTree b ;; re' <- cOptExp re ;; Ok (SWhl c' b' re')
      end
  | SDo b c =>
      c' <- cOptExp c ;; b' <- cOptTree b ;;
      match c' with
      | Cnst v => if getBool v then Ok (SWhl ENull b' ENull) else Ok (copyStmt b')
      | _ => Ok (SDo b' c')
      end
  | SRet e => e' <- cOptExp e ;; Ok (SRet e')
  | SSemi l r => l' <- cOptTree l ;; r' <- cOptTree r ;; Ok (SSemi l' r')
  | SBlk l r => l' <- cOptTree l ;; r' <- cOptTree r ;; Ok (SBlk l' r')
  end.
