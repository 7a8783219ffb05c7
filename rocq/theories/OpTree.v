(* Model of src/optree.c: the syntax-tree optimiser (16-bit build).
   In-place edits of table slots become functions on trees (see SyTable.v);
   error() (util.c:71-75: message, then exit(1)) becomes [Err]. *)
From Coq Require Import ZArith Bool List.
From Verif Require Import SyTree.
Import ListNotations.
Open Scope Z_scope.

(* the diagnostics of optree.c *)
Inductive operr : Type :=
| EShl      (* optree.c:186 "<< ..." shift count out of range *)
| EShr      (* optree.c:197 ">> ..." shift count out of range *)
| EDiv0     (* optree.c:261 division by 0 *)
| EMod0     (* optree.c:271 remainder by 0 *)
| ENullDeref  (* the C code would index the table with SyNULL = 9999 >= SyMAX *)
| EUndef.     (* the host's int overflows (only with NWORD=32, see COpTree.v) *)

Inductive res (A : Type) : Type := Ok (a : A) | Err (e : operr).
Arguments Ok {A}.
Arguments Err {A}.

Definition bind {A B} (x : res A) (f : A -> res B) : res B :=
  match x with Ok a => f a | Err e => Err e end.
Notation "x <- a ;; b" := (bind a (fun x => b)) (at level 61, a at next level, right associativity).

(* util.h:49-50 with NWORD=16, NBYTE=8 *)
Definition WMSK : Z := 65535.
Definition BMSK : Z := 255.

(* optree.c:75-79 getSInt: sign extension. C int is 32 bits; on Z the sign
   extension sets all bits above 15. *)
Definition getSInt (v : Z) : Z :=
  if Z.testbit v 15 then Z.lor v (Z.lxor (-1) WMSK) else v.

(* optree.c:82-87 bool()/getBool: the lowest bit *)
Definition getBool (v : Z) : bool := Z.testbit v 0.

(* optree.c:94-97 setBool *)
Definition setBool (b : bool) : expr := Cnst (if b then 1 else 0).

(* optree.c:100-103 isCnstN *)
Definition isCnstN (e : expr) (n : Z) : bool :=
  match e with Cnst v => v =? Z.land n WMSK | _ => false end.

(* optree.c:129-132 optNeg, 135-138 optNot, 141-144 optBNot, 147-150 optChr,
   153-156 optBool: the node after the attempt *)
Definition opt1 (o : op1) (l : expr) : expr :=
  match l with
  | Cnst v =>
      match o with
      | NEG => Cnst (- getSInt v)
      | NOT => setBool (negb (getBool v))
      | BNOT => Cnst (Z.lnot v)
      | CHR => Cnst (Z.land v BMSK)
      | BOOL => setBool (getBool v)
      end
  | _ => E1 o l
  end.

(* optree.c:163-170 *)
Definition optAdd (l r : expr) : expr :=
  match l, r with
  | Cnst a, Cnst b => Cnst (getSInt a + getSInt b)
  | _, _ => if isCnstN l 0 then r else if isCnstN r 0 then l else E2 ADD l r
  end.

(* optree.c:173-180 *)
Definition optSub (l r : expr) : expr :=
  match l, r with
  | Cnst a, Cnst b => Cnst (getSInt a - getSInt b)
  | _, _ => if isCnstN l 0 then E1 NEG r else if isCnstN r 0 then l else E2 SUB l r
  end.

(* optree.c:183-191. Left shift of a negative int is undefined in ISO C; the
   usual two's complement result is modelled. *)
Definition optShl (l r : expr) : res expr :=
  match r with
  | Cnst n =>
      if (n <? 0) || (16 <=? n) then Err EShl
      else if isCnstN r 0 then Ok l
      else match l with
           | Cnst a => Ok (Cnst (Z.shiftl (getSInt a) n))
           | _ => Ok (E2 SHL l r)
           end
  | _ => Ok (E2 SHL l r)
  end.

(* optree.c:194-202 *)
Definition optShr (l r : expr) : res expr :=
  match r with
  | Cnst n =>
      if (n <? 0) || (16 <=? n) then Err EShr
      else if isCnstN r 0 then Ok l
      else match l with
           | Cnst a => Ok (Cnst (Z.shiftr (getSInt a) n))
           | _ => Ok (E2 SHR l r)
           end
  | _ => Ok (E2 SHR l r)
  end.

(* optree.c:205-214 *)
Definition optBAnd (l r : expr) : expr :=
  match l, r with
  | Cnst a, Cnst b => Cnst (Z.land a b)
  | _, _ =>
      if isCnstN l 0 || isCnstN r 0 then Cnst 0
      else if isCnstN l WMSK then r
      else if isCnstN r WMSK then l
      else E2 BAND l r
  end.

(* optree.c:217-226 *)
Definition optBOr (l r : expr) : expr :=
  match l, r with
  | Cnst a, Cnst b => Cnst (Z.lor a b)
  | _, _ =>
      if isCnstN l WMSK || isCnstN r WMSK then Cnst WMSK
      else if isCnstN l 0 then r
      else if isCnstN r 0 then l
      else E2 BOR l r
  end.

(* optree.c:229-240 *)
Definition optBXor (l r : expr) : expr :=
  match l, r with
  | Cnst a, Cnst b => Cnst (Z.lxor a b)
  | _, _ =>
      if isCnstN l WMSK then E1 BNOT r
      else if isCnstN l 0 then r
      else if isCnstN r WMSK then E1 BNOT l
      else if isCnstN r 0 then l
      else E2 BXOR l r
  end.

(* optree.c:243-256 *)
Definition optMul (l r : expr) : expr :=
  match l, r with
  | Cnst a, Cnst b => Cnst (getSInt a * getSInt b)
  | _, _ =>
      if isCnstN l 0 || isCnstN r 0 then Cnst 0
      else if isCnstN l 1 then r
      else if isCnstN r 1 then l
      else if isCnstN l WMSK then E1 NEG r
      else if isCnstN r WMSK then E1 NEG l
      else E2 MUL l r
  end.

(* optree.c:259-266 *)
Definition optDiv (l r : expr) : res expr :=
  if isCnstN r 0 then Err EDiv0
  else match l, r with
       | Cnst a, Cnst b => Ok (Cnst (Z.quot (getSInt a) (getSInt b)))
       | _, _ => if isCnstN r 1 then Ok l else Ok (E2 DIV l r)
       end.

(* optree.c:269-276 *)
Definition optMod (l r : expr) : res expr :=
  if isCnstN r 0 then Err EMod0
  else match l, r with
       | Cnst a, Cnst b => Ok (Cnst (Z.rem (getSInt a) (getSInt b)))
       | _, _ => if isCnstN r 1 then Ok (Cnst 0) else Ok (E2 MOD l r)
       end.

(* optree.c:291-324 optGt .. optNeq; [f] is the C comparison *)
Definition optCmp (o : op2) (l r : expr) : expr :=
  match l, r with
  | Cnst a, Cnst b =>
      setBool (match o with
               | GT => getSInt b <? getSInt a
               | GE => getSInt b <=? getSInt a
               | LT => getSInt a <? getSInt b
               | LE => getSInt a <=? getSInt b
               | EQU => a =? b
               | _ => negb (a =? b)
               end)
  | _, _ => E2 o l r
  end.

(* optree.c:327-334 *)
Definition optOr (l r : expr) : expr :=
  if isCnstN l 1 || isCnstN r 1 then setBool true
  else if isCnstN l 0 then r
  else if isCnstN r 0 then l
  else E2 OR l r.

(* optree.c:337-344 *)
Definition optAnd (l r : expr) : expr :=
  if isCnstN l 0 || isCnstN r 0 then setBool false
  else if isCnstN l 1 then r
  else if isCnstN r 1 then l
  else E2 AND l r.

(* optree.c:356-383: the operator dispatch of calExp for two-operand nodes *)
Definition opt2 (o : op2) (l r : expr) : res expr :=
  match o with
  | ADD => Ok (optAdd l r) | SUB => Ok (optSub l r)
  | SHL => optShl l r | SHR => optShr l r
  | BAND => Ok (optBAnd l r) | BOR => Ok (optBOr l r) | BXOR => Ok (optBXor l r)
  | MUL => Ok (optMul l r) | DIV => optDiv l r | MOD => optMod l r
  | GT | GE | LT | LE | EQU | NEQ => Ok (optCmp o l r)
  | OR => Ok (optOr l r) | AND => Ok (optAnd l r)
  | _ => Ok (E2 o l r)
  end.

(* optree.c:386-387: mask the node if it has become a constant *)
Definition maskC (e : expr) : expr :=
  match e with Cnst v => Cnst (Z.land v WMSK) | _ => e end.

(* optree.c:347-389 calExp *)
Fixpoint calExp (e : expr) : res expr :=
  match e with
  | ENull => Err ENullDeref
  | ELeaf k => Ok (maskC (ELeaf k))
  | E1 o l => l' <- calExp l ;; Ok (maskC (opt1 o l'))
  | E2 o l r =>
      l' <- calExp l ;; r' <- calExp r ;; e' <- opt2 o l' r' ;; Ok (maskC e')
  | EFunc f a =>
      match a with
      | ENull => Ok e
      | _ => a' <- calExp a ;; Ok (EFunc f a')
      end
  end.

(* optree.c:395-405 canPull *)
Definition canPull (opL opR : op2) : bool :=
  match opL, opR with
  | (ADD | SUB), (ADD | SUB) => true
  | (MUL | BAND | BOR | BXOR | AND | OR), _ => op2_eqb opL opR
  | _, _ => false
  end.

(* optree.c:425-432: type of the upper node after a pull *)
Definition pulledOp (opN opB : op2) : op2 :=
  match opN with
  | ADD | SUB => if op2_eqb opN opB then ADD else SUB
  | _ => opN
  end.

(* optree.c:411-440 pullTree and 443-447 moveLeft.
   [pull o a r] is pullTree on the node (o, a, r): the C while loop re-examines
   the same node with the shorter right child d after pulling b = (o, a, c), so
   it is expressed as a second call; when the loop stops, moveLeft is applied to
   the right child (unfolded here one step so that the recursion is structural).
   In b the operator is o itself: for ADD/SUB the code stores opN into b
   (optree.c:428), for the others both operators are equal (canPull). *)
Fixpoint moveLeft (e : expr) : expr :=
  match e with
  | ENull => ENull
  | ELeaf k => ELeaf k
  | E1 o x => E1 o (moveLeft x)
  | EFunc f a => EFunc f (moveLeft a)
  | E2 o l r => pull o (moveLeft l) r
  end
with pull (o : op2) (a r : expr) {struct r} : expr :=
  match r with
  | ENull => E2 o a ENull
  | ELeaf k => E2 o a (ELeaf k)
  | E1 o1 x => E2 o a (E1 o1 (moveLeft x))
  | EFunc f x => E2 o a (EFunc f (moveLeft x))
  | E2 ob c d =>
      if canPull o ob
      then pull (pulledOp o ob) (pull o a c) d
      else E2 o a (pull ob (moveLeft c) d)
  end.

(* optree.c:450-457 normSub *)
Definition normSub (o : op2) (r : expr) : op2 * expr :=
  match o, r with
  | SUB, Cnst v => (ADD, Cnst (- getSInt v))
  | _, _ => (o, r)
  end.

Definition is_cnst (e : expr) : bool := match e with Cnst _ => true | _ => false end.

(* optree.c:464-466: operators moveCnst applies to *)
Definition movable (o : op2) : bool :=
  match o with
  | ADD | MUL | DIV | BAND | BOR | BXOR | AND | OR => true
  | _ => false
  end.

(* optree.c:470-491: the loop and the final step of moveCnst on the node
   (op, l, c), c the constant. The loop exchanges node and l and continues with
   l; written as a recursion that rebuilds the nodes passed. *)
Fixpoint pushC (op : op2) (l c : expr) {struct l} : expr :=
  match l with
  | E2 lop x a =>
      if (op2_eqb lop op || (op2_eqb op ADD && op2_eqb lop SUB)) && negb (is_cnst a)
      then E2 lop (pushC op x c) a
      else if op2_eqb lop op
           then E2 op x (E2 (if op2_eqb op DIV then MUL else op) a c)
           else E2 op l c
  | _ => E2 op l c
  end.

(* optree.c:460-491 moveCnst on a two-operand node *)
Definition moveCnst (o : op2) (l r : expr) : expr :=
  let '(o', r') := normSub o r in
  if movable o' && is_cnst r' then pushC o' l r' else E2 o' l r'.

(* optree.c:495-503 arrExp. For one-operand nodes moveCnst does nothing. *)
Fixpoint arrExp (e : expr) : res expr :=
  match e with
  | ENull => Err ENullDeref
  | ELeaf k => calExp (ELeaf k)
  | E1 o l => l' <- arrExp l ;; calExp (E1 o l')
  | E2 o l r => r' <- arrExp r ;; l' <- arrExp l ;; calExp (moveCnst o l' r')
  | EFunc f a =>
      match a with
      | ENull => calExp e
      | _ => a' <- arrExp a ;; calExp (EFunc f a')
      end
  end.

(* optree.c:506-510 optExp *)
Definition optExp (e : expr) : res expr :=
  match e with ENull => Ok ENull | _ => arrExp (moveLeft e) end.

(* the statement that copyNode (optree.c:61-69) writes when the source is a
   statement slot: SyNULL becomes an empty SySEMI *)
Definition copyStmt (s : stmt) : stmt :=
  match s with SNull => SSemi SNull SNull | _ => s end.

(* optree.c:516-527 optIf, 530-545 optEls, 548-563 optWhl, 566-582 optDo,
   593-595 optRet, 598-601 optBlk, 604-620 optTree. After copying a body over
   its if node the C code optimises the copy, i.e. the body once. *)
Fixpoint optTree (s : stmt) : res stmt :=
  match s with
  | SNull => Ok SNull
  | SVar i => Ok s
  | SBrk => Ok s
  | SCnt => Ok s
  | SExpr e => e' <- optExp e ;; Ok (SExpr e')
  | SIf c b =>
      c' <- optExp c ;;
      match c' with
      | Cnst v => if getBool v then b' <- optTree b ;; Ok (copyStmt b')
                  else Ok (SExpr c')
      | _ => b' <- optTree b ;; Ok (SIf c' b')
      end
  | SEls c b1 b2 =>
      c' <- optExp c ;;
      match c' with
      | Cnst v => if getBool v then b' <- optTree b1 ;; Ok (copyStmt b')
                  else b' <- optTree b2 ;; Ok (copyStmt b')
      | _ => b2' <- optTree b2 ;; b1' <- optTree b1 ;; Ok (SEls c' b1' b2')
      end
  | SWhl c b re =>
      c' <- optExp c ;;
      match c' with
      | Cnst v => if getBool v then
                    b' <- optTree b ;; re' <- optExp re ;; Ok (SWhl ENull b' re')
                  else Ok (SExpr c')
      | _ => b' <- optTree b ;; re' <- optExp re ;; Ok (SWhl c' b' re')
      end
  | SDo b c =>
      c' <- optExp c ;; b' <- optTree b ;;
      match c' with
      | Cnst v => if getBool v then Ok (SWhl ENull b' ENull) else Ok (copyStmt b')
      | _ => Ok (SDo b' c')
      end
  | SRet e => e' <- optExp e ;; Ok (SRet e')
  | SSemi l r => l' <- optTree l ;; r' <- optTree r ;; Ok (SSemi l' r')
  | SBlk l r => l' <- optTree l ;; r' <- optTree r ;; Ok (SBlk l' r')
  end.
