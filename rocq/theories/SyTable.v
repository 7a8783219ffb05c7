(* Model of the table of nodes, src/sytree.c and src/sytree.h, and of the optimiser
   src/optree.c as it works on the table: slots of an array that are overwritten in
   place (16 bit build). OpTree.v is the same optimiser as a function on trees. *)
From Coq Require Import ZArith Bool List.
From Verif Require Import SyTree OpTree.
Import ListNotations.
Open Scope Z_scope.

(* ---- sytree.h:50-128 ---- *)
Definition SyMAX : Z := 3000.
Definition SyNULL : Z := 9999.
Definition SyCNST := 0x102. Definition SyLOC := 0x103. Definition SyPRM := 0x104. Definition SyGLB := 0x105.
Definition SySTR := 0x106. Definition SyFUNC := 0x107. Definition SyADDR := 0x108.
Definition SyNEG := 0x200. Definition SyNOT := 0x201. Definition SyBNOT := 0x202. Definition SyCHR := 0x203. Definition SyBOOL := 0x204.
Definition SyADD := 0x300. Definition SySUB := 0x301. Definition SySHL := 0x302. Definition SySHR := 0x303. Definition SyBAND := 0x304.
Definition SyBXOR := 0x305. Definition SyBOR := 0x306. Definition SyMUL := 0x307. Definition SyDIV := 0x308. Definition SyMOD := 0x309.
Definition SyDOT := 0x30a. Definition SyIDXR := 0x380. Definition SyIDXI := 0x381. Definition SyIDXC := 0x382. Definition SyIDXB := 0x383.
Definition SyGT := 0x404. Definition SyGE := 0x405. Definition SyLT := 0x406. Definition SyLE := 0x407. Definition SyEQU := 0x408. Definition SyNEQ := 0x409.
Definition SyASS := 0x500. Definition SyCOMM := 0x501. Definition SyOR := 0x600. Definition SyAND := 0x601.
Definition SyIF := 0x700. Definition SyELS := 0x701. Definition SyWHL := 0x702. Definition SyDO := 0x703. Definition SyBRK := 0x704.
Definition SyCNT := 0x705. Definition SyRET := 0x706. Definition SySEMI := 0x707. Definition SyVAR := 0x708. Definition SyBLK := 0x709.
Definition SyARRY := 0x800. Definition SyLIST := 0x801.
Definition SyIS1OPR (c : Z) := Z.land c 0xf00 =? 0x200.
Definition SyIS2OPR (c : Z) := Z.land c 0xf00 =? 0x300.
Definition SyISCMP (c : Z) := Z.land c 0xf00 =? 0x400.
Definition SyISLOPR (c : Z) := Z.land c 0xf00 =? 0x600.
Definition SyISSTAT (c : Z) := Z.land c 0xf00 =? 0x700.

(* ---- the table ---- *)
Record node := N { nty : Z; nl : Z; nr : Z }.
Definition mem := Z -> node.
Definition put (m : mem) (i : Z) (x : node) : mem := fun j => if j =? i then x else m j.
Definition inTab (i : Z) : bool := (0 <=? i) && (i <? SyMAX).

(* Ret: normal; Fail: error() with one of the messages of optree.c; Bug: an index
   outside of the table, or one of the messages "BUG"; Fuel: not finished *)
Inductive out (A : Type) := Ret (a : A) (m : mem) | Fail (e : operr) | Bug | Fuel.
Arguments Ret {A}. Arguments Fail {A}. Arguments Bug {A}. Arguments Fuel {A}.
Definition M (A : Type) := mem -> out A.
Definition ret {A} (a : A) : M A := fun m => Ret a m.
Definition bnd {A B} (x : M A) (k : A -> M B) : M B :=
  fun m => match x m with Ret a m => k a m | Fail e => Fail e | Bug => Bug | Fuel => Fuel end.
Notation "'let^' x ':=' a 'in' b" := (bnd a (fun x => b)) (at level 200, x binder, a at level 100, b at level 200).
Notation "a ;; b" := (bnd a (fun _ => b)) (at level 61, right associativity).
Definition fail {A} (e : operr) : M A := fun _ => Fail e.
Definition bug {A} : M A := fun _ => Bug.

(* sytree.h:138-146 *)
Definition getT (i : Z) : M Z := fun m => if inTab i then Ret (nty (m i)) m else Bug.
Definition getL (i : Z) : M Z := fun m => if inTab i then Ret (nl (m i)) m else Bug.
Definition getR (i : Z) : M Z := fun m => if inTab i then Ret (nr (m i)) m else Bug.
Definition setT (i t : Z) : M unit := fun m => if inTab i then Ret tt (put m i (N t (nl (m i)) (nr (m i)))) else Bug.
Definition setL (i l : Z) : M unit := fun m => if inTab i then Ret tt (put m i (N (nty (m i)) l (nr (m i)))) else Bug.
Definition setR (i r : Z) : M unit := fun m => if inTab i then Ret tt (put m i (N (nty (m i)) (nl (m i)) r)) else Bug.

(* ---- optree.c:53-69 ---- *)
Definition setNode (i t l r : Z) : M unit := if i =? SyNULL then bug else setT i t ;; setL i l ;; setR i r.
Definition copyNode (dst src : Z) : M unit :=
  (if src =? SyNULL then let^ t := getT dst in if SyISSTAT t then ret tt else bug else ret tt) ;;
  if negb (src =? SyNULL) then let^ t := getT src in let^ l := getL src in let^ r := getR src in setNode dst t l r
  else setNode dst SySEMI SyNULL SyNULL.

(* optree.c:71-125; getSInt and getBool work on the number, OpTree.v *)
Definition getUInt (i : Z) : M Z := getL i.
Definition sInt (i : Z) : M Z := let^ v := getUInt i in ret (getSInt v).
Definition bInt (i : Z) : M bool := let^ v := getUInt i in ret (getBool v).
Definition setUInt (i v : Z) : M unit := setNode i SyCNST v SyNULL.
Definition setB (i : Z) (b : bool) : M unit := if b then setUInt i 1 else setUInt i 0.
Definition isC (i : Z) : M bool := let^ t := getT i in ret (t =? SyCNST).
Definition cnstN (i n : Z) : M bool := let^ c := isC i in if c then let^ v := getUInt i in ret (v =? Z.land n WMSK) else ret false.
Definition cnstCnst (l r : Z) : M bool := let^ c := isC l in if c then isC r else ret false.
(* || evaluates its right side only when the left is false *)
Definition orM (a b : M bool) : M bool := let^ x := a in if x then ret true else b.
Definition needL (i : Z) : M bool :=
  let^ op := getT i in
  ret (SyIS1OPR op || SyIS2OPR op || SyISCMP op || SyISLOPR op || (op =? SyASS) || (op =? SyCOMM) || (op =? SySEMI) || (op =? SyBLK)).
Definition needR (i : Z) : M bool :=
  let^ op := getT i in
  let^ r := getR i in
  ret (((op =? SyFUNC) && negb (r =? SyNULL)) ||
       SyIS2OPR op || SyISCMP op || SyISLOPR op || (op =? SyASS) || (op =? SyCOMM) || (op =? SySEMI) || (op =? SyBLK)).
Notation "'when' c 'then' a 'else' b" := (bnd c (fun x : bool => if x then a else b)) (at level 200, c at level 100, a at level 100, b at level 200).

(* optree.c:129-156 *)
Definition tNeg (n l : Z) : M unit := when isC l then (let^ v := sInt l in setUInt n (- v)) else ret tt.
Definition tNot (n l : Z) : M unit := when isC l then (let^ v := bInt l in setB n (negb v)) else ret tt.
Definition tBNot (n l : Z) : M unit := when isC l then (let^ v := getUInt l in setUInt n (Z.lnot v)) else ret tt.
Definition tChr (n l : Z) : M unit := when isC l then (let^ v := getUInt l in setUInt n (Z.land v BMSK)) else ret tt.
Definition tBool (n l : Z) : M unit := when isC l then (let^ v := bInt l in setB n v) else ret tt.
(* optree.c:163-180 *)
Definition tAdd (n l r : Z) : M unit :=
  when cnstCnst l r then (let^ a := sInt l in let^ b := sInt r in setUInt n (a + b))
  else when cnstN l 0 then copyNode n r else when cnstN r 0 then copyNode n l else ret tt.
Definition tSub (n l r : Z) : M unit :=
  when cnstCnst l r then (let^ a := sInt l in let^ b := sInt r in setUInt n (a - b))
  else when cnstN l 0 then setNode n SyNEG r SyNULL else when cnstN r 0 then copyNode n l else ret tt.
(* optree.c:183-202 *)
Definition tShl (n l r : Z) : M unit :=
  let^ k := getUInt r in
  when isC r then
    (if (k <? 0) || (16 <=? k) then fail EShl
     else when cnstN r 0 then copyNode n l else when cnstCnst l r then (let^ a := sInt l in setUInt n (Z.shiftl a k)) else ret tt)
  else when cnstN r 0 then copyNode n l else when cnstCnst l r then (let^ a := sInt l in setUInt n (Z.shiftl a k)) else ret tt.
Definition tShr (n l r : Z) : M unit :=
  let^ k := getUInt r in
  when isC r then
    (if (k <? 0) || (16 <=? k) then fail EShr
     else when cnstN r 0 then copyNode n l else when cnstCnst l r then (let^ a := sInt l in setUInt n (Z.shiftr a k)) else ret tt)
  else when cnstN r 0 then copyNode n l else when cnstCnst l r then (let^ a := sInt l in setUInt n (Z.shiftr a k)) else ret tt.
(* optree.c:205-240 *)
Definition tBAnd (n l r : Z) : M unit :=
  when cnstCnst l r then (let^ a := getUInt l in let^ b := getUInt r in setUInt n (Z.land a b))
  else when orM (cnstN l 0) (cnstN r 0) then setUInt n 0
  else when cnstN l WMSK then copyNode n r else when cnstN r WMSK then copyNode n l else ret tt.
Definition tBOr (n l r : Z) : M unit :=
  when cnstCnst l r then (let^ a := getUInt l in let^ b := getUInt r in setUInt n (Z.lor a b))
  else when orM (cnstN l WMSK) (cnstN r WMSK) then setUInt n WMSK
  else when cnstN l 0 then copyNode n r else when cnstN r 0 then copyNode n l else ret tt.
Definition tBXor (n l r : Z) : M unit :=
  when cnstCnst l r then (let^ a := getUInt l in let^ b := getUInt r in setUInt n (Z.lxor a b))
  else when cnstN l WMSK then setNode n SyBNOT r SyNULL
  else when cnstN l 0 then copyNode n r
  else when cnstN r WMSK then setNode n SyBNOT l SyNULL
  else when cnstN r 0 then copyNode n l else ret tt.
(* optree.c:243-276 *)
Definition tMul (n l r : Z) : M unit :=
  when cnstCnst l r then (let^ a := sInt l in let^ b := sInt r in setUInt n (a * b))
  else when orM (cnstN l 0) (cnstN r 0) then setUInt n 0
  else when cnstN l 1 then copyNode n r else when cnstN r 1 then copyNode n l
  else when cnstN l WMSK then setNode n SyNEG r SyNULL else when cnstN r WMSK then setNode n SyNEG l SyNULL else ret tt.
Definition tDiv (n l r : Z) : M unit :=
  when cnstN r 0 then fail EDiv0
  else when cnstCnst l r then (let^ a := sInt l in let^ b := sInt r in setUInt n (Z.quot a b))
  else when cnstN r 1 then copyNode n l else ret tt.
Definition tMod (n l r : Z) : M unit :=
  when cnstN r 0 then fail EMod0
  else when cnstCnst l r then (let^ a := sInt l in let^ b := sInt r in setUInt n (Z.rem a b))
  else when cnstN r 1 then setUInt n 0 else ret tt.
(* optree.c:291-324 *)
Definition tCmpS (f : Z -> Z -> bool) (n l r : Z) : M unit :=
  when cnstCnst l r then (let^ a := sInt l in let^ b := sInt r in setB n (f a b)) else ret tt.
Definition tCmpU (f : Z -> Z -> bool) (n l r : Z) : M unit :=
  when cnstCnst l r then (let^ a := getL l in let^ b := getL r in setB n (f a b)) else ret tt.
(* optree.c:327-344 *)
Definition tOr (n l r : Z) : M unit :=
  when orM (cnstN l 1) (cnstN r 1) then setB n true
  else when cnstN l 0 then copyNode n r else when cnstN r 0 then copyNode n l else ret tt.
Definition tAnd (n l r : Z) : M unit :=
  when orM (cnstN l 0) (cnstN r 0) then setB n false
  else when cnstN l 1 then copyNode n r else when cnstN r 1 then copyNode n l else ret tt.

(* optree.c:358-383 *)
Definition tDispatch (ty n l r : Z) : M unit :=
  if ty =? SyNEG then tNeg n l else if ty =? SyNOT then tNot n l else if ty =? SyBNOT then tBNot n l
  else if ty =? SyCHR then tChr n l else if ty =? SyBOOL then tBool n l
  else if ty =? SyADD then tAdd n l r else if ty =? SySUB then tSub n l r
  else if ty =? SySHL then tShl n l r else if ty =? SySHR then tShr n l r
  else if ty =? SyBAND then tBAnd n l r else if ty =? SyBOR then tBOr n l r else if ty =? SyBXOR then tBXor n l r
  else if ty =? SyMUL then tMul n l r else if ty =? SyDIV then tDiv n l r else if ty =? SyMOD then tMod n l r
  else if ty =? SyGT then tCmpS (fun a b => b <? a) n l r else if ty =? SyGE then tCmpS (fun a b => b <=? a) n l r
  else if ty =? SyLT then tCmpS (fun a b => a <? b) n l r else if ty =? SyLE then tCmpS (fun a b => a <=? b) n l r
  else if ty =? SyEQU then tCmpU (fun a b => a =? b) n l r else if ty =? SyNEQ then tCmpU (fun a b => negb (a =? b)) n l r
  else if ty =? SyOR then tOr n l r else if ty =? SyAND then tAnd n l r else ret tt.
(* optree.c:386-387 *)
Definition tMask (n : Z) : M unit := when isC n then (let^ v := getUInt n in setL n (Z.land v WMSK)) else ret tt.
(* optree.c:347-389 *)
Fixpoint tCal (f : nat) (n : Z) : M unit :=
  match f with
  | O => fun _ => Fuel
  | S f =>
    let^ ty := getT n in let^ l := getL n in let^ r := getR n in
    (when needL n then tCal f l else ret tt) ;;
    (when needR n then tCal f r else ret tt) ;;
    tDispatch ty n l r ;;
    tMask n
  end.

(* optree.c:395-405 *)
Definition canPullZ (opL opR : Z) : bool :=
  (((opL =? SyADD) || (opL =? SySUB)) && ((opR =? SyADD) || (opR =? SySUB))) ||
  (((opL =? SyMUL) || (opL =? SyBAND) || (opL =? SyBOR) || (opL =? SyBXOR) || (opL =? SyAND) || (opL =? SyOR)) && (opL =? opR)).
(* optree.c:411-447: the while loop is a call of pullTree for the same node *)
Fixpoint tPull (f : nat) (n : Z) : M unit :=
  match f with
  | O => fun _ => Fuel
  | S f =>
    when (when needR n then (let^ t := getT n in let^ r := getR n in let^ u := getT r in ret (canPullZ t u)) else ret false)
    then (let^ a := getL n in let^ b := getR n in let^ c := getL b in let^ d := getR b in
          setL n b ;; setR n d ;; setL b a ;; setR b c ;;
          (let^ opN := getT n in let^ opB := getT b in
           (if (opN =? SyADD) || (opN =? SySUB)
            then setT b opN ;; setT n (if negb (opN =? opB) then SySUB else SyADD)
            else ret tt) ;;
           tPull f b ;; tPull f n))
    else when needR n then (let^ r := getR n in tMove f r) else ret tt
  end
with tMove (f : nat) (n : Z) : M unit :=
  match f with
  | O => fun _ => Fuel
  | S f => (when needL n then (let^ l := getL n in tMove f l) else ret tt) ;; tPull f n
  end.

(* optree.c:450-457 *)
Definition tNormSub (n : Z) : M unit :=
  let^ op := getT n in let^ r := getR n in
  when (if op =? SySUB then isC r else ret false)
  then (let^ v := sInt r in setUInt r (- v) ;; setT n SyADD)
  else ret tt.
Definition movableZ (op : Z) : bool :=
  (op =? SyADD) || (op =? SyMUL) || (op =? SyDIV) || (op =? SyBAND) || (op =? SyBOR) || (op =? SyBXOR) || (op =? SyAND) || (op =? SyOR).
(* optree.c:470-491: the loop, then the last step *)
Fixpoint tPush (f : nat) (op n : Z) : M unit :=
  match f with
  | O => fun _ => Fuel
  | S f =>
    let^ l := getL n in let^ r := getR n in let^ lOp := getT l in
    when (if (lOp =? op) || ((op =? SyADD) && (lOp =? SySUB)) then (let^ x := getR l in let^ c := isC x in ret (negb c)) else ret false)
    then (let^ t := getT n in setT l t ;; setT n lOp ;; let^ x := getR l in setR n x ;; setR l r ;; tPush f op l)
    else
      if lOp =? op then
        let^ x := getL l in setL n x ;; let^ y := getR l in setL l y ;; setR l r ;; setR n l ;;
        (if op =? SyDIV then setT l SyMUL else ret tt)
      else ret tt
  end.
(* optree.c:460-491 *)
Definition tMoveCnst (f : nat) (n : Z) : M unit :=
  tNormSub n ;;
  let^ op := getT n in
  if negb (movableZ op) then ret tt
  else let^ r := getR n in when isC r then tPush f op n else ret tt.
(* optree.c:495-510 *)
Fixpoint tArr (f : nat) (n : Z) : M unit :=
  match f with
  | O => fun _ => Fuel
  | S f =>
    (when needR n then (let^ r := getR n in tArr f r) else ret tt) ;;
    (when needL n then ((let^ l := getL n in tArr f l) ;; tMoveCnst f n) else ret tt) ;;
    tCal f n
  end.
Definition tExp (f : nat) (n : Z) : M unit := if n =? SyNULL then ret tt else tMove f n ;; tArr f n.

(* optree.c:516-620 *)
Fixpoint tTree (f : nat) (n : Z) : M unit :=
  match f with
  | O => fun _ => Fuel
  | S f =>
    if n =? SyNULL then ret tt else
    let^ ty := getT n in
    if ty =? SyVAR then ret tt
    else if ty =? SyIF then
      let^ cnd := getL n in tExp f cnd ;;
      when isC cnd
      then (when bInt cnd then ((let^ b := getR n in copyNode n b) ;; tTree f n) else copyNode n cnd)
      else let^ b := getR n in tTree f b
    else if ty =? SyELS then
      let^ ifs := getL n in let^ cnd := getL ifs in tExp f cnd ;;
      when isC cnd
      then ((when bInt cnd then (let^ b := getR ifs in copyNode n b) else let^ b := getR n in copyNode n b) ;; tTree f n)
      else ((let^ b := getR n in tTree f b) ;; let^ b := getR ifs in tTree f b)
    else if ty =? SyWHL then
      let^ cnd := getL n in tExp f cnd ;;
      when (if negb (cnd =? SyNULL) then isC cnd else ret false)
      then (when bInt cnd
            then (setL n SyNULL ;; (let^ s := getR n in let^ b := getL s in tTree f b) ;; (let^ s := getR n in let^ e := getR s in tExp f e))
            else copyNode n cnd)
      else ((let^ s := getR n in let^ b := getL s in tTree f b) ;; let^ s := getR n in let^ e := getR s in tExp f e)
    else if ty =? SyDO then
      let^ cnd := getR n in let^ sta := getL n in tExp f cnd ;; tTree f sta ;;
      when isC cnd
      then (when bInt cnd
            then (setT n SyWHL ;; setT cnd SySEMI ;; setL cnd sta ;; setR cnd SyNULL ;; setR n cnd ;; setL n SyNULL)
            else copyNode n sta)
      else ret tt
    else if (ty =? SyBRK) || (ty =? SyCNT) then ret tt
    else if ty =? SyRET then let^ e := getL n in tExp f e
    else if (ty =? SySEMI) || (ty =? SyBLK) then (let^ l := getL n in tTree f l) ;; let^ r := getR n in tTree f r
    else if (ty =? SyARRY) || (ty =? SyLIST) then bug
    else tExp f n
  end.

(* ---- sytree.c:64-100 ---- *)
(* the table and syNextIdx *)
Record tab := T { slots : mem; next : Z }.
(* None: error("... too large") *)
Definition syNewNode (t : tab) (ty l r : Z) : option (Z * tab) :=
  let i := next t in
  if SyMAX <=? i then None else Some (i, T (put (slots t) i (N ty l r)) (i + 1)).
Definition syCatNode (t : tab) (l r : Z) : option (Z * tab) :=
  if negb (l =? SyNULL) && negb (r =? SyNULL) then syNewNode t SySEMI l r
  else if negb (l =? SyNULL) then Some (l, t) else Some (r, t).
Definition syClear (t : tab) : tab := T (slots t) 0.
Definition syGetRoot (t : tab) : Z := let root := next t - 1 in if root <? 0 then SyNULL else root.
