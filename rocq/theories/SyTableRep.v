(* What it means that the table of nodes holds a tree (specification for C45).
   [RE m i e P]: slot i of the table m is the root of the expression e, all of
   its slots are in the table and in the set P, and no slot is used twice: the
   parts of a node lie in disjoint sets that do not contain the node.
   [RS m i s P]: the same for a statement; the index SyNULL is the empty one. *)
From Coq Require Import ZArith Bool List.
From Verif Require Import SyTree SyTable.
Import ListNotations.
Open Scope Z_scope.

(* sytree.h:65-112 *)
Definition tyL (k : leaf) : Z :=
  match k with LCnst _ => SyCNST | LLoc _ => SyLOC | LPrm _ => SyPRM | LGlb _ => SyGLB | LStr _ => SySTR | LAddr _ => SyADDR end.
Definition valL (k : leaf) : Z :=
  match k with LCnst v => v | LLoc v => v | LPrm v => v | LGlb v => v | LStr v => v | LAddr v => v end.
Definition ty1 (o : op1) : Z := match o with NEG => SyNEG | NOT => SyNOT | BNOT => SyBNOT | CHR => SyCHR | BOOL => SyBOOL end.
Definition ty2 (o : op2) : Z :=
  match o with
  | ADD => SyADD | SUB => SySUB | SHL => SySHL | SHR => SySHR | BAND => SyBAND | BXOR => SyBXOR | BOR => SyBOR
  | MUL => SyMUL | DIV => SyDIV | MOD => SyMOD | DOT => SyDOT | IDXR => SyIDXR | IDXI => SyIDXI | IDXC => SyIDXC | IDXB => SyIDXB
  | GT => SyGT | GE => SyGE | LT => SyLT | LE => SyLE | EQU => SyEQU | NEQ => SyNEQ
  | ASS => SyASS | COMM => SyCOMM | OR => SyOR | AND => SyAND | SEMI => SySEMI
  end.

(* Q is a part of P that does not contain i *)
Definition below (i : Z) (P Q : Z -> Prop) : Prop := P i /\ (forall x, Q x -> P x) /\ ~ Q i.
Definition apart (Q R : Z -> Prop) : Prop := forall x, Q x -> R x -> False.

Inductive RE (m : mem) : Z -> expr -> (Z -> Prop) -> Prop :=
| RLeaf i k (P : Z -> Prop) : inTab i = true -> P i -> nty (m i) = tyL k -> nl (m i) = valL k -> RE m i (ELeaf k) P
| R1 i o e P Q : inTab i = true -> nty (m i) = ty1 o -> below i P Q -> RE m (nl (m i)) e Q -> RE m i (E1 o e) P
| R2 i o l r P Q1 Q2 : inTab i = true -> nty (m i) = ty2 o -> below i P Q1 -> below i P Q2 -> apart Q1 Q2 ->
    RE m (nl (m i)) l Q1 -> RE m (nr (m i)) r Q2 -> RE m i (E2 o l r) P
| RF0 i f (P : Z -> Prop) : inTab i = true -> P i -> nty (m i) = SyFUNC -> nl (m i) = f -> nr (m i) = SyNULL -> RE m i (EFunc f ENull) P
| RF i f a P Q : inTab i = true -> nty (m i) = SyFUNC -> nl (m i) = f -> below i P Q -> RE m (nr (m i)) a Q -> RE m i (EFunc f a) P.

(* an expression that may be missing *)
Definition ROpt (m : mem) (i : Z) (e : expr) (P : Z -> Prop) : Prop := (i = SyNULL /\ e = ENull) \/ RE m i e P.

(* the node that separates arguments is used below function calls only *)
Fixpoint noSemi (e : expr) : bool :=
  match e with
  | ENull | ELeaf _ | EFunc _ _ => true
  | E1 _ e => noSemi e
  | E2 o l r => negb (op2_eqb o SEMI) && noSemi l && noSemi r
  end.

Inductive RS (m : mem) : Z -> stmt -> (Z -> Prop) -> Prop :=
| RSNull P : RS m SyNULL SNull P
| RSExpr i e P : RE m i e P -> noSemi e = true -> RS m i (SExpr e) P
| RSVar i v (P : Z -> Prop) : inTab i = true -> P i -> nty (m i) = SyVAR -> nl (m i) = v -> RS m i (SVar v) P
| RSIf i c b P Q1 Q2 : inTab i = true -> nty (m i) = SyIF -> below i P Q1 -> below i P Q2 -> apart Q1 Q2 ->
    RE m (nl (m i)) c Q1 -> RS m (nr (m i)) b Q2 -> RS m i (SIf c b) P
| RSEls i j c b1 b2 P Q1 Q2 Q3 : inTab i = true -> inTab j = true -> i <> j -> nty (m i) = SyELS -> nl (m i) = j -> nty (m j) = SyIF ->
    below i P Q1 -> below i P Q2 -> below i P Q3 -> below j P Q1 -> below j P Q2 -> below j P Q3 ->
    apart Q1 Q2 -> apart Q1 Q3 -> apart Q2 Q3 ->
    RE m (nl (m j)) c Q1 -> RS m (nr (m j)) b1 Q2 -> RS m (nr (m i)) b2 Q3 -> RS m i (SEls c b1 b2) P
| RSWhl i j c b e P Q1 Q2 Q3 : inTab i = true -> inTab j = true -> i <> j -> nty (m i) = SyWHL -> nr (m i) = j -> nty (m j) = SySEMI ->
    below i P Q1 -> below i P Q2 -> below i P Q3 -> below j P Q1 -> below j P Q2 -> below j P Q3 ->
    apart Q1 Q2 -> apart Q1 Q3 -> apart Q2 Q3 ->
    ROpt m (nl (m i)) c Q1 -> RS m (nl (m j)) b Q2 -> ROpt m (nr (m j)) e Q3 -> RS m i (SWhl c b e) P
| RSDo i c b P Q1 Q2 : inTab i = true -> nty (m i) = SyDO -> below i P Q1 -> below i P Q2 -> apart Q1 Q2 ->
    RS m (nl (m i)) b Q1 -> RE m (nr (m i)) c Q2 -> RS m i (SDo b c) P
| RSBrk i (P : Z -> Prop) : inTab i = true -> P i -> nty (m i) = SyBRK -> RS m i SBrk P
| RSCnt i (P : Z -> Prop) : inTab i = true -> P i -> nty (m i) = SyCNT -> RS m i SCnt P
| RSRet i e P Q : inTab i = true -> nty (m i) = SyRET -> below i P Q -> ROpt m (nl (m i)) e Q -> RS m i (SRet e) P
| RSSemi i l r P Q1 Q2 : inTab i = true -> nty (m i) = SySEMI -> below i P Q1 -> below i P Q2 -> apart Q1 Q2 ->
    RS m (nl (m i)) l Q1 -> RS m (nr (m i)) r Q2 -> RS m i (SSemi l r) P
| RSBlk i l r P Q1 Q2 : inTab i = true -> nty (m i) = SyBLK -> below i P Q1 -> below i P Q2 -> apart Q1 Q2 ->
    RS m (nl (m i)) l Q1 -> RS m (nr (m i)) r Q2 -> RS m i (SBlk l r) P.
