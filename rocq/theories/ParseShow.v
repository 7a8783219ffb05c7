(* Printing expression trees with parentheses, and the tokens of a text as the lexer gives them. *)
From Coq Require Import ZArith Bool Lia List.
From Verif Require Import Lexer NameTable SyTree Parser ParseSpec ParseSound ParseComplete.
Import ListNotations.
Open Scope Z_scope.

(* ---- printing ---- *)
Definition opLevel (o : op2) : nat :=
  match o with
  | OR => 2 | AND => 3 | BOR => 4 | BXOR => 5 | BAND => 6 | EQU | NEQ => 7
  | LT | LE | GT | GE => 8 | SHL | SHR => 9 | ADD | SUB => 10 | _ => 11
  end.
Definition opSign (o : op2) : Z :=
  match o with
  | OR => LxOR | AND => LxAND | BOR => cBAR | BXOR => cHAT | BAND => cAMP | EQU => LxEQU | NEQ => LxNEQ
  | LT => cLT | LE => LxLTE | GT => cGT | GE => LxGTE | SHL => LxSHL | SHR => LxSHR
  | ADD => cPLUS | SUB => cMINUS | MUL => cSTAR | DIV => cSLASH | _ => cPERCENT
  end.
(* the level an expression has by itself *)
Definition level (e : ast) : nat :=
  match e with
  | AComma _ _ => 0 | AAssign _ _ => 1 | ABin o _ _ => opLevel o | AUn _ _ => 12 | _ => 13
  end.
(* extra says which subexpressions are put in parentheses although they need none *)
Definition par (extra : ast -> bool) (k : nat) (e : ast) (ts : list stok) : list stok :=
  if Nat.leb k (level e) && negb (extra e) then ts else TSym cLP :: ts ++ [TSym cRP].
Fixpoint text (extra : ast -> bool) (e : ast) : list stok :=
  let p k e := par extra k e (text extra e) in
  match e with
  | AName n => [TName n]
  | AInt v => [TInt v] | AChar v => [TChr v] | ABool v => [TLog v] | AText s => [TStr s]
  | ANull => [TSym LxNUL]
  | ASizeof t d => TSym LxSIZEOF :: TSym cLP :: tyTok t :: brackets d ++ [TSym cRP]
  | AAddrof n => [TSym LxADDROF; TSym cLP; TName n; TSym cRP]
  | AOrd e => TSym LxORD :: TSym cLP :: p 0%nat e ++ [TSym cRP]
  | AChr e => TSym LxCHR :: TSym cLP :: p 0%nat e ++ [TSym cRP]
  | ABoolOf e => TSym LxBOL :: TSym cLP :: p 0%nat e ++ [TSym cRP]
  | AUn u e => TSym (unTok u) :: p 12%nat e
  | ABin o a b => p (opLevel o) a ++ TSym (opSign o) :: p (S (opLevel o)) b
  | AAssign a b => p 2%nat a ++ TSym cEQ :: p 1%nat b
  | AComma a b => p 0%nat a ++ TSym cCOMMA :: p 1%nat b
  | AIndex a i => p 13%nat a ++ TSym cLB :: p 1%nat i ++ [TSym cRB]
  | ADot a f => p 13%nat a ++ [TSym cDOT; TName f]
  | ACall f args =>
    TName f :: TSym cLP ::
    (fix go (l : list ast) : list stok :=
       match l with
       | [] => []
       | e :: r => p 1%nat e ++ match r with [] => [] | _ => TSym cCOMMA :: go r end
       end) args ++ [TSym cRP]
  end.
Definition show (extra : ast -> bool) (e : ast) : list stok := par extra 0 e (text extra e).
Definition minimal : ast -> bool := fun _ => false.
Definition everywhere : ast -> bool := fun _ => true.

Definition srcOp (o : op2) : bool :=
  match o with
  | OR | AND | BOR | BXOR | BAND | EQU | NEQ | LT | LE | GT | GE | SHL | SHR | ADD | SUB | MUL | DIV | MOD => true
  | _ => false
  end.
Fixpoint proper (e : ast) : Prop :=
  match e with
  | AOrd e | AChr e | ABoolOf e | AUn _ e | ADot e _ => proper e
  | ABin o a b => srcOp o = true /\ proper a /\ proper b
  | AAssign a b | AComma a b | AIndex a b => proper a /\ proper b
  | ACall _ args => (fix go (l : list ast) := match l with [] => True | e :: r => proper e /\ go r end) args
  | _ => True
  end.

Lemma derives_down j k e ts : (k <= j <= 13)%nat -> derives j e ts -> derives k e ts.
Proof.
  intros [L U] D. induction j as [|j IH]; [replace k with 0%nat by lia; exact D|].
  destruct (Nat.eq_dec k (S j)) as [->|N]; [exact D|]. apply IH; [lia|lia|]. apply d_up; [lia|exact D].
Qed.
Lemma opLevel_le o : (opLevel o <= 11)%nat.
Proof. destruct o; cbn; lia. Qed.
Lemma level_le e : (level e <= 13)%nat.
Proof. destruct e; cbn [level]; try lia. pose proof (opLevel_le o). lia. Qed.
Lemma srcOp_In o : srcOp o = true -> In (opSign o, o) (levelOps (opLevel o)).
Proof. destruct o; cbn; intros H; try discriminate H; auto 6. Qed.

Lemma par_derives extra k e ts : (k <= 13)%nat -> derives (level e) e ts -> derives k e (par extra k e ts).
Proof.
  intros K D. unfold par. destruct (Nat.leb_spec k (level e)) as [L|L]; cbn [andb].
  - destruct (extra e); cbn [negb].
    + apply (derives_down 13); [lia|]. apply d_paren. apply (derives_down (level e)); [pose proof (level_le e); lia|exact D].
    + apply (derives_down (level e)); [pose proof (level_le e); lia|exact D].
  - apply (derives_down 13); [lia|]. apply d_paren. apply (derives_down (level e)); [pose proof (level_le e); lia|exact D].
Qed.

Fixpoint size (e : ast) : nat :=
  S match e with
    | AOrd e | AChr e | ABoolOf e | AUn _ e | ADot e _ => size e
    | ABin _ a b | AAssign a b | AComma a b | AIndex a b => size a + size b
    | ACall _ args => list_sum (map size args)
    | _ => 0
    end.
Lemma text_derives_n extra n : forall e, (size e < n)%nat -> proper e -> derives (level e) e (text extra e).
Proof.
  induction n as [|n IH]; intros e LN P; [lia|]. destruct e; cbn [level text]; cbn [size] in LN; cbn [proper] in P;
    try (constructor; fail).
  - apply d_ord, par_derives; [lia|]. apply IH; [lia|exact P].
  - apply d_chr, par_derives; [lia|]. apply IH; [lia|exact P].
  - apply d_boolof, par_derives; [lia|]. apply IH; [lia|exact P].
  - apply d_un, par_derives; [lia|]. apply IH; [lia|exact P].
  - destruct P as (PO & PA & PB). apply d_bin; [apply srcOp_In; exact PO| |];
      (apply par_derives; [pose proof (opLevel_le o); lia|]; apply IH; [lia|assumption]).
  - destruct P as (PA & PB). apply d_assign; (apply par_derives; [lia|]; apply IH; [lia|assumption]).
  - destruct P as (PA & PB). apply d_comma; (apply par_derives; [lia|]; apply IH; [lia|assumption]).
  - destruct P as (PA & PB). apply d_index; (apply par_derives; [lia|]; apply IH; [lia|assumption]).
  - apply d_dot, par_derives; [lia|]. apply IH; [lia|exact P].
  - destruct args as [|e r]; [apply d_call0|]. apply d_call.
    assert (list_sum (map size (e :: r)) < n)%nat as LS by lia. clear LN. revert e P LS.
    induction r as [|e' r IHr]; intros e P LS; cbn [map list_sum fold_right] in LS.
    + rewrite app_nil_r. apply da_one, par_derives; [lia|]. apply IH; [lia|exact (proj1 P)].
    + apply da_more; [apply par_derives; [lia|]; apply IH; [lia|exact (proj1 P)]|].
      apply IHr; [exact (proj2 P)|]. cbn [map list_sum fold_right] in *. lia.
Qed.
Lemma show_derives extra e : proper e -> derives 0 e (show extra e).
Proof. intros P. unfold show. apply par_derives; [lia|]. apply (text_derives_n extra (S (size e))); [lia|exact P]. Qed.

Scheme has_mut := Induction for has Sort Prop with passes_mut := Induction for passes Sort Prop.
Lemma has_proper nt l e t d lv x : has nt l e t d lv x -> proper e.
Proof.
  intros H. induction H using has_mut with
    (P0 := fun l args p last acc x _ => (fix go (l : list ast) := match l with [] => True | e :: r => proper e /\ go r end) args);
    cbn [proper]; auto.
  - split; [|auto]. unfold arith in *. cbn in *. repeat match goal with H : _ \/ _ |- _ => destruct H as [<-|H]; [reflexivity|] end. contradiction.
  - split; [|auto]. unfold order in *. cbn in *. repeat match goal with H : _ \/ _ |- _ => destruct H as [<-|H]; [reflexivity|] end. contradiction.
  - split; [|auto]. match goal with H : _ \/ _ |- _ => destruct H; subst o; reflexivity end.
  - split; [|auto]. match goal with H : _ \/ _ |- _ => destruct H; subst o; reflexivity end.
Qed.

(* ---- the lexer ---- *)
(* no line marker directly after a name, a number, a character, a string or true/false *)
Definition unmarked (l : list item) : Prop :=
  forall a i j b, l = a ++ i :: j :: b -> valued (tokOf i) = true -> tokOf j <> LxFILE.

Lemma getCh_keep s : val (getCh s) = val s /\ str (getCh s) = str s.
Proof. split; reflexivity. Qed.
Lemma skipSpc_keep s : val (skipSpc s) = val s /\ str (skipSpc s) = str s.
Proof. unfold skipSpc. destruct (skipL _ _ _). split; reflexivity. Qed.
Lemma skipToEol_keep s : val (skipToEol s) = val s /\ str (skipToEol s) = str s.
Proof. unfold skipToEol. destruct (skipL _ _ _). split; reflexivity. Qed.
Lemma skipSpaceF_keep f : forall s s', skipSpaceF f s = LOk s' -> val s' = val s /\ str s' = str s.
Proof.
  induction f as [|f IH]; intros s s' H; cbn [skipSpaceF] in H; [discriminate H|].
  destruct (skipSpc_keep s) as [A B].
  destruct ((ch (skipSpc s) =? 47) && (nextch (skipSpc s) =? 42)).
  { unfold skipCom in H. destruct (skipComL _ _) as [[l n]| |]; cbn [lbind] in H; try discriminate H. apply IH in H. destruct H as [-> ->].
    rewrite <- A, <- B. split; reflexivity. }
  destruct ((ch (skipSpc s) =? 47) && (nextch (skipSpc s) =? 47)).
  { apply IH in H. unfold skipCppCom in H. destruct (skipToEol_keep (skipSpc s)) as [C D]. rewrite C, D, A, B in H. exact H. }
  destruct ((ch (skipSpc s) =? 10) && negb (nextch (skipSpc s) =? 35)).
  { apply IH in H. destruct H as [-> ->]. rewrite <- A, <- B. split; reflexivity. }
  injection H as <-. split; assumption.
Qed.
Lemma rsv_code acc : sign (searchRsv (firstn LxRsvNUM rsvWord) acc) = false.
Proof.
  assert (forall t, Forall (fun p => sign (snd p) = false) t -> sign (searchRsv t acc) = false) as H.
  { induction 1 as [|[n k] t E F IH]; cbn [searchRsv]; [reflexivity|]. destruct (zeqb_list acc n); [exact E|exact IH]. }
  apply H. apply Forall_forall. intros p I.
  assert (forallb (fun p => negb (sign (snd p))) (firstn LxRsvNUM rsvWord) = true) as F by (vm_compute; reflexivity).
  rewrite forallb_forall in F. specialize (F p I). destruct (sign (snd p)); [discriminate F|reflexivity].
Qed.
Lemma lxGetTok_keep s t s' : lxGetTok s = LOk (t, s') -> sign t = true -> val s' = val s /\ str s' = str s.
Proof.
  unfold lxGetTok. set (s0 := if ch s =? 0 then getCh s else s).
  assert (val s0 = val s /\ str s0 = str s) as [K1 K2] by (unfold s0; destruct (ch s =? 0); split; reflexivity).
  destruct (skipSpace s0) as [s1| |] eqn:E; cbn [lbind]; try discriminate.
  unfold skipSpace in E. apply skipSpaceF_keep in E. destruct E as [A B]. rewrite K1 in A. rewrite K2 in B.
  set (s2 := Lx (cur s1) (ln2 s1) (ln2 s1) (val s1) (str s1)).
  assert (val s2 = val s /\ str s2 = str s) as [C D] by (split; assumption). clearbody s2. clear A B K1 K2 s0 s1.
  destruct (ch s2 =? -1). { intros H; injection H as <- <-. auto. }
  destruct ((ch s2 =? 10) && (nextch s2 =? 35)).
  { unfold getSharp. intros H SG. exfalso. assert (t = LxFILE) as ->; [|discriminate SG].
    destruct (negb (c_isdigit _)); [discriminate H|]. destruct (getDec _) as [[v s3]| |]; cbn [lbind] in H; try discriminate H.
    destruct (negb _); [discriminate H|]. destruct (storeL _ _ _ _ _) as [[[l n] i] acc].
    destruct (StrMAX <? i); [discriminate H|]. destruct (negb _); [discriminate H|]. injection H as <- _. reflexivity. }
  destruct (c_isdigit (ch s2)).
  { unfold getDigit. intros H SG. exfalso. match type of H with lbind ?c _ = _ => destruct c as [[v s3]| |]; cbn [lbind] in H; try discriminate H end.
    injection H as <- _. discriminate SG. }
  destruct (c_isalpha (ch s2) || (ch s2 =? 95)).
  { unfold getWord. destruct (storeL _ _ _ _ _) as [[[l n] i] acc]. destruct (negb _); cbn [lbind]; [discriminate|].
    destruct (StrMAX <? i); cbn [lbind]; [discriminate|]. pose proof (rsv_code acc) as R. set (k := searchRsv _ acc) in *.
    destruct (k =? LxTRUE); [intros H; injection H as <- _; discriminate|].
    destruct (k =? LxFALSE); [intros H; injection H as <- _; discriminate|]. intros H; injection H as <- _. congruence. }
  destruct (ch s2 =? 34).
  { unfold getStr. destruct (getStrF _ _ _ _) as [[[s3 acc] cnt]| |]; cbn [lbind]; try discriminate.
    destruct (StrMAX <? slen acc); [discriminate|]. intros H; injection H as <- _. discriminate. }
  destruct (ch s2 =? 39).
  { unfold getChar. intros H SG. exfalso. match type of H with lbind ?c _ = _ => destruct c as [[v s3]| |]; cbn [lbind] in H; try discriminate H end.
    destruct (negb _); [discriminate H|]. injection H as <- _. discriminate SG. }
  unfold getSign. intros H _.
  repeat match type of H with (if ?c then _ else _) = _ => destruct c; [injection H as _ <-; split; [exact C|exact D]|] end.
  destruct ((ch s2 =? 46) && (nextch s2 =? 46)).
  - destruct (nextch (getCh s2) =? 46); injection H as _ <-; split; [exact C|exact D|exact C|exact D].
  - injection H as _ <-. split; [exact C|exact D].
Qed.
Lemma lexAllF_steady f : forall s l, lexAllF f s = LOk l -> unmarked l ->
  steady l /\ match l with i :: _ => sign (tokOf i) = true -> valOf i = val s /\ strOf i = str s | [] => False end.
Proof.
  induction f as [|f IH]; intros s l H U; cbn [lexAllF] in H; [discriminate H|].
  destruct (lxGetTok s) as [[t s1]| |] eqn:E; cbn [lbind] in H; try discriminate H.
  pose proof (lxGetTok_keep _ _ _ E) as K.
  destruct (Z.eqb_spec t EOFtok) as [->|N].
  - injection H as <-. split; [split; [reflexivity|exact I]|exact K].
  - destruct (lexAllF f s1) as [r| |] eqn:R; cbn [lbind] in H; try discriminate H. injection H as <-.
    assert (unmarked r) as UR.
    { intros a i j b EQ. apply (U ((t, val s1, str s1, ln s1) :: a) i j b). rewrite EQ. reflexivity. }
    destruct (IH s1 r R UR) as [ST HD]. destruct r as [|j r]; [contradiction|].
    split; [|exact K]. split; [|exact ST]. intros V. split.
    + apply (U [] _ j r eq_refl V).
    + intros SG. destruct (HD SG) as [A B]. rewrite A, B. split; reflexivity.
Qed.
Lemma lexAll_steady file l : lexAll file = LOk l -> unmarked l -> steady l.
Proof. intros H U. exact (proj1 (lexAllF_steady _ _ _ H U)). Qed.
Lemma good_init l n out : steady l -> good (ES (skipFile l) n out).
Proof. intros S. split; [apply skipFile_clean|apply skipFile_steady; exact S]. Qed.

(* the signs of an expression are no valued tokens *)
Lemma derives_signs : forall k e t0, derives k e t0 -> forall m, In (TSym m) t0 -> valued m || (m =? LxFILE) = false.
Proof.
    fix go 4.
    assert (forall l t0, derives_args l t0 -> forall m, In (TSym m) t0 -> valued m || (m =? LxFILE) = false) as ga.
    { fix ga 3. intros l t0 D. destruct D; intros m I.
      - exact (go _ _ _ H m I).
      - apply in_app_or in I. destruct I as [I|[I|I]]; [exact (go _ _ _ H m I)|injection I as <-; reflexivity|exact (ga _ _ D m I)]. }
    intros k e t0 D. destruct D; intros m I.
    - exact (go _ _ _ D m I).
    - apply in_app_or in I. destruct I as [I|[I|I]]; [exact (go _ _ _ D1 m I)|injection I as <-; reflexivity|exact (go _ _ _ D2 m I)].
    - apply in_app_or in I. destruct I as [I|[I|I]]; [exact (go _ _ _ D1 m I)|injection I as <-; reflexivity|exact (go _ _ _ D2 m I)].
    - apply in_app_or in I. destruct I as [I|[I|I]]; [exact (go _ _ _ D1 m I)|injection I as <-; destruct (opTok_all _ _ _ H) as (_ & SG & VL); rewrite VL; destruct (Z.eqb_spec t LxFILE) as [->|]; [discriminate SG|reflexivity]|exact (go _ _ _ D2 m I)].
    - destruct I as [I|I]; [injection I as <-; destruct u; reflexivity|exact (go _ _ _ D m I)].
    - apply in_app_or in I. destruct I as [I|[I|I]]; [exact (go _ _ _ D1 m I)|injection I as <-; reflexivity|].
      apply in_app_or in I. destruct I as [I|[I|[]]]; [exact (go _ _ _ D2 m I)|injection I as <-; reflexivity].
    - apply in_app_or in I. destruct I as [I|[I|[I|[]]]]; [exact (go _ _ _ D m I)|injection I as <-; reflexivity|discriminate I].
    - destruct I as [I|I]; [injection I as <-; reflexivity|].
      apply in_app_or in I. destruct I as [I|[I|[]]]; [exact (go _ _ _ D m I)|injection I as <-; reflexivity].
    - destruct I as [I|[]]; discriminate I.
    - destruct I as [I|[I|[I|[]]]]; try discriminate I; injection I as <-; reflexivity.
    - destruct I as [I|[I|I]]; [discriminate I|injection I as <-; reflexivity|].
      apply in_app_or in I. destruct I as [I|[I|[]]]; [exact (ga _ _ H m I)|injection I as <-; reflexivity].
    - destruct I as [I|[]]; discriminate I.
    - destruct I as [I|[]]; discriminate I.
    - destruct I as [I|[]]; discriminate I.
    - destruct I as [I|[]]; discriminate I.
    - destruct I as [I|[]]; injection I as <-; reflexivity.
    - destruct I as [I|[I|[I|I]]]; [injection I as <-; reflexivity|injection I as <-; reflexivity|destruct t; injection I as <- || discriminate I; reflexivity|].
      apply in_app_or in I. destruct I as [I|[I|[]]]; [|injection I as <-; reflexivity].
      induction d as [|d IH]; [destruct I|]. destruct I as [I|[I|I]]; [injection I as <-; reflexivity|injection I as <-; reflexivity|exact (IH I)].
    - destruct I as [I|[I|[I|[I|[]]]]]; try discriminate I; injection I as <-; reflexivity.
    - destruct I as [I|[I|I]]; [injection I as <-; reflexivity|injection I as <-; reflexivity|].
      apply in_app_or in I. destruct I as [I|[I|[]]]; [exact (go _ _ _ D m I)|injection I as <-; reflexivity].
    - destruct I as [I|[I|I]]; [injection I as <-; reflexivity|injection I as <-; reflexivity|].
      apply in_app_or in I. destruct I as [I|[I|[]]]; [exact (go _ _ _ D m I)|injection I as <-; reflexivity].
    - destruct I as [I|[I|I]]; [injection I as <-; reflexivity|injection I as <-; reflexivity|].
      apply in_app_or in I. destruct I as [I|[I|[]]]; [exact (go _ _ _ D m I)|injection I as <-; reflexivity].
Qed.
(* a stream of items for a sequence of tokens *)
Fixpoint itemsOf (v : Z) (st : list Z) (ts : list stok) : list item :=
  match ts with
  | [] => [(cSEMI, v, st, 0); (EOFtok, v, st, 0)]
  | TName m :: r => (LxNAME, v, m, 0) :: itemsOf v m r
  | TInt k :: r => (LxINTEGER, k, st, 0) :: itemsOf k st r
  | TChr k :: r => (LxCHARACTER, k, st, 0) :: itemsOf k st r
  | TLog k :: r => (LxLOGICAL, k, st, 0) :: itemsOf k st r
  | TStr m :: r => (LxSTRING, v, m, 0) :: itemsOf v m r
  | TSym k :: r => (k, v, st, 0) :: itemsOf v st r
  end.
Lemma itemsOf_ok : forall ts v st, (forall m, In (TSym m) ts -> m <> LxFILE /\ valued m = false) ->
    view (itemsOf v st ts) = ts ++ [TSym cSEMI; TSym EOFtok] /\ steady (itemsOf v st ts) /\ clean (itemsOf v st ts) /\
    match itemsOf v st ts with i :: _ => sign (tokOf i) = true -> strOf i = st /\ valOf i = v | [] => False end.
Proof.
  induction ts as [|a r IH]; intros v st HS.
    - cbn. repeat split; try reflexivity; try discriminate.
    - assert (forall m, In (TSym m) r -> m <> LxFILE /\ valued m = false) as HR by (intros m I; apply HS; right; exact I).
      assert (forall v st, match itemsOf v st r with j :: _ => tokOf j <> LxFILE | [] => True end) as NX.
      { intros v' st'. destruct (IH v' st' HR) as (_ & _ & C & _). exact C. }
      destruct a as [n0|n0|n0|n0|n0|k].
      { destruct (IH v n0 HR) as (A & B & C & D). cbn [itemsOf view tokOf].
        match goal with |- context [if ?c then _ else _] => change c with false end. cbn iota. rewrite A.
        split; [reflexivity|]. split; [|split; discriminate].
        cbn [steady]. split; [|exact B]. destruct (itemsOf v n0 r) as [|j q]; [contradiction|]. intros _. split; [exact C|exact D]. }
      { destruct (IH n0 st HR) as (A & B & C & D). cbn [itemsOf view tokOf].
        match goal with |- context [if ?c then _ else _] => change c with false end. cbn iota. rewrite A.
        split; [reflexivity|]. split; [|split; discriminate].
        cbn [steady]. split; [|exact B]. destruct (itemsOf n0 st r) as [|j q]; [contradiction|]. intros _. split; [exact C|exact D]. }
      { destruct (IH n0 st HR) as (A & B & C & D). cbn [itemsOf view tokOf].
        match goal with |- context [if ?c then _ else _] => change c with false end. cbn iota. rewrite A.
        split; [reflexivity|]. split; [|split; discriminate].
        cbn [steady]. split; [|exact B]. destruct (itemsOf n0 st r) as [|j q]; [contradiction|]. intros _. split; [exact C|exact D]. }
      { destruct (IH n0 st HR) as (A & B & C & D). cbn [itemsOf view tokOf].
        match goal with |- context [if ?c then _ else _] => change c with false end. cbn iota. rewrite A.
        split; [reflexivity|]. split; [|split; discriminate].
        cbn [steady]. split; [|exact B]. destruct (itemsOf n0 st r) as [|j q]; [contradiction|]. intros _. split; [exact C|exact D]. }
      { destruct (IH v n0 HR) as (A & B & C & D). cbn [itemsOf view tokOf].
        match goal with |- context [if ?c then _ else _] => change c with false end. cbn iota. rewrite A.
        split; [reflexivity|]. split; [|split; discriminate].
        cbn [steady]. split; [|exact B]. destruct (itemsOf v n0 r) as [|j q]; [contradiction|]. intros _. split; [exact C|exact D]. }
      cbn [itemsOf view tokOf].
      destruct (HS k ltac:(left; reflexivity)) as [K1 K2].
      destruct (IH v st HR) as (A & B & C & D). destruct (Z.eqb_spec k LxFILE); [contradiction|]. rewrite A.
      assert (own (k, v, st, 0) = TSym k) as -> by (apply own_sym; exact K2).
      split; [reflexivity|]. split; [|split; [exact K1|intros _; split; reflexivity]].
      cbn [steady]. split; [|exact B]. destruct (itemsOf v st r); [contradiction|]. cbn [tokOf]. rewrite K2. discriminate.
Qed.
