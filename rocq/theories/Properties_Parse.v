(* C08, C09: what the parser accepts, and the tree it builds.
   Specification: ParseSpec.v (grammar `derives`, typing and translation `has`), the printer
   `show` of ParseShow.v. *)
From Coq Require Import ZArith Bool Lia String Ascii List.
From Verif Require Import Lexer NameTable SyTree VM Parser ParserStmt ParseSpec ParseSound ParseComplete ParseShow.
Import ListNotations.
Open Scope Z_scope.

(* the state in which the tokens l are still to be read, n labels are used and out is written *)
Definition start (l : list item) (n : Z) (out : list asm) : es := ES (skipFile l) n out.

(* ---- a text to try the theorems on: x = a[i + 2] * (b - 3) % sizeof(char[]) ; ---- *)
Definition entry_ (n : string) (sc ty dim cnt : Z) : entry := Ent (codes n) sc ty dim cnt false.
Definition nt0 : table :=
  [entry_ "x" ScCOMM TyINT 0 0; entry_ "a" ScCOMM TyINT 1 0; entry_ "i" ScLVAR TyINT 0 1; entry_ "b" ScPRM TyCHAR 0 1;
   entry_ "g" ScFUNC TyVOID 0 0; entry_ "c" ScPRM TyCHAR 1 2].
Definition text0 : list Z := codes "x = a[i + 2] * (b - 3) % sizeof(char[]) ; ".
Definition e0 : ast :=
  AAssign (AName (codes "x"))
    (ABin MOD (ABin MUL (AIndex (AName (codes "a")) (ABin ADD (AName (codes "i")) (AInt 2)))
                        (ABin SUB (AName (codes "b")) (AInt 3)))
              (ASizeof TnChar 1)).
Definition x0 : expr :=
  E2 ASS (ELeaf (LGlb 0))
    (E2 MOD (E2 MUL (E2 IDXI (ELeaf (LGlb 1)) (E2 ADD (ELeaf (LLoc 2)) (Cnst 2))) (E2 SUB (ELeaf (LPrm 3)) (Cnst 3)))
            (Cnst 2)).
Definition lexed (file : list Z) : list item := match lexAll file with LOk l => l | _ => [] end.
Lemma has_e0 : has nt0 0 e0 TyINT 0 false x0.
Proof.
  unfold e0, x0. eapply h_assign.
  - apply (h_var nt0 0 _ 0); [vm_compute; reflexivity|]. left. vm_compute. auto.
  - eapply h_arith; [unfold arith; cbn; auto 10| |split; [left; reflexivity|reflexivity]| |split; [left; reflexivity|reflexivity]].
    + eapply h_arith; [unfold arith; cbn; auto 10| |split; [left; reflexivity|reflexivity]| |split; [left; reflexivity|reflexivity]].
      * eapply h_index; [apply (h_var nt0 _ _ 1); [vm_compute; reflexivity|left; vm_compute; auto]|lia| |right; split; [reflexivity|left; split; reflexivity]].
        eapply h_arith; [unfold arith; cbn; auto 10|apply (h_var nt0 _ _ 2); [vm_compute; reflexivity|right; left; vm_compute; auto]| |apply h_int|];
          split; [left; reflexivity|reflexivity|left; reflexivity|reflexivity].
      * eapply h_arith; [unfold arith; cbn; auto 10|apply (h_var nt0 _ _ 3); [vm_compute; reflexivity|right; right; vm_compute; auto]| |apply h_int|];
          split; [right; reflexivity|reflexivity|left; reflexivity|reflexivity].
    + apply (h_sizeof nt0 _ TnChar 1); [discriminate|]. intros [K _]. vm_compute in K. apply K. reflexivity.
  - left. split; reflexivity.
Qed.
Fixpoint steadyb (l : list item) : bool :=
  match l with
  | i :: r =>
    match r with
    | j :: _ => negb (valued (tokOf i)) || (negb (tokOf j =? LxFILE) && (negb (sign (tokOf j)) || (zeqb_list (strOf j) (strOf i) && (valOf j =? valOf i))))
    | [] => negb (valued (tokOf i))
    end && steadyb r
  | [] => true
  end.
Fixpoint unmarkedb (l : list item) : bool :=
  match l with
  | i :: r => match r with j :: _ => negb (valued (tokOf i)) || negb (tokOf j =? LxFILE) | [] => true end && unmarkedb r
  | [] => true
  end.
Lemma unmarkedb_ok l : unmarkedb l = true -> unmarked l.
Proof.
  induction l as [|i r IH]; intros H a i' j b E V.
  - destruct a; discriminate E.
  - cbn [unmarkedb] in H. apply andb_true_iff in H. destruct H as [H1 H2]. destruct a as [|k a]; cbn [app] in E; injection E as -> ->.
    + rewrite V in H1. cbn [negb orb] in H1. intros F. rewrite F in H1. discriminate H1.
    + exact (IH H2 _ _ _ _ eq_refl V).
Qed.

(* ==== C08 ==== *)
(* Print any expression, with the parentheses precedence demands and any more one likes.
   Whoever reads the tokens gets the tree back: read from any source text that has these
   tokens, followed by a sign that cannot continue an expression. *)
Theorem C08_print_parse : forall extra nt file l n out e t d lv x c rest,
  lexAll file = LOk l -> unmarked l ->
  view l = show extra e ++ TSym c :: rest -> sign c = true -> ~ continues 0 c ->
  has nt n e t d lv x ->
  exists s', getExpr nt (start l n out) = POk (W t d lv x, s') /\ view (its s') = TSym c :: rest.
Proof.
  intros extra nt file l n out e t d lv x c rest LX U V SG NC HH.
  destruct (getExpr_complete nt e (show extra e) (start l n out) (TSym c :: rest) t d lv x) as (s' & E & _ & V' & _).
  - apply show_derives. exact (has_proper _ _ _ _ _ _ _ HH).
  - apply good_init. exact (lexAll_steady _ _ LX U).
  - unfold start. cbn [its]. rewrite skipFile_view. exact V.
  - apply stops_sym; assumption.
  - exact HH.
  - exists s'. auto.
Qed.
Print Assumptions C08_print_parse.
(* text0 is the minimal printing of e0 and is read back as its tree *)
Example C08_print_parse_ex :
  lexAll text0 = LOk (lexed text0) /\ unmarked (lexed text0) /\
  view (lexed text0) = show minimal e0 ++ TSym cSEMI :: [TSym EOFtok] /\ sign cSEMI = true /\ ~ continues 0 cSEMI /\
  has nt0 0 e0 TyINT 0 false x0 /\ List.length (show everywhere e0) = 45%nat.
Proof.
  split; [vm_compute; reflexivity|]. split; [apply unmarkedb_ok; vm_compute; reflexivity|].
  split; [vm_compute; reflexivity|]. split; [reflexivity|].
  split; [intros H; apply contb_ok in H; discriminate H|]. split; [exact has_e0|vm_compute; reflexivity].
Qed.

(* Precedence and associativity decide the tree: a text has one meaning only. *)
Theorem C08_unambiguous : forall nt n ts e1 e2 t1 d1 lv1 x1 t2 d2 lv2 x2,
  derives 0 e1 ts -> derives 0 e2 ts ->
  has nt n e1 t1 d1 lv1 x1 -> has nt n e2 t2 d2 lv2 x2 ->
  t1 = t2 /\ d1 = d2 /\ lv1 = lv2 /\ x1 = x2.
Proof.
  intros nt n ts e1 e2 t1 d1 lv1 x1 t2 d2 lv2 x2 D1 D2 H1 H2.
  destruct (itemsOf_ok ts 0 [] ltac:(intros m I; pose proof (derives_signs _ _ _ D1 m I) as K; apply orb_false_iff in K; split; [apply Z.eqb_neq; exact (proj2 K)|exact (proj1 K)])) as (V & S & C & _).
  assert (good (ES (itemsOf 0 [] ts) n [])) as G by (split; [exact C|exact S]).
  destruct (getExpr_complete nt e1 ts (ES (itemsOf 0 [] ts) n []) _ t1 d1 lv1 x1 D1 G V ltac:(apply stops_c; reflexivity) H1) as (s1 & E1 & _).
  destruct (getExpr_complete nt e2 ts (ES (itemsOf 0 [] ts) n []) _ t2 d2 lv2 x2 D2 G V ltac:(apply stops_c; reflexivity) H2) as (s2 & E2 & _).
  rewrite E1 in E2. injection E2 as -> -> -> ->. auto.
Qed.
Print Assumptions C08_unambiguous.
Example C08_unambiguous_ex : derives 0 e0 (show minimal e0) /\ has nt0 0 e0 TyINT 0 false x0 /\
  List.length (show minimal e0) = 21%nat.
Proof.
  split; [apply show_derives; exact (has_proper _ _ _ _ _ _ _ has_e0)|]. split; [exact has_e0|vm_compute; reflexivity].
Qed.

(* Line markers are not part of the program, yet one that stands directly after a number
   replaces the number: two texts with the same tokens, different code. *)
Definition marked (n : string) : list Z :=
  codes "int f(){return 1" ++ [10] ++ codes "# " ++ codes n ++ codes " " ++ [34] ++ codes "x" ++ [34; 10] ++ codes ";}" ++ [10].
Theorem C08_line_marker_refuted : exists file1 file2 l1 l2,
  lexAll file1 = LOk l1 /\ lexAll file2 = LOk l2 /\ view l1 = view l2 /\
  In (TInt 1) (view l1) /\
  compile true false file1 = COut [ANam 0; ACode [IEntry 0; ILdCns 5; IMReg; IRet]] /\
  compile true false file2 = COut [ANam 0; ACode [IEntry 0; ILdCns 7; IMReg; IRet]].
Proof.
  exists (marked "5"), (marked "7"), (lexed (marked "5")), (lexed (marked "7")).
  split; [vm_compute; reflexivity|]. split; [vm_compute; reflexivity|]. split; [vm_compute; reflexivity|].
  split; [vm_compute; tauto|]. split; vm_compute; reflexivity.
Qed.
Print Assumptions C08_line_marker_refuted.

(* ==== C09 ==== *)
(* Whatever is accepted is an expression of the grammar and obeys the typing rules, and the
   tree is the one the rules give. *)
Theorem C09_accepted_typed : forall nt file l n out w s',
  (forall i, 0 <= dimAt nt i) ->
  lexAll file = LOk l -> unmarked l ->
  getExpr nt (start l n out) = POk (w, s') -> sign (tok s') = true ->
  exists e ts, view l = ts ++ view (its s') /\ derives 0 e ts /\ has nt n e (wt w) (wd w) (lhs w) (tr w).
Proof.
  intros nt file l n out w s' DM LX U E SG.
  destruct (getExpr_sound nt DM (start l n out) w s' (good_init _ _ _ (lexAll_steady _ _ LX U)) E) as [_ R].
  destruct (R SG) as (e & ts & V & D & H & _). exists e, ts. unfold start in V, H. cbn [its clab] in V, H. rewrite skipFile_view in V. auto.
Qed.
Print Assumptions C09_accepted_typed.
Definition accepts (nt : table) (file : list Z) (w : watch) (c : Z) : bool :=
  match getExpr nt (start (lexed file) 0 []) with
  | POk (w', s') => (wt w =? wt w') && (wd w =? wd w') && Bool.eqb (lhs w) (lhs w') && (tok s' =? c)
  | _ => false
  end.
Example C09_accepted_typed_ex :
  forallb (fun e => 0 <=? nDim e) nt0 = true /\
  lexAll text0 = LOk (lexed text0) /\ unmarked (lexed text0) /\
  (exists s', getExpr nt0 (start (lexed text0) 0 []) = POk (W TyINT 0 false x0, s') /\ tok s' = cSEMI) /\ sign cSEMI = true.
Proof.
  split; [vm_compute; reflexivity|]. split; [vm_compute; reflexivity|]. split; [apply unmarkedb_ok; vm_compute; reflexivity|].
  split; [|reflexivity]. eexists. split; vm_compute; reflexivity.
Qed.

(* and everything that is typed is accepted: the two together say exactly which texts are *)
Theorem C09_typed_accepted : forall nt file l n out e ts t d lv x c rest,
  lexAll file = LOk l -> unmarked l ->
  view l = ts ++ TSym c :: rest -> derives 0 e ts -> sign c = true -> ~ continues 0 c ->
  has nt n e t d lv x ->
  exists s', getExpr nt (start l n out) = POk (W t d lv x, s') /\ view (its s') = TSym c :: rest.
Proof.
  intros nt file l n out e ts t d lv x c rest LX U V D SG NC HH.
  destruct (getExpr_complete nt e ts (start l n out) (TSym c :: rest) t d lv x) as (s' & E & _ & V' & _); auto.
  - apply good_init. exact (lexAll_steady _ _ LX U).
  - unfold start. cbn [its]. rewrite skipFile_view. exact V.
  - apply stops_sym; assumption.
  - exists s'. auto.
Qed.
Print Assumptions C09_typed_accepted.

(* consequences of the typing rules, spelled out *)
(* only variables, elements and fields are assigned to *)
Theorem C09_assignable : forall nt l e t d x, has nt l e t d true x ->
  (exists n, e = AName n) \/ (exists a i, e = AIndex a i) \/ (exists a f, e = ADot a f).
Proof. intros nt l e t d x H. inversion H; subst; eauto. Qed.
Print Assumptions C09_assignable.
Theorem C09_assignment : forall nt l a b t d lv x, has nt l (AAssign a b) t d lv x ->
  ((exists n, a = AName n) \/ (exists u i, a = AIndex u i) \/ (exists u f, a = ADot u f)) /\
  exists x1 t2 d2 l2 x2, has nt l a t d true x1 /\ has nt (l + nstr a) b t2 d2 l2 x2 /\ fits t2 d2 t d.
Proof.
  intros nt l a b t d lv x H. inversion H; subst. split; [eapply C09_assignable; eassumption|]. eauto 10.
Qed.
Print Assumptions C09_assignment.
(* a call passes as many arguments as there are parameters, or more if the last one is ... *)
Theorem C09_call_arity : forall nt l f args t d lv x, has nt l (ACall f args) t d lv x ->
  exists i, ntSrcName nt f = Some i /\
    ((forall j, i < j <= i + cntAt nt i -> typeAt nt j <> TyDOTDOTDOT) ->
     Z.of_nat (List.length args) = Z.max 0 (cntAt nt i)) /\
    ((forall j, i < j < i + cntAt nt i -> typeAt nt j <> TyDOTDOTDOT) ->
     typeAt nt (i + cntAt nt i) = TyDOTDOTDOT -> cntAt nt i - 1 <= Z.of_nat (List.length args)).
Proof.
  intros nt l f args t d lv x H. inversion H as [| | | | | | | | | | | | | | | | | | | | | | |l0 f0 a0 i y SN SC NI PS]; subst.
  exists i. split; [exact SN|].
  assert (forall args l p acc y, passes nt l args p (i + cntAt nt i) acc y -> i + 1 <= p ->
     (p <= i + cntAt nt i + 1 -> (forall j, i < j <= i + cntAt nt i -> typeAt nt j <> TyDOTDOTDOT) -> Z.of_nat (List.length args) = i + cntAt nt i + 1 - p) /\
     ((forall j, i < j < i + cntAt nt i -> typeAt nt j <> TyDOTDOTDOT) -> typeAt nt (i + cntAt nt i) = TyDOTDOTDOT -> p <= i + cntAt nt i + 1 ->
       i + cntAt nt i - p <= Z.of_nat (List.length args))) as P.
  { clear. intros args l p acc y H. remember (i + cntAt nt i) as z eqn:EZ. induction H; intros LE; cbn [List.length] in *.
    - split.
      + intros LP ND. destruct H as [H|H]; [lia|]. destruct (Z.eq_dec p (last + 1)); [lia|]. exfalso. apply (ND p); [lia|exact H].
      + intros ND DD LP. destruct H as [H|H]; [lia|]. destruct (Z.eq_dec p (last + 1)); [lia|]. destruct (Z.eq_dec p last); [lia|].
        exfalso. apply (ND p); [lia|exact H].
    - destruct (IHpasses EZ ltac:(lia)) as [A B]. split.
      + intros LP ND. rewrite Nat2Z.inj_succ, (A ltac:(lia) ND). lia.
      + intros ND DD LP. specialize (B ND DD ltac:(lia)). lia.
    - destruct (IHpasses EZ ltac:(lia)) as [A B]. split.
      + intros LP ND. exfalso. apply (ND p); [lia|assumption].
      + intros ND DD LP. specialize (B ND DD ltac:(lia)). lia. }
  destruct (Z_lt_le_dec (cntAt nt i) 0) as [NEG|POS].
  - split; [|intros _ _; lia]. intros _. inversion PS; subst; cbn [List.length]; lia.
  - destruct (P _ _ _ _ _ PS ltac:(lia)) as [A B]. split.
    + intros ND. rewrite (A ltac:(lia) ND). lia.
    + intros ND DD. specialize (B ND DD ltac:(lia)). lia.
Qed.
Print Assumptions C09_call_arity.
Definition nt1 : table := [entry_ "f" ScFUNC TyINT 0 2; entry_ "" ScPRM TyINT 0 1; entry_ "" ScPRM TyDOTDOTDOT 0 2].
Example C09_call_arity_ex : has nt1 0 (ACall (codes "f") [AInt 1; ANull; AInt 2]) TyINT 0 false
    (EFunc 0 (E2 SEMI (E2 SEMI (Cnst 1) (Cnst 0)) (Cnst 2))) /\
  (forall j, 0 < j < 0 + cntAt nt1 0 -> typeAt nt1 j <> TyDOTDOTDOT) /\ typeAt nt1 (0 + cntAt nt1 0) = TyDOTDOTDOT.
Proof.
  split; [|split; [|reflexivity]].
  - apply (h_call nt1 0 _ _ 0); [vm_compute; reflexivity|right; reflexivity|discriminate|].
    eapply p_arg; [vm_compute; discriminate|discriminate|apply h_int|left; split; reflexivity|].
    eapply p_more; [vm_compute; discriminate|reflexivity|apply h_null|intros [_ K]; discriminate K|].
    eapply p_more; [vm_compute; discriminate|reflexivity|apply h_int|intros [K _]; discriminate K|].
    apply p_done. right. reflexivity.
  - intros j J. change (0 + cntAt nt1 0) with 2 in J. replace j with 1 by lia. discriminate.
Qed.

(* The manual asks for equal types when references are compared (chap3.tex, 640); == and !=
   also take a char array against an int array, and two results of void functions. *)
Theorem C09_comparison_refuted :
  (exists nt n a b t1 d1 l1 x1 t2 d2 l2 x2 lv x,
     has nt n a t1 d1 l1 x1 /\ has nt (n + nstr a) b t2 d2 l2 x2 /\ ~ fits t1 d1 t2 d2 /\ ~ fits t2 d2 t1 d1 /\
     has nt n (ABin EQU a b) TyBOOL 0 lv x) /\
  (exists nt n a t1 d1 l1 x1 lv x,
     has nt n a t1 d1 l1 x1 /\ t1 = TyVOID /\ d1 = 0 /\ has nt n (ABin EQU a a) TyBOOL 0 lv x).
Proof.
  split.
  - assert (has nt0 0 (AName (codes "a")) TyINT 1 true (ELeaf (LGlb 1))) as HA
      by (apply (h_var nt0 0 _ 1); [vm_compute; reflexivity|left; vm_compute; auto]).
    assert (has nt0 0 (AName (codes "c")) TyCHAR 1 true (ELeaf (LPrm 5))) as HC
      by (apply (h_var nt0 0 _ 5); [vm_compute; reflexivity|right; right; vm_compute; auto]).
    exists nt0, 0, (AName (codes "a")), (AName (codes "c")). do 10 eexists.
    split; [exact HA|]. split; [exact HC|]. split; [|split].
    + unfold fits, TyINT, TyCHAR, TyVOID. lia.
    + unfold fits, TyINT, TyCHAR, TyVOID. lia.
    + eapply h_equ; [left; reflexivity|exact HA|exact HC|]. left. split; reflexivity.
  - assert (has nt0 0 (ACall (codes "g") []) TyVOID 0 false (EFunc 4 ENull)) as HG.
    { apply (h_call nt0 0 _ _ 4); [vm_compute; reflexivity|right; reflexivity|discriminate|]. apply p_done. left. vm_compute. reflexivity. }
    exists nt0, 0, (ACall (codes "g") []). do 6 eexists. split; [exact HG|]. split; [reflexivity|]. split; [reflexivity|].
    eapply h_equ; [left; reflexivity|exact HG|exact HG|]. left. split; reflexivity.
Qed.
Print Assumptions C09_comparison_refuted.
(* and such programs do compile *)
Theorem C09_comparison_compiled_refuted : exists file,
  file = codes "boolean f(char[] a, int[] b){return a==b;}" /\
  compile true false file = COut [ANam 0; ACode [IEntry 0; ILdPrm 1; ILdPrm 2; IBin EQU; IMReg; IRet]].
Proof. eexists. split; [reflexivity|]. vm_compute. reflexivity. Qed.
Print Assumptions C09_comparison_compiled_refuted.
