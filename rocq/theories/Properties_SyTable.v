(* C45: the table of nodes (src/sytree.c) is a faithful tree, and the in-place optimiser
   (src/optree.c) keeps it one.  SyTableRep.v says what it means that a table holds a tree. *)
From Coq Require Import ZArith Bool Lia String List.
From Verif Require Import Lexer NameTable SyTree OpTree Parser ParserStmt SyTable SyTableRep SyTableExp SyTableStm SyTableBuild SyTableParse SyTableUniq.
Import ListNotations.
Open Scope Z_scope.

(* The slots a .. b - 1. *)
Definition slotsFrom (a b : Z) : Z -> Prop := fun x => a <= x < b.

(* One slot is the root of one tree at most. *)
Theorem C45_one_tree (m : mem) (i : Z) (s s' : stmt) (P P' : Z -> Prop) : RS m i s P -> RS m i s' P' -> s = s'.
Proof. intros A B. exact (RS_unique m s i P A s' P' B). Qed.
Print Assumptions C45_one_tree.

(* Creating the nodes of a tree, parts first, in a cleared table: if the tree has at most
   SyMAX nodes, the table then holds exactly this tree in its first slots, and the root is
   where syGetRoot looks for it; otherwise the error "too large" is reported. *)
Theorem C45_build (s : stmt) (t0 : tab) : wholeS s = true ->
  match buildS s (syClear t0) with
  | Some (i, t) => nodesS s <= SyMAX /\ next t = nodesS s /\ RS (slots t) i s (slotsFrom 0 (nodesS s)) /\ syGetRoot t = i
  | None => SyMAX < nodesS s
  end.
Proof.
  intros W. pose proof (buildS_ok s (syClear t0) W) as H. cbn [syClear next] in H.
  specialize (H ltac:(lia) ltac:(unfold SyMAX; lia)). destruct (buildS s (syClear t0)) as [[i t]|]; cbn [builtS syClear next] in H; [|lia].
  destruct H as [H1 [H2 [H3 [H4 H5]]]]. rewrite Z.add_0_l in *. rewrite H2 in H4. split; [exact H1|]. split; [exact H2|]. split; [exact H4|].
  unfold syGetRoot. destruct (presentS s) eqn:E.
  - destruct (H5 eq_refl) as [-> L]. rewrite (proj2 (Z.ltb_ge _ _)) by lia. reflexivity.
  - destruct s; try discriminate. cbn [nodesS] in H2. rewrite H2. inversion H4; reflexivity.
Qed.
Print Assumptions C45_build.
(* if (1 < x) { x = 2 + 3; f(x); } else ; return x; *)
Definition sample : stmt :=
  SBlk (SEls (E2 LT (ELeaf (LCnst 1)) (ELeaf (LLoc 7)))
             (SBlk (SExpr (E2 ASS (ELeaf (LLoc 7)) (E2 ADD (ELeaf (LCnst 2)) (ELeaf (LCnst 3))))) (SExpr (EFunc 4 (ELeaf (LLoc 7)))))
             SNull)
       (SRet (ELeaf (LLoc 7))).
Definition empty : tab := T (fun _ => N 0 0 0) 0.
Example C45_build_ex : wholeS sample = true /\ nodesS sample = 16 /\
  match buildS sample empty with
  | Some (i, t) => i = 15 /\ map (slots t) [0; 1; 2; 8; 11; 12; 15] =
      [N SyCNST 1 SyNULL; N SyLOC 7 SyNULL; N SyLT 0 1; N SyLOC 7 SyNULL; N SyIF 2 10; N SyELS 11 SyNULL; N SyBLK 12 14]
  | None => False
  end.
Proof. vm_compute. repeat split; reflexivity. Qed.

(* Overflow: 3001 nodes do not fit. *)
Fixpoint chain (n : nat) : expr := match n with O => ELeaf (LCnst 1) | S n => E1 NEG (chain n) end.
Theorem C45_overflow (s : stmt) (t0 : tab) : wholeS s = true -> (buildS s (syClear t0) = None <-> SyMAX < nodesS s).
Proof.
  intros W. pose proof (C45_build s t0 W) as H. destruct (buildS s (syClear t0)) as [[i t]|]; split; intros K; try discriminate; try assumption; try reflexivity.
  exfalso. lia.
Qed.
Print Assumptions C45_overflow.
Example C45_overflow_ex : wholeS (SExpr (chain (Z.to_nat 3000))) = true /\ nodesS (SExpr (chain (Z.to_nat 3000))) = 3001 /\
  buildS (SExpr (chain (Z.to_nat 3000))) empty = None /\ buildS (SExpr (chain (Z.to_nat 2999))) empty <> None.
Proof. split; [vm_compute; reflexivity|]. split; [vm_compute; reflexivity|]. split; [vm_compute; reflexivity|]. intro H. vm_compute in H. discriminate H. Qed.

Lemma stmt_null (s : stmt) : s = SNull \/ s <> SNull.
Proof. destruct s; first [left; reflexivity|right; discriminate]. Qed.
(* Concatenation: two trees next to each other become the list of both. *)
Theorem C45_cat (t : tab) (a b i j : Z) (s r : stmt) : 0 <= a -> a <= b -> b <= next t -> next t <= SyMAX ->
  RS (slots t) i s (slotsFrom a b) -> RS (slots t) j r (slotsFrom b (next t)) ->
  match syCatNode t i j with
  | Some (k, t') => RS (slots t') k (catS s r) (slotsFrom a (next t')) /\ (forall x, x < next t -> slots t' x = slots t x)
  | None => next t = SyMAX /\ s <> SNull /\ r <> SNull
  end.
Proof.
  intros A B C D S R.
  assert (I : forall m k q P, RS m k q P -> q <> SNull -> k <> SyNULL).
  { intros m k q P H K E. subst k. inversion H; subst; try (apply K; reflexivity);
      try match goal with H : inTab SyNULL = true |- _ => discriminate H end.
    match goal with H : RE _ _ _ _ |- _ => apply RE_in in H; discriminate H end. }
  assert (Z0 : forall m k P, RS m k SNull P -> k = SyNULL) by (intros m k P H; inversion H; reflexivity).
  destruct (stmt_null s) as [->|Ns].
  - rewrite (Z0 _ _ _ S). unfold syCatNode. cbn [Z.eqb negb andb SyNULL Pos.eqb]. change (catS SNull r) with r. split; [|intros; reflexivity].
    apply RS_mono with (slotsFrom b (next t)); [exact R|]. unfold slotsFrom. intros; lia.
  - pose proof (I _ _ _ _ S Ns) as Ni. destruct (stmt_null r) as [->|Nr].
    + rewrite (Z0 _ _ _ R). unfold syCatNode. rewrite (proj2 (Z.eqb_neq i SyNULL)) by exact Ni. cbn [negb andb Z.eqb SyNULL Pos.eqb].
      replace (catS s SNull) with s by (destruct s; reflexivity). split; [|intros; reflexivity].
      apply RS_mono with (slotsFrom a b); [exact S|]. unfold slotsFrom. intros; lia.
    + pose proof (I _ _ _ _ R Nr) as Nj. unfold syCatNode. rewrite (proj2 (Z.eqb_neq i SyNULL)), (proj2 (Z.eqb_neq j SyNULL)) by assumption. cbn [negb andb].
      replace (catS s r) with (SSemi s r) by (destruct s; try (exfalso; apply Ns; reflexivity); destruct r; try (exfalso; apply Nr; reflexivity); reflexivity).
      destruct (Z_lt_le_dec (next t) SyMAX) as [L|L].
      * destruct (new_ok t SySEMI i j ltac:(lia) L) as [t' [E [En [Es [K T]]]]]. rewrite E. split; [|exact K].
        apply RSSemi with (slotsFrom a b) (slotsFrom b (next t)); [exact T|rewrite Es; reflexivity| | | | |].
        -- unfold below, slotsFrom. repeat split; lia.
        -- unfold below, slotsFrom. repeat split; lia.
        -- unfold apart, slotsFrom. intros. lia.
        -- rewrite Es. cbn [nl]. apply RS_frame with (slots t); [exact S|]. unfold slotsFrom. intros x Hx. apply K. lia.
        -- rewrite Es. cbn [nr]. apply RS_frame with (slots t); [exact R|]. unfold slotsFrom. intros x Hx. apply K. lia.
      * rewrite new_full by exact L. split; [lia|]. split; assumption.
Qed.
Print Assumptions C45_cat.
Example C45_cat_ex : let t := T (fun x => if x =? 0 then N SyBRK SyNULL SyNULL else N SyCNT SyNULL SyNULL) 2 in
  RS (slots t) 0 SBrk (slotsFrom 0 1) /\ RS (slots t) 1 SCnt (slotsFrom 1 2) /\
  match syCatNode t 0 1 with Some (k, t') => k = 2 /\ slots t' 2 = N SySEMI 0 1 | None => False end.
Proof.
  cbn zeta. split; [apply RSBrk; [reflexivity|unfold slotsFrom; lia|reflexivity]|].
  split; [apply RSCnt; [reflexivity|unfold slotsFrom; lia|reflexivity]|]. vm_compute. split; reflexivity.
Qed.

(* The optimiser, run on the table in place (tTree is optTree with its recursion bounded;
   the bound is never what ends it): wherever the table holds a statement, the result is the
   table that holds the statement optimised as a tree (OpTree.optTree, the subject of the
   other theorems about the optimiser), in the same slots and with the same root; no slot
   outside is touched, no index outside of the table is used, and the same errors are
   reported. *)
Theorem C45_optimise (m : mem) (i : Z) (s : stmt) (P : Z -> Prop) : RS m i s P ->
  match optTree s with
  | Ok s' => exists m', (exists F, forall f, (F <= f)%nat -> tTree f i m = Ret tt m') /\ RS m' i s' P /\ (forall x, ~ P x -> m' x = m x)
  | Err e => exists F, forall f, (F <= f)%nat -> tTree f i m = Fail e
  end.
Proof. intros H. pose proof (tree_ok s m i P H) as K. unfold resS, okS, runs, failE in K. destruct (optTree s); exact K. Qed.
Print Assumptions C45_optimise.
Example C45_optimise_ex :
  match buildS sample empty with
  | Some (i, t) => optTree sample = Ok (SBlk (SEls (E2 LT (ELeaf (LCnst 1)) (ELeaf (LLoc 7)))
             (SBlk (SExpr (E2 ASS (ELeaf (LLoc 7)) (ELeaf (LCnst 5)))) (SExpr (EFunc 4 (ELeaf (LLoc 7)))))
             SNull) (SRet (ELeaf (LLoc 7)))) /\
      match tTree 20 i (slots t) with
      | Ret _ m => nty (m 6) = SyCNST /\ nl (m 6) = 5 /\ map nty (map m [7; 15]) = [SyASS; SyBLK]
      | _ => False
      end
  | None => False
  end.
Proof. vm_compute. repeat split; reflexivity. Qed.

(* Together, for every function body the parser accepts (parser.c:1008-1012). *)
Theorem C45_function (krn : bool) (g g' : gs) (root : stmt) (t0 : tab) :
  getBlock krn (getStat krn) g = POk (root, g') ->
  match buildS root (syClear t0) with
  | None => SyMAX < nodesS root
  | Some (i, t) =>
      nodesS root <= SyMAX /\ syGetRoot t = i /\ RS (slots t) i root (slotsFrom 0 (nodesS root)) /\
      match optTree root with
      | Ok s' => exists m', (exists F, forall f, (F <= f)%nat -> tTree f (syGetRoot t) (slots t) = Ret tt m') /\
                            RS m' (syGetRoot t) s' (slotsFrom 0 (nodesS root))
      | Err e => exists F, forall f, (F <= f)%nat -> tTree f (syGetRoot t) (slots t) = Fail e
      end
  end.
Proof.
  intros E. pose proof (C45_build root t0 (parsed_whole krn g root g' E)) as H. destruct (buildS root (syClear t0)) as [[i t]|]; [|exact H].
  destruct H as [H1 [_ [H3 H4]]]. split; [exact H1|]. split; [exact H4|]. split; [exact H3|]. rewrite H4.
  pose proof (C45_optimise _ _ _ _ H3) as K. destruct (optTree root) as [s'|e]; [|exact K].
  destruct K as [m' [K1 [K2 _]]]. exists m'. split; assumption.
Qed.
Print Assumptions C45_function.
(* The body "int x = 2 * 3; while (x > 0) { x = x - 1; if (x == 3) ; else break; } }". *)
Definition bodyText : list Z := codes "int x = 2 * 3; while (x > 0) { x = x - 1; if (x == 3) ; else break; } } "%string.
Example C45_function_ex :
  match lexAll bodyText with
  | LOk l => match getBlock false (getStat false) (wScope (gInit l) ScLVAR) with
             | POk (root, _) => nodesS root = 26 /\
                 match buildS root empty with
                 | Some (i, t) => i = 25 /\ match optTree root with Ok s1 => nodesS s1 = 24 | Err _ => False end /\
                     match tTree 30 (syGetRoot t) (slots t) with Ret _ m => nty (m 25) = SyBLK /\ m 5 = N SyCNST 6 SyNULL | _ => False end
                 | None => False
                 end
             | _ => False
             end
  | _ => False
  end.
Proof. vm_compute. repeat split; reflexivity. Qed.
