(* C71: the text the C translator prints when it puts in run-time checks (cm2c without
   -nortc), read with the grammar of C, is the program with a check at each use of an
   array element or of a field. The grammar is CSpec.v, the program without checks
   CTree.v, the program with checks RtcTree.v; what the checks do is C69. *)
From Coq Require Import ZArith Bool Lia List String Ascii.
From Verif Require Import Lexer SyTree NameTable CSpec CCode CTree CLexProofs CReadProofs CStmProofs CFuel RtcCode RtcTree RtcText RtcStm RtcStrip Properties_CCode.
Import ListNotations.
Open Scope Z_scope.

(* the names of types of the C program: no keywords, not the names of the checks, and the three array types of wrapper.h *)
Definition rtc_types (isType : list Z -> bool) : Prop :=
  (forall w, isType w = true -> isKw w = false) /\
  (forall w, member w (map codes ["_RCA"; "_ICA"; "_CCA"; "_CP"]%string) = true -> isType w = false) /\
  (forall w, member w (map codes ["_IA"; "_CA"; "_RA"]%string) = true -> isType w = true).
(* a file name that can be put between quotation marks *)
Definition quotable (file : list Z) : Prop := forall c, In c file -> c <> 34 /\ c <> 92 /\ c <> 10.
Lemma quotable_plain file : quotable file -> forallb plainChar file = true.
Proof.
  intros Q. apply forallb_forall. intros c H. destruct (Q c H) as (A & B & C). unfold plainChar.
  apply Z.eqb_neq in A, B, C. rewrite A, B, C. reflexivity.
Qed.

(* Every expression is printed, and C reads the text as the expression with its checks,
   when the names are names for C, no negative number follows a minus sign and no string
   an & sign *)
Theorem C71_expression_partial : forall nm own file ln isType e,
  rtc_types isType -> quotable file -> formed false e = true -> fairR nm strLab own ln isType [] e ->
  exists x, printExpR nm own file ln e = Some x /\ readsE x (expR nm strLab own file ln e) /\
    (forall e', readsE x e' -> e' = expR nm strLab own file ln e).
Proof.
  intros nm own file ln T e (T1 & T2 & T3) Q W F. destruct (printR_total nm own file ln e [] false W) as [x H]. exists x. split; [exact H|].
  pose proof (expR_reads nm own file ln T (quotable_plain file Q) T2 e x F H) as R. split; [exact R|]. intros e' R'. exact (C29_unique x e' _ R' R).
Qed.
Print Assumptions C71_expression_partial.

(* the same for the body of a function, when moreover the body of each if, else, while
   and for is one statement and the body of each do does not begin with a letter *)
Theorem C71_body_partial : forall nm own file vty ln isType root,
  rtc_types isType -> quotable file -> formedS vty root = true -> fairSR nm strLab own ln isType vty [] root ->
  exists x, printBodyR nm own file vty ln root = Some x /\ readsS isType x (bodyR nm strLab own file ln vty root) /\
    (forall s, readsS isType x s -> s = bodyR nm strLab own file ln vty root).
Proof.
  intros nm own file vty ln T root (T1 & T2 & T3) Q W F.
  assert (exists x, printBodyR nm own file vty ln root = Some x) as [x H].
  { unfold printBodyR. destruct (traceR_total nm own file vty ln (match root with SBlk l r => SSemi l r | s => s end) []) as [x E].
    - destruct root; exact W.
    - rewrite E. eexists. reflexivity. }
  exists x. split; [exact H|]. pose proof (bodyR_reads nm own file vty ln T T1 (quotable_plain file Q) T2 T3 root x F H) as R. split; [exact R|].
  intros s R'. exact (C29_unique_statement T x s _ R' R).
Qed.
Print Assumptions C71_body_partial.

(* with the checks taken out it is the program printed without checks, but for the types of variables *)
Theorem C71_same_program : forall nm own file vty ln,
  (forall e, strip (expR nm strLab own file ln e) = expC nm strLab e) /\
  (forall root, stripS (bodyR nm strLab own file ln vty root) = untyped (bodyC nm vty root)).
Proof. intros nm own file vty ln. split; [intros e; apply strip_exp|intros root; apply strip_body]. Qed.
Print Assumptions C71_same_program.

(* and every use of an array element or of a field has its check, with the name of the file and a line *)
Theorem C71_all_checked : forall nm own file vty ln, (forall p, 0 <= ln p) ->
  (forall e, guarded file (expR nm strLab own file ln e) = true) /\
  (forall root, guardedS file (bodyR nm strLab own file ln vty root) = true).
Proof. intros nm own file vty ln L. split; [intros e; apply guard_exp; exact L|intros root; apply guard_body; exact L]. Qed.
Print Assumptions C71_all_checked.

(* a program without checks is not such a program *)
Example C71_unchecked_example : guarded (codes "a.cmm") (CIdx (CId (codes "a")) (CNum 1)) = false /\
  guarded (codes "a.cmm") (CBin (codes "+") (CNum 1) (CArrow (CId (codes "a")) (codes "f"))) = false.
Proof. split; reflexivity. Qed.

(* ---- a program that meets the hypotheses ---- *)
Definition rtNames (i : Z) : list Z :=
  if i =? 1 then codes "a" else if i =? 2 then codes "b" else if i =? 3 then codes "putn" else if i =? 4 then codes "next" else if i =? 5 then codes "List" else codes "x".
Definition rtOwn (i : Z) : list Z := codes "List".
Definition rtTypes (w : list Z) : bool := member w (map codes ["List"; "_IA"; "_CA"; "_RA"]%string).
Definition rtVars (i : Z) : Z * nat := if i =? 2 then (-5, 1%nat) else if i =? 1 then (TyINT, 1%nat) else (TyINT, 0%nat).
(* lines: the root is at line 7, each step down one line further *)
Definition rtLines (p : path) : Z := 7 + Z.of_nat (List.length p).
Definition rtE : expr :=
  E2 ASS (E2 IDXI (ELeaf (LLoc 1)) (Cnst (-5))) (EFunc 3 (E2 SEMI (E2 DOT (E2 IDXR (ELeaf (LPrm 2)) (Cnst 7)) (Cnst 4)) (ELeaf (LStr 12)))).
Definition rtS : stmt :=
  SBlk (SSemi (SVar 2) (SDo (SIf (E2 LT (ELeaf (LLoc 1)) (Cnst 9)) SBrk) (Cnst 1)))
       (SSemi (SEls (ELeaf (LLoc 1)) (SExpr rtE) (SWhl ENull (SBlk SCnt (SVar 1)) rtE)) (SRet ENull)).
Lemma rtTypes_ok : rtc_types rtTypes.
Proof.
  assert (M : forall w l, member w l = true -> In w l).
  { intros w l. induction l as [|a l IH]; [discriminate|]. cbn [member]. intros H. apply orb_prop in H as [H|H]; [left; symmetry; apply eqs_true; exact H|right; auto]. }
  repeat split; intros w H; apply M in H; cbn [map In] in H; intuition (subst w; reflexivity).
Qed.
Ltac fair := match goal with
  | |- typeOk _ _ _ => let H := fresh in intros H; first [exfalso; apply H; reflexivity|repeat split]
  | |- 0 <= rtLines _ < _ => unfold rtLines; cbn [List.length]; lia
  | |- small _ => unfold small; lia
  | |- _ /\ _ => split; fair
  | |- nameOk _ _ => repeat split
  | |- ident _ => repeat split
  | |- _ => first [exact I|reflexivity|lia]
  end.
Example C71_expression_example :
  printExpR rtNames rtOwn (codes "t.cmm") rtLines rtE =
    Some (codes "((*_ICA(a,-5," ++ 34 :: codes "t.cmm" ++ 34 :: codes ",8))=putn((((List*)_CP((*_RCA(b,7," ++ 34 :: codes "t.cmm" ++ 34 :: codes ",11))," ++ 34 :: codes "t.cmm" ++ 34 :: codes ",10))->next),&_cmm_12S))") /\
  fairR rtNames strLab rtOwn rtLines rtTypes [] rtE /\ formed false rtE = true /\ quotable (codes "t.cmm") /\
  expR rtNames strLab rtOwn (codes "t.cmm") rtLines rtE =
    CBin (codes "=") (CUn (codes "*") (CCall (CId (codes "_ICA")) [CId (codes "a"); CUn (codes "-") (CNum 5); CStr (codes "t.cmm"); CNum 8]))
      (CCall (CId (codes "putn")) [CArrow (CCast (codes "List*") (CCall (CId (codes "_CP"))
          [CUn (codes "*") (CCall (CId (codes "_RCA")) [CId (codes "b"); CNum 7; CStr (codes "t.cmm"); CNum 11]); CStr (codes "t.cmm"); CNum 10])) (codes "next");
        CUn (codes "&") (CId (codes "_cmm_12S"))]).
Proof.
  split; [vm_compute; reflexivity|]. split; [unfold rtS, rtE; cbn [fairSR fairR]; fair|].
  split; [reflexivity|]. split; [|vm_compute; reflexivity].
  intros c H. vm_compute in H. intuition (subst c; discriminate).
Qed.
Example C71_body_example : fairSR rtNames strLab rtOwn rtLines rtTypes rtVars [] rtS /\ formedS rtVars rtS = true /\ (forall p, 0 <= rtLines p).
Proof.
  split; [unfold rtS, rtE; cbn [fairSR fairR]; fair|].
  split; [reflexivity|]. intros p. unfold rtLines. lia.
Qed.

(* ---- what goes wrong outside of the hypotheses ---- *)
(* the name of the file is printed as it is: with a quotation mark in it the text is not C *)
Theorem C71_quote_refuted : exists nm own file ln e x,
  (forall i, nameOk rtTypes (nm i)) /\ formed false e = true /\ fairR nm strLab own ln rtTypes [] e /\ printExpR nm own file ln e = Some x /\ ~ exists c, readsE x c.
Proof.
  exists (fun _ => codes "a"), rtOwn, (codes "a" ++ 34 :: codes "b.cmm"), rtLines, (E2 IDXI (ELeaf (LLoc 1)) (Cnst 0)).
  eexists. split; [intros i; repeat split|]. split; [reflexivity|].
  split; [cbn [fairR]; fair|]. split; [vm_compute; reflexivity|].
  (* the last quotation mark opens a string that is not closed *)
  intros (c & f & t & L & _). revert L. destruct (Nat.le_gt_cases f 60) as [G|G].
  - do 61 (destruct f as [|f]; [vm_compute; discriminate|]). lia.
  - intros L. do 61 (destruct f as [|f]; [lia|]). vm_compute in L. discriminate L.
Qed.
Print Assumptions C71_quote_refuted.

(* do a(); while (b); is printed without a blank after do, with checks too *)
Theorem C71_do_refuted : exists nm own file vty ln root x s,
  (forall i, nameOk rtTypes (nm i)) /\ formedS vty root = true /\ printBodyR nm own file vty ln root = Some x /\
  readsS rtTypes x s /\ s <> bodyR nm strLab own file ln vty root /\
  s = KBlk [KExp (CCall (CId (codes "doa")) []); KWhile (CId (codes "a")) KEmpty].
Proof.
  exists (fun _ => codes "a"), rtOwn, (codes "t.cmm"), rtVars, rtLines, (SDo (SExpr (EFunc 1 ENull)) (ELeaf (LLoc 2))).
  eexists. exists (KBlk [KExp (CCall (CId (codes "doa")) []); KWhile (CId (codes "a")) KEmpty]).
  split; [intros i; repeat split|]. split; [reflexivity|]. split; [reflexivity|]. split; [|split; [discriminate|reflexivity]].
  eexists 100%nat, _. split; [vm_compute; reflexivity|]. vm_compute. reflexivity.
Qed.
Print Assumptions C71_do_refuted.
