(* C73: the command line of the compiler. *)
From Coq Require Import ZArith Bool Lia List String.
From Verif Require Import Lexer CCode CommandSpec Command ParserStmt AsmText.
Import ListNotations.
Open Scope Z_scope.

Lemma same_eq a b : same a b = true <-> a = b.
Proof. unfold same. destruct (list_eq_dec Z.eq_dec a b); split; intros H; try assumption; try reflexivity; [discriminate H|contradiction]. Qed.
Lemma same_ne a b : a <> b -> same a b = false.
Proof. unfold same. destruct (list_eq_dec Z.eq_dec a b); [contradiction|reflexivity]. Qed.
Lemma copyName_ok k s : (List.length s < k)%nat -> copyName k s = Some s.
Proof.
  revert s. induction k as [|k IH]; intros [|c s] H; cbn [copyName List.length] in *; try lia; [reflexivity|]. rewrite IH by lia. reflexivity.
Qed.
Lemma copyName_long k s : (k <= List.length s)%nat -> copyName k s = None.
Proof.
  revert s. induction k as [|k IH]; intros [|c s] H; cbn [copyName List.length] in *; try lia; try reflexivity. rewrite IH by lia. reflexivity.
Qed.

Section C.
Variable tool : bool -> bool -> list Z -> done.
Variable file : argument -> option (list Z).
Variable stdin : list Z.
Definition result (d : done) : ran := match d with Text t => Wrote t | Error => Rejected | Undef => NotDefined end.
(* the name of the source file is a string of C of at most 128 bytes, or there is none *)
Definition expected (opt krn : bool) (src : option argument) : ran :=
  match src with
  | None => result (tool opt krn stdin)
  | Some f => match file f with Some text => result (tool opt krn text) | None => CannotOpen f end
  end.
Lemma asks_run args opt krn src : asks args opt krn src -> (forall f, src = Some f -> (List.length f <= 128)%nat) ->
  command tool file stdin args = expected opt krn src.
Proof.
  intros (a & b & c & -> & A & -> & -> & N) LE.
  assert (E : forall f, src = Some f -> same f (codes "-O") = false /\ same f (codes "-O1") = false /\ same f (codes "-O0") = false /\ same f (codes "-K") = false /\ same f (codes "-v") = false /\ same f (codes "-h") = false).
  { intros f F. destruct (N f F) as (I & H & V). unfold isOption in I. repeat split; apply same_ne; intros ->; intuition congruence. }
  destruct src as [f|].
  - destruct (E f eq_refl) as (E1 & E2 & E3 & E4 & E5 & E6). assert (setFname f = Some f) as S by (apply copyName_ok; specialize (LE f eq_refl); lia).
    destruct A as [->|[->| ->]]; destruct opt, krn; cbn [app]; unfold command, argO, argO0, argK;
      repeat match goal with |- context [same (codes ?x) (codes ?y)] => change (same (codes x) (codes y)) with true || change (same (codes x) (codes y)) with false end;
      cbn [orb]; rewrite ?E1, ?E2, ?E3, ?E4, ?E5, ?E6; cbn [orb]; unfold openSrc, go, expected; rewrite S; reflexivity.
  - destruct A as [->|[->| ->]]; destruct opt, krn; reflexivity.
Qed.
(* Every command line that the manual allows, with the options in the order -O or -O1, -O0, -K,
   compiles the file it names, or the standard input, in the mode it asks for, and writes what
   the compiler makes of it; a file that cannot be opened is reported and nothing is compiled *)
Theorem C73_command_partial (args : list argument) (opt krn : bool) (src : option argument) :
  asks args opt krn src -> (forall f, src = Some f -> (List.length f <= 128)%nat) ->
  match src with
  | None => command tool file stdin args = result (tool opt krn stdin)
  | Some f => (forall text, file f = Some text -> command tool file stdin args = result (tool opt krn text)) /\
              (file f = None -> command tool file stdin args = CannotOpen f)
  end.
Proof.
  intros H L. rewrite (asks_run _ _ _ _ H L). unfold expected. destruct src as [f|]; [|reflexivity].
  split; [intros text ->|intros ->]; reflexivity.
Qed.
(* -h or -v as the first argument: the usage, status 0 *)
Theorem C73_help (args : list argument) : asksHelp args <-> command tool file stdin args = UsageText 0.
Proof.
  assert (P : forall o k r, openSrc tool file stdin o k r <> UsageText 0).
  { intros o k [|f [|x r]]; unfold openSrc, go; [| |discriminate].
    - destruct (tool _ _ _); discriminate.
    - destruct (file f); [|discriminate]. destruct (setFname f); [|discriminate]. destruct (tool _ _ _); discriminate. }
  split.
  - intros (w & r & -> & [->| ->]); reflexivity.
  - destruct args as [|w r]; intros H.
    + destruct (P _ _ _ H).
    + unfold command in H. destruct (same w (codes "-v")) eqn:V; [apply same_eq in V; exists w, r; auto|]. destruct (same w (codes "-h")) eqn:HH; [apply same_eq in HH; exists w, r; auto|]. cbn [orb] in H.
      exfalso. assert (K : forall o l, argK tool file stdin o l <> UsageText 0) by (intros o [|x l]; unfold argK; [apply P|destruct (same x (codes "-K")); apply P]).
      assert (Z0 : forall o l, argO0 tool file stdin o l <> UsageText 0) by (intros o [|x l]; unfold argO0; [apply K|destruct (same x (codes "-O0")); apply K]).
      unfold argO in H. destruct (same w (codes "-O") || same w (codes "-O1")); exact (Z0 _ _ H).
Qed.
(* Anything else is answered with the usage and status 1, and nothing is compiled, unless the
   last argument is one of the options, at a place where it is taken for the name of the source *)
Theorem C73_other (args : list argument) :
  ~ asksHelp args -> (forall opt krn src, ~ asks args opt krn src) ->
  command tool file stdin args = UsageText 1 \/
  exists rest f, args = rest ++ [f] /\ (isOption f \/ f = codes "-h" \/ f = codes "-v").
Proof.
  intros NH NA.
  assert (OS : forall (a b c : list argument) (o k : bool) (r : list argument), args = a ++ b ++ c ++ r -> (a = [] \/ a = [codes "-O"] \/ a = [codes "-O1"]) -> (b = if o then [] else [codes "-O0"]) -> (c = if k then [codes "-K"] else []) ->
    openSrc tool file stdin o k r = UsageText 1 \/ exists rest f, args = rest ++ [f] /\ (isOption f \/ f = codes "-h" \/ f = codes "-v")).
  { intros a b c o k r E A B C. destruct r as [|f [|x r]]; [| |left; reflexivity].
    - destruct (NA o k None). exists a, b, c. repeat split; try assumption; discriminate.
    - right. exists (a ++ b ++ c), f. split; [rewrite E, <- !app_assoc; reflexivity|].
      destruct (list_eq_dec Z.eq_dec f (codes "-h")); [auto|]. destruct (list_eq_dec Z.eq_dec f (codes "-v")); [auto|]. left. unfold isOption.
      destruct (list_eq_dec Z.eq_dec f (codes "-O")); [auto|]. destruct (list_eq_dec Z.eq_dec f (codes "-O1")); [auto|]. destruct (list_eq_dec Z.eq_dec f (codes "-O0")); [auto|]. destruct (list_eq_dec Z.eq_dec f (codes "-K")); [auto|].
      exfalso. apply (NA o k (Some f)). exists a, b, c. repeat split; try assumption; injection H as <-; [unfold isOption; intuition|assumption|assumption]. }
  assert (KK : forall (a b : list argument) (o : bool) (r : list argument), args = a ++ b ++ r -> (a = [] \/ a = [codes "-O"] \/ a = [codes "-O1"]) -> (b = if o then [] else [codes "-O0"]) ->
    argK tool file stdin o r = UsageText 1 \/ exists rest f, args = rest ++ [f] /\ (isOption f \/ f = codes "-h" \/ f = codes "-v")).
  { intros a b o [|w r] E A B; unfold argK.
    - apply (OS a b [] o false []); assumption || reflexivity.
    - destruct (same w (codes "-K")) eqn:S; [apply same_eq in S; subst w; apply (OS a b [codes "-K"] o true r)|apply (OS a b [] o false (w :: r))]; assumption || reflexivity. }
  assert (ZZ : forall (a r : list argument), args = a ++ r -> (a = [] \/ a = [codes "-O"] \/ a = [codes "-O1"]) ->
    argO0 tool file stdin true r = UsageText 1 \/ exists rest f, args = rest ++ [f] /\ (isOption f \/ f = codes "-h" \/ f = codes "-v")).
  { intros a [|w r] E A; unfold argO0.
    - apply (KK a [] true []); assumption || reflexivity.
    - destruct (same w (codes "-O0")) eqn:S; [apply same_eq in S; subst w; apply (KK a [codes "-O0"] false r)|apply (KK a [] true (w :: r))]; assumption || reflexivity. }
  unfold command. destruct args as [|w r] eqn:EA.
  - apply (ZZ [] []); auto.
  - destruct (same w (codes "-v")) eqn:V; [apply same_eq in V; destruct NH; exists w, r; auto|]. destruct (same w (codes "-h")) eqn:HH; [apply same_eq in HH; destruct NH; exists w, r; auto|]. cbn [orb].
    unfold argO. destruct (same w (codes "-O")) eqn:O1; [apply same_eq in O1; subst w; cbn [orb]; apply (ZZ [codes "-O"] r); auto|]. destruct (same w (codes "-O1")) eqn:O2; [apply same_eq in O2; subst w; cbn [orb]; apply (ZZ [codes "-O1"] r); auto|].
    cbn [orb]. apply (ZZ [] (w :: r)); auto.
Qed.
End C.
Print Assumptions C73_command_partial.
Print Assumptions C73_help.
Print Assumptions C73_other.

(* the compiler for TaC as the tool *)
Definition cTool (opt krn : bool) (text : list Z) : done :=
  match compile opt krn text with
  | COut _ => match compileText opt krn vm2vm text with Some t => Text t | None => Undef end
  | CReject => Error
  | _ => Undef
  end.
Definition c73_file (w : argument) : option (list Z) :=
  if same w (codes "a.cmm") then Some (codes "int f() { return 1 + 2; }") else if same w (codes "-O") then Some (codes "int x;") else None.
Example C73_ex : asks [codes "-O1"; codes "-O0"; codes "a.cmm"] false false (Some (codes "a.cmm")) /\
  match command cTool c73_file [] [codes "-O1"; codes "-O0"; codes "a.cmm"], command cTool c73_file [] [codes "a.cmm"] with Wrote t, Wrote t' => t <> t' | _, _ => False end /\
  command cTool c73_file [] [codes "-K"; codes "b.cmm"] = CannotOpen (codes "b.cmm") /\
  command cTool c73_file [] [codes "a.cmm"; codes "-O"] = UsageText 1 /\
  command cTool c73_file (codes "int") [] = Rejected /\
  command cTool c73_file [] [codes "-O"; codes "-h"] = CannotOpen (codes "-h").
Proof.
  split; [|vm_compute; repeat split; discriminate].
  exists [codes "-O1"], [codes "-O0"], []. repeat split; auto; injection H as <-; [|discriminate|discriminate].
  unfold isOption. vm_compute. intuition discriminate.
Qed.

(* The manual asks for the options in the order [-O0] [-O] [-O1] [-K]; in that order, -O0 -O, the second is
   taken for the source file, and with a source file after it nothing is compiled *)
Theorem C73_order_refuted :
  (forall tool file stdin, file (codes "-O") = None -> command tool file stdin [codes "-O0"; codes "-O"] = CannotOpen (codes "-O")) /\
  (forall tool file stdin f, command tool file stdin [codes "-O0"; codes "-O"; f] = UsageText 1).
Proof.
  split; [|reflexivity]. intros tool file stdin H. change (command tool file stdin [codes "-O0"; codes "-O"]) with (openSrc tool file stdin false false [codes "-O"]).
  unfold openSrc. rewrite H. reflexivity.
Qed.
Print Assumptions C73_order_refuted.
(* a name of 129 bytes or more: setFname reads outside of its array before it reports it *)
Theorem C73_name_refuted : forall tool file stdin f text, (129 <= List.length f)%nat -> file f = Some text -> hd 0 f <> 45 ->
  command tool file stdin [f] = NotDefined.
Proof.
  intros tool file stdin f text L F N.
  assert (Q : forall w, hd 0 w = 45 -> same f w = false) by (intros w W; apply same_ne; intros ->; contradiction).
  unfold command, argO, argO0, argK. rewrite !Q by reflexivity. cbn [orb openSrc]. rewrite F. unfold setFname. rewrite copyName_long by exact L. reflexivity.
Qed.
Print Assumptions C73_name_refuted.
