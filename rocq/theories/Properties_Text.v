(* C60: the text of the compiler can be read back.  C61: the symbols of the text. *)
From Coq Require Import ZArith Bool Lia String Ascii List.
From Verif Require Import Lexer NameTable SyTree VM VmCode Parser ParserStmt ProgSpec Properties_Prog CCode CTree TacSpec Tac TacFrom AsmText AsmSpec AsmLines AsmRead AsmTextProofs TextGrow TextNames.
Import ListNotations.
Open Scope Z_scope.

(* ==== C60 ==== *)
(* the lines of a file *)
Definition vmFile (ps : list piece) : list sline := flat_map (fun p => flat_map (vmItemLines (fst p)) (snd p)) ps.
(* numbers are C ints, names are identifiers, strings have no newline *)
Definition printable (ps : list piece) : Prop := Forall (fun p => Forall (prA (fst p)) (snd p)) ps.
(* every file that is compiled is printed, and an assembler that reads the text (AsmSpec.v)
   finds the operations and operands of the code of C51 to C59, in order *)
Theorem C60_vm (opt krn : bool) (file : list Z) (ps : list piece) :
  piecesOf opt krn file = Some ps -> printable ps ->
  exists tx, compileText opt krn vm2vm file = Some tx /\ readAsm tx = Some (vmFile ps) /\
             compile opt krn file = COut (flat_map snd ps).
Proof.
  intros P F. pose proof (pieces_compile opt krn file) as C. rewrite P in C. unfold compileText. rewrite P.
  assert (forall n, exists tx, render vm2vm ps n = Some (tx, n) /\ readAsm tx = Some (vmFile ps) /\ forall r, readAsm (tx ++ r) = option_map (app (vmFile ps)) (readAsm r)) as H.
  { clear P C. induction F as [|[t a] ps A _ IH]; intros n.
    - exists []. split; [reflexivity|]. split; [reflexivity|]. intros r. cbn [vmFile flat_map app]. destruct (readAsm r); reflexivity.
    - destruct (IH n) as (ty & B & D & E). cbn [render]. unfold vm2vm at 1. rewrite B. eexists. split; [reflexivity|].
      assert (forall r, readAsm (flat_map (vmItem t) a ++ r) = option_map (app (flat_map (vmItemLines t) a)) (readAsm r)) as X.
      { clear -A. cbn [fst snd] in A. intros r. induction A as [|x a X _ IH]; [cbn [flat_map app]; destruct (readAsm r); reflexivity|].
        cbn [flat_map]. rewrite <- app_assoc, (read_item _ _ _ X), IH. apply app_some. }
      assert (forall r, readAsm ((flat_map (vmItem t) a ++ ty) ++ r) = option_map (app (vmFile ((t, a) :: ps))) (readAsm r)) as Y.
      { intros r. rewrite <- app_assoc, X, E. cbn [vmFile flat_map fst snd]. apply app_some. }
      split; [|exact Y]. specialize (Y []). rewrite app_nil_r in Y. rewrite Y. cbn [readAsm cut lines option_map]. rewrite app_nil_r. reflexivity. }
  destruct (H 0) as (tx & A & B & _). exists tx. rewrite A. split; [reflexivity|]. split; [exact B|exact C].
Qed.
Print Assumptions C60_vm.

(* TaC: the instructions of C55; the translator numbers its labels through the file *)
Fixpoint tacFile (ps : list piece) (n : Z) : option (list sline) :=
  match ps with
  | [] => Some []
  | (t, a) :: r =>
    match tacLines t a n with
    | Some (x, n1) => match tacFile r n1 with Some y => Some (x ++ y) | None => None end
    | None => None
    end
  end.
Fixpoint tacPrintable (ps : list piece) (n : Z) : Prop :=
  match ps with
  | [] => True
  | (t, a) :: r => prTacs t a n /\ tacPrintable r (fold_left (fun n i => tacNext i n) a n)
  end.
Lemma tacLines_next t a : forall n x n1, tacLines t a n = Some (x, n1) -> n1 = fold_left (fun n i => tacNext i n) a n.
Proof.
  induction a as [|i a IH]; intros n x n1 H; [injection H as _ <-; reflexivity|]. cbn [tacLines fold_left] in *.
  assert (forall s, tacNext i n = n -> match tacLines t a n with Some (q, n') => match label s q with Some q => Some (q, n') | None => None end | None => None end = Some (x, n1) -> n1 = fold_left (fun n i => tacNext i n) a (tacNext i n)) as L.
  { intros s E X. rewrite E. destruct (tacLines t a n) as [[q m]|] eqn:T; [|discriminate X]. destruct (label s q) as [q'|]; [|discriminate X]. injection X as _ <-. exact (IH _ _ _ T). }
  assert (match tacRows t i n with Some (x, n1) => match tacLines t a n1 with Some (q, n') => Some (x ++ q, n') | None => None end | None => None end = Some (x, n1) -> n1 = fold_left (fun n i => tacNext i n) a (tacNext i n)) as R.
  { intros X. destruct (tacRows t i n) as [[y m]|] eqn:T; [|discriminate X]. rewrite <- (tacRows_next _ _ _ _ _ T). destruct (tacLines t a m) as [[q k]|] eqn:U; [|discriminate X]. injection X as _ <-. exact (IH _ _ _ U). }
  destruct i; try exact (R H); refine (L _ _ H); reflexivity.
Qed.
Lemma first_line (s : list Z) : ~ In 10 s \/ exists b r, s = b ++ 10 :: r /\ ~ In 10 b.
Proof.
  induction s as [|c s IH]; [left; intros []|]. destruct (Z.eq_dec c 10) as [->|D]; [right; exists [], s; split; [reflexivity|intros []]|].
  destruct IH as [N|(b & r & -> & N)]; [left|right; exists (c :: b), r; split; [reflexivity|]]; (intros [H|H]; [exact (D H)|exact (N H)]).
Qed.
Lemma read_app a r : forall x, readAsm a = Some x -> readAsm (a ++ r) = option_map (app x) (readAsm r).
Proof.
  remember (List.length a) as n eqn:E. assert (List.length a <= n)%nat as L by lia. clear E. revert a L. induction n as [|n IH]; intros a L x H.
  - destruct a; [|cbn [List.length] in L; lia]. injection H as <-. cbn [app]. destruct (readAsm r); reflexivity.
  - destruct (first_line a) as [N|(b & q & -> & N)].
    + unfold readAsm in H. rewrite (cut_none _ _ N) in H. destruct a; [|discriminate H]. injection H as <-. cbn [app]. destruct (readAsm r); reflexivity.
    + rewrite <- app_assoc. cbn [app]. rewrite (read_line b q N) in H. rewrite (read_line b (q ++ r) N). destruct (readAsm q) as [y|] eqn:Q; [|discriminate H]. injection H as <-.
      rewrite (IH q ltac:(rewrite app_length in L; cbn [List.length] in L; lia) y Q). destruct (readAsm r); cbn [option_map]; [rewrite app_assoc|]; reflexivity.
Qed.
Theorem C60_tac (opt krn : bool) (file : list Z) (ps : list piece) (L : list sline) :
  piecesOf opt krn file = Some ps -> tacFile ps 0 = Some L -> tacPrintable ps 0 ->
  exists tx, compileText opt krn vm2tac file = Some tx /\ readAsm tx = Some L /\
             compile opt krn file = COut (flat_map snd ps).
Proof.
  intros P F Q. pose proof (pieces_compile opt krn file) as C. rewrite P in C. unfold compileText. rewrite P. clear P.
  assert (exists tx n, render vm2tac ps 0 = Some (tx, n) /\ readAsm tx = Some L) as (tx & n & A & B).
  { clear C. revert L F Q. generalize 0. induction ps as [|[t a] ps IH]; intros n L F Q.
    - injection F as <-. exists [], n. split; reflexivity.
    - cbn [tacFile tacPrintable render] in *. destruct Q as [Q1 Q2]. destruct (tacLines t a n) as [[x n1]|] eqn:T; [|discriminate F]. destruct (tacFile ps n1) as [y|] eqn:U; [|discriminate F]. injection F as <-.
      rewrite <- (tacLines_next _ _ _ _ _ T) in Q2. destruct (IH _ _ U Q2) as (ty & m & B & D). destruct (read_tac _ _ _ _ _ Q1 T) as (tx & V & R). rewrite V, B. exists (tx ++ ty), m. split; [reflexivity|].
      rewrite (read_app _ _ _ R), D. reflexivity. }
  exists tx. rewrite A. split; [reflexivity|]. split; [exact B|exact C].
Qed.
Print Assumptions C60_tac.

(* Different instructions are printed differently.  The operators must be ones the virtual
   machine has (C53); the entries named by the two instructions must be printed with
   different names, and none like a label of the compiler (C61 shows that the language does
   not ensure this). *)
Definition named_in (i : instr) : list Z :=
  match i with ICallP _ f | ICallF _ f => [f] | ILdGlb k | ILdNam k | IStGlb k => [k] | _ => [] end.
Definition has_op (i : instr) : bool :=
  match i with IBin (DOT | IDXR | IDXI | IDXC | IDXB | ASS | COMM | OR | AND | SEMI) => false | _ => true end.
Definition apart (t : table) (ns : list Z) : Prop :=
  (forall i j, In i ns -> In j ns -> symText t i = symText t j -> i = j) /\
  (forall i l, In i ns -> small l -> symText t i <> labText l).
Lemma dec_inj a b : small a -> small b -> dec a = dec b -> a = b.
Proof. intros A B E. destruct (dec_read a A) as (X & _). destruct (dec_read b B) as (Y & _). rewrite E, Y in X. congruence. Qed.
Lemma lab_inj a b : small a -> small b -> labText a = labText b -> a = b.
Proof. intros A B E. apply dec_inj; try assumption. unfold labText in E. apply app_inv_head in E. exact E. Qed.
Definition opOf (s : sline) : list Z := match sOp s with Some (o, _) => o | None => [] end.
Definition argsOf (s : sline) : list arg := match sOp s with Some (_, a) => a | None => [] end.
Theorem C60_unambiguous (t : table) (i j : instr) :
  prI t i -> prI t j -> has_op i = true -> has_op j = true -> apart t (named_in i ++ named_in j) ->
  vmLine t i = vmLine t j -> i = j.
Proof.
  intros PI PJ HI HJ [AP AL] E. pose proof (f_equal opOf E) as EO. pose proof (f_equal argsOf E) as EA. pose proof (f_equal sLab E) as EL. clear E.
  destruct i as [l|l|l|l|c|k|n|n|l|k| | |k|n|n| | |o|o| | |n f|n f| |d|d|d| | ], j as [l'|l'|l'|l'|c'|k'|n'|n'|l'|k'| | |k'|n'|n'| | |o'|o'| | |n' f'|n' f'| |d'|d'|d'| | ];
    try (destruct o; try discriminate HI); try (destruct o'; try discriminate HJ); try reflexivity; try discriminate EO; try discriminate EL.
  all: cbn [vmLine argsOf row mark sOp sLab named_in app prI num sym] in *.
  all: try discriminate EA.
  all: try (injection EA as <-; reflexivity).
  all: try (injection EA as EA; f_equal; first [apply lab_inj; assumption|apply AP; [left; reflexivity|right; left; reflexivity|exact EA]|lia]).
  all: try (exfalso; injection EA as EA; first [refine (AL _ _ (or_introl eq_refl) _ EA); assumption|symmetry in EA; refine (AL _ _ (or_introl eq_refl) _ EA); assumption]).
  all: try (f_equal; apply lab_inj; [assumption|assumption|congruence]).
  1-4: (assert (Plain (Sym (labText l)) = Plain (Sym (labText l'))) as EB by exact (f_equal (fun a => hd (num 0) a) EA); f_equal; apply lab_inj; [assumption|assumption|congruence]).
  all: unfold num, sym in EA; injection EA as EN EA; apply Nat2Z.inj in EN; subst; f_equal; apply AP; [left; reflexivity|right; left; reflexivity|exact EA].
Qed.
Print Assumptions C60_unambiguous.

(* a file with every kind of line: a string, an array, a public function, a call, a loop *)
Definition c60_src : list Z := codes "char[] s = ""ab""; int[] a = array(3); int z; void put(char[] p, int n); public int f(int x) { int i; i = 0; while (i < x && a[i] != -1) { put(s, i); i = i + 1; } z = i; return i; } ".
Definition c60_pieces : list piece := Eval vm_compute in match piecesOf true false c60_src with Some ps => ps | None => [] end.
Definition c60_text : list Z := Eval vm_compute in match compileText true false vm2vm c60_src with Some t => t | None => [] end.
Definition c60_tac : list Z := Eval vm_compute in match compileText true false vm2tac c60_src with Some t => t | None => [] end.
Ltac allF := repeat (apply Forall_cons || apply Forall_nil).
Ltac pr1 := first [exact I | reflexivity | (unfold small; lia) | (intros HH; repeat destruct HH as [HH|HH]; try discriminate HH; exact HH) | (split; pr1)].
Example C60_ex_hyp : piecesOf true false c60_src = Some c60_pieces. Proof. vm_compute. reflexivity. Qed.
Example C60_ex_printable : printable c60_pieces.
Proof. unfold printable, c60_pieces. allF; cbn [fst snd]; allF; cbn [prA]; allF; cbn [from0 prI]; pr1. Qed.
Example C60_ex_text : compileText true false vm2vm c60_src = Some c60_text /\ readAsm c60_text = Some (vmFile c60_pieces) /\ List.length (vmFile c60_pieces) = 44%nat.
Proof. split; [vm_compute; reflexivity|]. split; vm_compute; reflexivity. Qed.
Lemma prTA_code t c n C s : tac false false 0 0 (vops c) (tinit n) = Some (C, s) -> Forall (prT t) C -> prTA t (ACode c) n.
Proof. intros E F. cbn [prTA]. rewrite E. exact F. Qed.
Definition c60_code : list tin * tst := Eval vm_compute in
  match flat_map snd c60_pieces with
  | l => match List.find (fun a => match a with ACode _ => true | _ => false end) l with
         | Some (ACode c) => match tac false false 0 0 (vops c) (tinit 0) with Some x => x | None => ([], tinit 0) end
         | _ => ([], tinit 0)
         end
  end.
Example C60_ex_tac_printable : tacPrintable c60_pieces 0.
Proof.
  unfold c60_pieces. cbn [tacPrintable prTacs fold_left].
  repeat match goal with |- _ /\ _ => split end;
    match goal with |- True => exact I | |- prTA _ (ACode ?c) _ => idtac | |- _ => cbn [prTA prA]; pr1 end.
  refine (prTA_code _ _ _ (fst c60_code) (snd c60_code) _ _); [vm_compute; reflexivity|]. unfold c60_code. cbn [fst]. allF; cbn [prT prO smallL]; pr1.
Qed.
Definition c60_rows : list sline := Eval vm_compute in match tacFile c60_pieces 0 with Some L => L | None => [] end.
Example C60_ex_tac : tacFile c60_pieces 0 = Some c60_rows /\ compileText true false vm2tac c60_src = Some c60_tac /\ readAsm c60_tac = Some c60_rows /\ List.length c60_rows = 33%nat.
Proof. split; [vm_compute; reflexivity|]. split; [vm_compute; reflexivity|]. split; vm_compute; reflexivity. Qed.

(* ==== C61 ==== *)
(* the symbols a text defines *)
Definition defined (L : list sline) : list (list Z) := flat_map (fun s => match sLab s with Some x => [x] | None => [] end) L.
Fixpoint times (x : list Z) (l : list (list Z)) : Z :=
  match l with [] => 0 | y :: r => (if list_eq_dec Z.eq_dec x y then 1 else 0) + times x r end.
(* how often a text defines x; -1 if the compiler prints none *)
Definition text_defs (r : option (list Z)) (x : string) : Z :=
  match r with
  | Some tx => match readAsm tx with Some L => times (codes x) (defined L) | None => -1 end
  | None => -1
  end.

(* Names of the program that look like labels of the compiler. *)
Definition no_label_names (ps : list piece) : Prop :=
  forall t a i l, In (t, a) ps -> In (ANam i) a -> small l -> symText t i <> labText l.
Lemma times_app x a b : times x (a ++ b) = times x a + times x b.
Proof. induction a as [|y a IH]; cbn [app times]; [reflexivity|]. rewrite IH. lia. Qed.
Definition count (l : Z) (c : list Z) : Z := Z.of_nat (count_occ Z.eq_dec c l).
Lemma count_app l a b : count l (a ++ b) = count l a + count l b.
Proof. unfold count. rewrite count_occ_app. lia. Qed.
Lemma times_lab l k : small l -> small k -> times (labText l) [labText k] = count l [k].
Proof.
  intros A B. unfold count. cbn [times count_occ]. destruct (list_eq_dec Z.eq_dec (labText l) (labText k)) as [E|E]; destruct (Z.eq_dec k l) as [F|F]; try reflexivity.
  - destruct F. symmetry. exact (lab_inj _ _ A B E).
  - destruct E. rewrite F. reflexivity.
Qed.
Lemma defined_app a b : defined (a ++ b) = defined a ++ defined b. Proof. apply flat_map_app. Qed.
Lemma defined_ops t l : forall c, small l -> Forall (fun i => prI t (from0 i)) c -> times (labText l) (defined (map (fun i => vmLine t (from0 i)) c)) = count l (asmDefs (ACode c)).
Proof.
  intros c L F. induction F as [|i c P _ IH]; [reflexivity|]. cbn [map]. change (asmDefs (ACode (i :: c))) with (match i with ILab k => [k] | _ => [] end ++ asmDefs (ACode c)).
  change (defined (?x :: ?y)) with (match sLab x with Some s => [s] | None => [] end ++ defined y). rewrite times_app, count_app, <- IH. f_equal.
  destruct i as [k| | | | | | | | | | | | | | | | |o|o| | | | | | | | | | ]; try reflexivity; [|destruct o; reflexivity|destruct o; reflexivity].
  cbn [from0 vmLine mark sLab]. apply times_lab; [exact L|exact P].
Qed.
Lemma defined_item t a l : small l -> prA t a -> (forall i, a = ANam i -> symText t i <> labText l) -> times (labText l) (defined (vmItemLines t a)) = count l (asmDefs a).
Proof.
  intros L P N. destruct a as [k|i| | | | | | | |c]; try reflexivity.
  - apply times_lab; assumption.
  - cbn [vmItemLines defined flat_map mark sLab app times]. destruct (list_eq_dec _ _ _) as [E|E]; [destruct (N _ eq_refl); symmetry; exact E|reflexivity].
  - apply defined_ops; assumption.
Qed.
Lemma defined_file ps l : small l -> printable ps -> no_label_names ps -> times (labText l) (defined (vmFile ps)) = count l (outDefs (flat_map snd ps)).
Proof.
  intros L F. induction F as [|[t a] ps A _ IH]; intros N; [reflexivity|]. cbn [vmFile flat_map fst snd] in *. fold (vmFile ps). unfold outDefs. rewrite defined_app, flat_map_app, times_app, count_app. f_equal.
  2:{ apply IH. intros t' a' i k I. apply N. right. exact I. }
  assert (forall i, In (ANam i) a -> symText t i <> labText l) as M by (intros i I; exact (N t a i l (or_introl eq_refl) I L)). clear N IH. cbn [fst snd] in A.
  induction A as [|x a X _ IH]; [reflexivity|]. cbn [flat_map]. rewrite defined_app, times_app, count_app. f_equal.
  - apply defined_item; [exact L|exact X|]. intros i ->. apply M. left. reflexivity.
  - apply IH. intros i I. apply M. right. exact I.
Qed.
(* Without -O every label of the compiler that the text uses is defined in it exactly once, if
   no name of the program looks like one.  (With -O: C54.) *)
Theorem C61_labels_partial (krn : bool) (file : list Z) (ps : list piece) :
  piecesOf false krn file = Some ps -> printable ps -> no_label_names ps ->
  exists tx L, compileText false krn vm2vm file = Some tx /\ readAsm tx = Some L /\
    forall l, small l -> times (labText l) (defined L) <= 1 /\ (In l (outUses (flat_map snd ps)) -> times (labText l) (defined L) = 1).
Proof.
  intros P F N. destruct (C60_vm _ _ _ _ P F) as (tx & A & B & C). exists tx, (vmFile ps). split; [exact A|]. split; [exact B|].
  destruct (C54_labels _ _ _ C) as [D U]. intros l L. rewrite (defined_file _ _ L F N). unfold count.
  pose proof (proj1 (NoDup_count_occ Z.eq_dec _) D l). split; [lia|]. intros I. apply U in I. apply (count_occ_In Z.eq_dec) in I. lia.
Qed.
Print Assumptions C61_labels_partial.
(* With -O, if the text has no do loop (a do loop that is run once can leave a jump to a label
   that is nowhere, C54_do_refuted) *)
Theorem C61_labels_optimised_partial (krn : bool) (file : list Z) (toks : list item) (ps : list piece) :
  lexAll file = LOk toks -> (forall i, In i toks -> tokOf i <> LxDO) ->
  piecesOf true krn file = Some ps -> printable ps -> no_label_names ps ->
  exists tx L, compileText true krn vm2vm file = Some tx /\ readAsm tx = Some L /\
    forall l, small l -> times (labText l) (defined L) <= 1 /\ (In l (outUses (flat_map snd ps)) -> times (labText l) (defined L) = 1).
Proof.
  intros LX ND P F N. destruct (C60_vm _ _ _ _ P F) as (tx & A & B & C). exists tx, (vmFile ps). split; [exact A|]. split; [exact B|].
  destruct (C54_labels_optimised_partial _ _ _ _ LX ND C) as [D U]. intros l L. rewrite (defined_file _ _ L F N). unfold count.
  pose proof (proj1 (NoDup_count_occ Z.eq_dec _) D l). split; [lia|]. intros I. apply U in I. apply (count_occ_In Z.eq_dec) in I. lia.
Qed.
Print Assumptions C61_labels_optimised_partial.
Lemma no_labels_check ps : forallb (fun p : piece => forallb (fun a => match a with ANam i => negb (match symText (fst p) i with 46 :: 76 :: _ => true | _ => false end) | _ => true end) (snd p)) ps = true -> no_label_names ps.
Proof.
  intros H t a i l I J _ E. rewrite forallb_forall in H. specialize (H _ I). cbn [fst snd] in H. rewrite forallb_forall in H. specialize (H _ J). cbv beta iota in H. rewrite E in H. discriminate H.
Qed.
Definition c61_pieces : list piece := Eval vm_compute in match piecesOf false false c60_src with Some ps => ps | None => [] end.
Example C61_ex : piecesOf false false c60_src = Some c61_pieces /\ printable c61_pieces /\ no_label_names c61_pieces /\ List.length (outUses (flat_map snd c61_pieces)) = 5%nat.
Proof.
  split; [vm_compute; reflexivity|]. split; [|split; [|vm_compute; reflexivity]].
  - unfold printable, c61_pieces. allF; cbn [fst snd]; allF; cbn [prA]; allF; cbn [from0 prI]; pr1.
  - apply no_labels_check. vm_compute. reflexivity.
Qed.
Definition c61_toks : list item := Eval vm_compute in match lexAll c60_src with LOk l => l | _ => [] end.
Definition c61_opt : list piece := Eval vm_compute in match piecesOf true false c60_src with Some ps => ps | None => [] end.
Example C61_ex_optimised : lexAll c60_src = LOk c61_toks /\ (forall i, In i c61_toks -> tokOf i <> LxDO) /\
  piecesOf true false c60_src = Some c61_opt /\ printable c61_opt /\ no_label_names c61_opt /\ List.length (outUses (flat_map snd c61_opt)) = 5%nat.
Proof.
  split; [vm_compute; reflexivity|]. split.
  { assert (forallb (fun i => negb (tokOf i =? LxDO)) c61_toks = true) as K by (vm_compute; reflexivity). rewrite forallb_forall in K. intros i I E. specialize (K _ I). rewrite E in K. discriminate K. }
  split; [vm_compute; reflexivity|]. split; [|split; [|vm_compute; reflexivity]].
  - unfold printable, c61_opt. allF; cbn [fst snd]; allF; cbn [prA]; allF; cbn [from0 prI]; pr1.
  - apply no_labels_check. vm_compute. reflexivity.
Qed.

(* What follows the definition of x: the operation in the next line. *)
Definition follows (x : list Z) (o : string) (L : list sline) : Prop :=
  exists A s1 s2 B, L = A ++ s1 :: s2 :: B /\ sLab s1 = Some x /\ option_map fst (sOp s2) = Some (codes o).
Fixpoint timesK (x : list Z) (D : list (kind * list Z)) : Z :=
  match D with [] => 0 | (_, y) :: r => (if list_eq_dec Z.eq_dec x y then 1 else 0) + timesK x r end.
Lemma timesK_app x a b : timesK x (a ++ b) = timesK x a + timesK x b.
Proof. induction a as [|[k y] a IH]; cbn [app timesK]; [reflexivity|]. rewrite IH. lia. Qed.
Lemma times_code t x : forall c, (forall l, small l -> x <> labText l) -> Forall (fun i => prI t (from0 i)) c -> times x (defined (map (fun i => vmLine t (from0 i)) c)) = 0.
Proof.
  intros c X F. induction F as [|i c P _ IH]; [reflexivity|]. cbn [map]. change (defined (?y :: ?z)) with (match sLab y with Some s => [s] | None => [] end ++ defined z). rewrite times_app, IH.
  destruct i as [k| | | | | | | | | | | | | | | | |o|o| | | | | | | | | | ]; try reflexivity; [|destruct o; reflexivity|destruct o; reflexivity].
  cbn [from0 vmLine mark sLab times]. destruct (list_eq_dec _ _ _) as [E|E]; [destruct (X k P E)|reflexivity].
Qed.
Lemma times_names ps x : printable ps -> (forall l, small l -> x <> labText l) -> times x (defined (vmFile ps)) = timesK x (defsP ps).
Proof.
  intros F X. induction F as [|[t a] ps A _ IH]; [reflexivity|]. cbn [vmFile flat_map fst snd] in *. fold (vmFile ps). rewrite defined_app, times_app, IH. unfold defsP. cbn [flat_map fst snd]. rewrite timesK_app. f_equal. clear IH.
  induction A as [|y a Y _ IH]; [reflexivity|]. cbn [flat_map]. rewrite defined_app, times_app, IH.
  destruct y as [k|s|i| | | | | | |c]; cbn [vmItemLines defsK]; try reflexivity.
  - cbn [defined flat_map mark sLab app times]. destruct (list_eq_dec _ _ _) as [E|E]; [destruct (X k Y E)|reflexivity].
  - cbn [defined flat_map mark sLab app times timesK]. lia.
  - rewrite times_code by assumption. reflexivity.
Qed.
Lemma timesK_in x D : 0 < timesK x D -> exists k, In (k, x) D.
Proof.
  induction D as [|[k y] D IH]; cbn [timesK]; [lia|]. destruct (list_eq_dec _ _ _) as [<-|E]; [exists k; left; reflexivity|]. intros H. destruct IH as [k' I]; [lia|]. exists k'. right. exact I.
Qed.
Lemma timesK_nonneg x D : 0 <= timesK x D.
Proof. induction D as [|[k y] D IH]; cbn [timesK]; [lia|]. destruct (list_eq_dec _ _ _); lia. Qed.
Lemma timesK_out x D : (forall k, ~ In (k, x) D) -> timesK x D = 0.
Proof. intros H. destruct (Z.eq_dec (timesK x D) 0) as [E|E]; [exact E|]. pose proof (timesK_nonneg x D). destruct (timesK_in x D) as [k I]; [lia|]. destruct (H k I). Qed.
Lemma timesK_2 x D : NoDup D -> (forall k k', In (k, x) D -> In (k', x) D -> k = k' \/ (k = KBss /\ k' = KDat) \/ (k = KDat /\ k' = KBss)) ->
  timesK x D <= 1 \/ (timesK x D = 2 /\ In (KBss, x) D /\ In (KDat, x) D).
Proof.
  induction D as [|[k y] D IH]; intros N H; [left; cbn [timesK]; lia|]. inversion N as [|q D' A B]; subst q D'. cbn [timesK].
  destruct (list_eq_dec Z.eq_dec x y) as [<-|E].
  2:{ destruct IH as [C|(C & C1 & C2)]; [exact B|intros k1 k2 I J; exact (H _ _ (or_intror I) (or_intror J))|left; lia|]. right. split; [lia|]. split; right; assumption. }
  (* another one would have the other kind *)
  assert (forall k2, In (k2, x) D -> (k = KBss /\ k2 = KDat) \/ (k = KDat /\ k2 = KBss)) as O.
  { intros k2 I. destruct (H k k2 (or_introl eq_refl) (or_intror I)) as [<-|O]; [destruct (A I)|exact O]. }
  destruct (Z.eq_dec (timesK x D) 0) as [Z0|Z0]; [left; lia|]. pose proof (timesK_nonneg x D).
  destruct (timesK_in x D) as [k2 I2]; [lia|]. right.
  assert (timesK x D = 1) as Z1.
  { destruct IH as [C|(C & C1 & C2)]; [exact B|intros k1 k3 I J; exact (H _ _ (or_intror I) (or_intror J))|lia|]. destruct (O _ C1) as [[? ?]|[? ?]], (O _ C2) as [[? ?]|[? ?]]; congruence. }
  split; [lia|]. destruct (O _ I2) as [[-> ->]|[-> ->]]; split; ((left; reflexivity) || (right; exact I2)).
Qed.
Lemma defs_follow ps k x : In (k, x) (defsP ps) ->
  (k = KBss -> follows x "WS" (vmFile ps)) /\ (k = KDat -> follows x "DW" (vmFile ps)).
Proof.
  intros H. unfold defsP in H. apply in_flat_map in H. destruct H as ([t a] & I & H). cbn [fst snd] in H. apply in_split in I. destruct I as (p1 & p2 & ->).
  assert (exists b i r, a = b ++ ANam i :: r /\ k = kindOf r /\ x = symText t i) as (b & i & r & -> & -> & ->).
  { induction a as [|y a IH]; [destruct H|]. assert (In (k, x) (defsK t a) -> exists b i r, y :: a = b ++ ANam i :: r /\ k = kindOf r /\ x = symText t i) as R.
    { intros J. destruct (IH J) as (b & i & r & -> & X). exists (y :: b), i, r. split; [reflexivity|exact X]. }
    destruct y; cbn [defsK] in H; try exact (R H). destruct H as [H|H]; [|exact (R H)]. injection H as <- <-. exists [], i, a. repeat split. }
  unfold vmFile. rewrite flat_map_app. cbn [flat_map fst snd]. rewrite flat_map_app. cbn [flat_map vmItemLines app].
  split; intros K; destruct r as [|y r]; cbn [kindOf] in K; try discriminate K; destruct y; try discriminate K; cbn [flat_map vmItemLines app];
    rewrite <- !app_assoc; cbn [app]; rewrite app_assoc; eexists; eexists; eexists; eexists; (split; [reflexivity|]); split; reflexivity.
Qed.
(* A name of the program is defined at most once in the text, or twice: then it is a variable
   that is given space in one place (WS) and a value in the other (DW).  That this does happen
   is C61_twice_refuted. *)
Theorem C61_names_partial (opt krn : bool) (file : list Z) (ps : list piece) :
  piecesOf opt krn file = Some ps -> printable ps ->
  exists tx L, compileText opt krn vm2vm file = Some tx /\ readAsm tx = Some L /\
    forall x, (forall l, small l -> x <> labText l) ->
      times x (defined L) <= 1 \/ (times x (defined L) = 2 /\ follows x "WS" L /\ follows x "DW" L).
Proof.
  intros P F. destruct (C60_vm _ _ _ _ P F) as (tx & A & B & _). exists tx, (vmFile ps). split; [exact A|]. split; [exact B|]. intros x X.
  destruct (names_once _ _ _ _ P) as [N K]. rewrite (times_names _ _ F X). destruct (timesK_2 x (defsP ps) N (fun k k' => K k k' x)) as [C|(C & I & J)]; [left; exact C|right].
  split; [exact C|]. split; [exact (proj1 (defs_follow _ _ _ I) eq_refl)|exact (proj2 (defs_follow _ _ _ J) eq_refl)].
Qed.
Print Assumptions C61_names_partial.
Example C61_ex_names : piecesOf true false c60_src = Some c60_pieces /\ printable c60_pieces /\ map fst (defsP c60_pieces) <> [] /\ NoDup (map snd (defsP c60_pieces)).
Proof.
  split; [exact C60_ex_hyp|]. split; [exact C60_ex_printable|]. split; [vm_compute; discriminate|]. vm_compute. repeat constructor; intros H; repeat (destruct H as [H|H]; [discriminate H|]); exact H.
Qed.

(* A variable declared first without and then with an initial value is placed twice. *)
Theorem C61_twice_refuted : exists file, text_defs (compileText true false vm2vm file) ".a" = 2.
Proof. exists (codes "int a; int a = 3; "). vm_compute. reflexivity. Qed.
Print Assumptions C61_twice_refuted.
(* A variable may have the name of a label of the compiler. *)
Theorem C61_label_refuted : exists file, text_defs (compileText true false vm2vm file) ".L1" = 2.
Proof. exists (codes "int L1; char[] s = ""x""; "). vm_compute. reflexivity. Qed.
Print Assumptions C61_label_refuted.
(* ... and then the address of the one is printed like the address of the other *)
Theorem C60_ambiguous_refuted : exists t i j, prI t i /\ prI t j /\ i <> j /\ vmLine t i = vmLine t j.
Proof. exists [Ent (codes "L1") ScGVAR TyINT 0 0 false], (ILdNam 0), (ILdLab 1). repeat split; try (unfold small; lia). discriminate. Qed.
Print Assumptions C60_ambiguous_refuted.
(* A public function may have the name of the function of the run-time that checks the stack,
   which the first instruction of every function calls (vm2tac.c:344). *)
Theorem C61_runtime_refuted : exists file, text_defs (compileText true false vm2tac file) "__stkChk" = 1.
Proof. exists (codes "public void _stkChk() { } "). vm_compute. reflexivity. Qed.
Print Assumptions C61_runtime_refuted.
