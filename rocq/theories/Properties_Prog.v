(* C10, C51-C54: what holds of a whole run of the compiler, from the source text to the code it writes. *)
From Coq Require Import ZArith Bool Lia String Ascii List.
From Verif Require Import Lexer NameTable Word SyTree ExprSem StmtSem OptSpec OpTree VM VmCode Parser ParserStmt ParseTotal ParseLabs ProgSpec ProgData ProgInv ProgTop ProgRun.
Import ListNotations.
Open Scope Z_scope.

(* CStuck is the outcome of a loop that does not come to an end *)
Theorem C51_terminates (opt krn : bool) (file : list Z) :
  (exists l, compile opt krn file = COut l) \/ compile opt krn file = CReject \/ compile opt krn file = CUndef.
Proof.
  pose proof (compile_total opt krn file) as H. destruct (compile opt krn file) as [l| | |]; [left; exists l; reflexivity|right; left; reflexivity|right; right; reflexivity|contradiction].
Qed.
Print Assumptions C51_terminates.

(* all three outcomes occur, and an unfinished text is refused rather than waited for *)
Definition acc (r : cres) : Z := match r with COut l => Z.of_nat (List.length l) | CReject => -1 | CUndef => -2 | CStuck => -3 end.
Example C51_accepts : acc (compile true false (codes "int f(int x) { while (x > 0) x = x - 1; return x; } ")) = 2.
Proof. vm_compute. reflexivity. Qed.
Example C51_refuses : acc (compile true false (codes "int f(int x) { while (x > 0) x = x - 1; return x; ")) = -1.
Proof. vm_compute. reflexivity. Qed.
Example C51_refuses2 : acc (compile false false (codes "int f(int x) { return ((((x ")) = -1.
Proof. vm_compute. reflexivity. Qed.

Lemma compile_TI opt krn file l : compile opt krn file = COut l ->
  exists toks g, lexAll file = LOk toks /\ outp (ge g) = l /\ TI opt krn toks g.
Proof.
  unfold compile. intros H. destruct (lexAll file) as [toks| |] eqn:L; try discriminate H. pose proof (psGetSrc_TI opt krn toks) as T.
  destruct (psGetSrc opt krn toks) as [g| | |]; try discriminate H. injection H as <-. exists toks, g. split; [reflexivity|]. split; [reflexivity|exact T].
Qed.

(* ---- C54: the labels of the whole output ---- *)
Definition labels_ok (l : list asm) : Prop := NoDup (outDefs l) /\ forall x, In x (outUses l) -> In x (outDefs l).
Theorem C54_labels (krn : bool) (file : list Z) (l : list asm) : compile false krn file = COut l -> labels_ok l.
Proof.
  intros H. destruct (compile_TI _ _ _ _ H) as (toks & g & _ & <- & T). destruct (i_lab _ _ _ _ T (or_introl eq_refl)) as ((_ & _ & A) & B). exact (conj A B).
Qed.
Print Assumptions C54_labels.
(* with -O: texts without a do loop *)
Theorem C54_labels_optimised_partial (krn : bool) (file : list Z) (toks : list item) (l : list asm) :
  lexAll file = LOk toks -> (forall i, In i toks -> tokOf i <> LxDO) -> compile true krn file = COut l -> labels_ok l.
Proof.
  intros L D H. destruct (compile_TI _ _ _ _ H) as (toks' & g & L' & <- & T). rewrite L in L'. injection L' as <-.
  destruct (i_lab _ _ _ _ T (or_intror D)) as ((_ & _ & A) & B). exact (conj A B).
Qed.
Print Assumptions C54_labels_optimised_partial.
(* a do loop run once loses its loop, not its break: the jump goes to label 0 *)
Definition doText : list Z := codes "void f(int x) { do { if (x > 0) break; x = x + 1; } while (false); } ".
Definition outOf (r : cres) : list asm := match r with COut l => l | _ => [] end.
Theorem C54_do_refuted : exists l, compile true false doText = COut l /\ In 0 (outUses l) /\ ~ In 0 (outDefs l).
Proof.
  exists (outOf (compile true false doText)). split; [vm_compute; reflexivity|]. vm_compute. split; [tauto|intuition discriminate].
Qed.
Print Assumptions C54_do_refuted.
(* labels of strings, of initialised data and of two functions in one file *)
Definition labText : list Z := codes "char[] s = ""ab""; int[] a = {1, 2}; int[][] b = {{1}, array(3)}; void g(char[] p); int f(int x) { while (x > 0 && a[x] != 1) { g(""x""); x = x - 1; } return x; } void h(int y) { if (y > 0) g(s); else y = 2; } ".
Example C54_ex : let l := outOf (compile false false labText) in
  (Z.of_nat (List.length (outDefs l)), Z.of_nat (List.length (outUses l))) = (10, 11) /\ acc (compile false false labText) = 24.
Proof. vm_compute. split; reflexivity. Qed.

(* ---- C53: operands of locals and parameters ---- *)
(* the size in the function's entry instruction *)
Definition frame (c : code) : option Z := match c with IEntry d :: _ | IEntryK d :: _ | IEntryI d :: _ => Some d | _ => None end.
Theorem C53_operands (opt krn : bool) (file : list Z) l c : compile opt krn file = COut l -> In (ACode c) l ->
  exists d n, frame c = Some d /\
    (forall k, In (ILdLoc k) c \/ In (IStLoc k) c -> 1 <= k <= d) /\ (forall k, In (ILdPrm k) c \/ In (IStPrm k) c -> 1 <= k <= n) /\
    (exists tbl fi, In (ANam fi) l /\ cntAt tbl fi = n).
Proof.
  intros H I. destruct (compile_TI _ _ _ _ H) as (toks & g & _ & <- & T). apply in_split in I. destruct I as (a & b & E).
  destruct (i_seg _ _ _ _ T _ _ _ E) as (a' & fi & -> & tbl & root & root' & d & lb & lb' & c0 & _ & G & -> & _ & _ & _ & (S1 & S2)).
  exists d, (cntAt tbl fi). split; [|split; [exact S1|split; [exact S2|]]].
  - unfold genFunc in G. destruct (genS _ _ _ _) as [[c1 g1]|]; [|discriminate G]. injection G as <- _. destruct (_ =? _); [reflexivity|]. destruct krn; reflexivity.
  - exists tbl, fi. split; [|reflexivity]. rewrite E. apply in_or_app. left. apply in_or_app. right. left. reflexivity.
Qed.
Print Assumptions C53_operands.

(* ---- C10, C52: bodies of accepted functions ---- *)
(* how a function may end: with a value, or without *)
Definition ends (value : bool) (o : outcome) : Prop := if value then exists v, o = ORet (Some v) else o = ONorm \/ o = ORet None.
Theorem C52_returns (opt krn : bool) (file : list Z) l a c b : compile opt krn file = COut l -> l = a ++ ACode c :: b ->
  exists a' fi tbl body body' d lb lb' c0, a = a' ++ [ANam fi] /\
    (* c is the code of a function with this body *)
    (if opt then optTree body = Ok body' else body' = body) /\
    genFunc (namesOf tbl) body' d krn (typeAt tbl fi =? TyINTR) lb = Some (c0, lb') /\ c = map (printed tbl) c0 /\
    (* however it runs, it ends as its type says *)
    forall (M : machine) (N : names) sw n st o st', run M N sw body n st = Done o st' -> ends (hasValue tbl fi) o.
Proof.
  intros H E. destruct (compile_TI _ _ _ _ H) as (toks & g & _ & <- & T).
  destruct (i_seg _ _ _ _ T _ _ _ E) as (a' & fi & -> & tbl & root & root' & d & lb & lb' & c0 & O & G & C & X & R & V & _).
  exists a', fi, tbl, root, root', d, lb, lb', c0. split; [reflexivity|]. split; [exact O|]. split; [exact G|]. split; [exact C|].
  intros M N sw n st o st' HR. exact (run_body M N sw _ _ _ _ _ _ X R V HR).
Qed.
Print Assumptions C52_returns.

(* a function with a result, one without, an interrupt function; a body that ends in a loop has no return at its end *)
Definition retText : list Z := codes "int f(int x) { if (x > 0) return x; while (x < 0) { int y = x; x = y + 1; } return x + 1; } void g(int x) { while (x > 0) { x = x - 1; if (x == 5) return; } } interrupt h() { } ".
Example C52_ex : acc (compile true true retText) = 6 /\ acc (compile false true retText) = 6 /\
  acc (compile true false (codes "int f(int x) { while (x > 0) return x; } ")) = -1 /\
  acc (compile true false (codes "int f(int x) { return; } ")) = -1 /\ acc (compile true false (codes "void f(int x) { return x; } ")) = -1.
Proof. vm_compute. repeat split; reflexivity. Qed.
(* two locals in the frame, one of them in an inner block *)
Example C53_ex : match outOf (compile false false (codes "int f(int a, int b) { int x = b; { int y = a; x = y; } { int z = x; x = z; } return x; } ")) with
  | [_; ACode c] => frame c = Some 2 /\ In (IStLoc 2) c /\ In (ILdPrm 2) c
  | _ => False
  end.
Proof. vm_compute. repeat split; tauto. Qed.

(* the body of an accepted function does not leave by break or continue, with -O too; that the
   body is the one written: Properties_Source.v *)
Theorem C10_accepted (opt krn : bool) (file : list Z) l a c b : compile opt krn file = COut l -> l = a ++ ACode c :: b ->
  exists a' fi tbl body body' d lb lb' c0, a = a' ++ [ANam fi] /\
    (if opt then optTree body = Ok body' else body' = body) /\
    genFunc (namesOf tbl) body' d krn (typeAt tbl fi =? TyINTR) lb = Some (c0, lb') /\ c = map (printed tbl) c0 /\
    forall (M : machine) (N : names) sw n st o st', run M N sw body n st = Done o st' -> o <> OBrk /\ o <> OCnt.
Proof.
  intros H E. destruct (compile_TI _ _ _ _ H) as (toks & g & _ & <- & T).
  destruct (i_seg _ _ _ _ T _ _ _ E) as (a' & fi & -> & tbl & root & root' & d & lb & lb' & c0 & O & G & C & X & _).
  exists a', fi, tbl, root, root', d, lb, lb', c0. split; [reflexivity|]. split; [exact O|]. split; [exact G|]. split; [exact C|].
  intros M N sw n st o st' HR. exact (run_escapes M N sw _ _ _ _ _ X HR).
Qed.
Print Assumptions C10_accepted.
(* the statement parser refuses break and continue when no loop is open *)
Theorem C10_outside (krn : bool) (f : nat) (g : gs) : depth g = 0 -> gtok g = LxBREAK \/ gtok g = LxCONTINUE -> exists e, getStatF krn (S f) g = PErr e.
Proof.
  intros D [H|H]; cbn [getStatF]; rewrite H; cbn -[gGetTok gExpr]; unfold getBreak, getCont; cbn [gGetTok wE depth]; rewrite D; eexists; reflexivity.
Qed.
Print Assumptions C10_outside.
Example C10_ex : acc (compile false false (codes "void f(int x) { while (x > 0) { if (x == 3) break; for (;;) { continue; } } } ")) = 2 /\
  acc (compile false false (codes "void f(int x) { while (x > 0) { x = 3; } if (x == 3) break; } ")) = -1 /\
  acc (compile false false (codes "void f(int x) { do x = 1; while (x > 0); { continue; } } ")) = -1.
Proof. vm_compute. repeat split; reflexivity. Qed.
