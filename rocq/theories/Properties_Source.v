(* C10, C57: source files.  The grammar and the rules of the language: ParseSpec.v
   (expressions), StmtSpec.v (statements), ProgGram.v (source files). *)
From Coq Require Import ZArith Bool Lia String Ascii List.
From Verif Require Import Lexer NameTable SyTree ExprSem StmtSem OpTree VM VmBase OptFold VmCode GenLabels2 GenExpr Parser ParserStmt ParseSpec ParseSound ParseShow ParseTotal ProgTop StmtFuel StmtSpec StmtSound
  ProgGram ProgSound ProgComplete ParseUniq ProgUniq Properties_Parse Properties_Gen.
Import ListNotations.
Open Scope Z_scope.

(* ==== C57 ==== *)
(* p is a reading of the text that ends with the file: l its tokens *)
Definition reads_as (l : list item) (p : list top) : Prop :=
  exists ts, view l = ts ++ [TSym EOFtok] /\ derives_prog p ts.
(* The compiler writes o for a file exactly if the file is a source file of the grammar
   that obeys the rules and o is the output the rules give. *)
Theorem C57_accepts (opt krn : bool) (file : list Z) (l : list item) (o : list asm) :
  lexAll file = LOk l -> unmarked l ->
  (compile opt krn file = COut o <-> exists p T, reads_as l p /\ okProg opt krn tenv0 p T /\ tO T = o).
Proof.
  intros LX U. split.
  - intros H. destruct (compile_sound _ _ _ _ _ LX U H) as (p & ts & T & V & D & O & X). exists p, T. split; [exists ts; auto|auto].
  - intros (p & T & (ts & V & D) & O & <-). exact (compile_complete _ _ _ _ _ _ _ LX U V D O).
Qed.
Print Assumptions C57_accepts.
(* a text has one reading; normT only identifies the two ways to see null or a string given
   as an initial value, as a value and as an expression *)
Theorem C57_one_reading (l : list item) (p p' : list top) : reads_as l p -> reads_as l p' -> map normT p = map normT p'.
Proof.
  intros (ts & V & D) (ts' & V' & D'). rewrite V in V'. apply app_inj_tail in V'. destruct V' as [<- _]. exact (prog_unique _ _ D _ D').
Qed.
Print Assumptions C57_one_reading.
(* in particular the functions are the same, body and all *)
Corollary C57_one_body (l : list item) (p p' : list top) pub t d nm ps k b :
  reads_as l p -> reads_as l p' -> In (PFunc pub t d nm ps k b) p -> In (PFunc pub t d nm ps k b) p'.
Proof.
  intros R R' I. pose proof (C57_one_reading _ _ _ R R') as E. apply (in_map normT) in I. rewrite E in I. apply in_map_iff in I.
  destruct I as (x & X & I). destruct x; cbn [normT] in X; try discriminate X. congruence.
Qed.
Print Assumptions C57_one_body.
(* two files with the same tokens are compiled alike: blanks, comments, line markers and the
   way numbers are written do not matter *)
Theorem C57_tokens (opt krn : bool) (file1 file2 : list Z) (l1 l2 : list item) (o : list asm) :
  lexAll file1 = LOk l1 -> unmarked l1 -> lexAll file2 = LOk l2 -> unmarked l2 -> view l1 = view l2 ->
  compile opt krn file1 = COut o -> compile opt krn file2 = COut o.
Proof.
  intros L1 U1 L2 U2 V H. apply (C57_accepts _ _ _ _ _ L1 U1) in H. apply (C57_accepts _ _ _ _ _ L2 U2).
  destruct H as (p & T & (ts & E & D) & O & X). exists p, T. split; [exists ts; rewrite <- V; auto|auto].
Qed.
Print Assumptions C57_tokens.

Definition src : list Z := codes "struct P { int x; char[] s; }; P[] q = {{1, ""a""}, null}; int[] a = array(3), b; int g(int n, ...); public int f(int n) { int s = 0; for (int i = 0; i < n; i = i + 1) { if (a[i] == 3) break; else s = s + g(1, 2); } return s; } ".
Definition src' : list Z := codes "struct P{int x;char[]s;};/* */ P[]q={{0x1,""a""},null};int[]a=array(3),b;int g(int n,...);
public int f(int n){int s=0;for(int i=0;i<n;i=i+1){if(a[i]==03)break;else s=s+g(1,2);}return s;}".
Definition outOf (r : cres) : list asm := match r with COut l => l | _ => [] end.
Example C57_ex : lexAll src = LOk (lexed src) /\ unmarked (lexed src) /\ compile true false src = COut (outOf (compile true false src)) /\
  List.length (outOf (compile true false src)) = 18%nat /\
  lexAll src' = LOk (lexed src') /\ unmarked (lexed src') /\ view (lexed src) = view (lexed src') /\ src <> src'.
Proof.
  split; [vm_compute; reflexivity|]. split; [apply unmarkedb_ok; vm_compute; reflexivity|]. split; [vm_compute; reflexivity|]. split; [vm_compute; reflexivity|].
  split; [vm_compute; reflexivity|]. split; [apply unmarkedb_ok; vm_compute; reflexivity|]. split; [vm_compute; reflexivity|].
  intros H. apply (f_equal (@List.length Z)) in H. vm_compute in H. discriminate H.
Qed.
(* so src has a reading that obeys the rules *)
Example C57_ex_reading : exists p T, reads_as (lexed src) p /\ okProg true false tenv0 p T.
Proof.
  destruct C57_ex as (L & U & C & _). destruct (proj1 (C57_accepts _ _ _ _ _ L U) C) as (p & T & R & O & _). eauto.
Qed.

(* The manual has no comma after the last parameter (doc/syntax.tex:37); the compiler takes it. *)
Definition ends_comma (x : top) : Prop := match x with PFunc _ _ _ _ _ PComma _ => True | _ => False end.
Definition comma_src : list Z := codes "void f(int a,) { } ".
Definition comma_prog : list top := [PFunc false TnVoid 0 (codes "f") [(TnInt, O, codes "a")] PComma (Some QNil)].
Definition comma_toks : list stok := Eval vm_compute in removelast (view (lexed comma_src)).
Lemma comma_reads : reads_as (lexed comma_src) comma_prog.
Proof.
  exists comma_toks. split; [vm_compute; reflexivity|].
  apply (dpr_cons _ [] comma_toks []); [|constructor].
  exact (dt_func false TnVoid 0 (codes "f") [(TnInt, O, codes "a")] PComma (Some QNil) _ _ (dp_comma _) (db_some _ _ qd_nil)).
Qed.
Theorem C57_comma_refuted : exists file l o p, lexAll file = LOk l /\ unmarked l /\ compile true false file = COut o /\ reads_as l p /\
  forall p', reads_as l p' -> exists x, In x p' /\ ends_comma x.
Proof.
  exists comma_src, (lexed comma_src), (outOf (compile true false comma_src)), comma_prog. split; [vm_compute; reflexivity|].
  split; [apply unmarkedb_ok; vm_compute; reflexivity|]. split; [vm_compute; reflexivity|]. split; [exact comma_reads|].
  intros p' R. eexists. split; [|exact (Logic.I : ends_comma (PFunc false TnVoid 0 (codes "f") [(TnInt, O, codes "a")] PComma (Some QNil)))].
  apply (C57_one_body _ _ _ _ _ _ _ _ _ _ comma_reads R). left. reflexivity.
Qed.
Print Assumptions C57_comma_refuted.

(* ==== C10 ==== *)
(* a function of p has a break or continue outside its loops *)
Definition has_stray (p : list top) : Prop := exists pub t d nm ps k q, In (PFunc pub t d nm ps k (Some q)) p /\ strayQ q = true.
Lemma okProg_stray opt krn T p T' : okProg opt krn T p T' -> ~ has_stray p.
Proof.
  induction 1 as [T|T x T1 p T2 H HP IH]; intros (pub & t & d & nm & ps & k & q & I & S).
  - destruct I.
  - destruct I as [E|I].
    + subst x. inversion H; subst. match goal with O : okQ _ _ false _ _ q _ _ |- _ => pose proof (proj2 (ok_stray _ _) _ _ _ _ _ _ O eq_refl) as X end. congruence.
    + apply IH. exists pub, t, d, nm, ps, k, q. auto.
Qed.
Theorem C10_rejected (opt krn : bool) (file : list Z) (l : list item) (p : list top) :
  lexAll file = LOk l -> unmarked l -> reads_as l p -> has_stray p -> forall o, compile opt krn file <> COut o.
Proof.
  intros LX U R (pub & t & d & nm & ps & k & q & I & S) o H. apply (C57_accepts _ _ _ _ _ LX U) in H. destruct H as (p' & T & R' & O & _).
  apply (okProg_stray _ _ _ _ _ O). exists pub, t, d, nm, ps, k, q. split; [|exact S]. exact (C57_one_body _ _ _ _ _ _ _ _ _ _ R R' I).
Qed.
Print Assumptions C10_rejected.
(* { while (n) ; if (n) break; } *)
Definition stray_src : list Z := codes "void f(boolean n) { while (n) ; if (n) break; } ".
Definition nAst : ast := AName (codes "n").
Definition stray_prog : list top := [PFunc false TnVoid 0 (codes "f") [(TnBool, O, codes "n")] PEnd
  (Some (QStat (BWhile nAst BEmpty) (QStat (BIf nAst BBreak) QNil)))].
Definition stray_toks : list stok := Eval vm_compute in removelast (view (lexed stray_src)).
Lemma d13 k e ts : (k <= 13)%nat -> derives 13 e ts -> derives k e ts.
Proof. intros L D. exact (up13 _ _ _ D L). Qed.
Example C10_rejected_ex : lexAll stray_src = LOk (lexed stray_src) /\ unmarked (lexed stray_src) /\ reads_as (lexed stray_src) stray_prog /\ has_stray stray_prog.
Proof.
  split; [vm_compute; reflexivity|]. split; [apply unmarkedb_ok; vm_compute; reflexivity|]. split.
  - exists stray_toks. split; [vm_compute; reflexivity|].
    apply (dpr_cons _ [] stray_toks []); [|constructor].
    assert (derives 0 nAst [TName (codes "n")]) as N by (apply d13; [lia|constructor]).
    exact (dt_func false TnVoid 0 (codes "f") [(TnBool, O, codes "n")] PEnd _ _ _ (dp_last _)
      (db_some _ _ (qd_stat _ _ _ _ (sd_any _ _ (sd_while _ _ _ _ _ N sd_empty)) (qd_stat _ _ _ _ (sd_if _ _ _ _ N (sd_any _ _ sd_break)) qd_nil)))).
  - repeat eexists; [left; reflexivity|reflexivity].
Qed.

(* Inside a loop: a break in the body ends this loop, in the state it was reached in, and a
   continue goes on to its next round; for the code generated for the loop, in any program
   around it. *)
Section Loops.
Variables (M : machine) (N : names) (p : code) (k : nat) (s : stmt) (ps : pos) (g : labs) (c : code) (g' : labs) (stk args : list Z) (reg : option Z).
Hypothesis linked : well_linked p.
Hypothesis here : code_at p k c.
Hypothesis fresh : wfg g.
Hypothesis made : genS N s ps g = Some (c, g').
(* from the start of the loop to its end *)
Definition loops (st st' : state M) : Prop := reaches M p (Cfg k stk args reg st) (Cfg (k + length c) stk args reg st').
Lemma loops_run st st' : terminates M N cg_order s st ONorm st' -> loops st st'.
Proof. intros [n T]. pose proof (C20_statement M N p k s ps g c g' stk args reg st n linked here fresh made) as H. rewrite T in H. exact H. Qed.
Theorem C10_while_break cond body re st st1 st2 : s = SWhl cond body re ->
  test M N cg_order cond st = Some (true, st1) -> terminates M N cg_order body st1 OBrk st2 -> loops st st2.
Proof. intros E T B. apply loops_run. rewrite E. exact (while_break _ _ _ _ _ _ _ _ _ T B). Qed.
Theorem C10_while_continue cond body re st st1 st2 st3 st4 : s = SWhl cond body re ->
  test M N cg_order cond st = Some (true, st1) -> terminates M N cg_order body st1 OCnt st2 -> effect M N cg_order re st2 = Some st3 ->
  terminates M N cg_order s st3 ONorm st4 -> loops st st4.
Proof. intros E T B R W. apply loops_run. rewrite E in *. exact (while_round _ _ _ _ _ _ _ _ _ _ _ _ T (or_intror B) R W). Qed.
Theorem C10_do_break cond body st st1 : s = SDo body cond -> terminates M N cg_order body st OBrk st1 -> loops st st1.
Proof. intros E B. apply loops_run. rewrite E. exact (do_break _ _ _ _ _ _ _ B). Qed.
Theorem C10_do_continue cond body st st1 st2 b st3 : s = SDo body cond ->
  terminates M N cg_order body st OCnt st1 -> test M N cg_order cond st1 = Some (b, st2) ->
  (if b then terminates M N cg_order s st2 ONorm st3 else st3 = st2) -> loops st st3.
Proof.
  intros E B T W. apply loops_run. rewrite E in *. destruct b.
  - exact (do_round _ _ _ _ _ _ _ _ _ _ (or_intror B) T W).
  - subst st3. exact (do_last _ _ _ _ _ _ _ _ (or_intror B) T).
Qed.
End Loops.
Print Assumptions C10_while_break.
Print Assumptions C10_while_continue.
Print Assumptions C10_do_break.
Print Assumptions C10_do_continue.
(* while (true) { while (true) break; break; }: both breaks, each leaving its own loop *)
Definition twoLoops : stmt := SWhl ENull (SSemi (SWhl ENull SBrk ENull) SBrk) ENull.
Definition twoCode : code := match genS demoN twoLoops PInner (Labs 10 (-1) (-1) (-1)) with Some (c, _) => c | None => [] end.
Definition twoLabs : labs := match genS demoN twoLoops PInner (Labs 10 (-1) (-1) (-1)) with Some (_, g) => g | None => Labs 0 0 0 0 end.
Example C10_loops_ex : well_linked twoCode /\ code_at twoCode 0 twoCode /\ genS demoN twoLoops PInner (Labs 10 (-1) (-1) (-1)) = Some (twoCode, twoLabs) /\
  wfg (Labs 10 (-1) (-1) (-1)) /\ test demoM demoN cg_order ENull (demoS 0) = Some (true, demoS 0) /\
  terminates demoM demoN cg_order (SSemi (SWhl ENull SBrk ENull) SBrk) (demoS 0) OBrk (demoS 0) /\ length twoCode = 7%nat.
Proof.
  split; [split; [vm_compute; repeat (apply NoDup_cons; [cbn; intuition discriminate|]); apply NoDup_nil|vm_compute; intuition]|]. split; [exists [], []; split; [rewrite app_nil_r; reflexivity|reflexivity]|].
  split; [vm_compute; reflexivity|]. split; [vm_compute; intuition discriminate|]. split; [reflexivity|]. split; [exists 1%nat; reflexivity|vm_compute; reflexivity].
Qed.

(* With -O a do loop that runs once is unwrapped and its break then leaves the loop around
   it: the first text is compiled as the second. *)
Definition do_src : list Z := codes "void f(int x) { while (x > 0) { do { if (x == 3) break; } while (false); x = x - 1; } } ".
Definition while_src : list Z := codes "void f(int x) { while (x > 0) { { if (x == 3) break; } x = x - 1; } } ".
Theorem C10_do_refuted : exists o, compile true false do_src = COut o /\ compile true false while_src = COut o /\ compile false false do_src <> compile false false while_src.
Proof. exists (outOf (compile true false do_src)). split; [vm_compute; reflexivity|]. split; [vm_compute; reflexivity|]. vm_compute. discriminate. Qed.
Print Assumptions C10_do_refuted.
