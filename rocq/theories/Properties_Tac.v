(* C25-C28, C55: the TaC back end. *)
From Coq Require Import ZArith Bool Lia String Ascii List.
From Verif Require Import Lexer NameTable Word WordProofs SyTree ExprSem VM VmCode VmBase TacSpec Tac TacSafe TacInv TacInv2 TacSim TacRun TacFrame TacFunc TacFrom TacPend TacToy Parser ParserStmt ProgTop.
Import ListNotations.
Open Scope Z_scope.

(* ---- C25: accumulators ---- *)
(* after any sequence of instructions (local variables are numbered from 1),
   the entries of the virtual stack use different accumulators, all of them
   G0-G2 and all marked as taken *)
Theorem C25_distinct : forall strict ord depth np p n c s,
  (forall k, In (VI (ILdLoc k)) p \/ In (VI (IStLoc k)) p -> 1 <= k) ->
  tac strict ord depth np p (tinit n) = Some (c, s) ->
  (forall i j e e' a, i <> j -> nth_error (vst s) i = Some e -> nth_error (vst s) j = Some e' -> accOf e = Some a -> accOf e' <> Some a) /\
  (forall i e a, nth_error (vst s) i = Some e -> accOf e = Some a -> 0 <= a < 3 /\ nth (Z.to_nat a) (bsy s) false = true) /\
  (* an accumulator marked as taken belongs to an entry *)
  (forall a, 0 <= a < 3 -> nth (Z.to_nat a) (bsy s) false = true -> exists i e, nth_error (vst s) i = Some e /\ accOf e = Some a).
Proof.
  intros strict ord depth np p n c s Hp H.
  assert (So : Forall slotOk p).
  { apply Forall_forall. intros v I. destruct v as [[]|]; cbn [slotOk]; try exact Logic.I; apply Hp; auto. }
  pose proof (tac_WF _ _ _ _ _ _ _ _ So (tinit_WF n) H) as Wf.
  destruct (wf_acc _ Wf) as [[_ [N [R B]]] _].
  assert (In1 : forall i e a, nth_error (vst s) i = Some e -> accOf e = Some a -> In a (accs (vst s))).
  { intros i e a E F. unfold accs. apply in_flat_map. exists e. split; [exact (nth_error_In _ _ E)|]. unfold accE. rewrite F. left. reflexivity. }
  split; [|split].
  - intros i j e e' a D E E' F F'. apply (excl s i e a Wf E F j e' (fun x => D (eq_sym x)) E'). unfold accE. rewrite F'. left. reflexivity.
  - intros i e a E F. pose proof (R a (In1 _ _ _ E F)) as Ra. split; [exact Ra|]. apply (B a Ra). exact (In1 _ _ _ E F).
  - intros a Ra Bs. apply (B a Ra) in Bs. unfold accs in Bs. apply in_flat_map in Bs. destruct Bs as [e [I J]].
    apply In_nth_error in I. destruct I as [i E]. exists i, e. split; [exact E|]. unfold accE in J. destruct (accOf e); [|contradiction]. destruct J as [->|[]]. reflexivity.
Qed.
Print Assumptions C25_distinct.
(* f() + (a*b + (c*d + e*g)) : three products are live, f's result is saved *)
Definition deep : list vop :=
  [VI (ICallF 0 9); VI (ILdGlb 1); VI (ILdGlb 2); VI (IBin MUL); VI (ILdGlb 3); VI (ILdGlb 4); VI (IBin MUL);
   VI (ILdGlb 5); VI (ILdGlb 6); VI (IBin MUL)].
Example C25_distinct_ex : exists c s, tac false false 0 0 deep (tinit 0) = Some (c, s) /\ vst s = [XAcc 0; XAcc 2; XAcc 1; XStk].
Proof. eexists. eexists. split; [vm_compute; reflexivity|reflexivity]. Qed.

(* when an accumulator is taken over, the value of the entry that had it is
   written below the stack pointer; everything else is as before *)
Theorem C25_takeover : forall M (Hw : hw M) strict ord depth np p n c0 s c s' (t : mst M),
  (forall k, In (VI (ILdLoc k)) p \/ In (VI (IStLoc k)) p -> 1 <= k) ->
  tac strict ord depth np p (tinit n) = Some (c0, s) -> outStk strict s = Some (c, s') ->
  exists o e a v t', nth_error (vst s) o = Some e /\ accOf e = Some a /\ entVal M (fcc s) t e = Some v /\
    (* the entry is now on the real stack *)
    vst s' = put (vst s) o XStk /\
    (forall pre post, NoDup (tdefs (pre ++ c ++ post)) ->
       treaches M Hw (pre ++ c ++ post) (TCfg (length pre) t) (TCfg (length pre + length c) t')) /\
    sp t' = sp t - 2 /\ sm t' (sp t - 2) = v /\ (forall x, x <> sp t - 2 -> sm t' x = sm t x) /\
    (forall r, r <> a -> gr t' r = gr t r) /\ fp t' = fp t /\ tg t' = tg t /\ zf t' = zf t /\ lf t' = lf t.
Proof.
  intros M Hw strict ord depth np p n c0 s c s' t Hp H O.
  assert (So : Forall slotOk p).
  { apply Forall_forall. intros v I. destruct v as [[]|]; cbn [slotOk]; try exact Logic.I; apply Hp; auto. }
  pose proof (tac_WF _ _ _ _ _ _ _ _ So (tinit_WF n) H) as Wf.
  destruct (takeover M Hw strict s c s' t Wf O) as [o [e [a [v [t' [A1 [A2 [A3 [A4 [A5 A6]]]]]]]]]].
  exists o, e, a, v, t'. split; [exact A1|]. split; [exact A2|]. split; [exact A3|]. split; [exact A4|]. split; [|exact A6].
  intros pre post N. exact (Ex_run M Hw _ _ _ A5 pre post N).
Qed.
Print Assumptions C25_takeover.
(* taken over: a comparison kept in the flags *)
Example C25_takeover_ex : exists c0 s c s', tac false false 0 0 [VI (ILdGlb 1); VI (ILdGlb 2); VI (IBin LT)] (tinit 0) = Some (c0, s) /\
  outStk false s = Some (c, s') /\ c = [TLd 0 (OImm 1); TJcc JLT (LbT 0); TLd 0 (OImm 0); TLab (LbT 0); TPush 0].
Proof. do 4 eexists. split; [vm_compute; reflexivity|]. split; [vm_compute; reflexivity|reflexivity]. Qed.

(* ---- C26: powers of two ---- *)
(* x * 2^n and 2^n * x with x the first parameter, as translated, compute the product *)
Theorem C26_multiply : forall M (Hw : hw M) ord depth np k n (t : mst M), 1 <= n <= 14 ->
  forall p, p = [VI (ILdPrm 0); VI (ILdCns (2 ^ n)); VI (IBin MUL)] \/ p = [VI (ILdCns (2 ^ n)); VI (ILdPrm 0); VI (IBin MUL)] ->
  exists c s t', tac false ord depth np p (tinit k) = Some (c, s) /\ vst s = [XAcc 0] /\
    ~ In (TAlu AMul 0 (OImm (2 ^ n))) c /\
    treaches M Hw c (TCfg 0 t) (TCfg (length c) t') /\ gr t' 0 = w_mul (sm t (fp t + 4)) (2 ^ n).
Proof.
  intros M Hw ord depth np k n t Hn p Hp.
  destruct (pow_code ord depth np k n Hn) as [[s1 [A1 V1]] [[s2 [A2 V2]] _]].
  destruct (two_run M Hw AShl n t) as [t' [X G1]].
  assert (G2 : gr t' 0 = w_mul (sm t (fp t + 4)) (2 ^ n)).
  { rewrite G1. cbn [alu_val]. rewrite (w16_id n) by (unfold is_word; lia). reflexivity. }
  assert (Ni : ~ In (TAlu AMul 0 (OImm (2 ^ n))) [TLd 0 (OFp 4); TAlu AShl 0 (OImm n)]) by (intros [E|[E|[]]]; discriminate E).
  destruct Hp as [-> | ->]; [exists [TLd 0 (OFp 4); TAlu AShl 0 (OImm n)], s1, t'|exists [TLd 0 (OFp 4); TAlu AShl 0 (OImm n)], s2, t']; auto.
Qed.
Print Assumptions C26_multiply.
Example C26_multiply_ex : exists c s, tac false false 0 1 [VI (ILdCns 8); VI (ILdPrm 0); VI (IBin MUL)] (tinit 0) = Some (c, s) /\ c = [TLd 0 (OFp 4); TAlu AShl 0 (OImm 3)].
Proof. eexists. eexists. split; [vm_compute; reflexivity|reflexivity]. Qed.

(* x / 2^n and x % 2^n: right exactly for non-negative x and for multiples *)
Theorem C26_divide_partial : forall M (Hw : hw M) ord depth np k n (t : mst M), 1 <= n <= 14 -> is_word (sm t (fp t + 4)) ->
  exists c s t' q, tac false ord depth np [VI (ILdPrm 0); VI (ILdCns (2 ^ n)); VI (IBin DIV)] (tinit k) = Some (c, s) /\ vst s = [XAcc 0] /\
    treaches M Hw c (TCfg 0 t) (TCfg (length c) t') /\ gr t' 0 = q /\
    (w_div (sm t (fp t + 4)) (2 ^ n) = Some q <-> sm t (fp t + 4) < 32768 \/ sm t (fp t + 4) mod 2 ^ n = 0).
Proof.
  intros M Hw ord depth np k n t Hn Hx. destruct (pow_code ord depth np k n Hn) as [_ [_ [[s [A V]] _]]].
  destruct (two_run M Hw AShr n t) as [t' [X G1]].
  exists [TLd 0 (OFp 4); TAlu AShr 0 (OImm n)], s, t', (gr t' 0). split; [exact A|]. split; [exact V|]. split; [exact X|]. split; [reflexivity|].
  rewrite G1. cbn [alu_val]. rewrite (w16_id n) by (unfold is_word; lia). exact (quot_pow _ _ Hx Hn).
Qed.
Print Assumptions C26_divide_partial.
Theorem C26_remainder_partial : forall M (Hw : hw M) ord depth np k n (t : mst M), 1 <= n <= 14 -> is_word (sm t (fp t + 4)) ->
  exists c s t' q, tac false ord depth np [VI (ILdPrm 0); VI (ILdCns (2 ^ n)); VI (IBin MOD)] (tinit k) = Some (c, s) /\ vst s = [XAcc 0] /\
    treaches M Hw c (TCfg 0 t) (TCfg (length c) t') /\ gr t' 0 = q /\
    (w_mod (sm t (fp t + 4)) (2 ^ n) = Some q <-> sm t (fp t + 4) < 32768 \/ sm t (fp t + 4) mod 2 ^ n = 0).
Proof.
  intros M Hw ord depth np k n t Hn Hx. destruct (pow_code ord depth np k n Hn) as [_ [_ [_ [s [A V]]]]].
  destruct (two_run M Hw AAnd (2 ^ n - 1) t) as [t' [X G1]].
  exists [TLd 0 (OFp 4); TAlu AAnd 0 (OImm (2 ^ n - 1))], s, t', (gr t' 0). split; [exact A|]. split; [exact V|]. split; [exact X|]. split; [reflexivity|].
  rewrite G1. cbn [alu_val]. unfold w_and.
  assert (P : is_word (2 ^ n - 1)).
  { unfold is_word. apply upto14 in Hn. destruct Hn as [->|[->|[->|[->|[->|[->|[->|[->|[->|[->|[->|[->|[-> | ->]]]]]]]]]]]]]; vm_compute; split; congruence. }
  rewrite (w16_id _ P). exact (rem_pow _ _ Hx Hn).
Qed.
Print Assumptions C26_remainder_partial.
Example C26_divide_ex : is_word 65535 /\ w_div 65535 2 = Some 0 /\ ~ (65535 < 32768 \/ 65535 mod 2 = 0) /\ w_div 65534 2 = Some 65535 /\ 65534 mod 2 = 0.
Proof. repeat split; try reflexivity; try discriminate. intros [H|H]; discriminate H. Qed.

(* ---- execution of source texts ---- *)
(* the function is accepted by the compiler, the virtual machine returns a value
   from it, and the TaC code returns with another value in G0 *)
Definition miscompiled (ord : bool) (file : list Z) : Prop :=
  exists l code e p C s, compile true false file = COut l /\ In (ACode code) l /\ vops code = VI e :: p /\
    tac false ord 0 0 (VI e :: p) (tinit 0) = Some (C, s) /\
    exists M (Hw : hw M) depth np t0 m0 k cf v kt t', flat M /\ hwOk M Hw ord /\ begins M e depth np t0 m0 /\
      fsteps M (map from0 code) k (Cfg 0 [] [] None m0) cf /\ at_ret M (map from0 code) cf /\ reg cf = Some v /\
      treaches M Hw C (TCfg 0 t0) (TCfg kt t') /\ nth_error C kt = Some TRet /\ gr t' 0 <> v.

Definition outOf (r : cres) : list asm := match r with COut l => l | _ => [] end.
Definition codeOf (l : list asm) : code := match filter (fun a => match a with ACode _ => true | _ => false end) l with ACode c :: _ => c | _ => [] end.
Definition args2 (a b : Z) : state toy := State (M := toy) (fun i => 40 + i) (fun _ => 0) (fun i => if i =? 0 then a else b).
Definition isRet (i : option instr) := match i with Some IRet => true | _ => false end.
Definition isTRet (i : option tin) := match i with Some TRet => true | _ => false end.
Definition accepted (r : cres) := match r with COut _ => true | _ => false end.
(* results of the virtual machine and of TaC *)
Definition both (ord : bool) (H : hw toy) (file : list Z) (m : state toy) : option (Z * Z) :=
  let r := compile true false file in
  let code := codeOf (outOf r) in
  match vops code with
  | VI e :: p =>
      match tac false ord 0 0 (VI e :: p) (tinit 0) with
      | Some (C, _) =>
          let c0 := Cfg 0 [] [] None m in let t0 := TCfg 0 (start e m) in
          match frun (fstop 900 (map from0 code) c0) (map from0 code) c0, trun H (tstop H 900 C t0) C t0 with
          | Some c1, Some t1 =>
              match reg c1 with
              | Some v => if accepted r && isRet (nth_error (map from0 code) (pc c1)) && isTRet (nth_error C (tpc t1)) then Some (v, gr (ms t1) 0) else None
              | None => None
              end
          | _, _ => None
          end
      | None => None
      end
  | _ => None
  end.
Lemma codeOf_In : forall l c, c <> [] -> codeOf l = c -> In (ACode c) l.
Proof.
  intros l c N. unfold codeOf. destruct (filter _ l) as [|a q] eqn:F; [intros <-; contradiction|].
  assert (I : In a (filter (fun a => match a with ACode _ => true | _ => false end) l)) by (rewrite F; left; reflexivity).
  apply filter_In in I. destruct a; intros E; try congruence. subst. exact (proj1 I).
Qed.
Lemma isRet_eq : forall x, isRet x = true -> x = Some IRet.
Proof. intros [[]|] H; try discriminate H; reflexivity. Qed.
Lemma isTRet_eq : forall x, isTRet x = true -> x = Some TRet.
Proof. intros [[]|] H; try discriminate H; reflexivity. Qed.
Lemma both_wrong : forall ord H file m v w, hwOk toy H ord -> both ord H file m = Some (v, w) -> w <> v -> miscompiled ord file.
Proof.
  intros ord H file m v w Ho B D. unfold both in B.
  destruct (compile true false file) as [l| | |] eqn:Ec; cbn [outOf accepted] in B; try (destruct (vops (codeOf [])) as [|[e|] p]; [discriminate B| |discriminate B]; destruct (tac _ _ _ _ _ _) as [[C s]|]; [|discriminate B];
    destruct (frun _ _ _) as [c1|]; [|discriminate B]; destruct (trun _ _ _ _) as [t1|]; [|discriminate B]; destruct (reg c1); discriminate B).
  destruct (vops (codeOf l)) as [|[e|] p] eqn:Ev; [discriminate B| |discriminate B].
  destruct (tac false ord 0 0 (VI e :: p) (tinit 0)) as [[C s]|] eqn:Et; [|discriminate B].
  set (P := map from0 (codeOf l)) in *. set (c0 := Cfg 0 [] [] None m) in *. set (t0 := TCfg 0 (start e m)) in *. set (nf := fstop 900 P c0) in *. set (nt := tstop H 900 C t0) in *.
  destruct (frun nf P c0) as [c1|] eqn:Ef; [|discriminate B]. destruct (trun H nt C t0) as [t1|] eqn:Er; [|discriminate B].
  destruct (reg c1) as [v'|] eqn:Eg; [|discriminate B]. destruct (_ && _) eqn:Ck; [|discriminate B].
  apply andb_true_iff in Ck. destruct Ck as [Ck1 Ck2]. apply andb_true_iff in Ck1. destruct Ck1 as [_ Ck1]. injection B as <- <-.
  exists l, (codeOf l), e, p, C, s. split; [exact Ec|]. split; [apply codeOf_In; [intros E; rewrite E in Ev; discriminate Ev|reflexivity]|].
  split; [exact Ev|]. split; [exact Et|].
  exists toy, H, 0, 0, (start e m), m, nf, c1, v', (tpc t1), (ms t1).
  split; [exact toy_flat|]. split; [exact Ho|]. split; [apply start_begins|]. split; [exact (frun_ok _ _ _ _ _ Ef)|].
  split; [left; exact (isRet_eq _ Ck1)|]. split; [exact Eg|].
  split; [pose proof (trun_ok _ _ _ _ _ _ Er) as X; destruct t1; exact X|]. split; [exact (isTRet_eq _ Ck2)|exact D].
Qed.

Lemma both_differ : forall ord H file m, hwOk toy H ord ->
  match both ord H file m with Some (v, w) => negb (w =? v) | None => false end = true -> miscompiled ord file.
Proof.
  intros ord H file m Ho B. destruct (both ord H file m) as [[v w]|] eqn:E; [|discriminate B].
  apply (both_wrong ord H file m v w Ho E). apply negb_true_iff in B. apply Z.eqb_neq in B. exact B.
Qed.

(* ---- C28: pending operands ---- *)
(* a - f() where f changes a; a[i] - (a[i] = j); x - (x = j) for a local variable in
   a register and for a parameter: the operand is read after the change *)
Definition pendTexts : list (list Z) :=
  [codes "int a; int f(); int g() { return a - f(); } ";
   codes "int[] a; int f(int i, int j) { return a[i] - (a[i] = j); } ";
   codes "int f(int i, int j) { int x = i; return x - (x = j); } ";
   codes "int f(int i, int j) { return i - (i = j); } "].
Theorem C28_refuted : Forall (miscompiled true) pendTexts.
Proof.
  repeat (apply Forall_cons; [|]); try apply Forall_nil; apply (both_differ true hwS _ (args2 3 5) (hwS_ok true)); vm_compute; reflexivity.
Qed.
Print Assumptions C28_refuted.

(* what holds: in a function without jumps for which the translator's guards are
   met (see TacSafe.v), every entry of the virtual stack stands, after each
   instruction, for the value the virtual machine has there. [p] is any prefix
   of the instructions after the entry. *)
Theorem C28_pending_partial : forall M (Hw : hw M) ord depth np n e p c s t0 m0 cf,
  flat M -> hwOk M Hw ord -> entryOK depth np e = true ->
  forallb straight p = true -> (forall k, In (ILdLoc k) p \/ In (IStLoc k) p -> 1 <= k) ->
  tac true ord depth np (VI e :: map VI p) (tinit n) = Some (c, s) -> NoDup (tdefs c) -> begins M e depth np t0 m0 ->
  fsteps M (e :: p) (S (length p)) (Cfg 0 [] [] None m0) cf ->
  exists t', treaches M Hw c (TCfg 0 t0) (TCfg (length c) t') /\
    Forall2 (fun x v => x = XStk \/ entVal M (fcc s) t' x = Some v) (vst s) (stk cf).
Proof.
  intros M Hw ord depth np n e p c s t0 m0 cf Hfl Hhw He St Hp Tc N Bg Fs.
  assert (So : Forall slotOk (map VI p)).
  { apply Forall_forall. intros v I. apply in_map_iff in I. destruct I as [i [<- I]]. destruct i; cbn [slotOk]; try exact Logic.I; apply Hp; auto. }
  destruct (pending M Hw ord depth np n e p c s t0 m0 cf Hfl Hhw He St So Tc Bg Fs) as [t' [X D]].
  exists t'. split; [|exact D]. pose proof (Ex_run M Hw _ _ _ X [] []) as R. cbn [app length Nat.add] in R. rewrite app_nil_r in R. exact (R N).
Qed.
Print Assumptions C28_pending_partial.
(* x * a[i] + f(y) pending over a store to another local *)
Definition pendCode : code := [ILdLoc 1; ILdGlb 2; ILdPrm 0; ILdWrd; IBin MUL; ILdPrm 1; IArg; ICallF 1 9; ILdLoc 2; IStLoc 3; IPop].
Example C28_pending_ex : exists c s cf, tac true false 3 2 (VI (IEntry 3) :: map VI pendCode) (tinit 0) = Some (c, s) /\ NoDup (tdefs c) /\
  forallb straight pendCode = true /\ vst s = [XAcc 0; XStk] /\
  fsteps toy (IEntry 3 :: pendCode) (S (length pendCode)) (Cfg 0 [] [] None (args2 3 5)) cf.
Proof.
  eexists. eexists. eexists. split; [vm_compute; reflexivity|]. split; [vm_compute; constructor|]. split; [reflexivity|]. split; [reflexivity|].
  apply frun_ok. reflexivity.
Qed.

(* ---- C55: whole functions ---- *)
(* For a function that passes the check [safe], and any run of it on the virtual
   machine with truth values 0 or 1 and non-negative quotients, the TaC code
   returns with the same globals and result, and with the caller's registers and
   stack restored. *)
Theorem C55_function_partial : forall M (Hw : hw M) ord depth np n e p, flat M -> hwOk M Hw ord ->
  safe ord depth np n e p = true ->
  exists C s, tac false ord depth np (VI e :: p) (tinit n) = Some (C, s) /\
  forall t0 m0 k cf, begins M e depth np t0 m0 ->
    fsteps M (expand (VI e :: p)) k (Cfg 0 [] [] None m0) cf -> at_ret M (expand (VI e :: p)) cf ->
    exists kt t', treaches M Hw C (TCfg 0 t0) (TCfg kt t') /\ nth_error C kt = Some (if isIntr e then TRetI else TRet) /\
      returned M e np (reg cf) (mem cf) t0 t'.
Proof. intros M Hw ord depth np n e p Hfl Hhw Sf. exact (function_run M Hw ord depth np Hfl Hhw n e p Sf). Qed.
Print Assumptions C55_function_partial.

(* the same from the source text: [code] is what the compiler prints for the
   virtual machine *)
Theorem C55_text_partial : forall opt krn file l code e p M (Hw : hw M) ord depth np n,
  compile opt krn file = COut l -> In (ACode code) l -> vops code = VI e :: p ->
  flat M -> hwOk M Hw ord -> safe ord depth np n e p = true ->
  exists C s, tac false ord depth np (vops code) (tinit n) = Some (C, s) /\
  forall t0 m0 k cf, begins M e depth np t0 m0 ->
    fsteps M (map from0 code) k (Cfg 0 [] [] None m0) cf -> at_ret M (map from0 code) cf ->
    exists kt t', treaches M Hw C (TCfg 0 t0) (TCfg kt t') /\ nth_error C kt = Some (if isIntr e then TRetI else TRet) /\
      returned M e np (reg cf) (mem cf) t0 t'.
Proof.
  intros opt krn file l code e p M Hw ord depth np n _ _ V Hfl Hhw Sf.
  pose proof (vops_spec code) as E. rewrite V in *. rewrite <- E. exact (function_run M Hw ord depth np Hfl Hhw n e p Sf).
Qed.
Print Assumptions C55_text_partial.

(* a function with arrays, calls, loops and short-circuit conditions passes, and
   runs on the toy machine *)
Definition okText : list Z := codes "int t; int f(int x, int y); int g(int n, int k) { int s = 0; for (int i = 0; i < n && (i != k || t == 3); i = i + 1) { if (!(i == 2) && s < 100) s = s + f(i, k * 4) - t; else s = s - 1; } t = s; return s * 2 + k; } ".
Definition parts (c : code) : option (instr * list vop) := match vops c with VI e :: p => Some (e, p) | _ => None end.
Example C55_ex : match parts (codeOf (outOf (compile true false okText))) with Some (e, p) => safe false 2 2 0 e p | None => false end = true /\
  both false hwS okText (args2 9 4) = Some (65502, 65502) /\ both false hwV okText (args2 9 4) = Some (65502, 65502).
Proof. split; [vm_compute; reflexivity|split; vm_compute; reflexivity]. Qed.

(* Where the code is wrong, each time on a text the compiler accepts:
   - (a < b) == false: the comparison with false reuses the flags of a < b;
   - if (x = a < b): the jump tests flags that say less-than, not zero;
   - if (x = (x && a < b)): the jump tests the flags of the last comparison made;
   - h() + ord(p > q && k()): the result of h is pushed on one path and popped on
     both, so that the saved frame pointer is taken for it. *)
Definition badTexts : list (list Z) :=
  [codes "boolean f(int a, int b) { return (a < b) == false; } ";
   codes "int f(int a, int b) { boolean x; if (x = a < b) return 1; return 0; } ";
   codes "int f(int a, int b) { boolean x = a < 9; if (x = (x && a < b)) return 1; return 0; } "].
Theorem C55_flags_refuted : Forall (miscompiled true) badTexts.
Proof.
  repeat (apply Forall_cons; [|]); try apply Forall_nil; apply (both_differ true hwS _ (args2 5 3) (hwS_ok true)); vm_compute; reflexivity.
Qed.
Print Assumptions C55_flags_refuted.
Theorem C55_stack_refuted : miscompiled true (codes "int u(); int h(); boolean k(); int g(int p, int q) { return h() + ord(p > q && k()); } ").
Proof. apply (both_wrong true hwS _ (args2 3 5) 1 5000 (hwS_ok true)); [vm_compute; reflexivity|discriminate]. Qed.
Print Assumptions C55_stack_refuted.
(* a + b < 0 is decided by the flags of the addition; if they take overflow into
   account, as those of a comparison must, 20000 + 20000 < 0 is false here and
   true for the virtual machine *)
Theorem C55_overflow_refuted : miscompiled false (codes "int f(int a, int b) { if (a + b < 0) return 1; return 0; } ").
Proof. apply (both_wrong false hwV _ (args2 20000 20000) 1 0 hwV_ok); [vm_compute; reflexivity|discriminate]. Qed.
Print Assumptions C55_overflow_refuted.

(* ---- C27: names in initialisers ---- *)
(* vmDwName, vm2tac.c:882-885: the name printed is that of stkAux[stkPtr]. Between
   functions stkPtr is -1; [below] is whatever the word in front of the array
   holds. stkAux of an entry, vm2tac.c:146 *)
Definition auxOf (e : ent) : Z :=
  match e with
  | XCns x | XGlb x | XLoc x | XReg x | XPrm x | XLab x | XNam x | XWnd x | XByt x | XAcc x | XFlg x => x
  | XStk => 0
  end.
Definition dwName (below : Z) (s : tst) (i : Z) : Z := match vst s with e :: _ => auxOf e | [] => below end.
Definition dwText : list Z := codes "int f(int x) { return x; } void g() { } int[] a = { addrof(f), addrof(g) }; ".
(* The compiler accepts the text above and asks for a word with the address of f
   and one with the address of g. The word printed does not depend on the object,
   so whatever the state of the translator, one of them refers to something else. *)
Theorem C27_refuted : forall below s, exists l i j, compile true false dwText = COut l /\ In (ADwName i) l /\ In (ADwName j) l /\
  (dwName below s i <> i \/ dwName below s j <> j).
Proof.
  intros below s.
  assert (X : accepted (compile true false dwText) = true /\ exists i j, i <> j /\ In (ADwName i) (outOf (compile true false dwText)) /\ In (ADwName j) (outOf (compile true false dwText))).
  { vm_compute. split; [reflexivity|]. exists 0, 2. split; [discriminate|]. tauto. }
  destruct X as [A [i [j [D [Hi Hj]]]]]. destruct (compile true false dwText) as [l| | |]; try discriminate A.
  exists l, i, j. split; [reflexivity|]. split; [exact Hi|]. split; [exact Hj|].
  destruct (Z.eq_dec (dwName below s i) i) as [E|E]; [|left; exact E].
  right. unfold dwName in *. rewrite E. exact D.
Qed.
Print Assumptions C27_refuted.
(* the translator's stack is empty after a function *)
Example C27_ex : match parts (codeOf (outOf (compile true false dwText))) with
  | Some (e, p) => match tac false false 0 0 (VI e :: p) (tinit 0) with Some (_, s) => vst s = [] | None => False end | None => False end.
Proof. vm_compute. reflexivity. Qed.
