(* Invariants of the statement parser. *)
From Coq Require Import ZArith Bool Lia List.
From Verif Require Import Lexer NameTable SyTree OpTree ExprSem OptSpec VM VmCode Parser ParserStmt ParseSpec ParseLabs OptLabs.
Import ListNotations.
Open Scope Z_scope.

(* ---- tables ---- *)
Lemma ent_app_l t r i : i < ntGetSize t -> ent (t ++ r) i = ent t i.
Proof.
  unfold ntGetSize, ent. intros H. destruct (Z.ltb_spec i 0); [reflexivity|]. apply nth_error_app1. lia.
Qed.
Lemma ent_app_r t r i : ntGetSize t <= i -> ent (t ++ r) i = ent r (i - ntGetSize t).
Proof.
  unfold ntGetSize, ent. intros H. destruct (Z.ltb_spec i 0); [lia|]. destruct (Z.ltb_spec (i - Z.of_nat (List.length t)) 0); [lia|].
  rewrite nth_error_app2 by lia. f_equal. lia.
Qed.
Lemma ent_out t i : ntGetSize t <= i -> ent t i = None.
Proof. unfold ntGetSize, ent. intros H. destruct (Z.ltb_spec i 0); [reflexivity|]. apply nth_error_None. lia. Qed.
Lemma ent_neg t i : i < 0 -> ent t i = None.
Proof. unfold ent. intros H. destruct (Z.ltb_spec i 0); [reflexivity|lia]. Qed.
Lemma ent_map f t i : ent (map f t) i = option_map f (ent t i).
Proof. unfold ent. destruct (i <? 0); [reflexivity|]. apply nth_error_map. Qed.
Lemma size_app t r : ntGetSize (t ++ r) = ntGetSize t + ntGetSize r.
Proof. unfold ntGetSize. rewrite app_length. lia. Qed.
Lemma size_nonneg t : 0 <= ntGetSize t. Proof. unfold ntGetSize. lia. Qed.
Lemma setVoid_app t r : ntSetVoid (t ++ r) (ntGetSize t) = t ++ map voided r.
Proof.
  unfold ntSetVoid, ntGetSize. rewrite Nat2Z.id. rewrite firstn_app, Nat.sub_diag, firstn_all, firstn_O, app_nil_r.
  rewrite skipn_app, skipn_all, Nat.sub_diag. reflexivity.
Qed.
Lemma scopeAt_app_l t r i : i < ntGetSize t -> scopeAt (t ++ r) i = scopeAt t i.
Proof. intros H. unfold scopeAt. rewrite ent_app_l by exact H. reflexivity. Qed.
Lemma scope_inside t i : scopeAt t i <> ScVOID -> 0 <= i < ntGetSize t.
Proof.
  unfold scopeAt. destruct (Z.lt_ge_cases i 0) as [H|H]; [rewrite ent_neg by exact H; congruence|].
  destruct (Z.lt_ge_cases i (ntGetSize t)) as [H2|H2]; [lia|rewrite ent_out by exact H2; congruence].
Qed.
Definition dimsOk (t : table) : Prop := Forall (fun e => 0 <= nDim e) t.
Lemma dimsOk_at t i : dimsOk t -> 0 <= dimAt t i.
Proof.
  unfold dimAt, ent. intros H. destruct (i <? 0); [lia|]. destruct (nth_error t (Z.to_nat i)) eqn:E; [|lia].
  apply nth_error_In in E. exact (proj1 (Forall_forall _ _) H e E).
Qed.
Lemma dimsOk_app a b : dimsOk (a ++ b) <-> dimsOk a /\ dimsOk b.
Proof. apply Forall_app. Qed.
Lemma dimsOk_void t : dimsOk t -> dimsOk (map voided t).
Proof. intros H. apply Forall_map. exact H. Qed.

(* ---- trees ---- *)
Lemma ac_nonnull_post nt asExpr f : forall w s, tr w <> ENull -> ac (postLoop nt asExpr f w s) (fun r => tr (fst r) <> ENull).
Proof.
  induction f as [|f IH]; intros w s H; [exact I|]. cbn [postLoop]. destruct (isTok cLB s).
  - eapply (ac_bind _ _ (fun r => tr (fst r) <> ENull)); [|intros [w2 s2] H2; apply IH; exact H2].
    unfold getIdxOP. destruct (wd w <=? 0); [exact I|]. eapply ac_bind; [apply ac_skip|]. intros [w2 s2] _.
    eapply ac_bind; [apply ac_skip|]. intros s3 _. destruct (_ || _); [exact I|]. eapply ac_bind; [apply ac_skip|]. intros op _. discriminate.
  - destruct (isTok cDOT s); [|exact H].
    eapply (ac_bind _ _ (fun r => tr (fst r) <> ENull)); [|intros [w2 s2] H2; apply IH; exact H2].
    unfold getDotOP. destruct (_ || _); [exact I|]. eapply ac_bind; [apply ac_skip|]. intros s3 _. destruct (ntSrcField _ _ _); try exact I. discriminate.
Qed.
Definition nn : (watch * es) -> Prop := fun r => tr (fst r) <> ENull.
Ltac nnd := unfold nn; cbn [fst tr ac]; discriminate.
Section NN.
Variable nt : table.
Variables asExpr expr : parser.
Hypothesis HE : forall s, ac (expr s) nn.
Lemma ac_nn_parens s : ac (inParens expr s) nn.
Proof.
  unfold inParens. eapply ac_bind; [apply ac_skip|]. intros s1 _. eapply ac_bind; [apply HE|]. intros [w s2] H.
  eapply ac_bind; [apply ac_skip|]. intros s3 _. exact H.
Qed.
Lemma ac_nn_factor s : ac (getFactor nt asExpr expr s) nn.
Proof.
  unfold getFactor. eapply (ac_bind _ _ nn); [|intros [w s1] H; apply ac_nonnull_post; exact H].
  repeat match goal with |- ac (if ?c then _ else _) _ => destruct c end; try exact I; try nnd.
  - eapply ac_bind; [apply HE|]. intros [w s2] H. eapply ac_bind; [apply ac_skip|]. intros s3 _. exact H.
  - unfold getIdent. destruct (ntSrcName _ _); [|exact I]. cbv zeta.
    repeat match goal with |- ac (if ?c then _ else _) _ => destruct c end; try exact I; try nnd.
    unfold getCall. eapply ac_bind; [apply ac_skip|]. intros s1 _. destruct (_ =? _); [exact I|]. eapply ac_bind; [apply ac_skip|]. intros [a s2] _. nnd.
  - unfold getSizeof. eapply ac_bind; [apply ac_skip|]. intros s1 _. eapply ac_bind; [apply ac_skip|]. intros [[t d] s2] _. destruct (_ && _); [exact I|].
    eapply ac_bind; [apply ac_skip|]. intros s3 _. nnd.
  - unfold getAddrof. eapply ac_bind; [apply ac_skip|]. intros s1 _. eapply ac_bind; [apply ac_skip|]. intros s2 _. destruct (ntSrcName _ _); [|exact I]. destruct (isGlob _); [|exact I].
    eapply ac_bind; [apply ac_skip|]. intros s3 _. nnd.
  - unfold getOrd. eapply ac_bind; [apply ac_nn_parens|]. intros [w s2] H. destruct (_ || _); [exact I|exact H].
  - unfold getChr. eapply ac_bind; [apply ac_nn_parens|]. intros [w s2] H. destruct (_ || _); [exact I|nnd].
  - unfold getBool. eapply ac_bind; [apply ac_nn_parens|]. intros [w s2] H. destruct (_ || _); [exact I|nnd].
Qed.
Lemma ac_nn_uni f : forall s, ac (getUniExpr nt asExpr expr f s) nn.
Proof.
  induction f as [|f IH]; intros s; [exact I|]. cbn [getUniExpr].
  destruct (_ =? _).
  { eapply ac_bind; [apply IH|]. intros [w s2] H. eapply ac_bind; [apply ac_chkType|]. cbn beta. intros w' E. unfold nn in *. cbn [ac fst tr] in *. congruence. }
  do 3 (destruct (_ =? _); [eapply ac_bind; [apply IH|]; intros [w s2] H; eapply ac_bind; [apply ac_skip|]; intros w' _; nnd|]).
  apply ac_nn_factor.
Qed.
Lemma ac_nn_bin ops act next : (forall o a b, ac (act o a b) (fun w => tr w <> ENull)) -> (forall s, ac (next s) nn) ->
  forall s, ac (binExpr ops act next s) nn.
Proof.
  intros HC HN s. unfold binExpr. eapply ac_bind; [apply HN|]. intros [w s1] M. generalize (fuelOf s1) as f. intros f. revert w s1 M.
  induction f as [|f IH]; intros w s1 M; [exact I|]. cbn [binLoop]. destruct (opOf ops (tok s1)) as [o|]; [|exact M].
  eapply ac_bind; [apply ac_skip|]. intros [w2 s2] _. eapply ac_bind; [apply HC|]. cbn beta. intros w3 E. apply IH. exact E.
Qed.
Lemma ac_nn_cal2 t o a b : ac (cal2 t o a b) (fun w => tr w <> ENull).
Proof. unfold cal2. eapply ac_bind; [apply ac_skip|]. intros ? _. eapply ac_bind; [apply ac_skip|]. intros ? _. nnd. Qed.
Lemma ac_nn_cmp o a b : ac (calCmp o a b) (fun w => tr w <> ENull).
Proof. unfold calCmp. eapply ac_bind; [apply ac_nn_cal2|]. cbn beta. intros w H. exact H. Qed.
Lemma ac_nn_equ o a b : ac (calEqu o a b) (fun w => tr w <> ENull).
Proof. unfold calEqu. eapply ac_bind; [apply ac_skip|]. intros w _. nnd. Qed.
Lemma ac_nn_or s : ac (getLogOrExpr nt asExpr expr s) nn.
Proof.
  revert s. unfold getLogOrExpr, getLogAndExpr, getOrExpr, getXorExpr, getAndExpr, getEquExpr, getCmpExpr, getSftExpr, getAddExpr, getMulExpr.
  repeat (apply ac_nn_bin; [intros; first [apply ac_nn_cal2|apply ac_nn_cmp|apply ac_nn_equ]|]). intros s. apply ac_nn_uni.
Qed.
End NN.
Lemma ac_nn_comma asExpr : (forall s, ac (asExpr s) nn) -> forall s, ac (commaExpr asExpr s) nn.
Proof.
  intros HA s. unfold commaExpr. eapply ac_bind; [apply HA|]. intros [w s1] M. generalize (fuelOf s1) as f. intros f. revert w s1 M.
  induction f as [|f IH]; intros w s1 M; [exact I|]. cbn [commaLoop]. destruct (isTok cCOMMA s1) as [s2|]; [|exact M].
  eapply ac_bind; [apply ac_skip|]. intros [w2 s3] _. apply IH. nnd.
Qed.
Lemma ac_nn_asF nt f : forall s, ac (getAsExprF nt f s) nn.
Proof.
  induction f as [|f IH]; intros s; [exact I|]. cbn [getAsExprF]. eapply ac_bind; [apply ac_nn_or; apply ac_nn_comma; exact IH|]. intros [w s1] M.
  destruct (isTok cEQ s1); [|exact M]. eapply ac_bind; [apply ac_skip|]. intros [w2 s3] _. eapply ac_bind; [apply ac_skip|]. intros w3 _.
  destruct (negb _); [exact I|nnd].
Qed.
Lemma ac_nn_expr nt s : ac (getExpr nt s) nn.
Proof. unfold getExpr. apply ac_nn_comma. intros. apply ac_nn_asF. Qed.
Lemma ac_both {A} (r : pres A) P Q : ac r P -> ac r Q -> ac r (fun a => P a /\ Q a).
Proof. destruct r; cbn [ac]; auto. Qed.

(* every return of the statement has a value (v = false) or none has (v = true) *)
Definition noE (e : expr) : bool := match e with ENull => true | _ => false end.
Fixpoint rets (v : bool) (s : stmt) : bool :=
  match s with
  | SRet e => Bool.eqb (noE e) v
  | SIf _ b | SWhl _ b _ | SDo b _ => rets v b
  | SEls _ a b | SSemi a b | SBlk a b => rets v a && rets v b
  | _ => true
  end.
(* control never gets to the end *)
Fixpoint endsRet (s : stmt) : bool :=
  match s with
  | SRet _ => true
  | SSemi a b | SBlk a b => endsRet a || endsRet b
  | _ => false
  end.
(* the variables a statement declares *)
Fixpoint vars (s : stmt) : list Z :=
  match s with
  | SVar i => [i]
  | SIf _ b | SWhl _ b _ | SDo b _ => vars b
  | SEls _ a b | SSemi a b | SBlk a b => vars a ++ vars b
  | _ => []
  end.
(* Which variable owns each slot: slot k last declared as o k.  walk follows the declarations
   through a statement; it fails if a variable is used while its slot belongs to another one.
   What is declared inside a branch or a loop owns nothing after it. *)
Section Walk.
Variable cnt : Z -> Z.
Definition owned (o : Z -> Z) (e : expr) : bool :=
  forallb (fun r => match r with RLoc i => o (cnt i) =? i | _ => true end) (refsE e).
Definition kill (s : stmt) (o : Z -> Z) : Z -> Z := fun k => if existsb (fun i => cnt i =? k) (vars s) then -1 else o k.
Fixpoint walk (o : Z -> Z) (s : stmt) : option (Z -> Z) :=
  match s with
  | SVar i => Some (fun k => if k =? cnt i then i else o k)
  | SExpr e | SRet e => if owned o e then Some o else None
  | SIf c b => if owned o c then match walk o b with Some _ => Some (kill b o) | None => None end else None
  | SEls c a b => if owned o c then match walk o a, walk o b with Some _, Some _ => Some (kill a (kill b o)) | _, _ => None end else None
  | SWhl c b r => let o' := kill b o in
    if owned o' c && owned o' r then match walk o' b with Some _ => Some o' | None => None end else None
  | SDo b c => let o' := kill b o in
    if owned o' c then match walk o' b with Some _ => Some o' | None => None end else None
  | SSemi a b | SBlk a b => match walk o a with Some o1 => walk o1 b | None => None end
  | SNull | SBrk | SCnt => Some o
  end.
End Walk.
Lemma catS_vars a b : vars (catS a b) = vars a ++ vars b.
Proof. unfold catS. destruct a; try reflexivity; destruct b; cbn [vars]; rewrite ?app_nil_r; reflexivity. Qed.
Lemma toBlk_vars s : vars (toBlk s) = vars s. Proof. destruct s; reflexivity. Qed.
Lemma toBlk_walk cnt o s : walk cnt o (toBlk s) = walk cnt o s. Proof. destruct s; reflexivity. Qed.
Lemma catS_walk cnt o a b : walk cnt o (catS a b) = match walk cnt o a with Some o1 => walk cnt o1 b | None => None end.
Proof.
  assert (forall x : option (Z -> Z), match x with Some o1 => Some o1 | None => None end = x) as E by (intros [|]; reflexivity).
  unfold catS. destruct a; try reflexivity; destruct b; try reflexivity; cbn [walk]; rewrite E; reflexivity.
Qed.
Lemma catS_refs a b : refsS (catS a b) = refsS a ++ refsS b.
Proof. unfold catS. destruct a; try reflexivity; destruct b; cbn [refsS]; rewrite ?app_nil_r; reflexivity. Qed.
Lemma catS_esc a b : escapes (catS a b) = escapes a || escapes b.
Proof. unfold catS. destruct a; try reflexivity; destruct b; cbn [escapes]; rewrite ?orb_false_r; reflexivity. Qed.
Lemma catS_rets v a b : rets v (catS a b) = rets v a && rets v b.
Proof. unfold catS. destruct a; try reflexivity; destruct b; cbn [rets]; rewrite ?andb_true_r; reflexivity. Qed.
Lemma catS_ends a b : endsRet (catS a b) = endsRet a || endsRet b.
Proof. unfold catS. destruct a; try reflexivity; destruct b; cbn [endsRet]; rewrite ?orb_false_r; reflexivity. Qed.
Lemma catS_do a b : noDo (catS a b) = noDo a && noDo b.
Proof. unfold catS. destruct a; try reflexivity; destruct b; cbn [noDo]; rewrite ?andb_true_r; reflexivity. Qed.
Lemma toBlk_do s : noDo (toBlk s) = noDo s. Proof. destruct s; reflexivity. Qed.
Lemma toBlk_refs s : refsS (toBlk s) = refsS s. Proof. destruct s; reflexivity. Qed.
Lemma toBlk_esc s : escapes (toBlk s) = escapes s. Proof. destruct s; reflexivity. Qed.
Lemma toBlk_rets v s : rets v (toBlk s) = rets v s. Proof. destruct s; reflexivity. Qed.
Lemma toBlk_ends s : endsRet (toBlk s) = endsRet s. Proof. destruct s; reflexivity. Qed.

(* ---- inside a function body ---- *)
Section Body.
Variable krnFlag : bool.
(* pI: first parameter, lI: first local; v: the function returns nothing *)
Variables (pI lI : Z) (v : bool).

(* m bounds the numbers of the locals *)
Record fin (m : Z) (g : gs) : Prop := Fin {
  f_pl : pI <= lI;
  f_sz : lI <= ntGetSize (gnt g);
  f_lo : forall i, i < pI -> scopeAt (gnt g) i <> ScLVAR /\ scopeAt (gnt g) i <> ScPRM;
  f_pr : forall i, pI <= i < lI -> scopeAt (gnt g) i = ScPRM;
  f_pc : forall i, pI <= i < lI -> cntAt (gnt g) i = i - pI;
  f_hi : forall i, lI <= i < ntGetSize (gnt g) -> (scopeAt (gnt g) i = ScLVAR \/ scopeAt (gnt g) i = ScVOID) /\ 1 <= cntAt (gnt g) i <= m;
  f_sc : curScope g = ScLVAR;
  f_cnt : 0 <= curCnt g <= m;
  f_dm : dimsOk (gnt g);
  f_fi : 0 <= funcIdx g < pI;
  f_v : v = negb (negb (typeAt (gnt g) (funcIdx g) =? TyINTR) && (negb (typeAt (gnt g) (funcIdx g) =? TyVOID) || negb (dimAt (gnt g) (funcIdx g) =? 0))) }.
Definition sref (t : table) (n n' : Z) (r : ref) : Prop :=
  match r with
  | RStr l => n < l <= n'
  | RLoc i => lI <= i < ntGetSize t
  | RPrm i => pI <= i < lI
  | RGlb i => i < pI /\ (scopeAt t i = ScCOMM \/ scopeAt t i = ScGVAR)
  | RAddr i => i < pI /\ isGlob (scopeAt t i) = true
  | RFun i => i < pI /\ (scopeAt t i = ScPROT \/ scopeAt t i = ScFUNC)
  end.
Definition srefs (t : table) n n' (l : list ref) : Prop := forall r, In r l -> sref t n n' r.
Definition same (g0 g : gs) : Prop :=
  curScope g = curScope g0 /\ pubFlag g = pubFlag g0 /\ funcIdx g = funcIdx g0 /\ brkLab g = brkLab g0 /\ cntLab g = cntLab g0 /\ depth g = depth g0.
Definition step (g0 g : gs) : Prop :=
  same g0 g /\ strs (ge g0) (ge g) /\ (exists r, gnt g = gnt g0 ++ r) /\ maxCnt g0 <= maxCnt g /\ (0 <= curDim g0 -> 0 <= curDim g).
Lemma same_refl g : same g g. Proof. repeat split. Qed.
Lemma same_trans a b c : same a b -> same b c -> same a c.
Proof. unfold same. intuition congruence. Qed.
Lemma step_refl g : step g g.
Proof. split; [apply same_refl|]. split; [apply strs_refl|]. split; [exists []; rewrite app_nil_r; reflexivity|split; [lia|exact (fun H => H)]]. Qed.
Lemma step_trans a b c : step a b -> step b c -> step a c.
Proof.
  intros (A1 & A2 & (r & A3) & A4 & A5) (B1 & B2 & (q & B3) & B4 & B5). split; [exact (same_trans _ _ _ A1 B1)|]. split; [exact (strs_trans _ _ _ A2 B2)|].
  split; [exists (r ++ q); rewrite B3, A3, app_assoc; reflexivity|split; [lia|auto]].
Qed.
Lemma step_lab a b : step a b -> clab (ge a) <= clab (ge b).
Proof. intros (_ & H & _). exact (strs_le _ _ H). Qed.
Lemma sref_mono t r n n' m m' x : pI <= ntGetSize t -> sref t n n' x -> m <= n -> n' <= m' -> sref (t ++ r) m m' x.
Proof.
  intros P. pose proof (size_nonneg r). destruct x; cbn [sref]; rewrite ?size_app; try lia; intros [A B] _ _; (split; [exact A|]); rewrite scopeAt_app_l by lia; exact B.
Qed.
Lemma srefs_step a b l n : pI <= ntGetSize (gnt a) -> step a b -> srefs (gnt a) n (clab (ge a)) l -> srefs (gnt b) n (clab (ge b)) l.
Proof.
  intros P S H r I. pose proof (step_lab _ _ S). destruct S as (_ & _ & (q & ->) & _). apply (sref_mono _ _ n (clab (ge a))); [exact P|exact (H r I)|lia|lia].
Qed.
Lemma srefs_low t n m n' l : m <= n -> srefs t n n' l -> srefs t m n' l.
Proof. intros L H r I. specialize (H r I). destruct r; cbn [sref] in *; try assumption. lia. Qed.
Lemma srefs_app t n n' a b : srefs t n n' (a ++ b) <-> srefs t n n' a /\ srefs t n n' b.
Proof.
  unfold srefs. split; [intros H; split; intros r I; apply H; apply in_or_app; auto|]. intros [A B] r I. apply in_app_or in I. destruct I; auto.
Qed.
Lemma srefs_nil t n n' : srefs t n n' []. Proof. intros r []. Qed.

Lemma fin_pI m g : fin m g -> pI <= ntGetSize (gnt g).
Proof. intros F. pose proof (f_pl _ _ F). pose proof (f_sz _ _ F). lia. Qed.
Lemma fin_ref m g n n' r : fin m g -> okRef (gnt g) n n' r -> sref (gnt g) n n' r.
Proof.
  intros F. pose proof (f_sz _ _ F) as SZ.
  assert (forall i, scopeAt (gnt g) i <> ScLVAR -> scopeAt (gnt g) i <> ScPRM -> scopeAt (gnt g) i <> ScVOID -> i < pI) as LO.
  { intros i N1 N2 N3. pose proof (scope_inside _ _ N3). destruct (Z.lt_ge_cases i pI) as [|H2]; [assumption|exfalso].
    destruct (Z.lt_ge_cases i lI) as [H3|H3]; [apply N2, (f_pr _ _ F); lia|]. destruct (f_hi _ _ F i ltac:(lia)) as [[E|E] _]; contradiction. }
  destruct r; cbn [okRef sref].
  - lia.
  - intros [E|E]; (split; [apply LO; rewrite E; discriminate|auto]).
  - intros E. split; [|exact E]. apply LO; intros X; rewrite X in E; discriminate E.
  - intros E. assert (scopeAt (gnt g) i <> ScVOID) as N by (rewrite E; discriminate). pose proof (scope_inside _ _ N).
    destruct (Z.lt_ge_cases i pI) as [H2|H2]; [destruct (f_lo _ _ F i H2); contradiction|].
    destruct (Z.lt_ge_cases i lI) as [H3|H3]; [rewrite (f_pr _ _ F i ltac:(lia)) in E; discriminate E|lia].
  - intros E. assert (scopeAt (gnt g) i <> ScVOID) as N by (rewrite E; discriminate). pose proof (scope_inside _ _ N).
    destruct (Z.lt_ge_cases i pI) as [H2|H2]; [destruct (f_lo _ _ F i H2); contradiction|].
    destruct (Z.lt_ge_cases i lI) as [H3|H3]; [lia|]. destruct (f_hi _ _ F i ltac:(lia)) as [[X|X] _]; rewrite X in E; discriminate E.
  - intros [E|E]; (split; [apply LO; rewrite E; discriminate|auto]).
Qed.

(* changes that keep what matters *)
Lemma fin_keep m g g' : fin m g -> gnt g' = gnt g -> curScope g' = curScope g -> funcIdx g' = funcIdx g -> 0 <= curCnt g' <= m -> fin m g'.
Proof.
  intros F E1 E2 E3 C. destruct F. constructor; rewrite ?E1, ?E2, ?E3; assumption.
Qed.
Lemma fin_E m g e : fin m g -> fin m (wE g e).
Proof. intros F. apply (fin_keep _ _ _ F); try reflexivity. exact (f_cnt _ _ F). Qed.
Lemma step_E g e : strs (ge g) e -> step g (wE g e).
Proof. intros H. split; [repeat split|]. split; [exact H|]. split; [exists []; rewrite app_nil_r; reflexivity|]. cbn [wE maxCnt curDim]. split; [lia|auto]. Qed.

(* expressions *)
Definition madeG (g0 : gs) : (watch * gs) -> Prop := fun r =>
  step g0 (snd r) /\ gnt (snd r) = gnt g0 /\ curCnt (snd r) = curCnt g0 /\ maxCnt (snd r) = maxCnt g0 /\ lastStat (snd r) = lastStat g0 /\
  curType (snd r) = curType g0 /\ curDim (snd r) = curDim g0 /\
  srefs (gnt g0) (clab (ge g0)) (clab (ge (snd r))) (refsE (tr (fst r))) /\ tr (fst r) <> ENull.
Lemma ac_gExpr m g : fin m g -> ac (gExpr g) (madeG g).
Proof.
  intros F. unfold gExpr. eapply ac_bind; [apply ac_both; [apply ac_getExpr|apply ac_nn_expr]|]. intros [w e] [[A B] C]. cbn [fst snd] in *.
  unfold madeG. cbn [ac fst snd]. split; [apply step_E; exact A|]. do 6 (split; [reflexivity|]). split; [|exact C].
  intros r I. apply (fin_ref _ _ _ _ _ F). exact (B r I).
Qed.
Lemma ac_gAsExpr m g : fin m g -> ac (gAsExpr g) (madeG g).
Proof.
  intros F. unfold gAsExpr. eapply ac_bind; [apply ac_both; [apply ac_getAsExpr|apply ac_nn_asF]|]. intros [w e] [[A B] C]. cbn [fst snd] in *.
  unfold madeG. cbn [ac fst snd]. split; [apply step_E; exact A|]. do 6 (split; [reflexivity|]). split; [|exact C].
  intros r I. apply (fin_ref _ _ _ _ _ F). exact (B r I).
Qed.
(* tokens *)
Lemma and_assoc_l A B C : (A /\ B /\ C) <-> ((A /\ B) /\ C). Proof. tauto. Qed.
Definition quiet (g0 g : gs) : Prop := exists e, g = wE g0 e /\ clab e = clab (ge g0) /\ outp e = outp (ge g0) /\ tailOf (its e) (its (ge g0)).
Lemma quiet_getTok g : quiet g (gGetTok g).
Proof.
  exists (getTok (ge g)). split; [reflexivity|]. rewrite and_assoc_l. split; [|apply getTok_incl]. unfold getTok. destruct (its (ge g)) as [|i r]; [split; reflexivity|]. destruct (_ =? _); split; reflexivity.
Qed.
Lemma ac_gChkTok k g : ac (gChkTok k g) (quiet g).
Proof.
  unfold gChkTok, chkTok. destruct (_ =? _); [|exact I]. apply quiet_getTok.
Qed.
Lemma quiet_isTok k g g' : gIsTok k g = Some g' -> quiet g g'.
Proof. unfold gIsTok, isTok. destruct (_ =? _); [|discriminate]. intros H. injection H as <-. apply quiet_getTok. Qed.
Lemma quiet_strs g0 e : clab e = clab (ge g0) -> outp e = outp (ge g0) -> tailOf (its e) (its (ge g0)) -> strs (ge g0) e.
Proof. intros A B C. split; [exact C|]. exists []. cbn [List.length strOut]. rewrite app_nil_r. split; [lia|exact B]. Qed.
Lemma quiet_step g g' : quiet g g' -> step g g'.
Proof. intros (e & -> & A & B & C). apply step_E, quiet_strs; assumption. Qed.
Lemma quiet_fin m g g' : quiet g g' -> fin m g -> fin m g'.
Proof. intros (e & -> & _) F. apply fin_E. exact F. Qed.
Lemma quiet_eqs g g' : quiet g g' -> gnt g' = gnt g /\ curCnt g' = curCnt g /\ maxCnt g' = maxCnt g /\ lastStat g' = lastStat g /\
  curType g' = curType g /\ curDim g' = curDim g /\ clab (ge g') = clab (ge g).
Proof. intros (e & -> & A & _). repeat split. exact A. Qed.

Definition noDoT (e : es) : Prop := forall i, In i (its e) -> tokOf i <> LxDO.
Lemma step_do a b : step a b -> noDoT (ge a) -> noDoT (ge b).
Proof. intros (_ & (I & _) & _) H i K. exact (H i (tail_incl _ _ I i K)). Qed.
(* a statement, or a declaration, read since g0 *)
Record post (g0 : gs) (s : stmt) (g : gs) : Prop := Post {
  p_step : step g0 g;
  p_fin : fin (maxCnt g) g;
  p_ref : srefs (gnt g) (clab (ge g0)) (clab (ge g)) (refsS s);
  p_esc : escapes s = true -> 0 < depth g0;
  p_ret : rets v s = true;
  p_do : noDoT (ge g0) -> noDo s = true }.
Lemma post_quiet g0 s g g' : post g0 s g -> quiet g g' -> post g0 s g'.
Proof.
  intros [S F R X Y W] Q. pose proof (quiet_step _ _ Q) as SQ. destruct (quiet_eqs _ _ Q) as (E1 & E2 & E3 & _).
  constructor; try assumption.
  - exact (step_trans _ _ _ S SQ).
  - rewrite E3. exact (quiet_fin _ _ _ Q F).
  - exact (srefs_step _ _ _ _ (fin_pI _ _ F) SQ R).
Qed.
Lemma post_before g0 g1 s g : step g0 g1 -> post g1 s g -> post g0 s g.
Proof.
  intros S0 [S F R X Y W]. constructor; try assumption.
  - exact (step_trans _ _ _ S0 S).
  - exact (srefs_low _ _ _ _ _ (step_lab _ _ S0) R).
  - intros E. specialize (X E). destruct S0 as ((_ & _ & _ & _ & _ & D) & _). lia.
  - intros N. exact (W (step_do _ _ S0 N)).
Qed.
Lemma post_cat g0 a g1 b g : post g0 a g1 -> post g1 b g -> post g0 (catS a b) g.
Proof.
  intros [S F R X Y W] [S2 F2 R2 X2 Y2 W2]. constructor.
  - exact (step_trans _ _ _ S S2).
  - exact F2.
  - rewrite catS_refs. apply srefs_app. split; [exact (srefs_step _ _ _ _ (fin_pI _ _ F) S2 R)|exact (srefs_low _ _ _ _ _ (step_lab _ _ S) R2)].
  - rewrite catS_esc. intros E. apply orb_prop in E. destruct E as [E|E]; [exact (X E)|]. specialize (X2 E). destruct S as ((_ & _ & _ & _ & _ & D) & _). lia.
  - rewrite catS_rets, Y, Y2. reflexivity.
  - intros N. rewrite catS_do, (W N), (W2 (step_do _ _ S N)). reflexivity.
Qed.

(* ---- declarations ---- *)
(* inside a declaration the number of the current local may exceed the maximum so far *)
Definition top (g : gs) : Z := Z.max (maxCnt g) (curCnt g).
Lemma fin_mono m m' g : m <= m' -> fin m g -> fin m' g.
Proof.
  intros L [A B C D DD E F G H J K]. constructor; try assumption; [|lia]. intros i Hi. destruct (E i Hi) as [X Y]. split; [exact X|lia].
Qed.
Lemma ac_getName pub g m : fin m g -> 0 <= curDim g -> 1 <= curCnt g ->
  ac (getName krnFlag pub g) (fun r => fin m (snd r) /\ step g (snd r) /\
     curCnt (snd r) = curCnt g /\ maxCnt (snd r) = maxCnt g /\ lastStat (snd r) = lastStat g /\ curType (snd r) = curType g /\ curDim (snd r) = curDim g /\
     lI <= fst r < ntGetSize (gnt (snd r)) /\ clab (ge (snd r)) = clab (ge g)).
Proof.
  intros F D C. unfold getName. eapply ac_bind; [apply ac_gChkTok|]. intros g1 Q.
  pose proof (quiet_step _ _ Q) as S1. pose proof (quiet_fin _ _ _ Q F) as F1. destruct (quiet_eqs _ _ Q) as (E1 & E2 & E3 & E4 & E5 & E6 & E7).
  repeat (match goal with |- ac (if ?c then _ else _) _ => destruct c end; [exact I|]).
  unfold ntDefName. destruct (_ <=? _); [exact I|]. destruct (_ <=? _); [exact I|]. cbn [ac fst snd].
  set (e := Ent _ _ _ _ _ _). pose proof (f_sz _ _ F1) as SZ. pose proof (size_nonneg (gnt g1)) as NN0.
  assert (forall i, i < ntGetSize (gnt g1) -> ent (gnt g1 ++ [e]) i = ent (gnt g1) i) as OLD by (intros; apply ent_app_l; assumption).
  assert (ent (gnt g1 ++ [e]) (ntGetSize (gnt g1)) = Some e) as NEW.
  { rewrite ent_app_r by lia. rewrite Z.sub_diag. reflexivity. }
  assert (ntGetSize (gnt g1 ++ [e]) = ntGetSize (gnt g1) + 1) as SZ2 by (rewrite size_app; reflexivity).
  pose proof (f_pl _ _ F1) as PL. pose proof (f_fi _ _ F1) as FI.
  split; [|split].
  - constructor; cbn [gnt wNt curScope curCnt funcIdx]; try assumption.
    + lia.
    + intros i Hi. unfold scopeAt. rewrite OLD by lia. exact (f_lo _ _ F1 i Hi).
    + intros i Hi. unfold scopeAt. rewrite OLD by lia. exact (f_pr _ _ F1 i Hi).
    + intros i Hi. unfold cntAt. rewrite OLD by lia. exact (f_pc _ _ F1 i Hi).
    + intros i Hi. destruct (Z.eq_dec i (ntGetSize (gnt g1))) as [->|Ne].
      * unfold scopeAt, cntAt. rewrite NEW. unfold e. cbn [nScope nCnt]. split; [left; exact (f_sc _ _ F1)|]. pose proof (f_cnt _ _ F1). lia.
      * unfold scopeAt, cntAt. rewrite OLD by lia. apply (f_hi _ _ F1). lia.
    + exact (f_sc _ _ F1).
    + exact (f_cnt _ _ F1).
    + apply dimsOk_app. split; [exact (f_dm _ _ F1)|]. constructor; [|constructor]. unfold e. cbn [nDim]. lia.
    + unfold typeAt, dimAt. rewrite OLD by lia. exact (f_v _ _ F1).
  - apply (step_trans _ _ _ S1). split; [repeat split|]. split; [apply strs_refl|]. split; [exists [e]; reflexivity|]. cbn [wNt maxCnt curDim]. split; [lia|auto].
  - cbn [wNt curCnt maxCnt lastStat curType curDim gnt ge]. rewrite SZ2. repeat split; try assumption; lia.
Qed.
Lemma chkCmpat_tr w t d : ac (chkCmpat w t d) (fun w' => tr w' = tr w). Proof. apply ac_chkCmpat. Qed.
(* what a declarator adds, up to the maximum *)
Record postD (g0 : gs) (s : stmt) (g : gs) : Prop := PostD {
  d_step : step g0 g;
  d_fin : fin (top g) g;
  d_ref : srefs (gnt g) (clab (ge g0)) (clab (ge g)) (refsS s);
  d_esc : escapes s = false;
  d_ret : rets v s = true;
  d_do : noDo s = true;
  d_dim : 0 <= curDim g;
  d_last : lastStat g = lastStat g0;
  d_cnt : curCnt g0 <= curCnt g }.
Lemma ac_getLVar g : fin (top g) g -> 0 <= curDim g -> ac (getLVar krnFlag g) (fun r => postD g (fst r) (snd r)).
Proof.
  intros F D. unfold getLVar. cbv zeta. set (g1 := wCnt g (curCnt g + 1)).
  pose proof (f_cnt _ _ F) as CN.
  assert (fin (top g1) g1) as F1.
  { apply (fin_keep (top g1) g); try reflexivity; [|unfold top, g1; cbn [wCnt curCnt maxCnt]; lia]. apply (fin_mono (top g)); [|exact F].
    unfold top, g1. cbn [wCnt curCnt maxCnt]. lia. }
  assert (step g g1) as S1. { split; [repeat split|]. split; [apply strs_refl|]. split; [exists []; rewrite app_nil_r; reflexivity|]. unfold g1; cbn [wCnt maxCnt curDim]. split; [lia|auto]. }
  eapply ac_bind; [apply (ac_getName _ _ (top g1) F1); [exact D|unfold g1; cbn [wCnt curCnt]; lia]|]. cbn beta.
  intros [i g2] (F2 & S2 & E1 & E2 & E3 & E4 & E5 & Hi & E6). cbn [fst snd] in *.
  assert (top g2 = top g1) as TT by (unfold top; rewrite E1, E2; reflexivity).
  destruct (gIsTok cEQ g2) as [g3|] eqn:K.
  - apply quiet_isTok in K. pose proof (quiet_step _ _ K) as S3. pose proof (quiet_fin _ _ _ K F2) as F3. destruct (quiet_eqs _ _ K) as (A1 & A2 & A3 & A4 & A5 & A6 & A7).
    eapply ac_bind; [apply (ac_gAsExpr _ _ F3)|]. intros [w g4] (S4 & B1 & B2 & B3 & B4 & B5 & B6 & R & NNW). cbn [fst snd] in *.
    eapply ac_bind; [apply ac_chkCmpat|]. cbn beta. intros w2 Ew. cbn [ac fst snd].
    assert (step g g4) as SS by exact (step_trans _ _ _ S1 (step_trans _ _ _ S2 (step_trans _ _ _ S3 S4))).
    assert (top g4 = top g2) as TT4 by (unfold top; rewrite B2, B3, A2, A3; reflexivity).
    constructor.
    + exact SS.
    + rewrite TT4, TT. apply (fin_keep (top g1) g3); [exact F3|exact B1| | |].
      * destruct S4 as ((Q & _) & _). exact Q.
      * destruct S4 as ((_ & _ & Q & _) & _). exact Q.
      * rewrite B2. exact (f_cnt _ _ F3).
    + cbn [refsS refsE refsL app]. rewrite B1. apply (srefs_low _ (clab (ge g3))); [rewrite A7, E6; unfold g1; cbn [wCnt ge]; lia|].
      intros r [<-|I]; [cbn [sref]; rewrite A1; exact Hi|]. rewrite Ew in I. exact (R r I).
    + reflexivity.
    + reflexivity.
    + reflexivity.
    + rewrite B6, A6, E5. exact D.
    + rewrite B4, A4, E3. reflexivity.
    + rewrite B2, A2, E1. unfold g1. cbn [wCnt curCnt]. lia.
  - cbn [ac fst snd]. constructor.
    + exact (step_trans _ _ _ S1 S2).
    + rewrite TT. exact F2.
    + apply srefs_nil.
    + reflexivity.
    + reflexivity.
    + reflexivity.
    + rewrite E5. exact D.
    + rewrite E3. reflexivity.
    + rewrite E1. unfold g1. cbn [wCnt curCnt]. lia.
Qed.

Lemma quiet_trans a b c : quiet a b -> quiet b c -> quiet a c.
Proof. intros (e & -> & A & B & X) (f & -> & C & D & Y). exists f. cbn [wE ge] in *. split; [reflexivity|]. split; [congruence|]. split; [congruence|exact (tail_tran _ _ _ Y X)]. Qed.
Lemma ac_dimLoop2 f : forall d s, 0 <= d -> ac (dimLoop f d s) (fun r => 0 <= fst r /\ clab (snd r) = clab s /\ outp (snd r) = outp s /\ tailOf (its (snd r)) (its s)).
Proof.
  induction f as [|f IH]; intros d s D; [exact I|]. cbn [dimLoop]. destruct (isTok cLB s) as [s1|] eqn:E; [|cbn [ac fst snd]; repeat split; try assumption; apply tail_refl].
  assert ((clab s1 = clab s /\ outp s1 = outp s) /\ tailOf (its s1) (its s)) as [[A B] C].
  { unfold isTok in E. destruct (_ =? _); [|discriminate]. injection E as <-. split; [|apply getTok_incl]. unfold getTok. destruct (its s) as [|? ?]; [split; reflexivity|]. destruct (_ =? _); split; reflexivity. }
  unfold chkTok. destruct (tok s1 =? cRB); [|exact I]. cbn [pbind].
  assert (clab (getTok s1) = clab s1 /\ outp (getTok s1) = outp s1) as [A2 B2].
  { unfold getTok. destruct (its s1) as [|? ?]; [split; reflexivity|]. destruct (_ =? _); split; reflexivity. }
  eapply ac_mono; [apply IH; lia|]. cbn beta. intros [d2 s2] (X & Y & Z0 & W0). cbn [fst snd] in *. split; [exact X|]. split; [congruence|]. split; [congruence|]. exact (tail_tran _ _ _ W0 (tail_tran _ _ _ (getTok_incl s1) C)).
Qed.
(* the type of a declaration *)
Definition typed (g0 g : gs) : Prop := 0 <= curDim g /\ exists g1, quiet g0 g1 /\ g = wDim (wType g1 (curType g)) (curDim g).
Lemma ac_gGetType g : ac (gGetType g) (typed g).
Proof.
  unfold gGetType, getType. destruct (_ =? TyNON); [exact I|]. cbn [pbind].
  set (e1 := getTok (ge g)). assert (clab e1 = clab (ge g) /\ outp e1 = outp (ge g)) as [A B].
  { unfold e1, getTok. destruct (its (ge g)) as [|? ?]; [split; reflexivity|]. destruct (_ =? _); split; reflexivity. }
  pose proof (ac_dimLoop2 (fuelOf e1) 0 e1 ltac:(lia)) as H. destruct (dimLoop (fuelOf e1) 0 e1) as [[d s2]| | |]; try exact I. cbn [pbind ac fst snd] in *.
  destruct H as (X & Y & Z0 & W0). split; [exact X|]. exists (wE g s2). split; [exists s2; repeat split; try congruence; exact (tail_tran _ _ _ W0 (getTok_incl _))|reflexivity].
Qed.
Lemma typed_step g0 g : typed g0 g -> step g0 g.
Proof.
  intros (D & g1 & Q & E). apply (step_trans _ _ _ (quiet_step _ _ Q)). rewrite E. split; [repeat split|]. split; [apply strs_refl|].
  split; [exists []; rewrite app_nil_r; reflexivity|]. cbn [wDim wType maxCnt curDim]. split; [lia|intros _; exact D].
Qed.
Lemma typed_fin m g0 g : typed g0 g -> fin m g0 -> fin m g.
Proof.
  intros (_ & g1 & Q & ->) F. pose proof (quiet_fin _ _ _ Q F) as F1. apply (fin_keep _ _ _ F1); try reflexivity. exact (f_cnt _ _ F1).
Qed.
Lemma typed_eqs g0 g : typed g0 g -> gnt g = gnt g0 /\ curCnt g = curCnt g0 /\ maxCnt g = maxCnt g0 /\ lastStat g = lastStat g0 /\ clab (ge g) = clab (ge g0).
Proof. intros (_ & g1 & Q & ->). destruct (quiet_eqs _ _ Q) as (A & B & C & D & _ & _ & E). cbn [wDim wType gnt curCnt maxCnt lastStat ge]. auto. Qed.

Lemma postD_quiet g0 s g g' : postD g0 s g -> quiet g g' -> postD g0 s g'.
Proof.
  intros [S F R X Y W D L C] Q. pose proof (quiet_step _ _ Q) as SQ. destruct (quiet_eqs _ _ Q) as (E1 & E2 & E3 & E4 & E5 & E6 & E7).
  constructor; try assumption; try congruence.
  - exact (step_trans _ _ _ S SQ).
  - unfold top. rewrite E2, E3. exact (quiet_fin _ _ _ Q F).
  - exact (srefs_step _ _ _ _ (fin_pI _ _ F) SQ R).
Qed.
Lemma postD_cat g0 a g1 b g : postD g0 a g1 -> postD g1 b g -> postD g0 (catS a b) g.
Proof.
  intros [S F R X Y W D L C] [S2 F2 R2 X2 Y2 W2 D2 L2 C2]. constructor; try assumption; try congruence.
  - exact (step_trans _ _ _ S S2).
  - rewrite catS_refs. apply srefs_app. split; [exact (srefs_step _ _ _ _ (fin_pI _ _ F) S2 R)|exact (srefs_low _ _ _ _ _ (step_lab _ _ S) R2)].
  - rewrite catS_esc, X, X2. reflexivity.
  - rewrite catS_rets, Y, Y2. reflexivity.
  - rewrite catS_do, W, W2. reflexivity.
  - lia.
Qed.
Lemma ac_lvarsLoop f : forall g0 sta g, postD g0 sta g -> ac (lvarsLoop krnFlag f sta g) (fun r => postD g0 (fst r) (snd r)).
Proof.
  induction f as [|f IH]; intros g0 sta g P; [exact I|]. cbn [lvarsLoop]. destruct (gIsTok cCOMMA g) as [g1|] eqn:K; [|exact P].
  apply quiet_isTok in K. pose proof (postD_quiet _ _ _ _ P K) as P1.
  eapply ac_bind; [apply (ac_getLVar g1); [exact (d_fin _ _ _ P1)|exact (d_dim _ _ _ P1)]|]. intros [s2 g2] P2. cbn [fst snd] in *.
  apply IH. exact (postD_cat _ _ _ _ _ P1 P2).
Qed.
Definition postL g0 s g : Prop := post g0 s g /\ lastStat g = lastStat g0 /\ escapes s = false /\ curCnt g0 <= curCnt g.
Lemma ac_getLVars g : fin (maxCnt g) g -> ac (getLVars krnFlag g) (fun r => postL g (fst r) (snd r)).
Proof.
  intros F. unfold getLVars. eapply ac_bind; [apply ac_gGetType|]. intros g1 T. pose proof (typed_fin _ _ _ T F) as F1. pose proof (typed_step _ _ T) as S1.
  destruct (typed_eqs _ _ T) as (E1 & E2 & E3 & E4 & E5).
  assert (top g1 = maxCnt g) as TT. { unfold top. rewrite E2, E3. pose proof (f_cnt _ _ F). lia. }
  eapply ac_bind; [apply (ac_getLVar g1); [rewrite TT; exact F1|exact (proj1 T)]|]. intros [s2 g2] P2. cbn [fst snd] in *.
  eapply ac_bind; [apply (ac_lvarsLoop _ g1 s2 g2 P2)|]. intros [s3 g3] P3. cbn [fst snd ac] in *.
  set (g4 := if maxCnt g3 <? curCnt g3 then wMax g3 (curCnt g3) else g3).
  destruct P3 as [S F3 R X Y W D L C].
  assert (maxCnt g4 = top g3 /\ gnt g4 = gnt g3 /\ curScope g4 = curScope g3 /\ funcIdx g4 = funcIdx g3 /\ curCnt g4 = curCnt g3 /\ lastStat g4 = lastStat g3 /\ ge g4 = ge g3) as (A1 & A2 & A3 & A4 & A5 & A6 & A7).
  { unfold g4, top. destruct (Z.ltb_spec (maxCnt g3) (curCnt g3)); cbn [wMax maxCnt gnt curScope funcIdx curCnt lastStat ge]; repeat split; lia. }
  assert (step g3 g4) as S34.
  { split; [unfold same, g4; destruct (_ <? _); repeat split|]. rewrite A7, A2, A1. split; [apply strs_refl|]. split; [exists []; rewrite app_nil_r; reflexivity|]. unfold top. split; [lia|]. unfold g4. destruct (_ <? _); exact (fun H => H). }
  split; [|split; [|split]].
  - apply (post_before g g1 s3 g4 S1). constructor.
    + exact (step_trans _ _ _ S S34).
    + rewrite A1. apply (fin_keep _ _ _ F3); try assumption. rewrite A5. exact (f_cnt _ _ F3).
    + rewrite A2, A7. exact R.
    + intros E. rewrite X in E. discriminate E.
    + exact Y.
    + intros _. exact W.
  - rewrite A6, L, E4. reflexivity.
  - exact X.
  - rewrite A5. rewrite E2 in C. exact C.
Qed.

(* leaving a block *)
Lemma fin_void m g t r c : fin m g -> gnt g = t ++ r -> lI <= ntGetSize t -> 0 <= c <= m -> fin m (wCnt (wNt g (ntSetVoid (gnt g) (ntGetSize t))) c).
Proof.
  intros F E SZ HC. destruct F as [PL S1 LO PR PC HI SC CN DM FI V]. pose proof (size_nonneg t) as N0.
  rewrite E in *. rewrite setVoid_app in *.
  assert (forall i, i < ntGetSize t -> ent (t ++ map voided r) i = ent (t ++ r) i) as OLD by (intros i Hi; rewrite !ent_app_l by exact Hi; reflexivity).
  assert (forall i, ntGetSize t <= i -> ent (t ++ map voided r) i = option_map voided (ent (t ++ r) i)) as NEW.
  { intros i Hi. rewrite !ent_app_r by exact Hi. apply ent_map. }
  assert (ntGetSize (t ++ map voided r) = ntGetSize (t ++ r)) as SS. { rewrite !size_app. unfold ntGetSize. rewrite map_length. reflexivity. }
  constructor; cbn [wCnt wNt gnt curScope funcIdx curCnt]; rewrite ?SS; try assumption.
  - intros i Hi. unfold scopeAt. rewrite OLD by lia. exact (LO i Hi).
  - intros i Hi. unfold scopeAt. rewrite OLD by lia. exact (PR i Hi).
  - intros i Hi. unfold cntAt. rewrite OLD by lia. exact (PC i Hi).
  - intros i Hi. destruct (Z.lt_ge_cases i (ntGetSize t)) as [L|L].
    + unfold scopeAt, cntAt. rewrite OLD by lia. exact (HI i Hi).
    + destruct (HI i Hi) as [_ Q]. unfold scopeAt, cntAt in *. rewrite NEW by lia. destruct (ent (t ++ r) i) as [e|]; [|lia]. cbn [option_map voided nScope nCnt]. auto.
  - apply dimsOk_app in DM. destruct DM as [D1 D2]. apply dimsOk_app. split; [exact D1|exact (dimsOk_void _ D2)].
  - unfold typeAt, dimAt. rewrite OLD by lia. exact V.
Qed.
Lemma post_void g0 s g : fin (maxCnt g0) g0 -> post g0 s g -> post g0 s (wCnt (wNt g (ntSetVoid (gnt g) (ntGetSize (gnt g0)))) (curCnt g0)).
Proof.
  intros F0 [S F R X Y W]. pose proof S as ((Q1 & Q2 & Q3 & Q4 & Q5 & Q6) & S2 & (r & E) & M). pose proof (f_cnt _ _ F0) as C0. pose proof (f_sz _ _ F0) as Z0.
  constructor; cbn [wCnt wNt ge maxCnt gnt]; try assumption.
  - split; [repeat split; assumption|]. split; [exact S2|]. split; [|exact M]. exists (map voided r). cbn [wCnt wNt gnt]. rewrite E. apply setVoid_app.
  - apply (fin_void _ _ _ r); [exact F|exact E|exact Z0|lia].
  - rewrite E, setVoid_app. rewrite E in R. intros x I. specialize (R x I). pose proof (f_pl _ _ F0) as P0.
    assert (forall i, i < pI -> scopeAt (gnt g0 ++ map voided r) i = scopeAt (gnt g0 ++ r) i) as OLD.
    { intros i Hi. rewrite !scopeAt_app_l by lia. reflexivity. }
    assert (ntGetSize (gnt g0 ++ map voided r) = ntGetSize (gnt g0 ++ r)) as SS. { rewrite !size_app. unfold ntGetSize. rewrite map_length. reflexivity. }
    destruct x; cbn [sref] in *; rewrite ?SS; try exact R; destruct R as [R1 R2]; (split; [exact R1|]); rewrite OLD by exact R1; exact R2.
Qed.

(* ---- statements ---- *)
Definition statOk (p : sparser) : Prop := forall g, fin (maxCnt g) g -> ac (p g) (fun r => post g (fst r) (snd r) /\ curCnt (snd r) = curCnt g).
Lemma step_fin m g0 g : fin m g0 -> step g0 g -> gnt g = gnt g0 -> curCnt g = curCnt g0 -> fin m g.
Proof.
  intros F ((A & _ & B & _) & _) E C. apply (fin_keep _ _ _ F); try assumption. rewrite C. exact (f_cnt _ _ F).
Qed.
(* what reading an expression or a condition amounts to *)
Definition exprG (g0 : gs) : (expr * gs) -> Prop := fun r =>
  step g0 (snd r) /\ fin (maxCnt (snd r)) (snd r) /\ curCnt (snd r) = curCnt g0 /\ gnt (snd r) = gnt g0 /\
  srefs (gnt g0) (clab (ge g0)) (clab (ge (snd r))) (refsE (fst r)).
Lemma madeG_exprG g w g' : fin (maxCnt g) g -> madeG g (w, g') -> exprG g (tr w, g').
Proof.
  intros F (S & B1 & B2 & B3 & B4 & B5 & B6 & R & NNW). cbn [fst snd] in *. unfold exprG. cbn [fst snd].
  split; [exact S|]. split; [rewrite B3; exact (step_fin _ _ _ F S B1 B2)|]. auto.
Qed.
Lemma exprG_quiet g0 e g g' : exprG g0 (e, g) -> quiet g g' -> exprG g0 (e, g').
Proof.
  intros (S & F & C & E & R) Q. cbn [fst snd] in *. destruct (quiet_eqs _ _ Q) as (E1 & E2 & E3 & _ & _ & _ & E7). unfold exprG. cbn [fst snd].
  split; [exact (step_trans _ _ _ S (quiet_step _ _ Q))|]. split; [rewrite E3; exact (quiet_fin _ _ _ Q F)|]. split; [congruence|]. split; [congruence|]. rewrite E7. exact R.
Qed.
Lemma exprG_before g0 g1 e g : quiet g0 g1 -> exprG g1 (e, g) -> exprG g0 (e, g).
Proof.
  intros Q (S & F & C & E & R). cbn [fst snd] in *. destruct (quiet_eqs _ _ Q) as (E1 & E2 & E3 & _ & _ & _ & E7). unfold exprG. cbn [fst snd].
  split; [exact (step_trans _ _ _ (quiet_step _ _ Q) S)|]. split; [exact F|]. split; [congruence|]. split; [congruence|]. rewrite <- E1, <- E7. exact R.
Qed.
Lemma exprG_null g : fin (maxCnt g) g -> exprG g (ENull, g).
Proof. intros F. split; [apply step_refl|]. split; [exact F|]. split; [reflexivity|]. split; [reflexivity|]. apply srefs_nil. Qed.
Lemma quiet_refl g : quiet g g.
Proof. exists (ge g). destruct g. repeat split. apply tail_refl. Qed.
Lemma quiet_fin1 g g' : quiet g g' -> fin (maxCnt g) g -> fin (maxCnt g') g'.
Proof. intros Q F. destruct (quiet_eqs _ _ Q) as (_ & _ & -> & _). exact (quiet_fin _ _ _ Q F). Qed.
Lemma ac_gExprG g : fin (maxCnt g) g -> ac (gExpr g) (fun r => exprG g (tr (fst r), snd r) /\ tr (fst r) <> ENull /\ lastStat (snd r) = lastStat g).
Proof.
  intros F. eapply ac_mono; [apply (ac_gExpr _ _ F)|]. intros [w g'] M. split; [exact (madeG_exprG _ _ _ F M)|].
  destruct M as (_ & _ & _ & _ & L & _ & _ & _ & N). split; [exact N|exact L].
Qed.
Lemma ac_getCond g : fin (maxCnt g) g -> ac (getCond g) (exprG g).
Proof.
  intros F. unfold getCond. eapply ac_bind; [apply ac_gChkTok|]. intros g1 Q1. eapply ac_bind; [apply (ac_gExprG _ (quiet_fin1 _ _ Q1 F))|]. intros [w g2] (M & _). cbn [fst snd] in M.
  eapply ac_bind; [apply ac_chkType|]. cbn beta. intros w' E. eapply ac_bind; [apply ac_gChkTok|]. intros g3 Q3. cbn [ac]. rewrite E.
  exact (exprG_before _ _ _ _ Q1 (exprG_quiet _ _ _ _ M Q3)).
Qed.
(* assembling *)
Lemma post_expr g0 e g : exprG g0 (e, g) -> post g0 (SExpr e) g.
Proof.
  intros (S & F & C & E & R). cbn [fst snd] in *. constructor; try assumption; try discriminate; try (intros; reflexivity). rewrite E. exact R.
Qed.
Lemma ac_body p : statOk p -> forall g, fin (maxCnt g) g ->
  ac (body p g) (fun r => post (wDepth g (depth g + 1)) (fst r) (wDepth (snd r) (depth g + 1)) /\ depth (snd r) = depth g /\ curCnt (snd r) = curCnt g).
Proof.
  intros HP g F. unfold body. eapply ac_bind; [apply (HP (wDepth g (depth g + 1)))|].
  - apply (fin_keep _ _ _ F); try reflexivity. exact (f_cnt _ _ F).
  - intros [b g2] [P C]. cbn [fst snd ac] in *. pose proof (p_step _ _ _ P) as ((_ & _ & _ & _ & _ & D) & _). cbn [wDepth depth] in D.
    split; [|split; [cbn [wDepth depth]; lia|exact C]].
    replace (wDepth (wDepth g2 (depth g2 - 1)) (depth g + 1)) with g2; [exact P|]. rewrite <- D. destruct g2; reflexivity.
Qed.
Lemma step_depth g0 g : step (wDepth g0 (depth g0 + 1)) (wDepth g (depth g0 + 1)) -> depth g = depth g0 -> step g0 g.
Proof. intros ((A & B & C & D & E & _) & S & X & M) H. split; [repeat split; assumption|]. split; [exact S|]. split; [exact X|exact M]. Qed.
(* parts of a statement: each taken after the one before *)
Record part (g0 : gs) (l : list ref) (g : gs) : Prop := Part {
  t_step : step g0 g; t_fin : fin (maxCnt g) g; t_ref : srefs (gnt g) (clab (ge g0)) (clab (ge g)) l }.
Lemma part_start g0 : fin (maxCnt g0) g0 -> part g0 [] g0.
Proof. intros F. constructor; [apply step_refl|exact F|apply srefs_nil]. Qed.
Lemma part_quiet g0 l g g' : part g0 l g -> quiet g g' -> part g0 l g'.
Proof.
  intros [S F R] Q. pose proof (quiet_step _ _ Q) as SQ. constructor.
  - exact (step_trans _ _ _ S SQ).
  - exact (quiet_fin1 _ _ Q F).
  - exact (srefs_step _ _ _ _ (fin_pI _ _ F) SQ R).
Qed.
Lemma part_app g0 l g l2 g2 : part g0 l g -> part g l2 g2 -> part g0 (l ++ l2) g2.
Proof.
  intros [S F R] [S2 F2 R2]. constructor.
  - exact (step_trans _ _ _ S S2).
  - exact F2.
  - apply srefs_app. split; [exact (srefs_step _ _ _ _ (fin_pI _ _ F) S2 R)|exact (srefs_low _ _ _ _ _ (step_lab _ _ S) R2)].
Qed.
Lemma part_expr g0 e g : exprG g0 (e, g) -> part g0 (refsE e) g.
Proof. intros (S & F & C & E & R). cbn [fst snd] in *. constructor; try assumption. rewrite E. exact R. Qed.
Lemma part_post g0 s g : post g0 s g -> part g0 (refsS s) g.
Proof. intros [S F R X Y W]. constructor; assumption. Qed.
Lemma part_body g0 b g : post (wDepth g0 (depth g0 + 1)) b (wDepth g (depth g0 + 1)) -> depth g = depth g0 -> part g0 (refsS b) g.
Proof.
  intros [S F R X Y W] H. constructor.
  - exact (step_depth _ _ S H).
  - apply (fin_keep _ _ _ F); try reflexivity. exact (f_cnt _ _ F).
  - exact R.
Qed.
Lemma part_refs g0 l l' g : part g0 l g -> incl l' l -> part g0 l' g.
Proof. intros [S F R] I. constructor; try assumption. intros r H. exact (R r (I r H)). Qed.
Lemma part_type g0 l g t : part g0 l g -> part g0 l (wType g t).
Proof.
  intros [(A & B & C & D) F R]. constructor; [|apply (fin_keep _ _ _ F); try reflexivity; exact (f_cnt _ _ F)|exact R]. split; [exact A|]. split; [exact B|]. split; [exact C|exact D].
Qed.
Lemma part_do g0 l g : part g0 l g -> noDoT (ge g0) -> noDoT (ge g).
Proof. intros [S _ _]. exact (step_do _ _ S). Qed.
Lemma part_depth g0 l g : part g0 l g -> depth g = depth g0.
Proof. intros [((_ & _ & _ & _ & _ & D) & _) _ _]. exact D. Qed.
Lemma part_done g0 s g : part g0 (refsS s) g -> (escapes s = true -> 0 < depth g0) -> rets v s = true -> (noDoT (ge g0) -> noDo s = true) -> post g0 s g.
Proof. intros [S F R] X Y W. constructor; assumption. Qed.

Section Stat.
Variable stat : sparser.
Hypothesis HP : statOk stat.
Definition okS g0 (r : stmt * gs) : Prop := post g0 (fst r) (snd r) /\ curCnt (snd r) = curCnt g0.
Lemma exprG_cnt g0 e g : exprG g0 (e, g) -> curCnt g = curCnt g0. Proof. intros (_ & _ & C & _). exact C. Qed.
Lemma quiet_cnt g0 g : quiet g0 g -> curCnt g = curCnt g0. Proof. intros Q. apply (quiet_eqs _ _ Q). Qed.
Lemma ac_getIf g : fin (maxCnt g) g -> ac (getIf stat g) (okS g).
Proof.
  intros F. unfold getIf. eapply ac_bind; [apply (ac_getCond _ F)|]. intros [c g1] M. cbn beta iota. pose proof (part_expr _ _ _ M) as T1. pose proof (exprG_cnt _ _ _ M) as C1.
  eapply ac_bind; [apply (HP g1 (t_fin _ _ _ T1))|]. intros [b g2] [P C2]. cbn [fst snd] in P, C2.
  pose proof (part_app _ _ _ _ _ T1 (part_post _ _ _ P)) as T2. pose proof (part_depth _ _ _ T1) as D1. pose proof (part_depth _ _ _ T2) as D2.
  destruct (gIsTok LxELSE g2) as [g3|] eqn:K.
  - apply quiet_isTok in K. pose proof (part_quiet _ _ _ _ T2 K) as T3. pose proof (part_depth _ _ _ T3) as D3. pose proof (quiet_cnt _ _ K) as C3.
    eapply ac_bind; [apply (HP g3 (t_fin _ _ _ T3))|]. intros [b2 g4] [P4 C4]. cbn [fst snd ac] in *. split; cbn [fst snd]; [|congruence].
    apply part_done.
    + cbn [refsS]. rewrite app_assoc. exact (part_app _ _ _ _ _ T3 (part_post _ _ _ P4)).
    + cbn [escapes]. intros E. apply orb_prop in E. destruct E as [E|E]; [pose proof (p_esc _ _ _ P E)|pose proof (p_esc _ _ _ P4 E)]; lia.
    + cbn [rets]. rewrite (p_ret _ _ _ P), (p_ret _ _ _ P4). reflexivity.
    + intros N. cbn [noDo]. rewrite (p_do _ _ _ P (part_do _ _ _ T1 N)), (p_do _ _ _ P4 (part_do _ _ _ T3 N)). reflexivity.
  - cbn [ac]. split; cbn [fst snd]; [|congruence]. apply part_done; [exact T2| |exact (p_ret _ _ _ P)|intros N; exact (p_do _ _ _ P (part_do _ _ _ T1 N))]. cbn [escapes]. intros E. pose proof (p_esc _ _ _ P E). lia.
Qed.
Lemma ac_getWhile g : fin (maxCnt g) g -> ac (getWhile stat g) (okS g).
Proof.
  intros F. unfold getWhile. eapply ac_bind; [apply (ac_getCond _ F)|]. intros [c g1] M. cbn beta iota. pose proof (part_expr _ _ _ M) as T1. pose proof (exprG_cnt _ _ _ M) as C1.
  eapply ac_bind; [apply (ac_body _ HP g1 (t_fin _ _ _ T1))|]. intros [b g2] (P & D2 & C2). cbn [fst snd ac] in *. split; cbn [fst snd]; [|congruence].
  apply part_done; [|discriminate|exact (p_ret _ _ _ P)|intros N; exact (p_do _ _ _ P (part_do _ _ _ T1 N))]. cbn [refsS refsE]. rewrite app_nil_r.
  exact (part_app _ _ _ _ _ T1 (part_body _ _ _ P D2)).
Qed.
Lemma gtok_do g : gtok g = LxDO -> noDoT (ge g) -> False.
Proof.
  unfold gtok, tok, noDoT. destruct (its (ge g)) as [|a r]; [discriminate|]. intros E H. exact (H a (or_introl eq_refl) E).
Qed.
Lemma ac_getDoWhile g0 g : quiet g0 g -> gtok g0 = LxDO -> fin (maxCnt g) g -> ac (getDoWhile stat g) (okS g0).
Proof.
  intros Q0 DO F. unfold getDoWhile. eapply ac_bind; [apply (ac_body _ HP g F)|]. intros [b g2] (P & D2 & C2). cbn [fst snd] in P, D2, C2.
  pose proof (part_body _ _ _ P D2) as T2. eapply ac_bind; [apply ac_gChkTok|]. intros g3 Q3. pose proof (part_quiet _ _ _ _ T2 Q3) as T3. pose proof (quiet_cnt _ _ Q3).
  eapply ac_bind; [apply (ac_getCond _ (t_fin _ _ _ T3))|]. intros [c g4] M. cbn beta iota. pose proof (part_app _ _ _ _ _ T3 (part_expr _ _ _ M)) as T4. pose proof (exprG_cnt _ _ _ M).
  eapply ac_bind; [apply ac_gChkTok|]. intros g5 Q5. pose proof (part_quiet _ _ _ _ T4 Q5) as [S5 F5 R5]. pose proof (quiet_cnt _ _ Q5). pose proof (quiet_cnt _ _ Q0). cbn [ac]. split; cbn [fst snd]; [|congruence].
  apply part_done; [|discriminate|exact (p_ret _ _ _ P)|intros N; destruct (gtok_do _ DO N)].
  constructor; [exact (step_trans _ _ _ (quiet_step _ _ Q0) S5)|exact F5|]. exact (srefs_low _ _ _ _ _ (step_lab _ _ (quiet_step _ _ Q0)) R5).
Qed.
Lemma ac_blockLoop f : forall g0 lval g, post g0 lval g -> (lastStat g = LxRETURN -> endsRet lval = true \/ lastStat g0 = LxRETURN) ->
  (forall g, fin (maxCnt g) g -> ac (stat g) (fun r => lastStat (snd r) = LxRETURN -> endsRet (fst r) = true)) ->
  ac (blockLoop krnFlag stat f lval g) (fun r => post g0 (fst r) (snd r) /\ (lastStat (snd r) = LxRETURN -> endsRet (fst r) = true \/ lastStat g0 = LxRETURN)).
Proof.
  intros g0 lval g P L HL. revert lval g P L. induction f as [|f IH]; intros lval g P L; [exact I|]. cbn [blockLoop].
  destruct (_ || _); [exact (conj P L)|]. unfold gIsType. cbn beta iota.
  set (g1 := wType g _). assert (post g0 lval g1) as P1.
  { destruct P as [S F R X Y W]. constructor; try assumption. apply (fin_keep _ _ _ F); try reflexivity. exact (f_cnt _ _ F). }
  eapply ac_bind with (P := fun r => post g1 (fst r) (snd r) /\ (lastStat (snd r) = LxRETURN -> endsRet (fst r) = true \/ lastStat (snd r) = lastStat g1)).
  - destruct (isType (gnt g) (ge g)).
    + eapply ac_bind; [apply (ac_getLVars g1 (p_fin _ _ _ P1))|]. intros [r2 g2] (Q1 & Q2 & _). cbn [fst snd] in *. eapply ac_bind; [apply ac_gChkTok|]. intros g3 Q3. cbn [ac fst snd].
      split; [exact (post_quiet _ _ _ _ Q1 Q3)|]. intros _. right. destruct (quiet_eqs _ _ Q3) as (_ & _ & _ & E & _). congruence.
    + pose proof (HP g1 (p_fin _ _ _ P1)) as A. pose proof (HL g1 (p_fin _ _ _ P1)) as B. destruct (stat g1) as [[s2 g2]| | |]; try exact I. cbn [ac fst snd] in *.
      destruct A as [A _]. split; [exact A|]. intros E. left. exact (B E).
  - intros [r2 g2] [P2 L2]. cbn [fst snd] in *. apply IH; [exact (post_cat _ _ _ _ _ P1 P2)|]. intros E. rewrite catS_ends.
    destruct (L2 E) as [L3|L3]; [rewrite L3, orb_true_r; left; reflexivity|]. rewrite L3 in E. destruct (L E) as [X|X]; [rewrite X; left; reflexivity|right; exact X].
Qed.
Lemma ac_getBlock g : fin (maxCnt g) g ->
  (forall g, fin (maxCnt g) g -> ac (stat g) (fun r => lastStat (snd r) = LxRETURN -> endsRet (fst r) = true)) ->
  ac (getBlock krnFlag stat g) (fun r => okS g r /\ (lastStat (snd r) = LxRETURN -> endsRet (fst r) = true \/ lastStat g = LxRETURN)).
Proof.
  intros F HL. unfold getBlock. assert (post g SNull g) as P0. { constructor; [apply step_refl|exact F|apply srefs_nil|discriminate|reflexivity|intros; reflexivity]. }
  eapply ac_bind; [apply (ac_blockLoop _ g SNull g P0 (fun E => or_intror E) HL)|]. intros [l g1] [P L]. cbn [fst snd] in *.
  eapply ac_bind; [apply ac_gChkTok|]. intros g2 Q. pose proof (post_quiet _ _ _ _ P Q) as P2. destruct (quiet_eqs _ _ Q) as (_ & _ & _ & E & _). cbn [ac]. split; [split|]; cbn [fst snd].
  - pose proof (post_void _ _ _ F P2) as [S5 F5 R5 X5 Y5 W5]. constructor; rewrite ?toBlk_refs, ?toBlk_esc, ?toBlk_rets, ?toBlk_do; assumption.
  - reflexivity.
  - cbn [wCnt wNt lastStat]. rewrite E, toBlk_ends. exact L.
Qed.
Lemma ac_getFor g : fin (maxCnt g) g -> ac (getFor krnFlag stat g) (okS g).
Proof.
  intros F. unfold getFor. eapply ac_bind; [apply ac_gChkTok|]. intros g1 Q1. pose proof (part_quiet _ _ _ _ (part_start _ F) Q1) as T1.
  eapply ac_bind with (P := fun r => part g (refsS (fst r)) (snd r) /\ escapes (fst r) = false /\ rets v (fst r) = true /\ (noDoT (ge g) -> noDo (fst r) = true)).
  { destruct (_ =? _); [cbn [ac fst snd]; split; [exact T1|]; split; [reflexivity|]; split; [reflexivity|intros; reflexivity]|]. unfold gIsType. cbn beta iota. pose proof (part_type _ _ _ (typeOf (gnt g1) (ge g1)) T1) as T2. set (g2 := wType g1 _) in *.
    destruct (isType _ _).
    - eapply ac_mono; [apply (ac_getLVars g2 (t_fin _ _ _ T2))|]. intros [s3 g3] (P & L & X & _). cbn [fst snd] in *. split; [exact (part_app _ _ _ _ _ T2 (part_post _ _ _ P))|]. split; [exact X|]. split; [exact (p_ret _ _ _ P)|intros N; exact (p_do _ _ _ P (part_do _ _ _ T2 N))].
    - eapply ac_bind; [apply (ac_gExprG g2 (t_fin _ _ _ T2))|]. intros [w g3] (M & _). cbn [ac fst snd] in *. split; [exact (part_app _ _ _ _ _ T2 (part_expr _ _ _ M))|]. split; [reflexivity|]. split; [reflexivity|intros; reflexivity]. }
  intros [ini g2] (T2 & X2 & Y2 & W2). cbn [fst snd] in *.
  eapply ac_bind; [apply ac_gChkTok|]. intros g3 Q3. pose proof (part_quiet _ _ _ _ T2 Q3) as T3.
  eapply ac_bind with (P := fun r => part g (refsS ini ++ refsE (fst r)) (snd r)).
  { destruct (_ =? _); [cbn [ac fst snd refsE]; rewrite app_nil_r; exact T3|]. eapply ac_bind; [apply (ac_gExprG g3 (t_fin _ _ _ T3))|]. intros [w g4] (M & _). cbn [fst snd] in M.
    eapply ac_bind; [apply ac_chkType|]. cbn beta. intros w' E. cbn [ac fst snd]. rewrite E. exact (part_app _ _ _ _ _ T3 (part_expr _ _ _ M)). }
  intros [cnd g4] T4. cbn [fst snd] in *. eapply ac_bind; [apply ac_gChkTok|]. intros g5 Q5. pose proof (part_quiet _ _ _ _ T4 Q5) as T5.
  eapply ac_bind with (P := fun r => part g ((refsS ini ++ refsE cnd) ++ refsE (fst r)) (snd r)).
  { destruct (_ =? _); [cbn [ac fst snd refsE]; rewrite app_nil_r; exact T5|]. eapply ac_bind; [apply (ac_gExprG g5 (t_fin _ _ _ T5))|]. intros [w g6] (M & _). cbn [ac fst snd] in *.
    exact (part_app _ _ _ _ _ T5 (part_expr _ _ _ M)). }
  intros [rini g6] T6. cbn [fst snd] in *. eapply ac_bind; [apply ac_gChkTok|]. intros g7 Q7. pose proof (part_quiet _ _ _ _ T6 Q7) as T7.
  eapply ac_bind; [apply (ac_body _ HP g7 (t_fin _ _ _ T7))|]. intros [b g8] (P & D8 & C8). cbn [fst snd ac] in *.
  split; cbn [fst snd]; [|reflexivity].
  apply (post_void _ _ _ F). apply part_done.
  - apply (part_refs _ _ _ _ (part_app _ _ _ _ _ T7 (part_body _ _ _ P D8))). cbn [refsS]. intros r I. rewrite ?in_app_iff in *. tauto.
  - cbn [escapes]. rewrite X2. discriminate.
  - cbn [rets]. rewrite Y2. exact (p_ret _ _ _ P).
  - intros N. cbn [noDo]. rewrite (W2 N). exact (p_do _ _ _ P (part_do _ _ _ T7 N)).
Qed.
Lemma ac_getReturn g : fin (maxCnt g) g -> ac (getReturn g) (fun r => okS g r /\ endsRet (fst r) = true).
Proof.
  intros F. unfold getReturn. eapply ac_bind with (P := fun r => exprG g r /\ Bool.eqb (noE (fst r)) v = true).
  { pose proof (f_v _ _ F) as V. destruct (negb (typeAt (gnt g) (funcIdx g) =? TyINTR) && _); cbn [negb] in V.
    - eapply ac_bind; [apply (ac_gExprG _ F)|]. intros [w g1] (M & N & _). cbn [fst snd] in *. eapply ac_bind; [apply ac_chkCmpat|]. cbn beta. intros w' E. cbn [ac fst snd]. rewrite E.
      split; [exact M|]. rewrite V. destruct (tr w); try reflexivity. contradiction.
    - cbn [ac fst snd]. split; [exact (exprG_null _ F)|]. rewrite V. reflexivity. }
  intros [e g1] [M V]. cbn [fst snd] in *. eapply ac_bind; [apply ac_gChkTok|]. intros g2 Q. cbn [ac fst snd]. split; [|reflexivity]. split; cbn [fst snd].
  - apply part_done; [exact (part_quiet _ _ _ _ (part_expr _ _ _ M) Q)|discriminate|exact V|intros; reflexivity].
  - rewrite (quiet_cnt _ _ Q). exact (exprG_cnt _ _ _ M).
Qed.
End Stat.
Lemma ac_getStatF f : forall g, fin (maxCnt g) g -> ac (getStatF krnFlag f g) (fun r => okS g r /\ (lastStat (snd r) = LxRETURN -> endsRet (fst r) = true)).
Proof.
  induction f as [|f IH]; intros g F; [exact I|]. cbn [getStatF].
  assert (statOk (getStatF krnFlag f)) as HP by (intros g1 F1; eapply ac_mono; [apply (IH g1 F1)|]; intros r [A _]; exact A).
  assert (forall g, fin (maxCnt g) g -> ac (getStatF krnFlag f g) (fun r => lastStat (snd r) = LxRETURN -> endsRet (fst r) = true)) as HL
    by (intros g1 F1; eapply ac_mono; [apply (IH g1 F1)|]; intros r [_ A]; exact A).
  pose proof (quiet_getTok g) as Q. pose proof (quiet_fin1 _ _ Q F) as F1. set (g1 := gGetTok g) in *.
  eapply ac_bind with (P := fun r => okS g r /\ (gtok g = LxRETURN -> endsRet (fst r) = true)).
  2: { intros [s g2] [[P C] L]. cbn [ac fst snd] in *. split; [split|exact L]; cbn [fst snd]; [|exact C].
       destruct P as [S F2 R X Y W]. constructor; try assumption. apply (fin_keep _ _ _ F2); try reflexivity. exact (f_cnt _ _ F2). }
  assert (forall r, okS g1 r -> okS g r) as BK.
  { intros r [P C]. split; [exact (post_before _ _ _ _ (quiet_step _ _ Q) P)|]. rewrite C. exact (quiet_cnt _ _ Q). }
  destruct (Z.eqb_spec (gtok g) LxIF) as [E|E]. { eapply ac_mono; [apply (ac_getIf _ HP _ F1)|]. intros r P. split; [exact (BK _ P)|]. rewrite E. discriminate. }
  clear E; destruct (Z.eqb_spec (gtok g) LxWHILE) as [E|E]. { eapply ac_mono; [apply (ac_getWhile _ HP _ F1)|]. intros r P. split; [exact (BK _ P)|]. rewrite E. discriminate. }
  clear E; destruct (Z.eqb_spec (gtok g) LxDO) as [E|E]. { eapply ac_mono; [apply (ac_getDoWhile _ HP _ _ Q E F1)|]. intros r P. split; [exact P|]. rewrite E. discriminate. }
  clear E; destruct (Z.eqb_spec (gtok g) LxFOR) as [E|E]. { eapply ac_mono; [apply (ac_getFor _ HP _ F1)|]. intros r P. split; [exact (BK _ P)|]. rewrite E. discriminate. }
  clear E; destruct (Z.eqb_spec (gtok g) LxRETURN) as [E|ER]. { eapply ac_mono; [apply (ac_getReturn _ F1)|]. intros r [P L]. split; [exact (BK _ P)|]. intros _. exact L. }
  destruct (Z.eqb_spec (gtok g) LxBREAK) as [E|E].
  { unfold getBreak. destruct (Z.leb_spec (depth g1) 0) as [D|D]; [exact I|]. eapply ac_bind; [apply ac_gChkTok|]. intros g2 Q2. cbn [ac]. split; [apply BK|rewrite E; discriminate].
    split; cbn [fst snd]; [|exact (quiet_cnt _ _ Q2)]. apply part_done; [exact (part_quiet _ _ _ _ (part_start _ F1) Q2)|intros _; exact D|reflexivity|intros; reflexivity]. }
  clear E; destruct (Z.eqb_spec (gtok g) LxCONTINUE) as [E|E].
  { unfold getCont. destruct (Z.leb_spec (depth g1) 0) as [D|D]; [exact I|]. eapply ac_bind; [apply ac_gChkTok|]. intros g2 Q2. cbn [ac]. split; [apply BK|rewrite E; discriminate].
    split; cbn [fst snd]; [|exact (quiet_cnt _ _ Q2)]. apply part_done; [exact (part_quiet _ _ _ _ (part_start _ F1) Q2)|intros _; exact D|reflexivity|intros; reflexivity]. }
  clear E; destruct (Z.eqb_spec (gtok g) cLC) as [E|E]. { eapply ac_mono; [apply (ac_getBlock _ HP _ F1 HL)|]. intros r [P _]. split; [exact (BK _ P)|]. rewrite E. discriminate. }
  clear E; destruct (Z.eqb_spec (gtok g) cSEMI) as [E|E].
  { cbn [ac]. split; [apply BK|rewrite E; discriminate]. split; [|reflexivity]. cbn [fst snd]. apply part_done; [exact (part_start _ F1)|discriminate|reflexivity|intros; reflexivity]. }
  eapply ac_bind; [apply (ac_gExprG g F)|]. intros [w g2] (M & _ & _). cbn [fst snd] in *. eapply ac_bind; [apply ac_gChkTok|]. intros g3 Q3. cbn [ac fst snd]. split.
  - split; cbn [fst snd]; [|rewrite (quiet_cnt _ _ Q3); exact (exprG_cnt _ _ _ M)]. apply part_done; [exact (part_quiet _ _ _ _ (part_expr _ _ _ M) Q3)|discriminate|reflexivity|intros; reflexivity].
  - intros X. contradiction.
Qed.
End Body.
