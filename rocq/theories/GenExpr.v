(* Correctness of the code generated for expressions. *)
From Coq Require Import ZArith Bool List Lia.
From Verif Require Import Word SyTree ExprSem VM VmCode VmBase GenLabels.
Import ListNotations.
Open Scope Z_scope.

Ltac inv H := inversion H; subst; clear H.

(* the order in which vmCode.c evaluates operands *)
Definition cg_order (o : op2) (l r : expr) : bool := evalDepth l <? evalDepth r.

Definition strict2 (o : op2) : bool :=
  match o with
  | ADD | SUB | SHL | SHR | BAND | BXOR | BOR | MUL | DIV | MOD
  | GT | GE | LT | LE | EQU | NEQ => true
  | _ => false
  end.

Section Sem.
Variable M : machine.
Variable N : names.
Variable sw : op2 -> expr -> expr -> bool.
Notation eval := (eval M N sw).
Notation ev := (ev M N sw).

Lemma eval_strict : forall o l r m, strict2 o = true ->
  eval (E2 o l r) m =
  if either_order o && sw o l r then
    match eval r m with
    | Some (b, s) => match eval l s with
                     | Some (a, s') => match op2_val o a b with Some v => Some (v, s') | None => None end
                     | None => None end
    | None => None end
  else
    match eval l m with
    | Some (a, s) => match eval r s with
                     | Some (b, s') => match op2_val o a b with Some v => Some (v, s') | None => None end
                     | None => None end
    | None => None end.
Proof.
  intros o l r m H. unfold ExprSem.eval.
  destruct o; try discriminate; cbn [ExprSem.ev either_order andb];
    try (destruct (sw _ l r));
    repeat match goal with
    | |- context [ExprSem.one M (ev ?e ?s)] => destruct (one M (ev e s)) as [(?, ?)|]; [|reflexivity]
    end; unfold ret1; try reflexivity;
    match goal with |- context [op2_val ?o ?a ?b] => destruct (op2_val o a b); reflexivity end.
Qed.

Lemma eval_or : forall l r m, eval (E2 OR l r) m =
  match eval l m with
  | Some (v, s) => if v =? 0 then eval r s else Some (1, s)
  | None => None end.
Proof.
  intros. unfold ExprSem.eval. cbn [ExprSem.ev].
  destruct (one M (ev l m)) as [(v, s)|]; [|reflexivity].
  destruct (v =? 0); [|reflexivity]. destruct (one M (ev r s)) as [(w, s')|]; reflexivity.
Qed.
Lemma eval_and : forall l r m, eval (E2 AND l r) m =
  match eval l m with
  | Some (v, s) => if v =? 0 then Some (0, s) else eval r s
  | None => None end.
Proof.
  intros. unfold ExprSem.eval. cbn [ExprSem.ev].
  destruct (one M (ev l m)) as [(v, s)|]; [|reflexivity].
  destruct (v =? 0); [reflexivity|]. destruct (one M (ev r s)) as [(w, s')|]; reflexivity.
Qed.
Lemma eval_comm : forall l r m, eval (E2 COMM l r) m =
  match eval l m with Some (_, s) => eval r s | None => None end.
Proof.
  intros. unfold ExprSem.eval. cbn [ExprSem.ev].
  destruct (one M (ev l m)) as [(v, s)|]; [|reflexivity].
  destruct (one M (ev r s)) as [(w, s')|]; reflexivity.
Qed.
Lemma eval_idxw : forall o l r m, o = IDXR \/ o = IDXI -> eval (E2 o l r) m =
  match eval l m with
  | Some (a, s) => match eval r s with
                   | Some (b, s') => Some (w16 (ldw M (gs s') a b), s')
                   | None => None end
  | None => None end.
Proof.
  intros o l r m [->| ->]; unfold ExprSem.eval; cbn [ExprSem.ev either_order andb];
  (destruct (one M (ev l m)) as [(v, s)|]; [|reflexivity]);
  destruct (one M (ev r s)) as [(w, s')|]; reflexivity.
Qed.
Lemma chk_eq : forall b v w, chk b v = Some w -> w = v.
Proof. intros b v w. unfold chk. destruct b; [destruct ((v =? 0) || (v =? 1))|]; congruence. Qed.
Lemma one_ret1 : forall o s v s', one M (ret1 M o s) = Some (v, s') -> o = Some v /\ s' = s.
Proof. intros o s v s'. unfold ret1. destruct o; cbn [one]; intro H; inv H; auto. Qed.
Lemma eval_idxb : forall o l r m v m', o = IDXC \/ o = IDXB -> eval (E2 o l r) m = Some (v, m') ->
  exists a s b, eval l m = Some (a, s) /\ eval r s = Some (b, m') /\ v = w_chr (ldb M (gs m') a b).
Proof.
  intros o l r m v m' [->| ->]; unfold ExprSem.eval; cbn [ExprSem.ev either_order andb];
  (destruct (one M (ev l m)) as [(a, s)|] eqn:Hl; [|discriminate]);
  (destruct (one M (ev r s)) as [(b, s')|] eqn:Hr; [|discriminate]);
  intro H; apply one_ret1 in H; destruct H as (H, ->); exists a, s, b; (split; [reflexivity|split; [exact Hr|]]);
  first [apply chk_eq in H; exact H | injection H as H; symmetry; exact H].
Qed.
Lemma eval_dot : forall l f m v m', eval (E2 DOT l (Cnst f)) m = Some (v, m') ->
  exists a, eval l m = Some (a, m') /\ v = w16 (ldw M (gs m') a (w16 (slot N f))).
Proof.
  intros l f m v m'. unfold ExprSem.eval. cbn [ExprSem.ev].
  destruct (one M (ev l m)) as [(a, s)|]; [|discriminate].
  intro H; apply one_ret1 in H; destruct H as (H, ->). apply chk_eq in H. exists a; auto.
Qed.
Lemma eval_un : forall o l m, eval (E1 o l) m =
  match eval l m with Some (v, s) => Some (op1_val o v, s) | None => None end.
Proof.
  intros. unfold ExprSem.eval. cbn [ExprSem.ev].
  destruct (one M (ev l m)) as [(v, s)|]; reflexivity.
Qed.
Lemma eval_leaf : forall k m v m', eval (ELeaf k) m = Some (v, m') -> m' = m /\
  v = match k with
      | LCnst c => w16 c | LLoc i => w16 (locs m (lcl M i)) | LPrm i => w16 (prms m (pcl M i))
      | LGlb i => w16 (ldg M (gs m) i) | LStr l => w16 (lab M l) | LAddr i => w16 (adr M i)
      end.
Proof.
  intros k m v m'. unfold ExprSem.eval. cbn [ExprSem.ev]. intro H.
  apply one_ret1 in H; destruct H as (H, ->). split; [reflexivity|].
  destruct k; cbn [leaf_val] in H; first [apply chk_eq in H; exact H | congruence].
Qed.
(* the state in which an argument list is evaluated, and its values *)
Definition evargs (a : expr) (m : state M) : option (list Z * state M) :=
  match a with ENull => Some ([], m) | _ => ev a m end.
Lemma eval_func : forall f a m v m', eval (EFunc f a) m = Some (v, m') ->
  exists vs s x g, evargs a m = Some (vs, s) /\ call M f vs (gs s) = Some (x, g) /\
                   v = w16 x /\ m' = set_g M s g.
Proof.
  intros f a m v m'. unfold ExprSem.eval. cbn [ExprSem.ev]. fold (evargs a m).
  destruct (evargs a m) as [(vs, s)|]; [|discriminate].
  destruct (call M f vs (gs s)) as [(x, g)|] eqn:C; [|discriminate].
  intro H; apply one_ret1 in H; destruct H as (H, ->). apply chk_eq in H. exists vs, s, x, g; auto.
Qed.
Lemma ev_single : forall e m vs m', ev e m = Some (vs, m') ->
  (match e with E2 SEMI _ _ => False | _ => True end) -> exists v, vs = [v].
Proof.
  intros e m vs m' H T. destruct e as [|k|o a|o l r|f a]; cbn [ExprSem.ev] in H.
  - discriminate.
  - unfold ret1 in H. destruct (leaf_val M N k m); inv H. eexists; reflexivity.
  - destruct (one M (ev a m)) as [(v, s)|]; inv H. eexists; reflexivity.
  - destruct o; try contradiction;
    repeat match type of H with
    | (match ?X with _ => _ end) = _ => destruct X; try discriminate
    | (if ?X then _ else _) = _ => destruct X; try discriminate
    | (let (_, _) := ?X in _) = _ => destruct X; try discriminate
    end; unfold ret1 in H;
    repeat match type of H with
    | (match ?X with _ => _ end) = _ => destruct X; try discriminate
    end; inv H; eexists; reflexivity.
  - match type of H with (match ?X with _ => _ end) = _ => destruct X as [(vs', s)|]; [|discriminate] end.
    destruct (call M f vs' (gs s)) as [(x, g)|]; [|discriminate].
    unfold ret1 in H. destruct (chk (is_bool N f) (w16 x)); inv H. eexists; reflexivity.
Qed.
Lemma eval_ev : forall e m v m', eval e m = Some (v, m') -> ev e m = Some ([v], m').
Proof.
  intros e m v m'. unfold ExprSem.eval, one. destruct (ev e m) as [([|x [|y t]], s)|]; intro H; inv H. reflexivity.
Qed.

(* an assignment: value, then operands of the left side, then the store *)
Lemma eval_ass : forall l r m v m', eval (E2 ASS l r) m = Some (v, m') ->
  exists s, eval r m = Some (v, s) /\
  ((exists i, l = ELeaf (LLoc i) /\ m' = set_loc M s (lcl M i) v) \/
   (exists i, l = ELeaf (LPrm i) /\ m' = set_prm M s (pcl M i) v) \/
   (exists i, l = ELeaf (LGlb i) /\ m' = set_g M s (stg M (gs s) i v)) \/
   (exists b f a s', l = E2 DOT b (Cnst f) /\ eval b s = Some (a, s') /\
                     m' = set_g M s' (stw M (gs s') a (w16 (slot N f)) v)) \/
   (exists o b i a s1 k s2, l = E2 o b i /\ (o = IDXR \/ o = IDXI) /\ eval b s = Some (a, s1) /\
                     eval i s1 = Some (k, s2) /\ m' = set_g M s2 (stw M (gs s2) a k v)) \/
   (exists o b i a s1 k s2, l = E2 o b i /\ (o = IDXC \/ o = IDXB) /\ eval b s = Some (a, s1) /\
                     eval i s1 = Some (k, s2) /\ m' = set_g M s2 (stb M (gs s2) a k v))).
Proof.
  intros l r m v m'. unfold ExprSem.eval. cbn [ExprSem.ev].
  destruct (one M (ev r m)) as [(x, s)|]; [|discriminate]. intro H.
  destruct l as [|[c|i|i|i|q|i]|o e|o b i|f e]; try discriminate.
  - inv H. exists s. split; [reflexivity|]. left. eauto.
  - inv H. exists s. split; [reflexivity|]. right; left. eauto.
  - inv H. exists s. split; [reflexivity|]. right; right; left. eauto.
  - assert (DOTC : forall f, o = DOT -> i = Cnst f ->
       (one M (match one M (ev b s) with
       | Some (a, s') => Some ([x], set_g M s' (stw M (gs s') a (w16 (slot N f)) x))
       | None => None end)) = Some (v, m') ->
       exists s0, Some (x, s) = Some (v, s0) /\ exists a s', one M (ev b s0) = Some (a, s') /\
         m' = set_g M s' (stw M (gs s') a (w16 (slot N f)) v)).
    { intros f _ _ K. destruct (one M (ev b s)) as [(a, s')|] eqn:E; [|discriminate]. inv K.
      exists s. split; [reflexivity|]. exists a, s'. auto. }
    assert (IDX : forall (F : Z -> state M -> Z -> state M -> option (list Z * state M)),
       one M (match one M (ev b s) with
        | Some (a, s1) => match one M (ev i s1) with
                          | Some (k, s2) => F a s1 k s2 | None => None end
        | None => None end) = Some (v, m') ->
        exists a s1 k s2, one M (ev b s) = Some (a, s1) /\ one M (ev i s1) = Some (k, s2) /\ one M (F a s1 k s2) = Some (v, m')).
    { intros F K. destruct (one M (ev b s)) as [(a, s1)|] eqn:E; [|discriminate].
      destruct (one M (ev i s1)) as [(k, s2)|] eqn:E2; [|discriminate]. exists a, s1, k, s2. auto. }
    destruct o;
      try (destruct (IDX (fun _ _ _ _ => None) H) as (? & ? & ? & ? & ? & ? & K); discriminate K).
    + (* DOT *)
      destruct i as [|[f|j|j|j|q|j]|o' e|o' b' i'|f e];
      try (destruct (IDX (fun _ _ _ _ => None) H) as (? & ? & ? & ? & ? & ? & K); discriminate K).
      destruct (DOTC f eq_refl eq_refl H) as (s0 & E & a & s' & K1 & K2). exists s0. split; [exact E|].
      right; right; right; left. exists b, f, a, s'. auto.
    + destruct (IDX (fun a _ k s2 => Some ([x], set_g M s2 (stw M (gs s2) a k x))) H) as (a & s1 & k & s2 & K1 & K2 & K3).
      inv K3. exists s. split; [reflexivity|]. do 4 right; left. exists IDXR, b, i, a, s1, k, s2. auto 10.
    + destruct (IDX (fun a _ k s2 => Some ([x], set_g M s2 (stw M (gs s2) a k x))) H) as (a & s1 & k & s2 & K1 & K2 & K3).
      inv K3. exists s. split; [reflexivity|]. do 4 right; left. exists IDXI, b, i, a, s1, k, s2. auto 10.
    + destruct (IDX (fun a _ k s2 => Some ([x], set_g M s2 (stb M (gs s2) a k x))) H) as (a & s1 & k & s2 & K1 & K2 & K3).
      inv K3. exists s. split; [reflexivity|]. do 5 right. exists IDXC, b, i, a, s1, k, s2. auto 10.
    + destruct (IDX (fun a _ k s2 => Some ([x], set_g M s2 (stb M (gs s2) a k x))) H) as (a & s1 & k & s2 & K1 & K2 & K3).
      inv K3. exists s. split; [reflexivity|]. do 5 right. exists IDXB, b, i, a, s1, k, s2. auto 10.
Qed.
End Sem.

Lemma op2_comm : forall o a b, isCommutativeOp o = true -> op2_val o a b = op2_val (mirror o) b a.
Proof.
  intros o a b H. destruct o; try discriminate; cbn [op2_val mirror]; f_equal;
    try unfold w_add, w_mul, w_and, w_or, w_xor, w_eq, w_ne, w_gt, w_ge, w_lt, w_le.
  all: try reflexivity; try apply Z.land_comm; try apply Z.lxor_comm; try apply Z.lor_comm;
    try rewrite (Z.eqb_sym a b); try rewrite (Z.mul_comm a b); try rewrite (Z.add_comm a b); reflexivity.
Qed.
