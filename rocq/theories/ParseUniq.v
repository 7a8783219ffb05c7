(* The grammar of expressions (ParseSpec.v) gives a text one reading.  The reader below is
   not the compiler's: it knows no names and no types. *)
From Coq Require Import ZArith Bool Lia List.
From Verif Require Import Lexer NameTable SyTree Parser ParseSpec ParseSound ParseComplete.
Import ListNotations.
Open Scope Z_scope.

Definition unOf (c : Z) : option unop :=
  if c =? cPLUS then Some UPlus else if c =? cMINUS then Some UMinus else if c =? cBANG then Some UNot else if c =? cTILDE then Some UBnot else None.
Definition tyOf (x : stok) : option tyname :=
  match x with
  | TName n => Some (TnUser n)
  | TSym c => if c =? LxINT then Some TnInt else if c =? LxCHAR then Some TnChar else if c =? LxVOID then Some TnVoid
              else if c =? LxBOOL then Some TnBool else if c =? LxINTR then Some TnIntr else None
  | _ => None
  end.
(* [] [] .. *)
Fixpoint brk (ts : list stok) : nat * list stok :=
  match ts with
  | TSym a :: TSym b :: r => if (a =? cLB) && (b =? cRB) then let (d, q) := brk r in (S d, q) else (O, ts)
  | _ => (O, ts)
  end.
(* the token c, then the rest *)
Definition expect {A} (c : Z) (x : option (A * list stok)) : option (A * list stok) :=
  match x with
  | Some (a, TSym k :: r) => if k =? c then Some (a, r) else None
  | _ => None
  end.
Definition omap {A B} (f : A -> B) (x : option (A * list stok)) : option (B * list stok) :=
  match x with Some (a, r) => Some (f a, r) | None => None end.
Definition obind {A B} (x : option (A * list stok)) (f : A -> list stok -> option B) : option B :=
  match x with Some (a, r) => f a r | None => None end.

Fixpoint up (F k : nat) (ts : list stok) {struct F} : option (ast * list stok) :=
  match F with
  | O => None
  | S F =>
    if Nat.eqb k 13 then obind (prim F ts) (tail F k)
    else if Nat.eqb k 12 then
      match ts with
      | TSym c :: r => match unOf c with Some u => omap (AUn u) (up F 12 r) | None => up F 13 ts end
      | _ => up F 13 ts
      end
    else obind (up F (S k) ts) (tail F k)
  end
with tail (F k : nat) (a : ast) (r : list stok) {struct F} : option (ast * list stok) :=
  match F with
  | O => None
  | S F =>
    match r with
    | TSym c :: q =>
      if Nat.eqb k 0 then
        if c =? cCOMMA then obind (up F 1 q) (fun b q => tail F 0 (AComma a b) q) else Some (a, r)
      else if Nat.eqb k 1 then
        if c =? cEQ then omap (AAssign a) (up F 1 q) else Some (a, r)
      else if Nat.eqb k 13 then
        if c =? cLB then obind (expect cRB (up F 1 q)) (fun i q => tail F 13 (AIndex a i) q)
        else if c =? cDOT then match q with TName f :: q => tail F 13 (ADot a f) q | _ => None end
        else Some (a, r)
      else match opOf (levelOps k) c with
           | Some o => obind (up F (S k) q) (fun b q => tail F k (ABin o a b) q)
           | None => Some (a, r)
           end
    | _ => Some (a, r)
    end
  end
with argl (F : nat) (ts : list stok) {struct F} : option (list ast * list stok) :=
  match F with
  | O => None
  | S F =>
    obind (up F 1 ts) (fun e q =>
      match q with
      | TSym c :: q' => if c =? cCOMMA then omap (cons e) (argl F q') else Some ([e], q)
      | _ => Some ([e], q)
      end)
  end
with prim (F : nat) (ts : list stok) {struct F} : option (ast * list stok) :=
  match F with
  | O => None
  | S F =>
    match ts with
    | TName n :: q =>
      match q with
      | TSym c :: q1 =>
        if c =? cLP then
          match q1 with
          | TSym c1 :: q2 => if c1 =? cRP then Some (ACall n [], q2) else omap (ACall n) (expect cRP (argl F q1))
          | _ => omap (ACall n) (expect cRP (argl F q1))
          end
        else Some (AName n, q)
      | _ => Some (AName n, q)
      end
    | TInt v :: q => Some (AInt v, q)
    | TChr v :: q => Some (AChar v, q)
    | TLog v :: q => Some (ABool v, q)
    | TStr s :: q => Some (AText s, q)
    | TSym c :: q =>
      if c =? cLP then expect cRP (up F 0 q)
      else if c =? LxNUL then Some (ANull, q)
      else if c =? LxSIZEOF then
        match q with
        | _ :: t :: q => match tyOf t with Some t => let (d, q) := brk q in expect cRP (Some (ASizeof t d, q)) | None => None end
        | _ => None
        end
      else if c =? LxADDROF then match q with _ :: TName n :: _ :: q => Some (AAddrof n, q) | _ => None end
      else match q with
           | _ :: q =>
             if c =? LxORD then omap AOrd (expect cRP (up F 0 q))
             else if c =? LxCHR then omap AChr (expect cRP (up F 0 q))
             else if c =? LxBOL then omap ABoolOf (expect cRP (up F 0 q))
             else None
           | [] => None
           end
    | [] => None
    end
  end.

(* f F is v for every large F *)
Definition ev {A} (f : nat -> option A) (v : A) : Prop := exists F0, forall F, (F0 <= F)%nat -> f F = Some v.
Lemma ev_det {A} (f : nat -> option A) v w : ev f v -> ev f w -> v = w.
Proof. intros [a A0] [b B0]. specialize (A0 (max a b) ltac:(lia)). specialize (B0 (max a b) ltac:(lia)). congruence. Qed.
Lemma ev_S {A} (f g : nat -> option A) v : (forall F, f (S F) = g F) -> ev g v -> ev f v.
Proof. intros E [a A0]. exists (S a). intros F L. destruct F as [|F]; [lia|]. rewrite E. apply A0. lia. Qed.
Lemma ev_const {A} (v : A) : ev (fun _ => Some v) v.
Proof. exists O. reflexivity. Qed.
Lemma ev_bind {A B} (f : nat -> option (A * list stok)) (g : nat -> A -> list stok -> option B) a r v :
  ev f (a, r) -> ev (fun F => g F a r) v -> ev (fun F => obind (f F) (g F)) v.
Proof. intros [x X] [y Y]. exists (max x y). intros F L. rewrite X by lia. cbn [obind]. apply Y. lia. Qed.
Lemma ev_map {A B} (h : A -> B) (f : nat -> option (A * list stok)) a r : ev f (a, r) -> ev (fun F => omap h (f F)) (h a, r).
Proof. intros [x X]. exists x. intros F L. rewrite X by lia. reflexivity. Qed.
Lemma ev_expect {A} c (f : nat -> option (A * list stok)) a r : ev f (a, TSym c :: r) -> ev (fun F => expect c (f F)) (a, r).
Proof. intros [x X]. exists x. intros F L. rewrite X by lia. cbn [expect]. rewrite Z.eqb_refl. reflexivity. Qed.

(* what may follow an expression of level k *)
Definition goesOn (k : nat) (c : Z) : Prop :=
  c = cLP \/ (k <= 13)%nat /\ (c = cLB \/ c = cDOT) \/ (exists j o, (k <= j)%nat /\ In (c, o) (levelOps j)) \/
  (k <= 1)%nat /\ c = cEQ \/ k = O /\ c = cCOMMA.
Definition ends (k : nat) (r : list stok) : Prop := match r with TSym c :: _ => ~ goesOn k c | _ => True end.
Lemma ends_le k k' r : (k <= k')%nat -> ends k r -> ends k' r.
Proof.
  intros L. destruct r as [|[] r]; cbn; auto. intros N H. apply N. unfold goesOn in *.
  destruct H as [H|[[H1 H]|[(j & o & J & I)|[[K H]|[K H]]]]].
  - auto.
  - right; left. split; [lia|exact H].
  - right; right; left. exists j, o. split; [lia|exact I].
  - right; right; right; left. split; [lia|exact H].
  - right; right; right; right. split; [lia|exact H].
Qed.
Lemma ops_range k t o : In (t, o) (levelOps k) -> (2 <= k <= 11)%nat.
Proof. do 12 (destruct k as [|k]; [intros H; first [lia|destruct H]|]). destruct k; intros []. Qed.
Lemma op_ends k t o r : In (t, o) (levelOps k) -> ends (S k) (TSym t :: r).
Proof.
  intros H. cbn. intros [C|[[L [C|C]]|[C|[[_ C]|[C _]]]]].
  - subst t. do 12 (destruct k as [|k]; [cbn in H; repeat (destruct H as [H|H]; [discriminate H|]); exact H|]). destruct k; exact H.
  - subst t. do 12 (destruct k as [|k]; [cbn in H; repeat (destruct H as [H|H]; [discriminate H|]); exact H|]). destruct k; exact H.
  - subst t. do 12 (destruct k as [|k]; [cbn in H; repeat (destruct H as [H|H]; [discriminate H|]); exact H|]). destruct k; exact H.
  - apply (op_stops k t o H). right; right; left. exact C.
  - subst t. do 12 (destruct k as [|k]; [cbn in H; repeat (destruct H as [H|H]; [discriminate H|]); exact H|]). destruct k; exact H.
  - discriminate C.
Qed.
Ltac nogo := cbn; let H := fresh in intros H;
  destruct H as [H|[[? [H|H]]|[(?j & ?o & ?J & H)|[[?K H]|[?K H]]]]]; try discriminate H; try lia;
  repeat match type of H with In _ (levelOps ?j) => do 12 (destruct j as [|j]; [cbn in H; repeat (destruct H as [H|H]; [discriminate H|]); destruct H|]); destruct j; destruct H end.
Lemma ends_rp r : ends 0 (TSym cRP :: r).
Proof. nogo. Qed.
Lemma ends_rb r : ends 0 (TSym cRB :: r).
Proof. nogo. Qed.
Lemma ends_semi r : ends 0 (TSym cSEMI :: r).
Proof. nogo. Qed.
Lemma ends_rc r : ends 0 (TSym cRC :: r).
Proof. nogo. Qed.
Lemma ends_comma r : ends 1 (TSym cCOMMA :: r).
Proof. nogo. Qed.
Lemma ends_eq r : ends 2 (TSym cEQ :: r).
Proof. nogo. Qed.
Lemma ends_lb r : ends 14 (TSym cLB :: r).
Proof. nogo. Qed.
Lemma ends_dot r : ends 14 (TSym cDOT :: r).
Proof. nogo. Qed.

Lemma tail_stop k a r : (k <= 13)%nat -> ends k r -> ev (fun F => tail F k a r) (a, r).
Proof.
  intros L E. apply (ev_S _ (fun _ => Some (a, r))); [|apply ev_const]. intros F. cbn [tail]. destruct r as [|[| | | | |c] q]; try reflexivity. cbn [ends] in E. unfold goesOn in E.
  destruct (Nat.eqb_spec k 0) as [->|]. { destruct (Z.eqb_spec c cCOMMA); [exfalso; apply E; auto 10|reflexivity]. }
  destruct (Nat.eqb_spec k 1) as [->|]. { destruct (Z.eqb_spec c cEQ); [exfalso; apply E; auto 10|reflexivity]. }
  destruct (Nat.eqb_spec k 13) as [->|]. { destruct (Z.eqb_spec c cLB); [exfalso; apply E; auto 10|]. destruct (Z.eqb_spec c cDOT); [exfalso; apply E; auto 10|reflexivity]. }
  destruct (opOf (levelOps k) c) as [o|] eqn:O; [|reflexivity]. exfalso. apply E. right; right; left. exists k, o. split; [lia|apply opOf_In; exact O].
Qed.
Lemma brk_brackets d r : (forall q, r <> TSym cLB :: TSym cRB :: q) -> brk (brackets d ++ r) = (d, r).
Proof.
  intros N. induction d as [|d IH].
  - cbn [brackets app]. destruct r as [|[| | | | |a] [|[| | | | |b] r]]; try reflexivity. cbn [brk]. destruct (Z.eqb_spec a cLB) as [->|]; [|reflexivity]. destruct (Z.eqb_spec b cRB) as [->|]; [|reflexivity].
    exfalso. exact (N r eq_refl).
  - cbn [brackets app brk]. rewrite !Z.eqb_refl. cbn [andb]. rewrite IH. reflexivity.
Qed.
Lemma tyOf_tok t : tyOf (tyTok t) = Some t.
Proof. destruct t; reflexivity. Qed.
(* how an expression begins *)
Definition begins (x : stok) : Prop := match x with
  | TSym c => c = cLP \/ c = LxNUL \/ c = LxSIZEOF \/ c = LxADDROF \/ c = LxORD \/ c = LxCHR \/ c = LxBOL
  | _ => True end.
Lemma derives_le k e ts : derives k e ts -> (k <= 13)%nat.
Proof. intros H. destruct H; try lia. pose proof (ops_range _ _ _ H). lia. Qed.
Lemma head13 e ts : derives 13 e ts -> exists x r, ts = x :: r /\ begins x.
Proof.
  intros H. remember 13%nat as k eqn:K. revert K. induction H; intros K; try discriminate K; try lia; try (eexists; eexists; split; [reflexivity|cbn; auto 10]; fail).
  - exfalso. pose proof (ops_range _ _ _ H). lia.
  - destruct (IHderives1 K) as (x & r & -> & B). cbn [app]. eauto.
  - destruct (IHderives K) as (x & r & -> & B). cbn [app]. eauto.
Qed.
Lemma begins_un c : begins (TSym c) -> unOf c = None.
Proof. cbn. intros [->|[->|[->|[->|[->|[->| ->]]]]]]; reflexivity. Qed.
Definition headOk (x : stok) : Prop := begins x \/ exists u, x = TSym (unTok u).
Lemma head k e ts : derives k e ts -> exists x r, ts = x :: r /\ headOk x.
Proof.
  intros H. induction H;
    repeat match goal with A : exists x r, ?t = x :: r /\ headOk x |- context [?t] => destruct A as (? & ? & -> & ?); cbn [app] end;
    try (eexists; eexists; split; [reflexivity|unfold headOk; cbn; eauto 10]; fail); eauto.
Qed.

Definition folK (k : nat) : nat := if Nat.eqb k 1 then 1%nat else S k.
Definition readsAs (k : nat) (e : ast) (ts : list stok) : Prop :=
  forall r res, ends (folK k) r -> ev (fun F => tail F k e r) res -> ev (fun F => up F k (ts ++ r)) res.
Lemma fol_le k : (k <= folK k <= S k)%nat.
Proof. unfold folK. destruct (Nat.eqb_spec k 1); lia. Qed.
Lemma reads_stop k e ts r : (k <= 13)%nat -> readsAs k e ts -> ends k r -> ev (fun F => up F k (ts ++ r)) (e, r).
Proof. intros L R E. apply R; [apply (ends_le k); [apply fol_le|exact E]|apply tail_stop; assumption]. Qed.
(* a primary expression *)
Lemma prim_reads e ts : (forall r, ends 14 r -> ev (fun F => prim F (ts ++ r)) (e, r)) -> readsAs 13 e ts.
Proof.
  intros H r res E T. apply (ev_S _ (fun F => obind (prim F (ts ++ r)) (tail F 13))); [reflexivity|].
  apply (ev_bind _ (fun F => tail F 13) e r); [apply H; exact E|exact T].
Qed.
Scheme der_mut := Minimality for derives Sort Prop with der_args_mut := Minimality for derives_args Sort Prop.
Combined Scheme der_both from der_mut, der_args_mut.
Ltac evs := match goal with |- ev _ ?v => apply (ev_S _ (fun _ => Some v)); [|apply ev_const]; intros ? end.
Lemma all_read : (forall k e ts, derives k e ts -> readsAs k e ts) /\
  (forall l ts, derives_args l ts -> forall r, ev (fun F => argl F (ts ++ TSym cRP :: r)) (l, TSym cRP :: r)).
Proof.
  apply der_both.
  - intros k e ts L D IH r res E T. pose proof (derives_le _ _ _ D) as L2. pose proof (fol_le k) as FL. pose proof (fol_le (S k)) as FS.
    assert (ends (S k) r) as ES. { apply (ends_le (folK k)); [lia|exact E]. }
    pose proof (reads_stop _ _ _ _ L2 IH ES) as R. destruct (Nat.eq_dec k 12) as [->|N].
    + assert (res = (e, r)) as ->. { apply (ev_det _ _ _ T). apply (ev_S _ (fun _ => Some (e, r))); [|apply ev_const]. intros F. cbn [tail]. destruct r as [|[] r]; reflexivity. }
      apply (ev_S _ (fun F => up F 13 (ts ++ r))); [|exact R]. intros F. cbn [up Nat.eqb]. destruct (head13 _ _ D) as (x & q & -> & B). cbn [app].
      destruct x; try reflexivity. rewrite (begins_un _ B). reflexivity.
    + apply (ev_S _ (fun F => obind (up F (S k) (ts ++ r)) (tail F k))).
      { intros F. cbn [up]. destruct (Nat.eqb_spec k 13); [lia|]. destruct (Nat.eqb_spec k 12); [lia|]. reflexivity. }
      exact (ev_bind _ (fun F => tail F k) e r res R T).
  - intros a b ta tb DA IA DB IB r res E T. rewrite <- app_assoc. cbn [app]. apply IA; [apply ends_comma|].
    apply (ev_S _ (fun F => obind (up F 1 (tb ++ r)) (fun b q => tail F 0 (AComma a b) q))); [reflexivity|].
    apply (ev_bind _ (fun F b q => tail F 0 (AComma a b) q) b r); [apply reads_stop; [lia|exact IB|exact E]|exact T].
  - intros a b ta tb DA IA DB IB r res E T. rewrite <- app_assoc. cbn [app]. change (folK 1) with 1%nat in E.
    assert (res = (AAssign a b, r)) as -> by (apply (ev_det _ _ _ T), tail_stop; [lia|exact E]).
    apply (ev_S _ (fun F => obind (up F 2 (ta ++ TSym cEQ :: tb ++ r)) (tail F 1))); [reflexivity|].
    apply (ev_bind _ (fun F => tail F 1) a (TSym cEQ :: tb ++ r)).
    + apply reads_stop; [lia|exact IA|apply ends_eq].
    + apply (ev_S _ (fun F => omap (AAssign a) (up F 1 (tb ++ r)))); [reflexivity|]. apply ev_map. apply reads_stop; [lia|exact IB|exact E].
  - intros k t o a b ta tb O DA IA DB IB r res E T. pose proof (ops_range _ _ _ O) as L. rewrite <- app_assoc. cbn [app].
    assert (folK k = S k) as FK by (unfold folK; destruct (Nat.eqb_spec k 1); [lia|reflexivity]). apply IA; [rewrite FK; exact (op_ends _ _ _ _ O)|].
    apply (ev_S _ (fun F => obind (up F (S k) (tb ++ r)) (fun b q => tail F k (ABin o a b) q))).
    { intros F. cbn [tail]. destruct (Nat.eqb_spec k 0); [lia|]. destruct (Nat.eqb_spec k 1); [lia|]. destruct (Nat.eqb_spec k 13); [lia|]. rewrite (opOf_ops _ _ _ O). reflexivity. }
    apply (ev_bind _ (fun F b q => tail F k (ABin o a b) q) b r); [|exact T]. apply reads_stop; [lia|exact IB|rewrite <- FK; exact E].
  - intros u e ts D IH r res E T. assert (forall x, ev (fun F => tail F 12 x r) (x, r)) as T12.
    { intros x. apply (ev_S _ (fun _ => Some (x, r))); [|apply ev_const]. intros F. cbn [tail]. destruct r as [|[] r]; reflexivity. }
    rewrite (ev_det _ _ _ T (T12 _)). cbn [app]. apply (ev_S _ (fun F => omap (AUn u) (up F 12 (ts ++ r)))); [intros F; destruct u; reflexivity|].
    apply ev_map. apply IH; [exact E|apply T12].
  - intros a i ta ti DA IA DI II r res E T. rewrite <- app_assoc. cbn [app]. rewrite <- app_assoc. cbn [app]. apply IA; [apply ends_lb|].
    apply (ev_S _ (fun F => obind (expect cRB (up F 1 (ti ++ TSym cRB :: r))) (fun i q => tail F 13 (AIndex a i) q))); [reflexivity|].
    apply (ev_bind _ (fun F i q => tail F 13 (AIndex a i) q) i r); [|exact T]. apply ev_expect. apply reads_stop; [lia|exact II|apply (ends_le 0); [lia|apply ends_rb]].
  - intros a f ta DA IA r res E T. rewrite <- app_assoc. cbn [app]. apply IA; [apply ends_dot|].
    apply (ev_S _ (fun F => tail F 13 (ADot a f) r)); [reflexivity|exact T].
  - intros e ts D IH. apply prim_reads. intros r E. cbn [app]. rewrite <- app_assoc. cbn [app].
    apply (ev_S _ (fun F => expect cRP (up F 0 (ts ++ TSym cRP :: r)))); [reflexivity|]. apply ev_expect. apply reads_stop; [lia|exact IH|apply ends_rp].
  - intros n. apply prim_reads. intros r E. cbn [app]. evs. cbn [prim]. destruct r as [|[| | | | |c] r]; try reflexivity. destruct (Z.eqb_spec c cLP) as [->|]; [|reflexivity]. exfalso. apply E. left. reflexivity.
  - intros f. apply prim_reads. intros r E. cbn [app]. evs. reflexivity.
  - intros f args ts D IH. apply prim_reads. intros r E. cbn [app]. rewrite <- app_assoc. cbn [app].
    apply (ev_S _ (fun F => omap (ACall f) (expect cRP (argl F (ts ++ TSym cRP :: r))))); [|apply ev_map, ev_expect, IH].
    intros F. cbn [prim]. rewrite Z.eqb_refl.
    assert (exists x q, ts = x :: q /\ headOk x) as (x & q & -> & HO).
    { destruct D as [e ts D|e l te tr D _]; destruct (head _ _ _ D) as (x & q & -> & HO); cbn [app]; eauto. }
    cbn [app]. destruct x; try reflexivity. destruct (Z.eqb_spec k cRP) as [->|]; [|reflexivity].
    exfalso. destruct HO as [B|[u B]]; [cbn in B; repeat (destruct B as [B|B]; [discriminate B|]); discriminate B|destruct u; discriminate B].
  - intros v. apply prim_reads. intros r E. evs. reflexivity.
  - intros v. apply prim_reads. intros r E. evs. reflexivity.
  - intros v. apply prim_reads. intros r E. evs. reflexivity.
  - intros v. apply prim_reads. intros r E. evs. reflexivity.
  - apply prim_reads. intros r E. evs. reflexivity.
  - intros t d. apply prim_reads. intros r E. cbn [app]. rewrite <- app_assoc. cbn [app]. evs. cbn [prim].
    change (LxSIZEOF =? cLP) with false. change (LxSIZEOF =? LxNUL) with false. change (LxSIZEOF =? LxSIZEOF) with true. cbn iota.
    rewrite tyOf_tok, brk_brackets by discriminate. reflexivity.
  - intros n. apply prim_reads. intros r E. evs. reflexivity.
  - intros e ts D IH. apply prim_reads. intros r E. cbn [app]. rewrite <- app_assoc. cbn [app].
    apply (ev_S _ (fun F => omap AOrd (expect cRP (up F 0 (ts ++ TSym cRP :: r))))); [reflexivity|]. apply ev_map, ev_expect. apply reads_stop; [lia|exact IH|apply ends_rp].
  - intros e ts D IH. apply prim_reads. intros r E. cbn [app]. rewrite <- app_assoc. cbn [app].
    apply (ev_S _ (fun F => omap AChr (expect cRP (up F 0 (ts ++ TSym cRP :: r))))); [reflexivity|]. apply ev_map, ev_expect. apply reads_stop; [lia|exact IH|apply ends_rp].
  - intros e ts D IH. apply prim_reads. intros r E. cbn [app]. rewrite <- app_assoc. cbn [app].
    apply (ev_S _ (fun F => omap ABoolOf (expect cRP (up F 0 (ts ++ TSym cRP :: r))))); [reflexivity|]. apply ev_map, ev_expect. apply reads_stop; [lia|exact IH|apply ends_rp].
  - intros e ts D IH r. apply (ev_S _ (fun F => obind (up F 1 (ts ++ TSym cRP :: r)) (fun e q =>
      match q with TSym c :: q' => if c =? cCOMMA then omap (cons e) (argl F q') else Some ([e], q) | _ => Some ([e], q) end))); [reflexivity|].
    apply (ev_bind _ (fun F e q => match q with TSym c :: q' => if c =? cCOMMA then omap (cons e) (argl F q') else Some ([e], q) | _ => Some ([e], q) end) e (TSym cRP :: r)).
    + apply reads_stop; [lia|exact IH|apply (ends_le 0); [lia|apply ends_rp]].
    + apply ev_const.
  - intros e l te tr D IH DR IR r. rewrite <- app_assoc. cbn [app]. apply (ev_S _ (fun F => obind (up F 1 (te ++ TSym cCOMMA :: tr ++ TSym cRP :: r)) (fun e q =>
      match q with TSym c :: q' => if c =? cCOMMA then omap (cons e) (argl F q') else Some ([e], q) | _ => Some ([e], q) end))); [reflexivity|].
    apply (ev_bind _ (fun F e q => match q with TSym c :: q' => if c =? cCOMMA then omap (cons e) (argl F q') else Some ([e], q) | _ => Some ([e], q) end) e (TSym cCOMMA :: tr ++ TSym cRP :: r)).
    + apply reads_stop; [lia|exact IH|apply ends_comma].
    + change (cCOMMA =? cCOMMA) with true. cbn iota. apply ev_map. apply IR.
Qed.
(* two readings of the beginning of a text *)
Lemma expr_unique k e e' ts ts' r r' : derives k e ts -> derives k e' ts' -> ts ++ r = ts' ++ r' -> ends k r -> ends k r' -> e = e' /\ ts = ts' /\ r = r'.
Proof.
  intros D D' E S S'. pose proof (reads_stop _ _ _ _ (derives_le _ _ _ D) (proj1 all_read _ _ _ D) S) as A.
  pose proof (reads_stop _ _ _ _ (derives_le _ _ _ D') (proj1 all_read _ _ _ D') S') as B. rewrite <- E in B.
  pose proof (ev_det _ _ _ A B) as X. injection X as -> ->. split; [reflexivity|]. split; [|reflexivity]. apply app_inv_tail in E. exact E.
Qed.
