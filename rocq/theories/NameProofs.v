From Coq Require Import ZArith Bool Lia List.
From Verif Require Import Lexer LexProofs NameTable NameSpec.
Import ListNotations.
Open Scope Z_scope.

(* how the table represents a declaration; functions and globals have two scope numbers each *)
Definition scope_of (d : decl) : Z :=
  match d_kind d with
  | KStruct => ScSTRC | KFunc => ScPROT | KGlobal => ScCOMM | KLocal => ScLVAR | KField => ScFLD | KParam => ScPRM
  end.
Definition entry_of (d : decl) : entry := Ent (d_name d) (scope_of d) (d_type d) (d_dim d) (d_num d) (d_pub d).

(* the operations the parser performs on the table; the marks are its saved table sizes *)
Record st := St { tbl : table; marks : list Z }.
Definition exec1 (s : st) (e : event) : option (nres st) :=
  match e with
  | Declare d =>
    Some match ntDefName (tbl s) (d_name d) (scope_of d) (d_type d) (d_dim d) (d_num d) (d_pub d) with
         | NOk (t, _) => NOk (St t (marks s))
         | NErr e => NErr e
         end
  | Enter => Some (NOk (St (tbl s) (ntGetSize (tbl s) :: marks s)))
  | Leave keep =>
    match marks s with
    | [] => None
    | m :: ms => Some (NOk (St (if keep then ntSetVoid (tbl s) m else ntUndefName (tbl s) m) ms))
    end
  end.
Fixpoint exec (s : st) (es : list event) : option (nres st) :=
  match es with
  | [] => Some (NOk s)
  | e :: es => match exec1 s e with
               | Some (NOk s') => exec s' es
               | r => r
               end
  end.

Lemma same_eq a b : same a b = true <-> a = b.
Proof. change same with zeqb_list. apply zeqb_list_eq. Qed.
Lemma same_zeqb : same = zeqb_list.
Proof. reflexivity. Qed.

(* ---- the representation ---- *)
Definition live (t : table) : list entry := filter (fun e => negb (nScope e =? ScVOID)) t.
(* t from mark to mark holds, besides voided entries, the declarations of each scope *)
Inductive rep : table -> list Z -> scopes -> Prop :=
| rep_bot t sc : live t = map entry_of (rev sc) -> rep t [] [sc]
| rep_top t m ms u sc s : rep t ms s -> m = ntGetSize t -> live u = map entry_of (rev sc) ->
    rep (t ++ u) (m :: ms) (sc :: s).

Lemma live_app a b : live (a ++ b) = live a ++ live b.
Proof. apply filter_app. Qed.
Lemma live_voided t : live (map voided t) = [].
Proof. induction t; [reflexivity|]. cbn. exact IHt. Qed.
Lemma live_entry d : live [entry_of d] = [entry_of d].
Proof. destruct d as [n []]; reflexivity. Qed.
Lemma visible_cons sc s : visible (sc :: s) = sc ++ visible s.
Proof. reflexivity. Qed.
Lemma rep_live t ms s : rep t ms s -> live t = map entry_of (rev (visible s)).
Proof.
  induction 1 as [t sc E|t m ms u sc s R IH M E]; rewrite visible_cons.
  - unfold visible; cbn [concat]. rewrite app_nil_r. exact E.
  - rewrite live_app, IH, E, rev_app_distr, map_app. reflexivity.
Qed.
Lemma rep_nonempty t ms s : rep t ms s -> s <> [].
Proof. destruct 1; discriminate. Qed.

(* ---- lookup ---- *)
Lemma ent_cons e t i : 0 <= i -> ent (e :: t) (i + 1) = ent t i.
Proof.
  intros H. unfold ent. destruct (Z.ltb_spec (i + 1) 0); [lia|]. destruct (Z.ltb_spec i 0); [lia|].
  replace (Z.to_nat (i + 1)) with (S (Z.to_nat i)) by lia. reflexivity.
Qed.
Lemma srcName_spec str t : forall i,
  match srcName str t i with
  | Some k => i <= k /\ exists e, ent t (k - i) = Some e /\
      find (fun e => (ScPROT <=? nScope e) && zeqb_list (nName e) str) (rev t) = Some e
  | None => find (fun e => (ScPROT <=? nScope e) && zeqb_list (nName e) str) (rev t) = None
  end.
Proof.
  induction t as [|e t IH]; intros i; [reflexivity|]. cbn [srcName rev]. specialize (IH (i + 1)).
  assert (F : forall p (l : list entry) x, find p (l ++ [x]) = match find p l with Some y => Some y | None => if p x then Some x else None end).
  { clear. intros p l x. induction l as [|y l IH]; [reflexivity|]. cbn. destruct (p y); [reflexivity|exact IH]. }
  destruct (srcName str t (i + 1)) as [k|].
  - destruct IH as (L & x & E & Q). split; [lia|]. exists x. split.
    + replace (k - i) with (k - (i + 1) + 1) by lia. rewrite ent_cons by lia. exact E.
    + rewrite F, Q. reflexivity.
  - rewrite F, IH. destruct (_ && _); [|reflexivity]. split; [lia|]. exists e. rewrite Z.sub_diag. auto.
Qed.
Lemma find_filter {A} (p q : A -> bool) l : (forall x, p x = true -> q x = true) -> find p (filter q l) = find p l.
Proof.
  intros H. induction l as [|x l IH]; [reflexivity|]. cbn. destruct (q x) eqn:Q; cbn; rewrite IH; [reflexivity|].
  destruct (p x) eqn:P; [|reflexivity]. apply H in P. congruence.
Qed.
Lemma filter_rev' {A} (p : A -> bool) l : filter p (rev l) = rev (filter p l).
Proof.
  induction l as [|x l IH]; [reflexivity|]. cbn [rev filter]. rewrite filter_app, IH. cbn [filter].
  destruct (p x); [reflexivity|apply app_nil_r].
Qed.
Lemma find_map {A B} (f : A -> B) p l : find p (map f l) = option_map f (find (fun x => p (f x)) l).
Proof. induction l as [|x l IH]; [reflexivity|]. cbn. destruct (p (f x)); [reflexivity|exact IH]. Qed.
Lemma find_ext' {A} (p q : A -> bool) l : (forall x, p x = q x) -> find p l = find q l.
Proof. intros H. induction l as [|x l IH]; [reflexivity|]. cbn. rewrite H, IH. reflexivity. Qed.

Lemma rep_find t ms s p : rep t ms s -> (forall e, p e = true -> nScope e <> ScVOID) ->
  find p (rev t) = option_map entry_of (find (fun d => p (entry_of d)) (visible s)).
Proof.
  intros R H. rewrite <- (find_filter p (fun e => negb (nScope e =? ScVOID))).
  - rewrite filter_rev'. change (filter _ t) with (live t). rewrite (rep_live _ _ _ R).
    rewrite <- map_rev, rev_involutive. apply find_map.
  - intros e E. apply H in E. destruct (Z.eqb_spec (nScope e) ScVOID); [congruence|reflexivity].
Qed.
Lemma lookup_rep t ms s str : rep t ms s ->
  match ntSrcName t str with
  | Some i => exists d, meaning s str = Some d /\ ent t i = Some (entry_of d)
  | None => meaning s str = None
  end.
Proof.
  intros R. unfold ntSrcName. pose proof (srcName_spec str t 0) as S.
  assert (M : find (fun e => (ScPROT <=? nScope e) && zeqb_list (nName e) str) (rev t) = option_map entry_of (meaning s str)).
  { rewrite (rep_find t ms s _ R). 2:{ intros e E. apply andb_true_iff in E. destruct E as (E & _). apply Z.leb_le in E. unfold ScPROT, ScVOID in *. lia. }
    f_equal. apply find_ext'. intros d. rewrite same_zeqb. cbn [nScope nName entry_of]. f_equal.
    destruct d as [n []]; reflexivity. }
  destruct (srcName str t 0) as [k|].
  - destruct S as (L & e & E & F). rewrite F in M. destruct (meaning s str) as [d|]; [|discriminate]. injection M as ->.
    exists d. split; [reflexivity|]. now rewrite Z.sub_0_r in E.
  - rewrite S in M. destruct (meaning s str); [discriminate|reflexivity].
Qed.

Lemma scan_find p t : forall i,
  match scan p t i with
  | Some k => i <= k < i + Z.of_nat (List.length t) /\ exists e, ent t (k - i) = Some e /\ p e = true /\ find p t = Some e
  | None => find p t = None
  end.
Proof.
  induction t as [|e t IH]; intros i; [reflexivity|]. cbn [scan find List.length]. destruct (p e) eqn:P.
  - split; [lia|]. exists e. rewrite Z.sub_diag. auto.
  - specialize (IH (i + 1)). destruct (scan p t (i + 1)) as [k|]; [|exact IH].
    destruct IH as (L & x & E & Q & F). split; [lia|]. exists x. split; [|auto].
    replace (k - i) with (k - (i + 1) + 1) by lia. rewrite ent_cons by lia. exact E.
Qed.
Lemma scan_none p t i : scan p t i = None <-> forall e, In e t -> p e = false.
Proof.
  pose proof (scan_find p t i) as S. split; intros H.
  - rewrite H in S. intros e I. exact (find_none p t S e I).
  - destruct (scan p t i); [|reflexivity]. destruct S as (_ & e & _ & P & F). apply find_some in F. rewrite (H e) in P by apply F. discriminate.
Qed.

(* ---- the clash test ---- *)
Lemma clash_conflict d o : clashes (d_name d) (scope_of d) (entry_of o) = true <-> conflict d o.
Proof.
  unfold clashes, conflict, scope_of. destruct d as [dn dk dt dd dnn dp], o as [on ok ot od onn op]. cbn [nScope nName entry_of d_name d_kind].
  unfold scope_of; cbn [d_kind]. rewrite !andb_true_iff, zeqb_list_eq.
  destruct dk, ok; cbn; intuition (try congruence; try discriminate).
Qed.
Lemma chk_rep t ms s d : rep t ms s ->
  (0 <=? ntChkName t (d_name d) (scope_of d)) = true <-> exists o, In o (visible s) /\ conflict d o.
Proof.
  intros R. unfold ntChkName. pose proof (scan_find (clashes (d_name d) (scope_of d)) t 0) as S.
  destruct (scan _ t 0) as [k|] eqn:E.
  - split; [intros _|intros _; apply Z.leb_le; lia]. destruct S as (_ & e & _ & P & F).
    apply find_some in F. destruct F as (I & _).
    assert (L : In e (live t)).
    { apply filter_In. split; [exact I|]. unfold clashes in P. rewrite !andb_true_iff in P. apply P. }
    rewrite (rep_live _ _ _ R) in L. apply in_map_iff in L. destruct L as (o & <- & O). apply in_rev in O.
    exists o. split; [exact O|]. now apply clash_conflict.
  - split; [discriminate|]. intros (o & O & C). exfalso. apply clash_conflict in C.
    apply scan_none with (e := entry_of o) in E; [congruence|].
    assert (L : In (entry_of o) (live t)).
    { rewrite (rep_live _ _ _ R). apply in_map. now apply -> in_rev. }
    now apply filter_In in L.
Qed.

Lemma rep_decl t ms sc s d : rep t ms (sc :: s) -> rep (t ++ [entry_of d]) ms ((d :: sc) :: s).
Proof.
  intros R. inversion R as [t' sc' E|t' m ms' u sc' s' R' M E]; subst.
  - apply rep_bot. rewrite live_app, E, live_entry. cbn [rev]. rewrite map_app. reflexivity.
  - rewrite <- app_assoc. apply rep_top; [assumption|reflexivity|]. rewrite live_app, E, live_entry. cbn [rev]. rewrite map_app. reflexivity.
Qed.
Lemma to_nat_size t : Z.to_nat (ntGetSize t) = List.length t.
Proof. unfold ntGetSize. lia. Qed.
Lemma rep_void t m ms sc s : rep t (m :: ms) (sc :: s) -> rep (ntSetVoid t m) ms s /\ rep (ntUndefName t m) ms s.
Proof.
  intros R. inversion R as [|t' m' ms' u sc' s' R' M E]; subst. unfold ntSetVoid, ntUndefName. rewrite to_nat_size.
  rewrite firstn_app, firstn_all, Nat.sub_diag, app_nil_r. split; [|exact R'].
  rewrite skipn_app, skipn_all, Nat.sub_diag. cbn [app skipn].
  clear E R. inversion R' as [tt sc' E|tt m' ms' u' sc' s'' R'' M E]; subst.
  - apply rep_bot. rewrite live_app, live_voided, app_nil_r. exact E.
  - rewrite <- app_assoc. apply rep_top; [assumption|reflexivity|]. rewrite live_app, live_voided, app_nil_r. exact E.
Qed.

(* one event *)
Lemma exec1_rep t ms s e : rep t ms s ->
  match exec1 (St t ms) e with
  | Some (NOk s') => exists s1, step s e s1 /\ rep (tbl s') (marks s') s1
  | Some (NErr EDouble) => exists d o, e = Declare d /\ In o (visible s) /\ conflict d o
  | Some (NErr EFull) => exists d, e = Declare d /\ (500 <= List.length t)%nat
  | None => exists k, e = Leave k /\ ms = []
  end.
Proof.
  intros R. destruct e as [d| |k]; cbn [exec1 tbl marks].
  - unfold ntDefName. destruct (Z.leb_spec NtMAX (ntGetSize t)) as [F|F].
    + exists d. unfold NtMAX, ntGetSize in F. split; [reflexivity|lia].
    + pose proof (chk_rep t ms s d R) as C. destruct (0 <=? _).
      * destruct (proj1 C eq_refl) as (o & I & K). eauto.
      * destruct s as [|sc s]; [destruct (rep_nonempty _ _ _ R eq_refl)|].
        exists ((d :: sc) :: s). split; [|exact (rep_decl _ _ _ _ d R)]. constructor. intros o I K.
        discriminate (proj2 C (ex_intro _ o (conj I K))).
  - exists ([] :: s). split; [constructor|]. rewrite <- (app_nil_r t) at 1. cbn [tbl marks].
    apply rep_top; auto.
  - destruct ms as [|m ms]; [eauto|]. cbn [tbl marks]. inversion R as [|t' m' ms' u sc s' R' M E]; subst.
    exists s'. destruct (rep_void _ _ _ _ _ R) as (A & B). split; [|destruct k; assumption].
    destruct s' as [|sc' s']; [destruct (rep_nonempty _ _ _ R' eq_refl)|]. constructor.
Qed.
Lemma exec_rep es : forall t ms s s', rep t ms s -> exec (St t ms) es = Some (NOk s') ->
  exists s1, steps s es s1 /\ rep (tbl s') (marks s') s1.
Proof.
  induction es as [|e es IH]; intros t ms s s' R E.
  - injection E as <-. exists s. split; [constructor|exact R].
  - cbn [exec] in E. pose proof (exec1_rep t ms s e R) as X. destruct (exec1 (St t ms) e) as [[[t1 ms1]|]|]; try discriminate.
    destruct X as (s1 & S1 & R1). destruct (IH _ _ _ _ R1 E) as (s2 & S2 & R2). exists s2. split; [econstructor; eassumption|exact R2].
Qed.
Lemma rep_init : rep [] [] [[]].
Proof. apply rep_bot. reflexivity. Qed.

(* ---- leaving a scope ---- *)
Lemma steps_app es fs : forall s s2, steps s (es ++ fs) s2 -> exists s1, steps s es s1 /\ steps s1 fs s2.
Proof.
  induction es as [|e es IH]; intros s s2 H; cbn [app] in H.
  - exists s. split; [constructor|exact H].
  - inversion H as [|? ? s1 ? ? A B]; subst. destruct (IH _ _ B) as (s3 & C & D). exists s3. split; [econstructor; eassumption|exact D].
Qed.
Lemma balanced_steps es : balanced es -> forall sc s s1, steps (sc :: s) es s1 -> exists new, s1 = (new ++ sc) :: s.
Proof.
  induction 1 as [|d es B IH|k es fs B1 IH1 B2 IH2]; intros sc s s1 H.
  - inversion H; subst. exists []. reflexivity.
  - inversion H as [|? ? s' ? ? A C]; subst. inversion A; subst. destruct (IH _ _ _ C) as (new & ->).
    exists (new ++ [d]). rewrite <- app_assoc. reflexivity.
  - inversion H as [|? ? s' ? ? A C]; subst. inversion A; subst.
    destruct (steps_app _ _ _ _ C) as (s2 & C1 & C2). destruct (IH1 _ _ _ C1) as (n1 & ->).
    inversion C2 as [|? ? s3 ? ? A2 C3]; subst. inversion A2; subst. exact (IH2 _ _ _ C3).
Qed.

(* ---- turning a prototype into a definition, a common variable into an initialised one ---- *)
Lemma isGlob_ge s : isGlob s = true -> 0 <= s <= 3.
Proof.
  unfold isGlob, ScPROT, ScFUNC, ScCOMM, ScGVAR. rewrite !orb_true_iff, !Z.eqb_eq. lia.
Qed.
Lemma upd_find (f : entry -> entry) p (t : table) : forall n,
  (forall e, nth_error t n = Some e -> p (f e) = p e) ->
  forall i, scan p (upd f t n) i = scan p t i.
Proof.
  induction t as [|e t IH]; intros n H i; [reflexivity|]. destruct n as [|n]; cbn [upd scan].
  - rewrite (H e eq_refl). reflexivity.
  - rewrite IH; [reflexivity|]. intros e' E. apply H. exact E.
Qed.
Lemma upd_src (f : entry -> entry) str (t : table) : forall n,
  (forall e, nth_error t n = Some e -> (ScPROT <=? nScope (f e)) = (ScPROT <=? nScope e) /\ nName (f e) = nName e) ->
  forall i, srcName str (upd f t n) i = srcName str t i.
Proof.
  induction t as [|e t IH]; intros n H i; [reflexivity|]. destruct n as [|n]; cbn [upd srcName].
  - destruct (H e eq_refl) as (-> & ->). reflexivity.
  - rewrite IH; [reflexivity|]. intros e' E. apply H. exact E.
Qed.
Lemma promote t i e s : ent t i = Some e -> isGlob (nScope e) = true -> isGlob s = true ->
  (forall str, ntSrcName (ntSetScope t i s) str = ntSrcName t str) /\
  (forall str, ntSrcStruct (ntSetScope t i s) str = ntSrcStruct t str) /\
  (forall str sc, ntChkName (ntSetScope t i s) str sc = ntChkName t str sc).
Proof.
  intros E G1 G2. unfold ent in E. destruct (i <? 0); [discriminate|]. apply isGlob_ge in G1, G2.
  unfold ntSetScope. split; [|split].
  - intros str. apply upd_src. intros e' E'. rewrite E in E'. injection E' as <-. cbn. split; [|reflexivity].
    destruct (Z.leb_spec ScPROT s), (Z.leb_spec ScPROT (nScope e)); unfold ScPROT in *; try reflexivity; lia.
  - intros str. unfold ntSrcStruct. rewrite upd_find; [reflexivity|]. intros e' E'. rewrite E in E'. injection E' as <-. cbn [nScope nName].
    f_equal. unfold ScSTRC. destruct (Z.eqb_spec s (-1)), (Z.eqb_spec (nScope e) (-1)); try reflexivity; lia.
  - intros str sc. unfold ntChkName. rewrite upd_find; [reflexivity|]. intros e' E'. rewrite E in E'. injection E' as <-.
    unfold clashes. cbn [nScope nName]. unfold ScVOID, ScSTRC, ScLVAR, ScPRM.
    replace (s =? -2) with false by (symmetry; apply Z.eqb_neq; lia). replace (nScope e =? -2) with false by (symmetry; apply Z.eqb_neq; lia).
    replace (s =? -1) with false by (symmetry; apply Z.eqb_neq; lia). replace (nScope e =? -1) with false by (symmetry; apply Z.eqb_neq; lia).
    replace (s =? 6) with false by (symmetry; apply Z.eqb_neq; lia). replace (nScope e =? 6) with false by (symmetry; apply Z.eqb_neq; lia).
    destruct (Z.leb_spec 4 sc); [|reflexivity].
    replace (s =? sc) with false by (symmetry; apply Z.eqb_neq; lia). replace (nScope e =? sc) with false by (symmetry; apply Z.eqb_neq; lia). reflexivity.
Qed.

(* ---- struct names ---- *)
Definition struct_unique (s : scopes) : Prop :=
  forall a b x y, visible s = a ++ x :: b -> In y (a ++ b) -> is_struct x = true -> d_name x <> d_name y.
Lemma is_struct_kind d : is_struct d = true <-> d_kind d = KStruct.
Proof. destruct d as [n []]; cbn; split; congruence. Qed.
Lemma step_unique s e s1 : step s e s1 -> struct_unique s -> struct_unique s1.
Proof.
  intros H U. inversion H as [d sc s' N|s'|k sc sc' s']; subst.
  - rename s' into s0. intros a b x y E I X. change (visible ((d :: sc) :: s0)) with (d :: visible (sc :: s0)) in E.
    destruct a as [|a0 a]; cbn [app] in E, I.
    + injection E as -> E. rewrite <- E in I. intros Q. apply (N y I). split; [exact Q|]. left. now apply is_struct_kind.
    + injection E as -> E. destruct I as [->|I].
      * intros Q. apply (N x); [change (visible (sc :: s0)) with (sc ++ visible s0); rewrite E; apply in_elt|]. split; [now symmetry|]. right. left. now apply is_struct_kind.
      * exact (U a b x y E I X).
  - exact U.
  - intros a b x y E I X. apply (U (sc ++ a) b x y).
    + change (visible (sc :: sc' :: s')) with (sc ++ visible (sc' :: s')). rewrite E, app_assoc. reflexivity.
    + rewrite <- app_assoc. apply in_or_app. now right.
    + exact X.
Qed.
Lemma steps_unique s es s1 : steps s es s1 -> struct_unique s -> struct_unique s1.
Proof. induction 1; auto. intros U. apply IHsteps. eapply step_unique; eassumption. Qed.

Lemma find_rev_unique {A} (p : A -> bool) l :
  (forall a b x y, l = a ++ x :: b -> In y (a ++ b) -> p x = true -> p y = true -> False) -> find p (rev l) = find p l.
Proof.
  induction l as [|x l IH]; intros U; [reflexivity|]. cbn [rev find].
  assert (F : forall (l : list A) x, find p (l ++ [x]) = match find p l with Some y => Some y | None => if p x then Some x else None end).
  { clear. intros l x. induction l as [|y l IH]; [reflexivity|]. cbn. destruct (p y); [reflexivity|exact IH]. }
  rewrite F, IH.
  - destruct (p x) eqn:P.
    + destruct (find p l) as [y|] eqn:Q; [|reflexivity]. exfalso. apply find_some in Q. destruct Q as (I & Y).
      exact (U [] l x y eq_refl I P Y).
    + destruct (find p l); reflexivity.
  - intros a b y z E I. apply (U (x :: a) b y z); [now rewrite E|now right].
Qed.
Lemma struct_rep t ms s str : rep t ms s -> struct_unique s ->
  match struct_of s str with
  | Some d => exists i, ntSrcStruct t str = - i /\ 0 <= i /\ ent t i = Some (entry_of d)
  | None => ntSrcStruct t str = TyNON
  end.
Proof.
  intros R U. unfold ntSrcStruct, struct_of.
  set (p := fun e => (nScope e =? ScSTRC) && zeqb_list (nName e) str).
  pose proof (scan_find p t 0) as S.
  assert (M : find p t = option_map entry_of (find (fun d => is_struct d && same (d_name d) str) (visible s))).
  { rewrite <- (find_filter p (fun e => negb (nScope e =? ScVOID))).
    - change (filter _ t) with (live t). rewrite (rep_live _ _ _ R), find_map. f_equal.
      assert (Q : forall d, p (entry_of d) = is_struct d && same (d_name d) str).
      { intros d. unfold p. rewrite same_zeqb. destruct d as [n []]; reflexivity. }
      rewrite (find_ext' _ _ _ Q). apply find_rev_unique. intros a b x y E I X Y.
      apply andb_true_iff in X, Y. destruct X as (X1 & X2), Y as (_ & Y2). apply same_eq in X2, Y2.
      apply (U a b x y E I X1). congruence.
    - intros e E. unfold p in E. apply andb_true_iff in E. destruct E as (E & _). apply Z.eqb_eq in E. rewrite E. reflexivity. }
  destruct (scan p t 0) as [k|].
  - destruct S as (L & e & E & P & F). rewrite F in M. destruct (find _ (visible s)) as [d|]; [|discriminate]. injection M as ->.
    exists k. rewrite Z.sub_0_r in E. split; [reflexivity|]. split; [lia|exact E].
  - rewrite S in M. destruct (find _ (visible s)); [discriminate|reflexivity].
Qed.
Lemma unique_init : struct_unique [[]].
Proof. intros a b x y E. destruct a; discriminate. Qed.
