(* C06, C07: names. *)
From Coq Require Import ZArith Bool Lia String List.
From Verif Require Import Lexer LexSpec LexProofs NameTable NameSpec NameProofs.
Import ListNotations.
Open Scope Z_scope.

(* The parser's use of the table: it saves the table's size when a scope begins and voids
   or drops the entries from there on when it ends (exec, in NameProofs.v). *)
Definition empty : st := St [] [].
Definition found (t : table) (n : list Z) : option entry :=
  match ntSrcName t n with Some i => ent t i | None => None end.

(* ==== C06 ==== *)
(* every history the table accepts is a history of the scope stack, and after it every
   name means in the table what it means there; struct names likewise *)
Theorem C06_resolution : forall es t marks,
  exec empty es = Some (NOk (St t marks)) ->
  exists s, steps [[]] es s /\
    (forall n, found t n = option_map entry_of (meaning s n)) /\
    (forall n, match struct_of s n with
               | Some d => exists i, ntSrcStruct t n = - i /\ 0 <= i /\ ent t i = Some (entry_of d)
               | None => ntSrcStruct t n = TyNON
               end).
Proof.
  intros es t ms H. destruct (exec_rep es [] [] [[]] _ rep_init H) as (s & S & R). exists s. split; [exact S|]. split.
  - intros n. unfold found. pose proof (lookup_rep _ _ _ n R) as L. cbn [tbl] in L. destruct (ntSrcName t n).
    + destruct L as (d & -> & E). exact E.
    + rewrite L. reflexivity.
  - intros n. apply (struct_rep t ms s n R). exact (steps_unique _ _ _ S unique_init).
Qed.
(* after a scope and everything in it, all names mean what they meant before *)
Theorem C06_scope_exit : forall before inner keep t m t' m',
  balanced inner ->
  exec empty before = Some (NOk (St t m)) ->
  exec (St t m) (Enter :: inner ++ [Leave keep]) = Some (NOk (St t' m')) ->
  forall n, found t' n = found t n.
Proof.
  intros before inner keep t m t' m' B H1 H2 n.
  destruct (exec_rep before [] [] [[]] _ rep_init H1) as (s & _ & R). cbn [tbl marks] in R.
  destruct (exec_rep _ t m s _ R H2) as (s2 & S2 & R2). cbn [tbl marks] in R2.
  assert (E : s2 = s).
  { inversion S2 as [|? ? s3 ? ? A C]; subst. inversion A; subst. destruct (steps_app _ _ _ _ C) as (s4 & C1 & C2).
    destruct (balanced_steps _ B _ _ _ C1) as (new & ->). inversion C2 as [|? ? s5 ? ? A2 C3]; subst. inversion A2; subst.
    inversion C3; subst. reflexivity. }
  subst s2. unfold found. pose proof (lookup_rep _ _ _ n R) as L1. pose proof (lookup_rep _ _ _ n R2) as L2.
  destruct (ntSrcName t n), (ntSrcName t' n).
  - destruct L1 as (d1 & M1 & ->), L2 as (d2 & M2 & ->). congruence.
  - destruct L1 as (d1 & M1 & _). congruence.
  - destruct L2 as (d1 & M1 & _). congruence.
  - reflexivity.
Qed.
(* recording that a prototype got its definition, or a variable its initialiser, changes
   no lookup and no later check *)
Theorem C06_promotion : forall t i e s,
  ent t i = Some e -> isGlob (nScope e) = true -> isGlob s = true ->
  (forall n, ntSrcName (ntSetScope t i s) n = ntSrcName t n) /\
  (forall n, ntSrcStruct (ntSetScope t i s) n = ntSrcStruct t n) /\
  (forall n sc, ntChkName (ntSetScope t i s) n sc = ntChkName t n sc).
Proof. exact promote. Qed.
Print Assumptions C06_resolution.
Print Assumptions C06_scope_exit.
Print Assumptions C06_promotion.

Definition dx := Decl (text "x").
Definition ex_before := [Declare (dx KGlobal 2 0 0 false); Declare (Decl (text "f") KFunc 2 0 0 true); Enter;
  Declare (Decl (text "p") KParam 2 0 0 false)].
Definition ex_inner := [Declare (dx KLocal 3 1 1 false); Enter; Declare (Decl (text "y") KLocal 2 0 2 false); Leave true].
Example C06_inhabited : exists t m t' m' t2 m2,
  exec empty ex_before = Some (NOk (St t m)) /\ balanced ex_inner /\
  exec (St t m) (Enter :: ex_inner ++ [Leave true]) = Some (NOk (St t' m')) /\
  exec (St t m) (Enter :: ex_inner) = Some (NOk (St t2 m2)) /\
  found t2 (text "x") = Some (entry_of (dx KLocal 3 1 1 false)) /\
  found t' (text "x") = Some (entry_of (dx KGlobal 2 0 0 false)) /\ found t' (text "y") = None.
Proof.
  do 6 eexists. split; [vm_compute; reflexivity|]. split.
  - apply bal_decl. apply (bal_scope true [Declare (Decl (text "y") KLocal 2 0 2 false)] []); repeat constructor.
  - split; [vm_compute; reflexivity|]. split; [vm_compute; reflexivity|]. vm_compute. auto.
Qed.

(* ==== C07 ==== *)
(* a declaration is refused for double definition exactly when it conflicts with a visible one *)
Theorem C07_double : forall es t m d,
  exec empty es = Some (NOk (St t m)) -> (List.length t < 500)%nat ->
  exists s, steps [[]] es s /\
    ((exists o, In o (visible s) /\ conflict d o) <-> exec (St t m) [Declare d] = Some (NErr EDouble)) /\
    ((forall o, In o (visible s) -> ~ conflict d o) <-> exists t', exec (St t m) [Declare d] = Some (NOk (St t' m))).
Proof.
  intros es t m d H L. destruct (exec_rep es [] [] [[]] _ rep_init H) as (s & S & R). cbn [tbl marks] in R.
  exists s. split; [exact S|]. pose proof (chk_rep t m s d R) as C.
  cbn [exec exec1 tbl marks]. unfold ntDefName. destruct (Z.leb_spec NtMAX (ntGetSize t)) as [F|F].
  - unfold NtMAX, ntGetSize in F. lia.
  - destruct (0 <=? _).
    + split; split.
      * reflexivity.
      * intros _. now apply C.
      * intros N. destruct (proj1 C eq_refl) as (o & I & K). destruct (N o I K).
      * intros (t' & X). discriminate.
    + split; split.
      * intros X. discriminate (proj2 C X).
      * discriminate.
      * intros _. eexists. reflexivity.
      * intros _ o I K. discriminate (proj2 C (ex_intro _ o (conj I K))).
Qed.
Theorem C07_full : forall es t m d,
  exec empty es = Some (NOk (St t m)) -> (500 <= List.length t)%nat -> exec (St t m) [Declare d] = Some (NErr EFull).
Proof.
  intros es t m d _ L. cbn [exec exec1 tbl marks]. unfold ntDefName.
  destruct (Z.leb_spec NtMAX (ntGetSize t)) as [F|F]; [reflexivity|]. unfold NtMAX, ntGetSize in F. lia.
Qed.
Print Assumptions C07_double.
Print Assumptions C07_full.
Example C07_inhabited : exists t m, exec empty ex_before = Some (NOk (St t m)) /\
  exec (St t m) [Declare (Decl (text "p") KLocal 2 0 1 false)] = Some (NErr EDouble) /\
  exec (St t m) [Declare (Decl (text "p") KStruct 5 0 1 false)] = Some (NErr EDouble) /\
  exists t', exec (St t m) [Declare (Decl (text "f") KLocal 2 0 1 false)] = Some (NOk (St t' m)).
Proof. do 2 eexists. repeat split; try (vm_compute; reflexivity). eexists. vm_compute. reflexivity. Qed.
Definition many : list event := map (fun i => Declare (Decl [Z.of_nat i] KGlobal 2 0 0 false)) (seq 0 500).
Example C07_full_inhabited : exists t m, exec empty many = Some (NOk (St t m)) /\ (500 <= List.length t)%nat /\
  exec (St t m) [Declare (dx KLocal 2 0 1 false)] = Some (NErr EFull).
Proof.
  destruct (exec empty many) as [[[t m]|]|] eqn:E.
  - exists t, m. split; [reflexivity|].
    assert (L : (500 <= List.length t)%nat).
    { assert (Q : match exec empty many with Some (NOk s) => Nat.leb 500 (List.length (tbl s)) | _ => false end = true) by (vm_compute; reflexivity).
      rewrite E in Q. now apply Nat.leb_le. }
    split; [exact L|]. exact (C07_full many t m _ E L).
  - assert (Q : match exec empty many with Some (NOk s) => true | _ => false end = true) by (vm_compute; reflexivity). rewrite E in Q. discriminate.
  - assert (Q : match exec empty many with Some (NOk s) => true | _ => false end = true) by (vm_compute; reflexivity). rewrite E in Q. discriminate.
Qed.
