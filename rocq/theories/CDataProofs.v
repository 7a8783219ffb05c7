(* Initialised data of the C translator: the definitions of cCode.c:408-596 describe the
   initialiser. *)
From Coq Require Import ZArith Bool Lia String Ascii List Permutation.
From Verif Require Import Lexer NameTable SyTree Parser ParserStmt ProgSpec DataSpec DataProofs CFile CDataSpec.
Import ListNotations.
Open Scope Z_scope.

Scheme holds_mut := Induction for holds Sort Prop
  with holdsAll_mut := Induction for holdsAll Sort Prop.

Section Proofs.
Variable vt : Z.
Notation hold := (holds vt).
Notation holdAll := (holdsAll vt).

Lemma holds_l p : forall ds s x i ls, hold ds s x i ls -> hold (p ++ ds) s x i ls.
Proof.
  apply (holds_mut vt (fun ds s x i ls _ => hold (p ++ ds) s x i ls) (fun ds s xs is ls _ => holdAll (p ++ ds) s xs is ls));
    intros; rewrite ?app_assoc; try (constructor; assumption).
Qed.
Lemma holds_r q : forall ds s x i ls, hold ds s x i ls -> hold (ds ++ q) s x i ls.
Proof.
  intros ds s x i ls H. destruct H; rewrite <- ?app_assoc; cbn [app]; econstructor; eassumption.
Qed.
Lemma holdsAll_l p ds s xs is ls : holdAll ds s xs is ls -> holdAll (p ++ ds) s xs is ls.
Proof. induction 1; constructor; [apply holds_l; assumption|assumption]. Qed.
Lemma holdsAll_r q ds s xs is ls : holdAll ds s xs is ls -> holdAll (ds ++ q) s xs is ls.
Proof. induction 1; constructor; [apply holds_r; assumption|assumption]. Qed.
Lemma holdsAll_app ds s xs is l1 : holdAll ds s xs is l1 -> forall ys js l2, holdAll ds s ys js l2 -> holdAll ds s (xs ++ ys) (is ++ js) (l1 ++ l2).
Proof. induction 1; intros ys js l' H'; [exact H'|]. cbn [app]. rewrite <- app_assoc. constructor; auto. Qed.
Lemma holdsAll_one ds s x i ls : hold ds s x i ls -> holdAll ds s [x] [i] ls.
Proof. intros H. rewrite <- (app_nil_r ls). constructor; [exact H|constructor]. Qed.
Lemma holdsAll_ne ds s xs is ls : holdAll ds s xs is ls -> is <> [] -> xs <> [].
Proof. destruct 1; intros NE E; [contradiction|discriminate E]. Qed.

Lemma labels_app a b : labels (a ++ b) = labels a ++ labels b.
Proof. apply map_app. Qed.

(* n values i in consecutive temporaries from ln *)
Definition manyC (ds : list cdef) (s : nat) (i : init) (n : nat) (ln : Z) (ls : list Z) : Prop := holdAll ds s (ptrs n ln) (repeat i n) ls.
Lemma manyC_split ds s i n m : forall ln ls, manyC ds s i (n + m) ln ls ->
  exists l1 l2, ls = l1 ++ l2 /\ manyC ds s i n ln l1 /\ manyC ds s i m (ln + Z.of_nat n) l2.
Proof.
  unfold manyC. induction n as [|n IH]; intros ln ls H.
  - exists [], ls. split; [reflexivity|]. split; [constructor|]. replace (ln + Z.of_nat 0) with ln by lia. exact H.
  - cbn [Nat.add ptrs repeat] in H. inversion H as [|? ? ? ? ? ? la lb Ra Rb]; subst. destruct (IH _ _ Rb) as (l1 & l2 & -> & A & B).
    exists (la ++ l1), l2. split; [apply app_assoc|]. split; [cbn [ptrs repeat]; constructor; [exact Ra|exact A]|].
    replace (ln + Z.of_nat (S n)) with (ln + 1 + Z.of_nat n) by lia. exact B.
Qed.
Lemma spaces_ok dim v n : forall l, let c := spaces vt n dim v l in
  manyC c (S (stars vt dim true)) (IArray (byteType vt && (stars vt dim true =? 0)%nat) [v]) n l (labSeq l n) /\ labels c = labSeq l n.
Proof.
  induction n as [|n IH]; intros l; cbn zeta; [split; [constructor|reflexivity]|]. cbn [spaces]. specialize (IH (l + 1)). cbn zeta in IH. destruct IH as [A B]. split.
  - unfold manyC. cbn [ptrs repeat labSeq]. change (l :: labSeq (l + 1) n) with ([l] ++ labSeq (l + 1) n). constructor.
    + apply (H_space vt []).
    + apply (holdsAll_l [_]). exact A.
  - cbn [labels map labelOf labSeq]. f_equal. exact B.
Qed.
Lemma ptrArrays_labels n dim size : forall ln l, labels (ptrArrays vt n dim size ln l) = labSeq l n.
Proof. induction n as [|n IH]; intros ln l; [reflexivity|]. cbn [ptrArrays labels map labelOf labSeq ptrArray]. f_equal. apply IH. Qed.
Lemma rows_ok bytes dim size rest n : rest <> [] -> 0 < size -> forall c0 ln l ls, manyC c0 (stars vt dim true) (IArray bytes rest) (n * Z.to_nat size) ln ls ->
  let c := ptrArrays vt n dim size ln l in
  exists ls', manyC (c0 ++ c) (S (stars vt dim true)) (IArray bytes (size :: rest)) n l ls' /\ Permutation ls' (ls ++ labels c).
Proof.
  intros NE PS. induction n as [|n IH]; intros c0 ln l ls M; cbn zeta.
  - cbn [Nat.mul] in M. inversion M; subst. exists []. split; [constructor|]. apply perm_nil.
  - cbn [Nat.mul] in M. apply manyC_split in M. destruct M as (l1 & l2 & -> & M1 & M2). cbn [ptrArrays].
    set (row := ptrArray vt dim size ln l). set (rows := ptrArrays vt n dim size (ln + size) (l + 1)).
    assert (manyC (c0 ++ [row]) (stars vt dim true) (IArray bytes rest) (n * Z.to_nat size) (ln + size) l2) as M2'
      by (apply holdsAll_r; replace (ln + size) with (ln + Z.of_nat (Z.to_nat size)) by lia; exact M2).
    destruct (IH _ _ (l + 1) _ M2') as (ls' & A & P). fold rows in A, P. rewrite <- app_assoc in A. cbn [app] in A.
    exists ((l :: l1) ++ ls'). split.
    + unfold manyC. cbn [ptrs repeat]. constructor; [|exact A]. unfold row, ptrArray. apply H_rows; [exact NE|].
      replace (Nat.max 1 (Z.to_nat size)) with (Z.to_nat size) by lia. exact M1.
    + cbn [labels map]. change (labelOf row) with l. fold (labels rows). cbn [app]. rewrite P. rewrite <- (Permutation_middle (l1 ++ l2)). apply perm_skip. rewrite app_assoc. reflexivity.
Qed.

Lemma stars_step dim : 1 <= dim -> stars vt (dim + 1) true = S (stars vt dim true).
Proof. intros H. unfold stars. destruct (vt <=? 0); lia. Qed.
Lemma byteType_pos : byteType vt = true -> (vt <=? 0) = false.
Proof. unfold byteType, TyCHAR, TyBOOL. destruct (Z.eqb_spec vt 3), (Z.eqb_spec vt 4); cbn; intros H; try discriminate H; subst; reflexivity. Qed.
Definition consec (l : Z) (c : list cdef) (l' : Z) : Prop := labels c = labSeq l (length c) /\ l' = l + Z.of_nat (length c).
Lemma consec_app l c l1 c' l2 : consec l c l1 -> consec l1 c' l2 -> consec l (c ++ c') l2.
Proof.
  intros [A ->] [B ->]. split; [|rewrite app_length; lia]. rewrite labels_app, A, B, app_length, labSeq_app. reflexivity.
Qed.
Lemma spaces_len n dim v : forall l, length (spaces vt n dim v l) = n.
Proof. induction n; intros l; [reflexivity|]. cbn [spaces length]. f_equal. apply IHn. Qed.
Lemma ptrArrays_len n dim size : forall ln l, length (ptrArrays vt n dim size ln l) = n.
Proof. induction n; intros ln l; [reflexivity|]. cbn [ptrArrays length]. f_equal. apply IHn. Qed.
Lemma dimsC_ne d dim cnt l r : array0 vt dim d cnt l = Some r -> dimsOf d <> [].
Proof. destruct d; cbn [array0]; intros H; try discriminate H; cbn [dimsOf]; [discriminate|]. destruct d2; try discriminate H. discriminate. Qed.
Lemma array0_ok d : forall dim cnt l c ln l', 0 < cnt -> Forall (fun k => 0 < k) (dimsOf d) -> Z.of_nat (length (dimsOf d)) <= dim ->
  array0 vt dim d cnt l = Some (c, ln, l') ->
  consec l c l' /\ exists ls, manyC c (S (stars vt dim true)) (IArray (byteType vt && (Z.of_nat (length (dimsOf d)) =? dim)) (dimsOf d)) (Z.to_nat cnt) ln ls /\ Permutation ls (labels c).
Proof.
  induction d as [|v|i|s|lv IH1 rv IH2|d0 IH r|d0 IH r]; intros dim cnt l c ln l' N F LE H; cbn [array0] in H; try discriminate H.
  - injection H as <- <- <-. change (Z.of_nat (length (dimsOf (DCnst v)))) with 1 in *.
    destruct (spaces_ok dim v (Z.to_nat cnt) l) as [A B]. split.
    + split; rewrite spaces_len; [exact B|lia].
    + exists (labSeq l (Z.to_nat cnt)). split; [|rewrite B; reflexivity]. cbn [dimsOf].
      replace (byteType vt && (1 =? dim)) with (byteType vt && (stars vt dim true =? 0)%nat); [exact A|].
      destruct (byteType vt) eqn:BT; [|reflexivity]. cbn [andb]. unfold stars. rewrite (byteType_pos BT).
      destruct (Nat.eqb_spec (Z.to_nat (dim + 0 - 1)) 0), (Z.eqb_spec 1 dim); try reflexivity; lia.
  - destruct rv as [|size| | | | |]; try discriminate H. destruct (array0 vt (dim - 1) lv (cnt * size) l) as [((c1, ln1), l1)|] eqn:G; [|discriminate H]. injection H as <- <- <-.
    cbn [dimsOf length] in *. assert (0 < size /\ Forall (fun k => 0 < k) (dimsOf lv)) as [C F'] by (inversion F; auto).
    destruct (IH1 (dim - 1) (cnt * size) l c1 ln1 l1) as (CS & ls & A & P); [nia|exact F'|lia|exact G|].
    pose proof (dimsC_ne _ _ _ _ _ G) as NE.
    assert (1 <= dim - 1) as D1 by (destruct (dimsOf lv); [contradiction|cbn [length] in LE; lia]).
    assert (stars vt dim true = S (stars vt (dim - 1) true)) as ES by (replace dim with (dim - 1 + 1) at 1 by lia; apply stars_step; exact D1).
    replace (Z.to_nat (cnt * size)) with (Z.to_nat cnt * Z.to_nat size)%nat in A by nia.
    rewrite <- ES in A.
    destruct (rows_ok _ dim size (dimsOf lv) (Z.to_nat cnt) NE C c1 ln1 l1 ls A) as (ls' & A' & P').
    split.
    + apply (consec_app _ _ l1); [exact CS|]. split; rewrite ptrArrays_len; [apply ptrArrays_labels|lia].
    + exists ls'. split; [|rewrite P', P, labels_app; reflexivity].
      replace (Z.of_nat (S (length (dimsOf lv))) =? dim) with (Z.of_nat (length (dimsOf lv)) =? dim - 1); [exact A'|].
      destruct (Z.eqb_spec (Z.of_nat (length (dimsOf lv))) (dim - 1)), (Z.eqb_spec (Z.of_nat (S (length (dimsOf lv)))) dim); try reflexivity; lia.
Qed.

(* the members of a structure *)
Lemma members_ok d : forall dim l r, Forall fieldValue (inits d) -> list1 vt dim d l = Some r ->
  r = ([], d, l) /\ forall k, exists xs, list2 vt k d = Some xs /\ Forall2 member xs (inits d).
Proof.
  induction d as [|v|i|s|a IHa b IHb|x IH r0|x IH r0]; intros dim l r F H; cbn [list1] in H; try discriminate H.
  - injection H as <-. split; [reflexivity|]. intros k. eexists. split; [reflexivity|]. cbn [inits]. repeat constructor.
  - injection H as <-. split; [reflexivity|]. intros k. eexists. split; [reflexivity|]. cbn [inits]. repeat constructor.
  - cbn [inits] in F. apply Forall_app in F. destruct F as [FA FB].
    destruct (list1 vt dim a l) as [[[c1 a1] l1]|] eqn:G1; [|discriminate H]. destruct (IHa _ _ _ FA G1) as [E1 M1]. injection E1 as -> -> ->.
    destruct (list1 vt dim b l) as [[[c2 b1] l2]|] eqn:G2; [|discriminate H]. destruct (IHb _ _ _ FB G2) as [E2 M2]. injection E2 as -> -> ->.
    injection H as <-. split; [reflexivity|]. intros k. destruct (M1 k) as (xs & X1 & X2). destruct (M2 k) as (ys & Y1 & Y2).
    exists (xs ++ ys). cbn [list2 inits]. rewrite X1, Y1. split; [reflexivity|]. apply Forall2_app; assumption.
  - cbn [inits] in F. inversion F as [|? ? X]. inversion X.
  - cbn [inits] in F. inversion F as [|? ? X]. inversion X.
Qed.
Lemma depth_S n : depth vt (S n) = S (depth vt n).
Proof. unfold depth. destruct (vt <=? 0); reflexivity. Qed.
Lemma stars_depth n : stars vt (Z.of_nat (S n)) true = depth vt n.
Proof. unfold stars, depth. destruct (vt <=? 0); lia. Qed.
Lemma list1_ok d : forall n l c d' l', Forall (plain vt n) (inits d) -> list1 vt (Z.of_nat n) d l = Some (c, d', l') ->
  consec l c l' /\ exists xs ls, list2 vt (Z.of_nat n + 1) d' = Some xs /\ holdAll c (depth vt n) xs (inits d) ls /\ Permutation ls (labels c).
Proof.
  induction d as [|v|i|s|a IHa b IHb|x IH r0|x IH r0]; intros n l c d' l' F H; cbn [list1] in H; try discriminate H.
  - injection H as <- <- <-. split; [split; [reflexivity|cbn [length]; lia]|]. exists [IcNum v], []. split; [reflexivity|]. split; [|reflexivity].
    cbn [inits] in *. apply holdsAll_one. inversion F as [|? ? X _]. inversion X; subst.
    + replace (depth vt 0) with O by (unfold depth; destruct (Z.leb_spec vt 0); [lia|reflexivity]). apply H_num. assumption.
    + apply H_null.
  - injection H as <- <- <-. split; [split; [reflexivity|cbn [length]; lia]|]. exists [IcStr s], []. split; [reflexivity|]. split; [|reflexivity].
    cbn [inits] in *. apply holdsAll_one. inversion F as [|? ? X _]. inversion X as [| | |? E E1 E2| |].
    replace (depth vt 1) with 1%nat by (unfold depth; rewrite E; reflexivity). apply H_str. exact E.
  - cbn [inits] in F. apply Forall_app in F. destruct F as [FA FB].
    destruct (list1 vt (Z.of_nat n) a l) as [[[c1 a1] l1]|] eqn:G1; [|discriminate H]. destruct (IHa _ _ _ _ _ FA G1) as (C1 & x1 & ls1 & X1 & H1 & P1).
    destruct (list1 vt (Z.of_nat n) b l1) as [[[c2 b1] l2]|] eqn:G2; [|discriminate H]. destruct (IHb _ _ _ _ _ FB G2) as (C2 & x2 & ls2 & X2 & H2 & P2).
    injection H as <- <- <-. split; [exact (consec_app _ _ _ _ _ C1 C2)|]. exists (x1 ++ x2), (ls1 ++ ls2). cbn [list2 inits]. rewrite X1, X2. split; [reflexivity|]. split.
    + apply holdsAll_app; [apply holdsAll_r; exact H1|apply holdsAll_l; exact H2].
    + rewrite labels_app. apply Permutation_app; assumption.
  - destruct (list1 vt (Z.of_nat n - 1) x l) as [[[c1 x1] l1]|] eqn:G1; [|discriminate H]. cbn [inits] in F. inversion F as [|? ? X _]. subst. clear F.
    inversion X as [| |xs T FV E1 E2| |k xs NE FX E1 E2|]; subst.
    + destruct (members_ok _ _ _ _ FV G1) as [E M]. injection E as -> -> ->. change (Z.of_nat 0) with 0 in *.
      destruct (M 0) as (ys & Y & MY). rewrite Y in H. cbn [Z.ltb Z.compare] in H. injection H as <- <- <-.
      split; [split; [reflexivity|cbn [length app]; lia]|]. exists [IcTmp true l], [l]. split; [|split].
      * cbn [list2]. replace (vt <=? 0) with true by (symmetry; apply Z.leb_le; exact T). reflexivity.
      * cbn [app inits]. rewrite <- E2. apply holdsAll_one. replace (depth vt 0) with 1%nat by (unfold depth; destruct (Z.leb_spec vt 0); [reflexivity|lia]).
        replace (stars vt 0 true) with O by (unfold stars; destruct (Z.leb_spec vt 0); [reflexivity|lia]). apply (H_obj vt []); assumption.
      * reflexivity.
    + replace (Z.of_nat (S k) - 1) with (Z.of_nat k) in G1 by lia. destruct (IH _ _ _ _ _ FX G1) as (C1 & ys & ls & Y & HA & P).
      replace (Z.of_nat k + 1) with (Z.of_nat (S k)) in Y by lia. rewrite Y in H.
      replace (0 <? Z.of_nat (S k)) with true in H by (symmetry; apply Z.ltb_lt; lia). rewrite stars_depth in H. injection H as <- <- <-.
      split; [apply (consec_app _ _ l1); [exact C1|]; split; [reflexivity|cbn [length]; lia]|].
      exists [IcTmp false l1], (l1 :: ls). split; [|split].
      * cbn [list2]. replace (Z.of_nat (S k) + 1 <=? 1) with false by (symmetry; apply Z.leb_gt; lia). rewrite andb_false_r. reflexivity.
      * cbn [inits]. rewrite <- E2. apply holdsAll_one. rewrite depth_S.
        replace (byteType vt && (k =? 0)%nat) with (byteType vt && (depth vt k =? 0)%nat).
        -- apply H_list; [exact (holdsAll_ne _ _ _ _ _ HA NE)|exact HA].
        -- destruct (byteType vt) eqn:BT; [|reflexivity]. unfold depth. rewrite (byteType_pos BT). cbn [andb]. destruct k; reflexivity.
      * rewrite labels_app. cbn [labels map labelOf]. rewrite <- P. apply Permutation_cons_append.
  - destruct (array0 vt (Z.of_nat n) x 1 l) as [[[c1 ln] l1]|] eqn:G; [|discriminate H]. injection H as <- <- <-. cbn [inits] in F. inversion F as [|? ? X _]. subst. clear F.
    inversion X as [| | | | |k dims NE LE P E1 E2]; subst.
    destruct (array0_ok _ _ _ _ _ _ _ (ltac:(lia) : 0 < 1) P (ltac:(lia) : Z.of_nat (length (dimsOf x)) <= Z.of_nat (S k)) G) as (C & ls & A & PM).
    split; [exact C|]. exists [IcTmp false ln], ls. split; [|split; [|exact PM]].
    + cbn [list2]. replace (Z.of_nat (S k) + 1 <=? 1) with false by (symmetry; apply Z.leb_gt; lia). rewrite andb_false_r. reflexivity.
    + rewrite stars_depth, <- depth_S in A. cbn [inits]. rewrite <- E2.
      replace (Z.of_nat (length (dimsOf x)) =? Z.of_nat (S k)) with (length (dimsOf x) =? S k)%nat in A; [exact A|].
      destruct (Nat.eqb_spec (length (dimsOf x)) (S k)), (Z.eqb_spec (Z.of_nat (length (dimsOf x))) (Z.of_nat (S k))); try reflexivity; lia.
Qed.

Theorem dataC_ok n root l ds x l' i : inits root = [i] -> plain vt n i -> dataC vt (Z.of_nat n) root l = Some (ds, x, l') ->
  consec l ds l' /\ exists ls, hold ds (depth vt n) x i ls /\ Permutation ls (labels ds).
Proof.
  intros EI PL H. assert (Forall (plain vt n) (inits root)) as F by (rewrite EI; constructor; [exact PL|constructor]).
  assert (forall c d', list1 vt (Z.of_nat n) root l = Some (c, d', l') -> list2 vt (Z.of_nat n + 1) d' = Some [x] -> c = ds ->
    consec l ds l' /\ exists ls, hold ds (depth vt n) x i ls /\ Permutation ls (labels ds)) as K.
  { intros c d' L1 L2 <-. destruct (list1_ok _ _ _ _ _ _ F L1) as (C & xs & ls & X & HA & P). rewrite X in L2. injection L2 as ->. split; [exact C|].
    exists ls. split; [|exact P]. rewrite EI in HA. inversion HA as [|? ? ? ? ? ? la lb Ra Rb]. subst. inversion Rb. subst. rewrite app_nil_r. exact Ra. }
  destruct root as [|v|j|s|a b|y r|y r]; cbn [dataC] in H; try discriminate H.
  - injection H as <- <- <-. apply (K [] (DCnst v)); reflexivity.
  - injection H as <- <- <-. cbn [inits] in EI. injection EI as <-. inversion PL.
  - injection H as <- <- <-. apply (K [] (DStr s)); reflexivity.
  - destruct (list1 vt (Z.of_nat n) (DList y r) l) as [[[c d'] l1]|] eqn:G; [|discriminate H]. destruct d' as [| | | | |z k|]; try discriminate H. injection H as <- <- <-.
    apply (K c (DList z k) eq_refl); [|reflexivity]. cbn [list2]. do 3 f_equal.
    cbn [inits] in EI. injection EI as <-. inversion PL as [| |xs T FV E1 E2| |m xs NE FX E1 E2|]; subst.
    + replace (vt <=? 0) with true by (symmetry; apply Z.leb_le; exact T). reflexivity.
    + destruct (Z.leb_spec (Z.of_nat (S m) + 1) 1), (Z.leb_spec (Z.of_nat (S m)) 0); lia.
  - destruct (array0 vt (Z.of_nat n) y 1 l) as [[[c ln] l1]|] eqn:G; [|discriminate H]. injection H as <- <- <-.
    apply (K c (DArry y ln)); [cbn [list1]; rewrite G; reflexivity| |reflexivity]. cbn [list2]. do 3 f_equal.
    cbn [inits] in EI. injection EI as <-. inversion PL as [| | | | |m dims NE LE P E1 E2]; subst.
    destruct (Z.leb_spec (Z.of_nat (S m) + 1) 1); [lia|]. apply andb_false_r.
Qed.
End Proofs.
