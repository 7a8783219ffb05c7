(* Initialised data with run-time checks: the text of RtcData.v is that of definitions that
   describe the initialiser (RtcDataSpec.v). *)
From Coq Require Import ZArith Bool Lia List String Ascii Permutation.
From Verif Require Import Lexer NameTable SyTree OpTree COpTree Parser ParserStmt ProgSpec DataSpec DataProofs CCode AsmText CFile CDataSpec CSourceSpec RtcHeap RtcSpec RtcDataSpec RtcData.
Import ListNotations.
Open Scope Z_scope.

Scheme holdsR_mut := Induction for holdsR Sort Prop
  with holdsAllR_mut := Induction for holdsAllR Sort Prop.

(* lists are built to the left, element after element *)
Definition single (d : dat) : Prop := match d with DSemi _ _ | DNull => False | _ => True end.
Fixpoint lefty (d : dat) : Prop :=
  match d with
  | DNull => False
  | DSemi a b => lefty a /\ single b /\ lefty b
  | DList x _ => lefty x
  | _ => True
  end.

Lemma between_app (s : list Z) xs y : xs <> [] -> between s (xs ++ [y]) = between s xs ++ s ++ y.
Proof.
  induction xs as [|a xs IH]; intros NE; [contradiction|]. destruct xs as [|b xs]; [reflexivity|].
  change (between s ((a :: b :: xs) ++ [y])) with (a ++ s ++ between s ((b :: xs) ++ [y])). rewrite IH by discriminate.
  change (between s (a :: b :: xs)) with (a ++ s ++ between s (b :: xs)). rewrite <- !app_assoc. reflexivity.
Qed.

Section Proofs.
Variable t : table.
Variable vt : Z.
Hypothesis notVoid : vt <> TyVOID.
Notation nm := (nameAt t).
Notation hold := (holdsR vt).
Notation holdAll := (holdsAllR vt).
Notation texts := (flat_map (rdText nm vt)).

Lemma holds_l p : forall ds s x i ls, hold ds s x i ls -> hold (p ++ ds) s x i ls.
Proof.
  apply (holdsR_mut vt (fun ds s x i ls _ => hold (p ++ ds) s x i ls) (fun ds s xs is ls _ => holdAll (p ++ ds) s xs is ls));
    intros; rewrite ?app_assoc; try (constructor; assumption).
Qed.
Lemma holds_r q : forall ds s x i ls, hold ds s x i ls -> hold (ds ++ q) s x i ls.
Proof.
  intros ds s x i ls H. destruct H; rewrite <- ?app_assoc; cbn [app]; econstructor; eassumption.
Qed.
Lemma holdsAll_l p ds s xs is ls : holdAll ds s xs is ls -> holdAll (p ++ ds) s xs is ls.
Proof. induction 1; constructor; [apply holds_l; assumption|assumption]. Qed.
Lemma holdsAll_r q ds s xs is ls : holdAll ds s xs is ls -> holdAll (ds ++ q) s xs is ls.
Proof. induction 1; constructor; [apply holds_r; assumption|assumption]. Qed.
Lemma holdsAll_app ds s xs is l1 : holdAll ds s xs is l1 -> forall ys js l2, holdAll ds s ys js l2 -> holdAll ds s (xs ++ ys) (is ++ js) (l1 ++ l2).
Proof. induction 1; intros ys js l' H'; [exact H'|]. cbn [app]. rewrite <- app_assoc. constructor; auto. Qed.
Lemma holdsAll_one ds s x i ls : hold ds s x i ls -> holdAll ds s [x] [i] ls.
Proof. intros H. rewrite <- (app_nil_r ls). constructor; [exact H|constructor]. Qed.
Lemma holdsAll_ne ds s xs is ls : holdAll ds s xs is ls -> is <> [] -> xs <> [].
Proof. destruct 1; intros NE E; [contradiction|discriminate E]. Qed.
Lemma holdsAll_len ds s xs is ls : holdAll ds s xs is ls -> List.length xs = List.length is.
Proof. induction 1; [reflexivity|]. cbn [List.length]. f_equal. assumption. Qed.
Lemma labels_app a b : labelsR (a ++ b) = labelsR a ++ labelsR b.
Proof. apply map_app. Qed.

(* ---- the type and the name of a temporary ---- *)
Lemma inst_arr dim l : 1 <= dim -> instR t vt dim l = Some (codes "static " ++ kindWord (kindOf vt (Z.to_nat dim)) ++ codes " " ++ cTmp l).
Proof.
  intros D. unfold instR, typeDclR, wordText, kindOf. replace (dim =? 0) with false by (symmetry; apply Z.eqb_neq; lia).
  replace (Z.to_nat dim =? 1)%nat with (dim =? 1) by (destruct (Z.eqb_spec dim 1), (Nat.eqb_spec (Z.to_nat dim) 1); try reflexivity; lia).
  replace (vt =? TyVOID) with false by (symmetry; apply Z.eqb_neq; exact notVoid).
  destruct (_ && _); [destruct (_ =? _)|]; reflexivity.
Qed.
Lemma inst_obj l c : vt <= 0 -> instR t vt 0 l = Some c -> c = codes "static " ++ baseWord nm vt ++ codes " " ++ cTmp l.
Proof.
  intros V. unfold instR, typeDclR, wordText, baseWord. replace (vt <=? 0) with true by (symmetry; apply Z.leb_le; lia). change (0 =? 0) with true. cbv iota.
  unfold typeText. unfold TyVOID, TyINT, TyBOOL, TyCHAR, TyINTR, TyDOTDOTDOT.
  repeat match goal with |- context [vt =? ?k] => replace (vt =? k) with false by (symmetry; apply Z.eqb_neq; lia) end. replace (vt <=? 0) with true by (symmetry; apply Z.leb_le; lia).
  cbn [andb]. destruct (_ || _); [|discriminate]. cbn [CCode.cat negb andb]. intros E. injection E as <-. rewrite <- !app_assoc. reflexivity.
Qed.

(* ---- array(..) ---- *)
Fixpoint tmpsR (n : nat) (lab : Z) : list rval := match n with O => [] | S k => RvTmp lab :: tmpsR k (lab + 1) end.
Lemma tmpsR_len n : forall l, List.length (tmpsR n l) = n.
Proof. induction n; intros l; [reflexivity|]. cbn [tmpsR List.length]. f_equal. apply IHn. Qed.
Lemma ptrsR_text n : forall lab, codes "&" ++ tmpLab lab ++ ptrsR n (lab + 1) = between (codes ",") (map (rvText nm) (tmpsR (S n) lab)).
Proof.
  induction n as [|n IH]; intros lab; [cbn [ptrsR tmpsR map between rvText]; rewrite app_nil_r; reflexivity|].
  change (between (codes ",") (map (rvText nm) (tmpsR (S (S n)) lab))) with (rvText nm (RvTmp lab) ++ codes "," ++ between (codes ",") (map (rvText nm) (tmpsR (S n) (lab + 1)))).
  rewrite <- IH. cbn [ptrsR rvText]. rewrite <- !app_assoc. reflexivity.
Qed.
Definition manyC (ds : list rdef) (s : nat) (i : init) (n : nat) (ln : Z) (ls : list Z) : Prop := holdAll ds s (tmpsR n ln) (repeat i n) ls.
Lemma manyC_split ds s i n m : forall ln ls, manyC ds s i (n + m) ln ls ->
  exists l1 l2, ls = l1 ++ l2 /\ manyC ds s i n ln l1 /\ manyC ds s i m (ln + Z.of_nat n) l2.
Proof.
  unfold manyC. induction n as [|n IH]; intros ln ls H.
  - exists [], ls. split; [reflexivity|]. split; [constructor|]. replace (ln + Z.of_nat 0) with ln by lia. exact H.
  - cbn [Nat.add tmpsR repeat] in H. inversion H as [|? ? ? ? ? ? la lb Ra Rb]; subst. destruct (IH _ _ Rb) as (l1 & l2 & -> & A & B).
    exists (la ++ l1), l2. split; [apply app_assoc|]. split; [cbn [tmpsR repeat]; constructor; [exact Ra|exact A]|].
    replace (ln + Z.of_nat (S n)) with (ln + 1 + Z.of_nat n) by lia. exact B.
Qed.
Fixpoint spaceDefs (n : nat) (d : nat) (v l : Z) : list rdef := match n with O => [] | S k => RdSpace l d v :: spaceDefs k d v (l + 1) end.
Lemma spaces_text n d v : forall l, spacesR t vt n (Z.of_nat (S d)) v l = Some (texts (spaceDefs n (S d) v l)).
Proof.
  induction n as [|n IH]; intros l; [reflexivity|]. cbn [spacesR spaceDefs flat_map rdText]. rewrite inst_arr by lia. rewrite IH. rewrite Nat2Z.id. cbn [CCode.cat].
  rewrite <- !app_assoc. reflexivity.
Qed.
Lemma spaces_ok d v n : 0 < v -> forall l, let c := spaceDefs n (S d) v l in
  manyC c (S d) (IArray (byteType vt && (d =? 0)%nat) [v]) n l (labSeq l n) /\ labelsR c = labSeq l n /\ List.length c = n.
Proof.
  intros V. induction n as [|n IH]; intros l; cbn zeta; [split; [constructor|split; reflexivity]|]. cbn [spaceDefs]. specialize (IH (l + 1)). cbn zeta in IH. destruct IH as (A & B & C). split; [|split].
  - unfold manyC. cbn [tmpsR repeat labSeq]. change (l :: labSeq (l + 1) n) with ([l] ++ labSeq (l + 1) n). constructor.
    + apply (HR_space vt []). exact V.
    + apply (holdsAll_l [_]). exact A.
  - cbn [labelsR map labelR labSeq]. f_equal. exact B.
  - cbn [List.length]. f_equal. exact C.
Qed.
Fixpoint rowDefs (n : nat) (d : nat) (size ln l : Z) : list rdef :=
  match n with O => [] | S k => RdArr l d (Z.of_nat (List.length (tmpsR (Z.to_nat size) ln))) (tmpsR (Z.to_nat size) ln) :: rowDefs k d size (ln + size) (l + 1) end.
Lemma rows_text n d size : 0 < size -> forall ln l, ptrArraysR t vt n (Z.of_nat (S d)) size ln l = Some (texts (rowDefs n (S d) size ln l)).
Proof.
  intros P. induction n as [|n IH]; intros ln l; [reflexivity|]. cbn [ptrArraysR rowDefs flat_map rdText]. unfold ptrArrayR. rewrite inst_arr by lia. rewrite IH. rewrite Nat2Z.id. cbn [CCode.cat].
  rewrite tmpsR_len, Z2Nat.id by lia. pose proof (ptrsR_text (Z.to_nat (size - 1)) ln) as E. replace (S (Z.to_nat (size - 1))) with (Z.to_nat size) in E by lia. rewrite <- E.
  apply f_equal. rewrite <- !app_assoc. reflexivity.
Qed.
Lemma rowDefs_labels n d size : forall ln l, labelsR (rowDefs n d size ln l) = labSeq l n /\ List.length (rowDefs n d size ln l) = n.
Proof.
  induction n as [|n IH]; intros ln l; [split; reflexivity|]. destruct (IH (ln + size) (l + 1)) as [A B]. cbn [rowDefs labelsR map labelR labSeq List.length]. split; f_equal; assumption.
Qed.
Lemma rows_ok bytes d size rest n : rest <> [] -> 0 < size -> forall c0 ln l ls, manyC c0 d (IArray bytes rest) (n * Z.to_nat size) ln ls ->
  let c := rowDefs n (S d) size ln l in
  exists ls', manyC (c0 ++ c) (S d) (IArray bytes (size :: rest)) n l ls' /\ Permutation ls' (ls ++ labelsR c).
Proof.
  intros NE PS. induction n as [|n IH]; intros c0 ln l ls M; cbn zeta.
  - cbn [Nat.mul] in M. inversion M; subst. exists []. split; [constructor|]. apply perm_nil.
  - cbn [Nat.mul] in M. apply manyC_split in M. destruct M as (l1 & l2 & -> & M1 & M2). cbn [rowDefs].
    set (row := RdArr l (S d) _ _). set (rows := rowDefs n (S d) size (ln + size) (l + 1)).
    assert (manyC (c0 ++ [row]) d (IArray bytes rest) (n * Z.to_nat size) (ln + size) l2) as M2'
      by (apply holdsAll_r; replace (ln + size) with (ln + Z.of_nat (Z.to_nat size)) by lia; exact M2).
    destruct (IH _ _ (l + 1) _ M2') as (ls' & A & P). fold rows in A, P. rewrite <- app_assoc in A. cbn [app] in A.
    exists ((l :: l1) ++ ls'). split.
    + unfold manyC. cbn [tmpsR repeat]. constructor; [|exact A]. unfold row. apply HR_rows; [exact NE|exact PS|exact M1].
    + cbn [labelsR map]. change (labelR row) with l. fold (labelsR rows). cbn [app]. rewrite P. rewrite <- (Permutation_middle (l1 ++ l2)). apply perm_skip. rewrite app_assoc. reflexivity.
Qed.
Definition consec (l : Z) (c : list rdef) (l' : Z) : Prop := labelsR c = labSeq l (List.length c) /\ l' = l + Z.of_nat (List.length c).
Lemma consec_app l c l1 c' l2 : consec l c l1 -> consec l1 c' l2 -> consec l (c ++ c') l2.
Proof.
  intros [A ->] [B ->]. split; [|rewrite app_length; lia]. rewrite labels_app, A, B, app_length, labSeq_app. reflexivity.
Qed.
Lemma dimsC_ne d dim cnt l r : array0R t vt dim d cnt l = Some r -> dimsOf d <> [].
Proof. destruct d; cbn [array0R]; intros H; try discriminate H; cbn [dimsOf]; [discriminate|]. destruct d2; try discriminate H. discriminate. Qed.
Lemma array0_ok d : forall dim cnt l c ln l', 0 < cnt -> Forall (fun k => 0 < k) (dimsOf d) -> (List.length (dimsOf d) <= S dim)%nat ->
  array0R t vt (Z.of_nat (S dim)) d cnt l = Some (c, ln, l') ->
  exists ds ls, c = texts ds /\ consec l ds l' /\
    manyC ds (S dim) (IArray (byteType vt && (List.length (dimsOf d) =? S dim)%nat) (dimsOf d)) (Z.to_nat cnt) ln ls /\ Permutation ls (labelsR ds).
Proof.
  induction d as [|v|i|s|lv IH1 rv IH2|d0 IH r|d0 IH r]; intros dim cnt l c ln l' N F LE H; cbn [array0R] in H; try discriminate H.
  - rewrite spaces_text in H. injection H as <- <- <-. cbn [dimsOf List.length] in *. assert (0 < v) as V by (inversion F; assumption).
    destruct (spaces_ok dim v (Z.to_nat cnt) V l) as (A & B & C). exists (spaceDefs (Z.to_nat cnt) (S dim) v l), (labSeq l (Z.to_nat cnt)).
    split; [reflexivity|]. split; [split; rewrite C; [exact B|lia]|]. split; [|rewrite B; reflexivity].
    replace (1 =? S dim)%nat with (dim =? 0)%nat by (destruct dim; reflexivity). exact A.
  - destruct rv as [|size| | | | |]; try discriminate H. destruct (array0R t vt (Z.of_nat (S dim) - 1) lv (cnt * size) l) as [((c1, ln1), l1)|] eqn:G; [|discriminate H].
    cbn [dimsOf List.length] in *. assert (0 < size /\ Forall (fun k => 0 < k) (dimsOf lv)) as [C F'] by (inversion F; auto).
    rewrite rows_text in H by exact C. injection H as <- <- <-.
    pose proof (dimsC_ne _ _ _ _ _ G) as NE. destruct dim as [|dim]; [destruct (dimsOf lv); [contradiction|cbn [List.length] in LE; lia]|].
    replace (Z.of_nat (S (S dim)) - 1) with (Z.of_nat (S dim)) in G by lia.
    destruct (IH1 dim (cnt * size) l c1 ln1 l1) as (ds & ls & -> & CS & A & P); [nia|exact F'|lia|exact G|].
    replace (Z.to_nat (cnt * size)) with (Z.to_nat cnt * Z.to_nat size)%nat in A by nia.
    destruct (rows_ok _ (S dim) size (dimsOf lv) (Z.to_nat cnt) NE C ds ln1 l1 ls A) as (ls' & A' & P').
    exists (ds ++ rowDefs (Z.to_nat cnt) (S (S dim)) size ln1 l1), ls'. destruct (rowDefs_labels (Z.to_nat cnt) (S (S dim)) size ln1 l1) as [LA LL].
    split; [rewrite flat_map_app; reflexivity|]. split; [apply (consec_app _ _ l1); [exact CS|]; split; rewrite LL; [exact LA|lia]|].
    split; [exact A'|rewrite P', P, labels_app; reflexivity].
Qed.

(* ---- lists ---- *)
Fixpoint valsR (d : dat) : option (list rval) :=
  match d with
  | DSemi a b => match valsR a, valsR b with Some x, Some y => Some (x ++ y) | _, _ => None end
  | DList _ r | DArry _ r => Some [RvTmp r]
  | DCnst v => Some [RvNum v]
  | DStr l => Some [RvStr l]
  | _ => None
  end.
Notation joined xs := (between (codes ",") (map (rvText nm) xs)).
Lemma item_single d xs : single d -> valsR d = Some xs -> exists x, xs = [x] /\ itemR d = Some (rvText nm x).
Proof.
  destruct d; cbn [single valsR itemR]; intros K E; try (destruct K; fail); try discriminate E; injection E as <-; eexists; (split; [reflexivity|]); reflexivity.
Qed.
Lemma cat_nil_r a : CCode.cat a (Some []) = a.
Proof. destruct a; cbn [CCode.cat]; [rewrite app_nil_r|]; reflexivity. Qed.
Lemma list2_single d dim cnt : single d -> list2R vt dim d cnt =
  CCode.cat (CCode.cat (Some (if (0 <? cnt) && counted vt dim then dec cnt ++ codes ",{" else [])) (itemR d)) (Some (if (cnt =? 1) && counted vt dim then codes "}" else [])).
Proof. destruct d; cbn [single]; intros K; try (destruct K; fail); reflexivity. Qed.
Lemma list2_text d : forall dim xs cnt, lefty d -> valsR d = Some xs -> 1 <= cnt -> xs <> [] /\
  list2R vt dim d cnt = Some ((if counted vt dim then dec (cnt + Z.of_nat (List.length xs) - 1) ++ codes ",{" else []) ++ joined xs ++ (if (cnt =? 1) && counted vt dim then codes "}" else [])).
Proof.
  assert (S : forall d dim xs cnt, single d -> valsR d = Some xs -> 1 <= cnt -> xs <> [] /\
    list2R vt dim d cnt = Some ((if counted vt dim then dec (cnt + Z.of_nat (List.length xs) - 1) ++ codes ",{" else []) ++ joined xs ++ (if (cnt =? 1) && counted vt dim then codes "}" else []))).
  { intros d0 dim xs cnt K V N. rewrite (list2_single d0 dim cnt K). destruct (item_single _ _ K V) as (x & -> & E). split; [discriminate|]. rewrite E.
    replace (0 <? cnt) with true by (symmetry; apply Z.ltb_lt; lia). cbn [andb List.length map between CCode.cat].
    replace (cnt + Z.of_nat 1 - 1) with cnt by lia. rewrite <- app_assoc. reflexivity. }
  induction d as [|v|i|s|a IHa b IHb|x IH r0|x IH r0]; intros dim xs cnt L V N; try (apply S; [exact I|exact V|exact N]).
  - destruct L.
  - destruct L as (LA & SB & LB). cbn [valsR] in V. destruct (valsR a) as [ya|] eqn:VA; [|discriminate V]. destruct (valsR b) as [yb|] eqn:VB; [|discriminate V]. injection V as <-.
    destruct (IHa dim ya (cnt + 1) LA eq_refl) as [NE EA]; [lia|]. destruct (item_single _ _ SB VB) as (y & -> & EI).
    split; [intros E; apply app_eq_nil in E; destruct E as [_ E]; discriminate E|].
    change (list2R vt dim (DSemi a b) cnt) with (CCode.cat (CCode.cat (list2R vt dim a (cnt + 1)) (CCode.cat (Some (codes ",")) (list2R vt dim b 0))) (Some (if (cnt =? 1) && counted vt dim then codes "}" else []))).
    rewrite EA, (list2_single b dim 0 SB), EI. change (0 <? 0) with false. change (0 =? 1) with false. cbn [andb CCode.cat].
    replace (cnt + 1 =? 1) with false by (symmetry; apply Z.eqb_neq; lia). cbn [andb]. rewrite map_app. cbn [map]. rewrite between_app by (destruct ya; [contradiction|discriminate]).
    rewrite app_length. cbn [List.length]. replace (cnt + 1 + Z.of_nat (List.length ya) - 1) with (cnt + Z.of_nat (List.length ya + 1) - 1) by lia.
    apply f_equal. rewrite ?app_nil_r, ?app_nil_l, <- ?app_assoc. reflexivity.
Qed.
Lemma members_ok d : forall dim l r, Forall fieldValue (inits d) -> list1R t vt dim d l = Some r ->
  r = ([], d, l) /\ exists xs, valsR d = Some xs /\ Forall2 memberR xs (inits d).
Proof.
  induction d as [|v|i|s|a IHa b IHb|x IH r0|x IH r0]; intros dim l r F H; cbn [list1R] in H; try discriminate H.
  - injection H as <-. split; [reflexivity|]. eexists. split; [reflexivity|]. cbn [inits]. repeat constructor.
  - injection H as <-. split; [reflexivity|]. eexists. split; [reflexivity|]. cbn [inits]. repeat constructor.
  - cbn [inits] in F. apply Forall_app in F. destruct F as [FA FB].
    destruct (list1R t vt dim a l) as [[[c1 a1] l1]|] eqn:G1; [|discriminate H]. destruct (IHa _ _ _ FA G1) as [E1 (xs & X1 & X2)]. injection E1 as -> -> ->.
    destruct (list1R t vt dim b l) as [[[c2 b1] l2]|] eqn:G2; [|discriminate H]. destruct (IHb _ _ _ FB G2) as [E2 (ys & Y1 & Y2)]. injection E2 as -> -> ->.
    injection H as <-. split; [reflexivity|].
    exists (xs ++ ys). cbn [valsR inits]. rewrite X1, Y1. split; [reflexivity|]. apply Forall2_app; assumption.
  - cbn [inits] in F. inversion F as [|? ? X]. inversion X.
  - cbn [inits] in F. inversion F as [|? ? X]. inversion X.
Qed.
Lemma list1_single d dim l c d' l' : single d -> list1R t vt dim d l = Some (c, d', l') -> single d'.
Proof.
  destruct d; cbn [single list1R]; intros K H; try (destruct K; fail); try discriminate H.
  - injection H as <- <- <-. exact I.
  - injection H as <- <- <-. exact I.
  - destruct (list1R t vt (dim - 1) d l) as [[[c1 x1] l1]|]; [|discriminate H]. destruct (CCode.cat _ _); [|discriminate H]. injection H as <- <- <-. exact I.
  - destruct (array0R t vt dim d 1 l) as [[[c1 x1] l1]|]; [|discriminate H]. injection H as <- <- <-. exact I.
Qed.
Lemma list1_ok d : forall n l c d' l', lefty d -> Forall (plain vt n) (inits d) -> list1R t vt (Z.of_nat n) d l = Some (c, d', l') ->
  lefty d' /\ exists ds xs ls, c = texts ds /\ consec l ds l' /\ valsR d' = Some xs /\ holdAll ds n xs (inits d) ls /\ Permutation ls (labelsR ds).
Proof.
  induction d as [|v|i|s|a IHa b IHb|x IH r0|x IH r0]; intros n l c d' l' LF F H; cbn [list1R] in H; try discriminate H.
  - injection H as <- <- <-. split; [exact I|]. exists [], [RvNum v], []. split; [reflexivity|]. split; [split; [reflexivity|cbn [List.length]; lia]|]. split; [reflexivity|]. split; [|reflexivity].
    cbn [inits] in *. apply holdsAll_one. inversion F as [|? ? X _]. inversion X; subst; [apply HR_num; assumption|apply HR_null].
  - injection H as <- <- <-. split; [exact I|]. exists [], [RvStr s], []. split; [reflexivity|]. split; [split; [reflexivity|cbn [List.length]; lia]|]. split; [reflexivity|]. split; [|reflexivity].
    cbn [inits] in *. apply holdsAll_one. inversion F as [|? ? X _]. inversion X as [| | |? E E1 E2| |]. apply HR_str. exact E.
  - cbn [inits] in F. apply Forall_app in F. destruct F as [FA FB]. destruct LF as (LA & SB & LB).
    destruct (list1R t vt (Z.of_nat n) a l) as [[[c1 a1] l1]|] eqn:G1; [|discriminate H]. destruct (IHa _ _ _ _ _ LA FA G1) as (LA' & d1 & x1 & ls1 & -> & C1 & X1 & H1 & P1).
    destruct (list1R t vt (Z.of_nat n) b l1) as [[[c2 b1] l2]|] eqn:G2; [|discriminate H]. destruct (IHb _ _ _ _ _ LB FB G2) as (LB' & d2 & x2 & ls2 & -> & C2 & X2 & H2 & P2).
    injection H as <- <- <-. split; [split; [exact LA'|split; [exact (list1_single _ _ _ _ _ _ SB G2)|exact LB']]|].
    exists (d1 ++ d2), (x1 ++ x2), (ls1 ++ ls2). split; [rewrite flat_map_app; reflexivity|]. split; [exact (consec_app _ _ _ _ _ C1 C2)|]. cbn [valsR inits]. rewrite X1, X2. split; [reflexivity|]. split.
    + apply holdsAll_app; [apply holdsAll_r; exact H1|apply holdsAll_l; exact H2].
    + rewrite labels_app. apply Permutation_app; assumption.
  - destruct (list1R t vt (Z.of_nat n - 1) x l) as [[[c1 x1] l1]|] eqn:G1; [|discriminate H]. cbn [inits] in F. inversion F as [|? ? X _]. subst. clear F. cbn [lefty] in LF.
    inversion X as [| |xs T FV E1 E2| |k xs NE FX E1 E2|]; subst.
    + destruct (members_ok _ _ _ _ FV G1) as [E (ys & Y & MY)]. injection E as -> -> ->. change (Z.of_nat 0) with 0 in *.
      destruct (list2_text x 0 ys 1 LF Y) as [_ ET]; [lia|]. rewrite ET in H.
      assert (counted vt 0 = false) as CT by (unfold counted; replace (vt <=? 0) with true by (symmetry; apply Z.leb_le; exact T); reflexivity).
      rewrite CT in H. rewrite andb_false_r in H. destruct (instR t vt 0 l) as [w|] eqn:W; [|discriminate H]. apply inst_obj in W; [|exact T]. subst w. cbn [CCode.cat] in H. injection H as <- <- <-.
      split; [exact LF|]. exists [RdObj l ys], [RvTmp l], [l].
      split; [cbn [flat_map rdText app]; rewrite ?app_nil_r, <- ?app_assoc; reflexivity|]. split; [split; [reflexivity|cbn [List.length]; lia]|]. split; [reflexivity|]. split; [|reflexivity].
      cbn [inits]. rewrite <- E2. apply holdsAll_one. apply (HR_obj vt []); assumption.
    + replace (Z.of_nat (S k) - 1) with (Z.of_nat k) in G1 by lia. destruct (IH _ _ _ _ _ LF FX G1) as (LF' & ds & ys & ls & -> & C1 & Y & HA & P).
      destruct (list2_text x1 (Z.of_nat (S k)) ys 1 LF' Y) as [_ ET]; [lia|]. rewrite ET in H.
      assert (counted vt (Z.of_nat (S k)) = true) as CT by (unfold counted; replace (Z.of_nat (S k) <=? 0) with false by (symmetry; apply Z.leb_gt; lia); rewrite andb_false_r; reflexivity).
      rewrite CT in H. rewrite inst_arr in H by lia. rewrite Nat2Z.id in H. change (1 =? 1) with true in H. cbn [andb CCode.cat] in H.
      replace (1 + Z.of_nat (List.length ys) - 1) with (Z.of_nat (List.length ys)) in H by lia. injection H as <- <- <-.
      split; [exact LF'|]. exists (ds ++ [RdArr l1 (S k) (Z.of_nat (List.length ys)) ys]), [RvTmp l1], (l1 :: ls).
      split; [rewrite flat_map_app; cbn [flat_map rdText]; apply f_equal; rewrite ?app_nil_r, <- ?app_assoc; reflexivity|].
      split; [apply (consec_app _ _ l1); [exact C1|]; split; [reflexivity|cbn [List.length]; lia]|]. split; [reflexivity|]. split.
      * cbn [inits]. rewrite <- E2. apply holdsAll_one. apply HR_list; [exact (holdsAll_ne _ _ _ _ _ HA NE)|exact HA].
      * rewrite labels_app. cbn [labelsR map labelR]. rewrite <- P. apply Permutation_cons_append.
  - destruct (array0R t vt (Z.of_nat n) x 1 l) as [[[c1 ln] l1]|] eqn:G; [|discriminate H]. injection H as <- <- <-. cbn [inits] in F. inversion F as [|? ? X _]. subst. clear F.
    inversion X as [| | | | |k dims NE LE P E1 E2]; subst.
    destruct (array0_ok _ _ _ _ _ _ _ (ltac:(lia) : 0 < 1) P LE G) as (ds & ls & -> & C & A & PM).
    split; [exact I|]. exists ds, [RvTmp ln], ls. split; [reflexivity|]. split; [exact C|]. split; [reflexivity|]. split; [|exact PM].
    cbn [inits]. rewrite <- E2. exact A.
Qed.

Theorem dataR_ok n root l c v l' i : lefty root -> inits root = [i] -> plain vt n i -> dataR t vt (Z.of_nat n) root l = Some (c, v, l') ->
  exists ds x ls, c = texts ds /\ v = rvText nm x /\ consec l ds l' /\ hold ds n x i ls /\ Permutation ls (labelsR ds).
Proof.
  intros LF EI PL H. assert (Forall (plain vt n) (inits root)) as F by (rewrite EI; constructor; [exact PL|constructor]).
  assert (forall d' x, list1R t vt (Z.of_nat n) root l = Some (c, d', l') -> valsR d' = Some [x] -> v = rvText nm x ->
    exists ds x ls, c = texts ds /\ v = rvText nm x /\ consec l ds l' /\ hold ds n x i ls /\ Permutation ls (labelsR ds)) as K.
  { intros d' x L1 L2 EV. destruct (list1_ok _ _ _ _ _ _ LF F L1) as (_ & ds & xs & ls & EC & C & X & HA & P). rewrite X in L2. injection L2 as ->.
    exists ds, x, ls. split; [exact EC|]. split; [exact EV|]. split; [exact C|]. split; [|exact P].
    rewrite EI in HA. inversion HA as [|? ? ? ? ? ? la lb Ra Rb]. subst. inversion Rb. subst. rewrite app_nil_r. exact Ra. }
  destruct root as [|y|j|s|a b|y r|y r]; cbn [dataR] in H; try discriminate H.
  - injection H as <- <- <-. apply (K (DCnst y) (RvNum y)); reflexivity.
  - injection H as <- <- <-. cbn [inits] in EI. injection EI as <-. inversion PL.
  - injection H as <- <- <-. apply (K (DStr s) (RvStr s)); reflexivity.
  - destruct (list1R t vt (Z.of_nat n) (DList y r) l) as [[[c' d'] l1]|] eqn:G; [|discriminate H]. destruct d' as [| | | | |z k|]; try discriminate H. injection H as <- <- <-.
    apply (K (DList z k) (RvTmp k) eq_refl); reflexivity.
  - destruct (array0R t vt (Z.of_nat n) y 1 l) as [[[c' ln] l1]|] eqn:G; [|discriminate H]. injection H as <- <- <-.
    apply (K (DArry y ln) (RvTmp ln)); [cbn [list1R]; rewrite G; reflexivity|reflexivity|reflexivity].
Qed.
End Proofs.
