(* Initialised data: the directives of vmCode.c:690-800 describe the initialiser. *)
From Coq Require Import ZArith Bool Lia List Permutation.
From Verif Require Import Lexer NameTable SyTree OpTree ExprSem VM VmCode Parser ParserStmt ParseSpec ParseLabs OptLabs ProgSpec ProgInv ProgData DataSpec.
Import ListNotations.
Open Scope Z_scope.

Lemma arrFlag_eq r x : dimsOf x <> [] -> arrFlag r x = (r =? Z.of_nat (length (dimsOf x))).
Proof. unfold arrFlag. destruct (dimsOf x); [intros H; destruct (H eq_refl)|reflexivity]. Qed.
(* ---- blocks ---- *)
Definition nomark (b : list asm) : Prop := forallb (fun a => negb (isMark a)) b = true.
Lemma fresh_app a b : fresh a -> fresh b -> fresh (a ++ b).
Proof. destruct a; [intros _ H; exact H|intros H _; exact H]. Qed.
Lemma block_in c l b p q : block c l b -> fresh q -> block (p ++ c ++ q) l b.
Proof.
  intros (pre & post & -> & N & F) Q. exists (p ++ pre), (post ++ q). split; [|split; [exact N|exact (fresh_app _ _ F Q)]].
  rewrite <- !app_assoc. cbn [app]. rewrite <- app_assoc. reflexivity.
Qed.
Lemma block_l c l b p : block c l b -> block (p ++ c) l b.
Proof. intros B. rewrite <- (app_nil_r c). apply block_in; [exact B|exact I]. Qed.
Lemma block_r c l b q : block c l b -> fresh q -> block (c ++ q) l b.
Proof. intros B Q. exact (block_in c l b [] q B Q). Qed.
Lemma block_here l b : nomark b -> block (ALab l :: b) l b.
Proof. intros N. exists [], []. rewrite app_nil_r. split; [reflexivity|]. split; [exact N|exact I]. Qed.

Scheme reaches_mind := Minimality for reaches Sort Prop
  with reachAll_mind := Minimality for reachAll Sort Prop.
Combined Scheme reach_both from reaches_mind, reachAll_mind.
Lemma reach_in c p q : fresh q ->
  (forall w i ls, reaches c w i ls -> reaches (p ++ c ++ q) w i ls) /\ (forall b xs ls, reachAll c b xs ls -> reachAll (p ++ c ++ q) b xs ls).
Proof.
  intros Q. apply reach_both; intros; try (constructor; auto using block_in; fail).
  - apply (R_list _ l b); auto using block_in.
  - apply (R_rows _ l bytes n rest b); auto using block_in.
Qed.
Lemma reaches_l c p w i ls : reaches c w i ls -> reaches (p ++ c) w i ls.
Proof. intros R. pose proof (proj1 (reach_in c p [] I) _ _ _ R) as X. rewrite app_nil_r in X. exact X. Qed.
Lemma reaches_r c q w i ls : fresh q -> reaches c w i ls -> reaches (c ++ q) w i ls.
Proof. intros Q R. exact (proj1 (reach_in c [] q Q) _ _ _ R). Qed.
Lemma reachAll_l c p b i ls : reachAll c b i ls -> reachAll (p ++ c) b i ls.
Proof. intros R. pose proof (proj2 (reach_in c p [] I) _ _ _ R) as X. rewrite app_nil_r in X. exact X. Qed.
Lemma reachAll_r c q b i ls : fresh q -> reachAll c b i ls -> reachAll (c ++ q) b i ls.
Proof. intros Q R. exact (proj2 (reach_in c [] q Q) _ _ _ R). Qed.
Lemma reachAll_app c b1 x1 l1 : reachAll c b1 x1 l1 -> forall b2 x2 l2, reachAll c b2 x2 l2 -> reachAll c (b1 ++ b2) (x1 ++ x2) (l1 ++ l2).
Proof.
  induction 1 as [|a b x xs la lb Ra Rb IH]; intros b2 x2 l2 H; [exact H|]. cbn [app]. rewrite <- app_assoc. constructor; [exact Ra|]. exact (IH _ _ _ H).
Qed.
Lemma reaches_nomark c w i ls : reaches c w i ls -> isMark w = false.
Proof. destruct 1; reflexivity. Qed.
Lemma reachAll_nomark c b xs ls : reachAll c b xs ls -> nomark b.
Proof. induction 1; [reflexivity|]. unfold nomark in *. cbn [forallb]. rewrite (reaches_nomark _ _ _ _ H). exact IHreachAll. Qed.

(* ---- arrays ---- *)
(* consecutive labels *)
Fixpoint labSeq (ln : Z) (n : nat) : list Z := match n with O => [] | S k => ln :: labSeq (ln + 1) k end.
Lemma labSeq_app n : forall ln m, labSeq ln (n + m) = labSeq ln n ++ labSeq (ln + Z.of_nat n) m.
Proof.
  induction n as [|n IH]; intros ln m; [cbn; f_equal; lia|]. change (S n + m)%nat with (S (n + m)). cbn [labSeq app]. rewrite IH. do 3 f_equal. lia.
Qed.
Lemma dwLabs_map n : forall ln, dwLabs n ln = map ADwLab (labSeq ln n).
Proof. induction n as [|n IH]; intros ln; [reflexivity|]. cbn [dwLabs labSeq map]. rewrite IH. reflexivity. Qed.
(* n values i at consecutive labels from ln *)
Definition many (c : list asm) (i : init) (n : nat) (ln : Z) (ls : list Z) : Prop := reachAll c (map ADwLab (labSeq ln n)) (repeat i n) ls.
Lemma many_split c i n m ln : forall ls, many c i (n + m) ln ls -> exists l1 l2, ls = l1 ++ l2 /\ many c i n ln l1 /\ many c i m (ln + Z.of_nat n) l2.
Proof.
  unfold many. revert ln. induction n as [|n IH]; intros ln ls H.
  - exists [], ls. split; [reflexivity|]. split; [constructor|]. replace (ln + Z.of_nat 0) with ln by lia. exact H.
  - cbn [Nat.add labSeq map repeat] in H. inversion H as [|a b x xs la lb Ra Rb]; subst. destruct (IH _ _ Rb) as (l1 & l2 & -> & A & B).
    exists (la ++ l1), l2. split; [apply app_assoc|]. split; [cbn [labSeq map repeat]; constructor; [exact Ra|exact A]|].
    replace (ln + Z.of_nat (S n)) with (ln + 1 + Z.of_nat n) by lia. exact B.
Qed.
Lemma fresh_ptrRows n cnt ln l : fresh (ptrRows n cnt ln l).
Proof. destruct n; reflexivity. Qed.
Lemma fresh_endRows n dir l : fresh (endRows n dir l).
Proof. destruct n; reflexivity. Qed.
Lemma many_ends bytes v n : forall l, let c := endRows n (if bytes : bool then ABs v else AWs v) l in
  many c (IArray bytes [v]) n (l + 1) (labSeq (l + 1) n) /\ outDefs c = labSeq (l + 1) n.
Proof.
  induction n as [|n IH]; intros l; cbn zeta; [split; [constructor|reflexivity]|]. cbn [endRows]. specialize (IH (l + 1)). cbn zeta in IH. destruct IH as [A B].
  assert (outDefs [if bytes then ABs v else AWs v] = []) as D by (destruct bytes; reflexivity).
  change (ALab (l + 1) :: (if bytes then ABs v else AWs v) :: endRows n (if bytes then ABs v else AWs v) (l + 1)) with ([ALab (l + 1); if bytes then ABs v else AWs v] ++ endRows n (if bytes then ABs v else AWs v) (l + 1)).
  split.
  - unfold many. cbn [labSeq map repeat]. change (l + 1 :: labSeq (l + 1 + 1) n) with ([l + 1] ++ labSeq (l + 1 + 1) n). constructor.
    + apply reaches_r; [apply fresh_endRows|]. apply R_space. apply block_here. destruct bytes; reflexivity.
    + apply reachAll_l. exact A.
  - rewrite outDefs_app, B. cbn [labSeq]. change [ALab (l + 1); if bytes then ABs v else AWs v] with ([ALab (l + 1)] ++ [if bytes then ABs v else AWs v]). rewrite outDefs_app, D. reflexivity.
Qed.
Lemma many_rows bytes cnt rest n : rest <> [] -> forall c0 ln l ls, many c0 (IArray bytes rest) (n * Z.to_nat cnt) ln ls ->
  let c := ptrRows n (Z.to_nat cnt) ln l in
  exists ls', many (c0 ++ c) (IArray bytes (cnt :: rest)) n (l + 1) ls' /\ Permutation ls' (ls ++ outDefs c).
Proof.
  intros NE. induction n as [|n IH]; intros c0 ln l ls M; cbn zeta.
  - cbn [Nat.mul] in M. inversion M; subst. exists []. split; [constructor|]. apply perm_nil.
  - cbn [Nat.mul] in M. apply many_split in M. destruct M as (l1 & l2 & -> & M1 & M2). cbn [ptrRows].
    set (row := dwLabs (Z.to_nat cnt) ln). set (rows := ptrRows n (Z.to_nat cnt) (ln + Z.of_nat (Z.to_nat cnt)) (l + 1)).
    assert (many (c0 ++ ALab (l + 1) :: row) (IArray bytes rest) (n * Z.to_nat cnt) (ln + Z.of_nat (Z.to_nat cnt)) l2) as M2'
      by (apply reachAll_r; [reflexivity|exact M2]).
    destruct (IH _ _ (l + 1) _ M2') as (ls' & A & P). fold rows in A, P. rewrite <- app_assoc in A. cbn [app] in A.
    exists ((l + 1 :: l1) ++ ls'). split.
    + unfold many. cbn [labSeq map repeat]. constructor; [|exact A].
      apply (R_rows _ _ _ _ _ row); [exact NE| |].
      * exists c0, rows. split; [reflexivity|]. split; [|apply fresh_ptrRows]. subst row. rewrite dwLabs_map. generalize (labSeq ln (Z.to_nat cnt)). induction l0; [reflexivity|assumption].
      * subst row. rewrite dwLabs_map. rewrite <- dwLabs_map. apply reachAll_r; [reflexivity|]. rewrite dwLabs_map. exact M1.
    + change (ALab (l + 1) :: row ++ rows) with ([ALab (l + 1)] ++ (row ++ rows)). rewrite !outDefs_app. subst row. rewrite dwLabs_defs. cbn [app outDefs flat_map asmDefs].
      fold (outDefs rows). rewrite <- Permutation_middle. rewrite P, <- app_assoc. reflexivity.
Qed.
Lemma fresh_genArray0 node : forall n d l ln c l', genArray0 node n d l = Some (ln, c, l') -> fresh c.
Proof.
  induction node as [|v|i|s|lv IH1 rv IH2|d0 IH r|d0 IH r]; intros n d l ln c l' H; cbn [genArray0] in H; try discriminate H.
  - injection H as <- <- <-. apply fresh_endRows.
  - destruct rv as [|cnt| | | | |]; try discriminate H. destruct (genArray0 lv (n * cnt) (d - 1) l) as [((ln1, c1), l1)|] eqn:G; [|discriminate H]. injection H as <- <- <-.
    exact (fresh_app _ _ (IH1 _ _ _ _ _ _ G) (fresh_ptrRows _ _ _ _)).
Qed.
Lemma dims_ne node n d l r : genArray0 node n d l = Some r -> dimsOf node <> [].
Proof. destruct node; cbn [genArray0]; intros H; try discriminate H; cbn [dimsOf]; [discriminate|]. destruct node2; try discriminate H. discriminate. Qed.
Lemma genArray0_many node : forall n d l ln c l', 0 <= n -> Forall (fun k => 0 < k) (dimsOf node) -> genArray0 node n d l = Some (ln, c, l') ->
  exists ls, (forall ln', (0 < n -> ln' = ln) -> many c (IArray (d =? Z.of_nat (length (dimsOf node))) (dimsOf node)) (Z.to_nat n) ln' ls) /\ Permutation ls (outDefs c).
Proof.
  induction node as [|v|i|s|lv IH1 rv IH2|d0 IH r|d0 IH r]; intros n d l ln c l' N F H; cbn [genArray0] in H; try discriminate H.
  - injection H as <- <- <-. change (Z.of_nat (length (dimsOf (DCnst v)))) with 1.
    destruct (many_ends (d =? 1) v (Z.to_nat n) l) as [A B]. exists (labSeq (l + 1) (Z.to_nat n)). split; [|rewrite B; reflexivity].
    intros ln' E. destruct (Z.leb_spec n 0) as [X|X].
    + assert (n = 0) as -> by lia. constructor.
    + rewrite (E X). exact A.
  - destruct rv as [|cnt| | | | |]; try discriminate H. destruct (genArray0 lv (n * cnt) (d - 1) l) as [((ln1, c1), l1)|] eqn:G; [|discriminate H]. injection H as <- <- <-.
    cbn [dimsOf length].
    assert ((d - 1 =? Z.of_nat (length (dimsOf lv))) = (d =? Z.of_nat (S (length (dimsOf lv))))) as EB
      by (destruct (Z.eqb_spec (d - 1) (Z.of_nat (length (dimsOf lv)))), (Z.eqb_spec d (Z.of_nat (S (length (dimsOf lv))))); [reflexivity|lia|lia|reflexivity]).
    assert (0 < cnt /\ Forall (fun k => 0 < k) (dimsOf lv)) as [C F'] by (cbn [dimsOf] in F; inversion F; auto).
    destruct (IH1 (n * cnt) (d - 1) l ln1 c1 l1) as (ls & A & P); [nia|exact F'|exact G|].
      rewrite EB in A. specialize (A ln1 (fun _ => eq_refl)).
      replace (Z.to_nat (n * cnt)) with (Z.to_nat n * Z.to_nat cnt)%nat in A by nia.
      destruct (many_rows _ cnt (dimsOf lv) (Z.to_nat n) (dims_ne _ _ _ _ _ G) c1 ln1 l1 ls A) as (ls' & A' & P').
      exists ls'. split.
      * intros ln' E. destruct (Z.leb_spec n 0) as [X|X].
        -- assert (n = 0) as -> by lia. change (Z.to_nat 0) with O in *. inversion A'; subst. constructor.
        -- rewrite (E X). exact A'.
      * rewrite P', P, outDefs_app. reflexivity.
Qed.

(* ---- lists ---- *)
Fixpoint deepD (d : dat) : nat :=
  match d with
  | DSemi a b => Nat.max (deepD a) (deepD b)
  | DList x _ => S (deepD x)
  | DArry _ _ => 1
  | _ => O
  end.
Fixpoint sized (d : dat) : Prop :=
  match d with
  | DSemi a b => sized a /\ sized b
  | DList x _ => sized x
  | DArry x _ => Forall (fun n => 0 < n) (dimsOf x)
  | _ => True
  end.
Definition notSemi (d : dat) : Prop := match d with DSemi _ _ => False | _ => True end.
Definition leafD (d : dat) : Prop := match d with DCnst _ | DAddr _ | DStr _ => True | _ => False end.

(* d the tree of the parser, d' the tree in which what lies more than k levels down
   has its labels; the blocks are in out, and ls lists them *)
Inductive stage (out : list asm) : nat -> dat -> dat -> list Z -> Prop :=
| St_semi k a b a' b' la lb : stage out k a a' la -> stage out k b b' lb -> stage out k (DSemi a b) (DSemi a' b') (la ++ lb)
| St_null k : stage out k DNull DNull []
| St_item d d' ls i w : inits d = [i] -> notSemi d -> notSemi d' -> genDW d' = Some [w] -> reaches out w i ls ->
    (forall v, d' = DCnst v -> d = DCnst v) -> stage out O d d' ls
| St_list k x x' r ls : stage out k x x' ls -> stage out (S k) (DList x r) (DList x' r) ls
| St_arr k x r : stage out (S k) (DArry x r) (DArry x r) []
| St_leaf k d : leafD d -> stage out (S k) d d [].
Lemma stage_mono out c k d d' ls : fresh c -> stage out k d d' ls -> stage (out ++ c) k d d' ls.
Proof.
  intros F. induction 1; try (constructor; assumption).
  apply (St_item _ d d' ls i w); try assumption. apply reaches_r; assumption.
Qed.
Lemma stage_init out d : forall k, (deepD d <= k)%nat -> stage out k d d [].
Proof.
  induction d as [|v|i|s|a IHa b IHb|x IH r|x IH r]; intros k D; cbn [deepD] in D.
  - constructor.
  - destruct k as [|k]; [|constructor; exact I]. apply (St_item _ _ _ _ (IWord v) (ADwCns v)); try exact I; try reflexivity; [constructor|auto].
  - destruct k as [|k]; [|constructor; exact I]. apply (St_item _ _ _ _ (IName i) (ADwName i)); try exact I; try reflexivity; [constructor|discriminate].
  - destruct k as [|k]; [|constructor; exact I]. apply (St_item _ _ _ _ (IStr s) (ADwLab s)); try exact I; try reflexivity; [constructor|discriminate].
  - change (@nil Z) with (@nil Z ++ []). constructor; [apply IHa|apply IHb]; lia.
  - destruct k as [|k]; [lia|]. constructor. apply IH. lia.
  - destruct k as [|k]; [lia|]. constructor.
Qed.
Lemma genList0_leaf byt (d1 d2 : dat) l c l' : notSemi d1 -> genList0 d1 0 byt l = Some (d2, c, l') ->
  (if byt then match d1 with DCnst v => Some (d1, [ADbCns v], l) | _ => None end else do c <- genDW d1; Some (d1, c, l)) = Some (d2, c, l').
Proof. intros N H. destruct d1; try exact H. destruct N. Qed.
(* the elements of a list *)
Lemma items_ok out k d0 d1 ls : stage out k d0 d1 ls -> k = O -> forall byt l d2 c l', genList0 d1 0 byt l = Some (d2, c, l') ->
  d2 = d1 /\ l' = l /\ outDefs c = [] /\
  if byt then ls = [] /\ exists vs, c = map ADbCns vs /\ inits d0 = map IWord vs
  else reachAll out c (inits d0) ls.
Proof.
  induction 1 as [k a b a' b' la lb SA IHa SB IHb|k|d d' ls i w EI ND ND' W R EC|k x x' r ls SX IH|k x r|k d LF]; intros E byt l d2 c l' H; try discriminate E.
  - cbn [genList0] in H. destruct (genList0 a' 0 byt l) as [((a2, c1), l1)|] eqn:G1; [|discriminate H]. destruct (genList0 b' 0 byt l1) as [((b2, c2), l2)|] eqn:G2; [|discriminate H]. injection H as <- <- <-.
    destruct (IHa E _ _ _ _ _ G1) as (-> & -> & D1 & X1). destruct (IHb E _ _ _ _ _ G2) as (-> & -> & D2 & X2).
    split; [reflexivity|]. split; [reflexivity|]. split; [rewrite outDefs_app, D1, D2; reflexivity|]. cbn [inits]. destruct byt.
    + destruct X1 as (-> & v1 & -> & ->). destruct X2 as (-> & v2 & -> & ->). split; [reflexivity|]. exists (v1 ++ v2). rewrite !map_app. auto.
    + apply reachAll_app; assumption.
  - apply genList0_leaf in H; [|exact I]. destruct byt; discriminate H.
  - apply genList0_leaf in H; [|exact ND']. destruct byt.
    + destruct d'; try discriminate H. injection H as <- <- <-. specialize (EC v eq_refl). subst d. cbn [genDW] in W. injection W as <-. cbn [inits] in *. injection EI as <-.
      split; [reflexivity|]. split; [reflexivity|]. split; [reflexivity|]. inversion R; subst. split; [reflexivity|]. exists [v]. auto.
    + rewrite W in H. injection H as <- <- <-. split; [reflexivity|]. split; [reflexivity|]. rewrite EI. split; [exact (proj1 (genDW_ok _ _ W))|].
      rewrite <- (app_nil_r ls). constructor; [exact R|constructor].
Qed.
(* one pass *)
Lemma pass_ok k0 out d0 d1 ls : stage out k0 d0 d1 ls -> forall k, k0 = S k -> sized d0 -> forall out1 byt l d2 c l', fresh out1 -> genList0 d1 (Z.of_nat (S k)) byt l = Some (d2, c, l') ->
  fresh c /\ exists ls', stage (out ++ out1 ++ c) k d0 d2 ls' /\ Permutation ls' (ls ++ outDefs c).
Proof.
  induction 1 as [k0 a b a' b' la lb SA IHa SB IHb|k0|d d' ls i w EI ND ND' W R EC|k0 x x' r ls SX IH|k0 x r|k0 d LF]; intros k Ek SZ out1 byt l d2 c l' F1 H.
  - cbn [genList0] in H. destruct (genList0 a' _ byt l) as [((a2, c1), l1)|] eqn:G1; [|discriminate H]. destruct (genList0 b' _ byt l1) as [((b2, c2), l2)|] eqn:G2; [|discriminate H]. injection H as <- <- <-.
    cbn [sized] in SZ. destruct SZ as [SZa SZb].
    destruct (IHa k Ek SZa _ _ _ _ _ _ F1 G1) as (FA & l1' & A1 & P1). destruct (IHb k Ek SZb (out1 ++ c1) _ _ _ _ _ (fresh_app _ _ F1 FA) G2) as (FB & l2' & A2 & P2).
    split; [exact (fresh_app _ _ FA FB)|]. exists (l1' ++ l2'). split.
    + constructor; [|rewrite <- app_assoc in A2; exact A2].
      pose proof (stage_mono _ c2 _ _ _ _ FB A1) as X. rewrite <- !app_assoc in X. exact X.
    + rewrite P1, P2, outDefs_app, <- !app_assoc. apply Permutation_app_head. rewrite !app_assoc. apply Permutation_app_tail. apply Permutation_app_comm.
  - cbn [genList0] in H. destruct (Z.eqb_spec (Z.of_nat (S k)) 0); [lia|]. injection H as <- <- <-. split; [exact I|]. exists []. split; [constructor|apply perm_nil].
  - discriminate Ek.
  - injection Ek as <-. cbn [sized] in SZ. cbn [genList0] in H. destruct (Z.eqb_spec (Z.of_nat (S k0)) 0) as [E|E]; [lia|]. replace (Z.of_nat (S k0) - 1) with (Z.of_nat k0) in H by lia.
    destruct (Z.eqb_spec (Z.of_nat (S k0)) 1) as [E1|E1].
    + assert (k0 = O) as -> by lia. change (Z.of_nat 0) with 0 in H.
      destruct (genList0 x' 0 (r =? 1) (l + 1)) as [((x2, c1), l1)|] eqn:G; [|discriminate H]. injection H as <- <- <-.
      destruct (items_ok _ _ _ _ _ SX eq_refl _ _ _ _ _ G) as (-> & -> & DC & X).
      split; [reflexivity|]. exists (l + 1 :: ls). split.
      * apply (St_item _ _ _ _ (IList (r =? 1) (inits x)) (ADwLab (l + 1))); try reflexivity; [|discriminate].
        destruct (r =? 1).
        -- destruct X as (-> & vs & -> & ->). apply R_bytes. exists (out ++ out1), []. rewrite app_nil_r, <- app_assoc. split; [reflexivity|]. split; [|exact I].
           clear. induction vs as [|v vs IH]; [reflexivity|exact IH].
        -- apply (R_list _ _ c1).
           ++ exists (out ++ out1), []. rewrite app_nil_r, <- app_assoc. split; [reflexivity|]. split; [exact (reachAll_nomark _ _ _ _ X)|exact I].
           ++ apply reachAll_r; [|exact X]. apply fresh_app; [exact F1|reflexivity].
      * change (ALab (l + 1) :: c1) with ([ALab (l + 1)] ++ c1). rewrite outDefs_app, DC. cbn [outDefs flat_map asmDefs app]. apply Permutation_cons_append.
    + destruct k0 as [|k0]; [lia|].
      destruct (genList0 x' _ (r =? 1) l) as [((x2, c1), l1)|] eqn:G; [|discriminate H]. injection H as <- <- <-.
      destruct (IH k0 eq_refl SZ _ _ _ _ _ _ F1 G) as (FX & ls' & A & P). split; [exact FX|]. exists ls'. split; [constructor; exact A|exact P].
  - injection Ek as <-. cbn [sized] in SZ. cbn [genList0] in H. destruct (Z.eqb_spec (Z.of_nat (S k0)) 0) as [E|E]; [lia|]. destruct (Z.eqb_spec (Z.of_nat (S k0)) 1) as [E1|E1].
    + assert (k0 = O) as -> by lia. destruct (genArray0 x 1 r l) as [((lab, c1), l1)|] eqn:G; [|discriminate H]. injection H as <- <- <-.
      destruct (genArray0_many x 1 r l lab c1 l1 ltac:(lia) SZ G) as (ls & A & P). specialize (A lab (fun _ => eq_refl)). unfold many in A. cbn [Z.to_nat Pos.to_nat Pos.iter_op labSeq map repeat] in A.
      inversion A as [|a b y ys la lb Ra Rb]; subst. inversion Rb; subst. rewrite app_nil_r in P.
      split; [exact (fresh_genArray0 _ _ _ _ _ _ _ G)|]. exists la. split; [|exact P].
      rewrite <- (arrFlag_eq r x (dims_ne _ _ _ _ _ G)) in Ra. apply (St_item _ _ _ _ (IArray (arrFlag r x) (dimsOf x)) (ADwLab lab)); try reflexivity; [|discriminate].
      rewrite app_assoc. apply reaches_l. exact Ra.
    + injection H as <- <- <-. split; [exact I|]. destruct k0 as [|k0]; [lia|]. exists []. split; [constructor|apply perm_nil].
  - injection Ek as <-. assert (genList0 d (Z.of_nat (S k0)) byt l = Some (d, [], l)) as E.
    { destruct d; try (destruct LF; fail); cbn [genList0]; destruct (Z.eqb_spec (Z.of_nat (S k0)) 0); try lia; reflexivity. }
    rewrite E in H. injection H as <- <- <-. split; [exact I|]. exists []. split; [|apply perm_nil].
    apply stage_init. destruct d; try (destruct LF; fail); cbn; lia.
Qed.

(* ---- the whole variable ---- *)
Lemma levels_inits d : fold_right (fun x m => Nat.max (levels x) m) O (inits d) = deepD d.
Proof.
  assert (forall a b, fold_right (fun x m => Nat.max (levels x) m) O (a ++ b) =
    Nat.max (fold_right (fun x m => Nat.max (levels x) m) O a) (fold_right (fun x m => Nat.max (levels x) m) O b)) as APP.
  { induction a as [|x a IH]; intros b; [reflexivity|]. cbn [app fold_right]. rewrite IH. lia. }
  induction d as [|v|i|s|a IHa b IHb|x IH r|x IH r]; cbn [inits deepD fold_right levels]; try reflexivity.
  - rewrite APP, IHa, IHb. reflexivity.
  - rewrite IH. lia.
Qed.
Lemma positive_inits d : fold_right (fun x P => positive x /\ P) True (inits d) <-> sized d.
Proof.
  assert (forall a b, fold_right (fun x P => positive x /\ P) True (a ++ b) <->
    fold_right (fun x P => positive x /\ P) True a /\ fold_right (fun x P => positive x /\ P) True b) as APP.
  { induction a as [|x a IH]; intros b; cbn [app fold_right]; [tauto|]. rewrite IH. tauto. }
  induction d as [|v|i|s|a IHa b IHb|x IH r|x IH r]; cbn [inits sized fold_right positive]; try tauto.
  rewrite APP, IHa, IHb. reflexivity.
Qed.
Lemma genList_stage k : forall out d0 d1 ls l d2 c l', stage out k d0 d1 ls -> sized d0 -> genList k d1 l = Some (d2, c, l') ->
  fresh c /\ exists ls', stage (out ++ c) O d0 d2 ls' /\ Permutation ls' (ls ++ outDefs c).
Proof.
  induction k as [|k IH]; intros out d0 d1 ls l d2 c l' S SZ H; cbn [genList] in H.
  - injection H as <- <- <-. split; [exact I|]. exists ls. rewrite !app_nil_r. split; [exact S|reflexivity].
  - destruct (genList0 d1 (Z.of_nat (Datatypes.S k)) false l) as [((n1, c1), l1)|] eqn:G1; [|discriminate H]. destruct (genList k n1 l1) as [((n2, c2), l2)|] eqn:G2; [|discriminate H]. injection H as <- <- <-.
    destruct (pass_ok _ _ _ _ _ S k eq_refl SZ [] _ _ _ _ _ I G1) as (F1 & ls1 & S1 & P1). cbn [app] in S1.
    destruct (IH _ _ _ _ _ _ _ _ S1 SZ G2) as (F2 & ls2 & S2 & P2). split; [exact (fresh_app _ _ F1 F2)|]. exists ls2.
    rewrite <- app_assoc in S2. split; [exact S2|]. rewrite P2, P1, outDefs_app, <- app_assoc. reflexivity.
Qed.
Lemma genData_reaches idx dim root l c l' i : 0 <= dim -> inits root = [i] -> (levels i <= S (Z.to_nat dim))%nat -> positive i ->
  genData idx dim root l = Some (c, l') ->
  exists body w ls, c = body ++ [ANam idx; w] /\ fresh c /\ reaches c w i ls /\ Permutation ls (outDefs c) /\ NoDup ls /\ (forall x, In x ls -> l < x <= l').
Proof.
  intros D EI LV PO H.
  assert (deepD root <= Z.to_nat (dim + 1))%nat as DP.
  { rewrite <- levels_inits, EI. cbn [fold_right]. lia. }
  assert (sized root) as SZ by (apply positive_inits; rewrite EI; cbn; auto).
  unfold genData in H.
  destruct (match root with DList _ _ => _ | DArry _ _ => _ | _ => _ end) as [((root', c0), l1)|] eqn:G; [|discriminate H].
  destruct (genDW root') as [dw|] eqn:W; [|discriminate H]. injection H as <- <-.
  assert (exists w, dw = [w]) as (w & ->) by (destruct root'; try discriminate W; injection W as <-; eauto).
  assert (fresh c0 /\ goodO c0 l l1 /\ exists ls, reaches c0 w i ls /\ Permutation ls (outDefs c0)) as (F & GO & ls & R & P).
  { destruct root as [|v|j|s|a b|x r|x r]; cbn [inits] in EI; try discriminate EI;
      try (injection G as <- <- <-; injection W as <-; injection EI as <-; split; [exact I|]; split; [apply goodO_none; reflexivity|]; exists []; split; [constructor|apply perm_nil]).
    - injection G as <- <- <-. discriminate W.
    - destruct (genList_stage _ [] _ _ [] _ _ _ _ (stage_init [] _ _ DP) SZ G) as (F & ls & S & P). cbn [app] in S, P.
      split; [exact F|]. split; [exact (proj1 (genList_ok (labsAt (Z.to_nat (dim + 1)) (DList x r) ++ strsD (DList x r)) _ _ _ _ _ _ G (incl_appl _ (incl_refl _)) (incl_appr _ (incl_refl _))))|].
      exists ls. split; [|exact P]. inversion S as [| |d d' ls0 i0 w0 E0 _ _ W0 R0 _| | |]; subst.
      cbn [inits] in E0. rewrite EI in E0. injection E0 as <-. rewrite W in W0. injection W0 as <-. exact R0.
    - injection EI as <-. destruct (genArray0 x 1 r l) as [((lab, c1), l2)|] eqn:E; [|discriminate G]. injection G as <- <- <-. cbn [genDW] in W. injection W as <-.
      destruct (genArray0_many x 1 r l lab c1 l2 ltac:(lia) SZ E) as (ls & A & P). specialize (A lab (fun _ => eq_refl)). unfold many in A. cbn [Z.to_nat Pos.to_nat Pos.iter_op labSeq map repeat] in A.
      inversion A as [|a b y ys la lb Ra Rb]; subst. inversion Rb; subst. rewrite app_nil_r in P.
      split; [exact (fresh_genArray0 _ _ _ _ _ _ _ E)|]. split; [exact (proj1 (genArray0_ok _ _ _ _ _ _ _ E))|]. exists la. rewrite (arrFlag_eq r x (dims_ne _ _ _ _ _ E)). split; [exact Ra|exact P]. }
  exists c0, w, ls. split; [reflexivity|]. split; [apply fresh_app; [exact F|reflexivity]|]. split; [apply reaches_r; [reflexivity|exact R]|].
  split; [|split].
  - rewrite P, outDefs_app. replace (outDefs [ANam idx; w]) with (@nil Z); [rewrite app_nil_r; reflexivity|].
    change [ANam idx; w] with ([ANam idx] ++ [w]). rewrite outDefs_app. rewrite (proj1 (genDW_ok _ _ W)). reflexivity.
  - destruct GO as (_ & _ & N). exact (Permutation_NoDup (Permutation_sym P) N).
  - intros x X. destruct GO as (_ & B & _). apply B. exact (Permutation_in _ P X).
Qed.
