(* Labels of the initialised data (vmCode.c:690-806). *)
From Coq Require Import ZArith Bool Lia List.
From Verif Require Import Lexer NameTable SyTree OpTree ExprSem VM VmCode Parser ParserStmt ParseSpec ParseLabs OptLabs ProgSpec ProgInv.
Import ListNotations.
Open Scope Z_scope.

(* the labels defined in c are distinct and in (n, n'] *)
Definition goodO (c : list asm) (n n' : Z) : Prop :=
  n <= n' /\ (forall l, In l (outDefs c) -> n < l <= n') /\ NoDup (outDefs c).
Lemma outDefs_app a b : outDefs (a ++ b) = outDefs a ++ outDefs b. Proof. apply flat_map_app. Qed.
Lemma outUses_app a b : outUses (a ++ b) = outUses a ++ outUses b. Proof. apply flat_map_app. Qed.
Lemma goodO_app a b n n1 n2 : goodO a n n1 -> goodO b n1 n2 -> goodO (a ++ b) n n2.
Proof.
  intros (A & B & C) (D & E & F). split; [lia|]. rewrite outDefs_app. split.
  - intros l H. apply in_app_or in H. destruct H as [H|H]; [apply B in H|apply E in H]; lia.
  - clear - B C E F. induction (outDefs a) as [|x xs IH]; cbn [app]; [exact F|].
    inversion C as [|x' xs' N1 N2]; subst. constructor.
    + intro H. apply in_app_or in H. destruct H as [H|H]; [auto|]. apply E in H. specialize (B x (or_introl eq_refl)). lia.
    + apply IH; [|exact N2]. intros l H. apply B. right. exact H.
Qed.
Lemma goodO_none c n : outDefs c = [] -> goodO c n n.
Proof. intros E. unfold goodO. rewrite E. split; [lia|]. split; [intros l []|constructor]. Qed.
Lemma goodO_lab n : goodO [ALab (n + 1)] n (n + 1).
Proof. split; [lia|]. cbn [outDefs flat_map asmDefs app]. split; [intros l [<-|[]]; lia|repeat constructor; intros []]. Qed.

Lemma dwLabs_defs k : forall ln, outDefs (dwLabs k ln) = [].
Proof. induction k; intros ln; cbn [dwLabs outDefs flat_map asmDefs app]; [reflexivity|]. apply IHk. Qed.
Lemma dwLabs_uses k : forall ln x, In x (outUses (dwLabs k ln)) -> ln <= x < ln + Z.of_nat k.
Proof.
  induction k as [|k IH]; intros ln x; cbn [dwLabs outUses flat_map asmUses app]; [intros []|]. intros [<-|H]; [lia|]. apply IH in H. lia.
Qed.
Lemma ptrRows_ok cnt n : forall ln l, let c := ptrRows n cnt ln l in
  goodO c l (l + Z.of_nat n) /\ (forall x, l < x <= l + Z.of_nat n -> In x (outDefs c)) /\
  (forall x, In x (outUses c) -> ln <= x < ln + Z.of_nat n * Z.of_nat cnt).
Proof.
  induction n as [|n IH]; intros ln l; cbn zeta; cbn [ptrRows].
  - split; [|split; [lia|intros x []]]. replace (l + Z.of_nat 0) with l by lia. apply goodO_none. reflexivity.
  - specialize (IH (ln + Z.of_nat cnt) (l + 1)). cbn zeta in IH. destruct IH as (A & B & C).
    change (ALab (l + 1) :: dwLabs cnt ln ++ ptrRows n cnt (ln + Z.of_nat cnt) (l + 1)) with ([ALab (l + 1)] ++ (dwLabs cnt ln ++ ptrRows n cnt (ln + Z.of_nat cnt) (l + 1))).
    split; [|split].
    + apply (goodO_app _ _ _ (l + 1)); [apply goodO_lab|]. apply (goodO_app _ _ _ (l + 1)); [apply goodO_none, dwLabs_defs|].
      replace (l + Z.of_nat (S n)) with (l + 1 + Z.of_nat n) by lia. exact A.
    + intros x Hx. rewrite !outDefs_app, dwLabs_defs. cbn [outDefs flat_map asmDefs app]. destruct (Z.eq_dec x (l + 1)) as [->|Ne]; [left; reflexivity|right]. apply B. lia.
    + intros x. rewrite !outUses_app. cbn [outUses flat_map asmUses app]. intros H. apply in_app_or in H. destruct H as [H|H].
      * apply dwLabs_uses in H. nia.
      * apply C in H. nia.
Qed.
Lemma endRows_ok dir n : outDefs [dir] = [] -> outUses [dir] = [] -> forall l, let c := endRows n dir l in
  goodO c l (l + Z.of_nat n) /\ (forall x, l < x <= l + Z.of_nat n -> In x (outDefs c)) /\ outUses c = [].
Proof.
  intros D U. induction n as [|n IH]; intros l; cbn zeta; cbn [endRows].
  - split; [|split; [lia|reflexivity]]. replace (l + Z.of_nat 0) with l by lia. apply goodO_none. reflexivity.
  - specialize (IH (l + 1)). cbn zeta in IH. destruct IH as (A & B & C).
    change (ALab (l + 1) :: dir :: endRows n dir (l + 1)) with ([ALab (l + 1)] ++ ([dir] ++ endRows n dir (l + 1))).
    split; [|split].
    + apply (goodO_app _ _ _ (l + 1)); [apply goodO_lab|]. apply (goodO_app _ _ _ (l + 1)); [apply goodO_none, D|].
      replace (l + Z.of_nat (S n)) with (l + 1 + Z.of_nat n) by lia. exact A.
    + intros x Hx. rewrite !outDefs_app, D. cbn [outDefs flat_map asmDefs app]. destruct (Z.eq_dec x (l + 1)) as [->|Ne]; [left; reflexivity|right]. apply B. lia.
    + rewrite !outUses_app, U, C. reflexivity.
Qed.
Lemma genArray0_ok node : forall n d l ln c l', genArray0 node n d l = Some (ln, c, l') ->
  goodO c l l' /\ (forall x, In x (outUses c) -> In x (outDefs c)) /\ (forall x, ln <= x < ln + n -> 0 < n -> In x (outDefs c)).
Proof.
  induction node as [|v|i|s|lv IH1 rv IH2|d0 IH r|d0 IH r]; intros n d l ln c l' H; cbn [genArray0] in H; try discriminate H.
  - injection H as <- <- <-.
    assert (exists dir, (if d =? 1 then ABs v else AWs v) = dir /\ outDefs [dir] = [] /\ outUses [dir] = []) as (dir & -> & D & U) by (destruct (d =? 1); eexists; split; [reflexivity|split; reflexivity|reflexivity|split; reflexivity]).
    destruct (endRows_ok dir (Z.to_nat n) D U l) as (A & B & C). replace (l + Z.max 0 n) with (l + Z.of_nat (Z.to_nat n)) by lia.
    split; [exact A|]. split; [rewrite C; intros x []|]. intros x Hx N. apply B. destruct (Z.leb_spec n 0); lia.
  - destruct rv as [|cnt| | | | |]; try discriminate H. destruct (genArray0 lv (n * cnt) (d - 1) l) as [((ln1, c1), l1)|] eqn:G; [|discriminate H]. injection H as <- <- <-.
    destruct (IH1 _ _ _ _ _ _ G) as (A1 & B1 & C1). destruct (ptrRows_ok (Z.to_nat cnt) (Z.to_nat n) ln1 l1) as (A2 & B2 & C2).
    replace (l1 + Z.max 0 n) with (l1 + Z.of_nat (Z.to_nat n)) by lia. split; [exact (goodO_app _ _ _ _ _ A1 A2)|]. split.
    + intros x. rewrite outUses_app, outDefs_app, !in_app_iff. intros [X|X]; [left; exact (B1 x X)|left]. apply C2 in X. apply C1; nia.
    + intros x Hx N. rewrite outDefs_app, in_app_iff. right. apply B2. destruct (Z.leb_spec n 0); lia.
Qed.

(* the labels of the items k lists down, and all strings *)
Fixpoint labsAt (k : nat) (d : dat) : list Z :=
  match d with
  | DSemi a b => labsAt k a ++ labsAt k b
  | DList d r => match k with O => [r] | S j => labsAt j d end
  | DArry _ r => match k with O => [r] | S _ => [] end
  | DStr l => match k with O => [l] | S _ => [] end
  | _ => []
  end.
Fixpoint strsD (d : dat) : list Z :=
  match d with
  | DSemi a b => strsD a ++ strsD b
  | DList d _ => strsD d
  | DStr l => [l]
  | _ => []
  end.
Lemma genDW_ok d c : genDW d = Some c -> outDefs c = [] /\ incl (outUses c) (labsAt 0 d).
Proof. destruct d; cbn [genDW]; intros H; try discriminate H; injection H as <-; split; try reflexivity; cbn; try apply incl_nil_l; apply incl_refl. Qed.
Lemma genList0_ok node : forall k byt l node' c l', genList0 node (Z.of_nat k) byt l = Some (node', c, l') ->
  goodO c l l' /\ (forall x, In x (outUses c) -> In x (labsAt k node) \/ In x (outDefs c)) /\ strsD node' = strsD node /\
  (forall j, k = S j -> forall x, In x (labsAt j node') -> In x (strsD node) \/ In x (outDefs c)).
Proof.
  assert (forall (node : dat) k (byt : bool) l node' c l',
    (if Z.of_nat k =? 0 then (if byt then match node with DCnst v => Some (node, [ADbCns v], l) | _ => None end else do c <- genDW node; Some (node, c, l)) else Some (node, [], l)) = Some (node', c, l') ->
    (forall j, k = S j -> incl (labsAt j node) (strsD node)) ->
    goodO c l l' /\ (forall x, In x (outUses c) -> In x (labsAt k node) \/ In x (outDefs c)) /\ strsD node' = strsD node /\
    (forall j, k = S j -> forall x, In x (labsAt j node') -> In x (strsD node) \/ In x (outDefs c))) as LEAF.
  { intros node0 k byt l node' c l' H X. destruct (Z.eqb_spec (Z.of_nat k) 0) as [E|E].
    - assert (k = O) as -> by lia. destruct byt.
      + destruct node0; try discriminate H. injection H as <- <- <-. split; [apply goodO_none; reflexivity|]. split; [intros x []|]. split; [reflexivity|]. discriminate.
      + destruct (genDW node0) as [c0|] eqn:G; [|discriminate H]. injection H as <- <- <-. apply genDW_ok in G. destruct G as [D U].
        split; [apply goodO_none, D|]. split; [intros x Hx; left; exact (U x Hx)|]. split; [reflexivity|]. discriminate.
    - injection H as <- <- <-. split; [apply goodO_none; reflexivity|]. split; [intros x []|]. split; [reflexivity|]. intros j Ej x Hx. left. exact (X j Ej x Hx). }
  induction node as [|v|i|s|a IHa b IHb|d0 IH r|d0 IH r]; intros k byt l node' c l' H.
  - apply (LEAF _ k byt); [exact H|]. intros j Ej. apply incl_nil_l.
  - apply (LEAF _ k byt); [exact H|]. intros j Ej. apply incl_nil_l.
  - apply (LEAF _ k byt); [exact H|]. intros j Ej. apply incl_nil_l.
  - apply (LEAF _ k byt); [exact H|]. intros [|j] Ej; [apply incl_refl|apply incl_nil_l].
  - cbn [genList0] in H. destruct (genList0 a _ byt l) as [((a', c1), l1)|] eqn:G1; [|discriminate H]. destruct (genList0 b _ byt l1) as [((b', c2), l2)|] eqn:G2; [|discriminate H]. injection H as <- <- <-.
    destruct (IHa _ _ _ _ _ _ G1) as (A1 & A2 & A3 & A4). destruct (IHb _ _ _ _ _ _ G2) as (B1 & B2 & B3 & B4).
    split; [exact (goodO_app _ _ _ _ _ A1 B1)|]. split; [|split].
    + intros x. rewrite outUses_app, outDefs_app. cbn [labsAt]. rewrite !in_app_iff. intros [X|X]; [destruct (A2 x X)|destruct (B2 x X)]; auto.
    + cbn [strsD]. congruence.
    + intros j Ej x. rewrite outDefs_app. cbn [labsAt strsD]. rewrite !in_app_iff. intros [X|X]; [destruct (A4 j Ej x X)|destruct (B4 j Ej x X)]; auto.
  - destruct k as [|k]; [apply (LEAF _ O byt); [exact H|discriminate]|].
    cbn [genList0] in H. destruct (Z.eqb_spec (Z.of_nat (S k)) 0) as [E|E]; [lia|]. replace (Z.of_nat (S k) - 1) with (Z.of_nat k) in H by lia.
    destruct (Z.eqb_spec (Z.of_nat (S k)) 1) as [E1|E1].
    + assert (k = O) as -> by lia. destruct (genList0 d0 _ (r =? 1) (l + 1)) as [((d', c1), l1)|] eqn:G; [|discriminate H]. injection H as <- <- <-.
      destruct (IH _ _ _ _ _ _ G) as (A1 & A2 & A3 & A4). split; [exact (goodO_app [ALab (l + 1)] _ _ _ _ (goodO_lab l) A1)|]. split; [|split; [exact A3|]].
      * intros x X. cbn [outUses flat_map asmUses app] in X. destruct (A2 x X) as [Y|Y]; [left; exact Y|right; right; exact Y].
      * intros j Ej x. injection Ej as <-. cbn [labsAt]. intros [<-|[]]. right. left. reflexivity.
    + destruct (genList0 d0 _ (r =? 1) l) as [((d', c1), l1)|] eqn:G; [|discriminate H]. injection H as <- <- <-.
      destruct (IH _ _ _ _ _ _ G) as (A1 & A2 & A3 & A4). split; [exact A1|]. split; [exact A2|]. split; [exact A3|].
      intros j Ej x. injection Ej as <-. destruct k as [|k]; [lia|]. cbn [labsAt strsD]. apply (A4 k eq_refl).
  - destruct k as [|k]; [apply (LEAF _ O byt); [exact H|discriminate]|].
    cbn [genList0] in H. destruct (Z.eqb_spec (Z.of_nat (S k)) 0) as [E|E]; [lia|]. destruct (Z.eqb_spec (Z.of_nat (S k)) 1) as [E1|E1].
    + assert (k = O) as -> by lia. destruct (genArray0 d0 1 r l) as [((lab, c1), l1)|] eqn:G; [|discriminate H]. injection H as <- <- <-.
      destruct (genArray0_ok _ _ _ _ _ _ _ G) as (A1 & A2 & A3). split; [exact A1|]. split; [intros x X; right; exact (A2 x X)|]. split; [reflexivity|].
      intros j Ej x. injection Ej as <-. cbn [labsAt]. intros [<-|[]]. right. apply A3; lia.
    + injection H as <- <- <-. split; [apply goodO_none; reflexivity|]. split; [intros x []|]. split; [reflexivity|].
      intros j Ej x. injection Ej as <-. destruct k as [|k]; [lia|]. cbn [labsAt]. intros [].
Qed.
Lemma genList_ok K k : forall node l node' c l', genList k node l = Some (node', c, l') ->
  incl (labsAt k node) K -> incl (strsD node) K ->
  goodO c l l' /\ (forall x, In x (outUses c) -> In x K \/ In x (outDefs c)) /\ (forall x, In x (labsAt 0 node') -> In x K \/ In x (outDefs c)).
Proof.
  revert K. induction k as [|k IH]; intros K node l node' c l' H I1 I2; cbn [genList] in H.
  - injection H as <- <- <-. split; [apply goodO_none; reflexivity|]. split; [intros x []|]. intros x X. left. exact (I1 x X).
  - destruct (genList0 node (Z.of_nat (S k)) false l) as [((n1, c1), l1)|] eqn:G1; [|discriminate H]. destruct (genList k n1 l1) as [((n2, c2), l2)|] eqn:G2; [|discriminate H]. injection H as <- <- <-.
    destruct (genList0_ok _ _ _ _ _ _ _ G1) as (A1 & A2 & A3 & A4).
    destruct (IH (K ++ outDefs c1) _ _ _ _ _ G2) as (B1 & B2 & B3).
    + intros x X. apply in_app_iff. destruct (A4 k eq_refl x X) as [Y|Y]; [left; exact (I2 x Y)|right; exact Y].
    + rewrite A3. intros x X. apply in_app_iff. left. exact (I2 x X).
    + split; [exact (goodO_app _ _ _ _ _ A1 B1)|]. split.
      * intros x. rewrite outUses_app, outDefs_app, !in_app_iff. intros [X|X].
        -- destruct (A2 x X) as [Y|Y]; [left; exact (I1 x Y)|auto].
        -- destruct (B2 x X) as [Y|Y]; [apply in_app_iff in Y; destruct Y; auto|auto].
      * intros x X. rewrite outDefs_app, in_app_iff. destruct (B3 x X) as [Y|Y]; [apply in_app_iff in Y; destruct Y; auto|auto].
Qed.
Definition flatAt (n : nat) (d : dat) : Prop := forall k, (n <= k)%nat -> incl (labsAt k d) (strsD d).
Lemma genData_ok K idx dim root l c l' : genData idx dim root l = Some (c, l') -> flatAt (Z.to_nat (dim + 1)) root -> incl (strsD root) K ->
  goodO c l l' /\ (forall x, In x (outUses c) -> In x K \/ In x (outDefs c)).
Proof.
  intros H FL I. unfold genData in H.
  destruct (match root with DList _ _ => _ | DArry _ _ => _ | _ => _ end) as [((root', c0), l1)|] eqn:G; [|discriminate H].
  destruct (genDW root') as [dw|] eqn:W; [|discriminate H]. injection H as <- <-. pose proof W as W0. apply genDW_ok in W. destruct W as [D U].
  assert (goodO c0 l l1 /\ (forall x, In x (outUses c0) -> In x K \/ In x (outDefs c0)) /\ (forall x, In x (labsAt 0 root') -> In x K \/ In x (outDefs c0))) as (A & B & C).
  { destruct root as [|v|i|s|a b|d0 r|d0 r]; try (injection G as <- <- <-; split; [apply goodO_none; reflexivity|]; split; [intros x []|]; intros x X; left; apply I; exact X || (destruct X; fail)).
    - injection G as <- <- <-. discriminate W0.
    - apply (genList_ok K _ _ _ _ _ _ G); [|exact I]. intros x X. apply I. exact (FL _ (le_n _) x X).
    - destruct (genArray0 d0 1 r l) as [((lab, c1), l2)|] eqn:E; [|discriminate G]. injection G as <- <- <-. destruct (genArray0_ok _ _ _ _ _ _ _ E) as (A1 & A2 & A3).
      split; [exact A1|]. split; [intros x X; right; exact (A2 x X)|]. cbn [labsAt]. intros x [<-|[]]. right. apply A3; lia. }
  split.
  - apply (goodO_app _ _ _ l1); [exact A|]. apply goodO_none. exact D.
  - intros x. rewrite outUses_app, outDefs_app, !in_app_iff. change (outUses (ANam idx :: dw)) with (outUses dw). intros [X|X].
    + destruct (B x X); auto.
    + destruct (C x (U x X)); auto.
Qed.

(* data is not code *)
Definition isCode (a : asm) : bool := match a with ACode _ => true | _ => false end.
Definition plain (l : list asm) : Prop := existsb isCode l = false.
Lemma plain_app a b : plain a -> plain b -> plain (a ++ b).
Proof. unfold plain. rewrite existsb_app. intros -> ->. reflexivity. Qed.
Lemma plain_in l c : plain l -> ~ In (ACode c) l.
Proof.
  intros P H. unfold plain in P. assert (existsb isCode l = true) as E by (apply existsb_exists; exists (ACode c); split; [exact H|reflexivity]). congruence.
Qed.
Lemma plain_dwLabs k : forall ln, plain (dwLabs k ln).
Proof. induction k; intros ln; [reflexivity|]. apply IHk. Qed.
Lemma plain_ptrRows n : forall cnt ln l, plain (ptrRows n cnt ln l).
Proof. induction n as [|n IH]; intros cnt ln l; [reflexivity|]. exact (plain_app _ _ (plain_dwLabs _ _) (IH _ _ _)). Qed.
Lemma plain_endRows n dir : isCode dir = false -> forall l, plain (endRows n dir l).
Proof. intros D. induction n as [|n IH]; intros l; [reflexivity|]. unfold plain. cbn [endRows existsb isCode]. rewrite D. exact (IH _). Qed.
Lemma plain_genArray0 node : forall n d l ln c l', genArray0 node n d l = Some (ln, c, l') -> plain c.
Proof.
  induction node as [|v|i|s|lv IH1 rv IH2|d0 IH r|d0 IH r]; intros n d l ln c l' H; cbn [genArray0] in H; try discriminate H.
  - injection H as <- <- <-. apply plain_endRows. destruct (_ =? _); reflexivity.
  - destruct rv as [|cnt| | | | |]; try discriminate H. destruct (genArray0 lv (n * cnt) (d - 1) l) as [((ln1, c1), l1)|] eqn:G; [|discriminate H]. injection H as <- <- <-.
    exact (plain_app _ _ (IH1 _ _ _ _ _ _ G) (plain_ptrRows _ _ _ _)).
Qed.
Lemma plain_genDW d c : genDW d = Some c -> plain c.
Proof. destruct d; cbn [genDW]; intros H; try discriminate H; injection H as <-; reflexivity. Qed.
Lemma plain_genList0 node : forall dim byt l node' c l', genList0 node dim byt l = Some (node', c, l') -> plain c.
Proof.
  assert (forall (node node' : dat) (byt : bool) (l : Z) (c : list asm) (l' : Z) (z : bool), 
    (if z then (if byt then match node with DCnst v => Some (node, [ADbCns v], l) | _ => None end else do c <- genDW node; Some (node, c, l)) else Some (node, [], l)) = Some (node', c, l') -> plain c) as LEAF.
  { intros n0 n1 byt l c l' z H. destruct z; [|injection H as <- <- <-; reflexivity]. destruct byt.
    - destruct n0; try discriminate H. injection H as <- <- <-. reflexivity.
    - destruct (genDW n0) eqn:G; [|discriminate H]. injection H as <- <- <-. exact (plain_genDW _ _ G). }
  induction node as [|v|i|s|a IHa b IHb|d0 IH r|d0 IH r]; intros dim byt l node' c l' H; cbn [genList0] in H; try match type of H with _ = Some (_, _, _) => match goal with H : context [genDW ?n] |- _ => first [exact (LEAF n node' byt l c l' (dim =? 0) H)|idtac] end end.
  - destruct (genList0 a _ byt l) as [((a', c1), l1)|] eqn:G1; [|discriminate H]. destruct (genList0 b _ byt l1) as [((b', c2), l2)|] eqn:G2; [|discriminate H]. injection H as <- <- <-.
    exact (plain_app _ _ (IHa _ _ _ _ _ _ G1) (IHb _ _ _ _ _ _ G2)).
  - destruct (dim =? 0); [exact (LEAF (DList d0 r) node' byt l c l' true H)|]. destruct (dim =? 1).
    + destruct (genList0 d0 _ _ _) as [((d', c1), l1)|] eqn:G; [|discriminate H]. injection H as <- <- <-. exact (IH _ _ _ _ _ _ G).
    + destruct (genList0 d0 _ _ _) as [((d', c1), l1)|] eqn:G; [|discriminate H]. injection H as <- <- <-. exact (IH _ _ _ _ _ _ G).
  - destruct (dim =? 0); [exact (LEAF (DArry d0 r) node' byt l c l' true H)|]. destruct (dim =? 1).
    + destruct (genArray0 _ _ _ _) as [((d', c1), l1)|] eqn:G; [|discriminate H]. injection H as <- <- <-. exact (plain_genArray0 _ _ _ _ _ _ _ G).
    + injection H as <- <- <-. reflexivity.
Qed.
Lemma plain_genList k : forall node l node' c l', genList k node l = Some (node', c, l') -> plain c.
Proof.
  induction k as [|k IH]; intros node l node' c l' H; cbn [genList] in H; [injection H as <- <- <-; reflexivity|].
  destruct (genList0 node (Z.of_nat (S k)) false l) as [((n1, c1), l1)|] eqn:G1; [|discriminate H]. destruct (genList k n1 l1) as [((n2, c2), l2)|] eqn:G2; [|discriminate H]. injection H as <- <- <-.
  exact (plain_app _ _ (plain_genList0 _ _ _ _ _ _ _ G1) (IH _ _ _ _ _ G2)).
Qed.
Lemma plain_genData idx dim root l c l' : genData idx dim root l = Some (c, l') -> plain c.
Proof.
  intros H. unfold genData in H.
  destruct (match root with DList _ _ => _ | DArry _ _ => _ | _ => _ end) as [((root', c0), l1)|] eqn:G; [|discriminate H].
  destruct (genDW root') as [dw|] eqn:W; [|discriminate H]. injection H as <- <-. apply plain_app; [|exact (plain_genDW _ _ W)].
  destruct root; try (injection G as <- <- <-; reflexivity).
  - exact (plain_genList _ _ _ _ _ _ G).
  - destruct (genArray0 _ _ _ _) as [((d', c1), l2)|] eqn:E; [|discriminate G]. injection G as <- <- <-. exact (plain_genArray0 _ _ _ _ _ _ _ E).
Qed.
