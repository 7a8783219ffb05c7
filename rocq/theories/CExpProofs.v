(* The text of an expression is read as the expression *)
From Coq Require Import ZArith Bool Lia List String Ascii.
From Verif Require Import Lexer SyTree CSpec CCode CTree CLexProofs CReadProofs.
Import ListNotations.
Open Scope Z_scope.

Section Names.
Variable nm : Z -> list Z.
Variable isType : list Z -> bool.
Notation argsC := (argsC nm strLab).
Notation expC := (expC nm strLab).
Notation fairE := (fairE nm strLab isType).
Notation headOk := (headOk isType).

Definition frag (x : list Z) (t : list ctok) : Prop := forall r u, stop r -> Lx r u -> Lx (x ++ r) (t ++ u).
Definition starts (e : expr) (x : list Z) : Prop :=
  exists c r, x = c :: r /\ (idChar c = true \/ c = 40 \/ (negative e = true /\ c = 45)) /\ (opens e = true -> c = 40).

Lemma cat_some a b x : cat a b = Some x -> exists y z, a = Some y /\ b = Some z /\ x = y ++ z.
Proof. destruct a as [y|]; [|discriminate]. destruct b as [z|]; [|discriminate]. intros [= <-]. eauto. Qed.

Lemma starts_app e x y : negative e = false -> starts e x -> forall e', opens e' = opens e -> starts e' (x ++ y).
Proof.
  intros N (c & r & -> & A & B) e' O. exists c, (r ++ y). split; [reflexivity|]. split; [|rewrite O; exact B].
  destruct A as [A|[A|[A _]]]; [auto|auto|congruence].
Qed.
Lemma starts_paren e x : starts e (codes "(" ++ x).
Proof. exists 40, x. split; [reflexivity|]. split; [auto|]. reflexivity. Qed.

(* an operator and the text that follows it *)
Lemma joins_text p e x y : starts e x -> ends p 40 = true -> (negative e = true -> ends p 45 = true) -> joins p (x ++ y).
Proof.
  intros (c & r & -> & A & _) B C. cbn [app joins]. destruct A as [A|[->|[A ->]]].
  - apply ends_id. exact A.
  - exact B.
  - exact (C A).
Qed.
Lemma open_p p r u : closed p = true -> whole p = true -> Lx r u -> Lx (p ++ r) (TP p :: u).
Proof. intros A B H. apply Lx_p; [exact B|apply joins_closed; exact A|exact H]. Qed.

Record text (e : expr) (x : list Z) (t : list ctok) : Prop := {
  t_lex : frag x t; t_head : headOk t; t_args : Args t (argsC e) }.
Record text1 (e : expr) (x : list Z) (t : list ctok) : Prop := {
  t_text :> text e x t; t_start : starts e x; t_un : Un t (expC e); t_post : negative e = false -> Post t (expC e) }.

Lemma text1_of e x t : argsC e = [expC e] -> frag x t -> headOk t -> starts e x -> Un t (expC e) -> (negative e = false -> Post t (expC e)) -> text1 e x t.
Proof. intros A L H S U Q. split; [|exact S|exact U|exact Q]. split; auto. rewrite A. apply Un_Args. exact U. Qed.

Lemma text1_post e x t : argsC e = [expC e] -> frag x t -> headOk t -> starts e x -> Post t (expC e) -> text1 e x t.
Proof. intros A L H S U. apply text1_of; auto. apply Post_Un. exact U. Qed.

Lemma headOk_app t u : headOk t -> headOk (t ++ u).
Proof. destruct t as [|[w|v|p|str] t]; [intros []| | | |]; exact (fun H => H). Qed.

Lemma name_text e i : argsC e = [CId i] -> opens e = false -> ident i -> isKw i = false -> isType i = false -> text1 e i [TId i].
Proof.
  intros A O N K TN. assert (X : expC e = CId i) by (unfold CTree.expC; rewrite A; reflexivity).
  apply text1_post; rewrite ?X; auto.
  - intros r u S L. apply Lx_id; auto.
  - split; assumption.
  - destruct i as [|c i]; [destruct N|]. exists c, i. split; [reflexivity|]. destruct N as [N _]. split; [|congruence].
    left. unfold idChar. rewrite N. reflexivity.
  - intros rest res H. apply PU_id; auto.
Qed.

(* ( l op r ) *)
Lemma bin_text e p q rt l r xl tl xr tr : argsC e = [CBin p (expC l) (expC r)] ->
  whole p = true -> stop p -> strength p = Some (q, rt) -> ends p 40 = true -> (negative r = true -> ends p 45 = true) ->
  member p (map codes ["["; "("; "->"; "."; "++"; "--"]%string) = false ->
  text1 l xl tl -> text1 r xr tr ->
  text1 e (codes "(" ++ xl ++ p ++ xr ++ codes ")") (P "(" :: tl ++ TP p :: tr ++ [P ")"]).
Proof.
  intros A W SP ST E4 E5 M L R. assert (X : expC e = CBin p (expC l) (expC r)) by (unfold CTree.expC at 1; rewrite A; reflexivity).
  assert (p <> []) as NE by (intros ->; discriminate W).
  apply text1_post; rewrite ?X; auto using starts_paren.
  - intros s u S K. rewrite <- !app_assoc. rewrite <- app_comm_cons. apply open_p; [reflexivity|reflexivity|].
    rewrite <- app_assoc. apply (t_lex _ _ _ L).
    + destruct p as [|c p]; [contradiction|exact SP].
    + rewrite <- app_comm_cons. apply Lx_p; [exact W|apply (joins_text _ r); [apply (t_start _ _ _ R)|assumption|assumption]|].
      rewrite <- app_assoc. apply (t_lex _ _ _ R); [reflexivity|]. apply open_p; [reflexivity|reflexivity|exact K].
  - reflexivity.
  - intros rest res K. rewrite <- app_comm_cons. apply (PU_paren isType) with (CBin p (expC l) (expC r)) rest; [|
      |exact K].
    + rewrite <- app_assoc. apply headOk_app. apply (t_head _ _ _ L).
    + rewrite <- app_assoc. apply PE_intro with (expC l) (TP p :: (tr ++ [P ")"]) ++ rest).
      * apply (t_un _ _ _ L). exact M.
      * apply PL_op with q rt (expC r) (P ")" :: rest); [exact ST|lia| |apply PL_stop; split; reflexivity].
        rewrite <- app_assoc. apply Un_PE; [apply (t_un _ _ _ R)|split; reflexivity].
Qed.

(* ( op e ) *)
Lemma un_text e p a xa ta : argsC e = [CUn p (expC a)] -> whole p = true -> ends p 40 = true -> (negative a = true -> ends p 45 = true) ->
  is p "(" = false -> member p prefixOps = true ->  headOk [TP p] \/ p = codes "!" \/ p = codes "~" ->
  text1 a xa ta -> text1 e (codes "(" ++ p ++ xa ++ codes ")") (P "(" :: TP p :: ta ++ [P ")"]).
Proof.
  intros A W E4 E5 NP M HP L. assert (X : expC e = CUn p (expC a)) by (unfold CTree.expC at 1; rewrite A; reflexivity).
  apply text1_post; rewrite ?X; auto using starts_paren.
  - intros s u S K. rewrite <- !app_assoc. rewrite <- !app_comm_cons. apply open_p; [reflexivity|reflexivity|].
    apply Lx_p; [exact W|apply (joins_text _ a); [apply (t_start _ _ _ L)|assumption|assumption]|].
    rewrite <- app_assoc. apply (t_lex _ _ _ L); [reflexivity|]. apply open_p; [reflexivity|reflexivity|exact K].
  - reflexivity.
  - intros rest res [f K].
    assert (G : PE 0 (TP p :: (ta ++ [P ")"]) ++ rest) (CUn p (expC a), P ")" :: rest)).
    { apply PE_intro with (CUn p (expC a)) (P ")" :: rest); [|apply PL_stop; split; reflexivity].
      apply PU_un; [exact NP|exact M|]. rewrite <- app_assoc. apply (t_un _ _ _ L). reflexivity. }
    destruct G as [g G]. exists (S (Nat.max f g)). cbn [app pU]. change (is (codes "(") "(") with true. cbv iota.
    rewrite (upE _ _ _ _ _ (Nat.le_max_r f g) G). exact (upS _ _ _ _ _ (Nat.le_max_l f g) K).
Qed.

(* l [ r ] *)
Lemma idx_text e l r xl tl xr tr : argsC e = [CIdx (expC l) (expC r)] -> opens e = opens l -> negative l = false ->
  text1 l xl tl -> text1 r xr tr -> text1 e (xl ++ codes "[" ++ xr ++ codes "]") (tl ++ P "[" :: tr ++ [P "]"]).
Proof.
  intros A O N L R. assert (X : expC e = CIdx (expC l) (expC r)) by (unfold CTree.expC at 1; rewrite A; reflexivity).
  apply text1_post; rewrite ?X; auto.
  - intros s u S K. rewrite <- !app_assoc. apply (t_lex _ _ _ L); [reflexivity|].
    rewrite <- app_comm_cons. apply open_p; [reflexivity|reflexivity|]. rewrite <- app_assoc.
    apply (t_lex _ _ _ R); [reflexivity|]. apply open_p; [reflexivity|reflexivity|exact K].
  - apply headOk_app. apply (t_head _ _ _ L).
  - apply (starts_app l); auto. apply (t_start _ _ _ L).
  - intros rest res K. rewrite <- app_assoc. apply (t_post _ _ _ L N). rewrite <- app_comm_cons.
    apply PS_idx with (expC r) rest; [|exact K]. rewrite <- app_assoc. apply Un_PE; [apply (t_un _ _ _ R)|split; reflexivity].
Qed.

Lemma dot_text e l w xl tl : argsC e = [CArrow (expC l) w] -> opens e = opens l -> negative l = false -> ident w -> isKw w = false ->
  text1 l xl tl -> text1 e (xl ++ codes "->" ++ w) (tl ++ [P "->"; TId w]).
Proof.
  intros A O N IW KW L. assert (X : expC e = CArrow (expC l) w) by (unfold CTree.expC at 1; rewrite A; reflexivity).
  apply text1_post; rewrite ?X; auto.
  - intros s u S K. rewrite <- !app_assoc. apply (t_lex _ _ _ L); [reflexivity|].
    rewrite <- !app_comm_cons. apply open_p; [reflexivity|reflexivity|]. apply Lx_id; auto.
  - apply headOk_app. apply (t_head _ _ _ L).
  - apply (starts_app l); auto. apply (t_start _ _ _ L).
  - intros rest res K. rewrite <- app_assoc. apply (t_post _ _ _ L N). cbn [app]. apply PS_arrow; auto.
Qed.

(* f ( args ) *)
Lemma call_text e f a xa ta : argsC e = [CCall (CId f) (argsC a)] -> opens e = false -> ident f -> isKw f = false -> isType f = false ->
  text a xa ta -> text1 e (f ++ codes "(" ++ xa ++ codes ")") (TId f :: P "(" :: ta ++ [P ")"]).
Proof.
  intros A O N K TN L. assert (X : expC e = CCall (CId f) (argsC a)) by (unfold CTree.expC at 1; rewrite A; reflexivity).
  apply text1_post; rewrite ?X; auto.
  - intros s u S Q. rewrite <- !app_assoc. rewrite <- !app_comm_cons. apply Lx_id; [exact N|reflexivity|].
    apply open_p; [reflexivity|reflexivity|]. rewrite <- app_assoc. apply (t_lex _ _ _ L); [reflexivity|].
    apply open_p; [reflexivity|reflexivity|exact Q].
  - split; assumption.
  - destruct f as [|c f]; [destruct N|]. eexists c, _. split; [reflexivity|]. destruct N as [N _]. split; [|congruence].
    left. unfold idChar. rewrite N. reflexivity.
  - intros rest res Q. rewrite <- !app_comm_cons. apply PU_id; [exact K|].
    apply (PS_call isType) with (argsC a) rest; [rewrite <- app_assoc; apply headOk_app; apply (t_head _ _ _ L)| |exact Q].
    rewrite <- app_assoc. apply (proj1 (t_args _ _ _ L)).
Qed.
Lemma call0_text e f : argsC e = [CCall (CId f) []] -> opens e = false -> ident f -> isKw f = false -> isType f = false ->
  text1 e (f ++ codes "(" ++ codes ")") [TId f; P "("; P ")"].
Proof.
  intros A O N K TN. assert (X : expC e = CCall (CId f) []) by (unfold CTree.expC at 1; rewrite A; reflexivity).
  apply text1_post; rewrite ?X; auto.
  - intros s u S Q. rewrite <- !app_assoc. rewrite <- !app_comm_cons. apply Lx_id; [exact N|reflexivity|].
    apply open_p; [reflexivity|reflexivity|]. apply open_p; [reflexivity|reflexivity|exact Q].
  - split; assumption.
  - destruct f as [|c f]; [destruct N|]. eexists c, _. split; [reflexivity|]. destruct N as [N _]. split; [|congruence].
    left. unfold idChar. rewrite N. reflexivity.
  - intros rest res Q. rewrite <- !app_comm_cons. apply PU_id; [exact K|]. apply PS_call0. exact Q.
Qed.

Lemma num_text v : small v -> exists t, text1 (Cnst v) (dec v) t.
Proof.
  intros S. destruct (Z.ltb_spec v 0) as [N|N].
  - exists [P "-"; TNum (- v)].
    assert (R : v = - 2 ^ 31 \/ small (- v)) by (unfold small in *; lia).
    assert (D : dec v = codes "-" ++ decF 20 (- v) []) by (unfold dec; replace (v <? 0) with true by (symmetry; apply Z.ltb_lt; lia); reflexivity).
    assert (X : expC (Cnst v) = CUn (codes "-") (CNum (- v))).
    { unfold CTree.expC, CTree.argsC, one, numC. replace (v <? 0) with true by (symmetry; apply Z.ltb_lt; lia). reflexivity. }
    assert (NG : negative (Cnst v) = true) by (cbn [negative]; apply Z.ltb_lt; lia).
    apply text1_of; rewrite ?X; rewrite ?D; auto.
    + unfold CTree.argsC. change [numC v] with [expC (Cnst v)]. rewrite X. reflexivity.
    + assert (Q : exists d w, decF 20 (- v) [] = d :: w /\ digit d = true /\ forallb digit w = true /\ number (d :: w) = Some (- v)).
      { destruct R as [->|R].
        - exists 50, (tl (decF 20 2147483648 [])). repeat split; vm_compute; reflexivity.
        - destruct (dec_nat (- v) ltac:(lia) R) as (d & w & E & H). exists d, w. split; [|exact H].
          rewrite <- E. unfold dec. replace (- v <? 0) with false by (symmetry; apply Z.ltb_ge; lia). reflexivity. }
      destruct Q as (d & w & -> & DG & W & V).
      intros r u ST L. rewrite <- app_assoc. rewrite <- !app_comm_cons. apply Lx_p; [reflexivity| |].
      * cbn [app joins]. apply ends_id. unfold idChar. rewrite DG, orb_true_r. reflexivity.
      * rewrite app_comm_cons. apply Lx_number; auto using digits_num.
    + reflexivity.
    + exists 45, (decF 20 (- v) []). split; [reflexivity|]. split; [auto|]. intros K. discriminate K.
    + intros rest H. cbn [app]. apply PU_un; [reflexivity|reflexivity|]. apply PU_num. apply PS_stop. exact H.
    + congruence.
  - exists [TNum v].
    assert (X : expC (Cnst v) = CNum v).
    { unfold CTree.expC, CTree.argsC, one, numC. replace (v <? 0) with false by (symmetry; apply Z.ltb_ge; lia). reflexivity. }
    apply text1_post; rewrite ?X; auto.
    + unfold CTree.argsC. change [numC v] with [expC (Cnst v)]. rewrite X. reflexivity.
    + intros r u ST L. apply Lx_dec; auto.
    + exact I.
    + destruct (dec_nat v N S) as (d & w & -> & DG & _). exists d, w. split; [reflexivity|]. split; [|intros K; discriminate K].
      left. unfold idChar. rewrite DG, orb_true_r. reflexivity.
    + intros rest res H. apply PU_num. exact H.
Qed.

Lemma addr_text i : ident (nm i) -> isKw (nm i) = false ->
  text1 (ELeaf (LAddr i)) (codes "((int)&" ++ nm i ++ codes ")") [P "("; P "("; TId (codes "int"); P ")"; P "&"; TId (nm i); P ")"].
Proof.
  intros N K. apply text1_post.
  - reflexivity.
  - intros r u S L. rewrite <- !app_assoc. change (codes "((int)&") with (codes "(" ++ codes "(" ++ codes "int" ++ codes ")" ++ codes "&").
    rewrite <- !app_assoc. cbn [app]. apply (open_p (codes "(")); [reflexivity|reflexivity|]. apply (open_p (codes "(")); [reflexivity|reflexivity|].
    apply Lx_id; [split; reflexivity|reflexivity|]. apply (open_p (codes ")")); [reflexivity|reflexivity|].
    apply Lx_p; [reflexivity| |].
    + destruct (nm i) as [|c w]; [destruct N|]. destruct N as [N _]. cbn [app joins]. apply ends_id. unfold idChar. rewrite N. reflexivity.
    + apply Lx_id; [exact N|reflexivity|]. apply open_p; [reflexivity|reflexivity|exact L].
  - reflexivity.
  - eexists 40, _. split; [reflexivity|]. split; auto.
  - intros rest res H. cbn [app].
    apply (PU_paren isType) with (CCast (codes "int") (CUn (codes "&") (CId (nm i)))) rest; [reflexivity| |exact H].
    apply PE_intro with (CCast (codes "int") (CUn (codes "&") (CId (nm i)))) (P ")" :: rest); [|apply PL_stop; split; reflexivity].
    apply PU_cast. apply PU_un; [reflexivity|reflexivity|]. apply PU_id; [exact K|]. apply PS_stop. reflexivity.
Qed.

Lemma hex_text e v s a xa ta : argsC e = [CBin (codes "&") (CNum v) (expC a)] ->
  (exists d w, codes s = d :: w /\ digit d = true /\ forallb numChar w = true /\ number (d :: w) = Some v) ->
  text1 a xa ta -> text1 e (codes "(" ++ codes s ++ codes "&" ++ xa ++ codes ")") (P "(" :: [TNum v] ++ P "&" :: ta ++ [P ")"]).
Proof.
  intros A (d & w & -> & D & W & V) L. assert (X : expC e = CBin (codes "&") (CNum v) (expC a)) by (unfold CTree.expC at 1; rewrite A; reflexivity).
  apply text1_post; rewrite ?X; auto using starts_paren.
  - intros s' u S K. rewrite <- !app_assoc. rewrite <- !app_comm_cons. apply open_p; [reflexivity|reflexivity|].
    rewrite <- app_assoc. cbn [app]. rewrite app_comm_cons. apply Lx_number; auto; [reflexivity|].
    apply Lx_p; [reflexivity|apply (joins_text _ a); [apply (t_start _ _ _ L)|reflexivity|reflexivity]|].
    rewrite <- app_assoc. apply (t_lex _ _ _ L); [reflexivity|]. apply open_p; [reflexivity|reflexivity|exact K].
  - reflexivity.
  - intros rest res K. cbn [app]. apply (PU_paren isType) with (CBin (codes "&") (CNum v) (expC a)) rest; [exact I| |exact K].
    apply PE_intro with (CNum v) (P "&" :: (ta ++ [P ")"]) ++ rest).
    + apply PU_num. apply PS_stop. reflexivity.
    + apply PL_op with 8%nat false (expC a) (P ")" :: rest); [reflexivity|lia| |apply PL_stop; split; reflexivity].
      rewrite <- app_assoc. apply Un_PE; [apply (t_un _ _ _ L)|split; reflexivity].
Qed.

Lemma semi_text l r xl tl xr tr : text l xl tl -> text r xr tr ->
  text (E2 SEMI l r) (xl ++ codes "," ++ xr) (tl ++ P "," :: tr).
Proof.
  intros L R. split.
  - intros s u S K. rewrite <- !app_assoc. apply (t_lex _ _ _ L); [reflexivity|].
    rewrite <- app_comm_cons. apply open_p; [reflexivity|reflexivity|]. apply (t_lex _ _ _ R); auto.
  - apply headOk_app. apply (t_head _ _ _ L).
  - apply Args_app; [apply (t_args _ _ _ L)|apply (t_args _ _ _ R)].
Qed.


Lemma cat_l y (b : option (list Z)) x : cat (Some y) b = Some x -> exists z, b = Some z /\ x = y ++ z.
Proof. intros H. apply cat_some in H as (y' & z & [= <-] & E & ->). eauto. Qed.

(* every expression that is printed; a SySEMI list only as arguments *)
Lemma printE_text : forall e args x, fairE e -> printE nm args e = Some x ->
  exists t, text e x t /\ (match e with E2 SEMI _ _ => True | _ => text1 e x t end).
Proof.
  induction e as [|l|o e IH|o l IHl r IHr|f a IH]; intros args x F H.
  - discriminate.
  - assert (exists t, text1 (ELeaf l) x t) as [t T]; [|exists t; split; [apply T|exact T]].
    destruct l as [v|i|i|i|s|i]; cbn [printE] in H; injection H as <-; cbn [fairE] in F.
    + apply num_text. exact F.
    + exists [TId (nm i)]. apply name_text; try reflexivity; apply F.
    + exists [TId (nm i)]. apply name_text; try reflexivity; apply F.
    + exists [TId (nm i)]. apply name_text; try reflexivity; apply F.
    + exists [TId (strLab s)]. apply name_text; try reflexivity; [apply strLab_ident; tauto|apply F].
    + eexists. apply addr_text; apply F.
  - assert (exists t, text1 (E1 o e) x t) as [t T]; [|exists t; split; [apply T|exact T]].
    assert (exists xa ta, text1 e xa ta /\ x = match o with CHR => codes "(0xff&" ++ xa ++ codes ")" | BOOL => codes "(0x01&" ++ xa ++ codes ")"
       | NEG => codes "(" ++ codes "-" ++ xa ++ codes ")" | NOT => codes "(" ++ codes "!" ++ xa ++ codes ")" | BNOT => codes "(" ++ codes "~" ++ xa ++ codes ")" end)
      as (xa & ta & L & ->).
    { assert (FE : fairE e) by (destruct o; try exact F; exact (proj1 F)).
      assert (exists xa, printE nm false e = Some xa /\ x = match o with CHR => codes "(0xff&" ++ xa ++ codes ")" | BOOL => codes "(0x01&" ++ xa ++ codes ")"
       | NEG => codes "(" ++ codes "-" ++ xa ++ codes ")" | NOT => codes "(" ++ codes "!" ++ xa ++ codes ")" | BNOT => codes "(" ++ codes "~" ++ xa ++ codes ")" end) as (xa & E & ->).
      { destruct o; cbn [printE opText1] in H; apply cat_l in H as (z & H & ->);
          try (apply cat_l in H as (z' & H & ->)); apply cat_some in H as (y & z'' & H & [= <-] & ->); exists y; split; auto. }
      destruct (IH false xa FE E) as (ta & T & T1). exists xa, ta. split; [|reflexivity].
      destruct e as [|l|o' e|o' l r|f a]; try exact T1. destruct o'; try exact T1. discriminate E. }
    destruct o.
    + eexists. eapply un_text; try reflexivity; [|left; reflexivity|exact L]. destruct F as [_ F]. rewrite F. discriminate.
    + eexists. eapply un_text; try reflexivity; [right; left; reflexivity|exact L].
    + eexists. eapply un_text; try reflexivity; [right; right; reflexivity|exact L].
    + eexists. apply (hex_text _ 255 "0xff" e xa ta); [reflexivity| |exact L]. eexists _, _. repeat split.
    + eexists. apply (hex_text _ 1 "0x01" e xa ta); [reflexivity| |exact L]. eexists _, _. repeat split.
  - assert (SUBL : forall x, fairE l -> printE nm false l = Some x -> exists t, text1 l x t).
    { intros y FL E. destruct (IHl false y FL E) as (t & T & T1). exists t.
      destruct l as [|l'|o' e|o' l' r'|f a]; try exact T1. destruct o'; try exact T1. discriminate E. }
    assert (SUBR : forall x, fairE r -> printE nm false r = Some x -> exists t, text1 r x t).
    { intros y FR E. destruct (IHr false y FR E) as (t & T & T1). exists t.
      destruct r as [|l'|o' e|o' l' r'|f a]; try exact T1. destruct o'; try exact T1. discriminate E. }
    assert (BIN : forall p q rt, opText2 o = Some p -> fairE l -> fairE r ->
       cat (Some (codes "(")) (cat (printE nm false l) (cat (opText2 o) (cat (printE nm false r) (Some (codes ")"))))) = Some x ->
       argsC (E2 o l r) = [CBin p (expC l) (expC r)] -> whole p = true -> stop p -> strength p = Some (q, rt) -> ends p 40 = true ->
       (negative r = true -> ends p 45 = true) -> member p (map codes ["["; "("; "->"; "."; "++"; "--"]%string) = false ->
       exists t, text (E2 o l r) x t /\ text1 (E2 o l r) x t).
    { intros p q rt OP FL FR C A W SP ST E4 E5 M. rewrite OP in C. apply cat_l in C as (z & C & ->).
      apply cat_some in C as (xl & z1 & PL & C & ->). apply cat_l in C as (z2 & C & ->).
      apply cat_some in C as (xr & z3 & PR & [= <-] & ->).
      destruct (SUBL xl FL PL) as [tl TL]. destruct (SUBR xr FR PR) as [tr TR].
      eexists. assert (T := bin_text (E2 o l r) p q rt l r xl tl xr tr A W SP ST E4 E5 M TL TR). split; [apply T|exact T]. }
    assert (IDX : forall x, cat (printE nm false l) (cat (Some (codes "[")) (cat (printE nm false r) (Some (codes "]")))) = Some x ->
       fairE l -> fairE r -> negative l = false -> argsC (E2 o l r) = [CIdx (expC l) (expC r)] -> opens (E2 o l r) = opens l ->
       exists t, text (E2 o l r) x t /\ text1 (E2 o l r) x t).
    { intros y C FL FR N A O. apply cat_some in C as (xl & z1 & PL & C & ->). apply cat_l in C as (z2 & C & ->).
      apply cat_some in C as (xr & z3 & PR & [= <-] & ->).
      destruct (SUBL xl FL PL) as [tl TL]. destruct (SUBR xr FR PR) as [tr TR].
      eexists. assert (T := idx_text (E2 o l r) l r xl tl xr tr A O N TL TR). split; [apply T|exact T]. }
    destruct o; cbn [printE] in H; cbn [CTree.fairE] in F;
      try (eapply BIN; [reflexivity|apply F|apply F|exact H|reflexivity|reflexivity|reflexivity|reflexivity|reflexivity|intros _; reflexivity|reflexivity]);
      try (eapply IDX; [exact H|apply F|apply F|apply F|reflexivity|reflexivity]).
    + (* SUB *) eapply BIN; [reflexivity|apply F|apply F|exact H|reflexivity|reflexivity|reflexivity|reflexivity|reflexivity| |reflexivity].
      destruct F as (_ & _ & F). rewrite F. discriminate.
    + (* DOT *) destruct r as [|[v|i|i|i|s|i]|o' e|o' l' r'|f a]; try discriminate H.
      apply cat_some in H as (xl & z1 & PL & [= <-] & ->). destruct F as (FL & N & FN).
      destruct (SUBL xl FL PL) as [tl TL]. eexists.
      assert (T := dot_text (E2 DOT l (Cnst v)) l (nm v) xl tl eq_refl eq_refl N (proj1 FN) (proj1 (proj2 FN)) TL). split; [apply T|exact T].
    + (* SEMI *) destruct args; [|discriminate H]. apply cat_some in H as (xl & z1 & PL & H & ->). apply cat_l in H as (xr & PR & ->).
      destruct (IHl true xl (proj1 F) PL) as (tl & TL & _). destruct (IHr true xr (proj2 F) PR) as (tr & TR & _).
      exists (tl ++ P "," :: tr). split; [|exact I]. apply semi_text; assumption.
  - assert (exists t, text1 (EFunc f a) x t) as [t T]; [|exists t; split; [apply T|exact T]].
    cbn [printE] in H. destruct F as [FN FA]. apply cat_l in H as (z & H & ->). rewrite <- app_assoc.
    destruct a as [|l|o' e|o' l' r'|f' a'].
    { apply cat_l in H as (z' & [= <-] & ->). eexists. apply call0_text; try reflexivity; apply FN. }
    all: apply cat_some in H as (xa & z' & PA & [= <-] & ->); destruct (IH true xa FA PA) as (ta & TA & _);
      eexists; eapply call_text; try reflexivity; [apply FN|apply FN|apply FN|exact TA].
Qed.

Theorem exp_reads e x : fairE e -> printExp nm e = Some x -> readsE x (expC e).
Proof.
  intros F H. destruct (printE_text e false x F H) as (t & T & T1).
  assert (U : text1 e x t) by (destruct e as [|l|o' e|o' l r|f a]; try exact T1; destruct o'; try exact T1; discriminate H).
  destruct (t_lex _ _ _ U [] [] I Lx_nil) as [f L]. rewrite !app_nil_r in L.
  destruct (Un_PE t (expC e) 0 [] (t_un _ _ _ U) I) as [g K]. rewrite app_nil_r in K.
  exists (Nat.max f g), t. split; [exact (clex_mono f _ _ _ (Nat.le_max_l f g) L)|exact (upE _ _ _ _ _ (Nat.le_max_r f g) K)].
Qed.

End Names.
