(* The text of an expression with run-time checks is read as that expression *)
From Coq Require Import ZArith Bool Lia List String Ascii.
From Verif Require Import Lexer SyTree NameTable CSpec CCode CTree CLexProofs CReadProofs CExpProofs RtcCode RtcTree.
Import ListNotations.
Open Scope Z_scope.

Section Names.
Variable nm own : Z -> list Z.
Variable file : list Z.
Variable ln : path -> Z.
Variable isType : list Z -> bool.
Hypothesis plain : forallb plainChar file = true.
(* the names of the checks are no types *)
Hypothesis checks : forall w, member w (map codes ["_RCA"; "_ICA"; "_CCA"; "_CP"]%string) = true -> isType w = false.
Notation argsR := (argsR nm strLab own file ln).
Notation fairR := (fairR nm strLab own ln isType).
Notation headOk := (headOk isType).
Definition ex (p : path) (e : expr) : cexp := one (argsR p e).

Definition startsR (e : expr) (x : list Z) : Prop :=
  exists c r, x = c :: r /\ (idChar c = true \/ c = 40 \/ (negative e = true /\ c = 45) \/ (isStr e = true /\ c = 38)) /\ (opensR e = true -> c = 40).
Record textR (c : list cexp) (x : list Z) (t : list ctok) : Prop := { r_lex : frag x t; r_head : headOk t; r_args : Args t c }.
Record text1R (e : expr) (c : cexp) (x : list Z) (t : list ctok) : Prop := {
  r_text :> textR [c] x t; r_start : startsR e x; r_un : Un t c }.

Lemma mk1 e c x t : frag x t -> headOk t -> startsR e x -> Un t c -> text1R e c x t.
Proof. intros L H S U. split; [|exact S|exact U]. split; auto. apply Un_Args. exact U. Qed.
Lemma mk1p e c x t : frag x t -> headOk t -> startsR e x -> Post t c -> text1R e c x t.
Proof. intros L H S U. apply mk1; auto. apply Post_Un. exact U. Qed.
Lemma startsR_paren e x : startsR e (codes "(" ++ x).
Proof. exists 40, x. split; [reflexivity|]. split; [auto|]. reflexivity. Qed.
Lemma joinsR p e x y : startsR e x -> ends p 40 = true -> (negative e = true -> ends p 45 = true) -> (isStr e = true -> ends p 38 = true) -> joins p (x ++ y).
Proof.
  intros (c & r & -> & A & _) B C D. cbn [app joins]. destruct A as [A|[->|[[A ->]|[A ->]]]].
  - apply ends_id. exact A.
  - exact B.
  - exact (C A).
  - exact (D A).
Qed.
Lemma headOk_appR t u : headOk t -> headOk (t ++ u).
Proof. destruct t as [|[w|v|p|str] t]; [intros []| | | |]; exact (fun H => H). Qed.

Lemma nameR e i : opensR e = false -> ident i -> isKw i = false -> isType i = false -> text1R e (CId i) i [TId i].
Proof.
  intros O N K TN. apply mk1p.
  - intros r u S L. apply Lx_id; auto.
  - split; assumption.
  - destruct i as [|c i]; [destruct N|]. exists c, i. split; [reflexivity|]. destruct N as [N _]. split; [|congruence].
    left. unfold idChar. rewrite N. reflexivity.
  - intros rest res H. apply PU_id; auto.
Qed.
Lemma strR l : ident (strLab l) -> text1R (ELeaf (LStr l)) (CUn (codes "&") (CId (strLab l))) (codes "&" ++ strLab l) [P "&"; TId (strLab l)].
Proof.
  intros N. apply mk1.
  - intros r u S L. rewrite <- app_assoc. cbn [app]. apply Lx_p; [reflexivity| |apply Lx_id; auto].
    destruct (strLab l) as [|c w]; [destruct N|]. destruct N as [N _]. cbn [app joins]. apply ends_id. unfold idChar. rewrite N. reflexivity.
  - reflexivity.
  - exists 38, (strLab l). split; [reflexivity|]. split; [right; right; right; split; reflexivity|]. discriminate.
  - intros rest H. cbn [app]. apply PU_un; [reflexivity|reflexivity|]. apply PU_id; [reflexivity|]. apply PS_stop. exact H.
Qed.
Lemma addrR i : ident (nm i) -> isKw (nm i) = false ->
  text1R (ELeaf (LAddr i)) (CCast (codes "int") (CUn (codes "&") (CId (nm i)))) (codes "((int)&" ++ nm i ++ codes ")") [P "("; P "("; TId (codes "int"); P ")"; P "&"; TId (nm i); P ")"].
Proof.
  intros N K. pose proof (addr_text nm isType i N K) as T. apply mk1.
  - apply T.
  - apply T.
  - exists 40. eexists. split; [reflexivity|]. split; [auto|]. reflexivity.
  - exact (t_un _ _ _ _ _ T).
Qed.
Lemma numR v : small v -> exists t, text1R (Cnst v) (numC v) (dec v) t.
Proof.
  intros S. destruct (num_text nm isType v S) as (t & T). exists t. apply mk1; try apply T.
  - destruct (t_start _ _ _ _ _ T) as (c & r & A & B & C). exists c, r. split; [exact A|]. split; [|discriminate]. destruct B as [B|[B|B]]; auto.
Qed.

Lemma binR e p q rt l r cl cr xl tl xr tr : 
  whole p = true -> stop p -> strength p = Some (q, rt) -> ends p 40 = true -> (negative r = true -> ends p 45 = true) -> (isStr r = true -> ends p 38 = true) ->
  member p (map codes ["["; "("; "->"; "."; "++"; "--"]%string) = false ->
  text1R l cl xl tl -> text1R r cr xr tr ->
  text1R e (CBin p cl cr) (codes "(" ++ xl ++ p ++ xr ++ codes ")") (P "(" :: tl ++ TP p :: tr ++ [P ")"]).
Proof.
  intros W SP ST E4 E5 E6 M L R. assert (p <> []) as NE by (intros ->; discriminate W).
  apply mk1p; auto using startsR_paren.
  - intros s u S K. rewrite <- !app_assoc. rewrite <- app_comm_cons. apply open_p; [reflexivity|reflexivity|].
    rewrite <- app_assoc. apply (r_lex _ _ _ L).
    + destruct p as [|c p]; [contradiction|exact SP].
    + rewrite <- app_comm_cons. apply Lx_p; [exact W|apply (joinsR _ r); [apply (r_start _ _ _ _ R)|assumption|assumption|assumption]|].
      rewrite <- app_assoc. apply (r_lex _ _ _ R); [reflexivity|]. apply open_p; [reflexivity|reflexivity|exact K].
  - reflexivity.
  - intros rest res K. rewrite <- app_comm_cons. apply (PU_paren isType) with (CBin p cl cr) rest; [|
      |exact K].
    + rewrite <- app_assoc. apply headOk_appR. apply (r_head _ _ _ L).
    + rewrite <- app_assoc. apply PE_intro with cl (TP p :: (tr ++ [P ")"]) ++ rest).
      * apply (r_un _ _ _ _ L). exact M.
      * apply PL_op with q rt cr (P ")" :: rest); [exact ST|lia| |apply PL_stop; split; reflexivity].
        rewrite <- app_assoc. apply Un_PE; [apply (r_un _ _ _ _ R)|split; reflexivity].
Qed.

Lemma unR e p a ca xa ta : whole p = true -> ends p 40 = true -> (negative a = true -> ends p 45 = true) -> (isStr a = true -> ends p 38 = true) ->
  is p "(" = false -> member p prefixOps = true ->
  text1R a ca xa ta -> text1R e (CUn p ca) (codes "(" ++ p ++ xa ++ codes ")") (P "(" :: TP p :: ta ++ [P ")"]).
Proof.
  intros W E4 E5 E6 NP M L. apply mk1p; auto using startsR_paren.
  - intros s u S K. rewrite <- !app_assoc. rewrite <- !app_comm_cons. apply open_p; [reflexivity|reflexivity|].
    apply Lx_p; [exact W|apply (joinsR _ a); [apply (r_start _ _ _ _ L)|assumption|assumption|assumption]|].
    rewrite <- app_assoc. apply (r_lex _ _ _ L); [reflexivity|]. apply open_p; [reflexivity|reflexivity|exact K].
  - reflexivity.
  - intros rest res [f K].
    assert (G : PE 0 (TP p :: (ta ++ [P ")"]) ++ rest) (CUn p ca, P ")" :: rest)).
    { apply PE_intro with (CUn p ca) (P ")" :: rest); [|apply PL_stop; split; reflexivity].
      apply PU_un; [exact NP|exact M|]. rewrite <- app_assoc. apply (r_un _ _ _ _ L). reflexivity. }
    destruct G as [g G]. exists (S (Nat.max f g)). cbn [app pU]. change (is (codes "(") "(") with true. cbv iota.
    rewrite (upE _ _ _ _ _ (Nat.le_max_r f g) G). exact (upS _ _ _ _ _ (Nat.le_max_l f g) K).
Qed.

Lemma hexR e v s a ca xa ta : 
  (exists d w, codes s = d :: w /\ digit d = true /\ forallb numChar w = true /\ number (d :: w) = Some v) -> isStr a = false ->
  text1R a ca xa ta -> text1R e (CBin (codes "&") (CNum v) ca) (codes "(" ++ codes s ++ codes "&" ++ xa ++ codes ")") (P "(" :: [TNum v] ++ P "&" :: ta ++ [P ")"]).
Proof.
  intros (d & w & -> & D & W & V) NS L. apply mk1p; auto using startsR_paren.
  - intros s' u S K. rewrite <- !app_assoc. rewrite <- !app_comm_cons. apply open_p; [reflexivity|reflexivity|].
    rewrite <- app_assoc. cbn [app]. rewrite app_comm_cons. apply Lx_number; auto; [reflexivity|].
    apply Lx_p; [reflexivity|apply (joinsR _ a); [apply (r_start _ _ _ _ L)|reflexivity|reflexivity|congruence]|].
    rewrite <- app_assoc. apply (r_lex _ _ _ L); [reflexivity|]. apply open_p; [reflexivity|reflexivity|exact K].
  - reflexivity.
  - intros rest res K. cbn [app]. apply (PU_paren isType) with (CBin (codes "&") (CNum v) ca) rest; [exact I| |exact K].
    apply PE_intro with (CNum v) (P "&" :: (ta ++ [P ")"]) ++ rest).
    + apply PU_num. apply PS_stop. reflexivity.
    + apply PL_op with 8%nat false ca (P ")" :: rest); [reflexivity|lia| |apply PL_stop; split; reflexivity].
      rewrite <- app_assoc. apply Un_PE; [apply (r_un _ _ _ _ L)|split; reflexivity].
Qed.

Lemma callR e f c xa ta : opensR e = false -> ident f -> isKw f = false -> isType f = false ->
  textR c xa ta -> text1R e (CCall (CId f) c) (f ++ codes "(" ++ xa ++ codes ")") (TId f :: P "(" :: ta ++ [P ")"]).
Proof.
  intros O N K TN L. apply mk1p.
  - intros s u S Q. rewrite <- !app_assoc. rewrite <- !app_comm_cons. apply Lx_id; [exact N|reflexivity|].
    apply open_p; [reflexivity|reflexivity|]. rewrite <- app_assoc. apply (r_lex _ _ _ L); [reflexivity|].
    apply open_p; [reflexivity|reflexivity|exact Q].
  - split; assumption.
  - destruct f as [|c0 f]; [destruct N|]. eexists c0, _. split; [reflexivity|]. destruct N as [N _]. split; [|congruence].
    left. unfold idChar. rewrite N. reflexivity.
  - intros rest res Q. rewrite <- !app_comm_cons. apply PU_id; [exact K|].
    apply (PS_call isType) with c rest; [rewrite <- app_assoc; apply headOk_appR; apply (r_head _ _ _ L)| |exact Q].
    rewrite <- app_assoc. apply (proj1 (r_args _ _ _ L)).
Qed.
Lemma call0R e f : opensR e = false -> ident f -> isKw f = false -> isType f = false ->
  text1R e (CCall (CId f) []) (f ++ codes "(" ++ codes ")") [TId f; P "("; P ")"].
Proof.
  intros O N K TN. apply mk1p.
  - intros s u S Q. rewrite <- !app_assoc. rewrite <- !app_comm_cons. apply Lx_id; [exact N|reflexivity|].
    apply open_p; [reflexivity|reflexivity|]. apply open_p; [reflexivity|reflexivity|exact Q].
  - split; assumption.
  - destruct f as [|c f]; [destruct N|]. eexists c, _. split; [reflexivity|]. destruct N as [N _]. split; [|congruence].
    left. unfold idChar. rewrite N. reflexivity.
  - intros rest res Q. rewrite <- !app_comm_cons. apply PU_id; [exact K|]. apply PS_call0. exact Q.
Qed.
Lemma semiR cl cr xl tl xr tr : textR cl xl tl -> textR cr xr tr -> textR (cl ++ cr) (xl ++ codes "," ++ xr) (tl ++ P "," :: tr).
Proof.
  intros L R. split.
  - intros s u S K. rewrite <- !app_assoc. apply (r_lex _ _ _ L); [reflexivity|].
    rewrite <- app_comm_cons. apply open_p; [reflexivity|reflexivity|]. apply (r_lex _ _ _ R); auto.
  - apply headOk_appR. apply (r_head _ _ _ L).
  - apply Args_app; [apply (r_args _ _ _ L)|apply (r_args _ _ _ R)].
Qed.

(* "file" and the line *)
Lemma fileR : textR [CStr file] (34 :: file ++ [34]) [TStr file].
Proof.
  split.
  - intros r u S L. cbn [app]. rewrite <- app_assoc. apply Lx_str; [exact plain|exact L].
  - exact I.
  - apply Un_Args. intros rest H. cbn [app]. apply PU_str. apply PS_stop. exact H.
Qed.
Lemma lineR n : 0 <= n < 2 ^ 31 -> textR [CNum n] (dec n) [TNum n].
Proof.
  intros B. split.
  - intros r u S L. apply Lx_dec; auto; unfold small; lia.
  - exact I.
  - apply Un_Args. intros rest H. cbn [app]. apply PU_num. apply PS_stop. exact H.
Qed.
Definition whereArgs (n : Z) : list cexp := [CStr file; CNum n].
Lemma whereR n : 0 <= n < 2 ^ 31 -> textR (whereArgs n) ((34 :: file ++ [34]) ++ codes "," ++ dec n) ([TStr file] ++ P "," :: [TNum n]).
Proof. intros B. exact (semiR [CStr file] [CNum n] _ _ _ _ fileR (lineR n B)). Qed.

(* an element *)
Lemma idxR e w l cl xl tl r cr xr tr n : ident w -> isKw w = false -> isType w = false -> 0 <= n < 2 ^ 31 -> 
  text1R l cl xl tl -> text1R r cr xr tr ->
  exists t, text1R e (CUn (codes "*") (CCall (CId w) [cl; cr; CStr file; CNum n])) (codes "(" ++ codes "*" ++ (w ++ codes "(" ++ (xl ++ codes "," ++ xr ++ codes "," ++ ((34 :: file ++ [34]) ++ codes "," ++ dec n)) ++ codes ")") ++ codes ")") t.
Proof.
  intros N K TN B L R. eexists. apply (unR e (codes "*") (EFunc 0 ENull)); try reflexivity. apply callR; [reflexivity|exact N|exact K|exact TN|].
  apply (semiR [cl] [cr; CStr file; CNum n]); [apply L|]. apply (semiR [cr] [CStr file; CNum n]); [apply R|]. exact (whereR n B).
Qed.
(* a field *)
Lemma dotR e s f l cl xl tl n : ident s -> ident f -> isKw f = false -> 0 <= n < 2 ^ 31 -> text1R l cl xl tl -> opensR e = true ->
  exists t, text1R e (CArrow (CCast (s ++ codes "*") (CCall (CId (codes "_CP")) [cl; CStr file; CNum n])) f)
    (codes "(" ++ codes "(" ++ codes "(" ++ s ++ codes "*" ++ codes ")" ++ (codes "_CP" ++ codes "(" ++ (xl ++ codes "," ++ ((34 :: file ++ [34]) ++ codes "," ++ dec n)) ++ codes ")") ++ codes ")" ++ codes "->" ++ f ++ codes ")") t.
Proof.
  intros NS NF KF B L O.
  assert (C : text1R (EFunc 0 ENull) (CCall (CId (codes "_CP")) [cl; CStr file; CNum n]) (codes "_CP" ++ codes "(" ++ (xl ++ codes "," ++ ((34 :: file ++ [34]) ++ codes "," ++ dec n)) ++ codes ")")
     (TId (codes "_CP") :: P "(" :: (tl ++ P "," :: ([TStr file] ++ P "," :: [TNum n])) ++ [P ")"])).
  { apply callR; [reflexivity|split; reflexivity|reflexivity|apply checks; reflexivity|]. apply (semiR [cl] [CStr file; CNum n]); [apply L|exact (whereR n B)]. }
  set (xc := codes "_CP" ++ _) in *. set (tc := TId (codes "_CP") :: _) in *. set (cc := CCall _ _) in *.
  exists (P "(" :: P "(" :: P "(" :: TId s :: P "*" :: P ")" :: tc ++ [P ")"; P "->"; TId f; P ")"]).
  apply mk1p.
  - intros r u S Q. rewrite <- !app_assoc. rewrite <- !app_comm_cons.
    apply open_p; [reflexivity|reflexivity|]. apply open_p; [reflexivity|reflexivity|]. apply open_p; [reflexivity|reflexivity|].
    apply Lx_id; [exact NS|reflexivity|]. apply Lx_p; [reflexivity|reflexivity|]. apply open_p; [reflexivity|reflexivity|].
    rewrite <- app_assoc. apply (r_lex _ _ _ C); [reflexivity|]. cbn [app]. apply (open_p (codes ")")); [reflexivity|reflexivity|]. apply (open_p (codes "->")); [reflexivity|reflexivity|].
    apply Lx_id; [exact NF|reflexivity|]. apply (open_p (codes ")")); [reflexivity|reflexivity|exact Q].
  - reflexivity.
  - exact (startsR_paren e _).
  - intros rest res Q. rewrite <- !app_comm_cons.
    apply (PU_paren isType) with (CArrow (CCast (s ++ codes "*") cc) f) rest; [reflexivity| |exact Q].
    apply PE_intro with (CArrow (CCast (s ++ codes "*") cc) f) (P ")" :: rest); [|apply PL_stop; split; reflexivity].
    apply (PU_paren isType) with (CCast (s ++ codes "*") cc) (P "->" :: TId f :: P ")" :: rest); [reflexivity| |apply PS_arrow; [exact KF|apply PS_stop; reflexivity]].
    apply PE_intro with (CCast (s ++ codes "*") cc) (P ")" :: P "->" :: TId f :: P ")" :: rest); [|apply PL_stop; split; reflexivity].
    apply PU_castp. rewrite <- app_assoc. apply (r_un _ _ _ _ C). reflexivity.
Qed.

Lemma one_args p e : (match e with E2 SEMI _ _ | ENull => False | _ => True end) -> argsR p e = [ex p e].
Proof.
  unfold ex. destruct e as [|l|o e|o l r|f a]; intros H; try (destruct H; fail).
  - destruct l; reflexivity.
  - destruct o; reflexivity.
  - destruct o; try (destruct H; fail); reflexivity.
  - reflexivity.
Qed.
Lemma printR_text : forall e p args x, fairR p e -> printR nm own file ln p args e = Some x ->
  exists t, textR (argsR p e) x t /\ (match e with E2 SEMI _ _ => True | _ => text1R e (ex p e) x t end).
Proof.
  induction e as [|l|o e IH|o l IHl r IHr|f a IH]; intros p args x F H.
  - discriminate.
  - assert (exists t, text1R (ELeaf l) (ex p (ELeaf l)) x t) as [t T]; [|exists t; rewrite one_args by exact I; split; [apply T|exact T]].
    destruct l as [v|i|i|i|s|i]; cbn [printR] in H; injection H as <-; cbn [RtcTree.fairR] in F.
    + apply numR. exact F.
    + exists [TId (nm i)]. apply nameR; try reflexivity; apply F.
    + exists [TId (nm i)]. apply nameR; try reflexivity; apply F.
    + exists [TId (nm i)]. apply nameR; try reflexivity; apply F.
    + eexists. apply strR. apply strLab_ident; tauto.
    + eexists. apply addrR; apply F.
  - assert (exists t, text1R (E1 o e) (ex p (E1 o e)) x t) as [t T]; [|exists t; rewrite one_args by exact I; split; [apply T|exact T]].
    assert (exists xa ta, text1R e (ex (false :: p) e) xa ta /\ x = match o with CHR => codes "(0xff&" ++ xa ++ codes ")" | BOOL => codes "(0x01&" ++ xa ++ codes ")"
       | NEG => codes "(" ++ codes "-" ++ xa ++ codes ")" | NOT => codes "(" ++ codes "!" ++ xa ++ codes ")" | BNOT => codes "(" ++ codes "~" ++ xa ++ codes ")" end)
      as (xa & ta & L & ->).
    { assert (FE : fairR (false :: p) e) by (destruct o; try exact F; exact (proj1 F)).
      assert (exists xa, printR nm own file ln (false :: p) false e = Some xa /\ x = match o with CHR => codes "(0xff&" ++ xa ++ codes ")" | BOOL => codes "(0x01&" ++ xa ++ codes ")"
       | NEG => codes "(" ++ codes "-" ++ xa ++ codes ")" | NOT => codes "(" ++ codes "!" ++ xa ++ codes ")" | BNOT => codes "(" ++ codes "~" ++ xa ++ codes ")" end) as (xa & E & ->).
      { destruct o; cbn [printR opText1] in H; apply cat_l in H as (z & H & ->);
          try (apply cat_l in H as (z' & H & ->)); apply cat_some in H as (y & z'' & H & [= <-] & ->); exists y; split; auto. }
      destruct (IH _ false xa FE E) as (ta & T & T1). exists xa, ta. split; [|reflexivity].
      destruct e as [|l|o' e|o' l r|f a]; try exact T1. destruct o'; try exact T1. discriminate E. }
    destruct o.
    + eexists. eapply unR; try reflexivity; [|exact L]. destruct F as [_ F]. rewrite F. discriminate.
    + eexists. eapply unR; try reflexivity; exact L.
    + eexists. eapply unR; try reflexivity; exact L.
    + eexists. apply (hexR _ 255 "0xff" e _ xa ta); [|apply F|exact L]. eexists _, _. repeat split.
    + eexists. apply (hexR _ 1 "0x01" e _ xa ta); [|apply F|exact L]. eexists _, _. repeat split.
  - assert (SUBL : forall x, fairR (false :: p) l -> printR nm own file ln (false :: p) false l = Some x -> exists t, text1R l (ex (false :: p) l) x t).
    { intros y FL E. destruct (IHl _ false y FL E) as (t & T & T1). exists t.
      destruct l as [|l'|o' e|o' l' r'|f a]; try exact T1. destruct o'; try exact T1. discriminate E. }
    assert (SUBR : forall x, fairR (true :: p) r -> printR nm own file ln (true :: p) false r = Some x -> exists t, text1R r (ex (true :: p) r) x t).
    { intros y FR E. destruct (IHr _ false y FR E) as (t & T & T1). exists t.
      destruct r as [|l'|o' e|o' l' r'|f a]; try exact T1. destruct o'; try exact T1. discriminate E. }
    assert (BIN : forall q n rt, opText2 o = Some q -> fairR (false :: p) l -> fairR (true :: p) r ->
       cat (Some (codes "(")) (cat (printR nm own file ln (false :: p) false l) (cat (opText2 o) (cat (printR nm own file ln (true :: p) false r) (Some (codes ")"))))) = Some x ->
       argsR p (E2 o l r) = [CBin q (ex (false :: p) l) (ex (true :: p) r)] -> whole q = true -> stop q -> strength q = Some (n, rt) -> ends q 40 = true ->
       (negative r = true -> ends q 45 = true) -> (isStr r = true -> ends q 38 = true) -> member q (map codes ["["; "("; "->"; "."; "++"; "--"]%string) = false ->
       exists t, textR (argsR p (E2 o l r)) x t /\ text1R (E2 o l r) (ex p (E2 o l r)) x t).
    { intros q n rt OP FL FR C A W SP ST E4 E5 E6 M. rewrite OP in C. apply cat_l in C as (z & C & ->).
      apply cat_some in C as (xl & z1 & PL & C & ->). apply cat_l in C as (z2 & C & ->).
      apply cat_some in C as (xr & z3 & PR & [= <-] & ->).
      destruct (SUBL xl FL PL) as [tl TL]. destruct (SUBR xr FR PR) as [tr TR].
      eexists. assert (T := binR (E2 o l r) q n rt l r _ _ xl tl xr tr W SP ST E4 E5 E6 M TL TR). unfold ex at 1. rewrite A. split; [apply T|exact T]. }
    assert (IDX : forall w, checkName o = Some (w ++ codes "(") -> member w (map codes ["_RCA"; "_ICA"; "_CCA"; "_CP"]%string) = true -> ident w -> isKw w = false ->
       fairR (false :: p) l -> fairR (true :: p) r -> 0 <= ln p < 2 ^ 31 ->
       cat (Some (codes "(*" ++ w ++ codes "(")) (cat (printR nm own file ln (false :: p) false l) (cat (Some (codes ",")) (cat (printR nm own file ln (true :: p) false r) (Some (whereText file (ln p)))))) = Some x ->
       argsR p (E2 o l r) = [CUn (codes "*") (CCall (CId w) [ex (false :: p) l; ex (true :: p) r; CStr file; CNum (ln p)])] ->
       exists t, textR (argsR p (E2 o l r)) x t /\ text1R (E2 o l r) (ex p (E2 o l r)) x t).
    { intros w CN MW IW KW FL FR B C A. apply cat_l in C as (z & C & ->). apply cat_some in C as (xl & z1 & PL & C & ->). apply cat_l in C as (z2 & C & ->).
      apply cat_some in C as (xr & z3 & PR & [= <-] & ->).
      destruct (SUBL xl FL PL) as [tl TL]. destruct (SUBR xr FR PR) as [tr TR].
      destruct (idxR (E2 o l r) w l _ xl tl r _ xr tr (ln p) IW KW (checks w MW) B TL TR) as (t & T).
      exists t. unfold ex at 1. rewrite A.
      replace ((codes "(*" ++ w ++ codes "(") ++ xl ++ codes "," ++ xr ++ whereText file (ln p))
        with (codes "(" ++ codes "*" ++ (w ++ codes "(" ++ (xl ++ codes "," ++ xr ++ codes "," ++ ((34 :: file ++ [34]) ++ codes "," ++ dec (ln p))) ++ codes ")") ++ codes ")")
        by (unfold whereText; change (codes "(*") with (codes "(" ++ codes "*"); change (codes "))") with (codes ")" ++ codes ")"); rewrite <- !app_assoc; cbn [app]; rewrite <- !app_assoc; reflexivity).
      split; [apply T|exact T]. }
    destruct o; cbn [printR checkName] in H; cbn [RtcTree.fairR] in F;
      try (eapply BIN; [reflexivity|apply F|apply F|exact H|reflexivity|reflexivity|reflexivity|reflexivity|reflexivity|intros _; reflexivity|intros _; reflexivity|reflexivity]);
      try (apply (IDX (codes "_RCA")); [reflexivity|reflexivity|split; reflexivity|reflexivity|apply F|apply F|apply F|exact H|reflexivity]);
      try (apply (IDX (codes "_ICA")); [reflexivity|reflexivity|split; reflexivity|reflexivity|apply F|apply F|apply F|exact H|reflexivity]);
      try (apply (IDX (codes "_CCA")); [reflexivity|reflexivity|split; reflexivity|reflexivity|apply F|apply F|apply F|exact H|reflexivity]).
    + (* SUB *) eapply BIN; [reflexivity|apply F|apply F|exact H|reflexivity|reflexivity|reflexivity|reflexivity|reflexivity| |intros _; reflexivity|reflexivity].
      destruct F as (_ & _ & F). rewrite F. discriminate.
    + (* BAND *) eapply BIN; [reflexivity|apply F|apply F|exact H|reflexivity|reflexivity|reflexivity|reflexivity|reflexivity|intros _; reflexivity| |reflexivity].
      destruct F as (_ & _ & F). rewrite F. discriminate.
    + (* DOT *) destruct r as [|[v|i|i|i|s|i]|o' e|o' l' r'|f a]; try discriminate H.
      apply cat_l in H as (z & H & ->). apply cat_some in H as (xl & z1 & PL & [= <-] & ->). destruct F as (FL & B & FO & FN).
      destruct (SUBL xl FL PL) as [tl TL].
      destruct (dotR (E2 DOT l (Cnst v)) (own v) (nm v) l _ xl tl (ln p) FO (proj1 FN) (proj1 (proj2 FN)) B TL eq_refl) as (t & T).
      exists t. rewrite one_args by exact I.
      match goal with |- textR _ ?y _ /\ _ => match type of T with text1R _ _ ?z _ => replace y with z end end.
      2:{ unfold whereText. change (codes "(((") with (codes "(" ++ codes "(" ++ codes "("). change (codes "*)_CP(") with (codes "*" ++ codes ")" ++ codes "_CP" ++ codes "(").
          change (codes "))") with (codes ")" ++ codes ")"). rewrite <- !app_assoc. cbn [app]. rewrite <- !app_assoc. reflexivity. }
      split; [apply T|exact T].
    + (* SEMI *) destruct args; [|discriminate H]. apply cat_some in H as (xl & z1 & PL & H & ->). apply cat_l in H as (xr & PR & ->).
      destruct (IHl _ true xl (proj1 F) PL) as (tl & TL & _). destruct (IHr _ true xr (proj2 F) PR) as (tr & TR & _).
      exists (tl ++ P "," :: tr). split; [|exact I]. apply semiR; assumption.
  - assert (exists t, text1R (EFunc f a) (ex p (EFunc f a)) x t) as [t T]; [|exists t; rewrite one_args by exact I; split; [apply T|exact T]].
    cbn [printR] in H. destruct F as [FN FA]. apply cat_l in H as (z & H & ->). rewrite <- app_assoc.
    destruct a as [|l|o' e|o' l' r'|f' a'].
    { apply cat_l in H as (z' & [= <-] & ->). eexists. apply call0R; try reflexivity; apply FN. }
    all: apply cat_some in H as (xa & z' & PA & [= <-] & ->); destruct (IH _ true xa FA PA) as (ta & TA & _);
      eexists; eapply callR; try reflexivity; [apply FN|apply FN|apply FN|exact TA].
Qed.

Theorem expR_reads e x : fairR [] e -> printExpR nm own file ln e = Some x -> readsE x (expR nm strLab own file ln e).
Proof.
  intros F H. destruct (printR_text e [] false x F H) as (t & T & T1).
  assert (U : text1R e (ex [] e) x t) by (destruct e as [|l|o' e|o' l r|f a]; try exact T1; destruct o'; try exact T1; discriminate H).
  destruct (r_lex _ _ _ U [] [] I Lx_nil) as [f L]. rewrite !app_nil_r in L.
  destruct (Un_PE t _ 0 [] (r_un _ _ _ _ U) I) as [g K]. rewrite app_nil_r in K.
  exists (Nat.max f g), t. split; [exact (clex_mono f _ _ _ (Nat.le_max_l f g) L)|exact (upE _ _ _ _ _ (Nat.le_max_r f g) K)].
Qed.
End Names.
