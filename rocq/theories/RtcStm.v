(* The text of a statement with run-time checks is read as that statement. The proofs
   follow CStmProofs.v *)
From Coq Require Import ZArith Bool Lia List String Ascii.
From Verif Require Import Lexer SyTree NameTable CSpec CCode CTree CLexProofs CReadProofs CExpProofs CStmProofs RtcCode RtcTree RtcText.
Import ListNotations.
Open Scope Z_scope.

Section Names.
Variable nm own : Z -> list Z.
Variable file : list Z.
Variable vty : Z -> Z * nat.
Variable ln : path -> Z.
Variable isType : list Z -> bool.
Hypothesis types : forall w, isType w = true -> isKw w = false.
Hypothesis plain : forallb plainChar file = true.
Hypothesis checks : forall w, member w (map codes ["_RCA"; "_ICA"; "_CCA"; "_CP"]%string) = true -> isType w = false.
Hypothesis arrays : forall w, member w (map codes ["_IA"; "_CA"; "_RA"]%string) = true -> isType w = true.
Notation manyR := (manyR nm strLab own file ln vty).
Definition oneR (p : path) (s : stmt) : cstm := hd KEmpty (manyR p s).
Notation fairR := (fairR nm strLab own ln isType).
Notation fairSR := (fairSR nm strLab own ln isType vty).
Notation headOk := (headOk isType).
Notation headS := (headS isType).
Notation St := (St isType).
Notation Many := (Many isType).
Notation I s := (TId (codes s)).
Notation kw_S := (kw_S isType types).

Record stextR (p : path) (s : stmt) (x : list Z) (t : list ctok) : Prop := {
  q_lex : sfrag x t; q_many : Many t (manyR p s);
  q_one : single s = true -> St t (oneR p s);
  q_apart : apartR s = true -> exists c r, x = c :: r /\ numChar c = false }.
Lemma stextR_of p s x t k : manyR p s = [k] -> sfrag x t -> headS t -> St t k -> (apartR s = true -> exists c r, x = c :: r /\ numChar c = false) -> stextR p s x t.
Proof.
  intros E A H B C. split; auto.
  - rewrite E. apply St_Many; assumption.
  - intros _. unfold oneR. rewrite E. exact B.
Qed.

Lemma exp_textR p e x : fairR p e -> printR nm own file ln p false e = Some x -> exists t, text1R isType e (ex nm own file ln p e) x t.
Proof.
  intros F H. destruct (printR_text nm own file ln isType plain checks e p false x F H) as (t & T & T1). exists t.
  destruct e as [|l|o' e|o' l r|f a]; try exact T1. destruct o'; try exact T1. discriminate H.
Qed.
(* an optional expression before c *)
Lemma opt_textR p e x c : fairR p e -> optR nm own file ln p e = Some x -> codes c <> codes "(" -> codes c <> codes "-" -> codes c <> codes "&" -> noMore [TP (codes c)] ->
  exists t, frag x t /\ forall r, PT c (t ++ TP (codes c) :: r) (oexpR nm strLab own file ln p e, r).
Proof.
  intros F H N1 N2 N3 NM. destruct e as [|l|o e|o l r|f a].
  { injection H as <-. exists []. split; [intros r u _ K; exact K|]. intros r. apply PT_none. }
  all: destruct (exp_textR p _ x F H) as [t T]; exists t; (split; [apply (r_lex _ _ _ _ T)|]); intros rest;
    (apply (PT_some isType); [apply headOk_appR; apply (r_head _ _ _ _ T)|exact N1|exact N2|exact N3|]);
    (apply Un_PE; [apply (r_un _ _ _ _ _ T)|exact NM]).
Qed.


Lemma expr_stmtR p e x : fairR p e -> cat (printR nm own file ln p false e) (Some semi) = Some x ->
  exists t, sfrag x t /\ headS t /\ St t (KExp (ex nm own file ln p e)) /\ (opensR e = true -> exists c r, x = c :: r /\ numChar c = false).
Proof.
  intros F H. apply cat_r in H as (y & H & ->). destruct (exp_textR p e y F H) as [t T]. exists (t ++ [P ";"]).
  split; [|split; [|split]].
  - apply sfrag_frag; [apply (r_lex _ _ _ _ T)|eexists _, _; split; reflexivity|apply sfrag_semi].
  - apply headOk_S. apply headOk_app. apply (r_head _ _ _ _ T).
  - intros rest. rewrite <- app_assoc. apply (PM_exp isType); [apply headOk_appR; apply (r_head _ _ _ _ T)|].
    apply Un_PE; [apply (r_un _ _ _ _ _ T)|split; reflexivity].
  - intros O. destruct (r_start _ _ _ _ _ T) as (c & r & -> & _ & Q). rewrite (Q O). eexists _, _. split; reflexivity.
Qed.

Lemma single_manyR p s : single s = true -> manyR p s = [oneR p s].
Proof. destruct s as [|e|i|c b|c b1 b2|c b re|b c| | |e|l r|l r]; try discriminate; intros _; try reflexivity. destruct e as [|[]| | |]; reflexivity. Qed.



Lemma typeR_word t d x : printTypeR nm t d = Some x -> x = wordR nm t d ++ codes " " ++ repeat 42 (starsR t d).
Proof.
  unfold printTypeR. destruct d as [|[|d]]; cbn [Nat.eqb Nat.ltb Nat.leb andb orb].
  - intros H. apply cat_r in H as (y & H & ->). apply typeName_word in H. subst y. cbn [wordR starsR]. rewrite <- app_assoc. destruct (t <=? 0); reflexivity.
  - unfold wordR. destruct (0 <? t) eqn:E; [|].
    + destruct (t =? TyINT); [intros [= <-]; reflexivity|]. destruct (t =? TyVOID); intros [= <-]; reflexivity.
    + destruct (Z.eqb_spec t TyINT) as [->|]; [discriminate|]. destruct (Z.eqb_spec t TyVOID) as [->|]; [discriminate|]. intros [= <-]. reflexivity.
  - intros [= <-]. reflexivity.
Qed.
Lemma wordR_ok t d x : printTypeR nm t d = Some x -> typeOk nm isType t -> ident (wordR nm t d) /\ typeWord isType (wordR nm t d) = true.
Proof.
  assert (A : forall w, member w (map codes ["_IA"; "_CA"; "_RA"]%string) = true -> typeWord isType w = true).
  { intros w M. unfold typeWord. rewrite (arrays w M). apply orb_true_r. }
  unfold printTypeR. destruct d as [|[|d]]; intros H K.
  - apply cat_r in H as (y & H & _). exact (wordC_ok nm isType t y H K).
  - unfold wordR. destruct (t =? TyINT); [split; [split; reflexivity|apply A; reflexivity]|]. destruct (t =? TyVOID); [split; [split; reflexivity|reflexivity]|].
    destruct (0 <? t); (split; [split; reflexivity|apply A; reflexivity]).
  - unfold wordR. split; [split; reflexivity|apply A; reflexivity].
Qed.
Lemma var_textR p i x : nameOk isType (nm i) -> typeOk nm isType (fst (vty i)) ->
  traceR nm own file vty ln p (SVar i) = Some x -> exists t, stextR p (SVar i) x t.
Proof.
  intros (A & B & C) T H. cbn [traceR] in H. apply cat_r in H as (y & H & ->). destruct (wordR_ok _ _ _ H T) as [WI WT]. apply typeR_word in H. subst y.
  set (w := wordR nm (fst (vty i)) (snd (vty i))) in *. set (n := starsR (fst (vty i)) (snd (vty i))).
  exists (TId w :: repeat (P "*") n ++ [TId (nm i); P ";"]). split.
  - rewrite <- !app_assoc. apply sfrag_word; [exact WI|eexists _, _; split; reflexivity|].
    apply (sfrag_blank (repeat 42 n ++ nm i ++ semi)). apply sfrag_stars; [exact A|].
    apply sfrag_word; [exact A|eexists _, _; split; reflexivity|apply sfrag_semi].
  - change (manyR p (SVar i)) with [KVar w n (nm i)]. intros rest l2 r2 [f K]. exists (S f).
    rewrite <- app_comm_cons. cbn [CSpec.pStms]. rewrite WT, <- app_assoc. cbn [app]. rewrite stars, B, C. cbn [orb].
    change (punct ";" (P ";" :: rest)) with (Some rest). cbv iota. rewrite K. reflexivity.
  - discriminate.
  - discriminate.
Qed.

Lemma stm_textR : forall s p x, fairSR p s -> traceR nm own file vty ln p s = Some x -> exists t, stextR p s x t.
Proof.
  induction s as [|e|i|c b IHb|c b1 IH1 b2 IH2|c b IHb re|b IHb c| | |e|l IHl r IHr|l IHl r IHr]; intros p x F H.
  - (* SNull *) injection H as <-. exists [P ";"]. apply stextR_of with KEmpty; try reflexivity; [apply sfrag_semi| |intros _; eexists _, _; split; reflexivity].
    intros rest. exists 1%nat. reflexivity.
  - (* SExpr *)
    assert (G : (exists v, e = Cnst v) \/ cat (printR nm own file ln p false e) (Some semi) = Some x /\ manyR p (SExpr e) = [KExp (ex nm own file ln p e)] /\ apartR (SExpr e) = opensR e).
    { destruct e as [|[v| | | | |]| | |]; eauto; right; (split; [exact H|split; reflexivity]). }
    destruct G as [[v ->]|(G & M & AP)].
    + injection H as <-. exists [P ";"]. apply stextR_of with KEmpty; try reflexivity; [apply sfrag_semi| |intros _; eexists _, _; split; reflexivity].
      intros rest. exists 1%nat. reflexivity.
    + destruct (expr_stmtR p e x F G) as (t & A & B & C & D). exists t. apply stextR_of with (KExp (ex nm own file ln p e)); auto. rewrite AP. exact D.
  - (* SVar *) destruct F as [F1 F2]. exact (var_textR p i x F1 F2 H).
  - (* SIf *)
    cbn [traceR] in H. apply cat_l in H as (z & H & ->). apply cat_some in H as (xc & z1 & HC & H & ->).
    apply cat_l in H as (z2 & H & ->). apply cat_r in H as (xb & HB & ->). destruct F as (FC & FB & SB).
    destruct (exp_textR _ c xc FC HC) as [tc TC]. destruct (IHb _ xb FB HB) as [tb TB].
    exists (P "{" :: I "if" :: P "(" :: tc ++ P ")" :: tb ++ [P "}"]). apply stextR_of with (KBlk [KIf (ex nm own file ln (false :: p) c) (oneR (true :: p) b)]).
    + reflexivity.
    + change (codes "{if(") with (codes "{" ++ codes "if" ++ codes "("). rewrite <- !app_assoc.
      apply (sfrag_app _ [P "{"]); [apply sfrag_p; reflexivity|]. apply word_ident; [split; reflexivity|eexists _, _; split; reflexivity|].
      apply (sfrag_app _ [P "("]); [apply sfrag_p; reflexivity|].
      apply sfrag_frag; [apply (r_lex _ _ _ _ TC)|eexists _, _; split; reflexivity|].
      apply (sfrag_app _ [P ")"]); [apply sfrag_p; reflexivity|]. apply sfrag_app; [apply (q_lex _ _ _ _ TB)|apply sfrag_p; reflexivity].
    + reflexivity.
    + intros rest. cbn [app]. apply PM_blk. apply PMs_cons with (P "}" :: rest); [apply kw_S; reflexivity| |apply PMs_end].
      rewrite <- app_assoc. cbn [app]. rewrite <- app_assoc. apply PM_if with (tb ++ [P "}"] ++ rest); [apply Un_PE; [apply (r_un _ _ _ _ _ TC)|split; reflexivity]| |reflexivity].
      apply (q_one _ _ _ _ TB SB).
    + intros _. eexists _, _. split; reflexivity.
  - (* SEls *)
    cbn [traceR] in H. apply cat_l in H as (z & H & ->). apply cat_some in H as (xc & z1 & HC & H & ->).
    apply cat_l in H as (z2 & H & ->). apply cat_some in H as (xb1 & z3 & HB1 & H & ->). apply cat_l in H as (xb2 & HB2 & ->).
    destruct F as (FC & FB1 & FB2 & S1 & S2).
    destruct (exp_textR _ c xc FC HC) as [tc TC]. destruct (IH1 _ xb1 FB1 HB1) as [t1 T1]. destruct (IH2 _ xb2 FB2 HB2) as [t2 T2].
    exists (I "if" :: P "(" :: tc ++ P ")" :: t1 ++ I "else" :: t2). apply stextR_of with (KElse (ex nm own file ln (false :: false :: p) c) (oneR (true :: false :: p) b1) (oneR (true :: p) b2)).
    + reflexivity.
    + change (codes "if(") with (codes "if" ++ codes "("). change (codes "else ") with (codes "else" ++ [32]). rewrite <- !app_assoc.
      apply word_ident; [split; reflexivity|eexists _, _; split; reflexivity|]. apply (sfrag_app _ [P "("]); [apply sfrag_p; reflexivity|].
      apply sfrag_frag; [apply (r_lex _ _ _ _ TC)|eexists _, _; split; reflexivity|].
      apply (sfrag_app _ [P ")"]); [apply sfrag_p; reflexivity|]. apply sfrag_app; [apply (q_lex _ _ _ _ T1)|].
      apply word_ident; [split; reflexivity|eexists _, _; split; reflexivity|]. apply sfrag_blank. apply (q_lex _ _ _ _ T2).
    + apply kw_S; reflexivity.
    + intros rest. cbn [app]. rewrite <- app_assoc. cbn [app]. rewrite <- app_assoc. cbn [app].
      apply PM_else with (t1 ++ I "else" :: t2 ++ rest) (t2 ++ rest);
        [apply Un_PE; [apply (r_un _ _ _ _ _ TC)|split; reflexivity]|apply (q_one _ _ _ _ T1 S1)|apply (q_one _ _ _ _ T2 S2)].
    + discriminate.
  - (* SWhl *)
    cbn [traceR] in H. apply cat_l in H as (z & H & ->). apply cat_some in H as (xc & z1 & HC & H & ->).
    apply cat_l in H as (z2 & H & ->). apply cat_some in H as (xr & z3 & HR & H & ->). apply cat_l in H as (xb & HB & ->).
    destruct F as (FC & FR & FB & SB).
    destruct (opt_textR _ c xc ";" FC HC) as (tc & LC & TC); [discriminate|discriminate|discriminate|split; reflexivity|].
    destruct (opt_textR _ re xr ")" FR HR) as (tr & LR & TR); [discriminate|discriminate|discriminate|split; reflexivity|].
    destruct (IHb _ xb FB HB) as [tb TB].
    exists (I "for" :: P "(" :: P ";" :: tc ++ P ";" :: tr ++ P ")" :: tb). apply stextR_of with (KFor (oexpR nm strLab own file ln (false :: p) c) (oexpR nm strLab own file ln (true :: true :: p) re) (oneR (false :: true :: p) b)).
    + reflexivity.
    + change (codes "for(;") with (codes "for" ++ codes "(" ++ codes ";"). rewrite <- !app_assoc.
      apply word_ident; [split; reflexivity|eexists _, _; split; reflexivity|]. apply (sfrag_app _ [P "("]); [apply sfrag_p; reflexivity|].
      apply (sfrag_app _ [P ";"]); [apply sfrag_p; reflexivity|].
      apply sfrag_frag; [exact LC|eexists _, _; split; reflexivity|]. apply (sfrag_app _ [P ";"]); [apply sfrag_p; reflexivity|].
      apply sfrag_frag; [exact LR|eexists _, _; split; reflexivity|]. apply (sfrag_app _ [P ")"]); [apply sfrag_p; reflexivity|].
      apply (sfrag_app nl []); [apply sfrag_nl|apply (q_lex _ _ _ _ TB)].
    + apply kw_S; reflexivity.
    + intros rest. cbn [app]. rewrite <- app_assoc. cbn [app]. rewrite <- app_assoc. cbn [app].
      apply PM_for with (tr ++ P ")" :: tb ++ rest) (tb ++ rest); [apply TC|apply TR|apply (q_one _ _ _ _ TB SB)].
    + discriminate.
  - (* SDo *)
    cbn [traceR] in H. apply cat_l in H as (z & H & ->). apply cat_some in H as (xb & z1 & HB & H & ->).
    apply cat_l in H as (z2 & H & ->). apply cat_r in H as (xc & HC & ->). destruct F as (FB & FC & SB & AP).
    destruct (exp_textR _ c xc FC HC) as [tc TC]. destruct (IHb _ xb FB HB) as [tb TB].
    exists (I "do" :: tb ++ I "while" :: P "(" :: tc ++ [P ")"; P ";"]). apply stextR_of with (KDo (oneR (false :: p) b) (ex nm own file ln (true :: p) c)).
    + reflexivity.
    + change (codes "while(") with (codes "while" ++ codes "("). change (codes ");" ++ nl) with (codes ")" ++ semi). rewrite <- !app_assoc.
      apply word_ident; [split; reflexivity| |].
      * destruct (q_apart _ _ _ _ TB AP) as (k & r & -> & N). eexists k, _. split; [reflexivity|exact N].
      * apply sfrag_app; [apply (q_lex _ _ _ _ TB)|]. apply word_ident; [split; reflexivity|eexists _, _; split; reflexivity|].
        apply (sfrag_app _ [P "("]); [apply sfrag_p; reflexivity|].
        apply sfrag_frag; [apply (r_lex _ _ _ _ TC)|eexists _, _; split; reflexivity|].
        apply (sfrag_app _ [P ")"]); [apply sfrag_p; reflexivity|apply sfrag_semi].
    + apply kw_S; reflexivity.
    + intros rest. cbn [app]. rewrite <- app_assoc. cbn [app]. rewrite <- app_assoc. cbn [app].
      apply PM_do with (tc ++ P ")" :: P ";" :: rest); [apply (q_one _ _ _ _ TB SB)|]. apply Un_PE; [apply (r_un _ _ _ _ _ TC)|split; reflexivity].
    + discriminate.
  - (* SBrk *) injection H as <-. exists [I "break"; P ";"]. apply stextR_of with KBreak; try reflexivity.
    + apply (word_ident "break"); [split; reflexivity|eexists _, _; split; reflexivity|apply sfrag_semi].
    + apply kw_S; reflexivity.
    + intros rest. exists 1%nat. reflexivity.
    + discriminate.
  - (* SCnt *) injection H as <-. exists [I "continue"; P ";"]. apply stextR_of with KContinue; try reflexivity.
    + apply (word_ident "continue"); [split; reflexivity|eexists _, _; split; reflexivity|apply sfrag_semi].
    + apply kw_S; reflexivity.
    + intros rest. exists 1%nat. reflexivity.
    + discriminate.
  - (* SRet *)
    cbn [traceR] in H. apply cat_l in H as (z & H & ->). apply cat_r in H as (xe & HE & ->).
    destruct (opt_textR _ e xe ";" F HE) as (te & LE & TE); [discriminate|discriminate|discriminate|split; reflexivity|].
    exists (I "return" :: te ++ [P ";"]). apply stextR_of with (KRet (oexpR nm strLab own file ln (false :: p) e)).
    + reflexivity.
    + change (codes "return ") with (codes "return" ++ [32]). rewrite <- !app_assoc.
      apply word_ident; [split; reflexivity|eexists _, _; split; reflexivity|]. apply sfrag_blank.
      apply sfrag_frag; [exact LE|eexists _, _; split; reflexivity|apply sfrag_semi].
    + apply kw_S; reflexivity.
    + intros rest. cbn [app]. rewrite <- app_assoc. apply PM_ret. apply TE.
    + discriminate.
  - (* SSemi *)
    cbn [traceR] in H. apply cat_some in H as (xl & xr & HL & HR & ->). destruct F as [FL FR].
    destruct (IHl _ xl FL HL) as [tl TL]. destruct (IHr _ xr FR HR) as [tr TR]. exists (tl ++ tr). split; try discriminate.
    + apply sfrag_app; [apply (q_lex _ _ _ _ TL)|apply (q_lex _ _ _ _ TR)].
    + apply Many_app; [apply (q_many _ _ _ _ TL)|apply (q_many _ _ _ _ TR)].
  - (* SBlk *)
    cbn [traceR] in H. apply cat_l in H as (z & H & ->). apply cat_some in H as (xl & z1 & HL & H & ->). apply cat_r in H as (xr & HR & ->).
    destruct F as [FL FR]. destruct (IHl _ xl FL HL) as [tl TL]. destruct (IHr _ xr FR HR) as [tr TR].
    exists (P "{" :: tl ++ tr ++ [P "}"]). apply stextR_of with (KBlk (manyR (false :: p) l ++ manyR (true :: p) r)).
    + reflexivity.
    + rewrite <- !app_assoc. apply (sfrag_app _ [P "{"]); [apply sfrag_p; reflexivity|]. apply (sfrag_app nl []); [apply sfrag_nl|].
      apply sfrag_app; [apply (q_lex _ _ _ _ TL)|]. apply sfrag_app; [apply (q_lex _ _ _ _ TR)|].
      apply (sfrag_app _ [P "}"] nl []); [apply sfrag_p; reflexivity|apply sfrag_nl].
    + reflexivity.
    + intros rest. cbn [app]. apply PM_blk. rewrite <- !app_assoc. apply (q_many _ _ _ _ TL).
      rewrite <- (app_nil_r (manyR (true :: p) r)). apply (q_many _ _ _ _ TR). apply PMs_end.
    + intros _. eexists _, _. split; reflexivity.
Qed.


Theorem bodyR_reads root x : fairSR [] root -> printBodyR nm own file vty ln root = Some x -> readsS isType x (bodyR nm strLab own file ln vty root).
Proof.
  intros F H. unfold printBodyR in H.
  set (s := match root with SBlk l r => SSemi l r | s => s end) in *.
  assert (FS : fairSR [] s) by (destruct root; exact F).
  assert (M : manyR [] s = match root with SBlk l r => manyR [false] l ++ manyR [true] r | s => manyR [] s end) by (destruct root; reflexivity).
  apply cat_l in H as (z & H & ->). apply cat_r in H as (y & H & ->).
  destruct (stm_textR s [] y FS H) as [t T].
  assert (L : sfrag ((codes "{" ++ nl) ++ y ++ codes "}" ++ nl) (P "{" :: t ++ [P "}"])).
  { rewrite <- !app_assoc. apply (sfrag_app _ [P "{"]); [apply sfrag_p; reflexivity|]. apply (sfrag_app nl []); [apply sfrag_nl|].
    apply sfrag_app; [apply (q_lex _ _ _ _ T)|]. apply (sfrag_app _ [P "}"] nl []); [apply sfrag_p; reflexivity|apply sfrag_nl]. }
  destruct (L [] [] Lx_nil) as [f A]. rewrite app_nil_r in A.
  assert (B : PM isType (P "{" :: t ++ [P "}"]) (bodyR nm strLab own file ln vty root, [])).
  { apply PM_blk. rewrite <- M, <- (app_nil_r (manyR [] s)). apply (q_many _ _ _ _ T). apply PMs_end. }
  destruct B as [g B]. rewrite app_nil_r in A. exists (Nat.max f g), (P "{" :: t ++ [P "}"]).
  split; [exact (clex_mono f _ _ _ (Nat.le_max_l f g) A)|exact (upM _ _ _ _ _ (Nat.le_max_r f g) B)].
Qed.
End Names.
