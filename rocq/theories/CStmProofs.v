(* The text of a statement is read as the statement *)
From Coq Require Import ZArith Bool Lia List String Ascii.
From Verif Require Import Lexer SyTree NameTable CSpec CCode CTree CLexProofs CReadProofs CExpProofs.
Import ListNotations.
Open Scope Z_scope.

Section Names.
Variable nm : Z -> list Z.
Variable vty : Z -> Z * nat.
Variable isType : list Z -> bool.
Hypothesis types : forall w, isType w = true -> isKw w = false.
Notation pStm := (pStm isType).
Notation pStms := (pStms isType).
Notation expC := (expC nm strLab).
Notation optC := (optC nm strLab).
Notation manyC := (manyC nm strLab vty).
Notation oneC := (oneC nm strLab vty).
Notation fairE := (fairE nm strLab isType).
Notation fairS := (fairS nm strLab vty isType).
Notation headOk := (headOk isType).

Lemma upTo_mono f f' c t r : (f <= f')%nat -> upTo f c t = Some r -> upTo f' c t = Some r.
Proof.
  intros L. unfold upTo.
  assert (G : match pE f 0 t with Some (e, TP q :: r0) => if is q c then Some (Some e, r0) else None | _ => None end = Some r ->
    match pE f' 0 t with Some (e, TP q :: r0) => if is q c then Some (Some e, r0) else None | _ => None end = Some r).
  { destruct (pE f 0 t) as [[e r']|] eqn:E; [|discriminate]. rewrite (upE _ _ _ _ _ L E). auto. }
  destruct t as [|[w|v|p|str] t]; auto. destruct (is p c); auto.
Qed.

Definition mono2 (f : nat) : Prop := forall f', (f <= f')%nat ->
  (forall t r, pStm f t = Some r -> pStm f' t = Some r) /\ (forall t r, pStms f t = Some r -> pStms f' t = Some r).
Lemma monoS : forall f, mono2 f.
Proof.
  induction f as [|f IH]; intros f' L; [split; intros; discriminate|].
  destruct f' as [|f']; [lia|]. assert (L' : (f <= f')%nat) by lia. destruct (IH f' L') as (HS & HL). clear IH L.
  split.
  - intros t r. cbn [CSpec.pStm].
    assert (G : match pE f 0 t with Some (e, r0) => match punct ";" r0 with Some r1 => Some (KExp e, r1) | None => None end | None => None end = Some r ->
      match pE f' 0 t with Some (e, r0) => match punct ";" r0 with Some r1 => Some (KExp e, r1) | None => None end | None => None end = Some r).
    { destruct (pE f 0 t) as [[e r']|] eqn:E; [|discriminate]. rewrite (upE _ _ _ _ _ L' E). auto. }
    destruct t as [|[w|v|p|str] t]; auto.
    + destruct (is w "if").
      { destruct (punct "(" t) as [t1|]; auto. destruct (pE f 0 t1) as [[c t2]|] eqn:E; [|discriminate]. rewrite (upE _ _ _ _ _ L' E).
        destruct (punct ")" t2) as [t3|]; auto. destruct (pStm f t3) as [[s1 t4]|] eqn:E1; [|discriminate]. rewrite (HS _ _ E1).
        destruct (word "else" t4) as [t5|]; auto. destruct (pStm f t5) as [[s2 t6]|] eqn:E2; [|discriminate]. rewrite (HS _ _ E2). auto. }
      destruct (is w "while").
      { destruct (punct "(" t) as [t1|]; auto. destruct (pE f 0 t1) as [[c t2]|] eqn:E; [|discriminate]. rewrite (upE _ _ _ _ _ L' E).
        destruct (punct ")" t2) as [t3|]; auto. destruct (pStm f t3) as [[s1 t4]|] eqn:E1; [|discriminate]. rewrite (HS _ _ E1). auto. }
      destruct (is w "for").
      { destruct (punct "(" t) as [t1|]; auto. destruct (upTo f ";" t1) as [[i t2]|] eqn:E; [|discriminate]. rewrite (upTo_mono _ _ _ _ _ L' E).
        destruct i; auto. destruct (upTo f ";" t2) as [[c t3]|] eqn:E1; [|discriminate]. rewrite (upTo_mono _ _ _ _ _ L' E1).
        destruct (upTo f ")" t3) as [[e t4]|] eqn:E2; [|discriminate]. rewrite (upTo_mono _ _ _ _ _ L' E2).
        destruct (pStm f t4) as [[s t5]|] eqn:E3; [|discriminate]. rewrite (HS _ _ E3). auto. }
      destruct (is w "do").
      { destruct (pStm f t) as [[s t1]|] eqn:E3; [|discriminate]. rewrite (HS _ _ E3). destruct (word "while" t1) as [t2|]; auto.
        destruct (punct "(" t2) as [t3|]; auto. destruct (pE f 0 t3) as [[c t4]|] eqn:E; [|discriminate]. rewrite (upE _ _ _ _ _ L' E). auto. }
      destruct (is w "break"); auto. destruct (is w "continue"); auto. destruct (is w "return"); auto.
      destruct (upTo f ";" t) as [[e t2]|] eqn:E; [|discriminate]. rewrite (upTo_mono _ _ _ _ _ L' E). auto.
    + destruct (is p "{"); [|destruct (is p ";"); auto].
      destruct (pStms f t) as [[l t1]|] eqn:E; [|discriminate]. rewrite (HL _ _ E). auto.
  - intros t r. cbn [CSpec.pStms].
    assert (G : match pStm f t with Some (s, r0) => match pStms f r0 with Some (l, r1) => Some (s :: l, r1) | None => None end | None => None end = Some r ->
      match pStm f' t with Some (s, r0) => match pStms f' r0 with Some (l, r1) => Some (s :: l, r1) | None => None end | None => None end = Some r).
    { destruct (pStm f t) as [[s t1]|] eqn:E; [|discriminate]. rewrite (HS _ _ E).
      destruct (pStms f t1) as [[l t2]|] eqn:E1; [|discriminate]. rewrite (HL _ _ E1). auto. }
    destruct t as [|[w|v|p|str] t]; auto.
    + destruct (typeWord isType w); auto. destruct (starsOf t) as [n t1]. destruct t1 as [|[v|v|v|str] t1]; auto.
      destruct (isKw v || isType v); auto. destruct (punct ";" t1) as [t2|]; auto.
      destruct (pStms f t2) as [[l t3]|] eqn:E1; [|discriminate]. rewrite (HL _ _ E1). auto.
    + destruct (is p "}"); auto.
Qed.
Lemma upM t r f f' : (f <= f')%nat -> pStm f t = Some r -> pStm f' t = Some r.
Proof. intros L. apply (monoS f f' L). Qed.
Lemma upMs t r f f' : (f <= f')%nat -> pStms f t = Some r -> pStms f' t = Some r.
Proof. intros L. apply (monoS f f' L). Qed.

Definition PM t r := exists f, pStm f t = Some r.
Definition PMs t r := exists f, pStms f t = Some r.
Definition PT c t r := exists f, upTo f c t = Some r.

Lemma PT_none c r : PT c (TP (codes c) :: r) (None, r).
Proof. exists O. unfold upTo, is. rewrite (proj2 (eqs_true _ _) eq_refl). reflexivity. Qed.
Lemma PT_some c t e r : headOk t -> codes c <> codes "(" -> codes c <> codes "-" -> codes c <> codes "&" -> PE 0 t (e, TP (codes c) :: r) -> PT c t (Some e, r).
Proof.
  intros H N1 N2 N3 [f K]. exists f. unfold upTo.
  assert (G : match pE f 0 t with Some (e, TP q :: r0) => if is q c then Some (Some e, r0) else None | _ => None end = Some (Some e, r)).
  { rewrite K. unfold is. rewrite (proj2 (eqs_true _ _) eq_refl). reflexivity. }
  destruct t as [|[w|v|p|str] t]; try exact G. cbn [CReadProofs.headOk] in H. rewrite !orb_true_iff in H.
  destruct (is p c) eqn:E; [|exact G]. apply eqs_true in E. subst p. destruct H as [[H|H]|H]; apply eqs_true in H; contradiction.
Qed.

Lemma PM_exp t e r : headOk t -> PE 0 t (e, P ";" :: r) -> PM t (KExp e, r).
Proof.
  intros H [f K]. exists (S f). cbn [CSpec.pStm].
  assert (G : match pE f 0 t with Some (e, r0) => match punct ";" r0 with Some r1 => Some (KExp e, r1) | None => None end | None => None end = Some (KExp e, r)).
  { rewrite K. reflexivity. }
  destruct t as [|[w|v|p|str] t]; try exact G; cbn [CReadProofs.headOk] in H.
  - destruct H as [H _].
    rewrite (kw_word w "if" H eq_refl), (kw_word w "while" H eq_refl), (kw_word w "for" H eq_refl), (kw_word w "do" H eq_refl), (kw_word w "break" H eq_refl),
      (kw_word w "continue" H eq_refl), (kw_word w "return" H eq_refl). exact G.
  - rewrite !orb_true_iff in H. destruct H as [[H|H]|H]; apply eqs_true in H; subst p; exact G.
Qed.
Notation I s := (TId (codes s)).
Lemma PM_if t c t1 s r : PE 0 t (c, P ")" :: t1) -> PM t1 (s, r) -> word "else" r = None -> PM (I "if" :: P "(" :: t) (KIf c s, r).
Proof.
  intros [f H] [g K] N. exists (S (Nat.max f g)). cbn [CSpec.pStm]. change (is (codes "if") "if") with true. cbv iota.
  change (punct "(" (P "(" :: t)) with (Some t). cbv iota. rewrite (upE _ _ _ _ _ (Nat.le_max_l f g) H).
  change (punct ")" (P ")" :: t1)) with (Some t1). cbv iota. rewrite (upM _ _ _ _ (Nat.le_max_r f g) K), N. reflexivity.
Qed.
Lemma PM_else t c t1 s1 t2 s2 r : PE 0 t (c, P ")" :: t1) -> PM t1 (s1, I "else" :: t2) -> PM t2 (s2, r) -> PM (I "if" :: P "(" :: t) (KElse c s1 s2, r).
Proof.
  intros [f H] [g K] [h J]. exists (S (Nat.max f (Nat.max g h))). cbn [CSpec.pStm]. change (is (codes "if") "if") with true. cbv iota.
  change (punct "(" (P "(" :: t)) with (Some t). cbv iota. rewrite (upE _ _ _ f (Nat.max f (Nat.max g h)) ltac:(lia) H).
  change (punct ")" (P ")" :: t1)) with (Some t1). cbv iota. rewrite (upM _ _ g (Nat.max f (Nat.max g h)) ltac:(lia) K).
  change (word "else" (I "else" :: t2)) with (Some t2). cbv iota. rewrite (upM _ _ h (Nat.max f (Nat.max g h)) ltac:(lia) J). reflexivity.
Qed.
Lemma PM_for t c t1 e t2 s r : PT ";" t (c, t1) -> PT ")" t1 (e, t2) -> PM t2 (s, r) -> PM (I "for" :: P "(" :: P ";" :: t) (KFor c e s, r).
Proof.
  intros [f H] [g K] [h J]. exists (S (Nat.max f (Nat.max g h))). cbn [CSpec.pStm].
  change (is (codes "for") "if") with false. change (is (codes "for") "while") with false. change (is (codes "for") "for") with true. cbv iota.
  change (punct "(" (P "(" :: P ";" :: t)) with (Some (P ";" :: t)). cbv iota.
  change (upTo (Nat.max f (Nat.max g h)) ";" (P ";" :: t)) with (Some (@None cexp, t)). cbv iota.
  rewrite (upTo_mono f (Nat.max f (Nat.max g h)) _ _ _ ltac:(lia) H), (upTo_mono g (Nat.max f (Nat.max g h)) _ _ _ ltac:(lia) K), (upM _ _ h (Nat.max f (Nat.max g h)) ltac:(lia) J). reflexivity.
Qed.
Lemma PM_do t s t1 c r : PM t (s, I "while" :: P "(" :: t1) -> PE 0 t1 (c, P ")" :: P ";" :: r) -> PM (I "do" :: t) (KDo s c, r).
Proof.
  intros [f H] [g K]. exists (S (Nat.max f g)). cbn [CSpec.pStm].
  change (is (codes "do") "if") with false. change (is (codes "do") "while") with false. change (is (codes "do") "for") with false. change (is (codes "do") "do") with true. cbv iota.
  rewrite (upM _ _ _ _ (Nat.le_max_l f g) H). change (word "while" (I "while" :: P "(" :: t1)) with (Some (P "(" :: t1)). cbv iota.
  change (punct "(" (P "(" :: t1)) with (Some t1). cbv iota. rewrite (upE _ _ _ _ _ (Nat.le_max_r f g) K). reflexivity.
Qed.
Lemma PM_ret t e r : PT ";" t (e, r) -> PM (I "return" :: t) (KRet e, r).
Proof.
  intros [f H]. exists (S f). cbn [CSpec.pStm].
  change (is (codes "return") "if") with false. change (is (codes "return") "while") with false. change (is (codes "return") "for") with false. change (is (codes "return") "do") with false.
  change (is (codes "return") "break") with false. change (is (codes "return") "continue") with false. change (is (codes "return") "return") with true.
  cbv iota. rewrite H. reflexivity.
Qed.
Lemma PM_blk t l r : PMs t (l, P "}" :: r) -> PM (P "{" :: t) (KBlk l, r).
Proof. intros [f H]. exists (S f). cbn [CSpec.pStm]. change (is (codes "{") "{") with true. cbv iota. rewrite H. reflexivity. Qed.

Definition headS (t : list ctok) : Prop :=
  match t with TP p :: _ => is p "}" = false | TId w :: _ => typeWord isType w = false | TNum _ :: _ | TStr _ :: _ => True | [] => False end.
Lemma PMs_cons t s r l r2 : headS t -> PM t (s, r) -> PMs r (l, r2) -> PMs t (s :: l, r2).
Proof.
  intros N [f H] [g K]. exists (S (Nat.max f g)). cbn [CSpec.pStms].
  assert (G : match pStm (Nat.max f g) t with Some (s, r0) => match pStms (Nat.max f g) r0 with Some (l, r1) => Some (s :: l, r1) | None => None end | None => None end = Some (s :: l, r2)).
  { rewrite (upM _ _ _ _ (Nat.le_max_l f g) H), (upMs _ _ _ _ (Nat.le_max_r f g) K). reflexivity. }
  destruct t as [|[w|v|p|str] t]; [destruct N| |exact G| |exact G]; cbn [headS] in N; rewrite N; exact G.
Qed.
Lemma PMs_end r : PMs (P "}" :: r) ([], P "}" :: r).
Proof. exists 1%nat. reflexivity. Qed.
Lemma headOk_S t : headOk t -> headS t.
Proof.
  destruct t as [|[w|v|p|str] t]; cbn [CReadProofs.headOk headS]; auto.
  - intros [H T]. unfold typeWord. rewrite (kw_word w "int" H eq_refl), (kw_word w "char" H eq_refl), (kw_word w "void" H eq_refl). exact T.
  - intros H. rewrite !orb_true_iff in H. destruct H as [[H|H]|H]; apply eqs_true in H; subst p; reflexivity.
Qed.
Lemma kw_S w t : isKw w = true -> is w "int" = false -> is w "char" = false -> is w "void" = false -> headS (TId w :: t).
Proof. intros K A B C. cbn [headS]. unfold typeWord. rewrite A, B, C. destruct (isType w) eqn:E; [|reflexivity]. apply types in E. congruence. Qed.

(* ---- text ---- *)
Definition sfrag (x : list Z) (t : list ctok) : Prop := forall r u, Lx r u -> Lx (x ++ r) (t ++ u).
Definition St t s := forall rest, PM (t ++ rest) (s, rest).
Definition Many t l := forall rest l2 r2, PMs rest (l2, r2) -> PMs (t ++ rest) (l ++ l2, r2).

Lemma St_Many t s : headS t -> St t s -> Many t [s].
Proof.
  intros H A rest l2 r2 K. cbn [app]. apply PMs_cons with rest; [|apply A|exact K].
  destruct t as [|[w|v|p|str] t]; [destruct H| | | |]; exact H.
Qed.
Lemma Many_app t1 l1 t2 l2 : Many t1 l1 -> Many t2 l2 -> Many (t1 ++ t2) (l1 ++ l2).
Proof. intros A B rest l3 r K. rewrite <- !app_assoc. apply A. apply B. exact K. Qed.
Lemma sfrag_app x1 t1 x2 t2 : sfrag x1 t1 -> sfrag x2 t2 -> sfrag (x1 ++ x2) (t1 ++ t2).
Proof. intros A B r u K. rewrite <- !app_assoc. apply A. apply B. exact K. Qed.
Lemma sfrag_p p : closed p = true -> whole p = true -> sfrag p [TP p].
Proof. intros A B r u K. apply open_p; assumption. Qed.
Lemma sfrag_nl : sfrag nl [].
Proof. intros r u K. apply Lx_blank; [reflexivity|exact K]. Qed.
Lemma sfrag_frag x t p q : frag x t -> (exists c r, p = c :: r /\ numChar c = false) -> sfrag p q -> sfrag (x ++ p) (t ++ q).
Proof. intros A (c & r & -> & N) B s u K. rewrite <- !app_assoc. apply A; [exact N|]. apply B. exact K. Qed.
Lemma sfrag_word w p q : ident w -> (exists c r, p = c :: r /\ numChar c = false) -> sfrag p q -> sfrag (w ++ p) (TId w :: q).
Proof. intros A (c & r & -> & N) B s u K. rewrite <- !app_assoc. cbn [app]. apply Lx_id; [exact A|exact N|]. apply B. exact K. Qed.
Lemma sfrag_blank x t : sfrag x t -> sfrag (32 :: x) t.
Proof. intros A r u K. cbn [app]. apply Lx_blank; [reflexivity|]. apply A. exact K. Qed.

Record stext (s : stmt) (x : list Z) (t : list ctok) : Prop := {
  s_lex : sfrag x t; s_many : Many t (manyC s);
  s_one : single s = true -> St t (oneC s);
  s_apart : apart s = true -> exists c r, x = c :: r /\ numChar c = false }.
Lemma stext_of s x t k : manyC s = [k] -> sfrag x t -> headS t -> St t k -> (apart s = true -> exists c r, x = c :: r /\ numChar c = false) -> stext s x t.
Proof.
  intros E A H B C. split; auto.
  - rewrite E. apply St_Many; assumption.
  - intros _. unfold CTree.oneC. rewrite E. exact B.
Qed.

Lemma exp_text1 e x : fairE e -> printExp nm e = Some x -> exists t, text1 nm isType e x t.
Proof.
  intros F H. destruct (printE_text nm isType e false x F H) as (t & T & T1). exists t.
  destruct e as [|l|o' e|o' l r|f a]; try exact T1. destruct o'; try exact T1. discriminate H.
Qed.
(* an optional expression before c *)
Lemma opt_text e x c : fairE e -> optE nm e = Some x -> codes c <> codes "(" -> codes c <> codes "-" -> codes c <> codes "&" -> noMore [TP (codes c)] ->
  exists t, frag x t /\ forall r, PT c (t ++ TP (codes c) :: r) (optC e, r).
Proof.
  intros F H N1 N2 N3 NM. destruct e as [|l|o e|o l r|f a].
  { injection H as <-. exists []. split; [intros r u _ K; exact K|]. intros r. apply PT_none. }
  all: destruct (exp_text1 _ x F H) as [t T]; exists t; (split; [apply (t_lex _ _ _ _ _ T)|]); intros rest;
    (apply PT_some; [apply headOk_app; apply (t_head _ _ _ _ _ T)|exact N1|exact N2|exact N3|]);
    (apply Un_PE; [apply (t_un _ _ _ _ _ T)|exact NM]).
Qed.
Lemma cat_r (a : option (list Z)) z x : cat a (Some z) = Some x -> exists y, a = Some y /\ x = y ++ z.
Proof. intros H. apply cat_some in H as (y & z' & E & [= <-] & ->). eauto. Qed.

Definition semi : list Z := codes ";" ++ nl.
Lemma sfrag_semi : sfrag semi [P ";"].
Proof. apply (sfrag_app (codes ";") [P ";"] nl []); [apply sfrag_p; reflexivity|apply sfrag_nl]. Qed.
Lemma stars n r v : starsOf (repeat (P "*") n ++ TId v :: r) = (n, TId v :: r).
Proof. induction n as [|n IH]; [reflexivity|]. cbn [repeat app starsOf]. change (is (codes "*") "*") with true. cbv iota. rewrite IH. reflexivity. Qed.
Lemma sfrag_stars w x t : ident w -> sfrag (w ++ x) t -> forall n, sfrag (repeat 42 n ++ w ++ x) (repeat (P "*") n ++ t).
Proof.
  intros N A. induction n as [|n IH]; [exact A|]. intros r u K. cbn [repeat app].
  apply (Lx_p (codes "*")); [reflexivity| |apply IH; exact K].
  destruct n as [|n]; [|reflexivity]. destruct w as [|c w]; [destruct N|]. cbn [repeat app joins]. apply ends_id. destruct N as [N _].
  unfold idChar. rewrite N. reflexivity.
Qed.

Lemma expr_stmt e x : fairE e -> cat (printExp nm e) (Some semi) = Some x ->
  exists t, sfrag x t /\ headS t /\ St t (KExp (expC e)) /\ (opens e = true -> exists c r, x = c :: r /\ numChar c = false).
Proof.
  intros F H. apply cat_r in H as (y & H & ->). destruct (exp_text1 e y F H) as [t T]. exists (t ++ [P ";"]).
  split; [|split; [|split]].
  - apply sfrag_frag; [apply (t_lex _ _ _ _ _ T)|eexists _, _; split; reflexivity|apply sfrag_semi].
  - apply headOk_S. apply headOk_app. apply (t_head _ _ _ _ _ T).
  - intros rest. rewrite <- app_assoc. apply PM_exp; [apply headOk_app; apply (t_head _ _ _ _ _ T)|].
    apply Un_PE; [apply (t_un _ _ _ _ _ T)|split; reflexivity].
  - intros O. destruct (t_start _ _ _ _ _ T) as (c & r & -> & _ & Q). rewrite (Q O). eexists _, _. split; reflexivity.
Qed.

Lemma single_many s : single s = true -> manyC s = [oneC s].
Proof. destruct s as [|e|i|c b|c b1 b2|c b re|b c| | |e|l r|l r]; try discriminate; intros _; try reflexivity. destruct e as [|[]| | |]; reflexivity. Qed.

Lemma typeName_word t x : printTypeName nm t = Some x -> x = wordC nm t ++ codes " ".
Proof.
  unfold printTypeName, wordC. destruct (t =? TyVOID); [intros [= <-]; reflexivity|]. destruct (t =? TyINT); [intros [= <-]; reflexivity|].
  destruct (t =? TyBOOL); [intros [= <-]; reflexivity|]. destruct (t =? TyCHAR); [intros [= <-]; reflexivity|].
  destruct (t <=? 0); [intros [= <-]; reflexivity|discriminate].
Qed.
Lemma wordC_ok t x : printTypeName nm t = Some x -> typeOk nm isType t -> ident (wordC nm t) /\ typeWord isType (wordC nm t) = true.
Proof.
  unfold printTypeName, wordC, typeWord. intros H K.
  destruct (t =? TyVOID); [split; [split; reflexivity|]; reflexivity|]. destruct (t =? TyINT); [split; [split; reflexivity|]; reflexivity|].
  destruct (t =? TyBOOL); [split; [split; reflexivity|]; reflexivity|]. destruct (t =? TyCHAR); [split; [split; reflexivity|]; reflexivity|].
  cbn [orb]. destruct (Z.leb_spec t 0) as [L|]; [|discriminate]. destruct (K L) as (A & B & C). split; [exact A|]. rewrite C. apply orb_true_r.
Qed.

Lemma var_text i x : nameOk isType (nm i) -> typeOk nm isType (fst (vty i)) ->
  traceTree nm vty (SVar i) = Some x -> exists t, stext (SVar i) x t.
Proof.
  intros (A & B & C) T H. cbn [traceTree] in H. apply cat_r in H as (y & H & ->). unfold printType in H.
  apply cat_r in H as (z & H & ->). destruct (wordC_ok _ _ H T) as [WI WT]. apply typeName_word in H. subst z.
  change (if fst (vty i) <=? 0 then S (snd (vty i)) else snd (vty i)) with (starsC (fst (vty i)) (snd (vty i))).
  set (w := wordC nm (fst (vty i))) in *. set (n := starsC (fst (vty i)) (snd (vty i))).
  exists (TId w :: repeat (P "*") n ++ [TId (nm i); P ";"]). split.
  - rewrite <- !app_assoc. apply sfrag_word; [exact WI|eexists _, _; split; reflexivity|].
    apply (sfrag_blank (repeat 42 n ++ nm i ++ semi)). apply sfrag_stars; [exact A|].
    apply sfrag_word; [exact A|eexists _, _; split; reflexivity|apply sfrag_semi].
  - change (manyC (SVar i)) with [KVar w n (nm i)]. intros rest l2 r2 [f K]. exists (S f).
    rewrite <- app_comm_cons. cbn [CSpec.pStms]. rewrite WT, <- app_assoc. cbn [app]. rewrite stars, B, C. cbn [orb].
    change (punct ";" (P ";" :: rest)) with (Some rest). cbv iota. rewrite K. reflexivity.
  - discriminate.
  - discriminate.
Qed.

Lemma word_ident s : ident (codes s) -> forall p q, (exists c r, p = c :: r /\ numChar c = false) -> sfrag p q -> sfrag (codes s ++ p) (I s :: q).
Proof. intros A p q. apply sfrag_word. exact A. Qed.

Lemma stm_text : forall s x, fairS s -> traceTree nm vty s = Some x -> exists t, stext s x t.
Proof.
  induction s as [|e|i|c b IHb|c b1 IH1 b2 IH2|c b IHb re|b IHb c| | |e|l IHl r IHr|l IHl r IHr]; intros x F H.
  - (* SNull *) injection H as <-. exists [P ";"]. apply stext_of with KEmpty; try reflexivity; [apply sfrag_semi| |intros _; eexists _, _; split; reflexivity].
    intros rest. exists 1%nat. reflexivity.
  - (* SExpr *)
    assert (G : (exists v, e = Cnst v) \/ cat (printExp nm e) (Some semi) = Some x /\ manyC (SExpr e) = [KExp (expC e)] /\ apart (SExpr e) = opens e).
    { destruct e as [|[v| | | | |]| | |]; eauto; right; (split; [exact H|split; reflexivity]). }
    destruct G as [[v ->]|(G & M & AP)].
    + injection H as <-. exists [P ";"]. apply stext_of with KEmpty; try reflexivity; [apply sfrag_semi| |intros _; eexists _, _; split; reflexivity].
      intros rest. exists 1%nat. reflexivity.
    + destruct (expr_stmt e x F G) as (t & A & B & C & D). exists t. apply stext_of with (KExp (expC e)); auto. rewrite AP. exact D.
  - (* SVar *) destruct F as [F1 F2]. exact (var_text i x F1 F2 H).
  - (* SIf *)
    cbn [traceTree] in H. apply cat_l in H as (z & H & ->). apply cat_some in H as (xc & z1 & HC & H & ->).
    apply cat_l in H as (z2 & H & ->). apply cat_r in H as (xb & HB & ->). destruct F as (FC & FB & SB).
    destruct (exp_text1 c xc FC HC) as [tc TC]. destruct (IHb xb FB HB) as [tb TB].
    exists (P "{" :: I "if" :: P "(" :: tc ++ P ")" :: tb ++ [P "}"]). apply stext_of with (KBlk [KIf (expC c) (oneC b)]).
    + reflexivity.
    + change (codes "{if(") with (codes "{" ++ codes "if" ++ codes "("). rewrite <- !app_assoc.
      apply (sfrag_app _ [P "{"]); [apply sfrag_p; reflexivity|]. apply word_ident; [split; reflexivity|eexists _, _; split; reflexivity|].
      apply (sfrag_app _ [P "("]); [apply sfrag_p; reflexivity|].
      apply sfrag_frag; [apply (t_lex _ _ _ _ _ TC)|eexists _, _; split; reflexivity|].
      apply (sfrag_app _ [P ")"]); [apply sfrag_p; reflexivity|]. apply sfrag_app; [apply (s_lex _ _ _ TB)|apply sfrag_p; reflexivity].
    + reflexivity.
    + intros rest. cbn [app]. apply PM_blk. apply PMs_cons with (P "}" :: rest); [apply kw_S; reflexivity| |apply PMs_end].
      rewrite <- app_assoc. cbn [app]. rewrite <- app_assoc. apply PM_if with (tb ++ [P "}"] ++ rest); [apply Un_PE; [apply (t_un _ _ _ _ _ TC)|split; reflexivity]| |reflexivity].
      apply (s_one _ _ _ TB SB).
    + intros _. eexists _, _. split; reflexivity.
  - (* SEls *)
    cbn [traceTree] in H. apply cat_l in H as (z & H & ->). apply cat_some in H as (xc & z1 & HC & H & ->).
    apply cat_l in H as (z2 & H & ->). apply cat_some in H as (xb1 & z3 & HB1 & H & ->). apply cat_l in H as (xb2 & HB2 & ->).
    destruct F as (FC & FB1 & FB2 & S1 & S2).
    destruct (exp_text1 c xc FC HC) as [tc TC]. destruct (IH1 xb1 FB1 HB1) as [t1 T1]. destruct (IH2 xb2 FB2 HB2) as [t2 T2].
    exists (I "if" :: P "(" :: tc ++ P ")" :: t1 ++ I "else" :: t2). apply stext_of with (KElse (expC c) (oneC b1) (oneC b2)).
    + reflexivity.
    + change (codes "if(") with (codes "if" ++ codes "("). change (codes "else ") with (codes "else" ++ [32]). rewrite <- !app_assoc.
      apply word_ident; [split; reflexivity|eexists _, _; split; reflexivity|]. apply (sfrag_app _ [P "("]); [apply sfrag_p; reflexivity|].
      apply sfrag_frag; [apply (t_lex _ _ _ _ _ TC)|eexists _, _; split; reflexivity|].
      apply (sfrag_app _ [P ")"]); [apply sfrag_p; reflexivity|]. apply sfrag_app; [apply (s_lex _ _ _ T1)|].
      apply word_ident; [split; reflexivity|eexists _, _; split; reflexivity|]. apply sfrag_blank. apply (s_lex _ _ _ T2).
    + apply kw_S; reflexivity.
    + intros rest. cbn [app]. rewrite <- app_assoc. cbn [app]. rewrite <- app_assoc. cbn [app].
      apply PM_else with (t1 ++ I "else" :: t2 ++ rest) (t2 ++ rest);
        [apply Un_PE; [apply (t_un _ _ _ _ _ TC)|split; reflexivity]|apply (s_one _ _ _ T1 S1)|apply (s_one _ _ _ T2 S2)].
    + discriminate.
  - (* SWhl *)
    cbn [traceTree] in H. apply cat_l in H as (z & H & ->). apply cat_some in H as (xc & z1 & HC & H & ->).
    apply cat_l in H as (z2 & H & ->). apply cat_some in H as (xr & z3 & HR & H & ->). apply cat_l in H as (xb & HB & ->).
    destruct F as (FC & FR & FB & SB).
    destruct (opt_text c xc ";" FC HC) as (tc & LC & TC); [discriminate|discriminate|discriminate|split; reflexivity|].
    destruct (opt_text re xr ")" FR HR) as (tr & LR & TR); [discriminate|discriminate|discriminate|split; reflexivity|].
    destruct (IHb xb FB HB) as [tb TB].
    exists (I "for" :: P "(" :: P ";" :: tc ++ P ";" :: tr ++ P ")" :: tb). apply stext_of with (KFor (optC c) (optC re) (oneC b)).
    + reflexivity.
    + change (codes "for(;") with (codes "for" ++ codes "(" ++ codes ";"). rewrite <- !app_assoc.
      apply word_ident; [split; reflexivity|eexists _, _; split; reflexivity|]. apply (sfrag_app _ [P "("]); [apply sfrag_p; reflexivity|].
      apply (sfrag_app _ [P ";"]); [apply sfrag_p; reflexivity|].
      apply sfrag_frag; [exact LC|eexists _, _; split; reflexivity|]. apply (sfrag_app _ [P ";"]); [apply sfrag_p; reflexivity|].
      apply sfrag_frag; [exact LR|eexists _, _; split; reflexivity|]. apply (sfrag_app _ [P ")"]); [apply sfrag_p; reflexivity|].
      apply (sfrag_app nl []); [apply sfrag_nl|apply (s_lex _ _ _ TB)].
    + apply kw_S; reflexivity.
    + intros rest. cbn [app]. rewrite <- app_assoc. cbn [app]. rewrite <- app_assoc. cbn [app].
      apply PM_for with (tr ++ P ")" :: tb ++ rest) (tb ++ rest); [apply TC|apply TR|apply (s_one _ _ _ TB SB)].
    + discriminate.
  - (* SDo *)
    cbn [traceTree] in H. apply cat_l in H as (z & H & ->). apply cat_some in H as (xb & z1 & HB & H & ->).
    apply cat_l in H as (z2 & H & ->). apply cat_r in H as (xc & HC & ->). destruct F as (FB & FC & SB & AP).
    destruct (exp_text1 c xc FC HC) as [tc TC]. destruct (IHb xb FB HB) as [tb TB].
    exists (I "do" :: tb ++ I "while" :: P "(" :: tc ++ [P ")"; P ";"]). apply stext_of with (KDo (oneC b) (expC c)).
    + reflexivity.
    + change (codes "while(") with (codes "while" ++ codes "("). change (codes ");" ++ nl) with (codes ")" ++ semi). rewrite <- !app_assoc.
      apply word_ident; [split; reflexivity| |].
      * destruct (s_apart _ _ _ TB AP) as (k & r & -> & N). eexists k, _. split; [reflexivity|exact N].
      * apply sfrag_app; [apply (s_lex _ _ _ TB)|]. apply word_ident; [split; reflexivity|eexists _, _; split; reflexivity|].
        apply (sfrag_app _ [P "("]); [apply sfrag_p; reflexivity|].
        apply sfrag_frag; [apply (t_lex _ _ _ _ _ TC)|eexists _, _; split; reflexivity|].
        apply (sfrag_app _ [P ")"]); [apply sfrag_p; reflexivity|apply sfrag_semi].
    + apply kw_S; reflexivity.
    + intros rest. cbn [app]. rewrite <- app_assoc. cbn [app]. rewrite <- app_assoc. cbn [app].
      apply PM_do with (tc ++ P ")" :: P ";" :: rest); [apply (s_one _ _ _ TB SB)|]. apply Un_PE; [apply (t_un _ _ _ _ _ TC)|split; reflexivity].
    + discriminate.
  - (* SBrk *) injection H as <-. exists [I "break"; P ";"]. apply stext_of with KBreak; try reflexivity.
    + apply (word_ident "break"); [split; reflexivity|eexists _, _; split; reflexivity|apply sfrag_semi].
    + apply kw_S; reflexivity.
    + intros rest. exists 1%nat. reflexivity.
    + discriminate.
  - (* SCnt *) injection H as <-. exists [I "continue"; P ";"]. apply stext_of with KContinue; try reflexivity.
    + apply (word_ident "continue"); [split; reflexivity|eexists _, _; split; reflexivity|apply sfrag_semi].
    + apply kw_S; reflexivity.
    + intros rest. exists 1%nat. reflexivity.
    + discriminate.
  - (* SRet *)
    cbn [traceTree] in H. apply cat_l in H as (z & H & ->). apply cat_r in H as (xe & HE & ->).
    destruct (opt_text e xe ";" F HE) as (te & LE & TE); [discriminate|discriminate|discriminate|split; reflexivity|].
    exists (I "return" :: te ++ [P ";"]). apply stext_of with (KRet (optC e)).
    + reflexivity.
    + change (codes "return ") with (codes "return" ++ [32]). rewrite <- !app_assoc.
      apply word_ident; [split; reflexivity|eexists _, _; split; reflexivity|]. apply sfrag_blank.
      apply sfrag_frag; [exact LE|eexists _, _; split; reflexivity|apply sfrag_semi].
    + apply kw_S; reflexivity.
    + intros rest. cbn [app]. rewrite <- app_assoc. apply PM_ret. apply TE.
    + discriminate.
  - (* SSemi *)
    cbn [traceTree] in H. apply cat_some in H as (xl & xr & HL & HR & ->). destruct F as [FL FR].
    destruct (IHl xl FL HL) as [tl TL]. destruct (IHr xr FR HR) as [tr TR]. exists (tl ++ tr). split; try discriminate.
    + apply sfrag_app; [apply (s_lex _ _ _ TL)|apply (s_lex _ _ _ TR)].
    + apply Many_app; [apply (s_many _ _ _ TL)|apply (s_many _ _ _ TR)].
  - (* SBlk *)
    cbn [traceTree] in H. apply cat_l in H as (z & H & ->). apply cat_some in H as (xl & z1 & HL & H & ->). apply cat_r in H as (xr & HR & ->).
    destruct F as [FL FR]. destruct (IHl xl FL HL) as [tl TL]. destruct (IHr xr FR HR) as [tr TR].
    exists (P "{" :: tl ++ tr ++ [P "}"]). apply stext_of with (KBlk (manyC l ++ manyC r)).
    + reflexivity.
    + rewrite <- !app_assoc. apply (sfrag_app _ [P "{"]); [apply sfrag_p; reflexivity|]. apply (sfrag_app nl []); [apply sfrag_nl|].
      apply sfrag_app; [apply (s_lex _ _ _ TL)|]. apply sfrag_app; [apply (s_lex _ _ _ TR)|].
      apply (sfrag_app _ [P "}"] nl []); [apply sfrag_p; reflexivity|apply sfrag_nl].
    + reflexivity.
    + intros rest. cbn [app]. apply PM_blk. rewrite <- !app_assoc. apply (s_many _ _ _ TL).
      rewrite <- (app_nil_r (manyC r)). apply (s_many _ _ _ TR). apply PMs_end.
    + intros _. eexists _, _. split; reflexivity.
Qed.

Definition bodyC (root : stmt) : cstm := KBlk (match root with SBlk l r => manyC l ++ manyC r | s => manyC s end).
Theorem body_reads root x : fairS root -> printBody nm vty root = Some x -> readsS isType x (bodyC root).
Proof.
  intros F H. unfold printBody in H.
  set (s := match root with SBlk l r => SSemi l r | s => s end) in *.
  assert (FS : fairS s) by (destruct root; exact F).
  assert (M : manyC s = match root with SBlk l r => manyC l ++ manyC r | s => manyC s end) by (destruct root; reflexivity).
  apply cat_l in H as (z & H & ->). apply cat_r in H as (y & H & ->).
  destruct (stm_text s y FS H) as [t T].
  assert (L : sfrag ((codes "{" ++ nl) ++ y ++ codes "}" ++ nl) (P "{" :: t ++ [P "}"])).
  { rewrite <- !app_assoc. apply (sfrag_app _ [P "{"]); [apply sfrag_p; reflexivity|]. apply (sfrag_app nl []); [apply sfrag_nl|].
    apply sfrag_app; [apply (s_lex _ _ _ T)|]. apply (sfrag_app _ [P "}"] nl []); [apply sfrag_p; reflexivity|apply sfrag_nl]. }
  destruct (L [] [] Lx_nil) as [f A]. rewrite app_nil_r in A.
  assert (B : PM (P "{" :: t ++ [P "}"]) (bodyC root, [])).
  { apply PM_blk. rewrite <- M, <- (app_nil_r (manyC s)). apply (s_many _ _ _ T). apply PMs_end. }
  destruct B as [g B]. rewrite app_nil_r in A. exists (Nat.max f g), (P "{" :: t ++ [P "}"]).
  split; [exact (clex_mono f _ _ _ (Nat.le_max_l f g) A)|exact (upM _ _ _ _ (Nat.le_max_r f g) B)].
Qed.
End Names.
