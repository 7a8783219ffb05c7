(* Enough fuel: how far the reader of C looks is bounded by the number of tokens, so
   that a text it cannot read with enough fuel it never reads *)
From Coq Require Import ZArith Bool Lia List String Ascii.
From Verif Require Import Lexer CSpec CReadProofs CStmProofs.
Import ListNotations.
Local Notation len := (@List.length ctok).

(* what is left is shorter *)
Definition shrink5 (f : nat) : Prop :=
  (forall m t e r, pE f m t = Some (e, r) -> (len r < len t)%nat) /\
  (forall m l t e r, pL f m l t = Some (e, r) -> (len r <= len t)%nat) /\
  (forall t e r, pU f t = Some (e, r) -> (len r < len t)%nat) /\
  (forall l t e r, pS f l t = Some (e, r) -> (len r <= len t)%nat) /\
  (forall t e r, pA f t = Some (e, r) -> (len r < len t)%nat).

Ltac use HE HL HU HS HA := repeat match goal with
  | H : pE _ _ _ = Some (_, _) |- _ => apply HE in H
  | H : pL _ _ _ _ = Some (_, _) |- _ => apply HL in H
  | H : pU _ _ = Some (_, _) |- _ => apply HU in H
  | H : pS _ _ _ = Some (_, _) |- _ => apply HS in H
  | H : pA _ _ = Some (_, _) |- _ => apply HA in H
  | H : Some (_, _) = Some (_, _) |- _ => injection H as ? ?; subst
  end; cbn [List.length] in *; lia.

Lemma shrink : forall f, shrink5 f.
Proof.
  induction f as [|f (HE & HL & HU & HS & HA)]; [repeat split; intros; discriminate|]. repeat split.
  - intros m t e r H. cbn [pE] in H. destruct (pU f t) as [[l t']|] eqn:E; [|discriminate]. use HE HL HU HS HA.
  - intros m l t e r H. cbn [pL] in H. destruct t as [|[w|v|op|str] t]; try (use HE HL HU HS HA). destruct (strength op) as [[p rt]|]; [|use HE HL HU HS HA].
    destruct (m <=? p)%nat; [|use HE HL HU HS HA]. destruct (pE f _ t) as [[e' r']|] eqn:E; [|discriminate]. use HE HL HU HS HA.
  - intros t e r H. cbn [pU] in H. destruct t as [|[w|v|op|str] t]; try discriminate.
    + destruct (isKw w); [discriminate|]. use HE HL HU HS HA.
    + use HE HL HU HS HA.
    + destruct (is op "(").
      * assert (G : match pE f 0 t with Some (e, TP c :: r0) => if is c ")" then pS f e r0 else None | _ => None end = Some (e, r) -> (len r < S (len t))%nat).
        { destruct (pE f 0 t) as [[e' r']|] eqn:E; [|discriminate]. destruct r' as [|[w'|v'|c|str] r']; try discriminate.
          destruct (is c ")"); [|discriminate]. intros K. use HE HL HU HS HA. }
        destruct t as [|[w|v|q|str] t]; try exact (G H). destruct t as [|[w'|v'|q|str] t']; try exact (G H).
        destruct ((is w "int" || is w "char" || is w "void") && is q ")").
        { destruct (pU f t') as [[e' r']|] eqn:E; [|discriminate]. use HE HL HU HS HA. }
        destruct (is q "*" && match t' with TP c :: _ => is c ")" | _ => false end); [|exact (G H)].
        destruct (pU f (tl t')) as [[e' r']|] eqn:E; [|discriminate]. assert (len (tl t') <= len t')%nat by (destruct t'; cbn; lia). use HE HL HU HS HA.
      * destruct (member op prefixOps); [|discriminate]. destruct (pU f t) as [[e' r']|] eqn:E; [|discriminate]. use HE HL HU HS HA.
    + use HE HL HU HS HA.
  - intros l t e r H. cbn [pS] in H. destruct t as [|[w|v|op|str] t]; try (use HE HL HU HS HA).
    destruct (is op "[").
    { destruct (pE f 0 t) as [[i r']|] eqn:E; [|discriminate]. destruct r' as [|[w'|v'|c|str] r']; try discriminate.
      destruct (is c "]"); [|discriminate]. use HE HL HU HS HA. }
    destruct (is op "(").
    { assert (G : match pA f t with Some (a, r0) => pS f (CCall l a) r0 | None => None end = Some (e, r) -> (len r <= S (len t))%nat).
      { destruct (pA f t) as [[a r']|] eqn:E; [|discriminate]. intros K. use HE HL HU HS HA. }
      destruct t as [|[w|v|c|str] t]; try exact (G H). destruct (is c ")"); [|exact (G H)]. use HE HL HU HS HA. }
    destruct (is op "->" || is op ".").
    { destruct t as [|[w|v|c|str] t]; try discriminate. destruct (isKw w); [discriminate|]. use HE HL HU HS HA. }
    destruct (is op "++" || is op "--"); use HE HL HU HS HA.
  - intros t a r H. cbn [pA] in H. destruct (pE f 2 t) as [[e r']|] eqn:E; [|discriminate].
    destruct r' as [|[w'|v'|c|str] r']; try discriminate. destruct (is c ")"); [use HE HL HU HS HA|]. destruct (is c ","); [|discriminate].
    destruct (pA f r') as [[a' r'']|] eqn:E'; [|discriminate]. use HE HL HU HS HA.
Qed.

(* with this much fuel more does not matter *)
Definition enough5 (f : nat) : Prop := forall f', (f <= f')%nat ->
  (forall m t, (4 * len t + 2 <= f)%nat -> pE f' m t = pE f m t) /\
  (forall m l t, (4 * len t + 1 <= f)%nat -> pL f' m l t = pL f m l t) /\
  (forall t, (4 * len t + 1 <= f)%nat -> pU f' t = pU f t) /\
  (forall l t, (4 * len t + 1 <= f)%nat -> pS f' l t = pS f l t) /\
  (forall t, (4 * len t + 3 <= f)%nat -> pA f' t = pA f t).

Lemma enough : forall f, enough5 f.
Proof.
  induction f as [|f IH]; intros f' L; [repeat split; intros; exfalso; lia|].
  destruct f' as [|f']; [lia|]. destruct (IH f' ltac:(lia)) as (HE & HL & HU & HS & HA). clear IH L.
  destruct (shrink f) as (QE & QL & QU & QS & QA). repeat split.
  - intros m t B. cbn [pE]. rewrite HU by lia. destruct (pU f t) as [[l r]|] eqn:E; [|reflexivity]. apply QU in E. rewrite HL by lia. reflexivity.
  - intros m l t B. cbn [pL]. destruct t as [|[w|v|op|str] t]; try reflexivity. destruct (strength op) as [[p rt]|]; [|reflexivity].
    destruct (m <=? p)%nat; [|reflexivity]. cbn [List.length] in B. rewrite HE by lia. destruct (pE f _ t) as [[e r]|] eqn:E; [|reflexivity].
    apply QE in E. rewrite HL by lia. reflexivity.
  - intros t B. cbn [pU]. destruct t as [|[w|v|op|str] t]; [reflexivity| | | |]; cbn [List.length] in B.
    + destruct (isKw w); [reflexivity|]. rewrite HS by lia. reflexivity.
    + rewrite HS by lia. reflexivity.
    + assert (G : match pE f' 0 t with Some (e, TP c :: r0) => if is c ")" then pS f' e r0 else None | _ => None end =
          match pE f 0 t with Some (e, TP c :: r0) => if is c ")" then pS f e r0 else None | _ => None end).
      { rewrite HE by lia. destruct (pE f 0 t) as [[e r]|] eqn:E; [|reflexivity]. apply QE in E. destruct r as [|[w'|v'|c|str] r]; try reflexivity.
        cbn [List.length] in E. destruct (is c ")"); [|reflexivity]. rewrite HS by lia. reflexivity. }
      destruct (is op "(").
      * destruct t as [|[w|v|q|str] t]; try exact G. destruct t as [|[w'|v'|q|str] t']; try exact G.
        cbn [List.length] in B.
        destruct ((is w "int" || is w "char" || is w "void") && is q ")"); [rewrite HU by lia; reflexivity|].
        destruct (is q "*" && match t' with TP c :: _ => is c ")" | _ => false end); [|exact G].
        assert (len (tl t') <= len t')%nat by (destruct t'; cbn; lia). rewrite HU by lia. reflexivity.
      * destruct (member op prefixOps); [|reflexivity]. rewrite HU by lia. reflexivity.
    + rewrite HS by lia. reflexivity.
  - intros l t B. cbn [pS]. destruct t as [|[w|v|op|str] t]; try reflexivity. cbn [List.length] in B.
    destruct (is op "[").
    { rewrite HE by lia. destruct (pE f 0 t) as [[e r]|] eqn:E; [|reflexivity]. apply QE in E. destruct r as [|[w'|v'|c|str] r]; try reflexivity.
      cbn [List.length] in E. destruct (is c "]"); [|reflexivity]. rewrite HS by lia. reflexivity. }
    destruct (is op "(").
    { assert (G : match pA f' t with Some (a, r0) => pS f' (CCall l a) r0 | None => None end = match pA f t with Some (a, r0) => pS f (CCall l a) r0 | None => None end).
      { rewrite HA by lia. destruct (pA f t) as [[a r]|] eqn:E; [|reflexivity]. apply QA in E. rewrite HS by lia. reflexivity. }
      destruct t as [|[w|v|c|str] t]; try exact G. destruct (is c ")"); [|exact G]. cbn [List.length] in B. rewrite HS by lia. reflexivity. }
    destruct (is op "->" || is op ".").
    { destruct t as [|[w|v|c|str] t]; try reflexivity. destruct (isKw w); [reflexivity|]. cbn [List.length] in B. rewrite HS by lia. reflexivity. }
    destruct (is op "++" || is op "--"); [|reflexivity]. rewrite HS by lia. reflexivity.
  - intros t B. cbn [pA]. rewrite HE by lia. destruct (pE f 2 t) as [[e r]|] eqn:E; [|reflexivity]. apply QE in E.
    destruct r as [|[w'|v'|c|str] r]; try reflexivity. cbn [List.length] in E. destruct (is c ")"); [reflexivity|]. destruct (is c ","); [|reflexivity].
    rewrite HA by lia. reflexivity.
Qed.

Lemma starsOf_len : forall t, (len (snd (starsOf t)) <= len t)%nat.
Proof.
  induction t as [|[w|v|p|str] t IH]; try (cbn; lia). cbn [starsOf]. destruct (is p "*"); [|cbn; lia].
  destruct (starsOf t) as [n r]. cbn [snd List.length] in *. lia.
Qed.
Lemma punct_len c t r : punct c t = Some r -> (len r < len t)%nat.
Proof. destruct t as [|[w|v|p|str] t]; try discriminate. cbn [punct]. destruct (is p c); [|discriminate]. intros [= <-]. cbn. lia. Qed.
Lemma word_len c t r : word c t = Some r -> (len r < len t)%nat.
Proof. destruct t as [|[w|v|p|str] t]; try discriminate. cbn [word]. destruct (is w c); [|discriminate]. intros [= <-]. cbn. lia. Qed.
Lemma upTo_len f c t o r : upTo f c t = Some (o, r) -> (len r < len t)%nat.
Proof.
  unfold upTo.
  assert (G : match pE f 0 t with Some (e, TP q :: r0) => if is q c then Some (Some e, r0) else None | _ => None end = Some (o, r) -> (len r < len t)%nat).
  { destruct (pE f 0 t) as [[e r']|] eqn:E; [|discriminate]. apply (shrink f) in E. destruct r' as [|[w'|v'|q|str] r']; try discriminate.
    destruct (is q c); [|discriminate]. intros [= _ <-]. cbn [List.length] in E. lia. }
  destruct t as [|[w|v|p|str] t]; try exact G. destruct (is p c); [|exact G]. intros [= _ <-]. cbn. lia.
Qed.
Lemma upTo_enough f f' c t : (f <= f')%nat -> (4 * len t + 2 <= f)%nat -> upTo f' c t = upTo f c t.
Proof. intros L B. unfold upTo. rewrite (proj1 (enough f f' L)) by exact B. reflexivity. Qed.

Definition shrink2 (T : list Z -> bool) (f : nat) : Prop :=
  (forall t s r, pStm T f t = Some (s, r) -> (len r < len t)%nat) /\ (forall t l r, pStms T f t = Some (l, r) -> (len r <= len t)%nat).
Ltac use2 HS HL := repeat match goal with
  | H : pE ?f _ _ = Some (_, _) |- _ => apply (proj1 (shrink f)) in H
  | H : pStm _ _ _ = Some (_, _) |- _ => apply HS in H
  | H : pStms _ _ _ = Some (_, _) |- _ => apply HL in H
  | H : upTo _ _ _ = Some (_, _) |- _ => apply upTo_len in H
  | H : punct _ _ = Some _ |- _ => apply punct_len in H
  | H : word _ _ = Some _ |- _ => apply word_len in H
  | H : Some (_, _) = Some (_, _) |- _ => injection H as ? ?; subst
  end; cbn [List.length] in *; lia.
Ltac cases H := repeat match type of H with
  | match ?x with Some _ => _ | None => None end = Some _ => let E := fresh "E" in destruct x as [?|] eqn:E; [|discriminate H]
  | match ?x with pair _ _ => _ end = Some _ => destruct x
  | match ?x with Some _ => None | None => _ end = Some _ => destruct x; [discriminate H|]
  end.

Lemma shrinkS T : forall f, shrink2 T f.
Proof.
  induction f as [|f (HS & HL)]; [split; intros; discriminate|]. split.
  - intros t s r H. cbn [pStm] in H. destruct t as [|[w|v|p|str] t].
    + cases H. use2 HS HL.
    + destruct (is w "if").
      { cases H. destruct (word "else" _) as [t5|] eqn:EW; cases H; use2 HS HL. }
      destruct (is w "while"); [cases H; use2 HS HL|]. destruct (is w "for"); [cases H; use2 HS HL|]. destruct (is w "do"); [cases H; use2 HS HL|].
      destruct (is w "break"); [cases H; use2 HS HL|]. destruct (is w "continue"); [cases H; use2 HS HL|]. destruct (is w "return"); cases H; use2 HS HL.
    + cases H. use2 HS HL.
    + destruct (is p "{"); [cases H; use2 HS HL|]. destruct (is p ";"); [use2 HS HL|]. cases H. use2 HS HL.
    + cases H. use2 HS HL.
  - intros t l r H. cbn [pStms] in H. destruct t as [|[w|v|p|str] t].
    + use2 HS HL.
    + destruct (typeWord T w).
      * pose proof (starsOf_len t) as Q. destruct (starsOf t) as [n r']. destruct r' as [|[v|v|v|str] r']; try discriminate.
        destruct (isKw v || T v); [discriminate|]. cases H. cbn [snd] in Q. use2 HS HL.
      * cases H. use2 HS HL.
    + cases H. use2 HS HL.
    + destruct (is p "}"); [use2 HS HL|]. cases H. use2 HS HL.
    + cases H. use2 HS HL.
Qed.

Definition enough2 (T : list Z -> bool) (f : nat) : Prop := forall f', (f <= f')%nat ->
  (forall t, (4 * len t + 3 <= f)%nat -> pStm T f' t = pStm T f t) /\ (forall t, (4 * len t + 4 <= f)%nat -> pStms T f' t = pStms T f t).
Ltac measure T f := repeat match goal with
  | H : pE f _ _ = Some (_, _) |- _ => apply (proj1 (shrink f)) in H
  | H : pStm T f _ = Some (_, _) |- _ => apply (proj1 (shrinkS T f)) in H
  | H : pStms T f _ = Some (_, _) |- _ => apply (proj2 (shrinkS T f)) in H
  | H : upTo _ _ _ = Some (_, _) |- _ => apply upTo_len in H
  | H : punct _ _ = Some _ |- _ => apply punct_len in H
  | H : word _ _ = Some _ |- _ => apply word_len in H
  end; cbn [List.length] in *; lia.

Lemma enoughS T : forall f, enough2 T f.
Proof.
  induction f as [|f IH]; intros f' L; [split; intros; exfalso; lia|].
  destruct f' as [|f']; [lia|]. assert (L' : (f <= f')%nat) by lia. destruct (IH f' L') as (HS & HL). clear IH L.
  pose proof (proj1 (enough f f' L')) as HE. pose proof (upTo_enough f f') as HT.
  split.
  - intros t B. cbn [pStm].
    destruct t as [|[w|v|p|str] t].
    + rewrite HE by (cbn; lia). reflexivity.
    + destruct (is w "if").
      { destruct (punct "(" t) as [t1|] eqn:E1; [|reflexivity]. rewrite HE by (measure T f).
        destruct (pE f 0 t1) as [[c t2]|] eqn:E2; [|reflexivity]. destruct (punct ")" t2) as [t3|] eqn:E3; [|reflexivity].
        rewrite HS by (measure T f). destruct (pStm T f t3) as [[s1 t4]|] eqn:E4; [|reflexivity].
        destruct (word "else" t4) as [t5|] eqn:E5; [|reflexivity]. rewrite HS by (measure T f). reflexivity. }
      destruct (is w "while").
      { destruct (punct "(" t) as [t1|] eqn:E1; [|reflexivity]. rewrite HE by (measure T f).
        destruct (pE f 0 t1) as [[c t2]|] eqn:E2; [|reflexivity]. destruct (punct ")" t2) as [t3|] eqn:E3; [|reflexivity].
        rewrite HS by (measure T f). reflexivity. }
      destruct (is w "for").
      { destruct (punct "(" t) as [t1|] eqn:E1; [|reflexivity]. rewrite HT by (try exact L'; measure T f).
        destruct (upTo f ";" t1) as [[i t2]|] eqn:E2; [|reflexivity]. destruct i; [reflexivity|].
        rewrite HT by (try exact L'; measure T f). destruct (upTo f ";" t2) as [[c t3]|] eqn:E3; [|reflexivity].
        rewrite HT by (try exact L'; measure T f). destruct (upTo f ")" t3) as [[e t4]|] eqn:E4; [|reflexivity].
        rewrite HS by (measure T f). reflexivity. }
      destruct (is w "do").
      { rewrite HS by (measure T f). destruct (pStm T f t) as [[s1 t1]|] eqn:E1; [|reflexivity].
        destruct (word "while" t1) as [t2|] eqn:E2; [|reflexivity]. destruct (punct "(" t2) as [t3|] eqn:E3; [|reflexivity].
        rewrite HE by (measure T f). reflexivity. }
      destruct (is w "break"); [reflexivity|]. destruct (is w "continue"); [reflexivity|]. destruct (is w "return").
      { rewrite HT by (try exact L'; measure T f). reflexivity. }
      rewrite HE by (cbn [List.length] in *; lia). reflexivity.
    + rewrite HE by (cbn [List.length] in *; lia). reflexivity.
    + destruct (is p "{").
      { rewrite HL by (measure T f). reflexivity. }
      destruct (is p ";"); [reflexivity|]. rewrite HE by (cbn [List.length] in *; lia). reflexivity.
    + rewrite HE by (cbn [List.length] in *; lia). reflexivity.
  - intros t B. cbn [pStms].
    assert (G : t <> [] -> match pStm T f' t with Some (s, r0) => match pStms T f' r0 with Some (l, r1) => Some (s :: l, r1) | None => None end | None => None end =
      match pStm T f t with Some (s, r0) => match pStms T f r0 with Some (l, r1) => Some (s :: l, r1) | None => None end | None => None end).
    { intros N. rewrite HS by lia. destruct (pStm T f t) as [[s r]|] eqn:E; [|reflexivity]. rewrite HL by (measure T f). reflexivity. }
    destruct t as [|[w|v|p|str] t]; [reflexivity| |apply G; discriminate| |apply G; discriminate].
    + destruct (typeWord T w); [|apply G; discriminate]. pose proof (starsOf_len t) as Q. destruct (starsOf t) as [n r].
      destruct r as [|[v|v|v|str] r]; try reflexivity. destruct (isKw v || T v); [reflexivity|].
      destruct (punct ";" r) as [r'|] eqn:E; [|reflexivity]. rewrite HL by (cbn [snd] in Q; measure T f). reflexivity.
    + destruct (is p "}"); [reflexivity|]. apply G. discriminate.
Qed.

Lemma unreadE n x t : clex n x = Some t -> pE (4 * len t + 2) 0 t = None -> ~ exists e, readsE x e.
Proof.
  intros L N (e & f & t' & L' & K).
  assert (t' = t).
  { apply (CLexProofs.clex_mono _ (Nat.max n f) _ _ (Nat.le_max_l n f)) in L. apply (CLexProofs.clex_mono _ (Nat.max n f) _ _ (Nat.le_max_r n f)) in L'. congruence. }
  subst t'. apply (upE _ _ _ f (Nat.max f (4 * len t + 2)) (Nat.le_max_l _ _)) in K.
  rewrite (proj1 (enough (4 * len t + 2) _ (Nat.le_max_r f _))) in K by lia. congruence.
Qed.
Lemma unreadS T n x t : clex n x = Some t -> pStm T (4 * len t + 3) t = None -> ~ exists s, readsS T x s.
Proof.
  intros L N (e & f & t' & L' & K).
  assert (t' = t).
  { apply (CLexProofs.clex_mono _ (Nat.max n f) _ _ (Nat.le_max_l n f)) in L. apply (CLexProofs.clex_mono _ (Nat.max n f) _ _ (Nat.le_max_r n f)) in L'. congruence. }
  subst t'. apply (upM _ _ _ f (Nat.max f (4 * len t + 3)) (Nat.le_max_l _ _)) in K.
  rewrite (proj1 (enoughS T (4 * len t + 3) _ (Nat.le_max_r f _))) in K by lia. congruence.
Qed.
