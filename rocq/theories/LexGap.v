(* White space and comments: skipSpace skips exactly a gap. *)
From Coq Require Import ZArith Bool Lia String Ascii List.
From Verif Require Import Lexer LexSpec LexProofs.
Import ListNotations.
Open Scope Z_scope.

Lemma walk_app t1 t2 r n : walk (t1 ++ t2) r n = walk t2 r (walk t1 (t2 ++ r) n).
Proof.
  revert n. induction t1 as [|c t1 IH]; intros n; [reflexivity|].
  cbn [app walk]. rewrite IH, app_assoc. reflexivity.
Qed.

Lemma skipL_ok p t r : (forall c, In c t -> p c = true) -> p (first r) = false \/ r = [] ->
  forall n, skipL p (t ++ r) n = (r, walk t r n).
Proof.
  induction t as [|c t IH]; intros P R n.
  - destruct r as [|c r]; [reflexivity|]. destruct R as [R|R]; [|discriminate]. cbn in *. now rewrite R.
  - cbn [app skipL walk]. rewrite (P c (or_introl eq_refl)). apply IH; [|exact R]. intros d I. apply P. now right.
Qed.
Lemma skipL_inv p l : forall n l' n', skipL p l n = (l', n') ->
  exists t, l = t ++ l' /\ (forall c, In c t -> p c = true) /\ (p (first l') = false \/ l' = []) /\ n' = walk t l' n.
Proof.
  induction l as [|c l IH]; intros n l' n' H; cbn in H.
  - injection H as <- <-. exists []. repeat split; auto; intros c [].
  - destruct (p c) eqn:P.
    + apply IH in H. destruct H as (t & -> & A & B & C). exists (c :: t). split; [reflexivity|]. split; [intros d [<-|D]; auto|]. split; [exact B|exact C].
    + injection H as <- <-. exists []. repeat split; auto; intros d [].
Qed.

Lemma skipComL_ok b r : (forall p q, b ++ [42; 47] = p ++ [42; 47] ++ q -> q = []) ->
  bytes b -> forall n,
  skipComL (b ++ [42; 47] ++ r) n = LOk ([42; 47] ++ r, walk b ([42; 47] ++ r) n).
Proof.
  induction b as [|c b IH]; intros N F n; [reflexivity|].
  cbn [app skipComL walk]. inversion F as [|? ? F1 F2]; subst.
  destruct ((c =? 42) && (hd0 (b ++ 42 :: 47 :: r) =? 47)) eqn:E.
  - exfalso. rewrite andb_true_iff, !Z.eqb_eq in E. destruct E as (-> & E).
    destruct b as [|d b]; [discriminate|]. cbn in E. subst d.
    specialize (N [] (b ++ [42; 47]) eq_refl). destruct b; discriminate.
  - replace (hd0 (b ++ 42 :: 47 :: r) =? -1) with false.
    + apply IH; [|exact F2]. intros p q E'. apply (N (c :: p) q). cbn. now rewrite E'.
    + symmetry. apply Z.eqb_neq. destruct b as [|d b]; cbn; [lia|]. inversion F2; lia.
Qed.
Lemma skipComL_inv l : forall n l' n', skipComL l n = LOk (l', n') ->
  exists b r, l = b ++ l' /\ l' = [42; 47] ++ r /\ no_close b /\ n' = walk b l' n.
Proof.
  induction l as [|c l IH]; intros n l' n' H; [discriminate|]. cbn [skipComL] in H.
  destruct ((c =? 42) && (hd0 l =? 47)) eqn:E.
  - injection H as <- <-. rewrite andb_true_iff, !Z.eqb_eq in E. destruct E as (-> & E).
    destruct l as [|d l]; [discriminate|]. cbn in E. subst d. exists [], l. repeat split.
    intros p q X. destruct p as [|? [|? [|? ?]]]; cbn in X; [now injection X|discriminate|discriminate|discriminate].
  - destruct (hd0 l =? -1) eqn:E1; [discriminate|]. apply IH in H. destruct H as (b & r & -> & -> & N & ->).
    exists (c :: b), r. repeat split.
    intros p q X. destruct p as [|x p]; cbn in X.
    + exfalso. injection X as -> X. destruct b as [|d b]; [discriminate|]. cbn in X. injection X as -> X.
      cbn in E. discriminate.
    + injection X as -> X. apply (N p q X).
Qed.
Lemma skipComL_bad l : (forall p q, l <> p ++ [42; 47] ++ q) -> forall n, skipComL l n = LErr EComment.
Proof.
  induction l as [|c l IH]; intros N n; [reflexivity|]. cbn [skipComL].
  destruct ((c =? 42) && (hd0 l =? 47)) eqn:E.
  - exfalso. rewrite andb_true_iff, !Z.eqb_eq in E. destruct E as (-> & E).
    destruct l as [|d l]; [discriminate|]. cbn in E. subst d. apply (N [] l). reflexivity.
  - destruct (hd0 l =? -1); [reflexivity|]. apply IH. intros p q ->. now apply (N (c :: p) q).
Qed.

Lemma skipCom_inv s s' : skipCom s = LOk s' -> first (cur s) = 47 -> first (tl (cur s)) = 42 ->
  exists b, cur s = [47; 42] ++ b ++ [42; 47] ++ cur s' /\ no_close b /\
    s' = at_ s (cur s') (walk ([47; 42] ++ b ++ [42; 47]) (cur s') (ln2 s)).
Proof.
  unfold skipCom. destruct (cur s) as [|x [|y l]] eqn:C; cbn [first tl]; try (intros; lia).
  intros H -> ->. unfold getCh in H. rewrite C in H. cbn [tl cur ln2] in H.
  destruct (skipComL _ _) as [[l' n']| |] eqn:E; cbn [lbind] in H; try discriminate.
  injection H as <-. apply skipComL_inv in E. destruct E as (b & r & -> & -> & N & ->).
  cbn [cur at_ tl]. exists b. split; [reflexivity|]. split; [exact N|].
  unfold at_. cbn. f_equal. rewrite walk_app. cbn. rewrite <- ?app_assoc. cbn. reflexivity.
Qed.
Lemma skipCom_ok s b r : cur s = [47; 42] ++ b ++ [42; 47] ++ r -> no_close b -> bytes b ->
  skipCom s = LOk (at_ s r (walk ([47; 42] ++ b ++ [42; 47]) r (ln2 s))).
Proof.
  intros C N F. unfold skipCom, getCh. rewrite C. cbn [app tl cur ln2].
  change (b ++ 42 :: 47 :: r) with (b ++ [42; 47] ++ r). rewrite (skipComL_ok b r N F).
  cbn [lbind]. unfold at_. cbn [cur ln2 ln val str app tl]. f_equal. f_equal.
  cbn [walk]. rewrite walk_app. cbn. rewrite <- ?app_assoc. cbn. reflexivity.
Qed.

(* ---- fuel ---- *)
Lemma skipSpc_inv s : exists t, cur s = t ++ cur (skipSpc s) /\ Forall (fun c => In c blanks) t /\
  ~ In (first (cur (skipSpc s))) blanks /\
  skipSpc s = at_ s (cur (skipSpc s)) (walk t (cur (skipSpc s)) (ln2 s)).
Proof.
  unfold skipSpc. destruct (skipL _ _ _) as [l n] eqn:E. apply skipL_inv in E.
  destruct E as (t & -> & P & Q & ->). exists t. cbn [cur at_]. repeat split.
  - apply Forall_forall. intros c I. apply blank_In, P, I.
  - destruct Q as [Q| ->]; [|intros X; apply blank_In in X; discriminate].
    intros X. apply blank_In in X. congruence.
Qed.
Lemma skipSpc_len s : (List.length (cur (skipSpc s)) <= List.length (cur s))%nat.
Proof. destruct (skipSpc_inv s) as (t & E & _). rewrite E, app_length. lia. Qed.
Lemma skipToEol_inv s : exists t, cur s = t ++ cur (skipToEol s) /\ ~ In 10 t /\
  (first (cur (skipToEol s)) = 10 \/ cur (skipToEol s) = []) /\
  skipToEol s = at_ s (cur (skipToEol s)) (walk t (cur (skipToEol s)) (ln2 s)).
Proof.
  unfold skipToEol. destruct (skipL _ _ _) as [l n] eqn:E. apply skipL_inv in E.
  destruct E as (t & -> & P & Q & ->). exists t. cbn [cur at_]. repeat split.
  - intros I. apply P in I. discriminate.
  - destruct Q as [Q|Q]; [|now right]. left. apply negb_false_iff, Z.eqb_eq in Q. exact Q.
Qed.

Lemma skipSpaceF_fuel f1 : forall f2 s, (List.length (cur s) < f1)%nat -> (List.length (cur s) < f2)%nat ->
  skipSpaceF f1 s = skipSpaceF f2 s.
Proof.
  induction f1 as [|f1 IH]; intros f2 s L1 L2; [lia|]. destruct f2 as [|f2]; [lia|].
  pose proof (skipSpc_len s) as LS. cbn [skipSpaceF]. set (s1 := skipSpc s) in *. cbv zeta.
  unfold ch, nextch. change hd0 with first.
  destruct (Z.eqb_spec (first (cur s1)) 47) as [E1|_]; cbn [andb].
  - destruct (Z.eqb_spec (first (tl (cur s1))) 42) as [E2|_].
    + destruct (skipCom s1) as [s2| |] eqn:E; cbn [lbind]; try reflexivity.
      apply skipCom_inv in E; auto. destruct E as (b & C & _).
      assert (List.length (cur s2) < List.length (cur s1))%nat by (rewrite C, !app_length; cbn; lia).
      apply IH; lia.
    + destruct (Z.eqb_spec (first (tl (cur s1))) 47) as [E3|_].
      * unfold skipCppCom. destruct (skipToEol_inv s1) as (t & C & _ & D & _).
        assert (List.length (cur (skipToEol s1)) < List.length (cur s1))%nat.
        { rewrite C, app_length. destruct t; [|cbn; lia]. exfalso. cbn in C. rewrite <- C in D.
          destruct D as [D|D]; [congruence|]. now rewrite D in E1. }
        apply IH; lia.
      * rewrite E1. reflexivity.
  - destruct (Z.eqb_spec (first (cur s1)) 10) as [E2|_]; cbn [andb]; [|reflexivity].
    destruct (negb _); [|reflexivity].
    assert (List.length (cur (getCh s1)) < List.length (cur s1))%nat
      by (cbn; destruct (cur s1); [discriminate|cbn; lia]).
    apply IH; lia.
Qed.

Lemma skipSpace_eq s : skipSpace s =
  let s := skipSpc s in
  if (ch s =? 47) && (nextch s =? 42) then let* s := skipCom s in skipSpace s
  else if (ch s =? 47) && (nextch s =? 47) then skipSpace (skipCppCom s)
  else if (ch s =? 10) && negb (nextch s =? 35) then skipSpace (getCh s)
  else LOk s.
Proof.
  unfold skipSpace at 1. cbn [skipSpaceF]. pose proof (skipSpc_len s) as LS.
  set (s1 := skipSpc s) in *. cbv zeta.
  unfold ch, nextch. change hd0 with first.
  destruct (Z.eqb_spec (first (cur s1)) 47) as [E1|_]; cbn [andb].
  - destruct (Z.eqb_spec (first (tl (cur s1))) 42) as [E2|_].
    + destruct (skipCom s1) as [s2| |] eqn:E; cbn [lbind]; try reflexivity.
      apply skipCom_inv in E; auto. destruct E as (b & C & _).
      assert (List.length (cur s2) < List.length (cur s1))%nat by (rewrite C, !app_length; cbn; lia).
      apply skipSpaceF_fuel; lia.
    + destruct (Z.eqb_spec (first (tl (cur s1))) 47) as [E3|_].
      * unfold skipCppCom. destruct (skipToEol_inv s1) as (t & C & _ & D & _).
        assert (List.length (cur (skipToEol s1)) < List.length (cur s1))%nat.
        { rewrite C, app_length. destruct t; [|cbn; lia]. exfalso. cbn in C. rewrite <- C in D.
          destruct D as [D|D]; [congruence|]. now rewrite D in E1. }
        apply skipSpaceF_fuel; lia.
      * rewrite E1; reflexivity.
  - destruct (Z.eqb_spec (first (cur s1)) 10) as [E2|_]; cbn [andb]; [|reflexivity].
    destruct (negb _); [|reflexivity].
    assert (List.length (cur (getCh s1)) < List.length (cur s1))%nat
      by (cbn; destruct (cur s1); [discriminate|cbn; lia]).
    apply skipSpaceF_fuel; lia.
Qed.

(* ---- a gap is skipped ---- *)
Lemma skipSpace_blank s c l : cur s = c :: l -> In c blanks -> skipSpace s = skipSpace (getCh s).
Proof.
  intros C B. rewrite (skipSpace_eq s), (skipSpace_eq (getCh s)).
  replace (skipSpc s) with (skipSpc (getCh s)); [reflexivity|].
  unfold skipSpc, getCh. rewrite C. cbn [tl cur ln2 skipL]. apply blank_In in B. rewrite B.
  destruct (skipL _ l _). reflexivity.
Qed.
Lemma skipSpc_stop s : ~ In (first (cur s)) blanks -> skipSpc s = s.
Proof.
  intros A. unfold skipSpc. rewrite skipL_stop; [apply at_self|]. left. apply (not_false _ _ (blank_In _)). exact A.
Qed.
Ltac notblank := let X := fresh in intros X; apply blank_In in X; discriminate.

Lemma bytes_app a b : bytes (a ++ b) <-> bytes a /\ bytes b.
Proof. apply Forall_app. Qed.

Lemma gap_skip g r : gap g r -> bytes g -> forall s, cur s = g ++ r ->
  skipSpace s = skipSpace (at_ s r (walk g r (ln2 s))).
Proof.
  induction 1 as [r|c g r B G IH|g r N G IH|b g r N G IH|b g r N E G IH]; intros F s C.
  - cbn [app walk] in *. rewrite <- C, at_self. reflexivity.
  - inversion F; subst. rewrite (skipSpace_blank s c (g ++ r) C B), IH; auto; unfold getCh; rewrite C; reflexivity.
  - inversion F; subst. rewrite (skipSpace_eq s). rewrite skipSpc_stop by (rewrite C; notblank). cbv zeta. unfold ch, nextch.
    rewrite C. cbn [app hd0 Z.eqb Pos.eqb andb tl]. change hd0 with first.
    destruct (Z.eqb_spec (first (g ++ r)) 35); [congruence|]. cbn [negb].
    rewrite IH; auto; unfold getCh; rewrite C; reflexivity.
  - rewrite <- !app_assoc in C.
    replace ([47; 42] ++ b ++ [42; 47] ++ g) with (([47; 42] ++ b ++ [42; 47]) ++ g) in * by now rewrite <- !app_assoc.
    apply bytes_app in F. destruct F as (F1 & F2).
    rewrite (skipSpace_eq s). rewrite skipSpc_stop by (rewrite C; notblank). cbv zeta. unfold ch, nextch.
    replace (hd0 (cur s)) with 47 by now rewrite C. replace (hd0 (tl (cur s))) with 42 by now rewrite C.
    cbn [Z.eqb Pos.eqb andb]. rewrite (skipCom_ok s b (g ++ r)); auto.
    + cbn [lbind]. rewrite IH by (auto; reflexivity). unfold at_. cbn [ln val str ln2]. rewrite (walk_app ([47; 42] ++ b ++ [42; 47]) g). reflexivity.
    + apply bytes_app in F1. destruct F1 as (_ & F1). now apply bytes_app in F1.
  - rewrite <- !app_assoc in C.
    replace ([47; 47] ++ b ++ g) with (([47; 47] ++ b) ++ g) in * by now rewrite <- !app_assoc.
    apply bytes_app in F. destruct F as (F1 & F2).
    rewrite (skipSpace_eq s). rewrite skipSpc_stop by (rewrite C; notblank). cbv zeta. unfold ch, nextch.
    replace (hd0 (cur s)) with 47 by now rewrite C. replace (hd0 (tl (cur s))) with 47 by now rewrite C.
    cbn [Z.eqb Pos.eqb andb]. unfold skipCppCom, skipToEol. rewrite C, app_assoc.
    rewrite (skipL_ok _ ([47; 47] ++ b) (g ++ r)).
    + rewrite IH by (auto; reflexivity). unfold at_. cbn [ln val str ln2]. rewrite (walk_app ([47; 47] ++ b) g). reflexivity.
    + intros c I. destruct (Z.eqb_spec c 10) as [->|]; [|reflexivity].
      exfalso. destruct I as [I|[I|I]]; [lia|lia|auto].
    + destruct E as [E|E]; [left; now rewrite E|now right].
Qed.

Lemma gap_app g1 g2 r : gap g1 (g2 ++ r) -> gap g2 r -> gap (g1 ++ g2) r.
Proof.
  intros H G2. remember (g2 ++ r) as q eqn:Q. revert Q.
  induction H as [q|c g q B G IH|g q N G IH|b g q N G IH|b g q N E G IH]; intros ->; cbn [app].
  - exact G2.
  - constructor; auto.
  - constructor; [now rewrite <- app_assoc|auto].
  - rewrite <- app_assoc. cbn. apply (gap_block b (g ++ g2) r N). auto.
  - rewrite <- app_assoc. apply (gap_line b (g ++ g2) r N); [now rewrite <- app_assoc|auto].
Qed.
Lemma gap_blanks t r : Forall (fun c => In c blanks) t -> gap t r.
Proof. induction 1; constructor; auto. Qed.

(* ---- only a gap is skipped, and a token starts after it ---- *)
Lemma skipSpaceF_inv f : forall s s', skipSpaceF f s = LOk s' ->
  exists g, cur s = g ++ cur s' /\ gap g (cur s') /\ starts (cur s') /\
    s' = at_ s (cur s') (walk g (cur s') (ln2 s)).
Proof.
  induction f as [|f IH]; intros s s' H; [discriminate|]. cbn [skipSpaceF] in H. cbv zeta in H.
  destruct (skipSpc_inv s) as (t & C & B & NB & ES). set (s1 := skipSpc s) in *.
  assert (FIN : forall g, cur s1 = g ++ cur s' -> gap g (cur s') -> starts (cur s') ->
    s' = at_ s1 (cur s') (walk g (cur s') (ln2 s1)) ->
    exists g, cur s = g ++ cur s' /\ gap g (cur s') /\ starts (cur s') /\
    s' = at_ s (cur s') (walk g (cur s') (ln2 s))).
  { intros g C1 G ST E. exists (t ++ g). split; [now rewrite C, C1, app_assoc|].
    split; [apply gap_app; [now apply gap_blanks|exact G]|]. split; [exact ST|].
    rewrite E, ES. unfold at_. cbn [ln val str ln2 cur]. rewrite walk_app, <- C1. reflexivity. }
  unfold ch, nextch in H. change hd0 with first in H.
  destruct (Z.eqb_spec (first (cur s1)) 47) as [E1|N1]; cbn [andb] in H.
  - destruct (Z.eqb_spec (first (tl (cur s1))) 42) as [E2|N2].
    + destruct (skipCom s1) as [s2| |] eqn:E; cbn [lbind] in H; try discriminate.
      apply IH in H. destruct H as (g & G1 & G2 & G3 & G4).
      apply skipCom_inv in E; auto. destruct E as (b & C2 & NC & C3).
      apply (FIN ([47; 42] ++ b ++ [42; 47] ++ g)); auto.
      * rewrite C2, G1. now rewrite <- !app_assoc.
      * now constructor.
      * replace ([47; 42] ++ b ++ [42; 47] ++ g) with (([47; 42] ++ b ++ [42; 47]) ++ g) by now rewrite <- !app_assoc.
        rewrite walk_app, <- G1. rewrite G4 at 1. rewrite C3. unfold at_. cbn [ln val str ln2 cur]. reflexivity.
    + destruct (Z.eqb_spec (first (tl (cur s1))) 47) as [E3|N3].
      * unfold skipCppCom in H. apply IH in H. destruct H as (g & G1 & G2 & G3 & G4).
        destruct (skipToEol_inv s1) as (u & C2 & NC & D & C3).
        destruct u as [|u1 [|u2 b]].
        { exfalso. cbn in C2. rewrite <- C2 in D. destruct D as [D|D]; [congruence|]. now rewrite D in E1. }
        { exfalso. rewrite C2 in E3. cbn in E3. destruct D as [D|D]; [congruence|]. now rewrite D in E3. }
        rewrite C2 in E1, E3. cbn in E1, E3. subst u1 u2.
        apply (FIN ([47; 47] ++ b ++ g)).
        { rewrite C2 at 1. rewrite G1. cbn [app]. now rewrite <- app_assoc. }
        { constructor; [intros I; apply NC; now right; right| |exact G2]. rewrite <- G1. exact D. }
        { exact G3. }
        { replace ([47; 47] ++ b ++ g) with (([47; 47] ++ b) ++ g) by now rewrite <- !app_assoc.
          rewrite walk_app, <- G1. rewrite G4 at 1. rewrite C3 at 2. rewrite C3 at 1.
          unfold at_. cbn [ln val str ln2 cur]. reflexivity. }
      * rewrite E1 in H. cbn in H. injection H as <-. apply (FIN []); auto.
        { constructor. } { split; [exact NB|]. split; intros; [congruence|auto]. } { now rewrite at_self. }
  - destruct (Z.eqb_spec (first (cur s1)) 10) as [E2|N2]; cbn [andb] in H.
    + destruct (Z.eqb_spec (first (tl (cur s1))) 35) as [E3|N3]; cbn [negb] in H.
      * injection H as <-. apply (FIN []); auto.
        { constructor. } { split; [exact NB|]. split; intros; [congruence|congruence]. } { now rewrite at_self. }
      * apply IH in H. destruct H as (g & G1 & G2 & G3 & G4).
        destruct (cur s1) as [|x l] eqn:C2; [discriminate|]. cbn in E2. subst x. unfold getCh in G1, G4.
        rewrite C2 in G1, G4. cbn [tl cur] in *.
        apply (FIN (10 :: g)); auto.
        { now rewrite G1. } { constructor; [now rewrite <- G1|exact G2]. }
        { cbn [walk]. rewrite <- G1. exact G4. }
    + injection H as <-. apply (FIN []); auto.
      { constructor. } { split; [exact NB|]. split; intros; congruence. } { now rewrite at_self. }
Qed.

(* ---- line counting ---- *)
Definition base (s : lx) : Z := ln2 s - (if first (cur s) =? 10 then 1 else 0).
Lemma newlines_cons c l : newlines (c :: l) = (if c =? 10 then 1 else 0) + newlines l.
Proof.
  unfold newlines. cbn [count_occ]. destruct (Z.eq_dec c 10) as [->|N].
  - rewrite Z.eqb_refl. lia.
  - apply Z.eqb_neq in N. rewrite N. lia.
Qed.
Lemma newlines_app a b : newlines (a ++ b) = newlines a + newlines b.
Proof. unfold newlines. rewrite count_occ_app. lia. Qed.
Lemma walk_base t r n :
  walk t r n - (if first r =? 10 then 1 else 0) = n - (if first (t ++ r) =? 10 then 1 else 0) + newlines t.
Proof.
  revert n. induction t as [|c t IH]; intros n; cbn [walk app].
  - unfold newlines. cbn. lia.
  - rewrite IH, newlines_cons. unfold bump. change hd0 with first. cbn [first].
    destruct (first (t ++ r) =? 10), (c =? 10); lia.
Qed.
