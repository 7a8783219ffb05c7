(* Tokens do not depend on what follows them after white space or a comment;
   layout independence; line numbers. *)
From Coq Require Import ZArith Bool Lia String Ascii List.
From Verif Require Import Lexer LexSpec LexProofs LexGap LexTok LexTotal.
Import ListNotations.
Open Scope Z_scope.

Lemma bytes_first l : bytes l -> first l = -1 -> l = [].
Proof. destruct l as [|c l]; [reflexivity|]. intros H E. inversion H; cbn in E; lia. Qed.
Lemma newlines_0 g : newlines (0 :: g) = newlines g. Proof. rewrite newlines_cons. reflexivity. Qed.

Lemma lexAllF_placed f : forall s items, lexAllF f s = LOk items -> bytes (cur s) -> placed (base s) (cur s) items.
Proof.
  induction f as [|f IH]; intros s items H BY; [discriminate|]. cbn [lexAllF] in H.
  destruct (lxGetTok s) as [[k s']| |] eqn:E; cbn [lbind] in H; try discriminate.
  apply lxGetTok_inv in E. destruct E as (z & g & s1 & C & Z0 & G & ST & W & L1 & V1 & S1 & _ & LN & T).
  assert (GZ : gapz (z ++ g) (cur s1)).
  { destruct Z0 as [->| ->]; [now left|]. right. exists g. auto. }
  rewrite app_assoc in C. set (zg := z ++ g) in *.
  assert (B1 : base s1 = base s + newlines zg).
  { unfold base. rewrite W, C. pose proof (walk_base zg (cur s1) (ln2 s)). lia. }
  rewrite C in BY. apply bytes_app in BY. destruct BY as (_ & BY1).
  destruct T as [(-> & t & C1 & NL & V & Q)|[(-> & -> & E1)|(NE & (w & NW & C1 & W1) & N10)]].
  - cbn [Z.eqb LxFILE EOFtok] in H.
    destruct (lexAllF f s') as [its| |] eqn:E; cbn [lbind] in H; try discriminate. injection H as <-.
    rewrite C, C1. apply pl_file; auto; [now rewrite <- C1| |].
    + rewrite LN, L1. unfold base in B1. rewrite C1 in B1. change (first ([10; 35] ++ t ++ cur s')) with 10 in B1.
      cbn [Z.eqb Pos.eqb] in B1. unfold base. lia.
    + rewrite C1 in BY1. apply bytes_app in BY1. destruct BY1 as (_ & BY2). apply bytes_app in BY2. destruct BY2 as (_ & BY2).
      specialize (IH s' its E BY2). unfold base in IH at 1. rewrite V in IH. destruct (first (cur s') =? 10); [exact IH|].
      now rewrite Z.sub_0_r in IH.
  - rewrite Z.eqb_refl in H. injection H as <-. apply bytes_first in E1; [|exact BY1].
    rewrite C, E1, app_nil_r. rewrite E1 in GZ. apply pl_eof; [exact GZ|].
    rewrite L1. unfold base in B1. rewrite E1 in B1. cbn [first Z.eqb] in B1. unfold base. lia.
  - rewrite (proj2 (Z.eqb_neq _ _) NE) in H.
    destruct (lexAllF f s') as [its| |] eqn:E; cbn [lbind] in H; try discriminate. injection H as <-.
    rewrite C, C1. apply pl_tok; auto; [now rewrite <- C1|now rewrite <- C1| |].
    + rewrite LN, L1. unfold base in B1. rewrite (proj2 (Z.eqb_neq _ _) N10) in B1. unfold base. lia.
    + rewrite C1 in BY1. apply bytes_app in BY1. destruct BY1 as (_ & BY2).
      specialize (IH s' its E BY2). replace (base s + newlines (zg ++ w)) with (base s'); [exact IH|].
      rewrite newlines_app. unfold base at 1. rewrite W1. pose proof (walk_base w (cur s') (ln2 s1)) as X.
      rewrite <- C1 in X. unfold base in B1 at 1. lia.
Qed.
Lemma lexAllF_init n file : lexAllF (S n) (lxInit file) = lexAllF (S n) (Lx (10 :: file) 1 1 0 []).
Proof. reflexivity. Qed.
Lemma lexAll_placed file items : bytes file -> lexAll file = LOk items -> placed 0 (10 :: file) items.
Proof.
  intros B. unfold lexAll. rewrite Nat.add_comm. cbn [Nat.add]. rewrite lexAllF_init. intros H.
  apply lexAllF_placed in H; [exact H|]. constructor; [lia|exact B].
Qed.

(* ---- locality ---- *)
Lemma digitsL_ext p b dv t r : p (first r) = false \/ r = [] -> forall n v v' n1 n',
  digitsL p b dv t n v = LOk (v', [], n1) -> exists n2, digitsL p b dv (t ++ r) n' v = LOk (v', r, n2).
Proof.
  intros R. induction t as [|c t IH]; intros n v v' n1 n' H; cbn [digitsL app] in *.
  - injection H as <- _. destruct r as [|d r]; [eexists; reflexivity|]. destruct R as [R|R]; [|discriminate].
    cbn in R. cbn [digitsL]. rewrite R. eexists. reflexivity.
  - destruct (p c); [|discriminate]. cbv zeta in *. destruct (_ <=? _); [|discriminate]. exact (IH _ _ _ _ _ H).
Qed.
Lemma storeL_ext p t r : p (first r) = false \/ r = [] -> forall n i acc n1 i' acc' n',
  storeL p t n i acc = ([], n1, i', acc') -> exists n2, storeL p (t ++ r) n' i acc = (r, n2, i', acc').
Proof.
  intros R. induction t as [|c t IH]; intros n i acc n1 i' acc' n' H; cbn [storeL app] in *.
  - injection H as _ <- <-. destruct r as [|d r]; [eexists; reflexivity|]. destruct R as [R|R]; [|discriminate].
    cbn in R. cbn [storeL]. rewrite R. eexists. reflexivity.
  - destruct (p c && _); [|discriminate]. exact (IH _ _ _ _ _ _ _ H).
Qed.

Definition ext (r : list Z) (s s2 : lx) : Prop := cur s2 = cur s ++ r /\ val s2 = val s /\ str s2 = str s.
Lemma ext_getCh r s s2 : ext r s s2 -> cur s <> [] -> ext r (getCh s) (getCh s2).
Proof.
  intros (C & V & S) N. unfold getCh, ext. cbn [cur val str]. rewrite C. destruct (cur s); [congruence|]. auto.
Qed.
Lemma ext_ch r s s2 : ext r s s2 -> cur s <> [] -> ch s2 = ch s.
Proof. intros (C & _) N. unfold ch. rewrite C. destruct (cur s); [congruence|]. reflexivity. Qed.
Lemma ext_nextch r s s2 : ext r s s2 -> tl (cur s) <> [] -> nextch s2 = nextch s.
Proof. intros (C & _) N. unfold nextch. rewrite C. destruct (cur s) as [|? [|? ?]]; cbn in *; congruence. Qed.
Lemma tl_ne (l : list Z) : tl l <> [] -> l <> []. Proof. destruct l; cbn; congruence. Qed.

Lemma hexStrL_ext r l : forall c n v v' c' l' n1 n', hexStrL c l n v = LOk (v', c' :: l', n1) -> l' <> [] ->
  exists n2, hexStrL c (l ++ r) n' v = LOk (v', c' :: l' ++ r, n2).
Proof.
  induction l as [|d l IH]; intros c n v v' c' l' n1 n' H N; cbn [hexStrL app] in *.
  - injection H as _ _ <- _. congruence.
  - destruct (c_isxdigit d).
    + cbv zeta in *. destruct (255 <? _); [discriminate|]. exact (IH _ _ _ _ _ _ _ _ H N).
    + injection H as <- <- <- _. eexists. reflexivity.
Qed.
Lemma getHexStr_ext r s s2 v s' : ext r s s2 -> cur s <> [] -> getHexStr s = LOk (v, s') -> tl (cur s') <> [] ->
  exists s2', getHexStr s2 = LOk (v, s2') /\ ext r s' s2'.
Proof.
  intros X N H NT. unfold getHexStr in *.
  destruct (c_isxdigit (nextch s)) eqn:XN; cbn [negb] in H; [|discriminate].
  assert (T : tl (cur s) <> []) by (unfold nextch in XN; intros E; now rewrite E in XN).
  rewrite (ext_nextch r s s2 X T), XN. cbn [negb]. rewrite (ext_ch r s s2 X N).
  destruct X as (C & V & S). rewrite C.
  replace (tl (cur s ++ r)) with (tl (cur s) ++ r) by (destruct (cur s); [congruence|reflexivity]).
  destruct (hexStrL (ch s) (tl (cur s)) (ln2 s) 0) as [[[v1 l1] n1]| |] eqn:E; cbn [lbind] in H; try discriminate.
  injection H as <- <-. cbn [cur at_] in NT. destruct l1 as [|c' l']; [cbn in NT; congruence|].
  destruct (hexStrL_ext r _ _ _ _ _ _ _ _ (ln2 s2) E NT) as (n2 & ->). cbn [lbind].
  eexists. split; [reflexivity|]. split; [reflexivity|]. split; [exact V|exact S].
Qed.
Lemma octStrL_ext r k : forall s s2 v v' s', ext r s s2 -> cur s <> [] -> octStrL k s v = LOk (v', s') -> tl (cur s') <> [] ->
  exists s2', octStrL k s2 v = LOk (v', s2') /\ ext r s' s2'.
Proof.
  induction k as [|k IH]; intros s s2 v v' s' X N H NT; cbn [octStrL] in *; cbv zeta in *;
    rewrite (ext_ch r s s2 X N); destruct (255 <? _); try discriminate.
  - assert (s' = s) by (destruct (negb _); congruence). subst s'.
    rewrite (ext_nextch r s s2 X NT). destruct (negb _); injection H as <-; eexists; (split; [reflexivity|exact X]).
  - destruct (isOdigit (nextch s)) eqn:O; cbn [negb] in H.
    + assert (T : tl (cur s) <> []) by (unfold nextch in O; intros E; now rewrite E in O).
      rewrite (ext_nextch r s s2 X T), O. cbn [negb].
      apply (IH (getCh s) (getCh s2)); auto. now apply ext_getCh.
    + injection H as <- <-. rewrite (ext_nextch r s s2 X NT), O. cbn [negb]. eexists. split; [reflexivity|exact X].
Qed.

Lemma getStrF_next f s acc cnt x : getStrF f s acc cnt = LOk x -> tl (cur s) <> [].
Proof.
  destruct f as [|f]; [discriminate|]. cbn [getStrF]. cbv zeta. intros H E.
  assert (Q : ch (getCh s) = -1) by (unfold ch, getCh; cbn [cur]; now rewrite E).
  rewrite Q in H. cbn in H. discriminate.
Qed.
Lemma getStrF_ext r f : forall f2 s s2 acc cnt s' acc' cnt', (f <= f2)%nat -> ext r s s2 ->
  getStrF f s acc cnt = LOk (s', acc', cnt') ->
  exists s2', getStrF f2 s2 acc cnt = LOk (s2', acc', cnt') /\ ext r s' s2'.
Proof.
  induction f as [|f IH]; intros f2 s s2 acc cnt s' acc' cnt' LE X H; [discriminate|].
  destruct f2 as [|f2]; [lia|]. pose proof (getStrF_next _ _ _ _ _ H) as T. cbn [getStrF] in *. cbv zeta in *.
  pose proof (ext_getCh r s s2 X (tl_ne _ T)) as X1.
  assert (N1 : cur (getCh s) <> []) by exact T.
  rewrite (ext_ch r _ _ X1 N1). set (s1 := getCh s) in *. set (q1 := getCh s2) in *.
  assert (LV : (if negb (ch s1 =? 34) then LErr EStrEnd else LOk (s1, acc, cnt)) = LOk (s', acc', cnt') ->
    exists s2', (if negb (ch s1 =? 34) then LErr EStrEnd else LOk (q1, acc, cnt)) = LOk (s2', acc', cnt') /\ ext r s' s2').
  { destruct (negb _); [discriminate|]. intros Y. injection Y as <- <- <-. eexists. split; [reflexivity|exact X1]. }
  destruct ((ch s1 =? 34) || (ch s1 =? -1) || (StrMAX <? slen acc)); [auto|].
  destruct (c_iscntrl (ch s1)); [auto|].
  destruct (negb (ch s1 =? 92)); [apply (IH f2 s1 q1); auto; lia|].
  pose proof (ext_getCh r s1 q1 X1 N1) as X2.
  destruct (cur (getCh s1)) as [|x0 l0] eqn:CE.
  { exfalso. assert (Q : ch (getCh s1) = -1) by (unfold ch; now rewrite CE). rewrite Q in H. cbn [Z.eqb isOdigit] in H.
    cbn in H. destruct (StrMAX <? slen acc + 1); [discriminate|]. apply getStrF_next in H. rewrite CE in H. now cbn in H. }
  assert (N2 : cur (getCh s1) <> []) by (rewrite CE; discriminate).
  rewrite (ext_ch r _ _ X2 N2). set (s3 := getCh s1) in *. set (q3 := getCh q1) in *.
  destruct (ch s3 =? 120).
  - destruct (getHexStr s3) as [[v s4]| |] eqn:E; cbn [lbind] in H; try discriminate.
    destruct (putOctStr v (slen acc) acc) as [a| |] eqn:P; cbn [lbind] in H; try discriminate.
    destruct (getHexStr_ext r s3 q3 v s4 X2 N2 E (getStrF_next _ _ _ _ _ H)) as (q4 & -> & X4). cbn [lbind]. rewrite P. cbn [lbind].
    apply (IH f2 s4 q4); auto; lia.
  - destruct (isOdigit (ch s3)).
    + unfold getOctStr in *. destruct (octStrL 2 s3 0) as [[v s4]| |] eqn:E; cbn [lbind] in H; try discriminate.
      destruct (putOctStr v (slen acc) acc) as [a| |] eqn:P; cbn [lbind] in H; try discriminate.
      destruct (octStrL_ext r 2 s3 q3 0 v s4 X2 N2 E (getStrF_next _ _ _ _ _ H)) as (q4 & -> & X4). cbn [lbind]. rewrite P. cbn [lbind].
      apply (IH f2 s4 q4); auto; lia.
    + destruct (StrMAX <? slen acc + 1); [discriminate|]. apply (IH f2 s3 q3); auto; lia.
Qed.

Lemma sep_class (p : Z -> bool) t r : sep t r ->
  forallb (fun c => negb (p c)) (47 :: 10 :: blanks) = true -> p (first r) = false \/ r = [].
Proof.
  intros S F. rewrite forallb_forall in F. destruct S as [->|S]; [now right|]. left.
  assert (I : In (first r) (47 :: 10 :: blanks)) by (destruct S as [S|(<- & _)]; [now right|now left]).
  apply F in I. now apply negb_true_iff in I.
Qed.

Definition lone (s : lx) (t r : list Z) (k : Z) (s' : lx) : Prop :=
  cur s = t /\ starts t /\ dispatch s = LOk (k, s') /\ cur s' = [] /\ k <> EOFtok /\ (ch s = 10 -> nextch s <> 35).

Lemma ext_at r s s2 n : ext r s s2 -> forall l l2 m, l2 = l ++ r -> ext r (at_ s l n) (at_ s2 l2 m).
Proof. intros (C & V & S) l l2 m E. split; [exact E|]. split; assumption. Qed.

Lemma dispatch_local s s2 t r k s' : lone s t r k s' -> sep t r -> cur s2 = t ++ r -> val s2 = val s -> str s2 = str s ->
  exists s2', dispatch s2 = LOk (k, s2') /\ cur s2' = r /\ val s2' = val s' /\ str s2' = str s'.
Proof.
  intros (C & (NB & ST10 & ST47) & D & CE & NE & N35) SP C2 V2 S2.
  assert (X : ext r s s2) by (split; [now rewrite C2, C|split; assumption]).
  unfold dispatch in D.
  destruct (Z.eqb_spec (ch s) (-1)) as [|N1]; [congruence|].
  assert (N : cur s <> []) by now apply ch_ne.
  assert (NT : t <> []) by congruence.
  assert (CH : ch s2 = ch s) by now apply (ext_ch r).
  assert (N10 : ch s <> 10).
  { intros E. apply (N35 E). unfold ch in E. unfold nextch. rewrite C in *. change hd0 with first in *. auto. }
  rewrite (proj2 (Z.eqb_neq _ _) N10) in D. cbn [andb] in D.
  assert (FIN : forall s2', ext r s' s2' -> cur s2' = r /\ val s2' = val s' /\ str s2' = str s').
  { intros s2' (A & B & E). rewrite CE in A. auto. }
  assert (GOAL : (if c_isdigit (ch s) then getDigit s2
     else if c_isalpha (ch s) || (ch s =? 95) then
       let* (t, s) := getWord s2 in
       LOk (if t =? LxTRUE then (LxLOGICAL, setVal s 1)
            else if t =? LxFALSE then (LxLOGICAL, setVal s 0) else (t, s))
     else if ch s =? 34 then getStr s2 else if ch s =? 39 then getChar s2 else getSign s2) = dispatch s2).
  { unfold dispatch. rewrite CH. rewrite (proj2 (Z.eqb_neq _ _) N1), (proj2 (Z.eqb_neq _ _) N10). reflexivity. }
  rewrite <- GOAL. clear GOAL.
  destruct (c_isdigit (ch s)) eqn:DG.
  { unfold getDigit in *. rewrite CH.
    assert (GD : forall p b dv a a2 v a', forallb (fun c => negb (p c)) (47 :: 10 :: blanks) = true ->
      ext r a a2 -> getDigits p b dv a = LOk (v, a') -> cur a' = [] ->
      exists a2', getDigits p b dv a2 = LOk (v, a2') /\ ext r a' a2').
    { intros p b dv a a2 v a' F (XA & XB & XC) H CA. unfold getDigits in *.
      destruct (digitsL p b dv (cur a) (ln2 a) 0) as [[[v1 l1] n1]| |] eqn:E; cbn [lbind] in H; try discriminate.
      injection H as <- <-. cbn [cur at_] in CA. subst l1.
      destruct (digitsL_ext p b dv (cur a) r (sep_class p t r SP F) _ _ _ _ (ln2 a2) E) as (n2 & E2).
      rewrite XA, E2. cbn [lbind]. eexists. split; [reflexivity|]. split; [reflexivity|]. split; assumption. }
    assert (FIN2 : forall (x x2 : lres (Z * lx)), (let* (v, s0) := x in LOk (LxINTEGER, setVal s0 v)) = LOk (k, s') ->
      (forall v a', x = LOk (v, a') -> cur a' = [] -> exists a2', x2 = LOk (v, a2') /\ ext r a' a2') ->
      exists s2', (let* (v, s0) := x2 in LOk (LxINTEGER, setVal s0 v)) = LOk (k, s2') /\
        cur s2' = r /\ val s2' = val s' /\ str s2' = str s').
    { intros x x2 H P. destruct x as [[v a']| |]; cbn [lbind] in H; try discriminate. injection H as <- <-.
      destruct (P v a' eq_refl CE) as (a2' & -> & XA & XB & XC). cbn [lbind]. eexists. split; [reflexivity|].
      cbn [cur setVal val str]. cbn [cur setVal] in CE. rewrite CE in XA. auto. }
    assert (PRE : (ch s =? 48) && ((nextch s2 =? 120) || (nextch s2 =? 88)) =
                  (ch s =? 48) && ((nextch s =? 120) || (nextch s =? 88))).
    { destruct (cur s) as [|c [|d l]] eqn:CS; [congruence| |].
      - f_equal. unfold nextch. rewrite C2, <- C, CS. cbn [app tl hd0]. change hd0 with first.
        destruct (sep_class (fun c => (c =? 120) || (c =? 88)) t r SP ltac:(vm_compute; reflexivity)) as [E| ->]; [exact E|reflexivity].
      - rewrite (ext_nextch r s s2 X); [reflexivity|]. rewrite CS. discriminate. }
    rewrite PRE. refine (FIN2 _ _ D _). intros v a' H CA.
    destruct ((ch s =? 48) && ((nextch s =? 120) || (nextch s =? 88))) eqn:HX.
    - unfold getHex in *.
      assert (T : tl (cur s) <> []).
      { intros E. apply andb_true_iff in HX. destruct HX as (_ & HX). unfold nextch in HX. rewrite E in HX. discriminate. }
      pose proof (ext_getCh r _ _ X N) as X1. assert (M1 : cur (getCh s) <> []) by exact T.
      pose proof (ext_getCh r _ _ X1 M1) as X2.
      destruct (c_isxdigit (ch (getCh (getCh s)))) eqn:XD; [|discriminate].
      assert (M2 : cur (getCh (getCh s)) <> []) by (intros E; unfold ch in XD; rewrite E in XD; discriminate).
      rewrite (ext_ch r _ _ X2 M2), XD. apply (GD _ _ _ (getCh (getCh s))); auto; vm_compute; reflexivity.
    - destruct (ch s =? 48); [unfold getOct in *|unfold getDec in *]; apply (GD _ _ _ s); auto; vm_compute; reflexivity. }
  destruct (c_isalpha (ch s) || (ch s =? 95)) eqn:AL.
  { unfold getWord in *. destruct (storeL _ (cur s) _ _ _) as [[[l n] i] acc] eqn:ES.
    destruct (negb (isDelim (ch (at_ s l n)))) eqn:DL; [discriminate|].
    destruct (StrMAX <? i) eqn:LT; [discriminate|]. cbn [lbind] in D.
    assert (L0 : l = []).
    { destruct (searchRsv _ acc =? LxTRUE); [|destruct (searchRsv _ acc =? LxFALSE)];
        assert (cur s' = l) by (injection D as _ <-; reflexivity); congruence. }
    subst l.
    destruct (storeL_ext (fun c => negb (isDelim c)) (cur s) r
      (sep_class (fun c => negb (isDelim c)) t r SP ltac:(vm_compute; reflexivity)) _ _ _ _ _ _ (ln2 s2) ES) as (n2 & E2).
    destruct X as (XA & XB & XC). rewrite XA, E2.
    replace (negb (isDelim (ch (at_ s2 r n2)))) with false.
    2:{ symmetry. unfold ch. cbn [cur at_]. change hd0 with first.
        destruct (sep_class (fun c => negb (isDelim c)) t r SP ltac:(vm_compute; reflexivity)) as [E| ->]; [exact E|reflexivity]. }
    rewrite LT. cbn [lbind].
    destruct (searchRsv _ acc =? LxTRUE); [|destruct (searchRsv _ acc =? LxFALSE)]; injection D as <- <-; eexists;
      (split; [reflexivity|]); cbn [cur setVal setStr at_ val str]; auto. }
  destruct (ch s =? 34).
  { unfold getStr in *. destruct (getStrF _ s _ _) as [[[s1 acc] cnt]| |] eqn:E; cbn [lbind] in D; try discriminate.
    pose proof (getStrF_adv _ _ _ _ _ _ _ E) as (_ & Q & _).
    destruct (getStrF_ext r (S (List.length (cur s))) (S (List.length (cur s2))) s s2 _ _ _ _ _ ltac:(rewrite C2, <- C, app_length; lia) X E) as (q1 & -> & X1).
    cbn [lbind]. destruct (StrMAX <? slen acc); [discriminate|]. injection D as <- <-.
    eexists. split; [reflexivity|].
    assert (M1 : cur s1 <> []) by (apply ch_ne; lia).
    destruct (ext_getCh r _ _ X1 M1) as (XA & XB & XC). cbn [cur setVal setStr val str].
    cbn [cur setVal setStr] in CE. rewrite XA, CE. auto. }
  destruct (ch s =? 39).
  { unfold getChar in *. cbv zeta in *. pose proof (ext_getCh r _ _ X N) as X1.
    assert (FIN3 : forall (x x2 : lres (Z * lx)),
      (let* (v, s0) := x in if negb (ch (setVal s0 v) =? 39) then LErr ECharEnd else LOk (LxCHARACTER, getCh (setVal s0 v))) = LOk (k, s') ->
      (forall v a', x = LOk (v, a') -> cur a' <> [] -> exists a2', x2 = LOk (v, a2') /\ ext r a' a2') ->
      exists s2', (let* (v, s0) := x2 in if negb (ch (setVal s0 v) =? 39) then LErr ECharEnd else LOk (LxCHARACTER, getCh (setVal s0 v))) = LOk (k, s2') /\
        cur s2' = r /\ val s2' = val s' /\ str s2' = str s').
    { intros x x2 H P. destruct x as [[v a']| |]; cbn [lbind] in H; try discriminate.
      destruct (Z.eqb_spec (ch (setVal a' v)) 39) as [Q|]; cbn [negb] in H; [|discriminate]. injection H as <- <-.
      assert (MA : cur a' <> []) by (apply (ch_ne (setVal a' v)); lia).
      destruct (P v a' eq_refl MA) as (a2' & -> & XA). cbn [lbind].
      change (ch (setVal a2' v)) with (ch a2'). rewrite (ext_ch r _ _ XA MA). change (ch a') with (ch (setVal a' v)). rewrite Q.
      cbn [Z.eqb Pos.eqb negb]. eexists. split; [reflexivity|].
      destruct (ext_getCh r _ _ XA MA) as (XB & XC & XD).
      change (cur (getCh (setVal a' v))) with (cur (getCh a')) in CE.
      change (cur (getCh (setVal a2' v))) with (cur (getCh a2')). rewrite XB, CE. cbn. destruct XA as (_ & _ & XA). auto. }
    refine (FIN3 _ _ D _). clear FIN3. intros v a' H MA.
    destruct (cur (getCh s)) as [|c0 l0] eqn:CE0.
    { exfalso. assert (Q : ch (getCh s) = -1) by (unfold ch; now rewrite CE0). rewrite Q in H. cbn in H.
      injection H as <- <-. unfold getCh in CE0. cbn [cur] in CE0. apply MA. unfold getCh. cbn [cur]. now rewrite CE0. }
    assert (M1 : cur (getCh s) <> []) by (rewrite CE0; discriminate).
    rewrite (ext_ch r _ _ X1 M1). destruct (ch (getCh s) =? 92).
    2:{ injection H as <- <-. eexists. split; [reflexivity|]. now apply ext_getCh. }
    unfold getEsc in *. cbv zeta in *. pose proof (ext_getCh r _ _ X1 M1) as X2.
    destruct (cur (getCh (getCh s))) as [|c1 l1] eqn:CE1.
    { exfalso. assert (Q : ch (getCh (getCh s)) = -1) by (unfold ch; now rewrite CE1). rewrite Q in H. cbn in H. discriminate. }
    assert (M2 : cur (getCh (getCh s)) <> []) by (rewrite CE1; discriminate).
    rewrite (ext_ch r _ _ X2 M2). set (a := getCh (getCh s)) in *. set (a2 := getCh (getCh s2)) in *.
    pose proof (ext_getCh r _ _ X2 M2) as X3.
    assert (SIMPLE : forall w, LOk (w, getCh a) = LOk (v, a') -> exists a2', LOk (w, getCh a2) = LOk (v, a2') /\ ext r a' a2').
    { intros w Y. injection Y as <- <-. eexists. split; [reflexivity|exact X3]. }
    destruct (ch a =? 110); [apply SIMPLE, H|]. destruct (ch a =? 116); [apply SIMPLE, H|].
    destruct (ch a =? 114); [apply SIMPLE, H|].
    destruct ((ch a =? 120) || (ch a =? 88)).
    { destruct (getHexStr a) as [[w b]| |] eqn:E; cbn [lbind] in H; try discriminate. injection H as <- <-.
      destruct (getHexStr_ext r a a2 w b X2 M2 E MA) as (b2 & -> & XB). cbn [lbind].
      eexists. split; [reflexivity|]. apply ext_getCh; [exact XB|]. now apply tl_ne. }
    destruct (isOdigit (ch a)).
    { unfold getOctStr in *. destruct (octStrL 2 a 0) as [[w b]| |] eqn:E; cbn [lbind] in H; try discriminate. injection H as <- <-.
      destruct (octStrL_ext r 2 a a2 0 w b X2 M2 E MA) as (b2 & -> & XB). cbn [lbind].
      eexists. split; [reflexivity|]. apply ext_getCh; [exact XB|]. now apply tl_ne. }
    destruct (c_isprint (ch a)); [apply SIMPLE, H|discriminate]. }
  (* signs *)
  unfold getSign in *. cbv zeta in *. rewrite CH.
  pose proof (ext_getCh r _ _ X N) as X1.
  destruct (tl (cur s)) as [|d l] eqn:TL.
  - (* one character *)
    assert (ND : nextch s = -1) by (unfold nextch; now rewrite TL).
    assert (ND2 : nextch s2 = first r).
    { unfold nextch. rewrite C2, <- C. destruct (cur s) as [|c l]; [congruence|]. cbn in TL. subst l. reflexivity. }
    rewrite ND in D. rewrite !andb_false_r in D.
    rewrite ND2.
    assert (F : forall e, In e [61; 124; 38; 60; 62; 43; 45; 46] -> (first r =? e) = false).
    { intros e I. apply Z.eqb_neq. intros EQ.
      destruct (sep_class (fun c => inb c [61; 124; 38; 60; 62; 43; 45; 46]) t r SP ltac:(vm_compute; reflexivity)) as [E| ->].
      - apply inb_nIn in E. congruence.
      - cbn in EQ. subst e. apply inb_In in I. discriminate. }
    rewrite !F by (cbn; tauto). rewrite !andb_false_r. injection D as <- <-.
    eexists. split; [reflexivity|]. apply FIN. exact X1.
  - assert (T : tl (cur s) <> []) by (rewrite TL; discriminate).
    rewrite (ext_nextch r s s2 X T).
    assert (M1 : cur (getCh s) <> []) by exact T.
    pose proof (ext_getCh r _ _ X1 M1) as X2.
    repeat match type of D with
    | (if ?b then LOk _ else _) = _ =>
      destruct b; [injection D as <- <-; eexists; split; [reflexivity|]; apply FIN; exact X2|]
    end.
    destruct ((ch s =? 46) && (nextch s =? 46)).
    + destruct (cur (getCh (getCh s))) as [|x l2] eqn:C3.
      * assert (Q : nextch (getCh s) = -1) by (unfold nextch; unfold getCh in C3; cbn [cur] in C3; unfold getCh; cbn [cur]; now rewrite C3).
        rewrite Q in D. cbn [Z.eqb] in D. injection D as <- <-.
        replace (nextch (getCh s2) =? 46) with false.
        -- eexists. split; [reflexivity|]. apply FIN. exact X2.
        -- symmetry. destruct X2 as (XA & _). rewrite C3 in XA.
           assert (Q2 : nextch (getCh s2) = first r) by (unfold nextch, getCh; unfold getCh in XA; cbn [cur] in *; rewrite XA; reflexivity).
           rewrite Q2. destruct (sep_class (fun c => c =? 46) t r SP ltac:(vm_compute; reflexivity)) as [E| ->]; [exact E|reflexivity].
      * assert (M2 : cur (getCh (getCh s)) <> []) by (rewrite C3; discriminate).
        assert (T2 : tl (cur (getCh s)) <> []) by exact M2.
        rewrite (ext_nextch r _ _ X1 T2).
        destruct (nextch (getCh s) =? 46); injection D as <- <-; eexists; (split; [reflexivity|]); apply FIN; [|exact X2].
        exact (ext_getCh r _ _ X2 M2).
    + injection D as <- <-. eexists. split; [reflexivity|]. apply FIN. exact X1.
Qed.
