(* Every token takes text off the front of the input; totality; buffer bounds. *)
From Coq Require Import ZArith Bool Lia String Ascii List.
From Verif Require Import Lexer LexSpec LexProofs LexGap.
Import ListNotations.
Open Scope Z_scope.

Definition adv (s s' : lx) : Prop := exists t, cur s = t ++ cur s' /\ ln2 s' = walk t (cur s') (ln2 s).
Definition adv1 (s s' : lx) : Prop := exists t, t <> [] /\ cur s = t ++ cur s' /\ ln2 s' = walk t (cur s') (ln2 s).
Lemma adv_refl s : adv s s. Proof. exists []. auto. Qed.
Lemma adv_trans s1 s2 s3 : adv s1 s2 -> adv s2 s3 -> adv s1 s3.
Proof.
  intros (t & C & W) (u & D & X). exists (t ++ u). split; [now rewrite C, D, app_assoc|].
  rewrite walk_app, <- D, <- W. exact X.
Qed.
Lemma adv1_trans s1 s2 s3 : adv1 s1 s2 -> adv s2 s3 -> adv1 s1 s3.
Proof.
  intros (t & N & C & W) (u & D & X). exists (t ++ u). split; [destruct t; [congruence|discriminate]|].
  split; [now rewrite C, D, app_assoc|]. rewrite walk_app, <- D, <- W. exact X.
Qed.
Lemma adv1_adv s s' : adv1 s s' -> adv s s'. Proof. intros (t & _ & H). now exists t. Qed.
Lemma adv_trans1 s1 s2 s3 : adv s1 s2 -> adv1 s2 s3 -> adv1 s1 s3.
Proof.
  intros (t & C & W) (u & N & D & X). exists (t ++ u). split; [destruct t; [auto|discriminate]|].
  split; [now rewrite C, D, app_assoc|]. rewrite walk_app, <- D, <- W. exact X.
Qed.
Lemma adv_getCh s : adv s (getCh s).
Proof.
  unfold getCh. destruct (cur s) as [|c l] eqn:C.
  - exists []. rewrite C. split; reflexivity.
  - exists [c]. rewrite C. split; reflexivity.
Qed.
Lemma adv1_getCh s : cur s <> [] -> adv1 s (getCh s).
Proof.
  unfold getCh. destruct (cur s) as [|c l] eqn:C; [congruence|]. intros _.
  exists [c]. rewrite C. repeat split. discriminate.
Qed.
Lemma adv_same s s1 s2 : adv s s1 -> cur s2 = cur s1 -> ln2 s2 = ln2 s1 -> adv s s2.
Proof. intros (t & C & W) E1 E2. exists t. now rewrite E1, E2. Qed.
Lemma adv1_same s s1 s2 : adv1 s s1 -> cur s2 = cur s1 -> ln2 s2 = ln2 s1 -> adv1 s s2.
Proof. intros (t & N & C & W) E1 E2. exists t. now rewrite E1, E2. Qed.
Lemma adv_len s s' : adv s s' -> (List.length (cur s') <= List.length (cur s))%nat.
Proof. intros (t & C & _). rewrite C, app_length. lia. Qed.
Lemma adv1_len s s' : adv1 s s' -> (List.length (cur s') < List.length (cur s))%nat.
Proof. intros ([|c t] & N & C & _); [congruence|]. rewrite C, app_length. cbn. lia. Qed.
Lemma ch_ne s : ch s <> -1 -> cur s <> [].
Proof. unfold ch. intros H E. now rewrite E in H. Qed.

(* ---- the pieces ---- *)
Lemma digitsL_inv p b dv l : forall n v v' l' n', digitsL p b dv l n v = LOk (v', l', n') ->
  exists t, l = t ++ l' /\ (forall c, In c t -> p c = true) /\ (p (first l') = false \/ l' = []) /\ n' = walk t l' n.
Proof.
  induction l as [|c l IH]; intros n v v' l' n' H; cbn [digitsL] in H.
  - injection H as <- <- <-. exists []. repeat split; auto; intros c [].
  - destruct (p c) eqn:P.
    + cbv zeta in H. destruct (v * b + dv c <=? HostMax); [|discriminate].
      apply IH in H. destruct H as (t & -> & A & B & C). exists (c :: t).
      split; [reflexivity|]. split; [intros d [<-|D]; auto|]. split; [exact B|exact C].
    + injection H as <- <- <-. exists []. repeat split; auto; intros d [].
Qed.
Lemma getDigits_adv p b dv s v s' : getDigits p b dv s = LOk (v, s') ->
  adv s s' /\ ln s' = ln s /\ val s' = val s /\ str s' = str s /\ (p (ch s) = true -> ch s <> -1 -> adv1 s s').
Proof.
  unfold getDigits. destruct (digitsL _ _ _ _ _ _) as [[[v1 l] n]| |] eqn:E; cbn [lbind]; try discriminate.
  intros H. injection H as <- <-. apply digitsL_inv in E. destruct E as (t & C & P & Q & W).
  split; [exists t; auto|]. repeat (split; [reflexivity|]).
  intros PC N. exists t. split; [|auto]. intros ->. cbn in C. destruct Q as [Q|Q].
  - unfold ch in PC. rewrite C in PC. change hd0 with first in PC. congruence.
  - apply ch_ne in N. congruence.
Qed.
Lemma storeL_inv p l : forall n i acc l' n' i' acc', storeL p l n i acc = (l', n', i', acc') ->
  exists t, l = t ++ l' /\ (forall c, In c t -> p c = true) /\ n' = walk t l' n /\ i' = i + slen t /\ acc' = acc ++ t /\
    (p (first l') = false \/ l' = [] \/ StrMAX < i').
Proof.
  induction l as [|c l IH]; intros n i acc l' n' i' acc' H; cbn [storeL] in H.
  - injection H as <- <- <- <-. exists []. unfold slen. cbn. rewrite Z.add_0_r, app_nil_r. repeat split; auto; intros c [].
  - destruct (p c) eqn:P; cbn [andb] in H.
    + destruct (Z.leb_spec i StrMAX).
      * apply IH in H. destruct H as (t & -> & A & B & C & D & E). exists (c :: t).
        split; [reflexivity|]. split; [intros d [<-|X]; auto|]. split; [exact B|].
        split; [unfold slen in *; cbn [List.length]; lia|]. split; [|exact E].
        rewrite D. now rewrite <- app_assoc.
      * injection H as <- <- <- <-. exists []. unfold slen. cbn. rewrite Z.add_0_r, app_nil_r.
        repeat split; auto; intros d [].
    + injection H as <- <- <- <-. exists []. unfold slen. cbn. rewrite Z.add_0_r, app_nil_r.
      repeat split; auto; intros d [].
Qed.
Lemma adv_skipSpc s : adv s (skipSpc s).
Proof. destruct (skipSpc_inv s) as (t & C & _ & _ & E). exists t. split; [exact C|]. rewrite E at 1. reflexivity. Qed.
Lemma adv_skipToEol s : adv s (skipToEol s).
Proof. destruct (skipToEol_inv s) as (t & C & _ & _ & E). exists t. split; [exact C|]. rewrite E at 1. reflexivity. Qed.

Lemma hexStrL_inv c l : forall n v v' l' n', hexStrL c l n v = LOk (v', l', n') ->
  exists t d r, c :: l = t ++ l' /\ l' = d :: r /\ n' = walk t l' n /\ (forall x, In x (tl t) -> c_isxdigit x = true) /\
    (t <> [] -> c_isxdigit d = true).
Proof.
  revert c. induction l as [|d l IH]; intros c n v v' l' n' H; cbn [hexStrL] in H.
  - injection H as <- <- <-. exists [], c, []. repeat split; auto; try congruence; intros x [].
  - destruct (c_isxdigit d) eqn:P.
    + cbv zeta in H. destruct (255 <? _); [discriminate|]. apply IH in H.
      destruct H as (t & e & r & C & -> & W & X & Y). exists (c :: t), e, r. split; [now rewrite C|].
      split; [reflexivity|]. split; [rewrite W; cbn [walk]; rewrite <- C; reflexivity|]. cbn [tl].
      destruct t as [|x t]; cbn in C; injection C as -> ->.
      * split; [intros x []|]. intros _. exact P.
      * split; [|intros _; apply Y; discriminate]. intros y [<-|I]; [exact P|]. apply X. exact I.
    + injection H as <- <- <-. exists [], c, (d :: l). repeat split; auto; try congruence; intros x [].
Qed.
Lemma getHexStr_adv s v s' : getHexStr s = LOk (v, s') -> cur s <> [] ->
  adv1 s s' /\ cur s' <> [] /\ ln s' = ln s.
Proof.
  unfold getHexStr. destruct (c_isxdigit (nextch s)) eqn:N; cbn [negb]; [|discriminate].
  destruct (cur s) as [|c l] eqn:C; [congruence|]. unfold ch. rewrite C. cbn [hd0 tl].
  unfold nextch in N. rewrite C in N. cbn [tl] in N.
  destruct l as [|d l]; [discriminate|]. cbn [hd0] in N. cbn [hexStrL]. rewrite N. cbv zeta.
  destruct (255 <? _); [discriminate|].
  destruct (hexStrL d l _ _) as [[[v1 l'] n']| |] eqn:E; cbn [lbind]; try discriminate.
  intros H _. injection H as <- <-. apply hexStrL_inv in E. destruct E as (t & e & r & E & -> & W & _).
  split; [|split; [discriminate|reflexivity]]. exists (c :: t). split; [discriminate|].
  cbn [cur at_ ln2 app]. split; [now rewrite C, E|]. cbn [walk]. rewrite <- E. exact W.
Qed.
Lemma octStrL_adv k : forall s v v' s', octStrL k s v = LOk (v', s') -> cur s <> [] ->
  adv s s' /\ cur s' <> [] /\ ln s' = ln s.
Proof.
  induction k as [|k IH]; intros s v v' s' H N; cbn [octStrL] in H; cbv zeta in H;
    destruct (255 <? _); try discriminate; destruct (isOdigit (nextch s)) eqn:O; cbn [negb] in H;
    try (injection H as <- <-; split; [apply adv_refl|split; [exact N|reflexivity]]).
  apply IH in H.
  - destruct H as (A & B & C). split; [|split; [exact B|exact C]]. apply (adv_trans _ _ _ (adv_getCh s) A).
  - unfold nextch in O. unfold getCh. cbn [cur]. intros E. now rewrite E in O.
Qed.

Lemma getStrF_adv f : forall s acc cnt s' acc' cnt', getStrF f s acc cnt = LOk (s', acc', cnt') ->
  adv s s' /\ ch s' = 34 /\ ln s' = ln s.
Proof.
  induction f as [|f IH]; intros s acc cnt s' acc' cnt' H; [discriminate|]. cbn [getStrF] in H. cbv zeta in H.
  pose proof (adv_getCh s) as A1. set (s1 := getCh s) in *. change (ln s) with (ln s1).
  assert (LV : (if negb (ch s1 =? 34) then LErr EStrEnd else LOk (s1, acc, cnt)) = LOk (s', acc', cnt') ->
    adv s s' /\ ch s' = 34 /\ ln s' = ln s1).
  { destruct (Z.eqb_spec (ch s1) 34); cbn [negb]; [|discriminate]. intros X. injection X as <- <- <-. auto. }
  destruct ((ch s1 =? 34) || (ch s1 =? -1) || (StrMAX <? slen acc)) eqn:Q; [auto|].
  destruct (c_iscntrl (ch s1)); [auto|].
  destruct (negb (ch s1 =? 92)).
  - apply IH in H. destruct H as (A & B & C). split; [apply (adv_trans _ _ _ A1 A)|auto].
  - pose proof (adv_trans _ _ _ A1 (adv_getCh s1)) as A2. set (s2 := getCh s1) in *. change (ln s1) with (ln s2).
    destruct (Z.eqb_spec (ch s2) 120) as [X|X].
    + destruct (getHexStr s2) as [[v s3]| |] eqn:E; cbn [lbind] in H; try discriminate.
      apply getHexStr_adv in E; [|apply ch_ne; lia]. destruct E as (A3 & N3 & L3).
      destruct (putOctStr _ _ _); cbn [lbind] in H; try discriminate.
      apply IH in H. destruct H as (A & B & C). split; [|split; [exact B|congruence]].
      apply (adv_trans _ _ _ A2). apply (adv_trans _ _ _ (adv1_adv _ _ A3) A).
    + destruct (isOdigit (ch s2)) eqn:O.
      * destruct (getOctStr s2) as [[v s3]| |] eqn:E; cbn [lbind] in H; try discriminate.
        apply octStrL_adv in E.
        2:{ apply ch_ne. intros Y. rewrite Y in O. discriminate. }
        destruct E as (A3 & N3 & L3).
        destruct (putOctStr _ _ _); cbn [lbind] in H; try discriminate.
        apply IH in H. destruct H as (A & B & C). split; [|split; [exact B|congruence]].
        apply (adv_trans _ _ _ A2). apply (adv_trans _ _ _ A3 A).
      * destruct (StrMAX <? slen acc + 1); [discriminate|].
        apply IH in H. destruct H as (A & B & C). split; [|auto]. apply (adv_trans _ _ _ A2 A).
Qed.

Lemma getEsc_adv s v s' : getEsc s = LOk (v, s') -> adv s s' /\ ln s' = ln s.
Proof.
  unfold getEsc. pose proof (adv_getCh s) as A1. set (s1 := getCh s) in *. change (ln s) with (ln s1). cbv zeta.
  pose proof (adv_trans _ _ _ A1 (adv_getCh s1)) as A2.
  intros H.
  destruct (ch s1 =? 110); [injection H as <- <-; split; [exact A2|reflexivity]|].
  destruct (ch s1 =? 116); [injection H as <- <-; split; [exact A2|reflexivity]|].
  destruct (ch s1 =? 114); [injection H as <- <-; split; [exact A2|reflexivity]|].
  destruct ((ch s1 =? 120) || (ch s1 =? 88)) eqn:X.
  { destruct (getHexStr s1) as [[v1 s2]| |] eqn:E; cbn [lbind] in H; try discriminate. injection H as <- <-.
    apply getHexStr_adv in E; [|apply ch_ne; intros Y; rewrite Y in X; discriminate].
    destruct E as (A & _ & L). split; [|exact L].
    apply (adv_trans _ _ _ A1). apply (adv_trans _ _ _ (adv1_adv _ _ A)). apply adv_getCh. }
  destruct (isOdigit (ch s1)) eqn:O.
  { destruct (getOctStr s1) as [[v1 s2]| |] eqn:E; cbn [lbind] in H; try discriminate. injection H as <- <-.
    apply octStrL_adv in E; [|apply ch_ne; intros Y; rewrite Y in O; discriminate].
    destruct E as (A & _ & L). split; [|exact L].
    apply (adv_trans _ _ _ A1). apply (adv_trans _ _ _ A). apply adv_getCh. }
  destruct (c_isprint (ch s1)); [|discriminate]. injection H as <- <-. split; [exact A2|reflexivity].
Qed.

Lemma getSharp_adv s k s' : getSharp s = LOk (k, s') -> ch s = 10 -> nextch s = 35 ->
  k = LxFILE /\ (exists t, cur s = [10; 35] ++ t ++ cur s' /\ newlines t = 0) /\ ln2 s' = val s' /\ ln s' = ln s /\
  (first (cur s') = 10 \/ cur s' = []).
Proof.
  unfold getSharp. cbv zeta. intros H C1 C2.
  assert (E0 : exists l, cur s = 10 :: 35 :: l).
  { unfold ch, nextch in *. destruct (cur s) as [|x [|y l]]; cbn in *; try lia. subst. eauto. }
  destruct E0 as (l0 & C0).
  assert (E2 : cur (getCh (getCh s)) = l0) by (unfold getCh; cbn; now rewrite C0).
  set (s1 := getCh (getCh s)) in *.
  destruct (skipSpc_inv s1) as (t1 & D1 & B1 & _ & F1). set (s2 := skipSpc s1) in *.
  destruct (negb (c_isdigit (ch s2))); [discriminate|].
  unfold getDec, getDigits in H.
  destruct (digitsL _ _ _ _ _ _) as [[[v l3] n3]| |] eqn:E3; cbn [lbind] in H; try discriminate.
  apply digitsL_inv in E3. destruct E3 as (t3 & D3 & P3 & _ & _).
  set (s3 := at_ s2 l3 n3) in *.
  destruct (skipSpc_inv (setVal s3 v)) as (t4 & D4 & B4 & _ & F4). set (s4 := skipSpc (setVal s3 v)) in *.
  destruct (Z.eqb_spec (ch s4) 34) as [Q4|]; cbn [negb] in H; [|discriminate].
  destruct (storeL _ _ _ _ _) as [[[l5 n5] i5] acc] eqn:E5.
  apply storeL_inv in E5. destruct E5 as (t5 & D5 & P5 & _ & _ & _ & _).
  destruct (StrMAX <? i5); [discriminate|].
  destruct (negb _); [discriminate|]. injection H as <- <-.
  set (s5 := setStr (at_ (getCh s4) l5 n5) acc) in *.
  destruct (skipToEol_inv s5) as (t6 & D6 & N6 & Q6 & F6).
  split; [reflexivity|]. split; [|split; [|split]].
  - exists (t1 ++ t3 ++ t4 ++ [34] ++ t5 ++ t6). cbn [cur]. split.
    + rewrite C0. cbn [app]. do 2 f_equal. rewrite <- E2, D1, D3.
      change l3 with (cur (setVal s3 v)). rewrite D4.
      assert (G4 : cur s4 = 34 :: cur (getCh s4)).
      { unfold ch in Q4. unfold getCh. cbn [cur]. destruct (cur s4); cbn in *; [lia|congruence]. }
      rewrite G4, D5. change l5 with (cur s5). rewrite D6. cbn [app]. rewrite <- !app_assoc. cbn [app]. now rewrite <- !app_assoc.
    + rewrite !newlines_app.
      assert (Z0 : forall t, (forall c, In c t -> c <> 10) -> newlines t = 0).
      { intros t N. unfold newlines. assert (X : ~ In 10 t) by (intros I; now apply (N 10 I)).
        apply (count_occ_not_In Z.eq_dec) in X. rewrite X. reflexivity. }
      assert (NB : forall t, Forall (fun c => In c blanks) t -> newlines t = 0).
      { intros t F. apply Z0. intros c I ->. rewrite Forall_forall in F. apply F, blank_In in I. discriminate. }
      rewrite (NB t1 B1), (NB t4 B4), (Z0 t3), (Z0 t5), (Z0 t6); [reflexivity|intros c I ->; auto| |].
      * intros c I ->. apply P5 in I. discriminate.
      * intros c I ->. apply P3 in I. discriminate.
  - cbn [ln2 val]. rewrite F6. cbn. rewrite F4. reflexivity.
  - cbn [ln]. rewrite F6. cbn. rewrite F4. cbn. rewrite F1. reflexivity.
  - exact Q6.
Qed.

Ltac nek := intros; let X := fresh in intros X; vm_compute in X; discriminate.
Lemma getSign_adv s k s' : getSign s = LOk (k, s') -> ch s <> -1 -> adv1 s s' /\ ln s' = ln s /\ k <> EOFtok /\
  (ch s <> LxFILE -> k <> LxFILE).
Proof.
  unfold getSign. intros H N.
  pose proof (adv1_getCh s (ch_ne s N)) as A1.
  pose proof (adv1_trans _ _ _ A1 (adv_getCh (getCh s))) as A2.
  pose proof (adv1_trans _ _ _ A2 (adv_getCh (getCh (getCh s)))) as A3.
  cbv zeta in H.
  repeat match type of H with
  | (if ?b then LOk _ else _) = _ => destruct b; [injection H as <- <-; split; [exact A2 || exact A3|split; [reflexivity|split; [nek|nek]]]|]
  end.
  destruct (_ && _).
  - destruct (_ =? 46); injection H as <- <-; (split; [exact A2 || exact A3|split; [reflexivity|split; [nek|nek]]]).
  - injection H as <- <-. split; [exact A1|split; [reflexivity|split; [exact N|auto]]].
Qed.

(* ---- one token ---- *)
Definition tok_spec (s : lx) (k : Z) (s' : lx) : Prop :=
  ln s' = ln s /\
  ((k = LxFILE /\ exists t, cur s = [10; 35] ++ t ++ cur s' /\ newlines t = 0 /\ ln2 s' = val s' /\
     (first (cur s') = 10 \/ cur s' = [])) \/
   (k = EOFtok /\ s' = s /\ first (cur s) = -1) \/ (k <> EOFtok /\ adv1 s s' /\ first (cur s) <> 10)).
Lemma searchRsv_in t w : searchRsv t w = LxNAME \/ In (searchRsv t w) (map snd t).
Proof.
  induction t as [|[n k] t IH]; cbn [searchRsv map snd In]; [now left|].
  destruct (zeqb_list w n); [now right; left|]. destruct IH as [IH|IH]; [now left|now right; right].
Qed.
Lemma getWord_not_FILE s k s' : getWord s = LOk (k, s') -> k <> EOFtok.
Proof.
  unfold getWord. destruct (storeL _ _ _ _ _) as [[[l n] i] acc].
  destruct (negb _); [discriminate|]. destruct (_ <? _); [discriminate|].
  intros H. assert (E : k = searchRsv (firstn LxRsvNUM rsvWord) acc) by congruence. rewrite E. clear H E.
  destruct (searchRsv_in (firstn LxRsvNUM rsvWord) acc) as [->|I]; [nek|].
  assert (T : forallb (fun p => negb (p =? EOFtok)) (map snd (firstn LxRsvNUM rsvWord)) = true) by (vm_compute; reflexivity).
  rewrite forallb_forall in T. apply T in I. now apply negb_true_iff, Z.eqb_neq in I.
Qed.
Lemma dispatch_inv s k s' : dispatch s = LOk (k, s') -> starts (cur s) -> tok_spec s k s'.
Proof.
  unfold dispatch, tok_spec. intros H (_ & ST & _).
  destruct (Z.eqb_spec (ch s) (-1)) as [E0|N0].
  { injection H as <- <-. split; [reflexivity|]. right. left. auto. }
  destruct ((ch s =? 10) && (nextch s =? 35)) eqn:E1.
  { rewrite andb_true_iff, !Z.eqb_eq in E1. destruct E1. apply getSharp_adv in H; auto.
    destruct H as (-> & (t & C & NL) & V & L & Q). split; [exact L|]. left. split; [reflexivity|]. exists t. auto. }
  assert (N10 : first (cur s) <> 10).
  { intros E. unfold ch, nextch in E1. change hd0 with first in E1. rewrite (ST E), E in E1. discriminate. }
  destruct (c_isdigit (ch s)) eqn:E2.
  { unfold getDigit in H.
    assert (G : forall x, (let* (v, s0) := x in LOk (LxINTEGER, setVal s0 v)) = LOk (k, s') ->
      (forall v s0, x = LOk (v, s0) -> adv1 s s0 /\ ln s0 = ln s) ->
      ln s' = ln s /\ k <> EOFtok /\ adv1 s s').
    { intros [[v s0]| |] X P; cbn [lbind] in X; try discriminate. injection X as <- <-.
      destruct (P v s0 eq_refl) as (A & L). split; [exact L|]. split; [discriminate|].
      apply (adv1_same _ _ _ A); reflexivity. }
    apply G in H.
    - destruct H as (A & B & C). split; [exact A|]. right. right. auto.
    - intros v s0. destruct ((ch s =? 48) && _) eqn:X.
      + unfold getHex. destruct (c_isxdigit _); [|discriminate]. intros Y. apply getDigits_adv in Y.
        destruct Y as (A & L & _). split; [|exact L].
        apply (adv1_trans _ _ _ (adv1_getCh s (ch_ne s N0))). apply (adv_trans _ _ _ (adv_getCh _) A).
      + destruct (Z.eqb_spec (ch s) 48) as [E48|].
        * unfold getOct. intros Y. apply getDigits_adv in Y. destruct Y as (_ & L & _ & _ & A). split; [|exact L].
          apply A; [rewrite E48; reflexivity|exact N0].
        * unfold getDec. intros Y. apply getDigits_adv in Y. destruct Y as (_ & L & _ & _ & A). split; [|exact L].
          apply A; [exact E2|exact N0]. }
  destruct (c_isalpha (ch s) || (ch s =? 95)) eqn:E3.
  { destruct (getWord s) as [[t s1]| |] eqn:EW; cbn [lbind] in H; try discriminate.
    pose proof (getWord_not_FILE _ _ _ EW) as NE.
    unfold getWord in EW. destruct (storeL _ _ _ _ _) as [[[l n] i] acc] eqn:ES.
    destruct (negb _); [discriminate|]. destruct (_ <? _) eqn:LT; [discriminate|]. injection EW as ET EW.
    apply storeL_inv in ES. destruct ES as (u & C & P & W & I & _ & Q).
    assert (A : adv1 s s1).
    { exists u. rewrite <- EW. cbn [cur setStr at_ ln2]. split; [|auto]. intros ->. cbn in C.
      destruct Q as [Q|[Q|Q]].
      - rewrite <- C in Q. unfold ch in E3. change hd0 with first in E3. unfold isDelim, c_isalnum in Q.
        destruct (c_isalpha (first (cur s))), (first (cur s) =? 95); cbn in *; try discriminate.
        destruct (c_isdigit _); discriminate.
      - rewrite Q in C. apply (ch_ne s N0 C).
      - apply Z.ltb_ge in LT. lia. }
    assert (L1 : ln s1 = ln s) by now rewrite <- EW.
    assert (G : adv1 s s' /\ ln s' = ln s /\ k <> EOFtok).
    { destruct (t =? LxTRUE); [|destruct (t =? LxFALSE)]; injection H as <- <-.
      - split; [apply (adv1_same _ _ _ A); reflexivity|]. split; [exact L1|discriminate].
      - split; [apply (adv1_same _ _ _ A); reflexivity|]. split; [exact L1|discriminate].
      - auto. }
    destruct G as (G1 & G2 & G3). split; [exact G2|]. right. right. auto. }
  destruct (Z.eqb_spec (ch s) 34) as [E4|N4].
  { unfold getStr in H. destruct (getStrF _ _ _ _) as [[[s1 acc] cnt]| |] eqn:E; cbn [lbind] in H; try discriminate.
    apply getStrF_adv in E. destruct E as (A & Q & L).
    destruct (_ <? _); [discriminate|]. injection H as <- <-. split; [exact L|]. right. right.
    split; [discriminate|]. split; [|exact N10].
    assert (N1 : cur s1 <> []) by (apply ch_ne; lia).
    apply (adv1_same _ (getCh s1)); [|reflexivity|reflexivity]. apply (adv_trans1 _ _ _ A). now apply adv1_getCh. }
  destruct (Z.eqb_spec (ch s) 39) as [E5|N5].
  { unfold getChar in H. cbv zeta in H.
    assert (G : forall x, (let* (v, s0) := x in
       if negb (ch (setVal s0 v) =? 39) then LErr ECharEnd else LOk (LxCHARACTER, getCh (setVal s0 v))) = LOk (k, s') ->
      (forall v s0, x = LOk (v, s0) -> adv (getCh s) s0 /\ ln s0 = ln s) ->
      ln s' = ln s /\ k <> EOFtok /\ adv1 s s').
    { intros [[v s0]| |] X P; cbn [lbind] in X; try discriminate. destruct (negb _); [discriminate|]. injection X as <- <-.
      destruct (P v s0 eq_refl) as (A & L). split; [exact L|]. split; [discriminate|].
      apply (adv1_trans _ _ _ (adv1_getCh s (ch_ne s N0))). apply (adv_trans _ _ _ A).
      apply (adv_same _ (getCh s0)); [apply adv_getCh|reflexivity|reflexivity]. }
    apply G in H.
    - destruct H as (A & B & C). split; [exact A|]. right. right. auto.
    - intros v s0. destruct (_ =? 92).
      + intros Y. apply getEsc_adv in Y. exact Y.
      + intros Y. injection Y as <- <-. split; [apply adv_getCh|reflexivity]. }
  apply getSign_adv in H; [|exact N0]. destruct H as (A & L & NE & _). split; [exact L|]. right. right. auto.
Qed.

Lemma lxGetTok_inv s k s' : lxGetTok s = LOk (k, s') ->
  exists z g s1, cur s = z ++ g ++ cur s1 /\ (z = [] \/ z = [0]) /\ gap g (cur s1) /\ starts (cur s1) /\
    ln2 s1 = walk (z ++ g) (cur s1) (ln2 s) /\ ln s1 = ln2 s1 /\ val s1 = val s /\ str s1 = str s /\
    dispatch s1 = LOk (k, s') /\ tok_spec s1 k s'.
Proof.
  rewrite lxGetTok_eq. set (s0 := if ch s =? 0 then getCh s else s).
  destruct (skipSpace s0) as [s1| |] eqn:E; cbn [lbind]; try discriminate. intros H.
  unfold skipSpace in E. apply skipSpaceF_inv in E. destruct E as (g & C & G & ST & E).
  assert (Z0 : exists z, cur s = z ++ cur s0 /\ (z = [] \/ z = [0]) /\ ln2 s0 = walk z (cur s0) (ln2 s) /\
    val s0 = val s /\ str s0 = str s).
  { subst s0. unfold ch. destruct (cur s) as [|c l] eqn:CS; cbn [hd0].
    - exists []. repeat split; auto.
    - destruct (Z.eqb_spec c 0) as [->|].
      + exists [0]. unfold getCh. rewrite CS. repeat split; auto.
      + exists []. repeat split; auto. }
  destruct Z0 as (z & Cz & Zz & Wz & Vz & Sz).
  exists z, g, (newln s1). pose proof (dispatch_inv _ _ _ H ST) as T.
  split; [now rewrite Cz, C|]. split; [exact Zz|]. split; [exact G|]. split; [exact ST|].
  split; [|split; [reflexivity|split; [|split; [|split; [exact H|exact T]]]]].
  - unfold newln. cbn [ln2 cur]. rewrite walk_app, <- C, <- Wz. rewrite E at 1. reflexivity.
  - rewrite E. cbn. exact Vz.
  - rewrite E. cbn. exact Sz.
Qed.
