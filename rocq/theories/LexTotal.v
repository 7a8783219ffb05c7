(* The lexer always ends; the spelling buffer is respected on short lines. *)
From Coq Require Import ZArith Bool Lia String Ascii List.
From Verif Require Import Lexer LexSpec LexProofs LexGap LexTok.
Import ListNotations.
Open Scope Z_scope.

Lemma skipComL_undef l : forall n u, skipComL l n <> LUndef u.
Proof.
  induction l as [|c l IH]; intros n u; cbn [skipComL]; [discriminate|].
  destruct (_ && _); [discriminate|]. destruct (_ =? _); [discriminate|apply IH].
Qed.
Lemma skipSpaceF_undef f : forall s u, (List.length (cur s) < f)%nat -> skipSpaceF f s <> LUndef u.
Proof.
  induction f as [|f IH]; intros s u L; [lia|]. cbn [skipSpaceF]. cbv zeta. pose proof (skipSpc_len s) as LS.
  set (s1 := skipSpc s) in *. unfold ch, nextch. change hd0 with first.
  destruct (Z.eqb_spec (first (cur s1)) 47) as [E1|_]; cbn [andb].
  - destruct (Z.eqb_spec (first (tl (cur s1))) 42) as [E2|_].
    + destruct (skipCom s1) as [s2| |u'] eqn:E; cbn [lbind]; try discriminate.
      * apply skipCom_inv in E; auto. destruct E as (b & C & _).
        assert (List.length (cur s2) < List.length (cur s1))%nat by (rewrite C, !app_length; cbn; lia).
        apply IH; lia.
      * exfalso. unfold skipCom in E. destruct (skipComL _ _) as [[l n]| |] eqn:X; cbn [lbind] in E; try discriminate.
        exact (skipComL_undef _ _ _ X).
    + destruct (Z.eqb_spec (first (tl (cur s1))) 47) as [E3|_].
      * unfold skipCppCom. destruct (skipToEol_inv s1) as (t & C & _ & D & _).
        assert (List.length (cur (skipToEol s1)) < List.length (cur s1))%nat.
        { rewrite C, app_length. destruct t; [|cbn; lia]. exfalso. cbn in C. rewrite <- C in D.
          destruct D as [D|D]; [congruence|]. now rewrite D in E1. }
        apply IH; lia.
      * rewrite E1. discriminate.
  - destruct (Z.eqb_spec (first (cur s1)) 10) as [E2|_]; cbn [andb]; [|discriminate].
    destruct (negb _); [|discriminate].
    assert (List.length (cur (getCh s1)) < List.length (cur s1))%nat
      by (cbn; destruct (cur s1); [discriminate|cbn; lia]).
    apply IH; lia.
Qed.

Lemma hexStrL_undef l : forall c n v u, hexStrL c l n v <> LUndef u.
Proof.
  induction l as [|d l IH]; intros c n v u; cbn [hexStrL]; [discriminate|].
  destruct (c_isxdigit d); [|discriminate]. cbv zeta. destruct (255 <? _); [discriminate|apply IH].
Qed.
Lemma getHexStr_undef s u : getHexStr s <> LUndef u.
Proof.
  unfold getHexStr. destruct (negb _); [discriminate|].
  destruct (hexStrL _ _ _ _) as [[[v l] n]| |] eqn:E; cbn [lbind]; try discriminate.
  intros _. exact (hexStrL_undef _ _ _ _ _ E).
Qed.
Lemma octStrL_undef k : forall s v u, octStrL k s v <> LUndef u.
Proof.
  induction k as [|k IH]; intros s v u; cbn [octStrL]; cbv zeta; destruct (255 <? _); try discriminate;
    destruct (negb _); try discriminate; apply IH.
Qed.
Lemma putOctStr_undef v p a u : putOctStr v p a <> LUndef u.
Proof. unfold putOctStr. destruct (_ <=? _); discriminate. Qed.
Lemma getEsc_undef s u : getEsc s <> LUndef u.
Proof.
  unfold getEsc. cbv zeta. repeat (destruct (_ =? _); [discriminate|]).
  destruct (_ || _).
  { destruct (getHexStr _) as [[v s1]| |] eqn:E; cbn [lbind]; try discriminate. intros _. exact (getHexStr_undef _ _ E). }
  destruct (isOdigit _).
  { destruct (getOctStr _) as [[v s1]| |] eqn:E; cbn [lbind]; try discriminate. intros _. exact (octStrL_undef _ _ _ _ E). }
  destruct (c_isprint _); discriminate.
Qed.
Lemma getSign_undef s u : getSign s <> LUndef u.
Proof. unfold getSign. cbv zeta. repeat (destruct (_ && _); [try discriminate; destruct (_ =? 46); discriminate|]). discriminate. Qed.

(* getStrF: enough fuel *)
Lemma getCh_len s : ch (getCh s) <> -1 -> (List.length (cur (getCh s)) < List.length (cur s))%nat.
Proof.
  unfold ch, getCh. cbn [cur]. destruct (cur s) as [|c l]; cbn [tl hd0]; [congruence|]. intros _. cbn. lia.
Qed.
Lemma getStrF_fuel f : forall s acc cnt, (List.length (cur s) < f)%nat -> getStrF f s acc cnt <> LUndef NoFuel.
Proof.
  induction f as [|f IH]; intros s acc cnt L; [lia|]. cbn [getStrF]. cbv zeta.
  pose proof (getCh_len s) as GL. set (s1 := getCh s) in *.
  assert (LV : (if negb (ch s1 =? 34) then LErr EStrEnd else LOk (s1, acc, cnt)) <> LUndef NoFuel)
    by (destruct (negb _); discriminate).
  destruct (ch s1 =? 34) eqn:Q; [exact LV|].
  destruct (Z.eqb_spec (ch s1) (-1)) as [|NE]; [exact LV|]. specialize (GL NE).
  destruct (StrMAX <? slen acc); [exact LV|]. cbn [orb].
  destruct (c_iscntrl (ch s1)); [exact LV|].
  destruct (negb (ch s1 =? 92)); [apply IH; lia|].
  pose proof (adv_len _ _ (adv_getCh s1)) as L2. set (s2 := getCh s1) in *.
  destruct (Z.eqb_spec (ch s2) 120) as [X|X].
  + destruct (getHexStr s2) as [[v s3]| |u] eqn:E; cbn [lbind]; try discriminate.
    * apply getHexStr_adv in E; [|apply ch_ne; lia]. destruct E as (A3 & _). apply adv1_len in A3.
      destruct (putOctStr _ _ _) as [a| |u] eqn:P; cbn [lbind]; try discriminate; [apply IH; lia|].
      exfalso. exact (putOctStr_undef _ _ _ _ P).
    * exfalso. exact (getHexStr_undef _ _ E).
  + destruct (isOdigit (ch s2)) eqn:O.
    * destruct (getOctStr s2) as [[v s3]| |u] eqn:E; cbn [lbind]; try discriminate.
      -- apply octStrL_adv in E; [|apply ch_ne; intros Y; rewrite Y in O; discriminate]. destruct E as (A3 & _). apply adv_len in A3.
         destruct (putOctStr _ _ _) as [a| |u] eqn:P; cbn [lbind]; try discriminate; [apply IH; lia|].
         exfalso. exact (putOctStr_undef _ _ _ _ P).
      -- exfalso. exact (octStrL_undef _ _ _ _ E).
    * destruct (StrMAX <? slen acc + 1); [discriminate|]. apply IH; lia.
Qed.

Lemma digitsL_undef p b dv l : forall n v u, digitsL p b dv l n v = LUndef u -> u = UOvf.
Proof.
  induction l as [|c l IH]; intros n v u H; cbn [digitsL] in H; [discriminate|].
  destruct (p c); [|discriminate]. cbv zeta in H. destruct (_ <=? _); [eauto|congruence].
Qed.
Lemma getDigits_undef p b dv s u : getDigits p b dv s = LUndef u -> u = UOvf.
Proof.
  unfold getDigits. destruct (digitsL _ _ _ _ _ _) as [[[v l] n]| |] eqn:E; cbn [lbind]; try discriminate.
  intros H. injection H as <-. exact (digitsL_undef _ _ _ _ _ _ _ E).
Qed.

(* ---- where undefined behaviour can come from ---- *)
(* longest newline-free front part *)
Fixpoint run (l : list Z) : Z := match l with [] => 0 | c :: r => if c =? 10 then 0 else 1 + run r end.
Lemma run_nonneg l : 0 <= run l. Proof. induction l as [|c l IH]; cbn [run]; [lia|]. destruct (c =? 10); lia. Qed.
Lemma run_app t l : (forall c, In c t -> c <> 10) -> run (t ++ l) = slen t + run l.
Proof.
  unfold slen. induction t as [|c t IH]; intros N; [reflexivity|]. cbn [app run List.length].
  rewrite (proj2 (Z.eqb_neq c 10)) by (apply N; now left). rewrite IH by (intros d D; apply N; now right). lia.
Qed.
Lemma run_le t l : (forall c, In c t -> c <> 10) -> slen t <= run (t ++ l).
Proof. intros N. rewrite run_app by exact N. pose proof (run_nonneg l). lia. Qed.

(* suffixes: lines shorter than 64, no backslash before a newline *)
Definition okay (l : list Z) : Prop :=
  (forall a b, l = a ++ b -> run b < 64) /\ (forall a b, l <> a ++ [92; 10] ++ b).
Lemma okay_suffix a b : okay (a ++ b) -> okay b.
Proof.
  intros (H1 & H2). split.
  - intros x y ->. apply (H1 (a ++ x) y). now rewrite app_assoc.
  - intros x y ->. apply (H2 (a ++ x) y). now rewrite app_assoc.
Qed.
Lemma okay_adv s s' : adv s s' -> okay (cur s) -> okay (cur s').
Proof. intros (t & C & _) H. rewrite C in H. now apply okay_suffix in H. Qed.
Lemma okay_run l : okay l -> run l < 64. Proof. intros (H & _). apply (H []). reflexivity. Qed.

Lemma run_cons_le c l : run (c :: l) <= 1 + run l.
Proof. cbn [run]. pose proof (run_nonneg l). destruct (c =? 10); lia. Qed.
Lemma run_tl s : ch (getCh s) <> 10 -> ch (getCh s) <> -1 -> run (tl (cur s)) = 1 + run (tl (cur (getCh s))).
Proof.
  unfold ch, getCh. cbn [cur]. destruct (tl (cur s)) as [|c l]; cbn [hd0]; [congruence|]. intros N _. cbn [run tl].
  now rewrite (proj2 (Z.eqb_neq c 10) N).
Qed.
(* passing digits *)
Lemma hexStr_run s v s' : getHexStr s = LOk (v, s') -> cur s <> [] -> 1 + run (tl (cur s')) <= run (tl (cur s)).
Proof.
  unfold getHexStr. destruct (c_isxdigit (nextch s)) eqn:N; cbn [negb]; [|discriminate].
  destruct (cur s) as [|c l] eqn:C; [congruence|]. unfold ch. rewrite C. cbn [hd0 tl].
  unfold nextch in N. rewrite C in N. cbn [tl] in N.
  destruct l as [|d l]; [discriminate|]. cbn [hd0] in N. cbn [hexStrL]. rewrite N. cbv zeta.
  destruct (255 <? _); [discriminate|].
  destruct (hexStrL d l _ _) as [[[v1 l'] n']| |] eqn:E; cbn [lbind]; try discriminate.
  intros H _. injection H as <- <-. apply hexStrL_inv in E. destruct E as (t & e & r & E & -> & W & X & Y).
  cbn [cur at_ tl]. rewrite E.
  assert (XD : forall x, c_isxdigit x = true -> x <> 10) by (intros x Hx ->; discriminate).
  destruct t as [|x t].
  - cbn [app run]. injection E as -> ->. rewrite (proj2 (Z.eqb_neq e 10) (XD e N)). lia.
  - injection E as -> ->. rewrite run_app.
    + cbn [run]. rewrite (proj2 (Z.eqb_neq e 10) (XD e (Y ltac:(discriminate)))). unfold slen. cbn [List.length]. lia.
    + intros y [<-|I]; [apply XD, N|]. apply XD, X, I.
Qed.
Lemma octStr_run k : forall s v v' s', octStrL k s v = LOk (v', s') -> run (tl (cur s')) <= run (tl (cur s)).
Proof.
  induction k as [|k IH]; intros s v v' s' H; cbn [octStrL] in H; cbv zeta in H;
    destruct (255 <? _); try discriminate; destruct (isOdigit (nextch s)) eqn:O; cbn [negb] in H;
    try (injection H as <- <-; lia).
  apply IH in H. unfold getCh in H. cbn [cur] in H. unfold nextch in O.
  destruct (tl (cur s)) as [|d l]; [discriminate|]. cbn [tl hd0] in *. cbn [run].
  destruct (Z.eqb_spec d 10) as [->|]; [discriminate|]. lia.
Qed.

Lemma getStrF_buf f : forall s acc cnt, okay (cur s) -> slen acc + 2 * run (tl (cur s)) <= 126 ->
  getStrF f s acc cnt <> LUndef UBuf /\
  (forall s' acc' cnt', getStrF f s acc cnt = LOk (s', acc', cnt') -> slen acc' <= 126).
Proof.
  induction f as [|f IH]; intros s acc cnt OK B; [split; discriminate|]. cbn [getStrF]. cbv zeta.
  pose proof (okay_adv _ _ (adv_getCh s) OK) as OK1. pose proof (run_tl s) as R1. set (s1 := getCh s) in *.
  pose proof (run_nonneg (tl (cur s))) as NN.
  assert (LV : (if negb (ch s1 =? 34) then LErr EStrEnd else LOk (s1, acc, cnt)) <> LUndef UBuf /\
    (forall s' acc' cnt', (if negb (ch s1 =? 34) then LErr EStrEnd else LOk (s1, acc, cnt)) = LOk (s', acc', cnt') ->
      slen acc' <= 126)).
  { destruct (negb _); split; intros; try discriminate. injection H as <- <- <-. lia. }
  destruct ((ch s1 =? 34) || (ch s1 =? -1) || (StrMAX <? slen acc)) eqn:Q; [exact LV|].
  rewrite !orb_false_iff, !Z.eqb_neq in Q. destruct Q as ((Q1 & Q2) & Q3).
  destruct (c_iscntrl (ch s1)) eqn:CN; [exact LV|].
  assert (N10 : ch s1 <> 10) by (intros E; rewrite E in CN; discriminate). specialize (R1 N10 Q2).
  assert (SL : forall a b, slen (a ++ b) = slen a + slen b) by (intros; unfold slen; rewrite app_length; lia).
  destruct (Z.eqb_spec (ch s1) 92) as [E92|N92]; cbn [negb].
  2:{ apply IH; [exact OK1|]. rewrite SL. change (slen [ch s1]) with 1. lia. }
  pose proof (okay_adv _ _ (adv_getCh s1) OK1) as OK2.
  assert (R2 : ch (getCh s1) <> -1 -> run (tl (cur s1)) = 1 + run (tl (cur (getCh s1)))).
  { intros NE. apply run_tl; [|exact NE]. intros E10. destruct OK1 as (_ & OK1).
    unfold ch, getCh in *. cbn [cur] in *. clear IH.
    destruct (cur s1) as [|x [|y l]]; cbn in *; try lia. subst. now apply (OK1 [] l). }
  assert (R2' : run (tl (cur (getCh s1))) <= run (tl (cur s1))).
  { unfold getCh. cbn [cur]. destruct (tl (cur s1)) as [|x l] eqn:TL; [cbn; lia|]. cbn [tl].
    unfold ch, getCh in R2. cbn [cur] in R2. rewrite TL in R2. cbn [hd0 tl] in R2.
    destruct (Z.eq_dec x (-1)) as [->|NE]; [replace (run (-1 :: l)) with (1 + run l) by reflexivity; lia|]. rewrite (R2 NE). lia. }
  set (s2 := getCh s1) in *.
  assert (PO : forall v a, putOctStr v (slen acc) acc = LOk a -> slen a = slen acc + 4).
  { intros v a. unfold putOctStr. destruct (_ <=? _); [discriminate|]. intros H. injection H as <-. rewrite SL. reflexivity. }
  destruct (Z.eqb_spec (ch s2) 120) as [X|X].
  - assert (NE : ch s2 <> -1) by lia. specialize (R2 NE).
    destruct (getHexStr s2) as [[v s3]| |u] eqn:E; cbn [lbind].
    + pose proof (hexStr_run _ _ _ E (ch_ne _ NE)) as R3.
      apply getHexStr_adv in E; [|apply ch_ne; lia]. destruct E as (A3 & _).
      destruct (putOctStr _ _ _) as [a| |u] eqn:P; cbn [lbind].
      * apply IH; [apply (okay_adv _ _ (adv1_adv _ _ A3) OK2)|]. rewrite (PO _ _ P). lia.
      * split; discriminate.
      * exfalso. exact (putOctStr_undef _ _ _ _ P).
    + split; discriminate.
    + exfalso. exact (getHexStr_undef _ _ E).
  - destruct (isOdigit (ch s2)) eqn:O.
    + assert (NE : ch s2 <> -1) by (intros Y; rewrite Y in O; discriminate). specialize (R2 NE).
      destruct (getOctStr s2) as [[v s3]| |u] eqn:E; cbn [lbind].
      * pose proof (octStr_run _ _ _ _ _ E) as R3.
        apply octStrL_adv in E; [|now apply ch_ne]. destruct E as (A3 & _).
        destruct (putOctStr _ _ _) as [a| |u] eqn:P; cbn [lbind].
        -- apply IH; [apply (okay_adv _ _ A3 OK2)|]. rewrite (PO _ _ P). lia.
        -- split; discriminate.
        -- exfalso. exact (putOctStr_undef _ _ _ _ P).
      * split; discriminate.
      * exfalso. exact (octStrL_undef _ _ _ _ E).
    + pose proof (run_nonneg (tl (cur s1))). unfold StrMAX in *.
      destruct (Z.ltb_spec 128 (slen acc + 1)); [lia|].
      apply IH; [exact OK2|]. rewrite SL. change (slen [92; ch s2 mod 256]) with 2.
      lia.
Qed.

(* ---- one token ---- *)
Lemma newln_cur s : cur (newln s) = cur s. Proof. reflexivity. Qed.
Lemma lxGetTok_nofuel s : lxGetTok s <> LUndef NoFuel.
Proof.
  rewrite lxGetTok_eq. set (s0 := if ch s =? 0 then getCh s else s).
  destruct (skipSpace s0) as [s1| |u] eqn:E; cbn [lbind]; [|discriminate|].
  2:{ exfalso. unfold skipSpace in E. exact (skipSpaceF_undef _ _ _ (Nat.lt_succ_diag_r _) E). }
  generalize (newln s1). clear. intros s. unfold dispatch.
  destruct (ch s =? -1); [discriminate|].
  assert (GD : forall p b dv x, getDigits p b dv x <> LUndef NoFuel).
  { intros p b dv x H. apply getDigits_undef in H. discriminate. }
  destruct (_ && _).
  { unfold getSharp. cbv zeta. destruct (negb _); [discriminate|].
    destruct (getDec _) as [[v s1]| |u] eqn:E; cbn [lbind]; try discriminate.
    - destruct (negb _); [discriminate|]. destruct (storeL _ _ _ _ _) as [[[l n] i] acc].
      destruct (_ <? _); [discriminate|]. destruct (negb _); discriminate.
    - intros H. injection H as ->. exact (GD _ _ _ _ E). }
  destruct (c_isdigit (ch s)).
  { unfold getDigit.
    assert (G : forall x : lres (Z * lx), x <> LUndef NoFuel ->
      (let* (v, s0) := x in LOk (LxINTEGER, setVal s0 v)) <> LUndef NoFuel).
    { intros [[v s0]| |u] H; cbn [lbind]; congruence. }
    apply G. destruct (_ && _); [unfold getHex; destruct (c_isxdigit _); [apply GD|discriminate]|].
    destruct (_ =? _); apply GD. }
  destruct (_ || _).
  { unfold getWord. destruct (storeL _ _ _ _ _) as [[[l n] i] acc]. destruct (negb _); [discriminate|].
    destruct (_ <? _); [discriminate|]. cbn [lbind]. destruct (_ =? _); [discriminate|]. destruct (_ =? _); discriminate. }
  destruct (ch s =? 34).
  { unfold getStr. destruct (getStrF _ _ _ _) as [[[s1 acc] cnt]| |u] eqn:E; cbn [lbind]; try discriminate.
    - destruct (_ <? _); discriminate.
    - intros H. injection H as ->. exact (getStrF_fuel _ _ _ _ (Nat.lt_succ_diag_r _) E). }
  destruct (ch s =? 39).
  { unfold getChar. cbv zeta. destruct (_ =? 92).
    - destruct (getEsc _) as [[v s1]| |u] eqn:E; cbn [lbind]; try discriminate.
      + destruct (negb _); discriminate.
      + exfalso. exact (getEsc_undef _ _ E).
    - cbn [lbind]. destruct (negb _); discriminate. }
  apply getSign_undef.
Qed.

Lemma tok_shorter s k s' : lxGetTok s = LOk (k, s') -> k = EOFtok \/ (List.length (cur s') < List.length (cur s))%nat.
Proof.
  intros H. apply lxGetTok_inv in H. destruct H as (z & g & s1 & C & _ & _ & _ & _ & _ & _ & _ & _ & T).
  assert (L1 : (List.length (cur s1) <= List.length (cur s))%nat) by (rewrite C, !app_length; lia).
  destruct T as (_ & [T|[T|T]]).
  - right. destruct T as (_ & t & E & _). rewrite E in L1. rewrite !app_length in L1. cbn in L1. lia.
  - now left.
  - right. destruct T as (_ & A & _). apply adv1_len in A. lia.
Qed.
Lemma lexAllF_nofuel f : forall s, (List.length (cur s) < f)%nat -> lexAllF f s <> LUndef NoFuel.
Proof.
  induction f as [|f IH]; intros s L; [lia|]. cbn [lexAllF].
  destruct (lxGetTok s) as [[k s']| |u] eqn:E; cbn [lbind]; try discriminate.
  - destruct (Z.eqb_spec k EOFtok) as [|NE]; [discriminate|].
    destruct (tok_shorter _ _ _ E) as [X|X]; [congruence|].
    specialize (IH s' ltac:(lia)). destruct (lexAllF f s'); cbn [lbind]; congruence.
  - intros H. injection H as ->. exact (lxGetTok_nofuel _ E).
Qed.
Lemma lexAll_nofuel file : lexAll file <> LUndef NoFuel.
Proof. apply lexAllF_nofuel. unfold lxInit. cbn. lia. Qed.

Lemma skipSpc_cur s : exists t, cur s = t ++ cur (skipSpc s).
Proof. destruct (skipSpc_inv s) as (t & C & _). now exists t. Qed.
Lemma dispatch_buf s : okay (cur s) -> dispatch s <> LUndef UBuf.
Proof.
  intros OK. unfold dispatch.
  destruct (ch s =? -1); [discriminate|].
  assert (GD : forall p b dv x, getDigits p b dv x <> LUndef UBuf).
  { intros p b dv x H. apply getDigits_undef in H. discriminate. }
  destruct (_ && _).
  { unfold getSharp. cbv zeta. destruct (negb _); [discriminate|].
    destruct (getDec _) as [[v s1]| |u] eqn:E; cbn [lbind]; try discriminate.
    2:{ intros H. injection H as ->. exact (GD _ _ _ _ E). }
    destruct (negb _); [discriminate|].
    destruct (storeL _ _ _ _ _) as [[[l n] i] acc] eqn:ES. apply storeL_inv in ES.
    destruct ES as (t & C & P & _ & I & _).
    replace (StrMAX <? i) with false; [destruct (negb _); discriminate|]. symmetry. apply Z.ltb_ge.
    apply getDigits_adv in E. destruct E as (A & _).
    assert (O2 : okay (cur (getCh (skipSpc (setVal s1 v))))).
    { apply (okay_adv _ _ (adv_getCh _)). apply (okay_adv _ _ (adv_skipSpc _)).
      change (cur (setVal s1 v)) with (cur s1). apply (okay_adv _ _ A).
      apply (okay_adv _ _ (adv_skipSpc _)). apply (okay_adv _ _ (adv_getCh _)). now apply (okay_adv _ _ (adv_getCh _)). }
    apply okay_run in O2. rewrite C in O2.
    assert (slen t <= run (t ++ l)) by (apply run_le; intros c Ic ->; apply P in Ic; discriminate).
    unfold StrMAX. lia. }
  destruct (c_isdigit (ch s)).
  { unfold getDigit.
    assert (G : forall x : lres (Z * lx), x <> LUndef UBuf ->
      (let* (v, s0) := x in LOk (LxINTEGER, setVal s0 v)) <> LUndef UBuf).
    { intros [[v s0]| |u] H; cbn [lbind]; congruence. }
    apply G. destruct (_ && _); [unfold getHex; destruct (c_isxdigit _); [apply GD|discriminate]|].
    destruct (_ =? _); apply GD. }
  destruct (_ || _).
  { unfold getWord. destruct (storeL _ _ _ _ _) as [[[l n] i] acc] eqn:ES. destruct (negb _); [discriminate|].
    apply storeL_inv in ES. destruct ES as (t & C & P & _ & I & _).
    apply okay_run in OK. rewrite C in OK.
    assert (slen t <= run (t ++ l)) by (apply run_le; intros c Ic ->; apply P in Ic; discriminate).
    replace (StrMAX <? i) with false by (symmetry; apply Z.ltb_ge; unfold StrMAX; lia).
    cbn [lbind]. destruct (_ =? _); [discriminate|]. destruct (_ =? _); discriminate. }
  destruct (Z.eqb_spec (ch s) 34) as [E34|].
  { unfold getStr.
    assert (B : slen [] + 2 * run (tl (cur s)) <= 126).
    { pose proof (okay_run _ OK) as R. unfold ch in E34. destruct (cur s) as [|c l]; [discriminate|]. cbn in E34. subst c.
      replace (run (34 :: l)) with (1 + run l) in R by reflexivity. change (slen []) with 0. cbn [tl]. lia. }
    destruct (getStrF_buf (S (List.length (cur s))) s [] 1 OK B) as (U & F).
    destruct (getStrF _ _ _ _) as [[[s1 acc] cnt]| |u] eqn:E; cbn [lbind]; [|discriminate|congruence].
    specialize (F _ _ _ eq_refl).
    destruct (Z.ltb_spec StrMAX (slen acc)); [unfold StrMAX in *; lia|discriminate]. }
  destruct (ch s =? 39).
  { unfold getChar. cbv zeta. destruct (_ =? 92).
    - destruct (getEsc _) as [[v s1]| |u] eqn:E; cbn [lbind]; try discriminate.
      + destruct (negb _); discriminate.
      + exfalso. exact (getEsc_undef _ _ E).
    - cbn [lbind]. destruct (negb _); discriminate. }
  apply getSign_undef.
Qed.
Lemma tok_suffix s k s' : lxGetTok s = LOk (k, s') -> exists t, cur s = t ++ cur s'.
Proof.
  intros H. apply lxGetTok_inv in H. destruct H as (z & g & s1 & C & _ & _ & _ & _ & _ & _ & _ & _ & T).
  rewrite C. destruct T as (_ & [(_ & t & E & _)|[(_ & -> & _)|(_ & (t & _ & E & _) & _)]]).
  - exists (z ++ g ++ [10; 35] ++ t). rewrite E. now rewrite <- !app_assoc.
  - exists (z ++ g). now rewrite <- app_assoc.
  - exists (z ++ g ++ t). rewrite E. now rewrite <- !app_assoc.
Qed.
Lemma lexAllF_buf f : forall s, okay (cur s) -> lexAllF f s <> LUndef UBuf.
Proof.
  induction f as [|f IH]; intros s OK; [discriminate|]. cbn [lexAllF].
  destruct (lxGetTok s) as [[k s']| |u] eqn:E; cbn [lbind]; try discriminate.
  - destruct (k =? EOFtok); [discriminate|].
    destruct (tok_suffix _ _ _ E) as (t & C). rewrite C in OK. apply okay_suffix in OK.
    specialize (IH s' OK). destruct (lexAllF f s'); cbn [lbind]; congruence.
  - intros H. injection H as ->. revert E. rewrite lxGetTok_eq. set (s0 := if ch s =? 0 then getCh s else s).
    assert (O0 : okay (cur s0)).
    { subst s0. destruct (ch s =? 0); [apply (okay_adv _ _ (adv_getCh s) OK)|exact OK]. }
    destruct (skipSpace s0) as [s1| |u] eqn:E; cbn [lbind]; [|discriminate|].
    + apply dispatch_buf. cbn [newln cur]. unfold skipSpace in E. apply skipSpaceF_inv in E.
      destruct E as (g & C & _). rewrite C in O0. now apply okay_suffix in O0.
    + intros _. unfold skipSpace in E. exact (skipSpaceF_undef _ _ _ (Nat.lt_succ_diag_r _) E).
Qed.
Lemma lexAll_buf file : okay file -> lexAll file <> LUndef UBuf.
Proof.
  intros (H1 & H2). apply lexAllF_buf. unfold lxInit. cbn [cur]. split.
  - intros a b E. destruct a as [|x [|y a]].
    + cbn in E. subst b. cbn. lia.
    + injection E as <- <-. cbn. lia.
    + injection E as <- <- E. apply (H1 a b E).
  - intros a b E. destruct a as [|x [|y a]]; try discriminate.
    injection E as <- <- E. apply (H2 a b E).
Qed.
