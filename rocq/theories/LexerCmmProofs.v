(* src--/lexer.cmm (LexerCmm.v) against src/lexer.c (Lexer.v). *)
From Coq Require Import ZArith Bool List Lia.
From Verif Require Import Lexer LexTotal LexerCmm.
From Verif Require LibString.
Import ListNotations.
Open Scope Z_scope.

(* bytes other than 255; with st, only ASCII without DEL *)
Definition good (st : bool) (l : list Z) : Prop := Forall (fun c => 0 <= c < 255 /\ (st = true -> c < 127)) l.
Definition hdM (l : list Z) : Z := match l with [] => 255 | c :: _ => c end.
Definition ofLx (s : lx) : cx :=
  Cx (hdM (cur s)) (hdM (tl (cur s))) (tl (tl (cur s))) (ln2 s) (ln s) (val s) (str s).

Lemma cch_of s : cch (ofLx s) = hdM (cur s).
Proof. reflexivity. Qed.
Lemma cnx_of s : cnx (ofLx s) = hdM (tl (cur s)).
Proof. reflexivity. Qed.

Lemma good_tl st l : good st l -> good st (tl l).
Proof. intros H. destruct H; [constructor|assumption]. Qed.
Lemma good_in st l c : good st (c :: l) -> 0 <= c < 255.
Proof. intros H. inversion H; subst. tauto. Qed.

Ltac zb := repeat match goal with
  | |- context[?a =? ?b] => destruct (Z.eqb_spec a b); try lia
  | |- context[?a <=? ?b] => destruct (Z.leb_spec a b); try lia
  | |- context[?a <? ?b] => destruct (Z.ltb_spec a b); try lia end; try reflexivity.

Lemma eqb_k st l k : good st l -> 0 <= k < 255 -> (hdM l =? k) = (hd0 l =? k).
Proof. intros H K. destruct l as [|c l]; cbn [hdM hd0]; [|reflexivity]. zb. Qed.
Lemma eqb_eof st l : good st l -> (hdM l =? 255) = (hd0 l =? -1).
Proof. intros H. destruct l as [|c l]; cbn [hdM hd0]; [reflexivity|]. apply good_in in H. zb. Qed.
Lemma space_c c : 0 <= c < 256 -> LibString.isSpace c = c_isspace c.
Proof. intros H. unfold LibString.isSpace, c_isspace, btw. zb. Qed.
Lemma digit_c c : LibString.isDigit c = c_isdigit c.
Proof. reflexivity. Qed.
Lemma xdigit_c c : LibString.isXdigit c = c_isxdigit c.
Proof. reflexivity. Qed.
Lemma alpha_c c : LibString.isAlpha c = c_isalpha c.
Proof. reflexivity. Qed.
Lemma delim_c c : mIsDelim c = isDelim c.
Proof.
  unfold mIsDelim, isDelim, LibString.isAlnum, c_isalnum. rewrite alpha_c, digit_c.
  rewrite orb_comm. reflexivity.
Qed.
Lemma hex_c c : 0 <= c < 256 -> mHex c = hex c.
Proof.
  intros H. unfold mHex, hex. rewrite digit_c. destruct (c_isdigit c); [reflexivity|].
  unfold LibString.toUpper, c_toupper, LibString.isLower, btw.
  destruct (Z.leb_spec 97 c), (Z.leb_spec c 122); cbn [andb]; try reflexivity.
  rewrite Z.mod_small by lia. reflexivity.
Qed.
Lemma digit_hd l : LibString.isDigit (hdM l) = c_isdigit (hd0 l).
Proof. destruct l; reflexivity. Qed.
Lemma xdigit_hd l : LibString.isXdigit (hdM l) = c_isxdigit (hd0 l).
Proof. destruct l; reflexivity. Qed.
Lemma alpha_hd l : LibString.isAlpha (hdM l) = c_isalpha (hd0 l).
Proof. destruct l; reflexivity. Qed.
Lemma odigit_hd l : mIsOdigit (hdM l) = isOdigit (hd0 l).
Proof. destruct l; reflexivity. Qed.
Lemma delim_hd l : mIsDelim (hdM l) = isDelim (hd0 l).
Proof. rewrite delim_c. destruct l; reflexivity. Qed.

Lemma getCh_ok st s : good st (cur s) -> cGetCh (ofLx s) = MOk (ofLx (getCh s)).
Proof.
  intros H. unfold cGetCh, ofLx, getCh. cbn [cnx rest cl2 cln cval cstr cur ln2 ln val str].
  destruct (cur s) as [|a [|b [|c r]]] eqn:E; cbn [tl hdM mbind].
  - reflexivity.
  - reflexivity.
  - unfold bump. cbn [hd0]. reflexivity.
  - assert (0 <= c < 255) by (apply good_tl, good_tl in H; exact (good_in _ _ _ H)).
    unfold mEOF. replace (c =? 255) with false by zb. cbn [mbind]. unfold bump. cbn [hd0]. reflexivity.
Qed.
Lemma good_getCh st s : good st (cur s) -> good st (cur (getCh s)).
Proof. intros H. unfold getCh. cbn [cur]. apply good_tl, H. Qed.

(* with st both agree in every outcome; without, when the C lexer succeeds *)
Definition sim {A B} (st : bool) (ok : A -> B -> Prop) (x : mres A) (y : lres B) : Prop :=
  match y with
  | LOk b => exists a, x = MOk a /\ ok a b
  | LErr e => st = true -> x = MErr e \/ e = EBadEsc /\ x = MErr ECharEnd
  | LUndef u => st = true -> u <> NoFuel -> x = MUndef u
  end.
Lemma sim_bind {A B A' B'} st (ok : A -> B -> Prop) (ok' : A' -> B' -> Prop) x y f g :
  sim st ok x y -> (forall a b, ok a b -> sim st ok' (f a) (g b)) -> sim st ok' (mbind x f) (lbind y g).
Proof.
  intros S K. destruct y as [b|e|u]; cbn [sim lbind] in *.
  - destruct S as [a [-> O]]. cbn [mbind]. apply K, O.
  - intros T. destruct (S T) as [->|[-> ->]]; [left; reflexivity|right; split; reflexivity].
  - intros T N. rewrite (S T N). reflexivity.
Qed.
Lemma sim_ok {A B} st (ok : A -> B -> Prop) a b : ok a b -> sim st ok (MOk a) (LOk b).
Proof. intros O. exists a. split; [reflexivity|exact O]. Qed.
Lemma sim_err {A B} st (ok : A -> B -> Prop) e : sim st ok (MErr e) (LErr e).
Proof. intros _. left. reflexivity. Qed.
Lemma sim_und {A B} st (ok : A -> B -> Prop) u : sim st ok (MUndef u) (LUndef u).
Proof. intros _ _. reflexivity. Qed.

Definition okS (st : bool) (m : cx) (s : lx) : Prop := m = ofLx s /\ good st (cur s).
Definition okV (st : bool) (m : cx * Z) (s : Z * lx) : Prop := m = (ofLx (snd s), fst s) /\ good st (cur (snd s)).
Definition okT (st : bool) (m : Z * cx) (s : Z * lx) : Prop := m = (fst s, ofLx (snd s)) /\ good st (cur (snd s)).

Lemma sim_getCh {A B} st (ok : A -> B -> Prop) s f y :
  good st (cur s) -> sim st ok (f (ofLx (getCh s))) y -> sim st ok (mbind (cGetCh (ofLx s)) f) y.
Proof. intros G H. rewrite (getCh_ok st) by exact G. exact H. Qed.

Lemma fuel_cur s : (List.length (cur s) < fuelOf (ofLx s))%nat.
Proof. unfold fuelOf, ofLx. cbn [rest]. destruct (cur s) as [|a [|b l]]; cbn [tl List.length]; lia. Qed.

(* ---- loops ---- *)
Lemma skip_ok st p p' s : (forall l, good st l -> p' (hdM l) = match l with [] => false | c :: _ => p c end) ->
  forall l n f, good st l -> (List.length l < f)%nat ->
  whileM f (fun m => p' (cch m)) cGetCh (ofLx (at_ s l n)) =
    MOk (let '(l', n') := skipL p l n in ofLx (at_ s l' n')) /\ good st (fst (skipL p l n)).
Proof.
  intros P l. induction l as [|c r IH]; intros n f G F; (destruct f as [|f]; [cbn in F; lia|]); cbn [whileM].
  - cbv beta; cbn [fst snd]; rewrite ?cch_of, ?cnx_of; cbn [at_ cur]. rewrite (P [] G). split; [reflexivity|exact G].
  - cbv beta; cbn [fst snd]; rewrite ?cch_of, ?cnx_of; cbn [at_ cur]. rewrite (P _ G). cbn [skipL].
    destruct (p c); [|split; [reflexivity|exact G]].
    rewrite (getCh_ok st) by exact G. cbn [mbind].
    change (getCh (at_ s (c :: r) n)) with (at_ s r (bump r n)).
    apply IH; [exact (good_tl _ _ G)|cbn in F; lia].
Qed.
Lemma at_self s : at_ s (cur s) (ln2 s) = s.
Proof. destruct s. reflexivity. Qed.
Lemma skipSpc_ok st s : good st (cur s) ->
  cSkipSpc (ofLx s) = MOk (ofLx (skipSpc s)) /\ good st (cur (skipSpc s)).
Proof.
  intros G. unfold cSkipSpc, skipSpc.
  destruct (skip_ok st (fun c => negb (c =? 10) && c_isspace c) (fun c => negb (c =? 10) && LibString.isSpace c) s)
    with (l := cur s) (n := ln2 s) (f := fuelOf (ofLx s)) as [E E']; [|exact G|apply fuel_cur|].
  - intros [|c l] H; cbn [hdM]; [reflexivity|]. rewrite space_c; [reflexivity|]. apply good_in in H. lia.
  - rewrite at_self in E. rewrite E.
    destruct (skipL _ (cur s) (ln2 s)) as [l n]. split; [reflexivity|exact E'].
Qed.
Lemma skipToEol_ok st s : good st (cur s) ->
  cSkipToEol (ofLx s) = MOk (ofLx (skipToEol s)) /\ good st (cur (skipToEol s)).
Proof.
  intros G. unfold cSkipToEol, skipToEol.
  destruct (skip_ok st (fun c => negb (c =? 10)) (fun c => negb (c =? 10) && negb (c =? mEOF)) s)
    with (l := cur s) (n := ln2 s) (f := fuelOf (ofLx s)) as [E E']; [|exact G|apply fuel_cur|].
  - intros [|c l] H; cbn [hdM]; [reflexivity|]. apply good_in in H. unfold mEOF. zb.
  - rewrite at_self in E. rewrite E.
    destruct (skipL _ (cur s) (ln2 s)) as [l n]. split; [reflexivity|exact E'].
Qed.

Lemma com_ok st s : forall l n f, good st l -> (List.length l < f)%nat ->
  sim st (fun m p => m = ofLx (at_ s (fst p) (snd p)) /\ good st (fst p))
    (whileM f (fun m => negb (cch m =? 42) || negb (cnx m =? 47))
       (fun m => if cnx m =? mEOF then MErr EComment else cGetCh m) (ofLx (at_ s l n)))
    (skipComL l n).
Proof.
  intros l. induction l as [|c r IH]; intros n f G F; (destruct f as [|f]; [cbn in F; lia|]); cbn [whileM].
  - unfold ofLx. cbn. intros _. left. reflexivity.
  - change (cch (ofLx (at_ s (c :: r) n))) with c. change (cnx (ofLx (at_ s (c :: r) n))) with (hdM r). cbn [skipComL].
    rewrite (eqb_k st r 47 (good_tl _ _ G)) by lia. cbn [hdM].
    destruct ((c =? 42) && (hd0 r =? 47)) eqn:E.
    + rewrite <- negb_andb, E. cbn [negb]. apply sim_ok. split; [reflexivity|exact G].
    + rewrite <- negb_andb, E. cbn [negb]. unfold mEOF. rewrite (eqb_eof st r (good_tl _ _ G)).
      destruct (hd0 r =? -1); [apply sim_err|].
      rewrite (getCh_ok st) by exact G. cbn [mbind].
      change (getCh (at_ s (c :: r) n)) with (at_ s r (bump r n)).
      apply IH; [exact (good_tl _ _ G)|cbn in F; lia].
Qed.
Lemma skipCom_ok st s : good st (cur s) -> sim st (okS st) (cSkipCom (ofLx s)) (skipCom s).
Proof.
  intros G. unfold cSkipCom, skipCom.
  apply sim_getCh; [exact G|]. apply good_getCh in G.
  apply sim_getCh; [exact G|]. apply good_getCh in G.
  set (t := getCh (getCh s)) in *.
  eapply sim_bind.
  - pose proof (com_ok st t (cur t) (ln2 t) (fuelOf (ofLx t)) G (fuel_cur t)) as C. rewrite at_self in C. exact C.
  - intros a [l n] [-> H]. cbn [fst snd] in *.
    apply sim_getCh; [exact H|].
    rewrite (getCh_ok st) by (apply good_getCh; exact H). apply sim_ok.
    split; [reflexivity|]. apply good_getCh, good_getCh, H.
Qed.
Lemma skipSpaceF_ok st f : forall s f', good st (cur s) -> (f <= f')%nat ->
  sim st (okS st) (cSkipSpaceF f' (ofLx s)) (skipSpaceF f s).
Proof.
  induction f as [|f IH]; intros s f' G F; [intros _ K; congruence|].
  destruct f' as [|f']; [lia|]. cbn [cSkipSpaceF skipSpaceF].
  destruct (skipSpc_ok st s G) as [E G1]. rewrite E. cbn [mbind].
  set (t := skipSpc s) in *. unfold ch, nextch.
  cbv beta; cbn [fst snd]; rewrite ?cch_of, ?cnx_of; cbn [fst snd].
  rewrite !(eqb_k st (cur t)), !(eqb_k st (tl (cur t))) by (auto using good_tl; lia).
  destruct ((hd0 (cur t) =? 47) && (hd0 (tl (cur t)) =? 42)).
  - eapply sim_bind; [apply skipCom_ok, G1|]. intros a b [-> H]. apply IH; [exact H|lia].
  - destruct ((hd0 (cur t) =? 47) && (hd0 (tl (cur t)) =? 47)).
    + unfold cSkipCppCom, skipCppCom. destruct (skipToEol_ok st t G1) as [E2 G2]. rewrite E2. cbn [mbind].
      apply IH; [exact G2|lia].
    + destruct ((hd0 (cur t) =? 10) && negb (hd0 (tl (cur t)) =? 35)).
      * apply sim_getCh; [exact G1|]. apply IH; [apply good_getCh, G1|lia].
      * apply sim_ok. split; [reflexivity|exact G1].
Qed.
Lemma skipSpace_ok st s : good st (cur s) -> sim st (okS st) (cSkipSpace (ofLx s)) (skipSpace s).
Proof. intros G. apply skipSpaceF_ok; [exact G|]. pose proof (fuel_cur s). lia. Qed.

Lemma digits_ok st p b dv dv' s : p 255 = false -> (forall c, 0 <= c < 255 -> dv' c = dv c) ->
  forall l n v f, good st l -> (List.length l < f)%nat ->
  sim st (fun m q => m = (ofLx (at_ s (snd (fst q)) (snd q)), fst (fst q)) /\ good st (snd (fst q)))
    (whileM f (fun a => p (cch (fst a)))
       (fun a => let v := snd a * b + dv' (cch (fst a)) in
                 if v <=? HostMax then do* m := cGetCh (fst a) in MOk (m, v) else MUndef UOvf)
       (ofLx (at_ s l n), v))
    (digitsL p b dv l n v).
Proof.
  intros P D l. induction l as [|c r IH]; intros n v f G F; (destruct f as [|f]; [cbn in F; lia|]); cbn [whileM fst snd].
  - cbv beta; cbn [fst snd]; rewrite ?cch_of, ?cnx_of; cbn [at_ cur tl hdM]. rewrite P. cbn [digitsL]. apply sim_ok. split; [reflexivity|exact G].
  - cbv beta; cbn [fst snd]; rewrite ?cch_of, ?cnx_of; cbn [at_ cur tl hdM]. cbn [digitsL].
    destruct (p c); [|apply sim_ok; split; [reflexivity|exact G]].
    rewrite D by (exact (good_in _ _ _ G)).
    destruct (v * b + dv c <=? HostMax); [|apply sim_und].
    rewrite (getCh_ok st) by exact G. cbn [mbind].
    change (getCh (at_ s (c :: r) n)) with (at_ s r (bump r n)).
    apply IH; [exact (good_tl _ _ G)|cbn in F; lia].
Qed.
Lemma getDigits_ok st p b dv dv' s : p 255 = false -> (forall c, 0 <= c < 255 -> dv' c = dv c) ->
  good st (cur s) -> sim st (okV st) (cDigits p b dv' (ofLx s)) (getDigits p b dv s).
Proof.
  intros P D G. unfold getDigits.
  pose proof (digits_ok st p b dv dv' s P D (cur s) (ln2 s) 0 (fuelOf (ofLx s)) G (fuel_cur s)) as C.
  rewrite at_self in C. fold (cDigits p b dv' (ofLx s)) in C.
  destruct (digitsL p b dv (cur s) (ln2 s) 0) as [[[v l] n]|e|u]; cbn [sim lbind] in *; [|exact C|exact C].
  destruct C as [a [E [-> H]]]. exists (ofLx (at_ s l n), v). split; [exact E|]. split; [reflexivity|exact H].
Qed.
Lemma getDigit_ok st s : good st (cur s) -> sim st (okT st) (cGetDigit (ofLx s)) (getDigit s).
Proof.
  intros G. unfold cGetDigit, getDigit, ch, nextch. eapply sim_bind with (ok := okV st).
  - cbv beta; cbn [fst snd]; rewrite ?cch_of, ?cnx_of; cbn [fst snd].
    rewrite !(eqb_k st (cur s)), !(eqb_k st (tl (cur s))) by (auto using good_tl; lia).
    destruct ((hd0 (cur s) =? 48) && ((hd0 (tl (cur s)) =? 120) || (hd0 (tl (cur s)) =? 88))).
    + apply sim_getCh; [exact G|]. apply sim_getCh; [apply good_getCh, G|].
      apply good_getCh, good_getCh in G. set (t := getCh (getCh s)) in *.
      unfold cGetHex, getHex, ch. cbv beta; cbn [fst snd]; rewrite ?cch_of, ?cnx_of; cbn [fst snd]. rewrite xdigit_hd.
      destruct (c_isxdigit (hd0 (cur t))); [|apply sim_err].
      apply (getDigits_ok st c_isxdigit 16 hex mHex); [reflexivity| |exact G].
      intros c H. apply hex_c. lia.
    + destruct (hd0 (cur s) =? 48); (apply getDigits_ok; [reflexivity|reflexivity|exact G]).
  - intros [m v] [v' t] [E H]. cbn [fst snd] in *. injection E as -> ->. apply sim_ok. split; [reflexivity|exact H].
Qed.

Lemma store_ok st p p' s : (forall l, good st l -> p' (hdM l) = match l with [] => false | c :: _ => p c end) ->
  forall l n acc f, good st l -> (List.length l < f)%nat ->
  whileM f (fun a => p' (cch (fst a)) && (slen (snd a) <=? StrMAX))
    (fun a => do* m := cGetCh (fst a) in MOk (m, snd a ++ [cch (fst a)])) (ofLx (at_ s l n), acc) =
    MOk (let '(l', n', _, acc') := storeL p l n (slen acc) acc in (ofLx (at_ s l' n'), acc')) /\
  (let '(l', n', i', acc') := storeL p l n (slen acc) acc in good st l' /\ i' = slen acc').
Proof.
  intros P l. induction l as [|c r IH]; intros n acc f G F; (destruct f as [|f]; [cbn in F; lia|]); cbn [whileM fst snd].
  - cbv beta; cbn [fst snd]; rewrite ?cch_of, ?cnx_of; cbn [at_ cur]. rewrite (P [] G). cbn [andb storeL]. repeat split. exact G.
  - cbv beta; cbn [fst snd]; rewrite ?cch_of, ?cnx_of; cbn [at_ cur]. rewrite (P _ G). cbn [storeL].
    destruct (p c && (slen acc <=? StrMAX)); [|repeat split; exact G].
    rewrite (getCh_ok st) by exact G. cbn [mbind].
    change (getCh (at_ s (c :: r) n)) with (at_ s r (bump r n)).
    cbv beta; cbn [fst snd]; rewrite ?cch_of, ?cnx_of; cbn [at_ cur tl hdM].
    assert (E : slen acc + 1 = slen (acc ++ [c])) by (unfold slen; rewrite app_length; cbn [List.length]; lia).
    rewrite E. apply IH; [exact (good_tl _ _ G)|cbn in F; lia].
Qed.

Lemma getSharp_ok st s : good st (cur s) -> sim st (okT st) (cGetSharp (ofLx s)) (getSharp s).
Proof.
  intros G. unfold cGetSharp, getSharp.
  apply sim_getCh; [exact G|]. apply sim_getCh; [apply good_getCh, G|].
  apply good_getCh, good_getCh in G.
  destruct (skipSpc_ok st _ G) as [E1 G1]. rewrite E1. cbn [mbind]. clear E1 G.
  set (t := skipSpc (getCh (getCh s))) in *. clearbody t. clear s.
  unfold ch at 1. cbv beta; cbn [fst snd]; rewrite ?cch_of, ?cnx_of; cbn [fst snd]. rewrite digit_hd.
  destruct (c_isdigit (hd0 (cur t))); cbn [negb]; [|apply sim_err].
  eapply sim_bind with (ok := okV st).
  - apply (getDigits_ok st c_isdigit 10 (fun c => c - 48) (fun c => c - 48)); [reflexivity|reflexivity|exact G1].
  - clear t G1. intros [m v] [v' t] [E H]. cbn [fst snd] in *. injection E as -> ->.
    change (cSetVal (ofLx t) v') with (ofLx (setVal t v')).
    assert (H1 : good st (cur (setVal t v'))) by exact H.
    destruct (skipSpc_ok st _ H1) as [E1 G1]. rewrite E1. cbn [mbind].
    assert (V : val (skipSpc (setVal t v')) = v').
    { unfold skipSpc. destruct (skipL _ _ _) as [l n]. reflexivity. }
    set (u := skipSpc (setVal t v')) in *. clearbody u. clear t H H1 E1.
    unfold ch at 1. cbv beta; cbn [fst snd]; rewrite ?cch_of, ?cnx_of; cbn [fst snd]. rewrite (eqb_k st) by (auto; lia).
    destruct (hd0 (cur u) =? 34); cbn [negb]; [|apply sim_err].
    apply sim_getCh; [exact G1|]. apply good_getCh in G1.
    change (val u) with (val (getCh u)) in V.
    set (w := getCh u) in *. clearbody w. clear u.
    unfold cStore.
    destruct (store_ok st (fun c => negb ((c =? 34) || (c =? 10)))
      (fun c => negb ((c =? 34) || (c =? 10) || (c =? mEOF))) w) with (l := cur w) (n := ln2 w) (acc := @nil Z) (f := fuelOf (ofLx w))
      as [E2 E3]; [|exact G1|apply fuel_cur|].
    + intros [|c l] H; cbn [hdM]; [reflexivity|]. apply good_in in H. unfold mEOF. zb.
    + rewrite at_self in E2. rewrite E2. cbn [mbind]. change (slen []) with 0 in *.
      destruct (storeL _ (cur w) (ln2 w) 0 []) as [[[l n] i] acc]. destruct E3 as [G3 ->].
      destruct (StrMAX <? slen acc); [apply sim_und|].
      change (cSetStr (ofLx (at_ w l n)) acc) with (ofLx (setStr (at_ w l n) acc)).
      set (x := setStr (at_ w l n) acc).
      assert (G4 : good st (cur x)) by exact G3. assert (V4 : val x = v') by exact V.
      clearbody x. clear w V G1 E2 l n G3 acc.
      unfold ch at 1. cbv beta; cbn [fst snd]; rewrite ?cch_of, ?cnx_of; cbn [fst snd]. rewrite (eqb_k st) by (auto; lia).
      destruct (hd0 (cur x) =? 34); cbn [negb]; [|apply sim_err].
      destruct (skipToEol_ok st x G4) as [E5 G5]. rewrite E5. cbn [mbind].
      assert (V5 : val (skipToEol x) = v') by (unfold skipToEol; destruct (skipL _ _ _); exact V4).
      apply sim_ok. split; [|exact G5]. cbn [fst snd]. unfold ofLx. cbn [cch cnx rest cval cln cstr cur ln2 ln val str].
      rewrite V5. reflexivity.
Qed.

Lemma getWord_ok st s : good st (cur s) -> sim st (okT st) (cGetWord (ofLx s)) (getWord s).
Proof.
  intros G. unfold cGetWord, getWord, cStore.
  destruct (store_ok st (fun c => negb (isDelim c)) (fun c => negb (mIsDelim c)) s)
    with (l := cur s) (n := ln2 s) (acc := @nil Z) (f := fuelOf (ofLx s)) as [E2 E3]; [|exact G|apply fuel_cur|].
  - intros [|c l] H; cbn [hdM]; [reflexivity|]. rewrite delim_c. reflexivity.
  - rewrite at_self in E2. rewrite E2. cbn [mbind]. change (slen []) with 0 in *.
    destruct (storeL _ (cur s) (ln2 s) 0 []) as [[[l n] i] acc]. destruct E3 as [G3 ->].
    unfold ch. cbv beta; cbn [fst snd]; rewrite ?cch_of, ?cnx_of; cbn [fst snd]. rewrite delim_hd.
    destruct (isDelim (hd0 (cur (at_ s l n)))); cbn [negb]; [|apply sim_err].
    destruct (StrMAX <? slen acc); [apply sim_und|]. apply sim_ok. split; [reflexivity|exact G3].
Qed.

Lemma hexStr_ok st s : forall l c n v f, good st (c :: l) -> (List.length l < f)%nat ->
  sim st (fun m q => m = (ofLx (at_ s (snd (fst q)) (snd q)), fst (fst q)) /\ good st (snd (fst q)) /\
                     (0 <= v <= 255 -> 0 <= fst (fst q) <= 255))
    (whileM f (fun a => LibString.isXdigit (cnx (fst a)))
    (fun a => let v := snd a * 16 + mHex (cnx (fst a)) in
              if 255 <? v then MErr EHexRange else do* m := cGetCh (fst a) in MOk (m, v))
    (ofLx (at_ s (c :: l) n), v))
    (hexStrL c l n v).
Proof.
  intros l. induction l as [|d r IH]; intros c n v f G F; (destruct f as [|f]; [cbn in F; lia|]); cbn [whileM fst snd].
  - cbv beta; cbn [fst snd]; rewrite ?cch_of, ?cnx_of; cbn [at_ cur tl hdM]. cbn. eexists. split; [reflexivity|]. repeat split; [exact G|lia|lia].
  - cbv beta; cbn [fst snd]; rewrite ?cch_of, ?cnx_of; cbn [at_ cur tl hdM]. cbn [hexStrL]. rewrite xdigit_c.
    destruct (c_isxdigit d) eqn:X; [|apply sim_ok; repeat split; [exact G|cbn; lia|cbn; lia]].
    pose proof (good_in _ _ _ (good_tl _ _ G)) as D.
    rewrite hex_c by lia.
    destruct (Z.ltb_spec 255 (v * 16 + hex d)); [apply sim_err|].
    rewrite (getCh_ok st) by exact G. cbn [mbind].
    change (getCh (at_ s (c :: d :: r) n)) with (at_ s (d :: r) (bump (d :: r) n)).
    assert (HX : 0 <= hex d).
    { clear -X D. unfold c_isxdigit, hex, c_toupper, c_isdigit, btw in *.
      revert X. zb; cbn; intros; try discriminate; lia. }
    specialize (IH d (bump (d :: r) n) (v * 16 + hex d) f (good_tl _ _ G)).
    assert (L : (List.length r < f)%nat) by (cbn in F; lia). specialize (IH L).
    destruct (hexStrL d r (bump (d :: r) n) (v * 16 + hex d)) as [[[v' l'] n']|e|u]; cbn [sim] in *; [|exact IH|exact IH].
    destruct IH as [a [E [E1 [E2 E3]]]]. exists a. cbn [fst snd] in *. repeat split; [exact E|exact E1|exact E2| |]; lia.
Qed.
Lemma getHexStr_ok st s : good st (cur s) -> sim st (okV st) (cGetHexStr (ofLx s)) (getHexStr s).
Proof.
  intros G. unfold cGetHexStr, getHexStr, nextch. cbv beta; cbn [fst snd]; rewrite ?cch_of, ?cnx_of; cbn [fst snd]. rewrite xdigit_hd.
  destruct (c_isxdigit (hd0 (tl (cur s)))) eqn:X; cbn [negb]; [|apply sim_err].
  destruct (cur s) as [|c l] eqn:C; [cbn in X; discriminate X|].
  assert (E : s = at_ s (c :: l) (ln2 s)) by (rewrite <- C; symmetry; apply at_self).
  unfold ch. rewrite C. cbn [hd0 tl].
  assert (F : (List.length l < fuelOf (ofLx s))%nat) by (pose proof (fuel_cur s) as Q; rewrite C in Q; cbn in Q; lia).
  pose proof (hexStr_ok st s l c (ln2 s) 0 _ G F) as K. rewrite <- E in K.
  destruct (hexStrL c l (ln2 s) 0) as [[[v l'] n']|e|u]; cbn [sim lbind] in *.
  - destruct K as [a [K1 [K2 [K3 K4]]]]. cbn [fst snd] in *. rewrite K1, K2. cbn [mbind].
    eexists. split; [reflexivity|]. unfold okV. cbn [fst snd]. rewrite Z.mod_small by lia. split; [reflexivity|exact K3].
  - intros T. destruct (K T) as [->|[-> ->]]; [left; reflexivity|right; split; reflexivity].
  - intros T N. rewrite (K T N). reflexivity.
Qed.

Lemma getOctStr_ok st s : good st (cur s) -> isOdigit (ch s) = true ->
  sim st (okV st) (cGetOctStr (ofLx s)) (getOctStr s).
Proof.
  intros G O.
  assert (K : forall k f t v i, good st (cur t) -> isOdigit (ch t) = true -> 0 <= v -> i + Z.of_nat k = 2 -> (k <= f)%nat ->
    sim st (okV st) (cOctStr f (ofLx t) v i) (octStrL k t v)).
  { induction k as [|k IH]; intros f t v i Gt Ot Hv Hi Hf.
    - assert (E : hdM (cur t) = ch t) by (unfold ch in Ot |- *; destruct (cur t); [discriminate Ot|reflexivity]).
      assert (B : 48 <= ch t <= 55) by (unfold isOdigit in Ot; apply andb_prop in Ot; destruct Ot; lia).
      assert (X : sim st (okV st)
        (let v0 := v * 8 + cch (ofLx t) - 48 in
         if 255 <? v0 then MErr EOctRange else
         if negb (mIsOdigit (cnx (ofLx t))) then MOk (ofLx t, v0 mod 256) else MOk (ofLx t, v0 mod 256))
        (octStrL 0 t v)).
      { cbn [octStrL]. cbv beta; cbn [fst snd]; rewrite ?cch_of, ?cnx_of; cbn [fst snd]. rewrite E. cbv zeta.
        destruct (Z.ltb_spec 255 (v * 8 + ch t - 48)); [apply sim_err|].
        rewrite Z.mod_small by lia.
        cbv beta; cbn [fst snd]; rewrite ?cch_of, ?cnx_of; cbn [fst snd]. rewrite odigit_hd. fold (nextch t).
        destruct (isOdigit (nextch t)); cbn [negb]; (apply sim_ok; split; [reflexivity|exact Gt]). }
      destruct f; cbn [cOctStr]; cbv zeta in *; replace (3 <=? i + 1) with true by zb; exact X.
    - destruct f as [|f]; [lia|].
      assert (E : hdM (cur t) = ch t) by (unfold ch in Ot |- *; destruct (cur t); [discriminate Ot|reflexivity]).
      assert (B : 48 <= ch t <= 55) by (unfold isOdigit in Ot; apply andb_prop in Ot; destruct Ot; lia).
      cbn [cOctStr octStrL]. cbv beta; cbn [fst snd]; rewrite ?cch_of, ?cnx_of; cbn [fst snd]. rewrite E. cbv zeta.
      destruct (Z.ltb_spec 255 (v * 8 + ch t - 48)); [apply sim_err|].
      rewrite Z.mod_small by lia.
      cbv beta; cbn [fst snd]; rewrite ?cch_of, ?cnx_of; cbn [fst snd]. rewrite odigit_hd. fold (nextch t).
      destruct (isOdigit (nextch t)) eqn:N; cbn [negb]; [|apply sim_ok; split; [reflexivity|exact Gt]].
      replace (3 <=? i + 1) with false by zb.
      assert (EC : hdM (cur t) = ch t) by exact E.
      rewrite ?E. cbn [cch].
      apply sim_getCh; [exact Gt|]. apply IH; [apply good_getCh, Gt|exact N|lia|lia|lia]. }
  apply K; [exact G|exact O|lia|reflexivity|unfold fuelOf; lia].
Qed.

Lemma print_ok st l : good st l -> c_isprint (hd0 l) = true -> LibString.isPrint (hdM l) = true.
Proof. intros G H. destruct l as [|c l]; [discriminate H|]. unfold c_isprint, btw, LibString.isPrint in *. cbn [hd0 hdM] in *. apply andb_prop in H. tauto. Qed.

Lemma getEsc_ok st s : good st (cur s) -> sim st (fun a b => okV st a b) (cGetEsc (ofLx s)) (getEsc s) \/
  (cur (getCh s) = [] /\ getEsc s = LErr EBadEsc).
Proof.
  intros G. unfold cGetEsc, getEsc.
  destruct (cur (getCh s)) as [|c0 l0] eqn:CE.
  { right. split; [reflexivity|]. unfold ch. rewrite CE. reflexivity. }
  left. apply sim_getCh; [exact G|]. apply good_getCh in G. set (t := getCh s) in *. clearbody t. clear s.
  assert (E : hdM (cur t) = ch t) by (unfold ch; rewrite CE; reflexivity).
  cbv beta; cbn [fst snd]; rewrite ?cch_of, ?cnx_of; cbn [fst snd]. rewrite E.
  assert (V : forall v, sim st (okV st) (do* m := cGetCh (ofLx t) in MOk (m, v)) (LOk (v, getCh t))).
  { intros v. apply sim_getCh; [exact G|]. apply sim_ok. split; [reflexivity|apply good_getCh, G]. }
  destruct (ch t =? 110); [apply V|]. destruct (ch t =? 116); [apply V|]. destruct (ch t =? 114); [apply V|].
  destruct ((ch t =? 120) || (ch t =? 88)).
  { eapply sim_bind; [apply getHexStr_ok, G|]. intros [m v] [v' u] [Q H]. cbn [fst snd] in *. injection Q as -> ->.
    apply sim_getCh; [exact H|]. apply sim_ok. split; [reflexivity|apply good_getCh, H]. }
  change (mIsOdigit (ch t)) with (isOdigit (ch t)).
  destruct (isOdigit (ch t)) eqn:O.
  { eapply sim_bind; [apply getOctStr_ok; [exact G|exact O]|]. intros [m v] [v' u] [Q H]. cbn [fst snd] in *. injection Q as -> ->.
    apply sim_getCh; [exact H|]. apply sim_ok. split; [reflexivity|apply good_getCh, H]. }
  destruct (c_isprint (ch t)) eqn:P.
  - assert (P' : LibString.isPrint (ch t) = true) by (rewrite <- E; eapply print_ok; eauto).
    rewrite P'. cbv zeta. apply V.
  - intros T.
    assert (P' : LibString.isPrint (ch t) = false).
    { unfold ch in P |- *. rewrite CE in G, P |- *. cbn [hd0] in *. inversion G as [|x y [Hx Hx'] Hy]; subst.
      specialize (Hx' eq_refl). unfold c_isprint, btw, LibString.isPrint in *.
      destruct (Z.leb_spec 32 c0); [|reflexivity]. destruct (Z.leb_spec c0 126); [discriminate P|lia]. }
    rewrite P'. left. reflexivity.
Qed.

Definition okQ (st : bool) (m : cx * list Z * Z) (s : lx * list Z * Z) : Prop :=
  m = (ofLx (fst (fst s)), snd (fst s), snd s) /\ good st (cur (fst (fst s))).
Lemma putOct_ok st v acc : sim st (fun a b => a = b) (cPutOctStr v acc) (putOctStr v (slen acc) acc).
Proof. unfold cPutOctStr, putOctStr. destruct (_ <=? _); [apply sim_err|apply sim_ok; reflexivity]. Qed.

Lemma getStrF_ok st f : forall s f' acc cnt, good st (cur s) -> (f <= f')%nat ->
  sim st (okQ st) (cGetStrF f' (ofLx s) acc cnt) (getStrF f s acc cnt).
Proof.
  induction f as [|f IH]; intros s f' acc cnt G F; [intros _ K; congruence|].
  destruct f' as [|f']; [lia|]. cbn [cGetStrF getStrF].
  apply sim_getCh; [exact G|]. apply good_getCh in G. set (t := getCh s) in *. clearbody t. clear s. cbv zeta.
  unfold ch at 1 2 3 4 5 6. cbv beta; cbn [fst snd]; rewrite ?cch_of, ?cnx_of; cbn [fst snd].
  unfold mEOF. rewrite !(eqb_k st (cur t)) by (auto; lia). rewrite (eqb_eof st _ G).
  destruct ((hd0 (cur t) =? 34) || (hd0 (cur t) =? -1) || (StrMAX <? slen acc)) eqn:L; cbn [orb].
  { destruct (hd0 (cur t) =? 34); cbn [negb]; [apply sim_ok; split; [reflexivity|exact G]|apply sim_err]. }
  apply orb_false_elim in L. destruct L as [L L3]. apply orb_false_elim in L. destruct L as [L1 L2].
  destruct (cur t) as [|c0 l0] eqn:CE; [discriminate L2|]. cbn [hd0 hdM] in *.
  assert (B : 0 <= c0 < 255) by exact (good_in _ _ _ G).
  destruct (c_iscntrl c0) eqn:CT.
  { rewrite L1. cbn [negb]. intros T.
    assert (P : LibString.isPrint c0 = false).
    { inversion G as [|x y [Hx Hx'] Hy]; subst. specialize (Hx' eq_refl).
      unfold c_iscntrl, btw, LibString.isPrint in *. destruct (Z.leb_spec 32 c0); [|reflexivity].
      destruct (Z.eqb_spec c0 127); [lia|]. destruct (Z.leb_spec c0 31); [lia|]. rewrite andb_false_r in CT. discriminate CT. }
    rewrite P. cbn [negb]. left. reflexivity. }
  assert (P : LibString.isPrint c0 = true).
  { unfold c_iscntrl, btw, LibString.isPrint in *. destruct (Z.leb_spec 32 c0); [reflexivity|].
    destruct (Z.leb_spec 0 c0); [|lia]. destruct (Z.leb_spec c0 31); [discriminate CT|lia]. }
  rewrite P. cbn [negb].
  assert (CH : ch t = c0) by (unfold ch; rewrite CE; reflexivity).
  assert (Gt : good st (cur t)) by (rewrite CE; exact G).
  destruct (c0 =? 92) eqn:N; cbn [negb].
  2:{ rewrite CH. apply IH; [exact Gt|lia]. }
  apply sim_getCh; [exact Gt|]. apply good_getCh in Gt. clear CE CH. set (u := getCh t) in *. clearbody u. clear t G.
  unfold ch at 1. cbv beta; cbn [fst snd]; rewrite ?cch_of, ?cnx_of; cbn [fst snd]. rewrite (eqb_k st) by (auto; lia).
  destruct (hd0 (cur u) =? 120).
  { eapply sim_bind; [apply getHexStr_ok, Gt|]. intros [m v] [v' w] [Q H]. cbn [fst snd] in *. injection Q as -> ->.
    eapply sim_bind; [apply putOct_ok|]. intros a b ->. apply IH; [exact H|lia]. }
  cbv beta; cbn [fst snd]; rewrite ?cch_of, ?cnx_of; cbn [fst snd]. rewrite odigit_hd. fold (ch u).
  destruct (isOdigit (ch u)) eqn:O.
  { eapply sim_bind; [apply getOctStr_ok; [exact Gt|exact O]|]. intros [m v] [v' w] [Q H]. cbn [fst snd] in *. injection Q as -> ->.
    eapply sim_bind; [apply putOct_ok|]. intros a b ->. apply IH; [exact H|lia]. }
  destruct (StrMAX <? slen acc + 1); [apply sim_und|].
  assert (M : ch u mod 256 = cch (ofLx u)).
  { unfold ch, ofLx. cbn [cch]. destruct (cur u) as [|x y] eqn:CU; [reflexivity|]. cbn [hd0 hdM].
    apply good_in in Gt. apply Z.mod_small. lia. }
  rewrite M. apply IH; [exact Gt|lia].
Qed.
Lemma getStr_ok st s : good st (cur s) -> sim st (okT st) (cGetStr (ofLx s)) (getStr s).
Proof.
  intros G. unfold cGetStr, getStr. eapply sim_bind.
  - apply getStrF_ok; [exact G|]. pose proof (fuel_cur s). lia.
  - intros [[m acc] cnt] [[t acc'] cnt'] [Q H]. cbn [fst snd] in *. injection Q as -> -> ->.
    apply sim_getCh; [exact H|]. destruct (StrMAX <? slen acc'); [apply sim_und|].
    apply sim_ok. split; [reflexivity|apply good_getCh, H].
Qed.

Lemma getChar_ok st s : good st (cur s) -> sim st (okT st) (cGetChar (ofLx s)) (getChar s).
Proof.
  intros G. unfold cGetChar, getChar.
  apply sim_getCh; [exact G|]. apply good_getCh in G. set (t := getCh s) in *. clearbody t. clear s. cbv zeta.
  rewrite cch_of. unfold ch at 1. rewrite (eqb_k st) by (auto; lia).
  assert (K : forall x y, sim st (okV st) x y -> sim st (okT st)
    (do* (m, v) := x in if negb (cch (cSetVal m v) =? 39) then MErr ECharEnd
       else do* m0 := cGetCh (cSetVal m v) in MOk (LxCHARACTER, m0))
    (let* (v, s0) := y in if negb (ch (setVal s0 v) =? 39) then LErr ECharEnd else LOk (LxCHARACTER, getCh (setVal s0 v)))).
  { intros x y S. eapply sim_bind; [exact S|]. intros [m v] [v' u] [Q H]. cbn [fst snd] in *. injection Q as -> ->.
    change (cSetVal (ofLx u) v') with (ofLx (setVal u v')).
    assert (H' : good st (cur (setVal u v'))) by exact H.
    rewrite cch_of. unfold ch. rewrite (eqb_k st) by (auto; lia).
    destruct (hd0 (cur (setVal u v')) =? 39); cbn [negb]; [|apply sim_err].
    apply sim_getCh; [exact H'|]. apply sim_ok. split; [reflexivity|apply good_getCh, H']. }
  destruct (hd0 (cur t) =? 92).
  - destruct (getEsc_ok st t G) as [S|[C E]]; [apply K, S|].
    rewrite E. cbn [lbind]. intros T. right. split; [reflexivity|].
    unfold cGetEsc. rewrite (getCh_ok st) by exact G. cbn [mbind].
    rewrite cch_of, C.
    replace (if hdM [] =? 110 then _ else _) with (do* m := cGetCh (ofLx (getCh t)) in MOk (m, 255)) by reflexivity.
    rewrite (getCh_ok st) by (apply good_getCh, G). cbn [mbind].
    change (cch (cSetVal (ofLx (getCh (getCh t))) 255)) with (hdM (tl (cur (getCh t)))). rewrite C. reflexivity.
  - destruct (cur t) as [|c l] eqn:CE.
    + cbn [lbind]. unfold ch at 2. unfold getCh at 1. cbn [setVal cur]. rewrite CE. cbn [tl hd0].
      intros T. left. rewrite (getCh_ok st) by (rewrite CE; exact G). cbn [mbind].
      change (cch (cSetVal (ofLx (getCh t)) (hdM []))) with (hdM (tl (cur t))). rewrite CE. reflexivity.
    + cbn [hdM]. replace (ch t) with c by (unfold ch; rewrite CE; reflexivity). cbv zeta.
      apply K. apply sim_getCh; [rewrite CE; exact G|]. apply sim_ok. split; [reflexivity|].
      apply good_getCh. rewrite CE. exact G.
Qed.

Lemma getSign_ok st s : good st (cur s) -> cur s <> [] -> sim st (okT st) (cGetSign (ofLx s)) (getSign s).
Proof.
  intros G NE. unfold cGetSign, getSign. cbv zeta. rewrite cch_of, cnx_of.
  rewrite !(eqb_k st (cur s)), !(eqb_k st (tl (cur s))) by (auto using good_tl; lia).
  fold (ch s). fold (nextch s).
  assert (T : forall k, sim st (okT st) (do* m := cGetCh (ofLx s) in do* m0 := cGetCh m in MOk (k, m0)) (LOk (k, getCh (getCh s)))).
  { intros k. apply sim_getCh; [exact G|]. apply sim_getCh; [apply good_getCh, G|].
    apply sim_ok. split; [reflexivity|apply good_getCh, good_getCh, G]. }
  repeat match goal with
    | |- sim _ _ (if ?c then do* m := cGetCh (ofLx s) in do* m0 := cGetCh m in MOk _ else _) _ => destruct c; [apply T|] end.
  destruct ((ch s =? 46) && (nextch s =? 46)).
  - apply sim_getCh; [exact G|]. rewrite cnx_of. apply good_getCh in G. set (t := getCh s) in *.
    rewrite (eqb_k st) by (auto using good_tl; lia). fold (nextch t). destruct (nextch t =? 46).
    + apply sim_getCh; [exact G|]. apply sim_getCh; [apply good_getCh, G|].
      apply sim_ok. split; [reflexivity|apply good_getCh, good_getCh, G].
    + apply sim_getCh; [exact G|]. apply sim_ok. split; [reflexivity|apply good_getCh, G].
  - apply sim_getCh; [exact G|]. apply sim_ok. split; [|apply good_getCh, G].
    unfold ch. destruct (cur s); [congruence|]. reflexivity.
Qed.

(* the two names of the end of the file *)
Definition tokM (t : Z) : Z := if t =? EOFtok then LxEOF else t.
Definition itemM (it : item) : item := let '(t, v, w, n) := it in (tokM t, v, w, n).

(* no token other than the end has the number of an end *)
Definition plain (k : Z) : Prop := 0 <= k < 255.
Lemma searchRsv_plain w : plain (searchRsv (firstn LxRsvNUM rsvWord) w).
Proof.
  assert (K : forall t, (forall n k, In (n, k) t -> plain k) -> plain (searchRsv t w)).
  { induction t as [|[n k] t IH]; intros H; cbn [searchRsv]; [unfold plain, LxNAME; lia|].
    destruct (zeqb_list w n); [apply (H n k); left; reflexivity|apply IH; intros n' k' I; apply (H n' k'); right; exact I]. }
  apply K. intros n k I.
  assert (F : Forall (fun p => plain (snd p)) (firstn LxRsvNUM rsvWord)).
  { unfold plain. repeat constructor; cbv; try discriminate; intros; discriminate. }
  rewrite Forall_forall in F. exact (F _ I).
Qed.

Lemma sharp_plain s k s' : getSharp s = LOk (k, s') -> plain k.
Proof.
  unfold getSharp. destruct (negb _); [discriminate|].
  destruct (getDec _) as [[v t]|e|u]; cbn [lbind]; try discriminate.
  destruct (negb _); [discriminate|]. destruct (storeL _ _ _ _ _) as [[[l n] i] acc].
  destruct (_ <? _); [discriminate|]. destruct (negb _); [discriminate|].
  intros E. apply (f_equal (fun x => match x with LOk (k, _) => k | _ => 0 end)) in E. cbv beta iota in E.
  subst k. unfold plain, LxFILE. lia.
Qed.
Lemma lres_fst (x : Z) (s s' : lx) k : LOk (x, s) = LOk (k, s') -> x = k.
Proof. congruence. Qed.
Lemma digit_plain s k s' : getDigit s = LOk (k, s') -> plain k.
Proof.
  unfold getDigit. match goal with |- lbind ?x _ = _ -> _ => destruct x as [[v t]|e|u] end; cbn [lbind]; try discriminate.
  intros E. apply lres_fst in E. subst k. unfold plain, LxINTEGER. lia.
Qed.
Lemma str_plain s k s' : getStr s = LOk (k, s') -> plain k.
Proof.
  unfold getStr. destruct (getStrF _ _ _ _) as [[[t acc] cnt]|e|u]; cbn [lbind]; try discriminate.
  destruct (_ <? _); [discriminate|]. intros E. apply lres_fst in E. subst k. unfold plain, LxSTRING. lia.
Qed.
Lemma char_plain s k s' : getChar s = LOk (k, s') -> plain k.
Proof.
  unfold getChar. match goal with |- lbind ?x _ = _ -> _ => destruct x as [[v t]|e|u] end; cbn [lbind]; try discriminate.
  destruct (negb _); [discriminate|]. intros E. apply lres_fst in E. subst k. unfold plain, LxCHARACTER. lia.
Qed.
Lemma sign_plain st s k s' : good st (cur s) -> cur s <> [] -> getSign s = LOk (k, s') -> plain k.
Proof.
  intros G NE. unfold getSign. cbv zeta.
  repeat match goal with
    | |- (if ?c then LOk _ else _) = _ -> _ => destruct c; [intros E; apply lres_fst in E; subst k; unfold plain; cbv; split; congruence|] end.
  destruct (_ && _).
  - destruct (_ =? _); intros E; apply lres_fst in E; subst k; unfold plain; cbv; split; congruence.
  - intros E. apply lres_fst in E. subst k. unfold ch. destruct (cur s) as [|c l]; [congruence|].
    exact (good_in _ _ _ G).
Qed.

Definition okG (st : bool) (m : Z * cx) (s : Z * lx) : Prop :=
  fst m = tokM (fst s) /\ snd m = ofLx (snd s) /\ good st (cur (snd s)) /\ (fst s = -1 \/ plain (fst s)).
Lemma sim_okG st x y : sim st (okT st) x y -> (forall k s', y = LOk (k, s') -> plain k) -> sim st (okG st) x y.
Proof.
  intros S P. destruct y as [[k s']|e|u]; cbn [sim] in *; [|exact S|exact S].
  destruct S as [a [-> [-> H]]]. exists (fst (k, s'), ofLx (snd (k, s'))). split; [reflexivity|].
  specialize (P k s' eq_refl). unfold okG. cbn [fst snd] in *. repeat split; [|exact H|right; exact P].
  unfold tokM, EOFtok. unfold plain in P. replace (k =? -1) with false by zb. reflexivity.
Qed.

Lemma lxGetTok_ok st s : good st (cur s) -> sim st (okG st) (cGetTok (ofLx s)) (lxGetTok s).
Proof.
  intros G0. unfold cGetTok, lxGetTok.
  set (s1 := if ch s =? 0 then getCh s else s).
  assert (G1 : good st (cur s1)) by (unfold s1; destruct (ch s =? 0); [apply good_getCh|]; exact G0).
  assert (E1 : (if cch (ofLx s) =? 0 then cGetCh (ofLx s) else MOk (ofLx s)) = MOk (ofLx s1)).
  { rewrite cch_of, (eqb_k st) by (auto; lia). unfold s1, ch. destruct (hd0 (cur s) =? 0); [apply (getCh_ok st), G0|reflexivity]. }
  rewrite E1. cbn [mbind]. clearbody s1. clear s G0 E1.
  eapply sim_bind; [apply skipSpace_ok, G1|]. clear s1 G1. intros m t0 [-> G2]. cbv zeta.
  change (Cx (cch (ofLx t0)) (cnx (ofLx t0)) (rest (ofLx t0)) (cl2 (ofLx t0)) (cl2 (ofLx t0)) (cval (ofLx t0)) (cstr (ofLx t0)))
    with (ofLx (Lx (cur t0) (ln2 t0) (ln2 t0) (val t0) (str t0))).
  set (t := Lx (cur t0) (ln2 t0) (ln2 t0) (val t0) (str t0)).
  assert (G : good st (cur t)) by exact G2. clearbody t. clear t0 G2.
  rewrite cch_of, cnx_of, digit_hd, alpha_hd. unfold mEOF.
  rewrite (eqb_eof st) by exact G.
  rewrite !(eqb_k st (cur t)), !(eqb_k st (tl (cur t))) by (auto using good_tl; lia).
  fold (ch t). fold (nextch t).
  destruct (ch t =? -1) eqn:EE.
  { apply sim_ok. unfold okG. cbn [fst snd]. repeat split; [exact G|left; reflexivity]. }
  assert (NE : cur t <> []) by (intros C; unfold ch in EE; rewrite C in EE; discriminate EE).
  destruct ((ch t =? 10) && (nextch t =? 35)).
  { apply sim_okG; [apply getSharp_ok, G|]. intros k s'. apply sharp_plain. }
  destruct (c_isdigit (ch t)).
  { apply sim_okG; [apply getDigit_ok, G|]. intros k s'. apply digit_plain. }
  destruct (c_isalpha (ch t) || (ch t =? 95)).
  { pose proof (getWord_ok st t G) as W.
    assert (PW : forall k s', getWord t = LOk (k, s') -> plain k).
    { intros k s'. unfold getWord. destruct (storeL _ _ _ _ _) as [[[l n] i] acc].
      destruct (negb _); [discriminate|]. destruct (_ <? _); [discriminate|].
      intros E. apply lres_fst in E. subst k. apply searchRsv_plain. }
    destruct (getWord t) as [[k w]|e|u]; cbn [sim lbind] in W |- *.
    - destruct W as [a [-> [-> H]]]. cbn [fst snd mbind] in *. specialize (PW k w eq_refl).
      eexists. split; [reflexivity|].
      destruct (k =? LxTRUE); [unfold okG; cbn [fst snd]; repeat split; [exact H|right; unfold plain, LxLOGICAL; lia]|].
      destruct (k =? LxFALSE); [unfold okG; cbn [fst snd]; repeat split; [exact H|right; unfold plain, LxLOGICAL; lia]|].
      unfold okG; cbn [fst snd]; repeat split; [|exact H|right; exact PW].
      unfold tokM, EOFtok. unfold plain in PW. replace (k =? -1) with false by zb. reflexivity.
    - intros T. destruct (W T) as [->|[-> ->]]; [left; reflexivity|right; split; reflexivity].
    - intros T N. rewrite (W T N). reflexivity. }
  destruct (ch t =? 34).
  { apply sim_okG; [apply getStr_ok, G|]. intros k s'. apply str_plain. }
  destruct (ch t =? 39).
  { apply sim_okG; [apply getChar_ok, G|]. intros k s'. apply char_plain. }
  apply sim_okG; [apply getSign_ok; [exact G|exact NE]|]. intros k s'. apply (sign_plain st); assumption.
Qed.

Lemma lexAllF_ok st f : forall s f', good st (cur s) -> (f <= f')%nat ->
  sim st (fun a b => a = map itemM b) (lexAllMF f' (ofLx s)) (lexAllF f s).
Proof.
  induction f as [|f IH]; intros s f' G F; [intros _ K; congruence|].
  destruct f' as [|f']; [lia|]. cbn [lexAllMF lexAllF].
  eapply sim_bind; [apply lxGetTok_ok, G|]. intros [k m] [k' t] (E1 & E2 & G' & P). cbn [fst snd] in *. subst k m.
  cbv zeta. change (cval (ofLx t)) with (val t). change (cstr (ofLx t)) with (str t). change (cln (ofLx t)) with (ln t).
  assert (Q : (tokM k' =? LxEOF) = (k' =? EOFtok)).
  { unfold tokM, EOFtok, LxEOF. destruct P as [->|P]; [reflexivity|]. unfold plain in P. zb. }
  rewrite Q. destruct (k' =? EOFtok).
  - apply sim_ok. reflexivity.
  - eapply sim_bind; [apply IH; [exact G'|lia]|]. intros a b ->. apply sim_ok. reflexivity.
Qed.

Lemma init_ok file : ofLx (lxInit file) = cxInit file.
Proof. reflexivity. Qed.
Lemma lexAll_ok st file : good st file -> sim st (fun a b => a = map itemM b) (lexAllM file) (lexAll file).
Proof.
  intros G. unfold lexAllM, lexAll. rewrite <- init_ok. apply lexAllF_ok; [|lia].
  unfold lxInit. cbn [cur]. constructor; [split; [lia|intros _; lia]|]. constructor; [split; [lia|intros _; lia]|exact G].
Qed.

(* ==== a file with a byte 255 ==== *)
(* read so far: bytes other than 255; the end is met only when nothing is left *)
Definition tidy (file : list Z) (m : cx) : Prop :=
  (exists pre, file = pre ++ rest m /\ ~ In 255 pre) /\
  (cch m = 255 -> cnx m = 255) /\ (cnx m = 255 -> rest m = []).
Definition keeps {A} (file : list Z) (pr : A -> cx) (x : mres A) : Prop :=
  match x with MOk a => tidy file (pr a) | _ => True end.
Lemma keeps_bind {A B} file (pr : A -> cx) (pr' : B -> cx) x f :
  keeps file pr x -> (forall a, tidy file (pr a) -> keeps file pr' (f a)) -> keeps file pr' (mbind x f).
Proof. intros K H. destruct x; cbn [mbind keeps] in *; auto. Qed.
Lemma tidy_getCh file m : tidy file m -> keeps file (fun m => m) (cGetCh m).
Proof.
  intros [[pre [E N]] [T1 T2]]. unfold cGetCh. destruct (rest m) as [|b r] eqn:R; cbn [mbind keeps].
  - split; [|split]; cbn [rest cch cnx]; [exists pre; auto|reflexivity|reflexivity].
  - unfold mEOF. destruct (Z.eqb_spec b 255) as [Q|Q]; cbn [mbind keeps]; [exact I|].
    split; [|split]; cbn [rest cch cnx].
    + exists (pre ++ [b]). split; [rewrite E, <- app_assoc; reflexivity|].
      rewrite in_app_iff. intros [H|[H|[]]]; [exact (N H)|exact (Q H)].
    + intros H. specialize (T2 H). congruence.
    + intros H. congruence.
Qed.
Lemma tidy_same file m m' : tidy file m -> cch m' = cch m -> cnx m' = cnx m -> rest m' = rest m -> tidy file m'.
Proof. unfold tidy. intros H -> -> ->. exact H. Qed.
Lemma keeps_while {A} file (pr : A -> cx) p b : (forall a, tidy file (pr a) -> keeps file pr (b a)) ->
  forall f a, tidy file (pr a) -> keeps file pr (whileM f p b a).
Proof.
  intros B f. induction f as [|f IH]; intros a T; cbn [whileM keeps]; [exact I|].
  destruct (p a); [|exact T]. eapply keeps_bind; [apply B, T|apply IH].
Qed.
Ltac kp := repeat first
  [ exact I | assumption
  | match goal with
    | |- keeps _ _ (MErr _) => exact I
    | |- keeps _ _ MNotUtf8 => exact I
    | |- keeps _ _ (MUndef _) => exact I
    | |- keeps _ _ (MOk _) => cbn [keeps fst snd] in *
    | |- keeps _ _ (mbind (cGetCh ?m) _) => apply (keeps_bind _ (fun m => m) _ (cGetCh m)); [apply tidy_getCh; cbn [fst snd] in *; kp|let x := fresh "x" in let T := fresh "T" in intros x T; cbv beta in T]
    | |- keeps _ _ (cGetCh _) => apply tidy_getCh
    | |- keeps _ _ (if ?c then _ else _) => destruct c
    | |- tidy _ (cSetVal ?m _) => apply (tidy_same _ m); [|reflexivity|reflexivity|reflexivity]
    | |- tidy _ (cSetStr ?m _) => apply (tidy_same _ m); [|reflexivity|reflexivity|reflexivity]
    end ].
Lemma k_com file m : tidy file m -> keeps file (fun m => m) (cSkipCom m).
Proof.
  intros T. unfold cSkipCom. kp. eapply keeps_bind; [apply (keeps_while _ (fun m => m)); [|eassumption]|].
  - intros ? ?. kp.
  - intros ? ?. cbv beta in *. kp.
Qed.
Lemma k_spc file m : tidy file m -> keeps file (fun m => m) (cSkipSpc m).
Proof. intros T. unfold cSkipSpc. apply (keeps_while _ (fun m => m)); [intros a H; kp|exact T]. Qed.
Lemma k_eol file m : tidy file m -> keeps file (fun m => m) (cSkipToEol m).
Proof. intros T. unfold cSkipToEol. apply (keeps_while _ (fun m => m)); [intros a H; kp|exact T]. Qed.
Lemma k_space file f : forall m, tidy file m -> keeps file (fun m => m) (cSkipSpaceF f m).
Proof.
  induction f as [|f IH]; intros m T; cbn [cSkipSpaceF]; [exact I|].
  eapply keeps_bind; [apply k_spc, T|]. intros a H. cbv beta in H.
  destruct (_ && _); [eapply keeps_bind; [apply k_com, H|exact IH]|].
  destruct (_ && _); [eapply keeps_bind; [apply k_eol, H|exact IH]|].
  destruct (_ && _); [eapply keeps_bind; [apply tidy_getCh, H|exact IH]|exact H].
Qed.
Lemma k_digits file p b dv m : tidy file m -> keeps file fst (cDigits p b dv m).
Proof. intros T. unfold cDigits. apply keeps_while; [|exact T]. intros [a v] H. cbn [fst snd] in *. cbv zeta. kp. Qed.
Lemma k_digit file m : tidy file m -> keeps file snd (cGetDigit m).
Proof.
  intros T. unfold cGetDigit. apply keeps_bind with (pr := fst).
  - kp; try (apply k_digits; assumption). unfold cGetHex. kp. apply k_digits. assumption.
  - intros [a v] H. cbn [fst] in H. kp.
Qed.
Lemma k_store file p m : tidy file m -> keeps file fst (cStore p m).
Proof. intros T. unfold cStore. apply keeps_while; [|exact T]. intros [a v] H. cbn [fst snd] in *. kp. Qed.
Lemma k_sharp file m : tidy file m -> keeps file snd (cGetSharp m).
Proof.
  intros T. unfold cGetSharp. kp. eapply keeps_bind; [apply k_spc; eassumption|]. intros a1 H1. cbv beta in H1. kp.
  apply keeps_bind with (pr := fst); [apply k_digits, H1|]. intros [a2 v] H2. cbn [fst] in H2.
  eapply keeps_bind; [apply k_spc; kp|]. intros a3 H3. cbv beta in H3. kp.
  apply keeps_bind with (pr := fst); [apply k_store; eassumption|]. intros [a4 w] H4. cbn [fst] in H4. cbv zeta. kp.
  eapply keeps_bind; [apply k_eol; kp|]. intros a5 H5. cbv beta in H5. cbn [keeps snd].
  apply (tidy_same _ a5); [exact H5|reflexivity|reflexivity|reflexivity].
Qed.
Lemma k_word file m : tidy file m -> keeps file snd (cGetWord m).
Proof.
  intros T. unfold cGetWord. apply keeps_bind with (pr := fst); [apply k_store, T|]. intros [a w] H. cbn [fst] in H. kp.
Qed.
Lemma k_hexStr file m : tidy file m -> keeps file fst (cGetHexStr m).
Proof.
  intros T. unfold cGetHexStr. kp. apply keeps_bind with (pr := fst).
  - apply keeps_while; [|exact T]. intros [a v] H. cbn [fst snd] in *. cbv zeta. kp.
  - intros [a v] H. exact H.
Qed.
Lemma k_octStr file k : forall m v i, tidy file m -> keeps file fst (cOctStr k m v i).
Proof.
  induction k as [|k IH]; intros m v i T; cbn [cOctStr]; cbv zeta; kp. apply IH. assumption.
Qed.
Lemma k_esc file m : tidy file m -> keeps file fst (cGetEsc m).
Proof.
  intros T. unfold cGetEsc. kp; cbv zeta; kp.
  - apply keeps_bind with (pr := fst); [apply k_hexStr; assumption|]. intros [a v] H. cbn [fst] in H. kp.
  - apply keeps_bind with (pr := fst); [apply k_octStr; assumption|]. intros [a v] H. cbn [fst] in H. kp.
Qed.
Lemma k_strF file f : forall m acc cnt, tidy file m -> keeps file (fun x => fst (fst x)) (cGetStrF f m acc cnt).
Proof.
  induction f as [|f IH]; intros m acc cnt T; cbn [cGetStrF]; [exact I|]. kp; try (apply IH; assumption).
  - apply keeps_bind with (pr := fst); [apply k_hexStr; assumption|]. intros [a v] H1. cbn [fst] in H1.
    unfold cPutOctStr. destruct (_ <=? _); cbn [mbind]; [exact I|]. apply IH, H1.
  - apply keeps_bind with (pr := fst); [apply k_octStr; assumption|]. intros [a v] H1. cbn [fst] in H1.
    unfold cPutOctStr. destruct (_ <=? _); cbn [mbind]; [exact I|]. apply IH, H1.
Qed.
Lemma k_str file m : tidy file m -> keeps file snd (cGetStr m).
Proof.
  intros T. unfold cGetStr. apply keeps_bind with (pr := fun x => fst (fst x)); [apply k_strF, T|].
  intros [[a w] c] H. cbn [fst] in H. kp.
Qed.
Lemma k_char file m : tidy file m -> keeps file snd (cGetChar m).
Proof.
  intros T. unfold cGetChar. kp. apply keeps_bind with (pr := fst).
  - destruct (_ =? _); [apply k_esc; assumption|]. cbv zeta. kp.
  - intros [a v] H1. cbn [fst] in H1. cbv zeta. destruct (negb _); [exact I|].
    apply keeps_bind with (pr := fun m => m); [apply tidy_getCh; kp|]. intros y H2. exact H2.
Qed.
Lemma k_sign file m : tidy file m -> keeps file snd (cGetSign m).
Proof. intros T. unfold cGetSign. cbv zeta. kp. Qed.
Lemma k_tok file m : tidy file m -> keeps file snd (cGetTok m).
Proof.
  intros T. unfold cGetTok. apply keeps_bind with (pr := fun m => m); [kp|]. intros a H. cbv beta in H.
  apply keeps_bind with (pr := fun m => m); [apply k_space, H|]. intros b H1. cbv beta in H1. cbv zeta.
  set (t := Cx _ _ _ _ _ _ _).
  assert (Tt : tidy file t) by (apply (tidy_same _ b); [exact H1|reflexivity|reflexivity|reflexivity]).
  clearbody t. kp; auto using k_sharp, k_digit, k_str, k_char, k_sign.
  apply keeps_bind with (pr := snd); [apply k_word, Tt|]. intros [k w] H2. cbn [snd] in H2.
  destruct (k =? LxTRUE); [kp|]. destruct (k =? LxFALSE); kp.
Qed.

Lemma mres_fst (x : Z) (m m' : cx) k : MOk (x, m) = MOk (k, m') -> x = k.
Proof. congruence. Qed.
Definition notEnd (x : mres (Z * cx)) : Prop := match x with MOk (k, _) => k <> 255 | _ => True end.
Lemma notEnd_bind {A} (x : mres A) f : (forall a, notEnd (f a)) -> notEnd (mbind x f).
Proof. intros H. destruct x; cbn [mbind]; auto; exact I. Qed.
Ltac ne := repeat first
  [ exact I
  | match goal with
    | |- notEnd (mbind _ _) => apply notEnd_bind; intros; cbv zeta
    | |- notEnd (let '(_, _) := ?x in _) => destruct x
    | |- notEnd (if ?c then _ else _) => destruct c
    | |- notEnd (MErr _) => exact I
    | |- notEnd (MUndef _) => exact I
    | |- notEnd (MOk (_, _)) => unfold notEnd; try (vm_compute; congruence)
    end ].
Lemma tok_eof m k m' : cGetTok m = MOk (k, m') -> k = LxEOF -> cch m' = 255.
Proof.
  unfold cGetTok.
  destruct (if cch m =? 0 then cGetCh m else MOk m) as [a| | |]; cbn [mbind]; try discriminate.
  destruct (cSkipSpace a) as [b| | |]; cbn [mbind]; try discriminate. cbv zeta.
  set (t := Cx _ _ _ _ _ _ _). clearbody t. clear a b m.
  destruct (Z.eqb_spec (cch t) mEOF) as [C|C].
  { intros E _. assert (t = m') by congruence. subst m'. exact C. }
  assert (X : forall x, notEnd x -> x = MOk (k, m') -> k = LxEOF -> cch m' = 255).
  { intros x N -> ->. elim N. reflexivity. }
  destruct (_ && _); [apply X; unfold cGetSharp; ne|].
  destruct (LibString.isDigit _); [apply X; unfold cGetDigit; ne|].
  destruct (_ || _).
  { apply X. assert (P : notEnd (cGetWord t)).
    { unfold cGetWord. ne. pose proof (searchRsv_plain l) as P. unfold plain in P. lia. }
    destruct (cGetWord t) as [[w n]| | |]; cbn [mbind]; try exact I. unfold notEnd in P.
    destruct (w =? LxTRUE); [ne|]. destruct (w =? LxFALSE); ne. }
  destruct (cch t =? 34); [apply X; unfold cGetStr; ne|].
  destruct (cch t =? 39); [apply X; unfold cGetChar; ne|].
  apply X. unfold cGetSign. cbv zeta. ne. exact C.
Qed.

Lemma lexAllMF_end file f : forall m r, tidy file m -> lexAllMF f m = MOk r -> ~ In 255 file.
Proof.
  induction f as [|f IH]; intros m r T; cbn [lexAllMF]; [discriminate|].
  pose proof (k_tok file m T) as K.
  destruct (cGetTok m) as [[k m']| | |] eqn:E; cbn [mbind keeps snd] in *; try discriminate. cbv zeta.
  destruct (Z.eqb_spec k LxEOF) as [Q|Q].
  - intros _. pose proof (tok_eof _ _ _ E Q) as C. destruct K as [[pre [F N]] [K1 K2]].
    rewrite (K2 (K1 C)), app_nil_r in F. rewrite F. exact N.
  - destruct (lexAllMF f m') as [x| | |] eqn:L; cbn [mbind]; try discriminate. intros _. exact (IH _ _ K L).
Qed.
Lemma lexAllM_end file r : lexAllM file = MOk r -> ~ In 255 file.
Proof.
  apply lexAllMF_end. split; [|split]; cbn; [exists []; split; [reflexivity|intros []]|discriminate|discriminate].
Qed.
