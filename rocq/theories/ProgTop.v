(* The invariant of the whole compiler: declarations, functions, data. *)
From Coq Require Import ZArith Bool Lia List.
From Verif Require Import Lexer NameTable SyTree OpTree ExprSem OptSpec VM VmCode GenLabels GenFunc Parser ParserStmt ParseSpec ParseLabs OptLabs COptLabs ProgSpec ProgInv ProgData NameTable.
Import ListNotations.
Open Scope Z_scope.

(* ---- tables ---- *)
Lemma upd_length f t : forall n, List.length (upd f t n) = List.length t.
Proof. induction t as [|e t IH]; intros [|n]; cbn [upd List.length]; congruence. Qed.
Lemma upd_app f a b : forall n, (n < List.length a)%nat -> upd f (a ++ b) n = upd f a n ++ b.
Proof.
  induction a as [|e a IH]; intros [|n] H; cbn [upd app List.length] in *; try lia; [reflexivity|]. rewrite IH by lia. reflexivity.
Qed.
Lemma upd_nth f t : forall n k, nth_error (upd f t n) k = if Nat.eqb k n then option_map f (nth_error t k) else nth_error t k.
Proof.
  induction t as [|e t IH]; intros [|n] [|k]; cbn [upd nth_error Nat.eqb option_map]; try reflexivity.
  - destruct (Nat.eqb k n); reflexivity.
  - apply IH.
Qed.
Lemma upd_last f t e : upd f (t ++ [e]) (List.length t) = t ++ [f e].
Proof. induction t as [|x t IH]; [reflexivity|]. cbn [upd app List.length]. rewrite IH. reflexivity. Qed.
Lemma Forall_upd (P : entry -> Prop) f t : (forall e, P e -> P (f e)) -> forall n, Forall P t -> Forall P (upd f t n).
Proof.
  intros H. induction t as [|e t IH]; intros [|n] F; cbn [upd]; try assumption; inversion F; subst; constructor; auto.
Qed.
(* entries of a top-level table *)
Definition glob (e : entry) : Prop := nScope e <> ScLVAR /\ nScope e <> ScPRM /\ 0 <= nDim e.
Lemma scopeAt_in t i (P : Z -> Prop) : P ScVOID -> Forall (fun e => P (nScope e)) t -> P (scopeAt t i).
Proof.
  intros P0 F. unfold scopeAt, ent. destruct (i <? 0); [exact P0|]. destruct (nth_error t (Z.to_nat i)) as [e|] eqn:E; [|exact P0].
  apply nth_error_In in E. exact (proj1 (Forall_forall _ _) F e E).
Qed.
Lemma glob_scope t i : Forall glob t -> scopeAt t i <> ScLVAR /\ scopeAt t i <> ScPRM.
Proof.
  intros F. split; [apply (scopeAt_in t i (fun s => s <> ScLVAR))|apply (scopeAt_in t i (fun s => s <> ScPRM))]; try discriminate;
    (eapply Forall_impl; [|exact F]); intros e (A & B & C); assumption.
Qed.
Lemma glob_dims t : Forall glob t -> dimsOk t.
Proof. intros F. eapply Forall_impl; [|exact F]. intros e (A & B & C). exact C. Qed.
Lemma glob_setScope t i s : s <> ScLVAR -> s <> ScPRM -> Forall glob t -> Forall glob (ntSetScope t i s).
Proof. intros A B F. unfold ntSetScope. apply Forall_upd; [|exact F]. intros e (X & Y & Z0). repeat split; assumption. Qed.
Lemma glob_setCnt t i c : Forall glob t -> Forall glob (ntSetCnt t i c).
Proof. intros F. unfold ntSetCnt. apply Forall_upd; [|exact F]. intros e (X & Y & Z0). repeat split; assumption. Qed.
Lemma Forall_firstn {A} (P : A -> Prop) n : forall l, Forall P l -> Forall P (firstn n l).
Proof. induction n as [|n IH]; intros [|x l] H; cbn [firstn]; try constructor; inversion H; subst; auto. Qed.
Lemma glob_undef t i : Forall glob t -> Forall glob (ntUndefName t i).
Proof. intros F. apply Forall_firstn. exact F. Qed.
Lemma glob_voided t : Forall (fun e => 0 <= nDim e) t -> Forall glob (map voided t).
Proof. intros F. apply Forall_map. eapply Forall_impl; [|exact F]. intros e D. repeat split; [discriminate|discriminate|exact D]. Qed.
Lemma glob_setVoid t i : Forall glob t -> Forall glob (ntSetVoid t i).
Proof.
  intros F. unfold ntSetVoid. rewrite <- (firstn_skipn (Z.to_nat i) t) in F. apply Forall_app in F. destruct F as [A B]. apply Forall_app. split; [exact A|].
  apply glob_voided. eapply Forall_impl; [|exact B]. intros e (_ & _ & D). exact D.
Qed.
Lemma firstn_short {A} (a b : list A) n : (n <= List.length a)%nat -> firstn n (a ++ b) = firstn n a.
Proof. intros H. rewrite firstn_app. replace (n - List.length a)%nat with O by lia. rewrite firstn_O, app_nil_r. reflexivity. Qed.

(* ---- reading without touching anything but tokens and strings ---- *)
Definition reads (g g' : gs) : Prop := g' = wE g (ge g') /\ strs (ge g) (ge g').
Lemma reads_quiet g g' : quiet g g' -> reads g g'.
Proof. intros (e & -> & A & B & C). split; [reflexivity|]. apply quiet_strs; assumption. Qed.
Lemma reads_refl g : reads g g.
Proof. split; [destruct g; reflexivity|apply strs_refl]. Qed.
Lemma reads_trans a b c : reads a b -> reads b c -> reads a c.
Proof. intros [A1 A2] [B1 B2]. split; [rewrite A1 in B1; exact B1|exact (strs_trans _ _ _ A2 B2)]. Qed.
Lemma reads_lab g g' : reads g g' -> clab (ge g) <= clab (ge g').
Proof. intros [_ S]. exact (strs_le _ _ S). Qed.
Definition dpost (n : nat) (g : gs) (r : dat * gs) : Prop :=
  reads g (snd r) /\ (forall x, In x (strsD (fst r)) -> clab (ge g) < x <= clab (ge (snd r))) /\ flatAt n (fst r).
Lemma dpost_const n v g g' : reads g g' -> dpost n g (DCnst v, g').
Proof. intros R. split; [exact R|]. split; [intros x []|]. intros k _. apply incl_nil_l. Qed.
Lemma dpost_mono n m g r : (n <= m)%nat -> dpost n g r -> dpost m g r.
Proof. intros L (A & B & C). split; [exact A|]. split; [exact B|]. intros k K. apply C. lia. Qed.
Lemma dpost_after n g g1 d g2 g3 : reads g g1 -> dpost n g1 (d, g2) -> reads g2 g3 -> dpost n g (d, g3).
Proof.
  intros R0 (R1 & L & F) R2. cbn [fst snd] in *. pose proof (reads_lab _ _ R0). pose proof (reads_lab _ _ R2).
  split; [exact (reads_trans _ _ _ R0 (reads_trans _ _ _ R1 R2))|]. split; [|exact F]. cbn [fst snd]. intros x X. specialize (L x X). lia.
Qed.
Lemma catD_strs a b : strsD (catD a b) = strsD a ++ strsD b.
Proof. unfold catD. destruct a; try reflexivity; destruct b; cbn [strsD]; rewrite ?app_nil_r; reflexivity. Qed.
Lemma catD_labs k a b : labsAt k (catD a b) = labsAt k a ++ labsAt k b.
Proof. unfold catD. destruct a; try reflexivity; destruct b; cbn [labsAt]; rewrite ?app_nil_r; reflexivity. Qed.
Lemma dpost_cat n g a g1 b g2 : dpost n g (a, g1) -> dpost n g1 (b, g2) -> dpost n g (catD a b, g2).
Proof.
  intros (R0 & L0 & F0) (R1 & L1 & F1). cbn [fst snd] in *. pose proof (reads_lab _ _ R0). pose proof (reads_lab _ _ R1).
  split; [exact (reads_trans _ _ _ R0 R1)|]. cbn [fst snd]. split.
  - intros x. rewrite catD_strs, in_app_iff. intros [X|X]; [specialize (L0 x X)|specialize (L1 x X)]; lia.
  - intros k K x. rewrite catD_labs, catD_strs, !in_app_iff. intros [X|X]; [left; exact (F0 k K x X)|right; exact (F1 k K x X)].
Qed.
Lemma dpost_cat_rev n g a g1 b g2 : dpost n g (a, g1) -> dpost n g1 (b, g2) -> dpost n g (catD b a, g2).
Proof.
  intros (R0 & L0 & F0) (R1 & L1 & F1). cbn [fst snd] in *. pose proof (reads_lab _ _ R0). pose proof (reads_lab _ _ R1).
  split; [exact (reads_trans _ _ _ R0 R1)|]. cbn [fst snd]. split.
  - intros x. rewrite catD_strs, in_app_iff. intros [X|X]; [specialize (L1 x X)|specialize (L0 x X)]; lia.
  - intros k K x. rewrite catD_labs, catD_strs, !in_app_iff. intros [X|X]; [left; exact (F1 k K x X)|right; exact (F0 k K x X)].
Qed.
Lemma dpost_list n g d g' r : dpost n g (d, g') -> dpost (S n) g (DList d r, g').
Proof.
  intros (R & L & F). split; [exact R|]. split; [exact L|]. intros [|k] K; [lia|]. cbn [labsAt strsD fst]. apply F. lia.
Qed.
Lemma ac_getCnst {W : word} typ g : ac (getCnst typ g) (dpost 0 g).
Proof.
  unfold getCnst, gAsExpr. pose proof (ac_getAsExpr (gnt g) (ge g)) as H. destruct (getAsExpr (gnt g) (ge g)) as [[w e]| | |]; try exact I. cbn [pbind ac] in *.
  destruct H as [S B]. cbn [fst snd] in *. eapply ac_bind; [apply ac_chkCmpat|]. cbn beta. intros w' Ew. destruct (wOptExp (tr w')) as [e'|] eqn:O; [|exact I]. cbn [lift_opt pbind].
  apply wOptExp_labs in O. rewrite Ew in O.
  assert (reads g (wE g e)) as R by (split; [reflexivity|exact S]).
  destruct e' as [|k| | |]; try exact I. destruct k; try exact I.
  - apply dpost_const. exact R.
  - split; [exact R|]. split; [|intros [|k] _; [apply incl_refl|apply incl_nil_l]].
    cbn [fst snd strsD wE ge]. intros x [<-|[]]. exact (B (RStr _) (O _ (or_introl eq_refl))).
  - split; [exact R|]. split; [intros x []|intros k _; apply incl_nil_l].
Qed.
Lemma ac_tok k g : ac (gChkTok k g) (reads g).
Proof. eapply ac_mono; [apply ac_gChkTok|]. intros g' Q. exact (reads_quiet _ _ Q). Qed.
Lemma reads_isTok k g g' : gIsTok k g = Some g' -> reads g g'.
Proof. intros H. exact (reads_quiet _ _ (quiet_isTok _ _ _ H)). Qed.
Lemma ac_getArray0 {W : word} f : forall dim g, ac (getArray0 f dim g) (dpost 0 g).
Proof.
  induction f as [|f IH]; intros dim g; [exact I|]. cbn [getArray0]. destruct (dim <=? 0); [exact I|].
  eapply ac_bind; [apply ac_getCnst|]. intros [n g1] D1. destruct (dLVal n <=? 0); [exact I|].
  destruct (gIsTok cCOMMA g1) as [g2|] eqn:K; [|exact D1]. apply reads_isTok in K. eapply ac_bind; [apply IH|]. intros [l g3] D3. cbn [ac].
  apply (dpost_cat_rev _ _ n g1); [exact D1|]. apply (dpost_after _ _ g2 _ g3); [exact K|exact D3|apply reads_refl].
Qed.
Lemma ac_getArray {W : word} dim g : ac (getArray dim g) (dpost 1 g).
Proof.
  unfold getArray. eapply ac_bind; [apply ac_tok|]. intros g1 R1. eapply ac_bind; [apply ac_getArray0|]. intros [n g2] (R2 & L2 & F2). cbn [fst snd] in *.
  eapply ac_bind; [apply ac_tok|]. intros g3 R3. cbn [ac]. split; [exact (reads_trans _ _ _ R1 (reads_trans _ _ _ R2 R3))|]. split; [intros x []|].
  intros [|k] K; [lia|apply incl_nil_l].
Qed.
Lemma gStr_post n g l g' : gStr g = (l, g') -> dpost n g (DStr l, g').
Proof.
  unfold gStr, genStr. intros H. injection H as <- <-. split; [split; [reflexivity|]|split].
  - cbn [fst snd wE ge]. split; [apply tail_refl|]. exists [lxGetStr (ge g)]. cbn [clab outp List.length strOut]. split; [lia|reflexivity].
  - cbn [fst snd strsD wE ge clab]. intros x [<-|[]]. lia.
  - intros [|k] _; [apply incl_refl|apply incl_nil_l].
Qed.
Lemma ac_fieldInit {W : word} i g : ac (fieldInit i g) (dpost 0 g).
Proof.
  unfold fieldInit. cbv zeta. destruct (_ <=? _).
  { eapply ac_bind; [apply ac_tok|]. intros g1 R. cbn [ac]. apply dpost_const. exact R. }
  destruct (_ <? _).
  { destruct (gIsTok LxSTRING g) as [g1|] eqn:K.
    - apply reads_isTok in K. destruct (_ || _); [exact I|]. destruct (gStr g1) as [l g2] eqn:G. cbn [ac]. apply (dpost_after _ _ g1 _ g2); [exact K|exact (gStr_post _ _ _ _ G)|apply reads_refl].
    - destruct (gIsTok LxNUL g) as [g1|] eqn:K2; [|exact I]. apply reads_isTok in K2. apply dpost_const. exact K2. }
  repeat (destruct (_ =? _); [apply ac_getCnst|]). exact I.
Qed.
Lemma ac_structLoop {W : word} f : forall i node g0 g, dpost 0 g0 (node, g) -> ac (structLoop f i node g) (dpost 0 g0).
Proof.
  induction f as [|f IH]; intros i node g0 g D; [exact I|]. cbn [structLoop]. destruct (_ || _); [exact I|].
  eapply ac_bind; [apply ac_fieldInit|]. intros [n g1] D1. cbv zeta. pose proof (dpost_cat _ _ _ _ _ _ D D1) as D2.
  destruct (gIsTok cCOMMA g1) as [g2|] eqn:K.
  - apply IH. exact (dpost_after _ _ g0 _ g1 _ (reads_refl _) D2 (reads_isTok _ _ _ K)).
  - destruct (_ && _); [exact I|exact D2].
Qed.
Lemma dpost_null n g : dpost n g (DNull, g).
Proof. split; [apply reads_refl|]. split; [intros x []|intros k _; apply incl_nil_l]. Qed.
Lemma ac_getStructInit {W : word} g : ac (getStructInit g) (dpost 1 g).
Proof.
  unfold getStructInit. destruct (gIsTok LxNUL g) as [g1|] eqn:K; [apply reads_isTok in K; apply dpost_const; exact K|].
  eapply ac_bind; [apply ac_tok|]. intros g1 R1. eapply ac_bind; [apply ac_structLoop, dpost_null|]. intros [n g2] D2. eapply ac_bind; [apply ac_tok|]. intros g3 R3. cbn [ac].
  apply dpost_list. exact (dpost_after _ _ _ _ _ _ R1 D2 R3).
Qed.
Lemma ac_itemLoop n item f : (forall g, ac (item g) (dpost n g)) -> forall g0 node g, dpost n g0 (node, g) -> ac (itemLoop item f node g) (dpost n g0).
Proof.
  intros HI. induction f as [|f IH]; intros g0 node g D; [exact I|]. cbn [itemLoop]. eapply ac_bind; [apply HI|]. intros [d g1] D1. cbv zeta.
  pose proof (dpost_cat _ _ _ _ _ _ D D1) as D2. destruct (gIsTok cCOMMA g1) as [g2|] eqn:K; [|exact D2].
  apply IH. exact (dpost_after _ _ g0 _ g1 _ (reads_refl _) D2 (reads_isTok _ _ _ K)).
Qed.
Lemma ac_getGArrayInitF {W : word} f : forall dim g, 1 <= dim -> ac (getGArrayInitF f dim g) (dpost (S (Z.to_nat dim)) g).
Proof.
  induction f as [|f IH]; intros dim g D; [exact I|]. cbn [getGArrayInitF].
  destruct (gIsTok cLC g) as [g1|] eqn:K1.
  { apply reads_isTok in K1. unfold getGArrayInit0.
    eapply ac_bind with (P := dpost (S (Z.to_nat dim)) g1).
    - eapply ac_bind with (P := dpost (Z.to_nat dim) g1).
      + destruct (Z.leb_spec dim 1) as [E|E].
        * assert (dim = 1) as -> by lia. change (Z.to_nat 1) with 1%nat.
          destruct (_ <=? _); [apply ac_itemLoop; [intros; apply ac_getStructInit|apply dpost_null]|].
          destruct (_ || _); [|exact I]. apply ac_itemLoop; [|apply dpost_null]. intros g'. eapply ac_mono; [apply ac_getCnst|]. intros r. apply dpost_mono. lia.
        * apply ac_itemLoop; [|apply dpost_null]. intros g'. replace (Z.to_nat dim) with (S (Z.to_nat (dim - 1))) by lia. apply IH. lia.
      + intros [n g2] D2. cbn [ac]. apply dpost_list. exact D2.
    - intros [n g2] D2. eapply ac_bind; [apply ac_tok|]. intros g3 R3. cbn [ac]. exact (dpost_after _ _ _ _ _ _ K1 D2 R3). }
  destruct (gIsTok LxSTRING g) as [g1|] eqn:K2.
  { apply reads_isTok in K2. destruct (_ || _); [exact I|]. destruct (gStr g1) as [l g2] eqn:G. cbn [ac]. apply (dpost_after _ _ g1 _ g2); [exact K2|exact (gStr_post _ _ _ _ G)|apply reads_refl]. }
  destruct (gIsTok LxARRAY g) as [g1|] eqn:K3.
  { apply reads_isTok in K3. eapply ac_mono; [apply ac_getArray|]. intros [d g2] D2. apply (dpost_mono 1); [lia|]. exact (dpost_after _ _ _ _ _ _ K3 D2 (reads_refl _)). }
  destruct (gIsTok LxNUL g) as [g1|] eqn:K4; [|exact I]. apply reads_isTok in K4. apply dpost_const. exact K4.
Qed.

(* ---- strings ---- *)
Lemma strOut_good ss : forall l, goodO (strOut l ss) l (l + Z.of_nat (List.length ss)) /\ outUses (strOut l ss) = [] /\
  (forall x, l < x <= l + Z.of_nat (List.length ss) -> In x (outDefs (strOut l ss))).
Proof.
  induction ss as [|s ss IH]; intros l; cbn [strOut List.length].
  - split; [replace (l + Z.of_nat 0) with l by lia; apply goodO_none; reflexivity|]. split; [reflexivity|lia].
  - destruct (IH (l + 1)) as (A & B & C). change (ALab (l + 1) :: AStr s :: strOut (l + 1) ss) with ([ALab (l + 1)] ++ ([AStr s] ++ strOut (l + 1) ss)).
    split; [|split].
    + apply (goodO_app _ _ _ (l + 1)); [apply goodO_lab|]. apply (goodO_app _ _ _ (l + 1)); [apply goodO_none; reflexivity|].
      replace (l + Z.of_nat (S (List.length ss))) with (l + 1 + Z.of_nat (List.length ss)) by lia. exact A.
    + rewrite !outUses_app, B. reflexivity.
    + intros x Hx. rewrite !outDefs_app. cbn [outDefs flat_map asmDefs app]. destruct (Z.eq_dec x (l + 1)) as [->|Ne]; [left; reflexivity|right]. apply C. lia.
Qed.
Lemma strs_good s t : strs s t -> goodO (outp s) 0 (clab s) -> goodO (outp t) 0 (clab t).
Proof.
  intros (_ & ss & E1 & E2) G. rewrite E1, E2. apply (goodO_app _ _ _ (clab s)); [exact G|]. apply strOut_good.
Qed.
Lemma strs_uses s t : strs s t -> incl (outUses (outp s)) (outDefs (outp s)) -> incl (outUses (outp t)) (outDefs (outp t)).
Proof.
  intros (_ & ss & E1 & E2) G x. rewrite E2, outUses_app, outDefs_app, !in_app_iff. destruct (strOut_good ss (clab s)) as (_ & -> & _). intros [X|[]]. left. exact (G x X).
Qed.
Lemma strs_has s t x : strs s t -> clab s < x <= clab t -> In x (outDefs (outp t)).
Proof.
  intros (_ & ss & E1 & E2) H. rewrite E2, outDefs_app, in_app_iff. right. apply strOut_good. lia.
Qed.

Section Top.
Variables opt krn : bool.
Variable l0 : list item.        (* all tokens of the file *)
Definition labelled : Prop := opt = false \/ forall i, In i l0 -> tokOf i <> LxDO.

(* what is known of the code of a function: the body it comes from, and its slots *)
Definition slots (d n : Z) (c : code) : Prop :=
  (forall k, In (ILdLoc k) c \/ In (IStLoc k) c -> 1 <= k <= d) /\ (forall k, In (ILdPrm k) c \/ In (IStPrm k) c -> 1 <= k <= n).
(* function fi compiled to c; tbl is the name table at its end, root its body *)
Definition segOk (fi : Z) (c : code) : Prop :=
  exists tbl root root' d lb lb' c0,
    (if opt then optTree root = Ok root' else root' = root) /\
    genFunc (namesOf tbl) root' d krn (typeAt tbl fi =? TyINTR) lb = Some (c0, lb') /\ c = map (printed tbl) c0 /\
    escapes root = false /\ rets (negb (hasValue tbl fi)) root = true /\ (hasValue tbl fi = true -> endsRet root = true) /\ slots d (cntAt tbl fi) c.
Definition segs (l : list asm) : Prop := forall a c b, l = a ++ ACode c :: b -> exists a' fi, a = a' ++ [ANam fi] /\ segOk fi c.
Lemma split_plain l p : plain p -> forall a c b, l ++ p = a ++ ACode c :: b -> exists b', l = a ++ ACode c :: b'.
Proof.
  intros P. induction l as [|x l IH]; intros a c b H; cbn [app] in H.
  - exfalso. apply (plain_in _ c P). rewrite H. apply in_or_app. right. left. reflexivity.
  - destruct a as [|y a]; cbn [app] in H; injection H as -> H; [exists l; reflexivity|]. destruct (IH _ _ _ H) as (b' & ->). exists b'. reflexivity.
Qed.
Lemma segs_plain l p : plain p -> segs l -> segs (l ++ p).
Proof. intros P H a c b E. destruct (split_plain _ _ P _ _ _ E) as (b' & X). exact (H _ _ _ X). Qed.
Lemma segs_code l fi c : segOk fi c -> segs l -> segs (l ++ [ANam fi; ACode c]).
Proof.
  intros K H a c' b E. change [ANam fi; ACode c] with ([ANam fi] ++ [ACode c]) in E. rewrite app_assoc in E.
  destruct b as [|y b] using rev_ind.
  - apply app_inj_tail in E. destruct E as [<- E]. injection E as <-. exists l, fi. split; [reflexivity|exact K].
  - clear IHb. rewrite app_comm_cons, app_assoc in E. apply app_inj_tail in E. destruct E as [E _].
    destruct (split_plain l [ANam fi] eq_refl _ _ _ E) as (b' & X). exact (H _ _ _ X).
Qed.

Record TI (g : gs) : Prop := MkTI {
  i_tab : Forall glob (gnt g);
  i_dim : 0 <= curDim g;
  i_dep : depth g = 0;
  i_its : tailOf (its (ge g)) l0;
  i_lab : labelled -> goodO (outp (ge g)) 0 (clab (ge g)) /\ incl (outUses (outp (ge g))) (outDefs (outp (ge g)));
  i_seg : segs (outp (ge g)) }.

Lemma segs_strs s t : strs s t -> segs (outp s) -> segs (outp t).
Proof.
  intros (_ & ss & _ & E) H. rewrite E. apply segs_plain; [|exact H]. generalize (clab s). clear.
  induction ss as [|a ss IH]; intros l; [reflexivity|]. exact (IH _).
Qed.
Lemma TI_reads g g' : reads g g' -> TI g -> TI g'.
Proof.
  intros [E S] [A B C D F G]. rewrite E. constructor; cbn [wE gnt curDim depth ge]; try assumption.
  - exact (tail_tran _ _ _ (proj1 S) D).
  - intros L. destruct (F L) as [F1 F2]. split; [exact (strs_good _ _ S F1)|exact (strs_uses _ _ S F2)].
  - exact (segs_strs _ _ S G).
Qed.
Lemma TI_nt g t : Forall glob t -> TI g -> TI (wNt g t).
Proof. intros T [A B C D F G]. constructor; assumption. Qed.
Lemma TI_set g g' : ge g' = ge g -> gnt g' = gnt g -> curDim g' = curDim g -> depth g' = depth g -> TI g -> TI g'.
Proof. intros E1 E2 E3 E4 [A B C D F G]. constructor; rewrite ?E1, ?E2, ?E3, ?E4; assumption. Qed.
Lemma TI_chkTok k g : TI g -> ac (gChkTok k g) TI.
Proof. intros T. eapply ac_mono; [apply ac_tok|]. intros g' R. exact (TI_reads _ _ R T). Qed.
Lemma TI_isTok k g g' : gIsTok k g = Some g' -> TI g -> TI g'.
Proof. intros H T. exact (TI_reads _ _ (reads_isTok _ _ _ H) T). Qed.

(* names *)
Definition named pub (g : gs) (r : Z * gs) : Prop := exists n g1, quiet g g1 /\
  snd r = wNt g1 (gnt g1 ++ [Ent n (curScope g1) (curType g1) (curDim g1) (curCnt g1) pub]).
Lemma ac_named pub g : ac (getName krn pub g) (named pub g).
Proof.
  unfold getName. eapply ac_bind; [apply ac_gChkTok|]. intros g1 Q. repeat (match goal with |- ac (if ?c then _ else _) _ => destruct c end; [exact I|]).
  unfold ntDefName. destruct (_ <=? _); [exact I|]. destruct (_ <=? _); [exact I|]. cbn [ac]. exists (lxGetStr (ge g1)), g1. split; [exact Q|reflexivity].
Qed.
Lemma quiet_fields g g1 : quiet g g1 -> curScope g1 = curScope g /\ curDim g1 = curDim g /\ curType g1 = curType g /\ curCnt g1 = curCnt g /\ gnt g1 = gnt g /\
  depth g1 = depth g /\ funcIdx g1 = funcIdx g /\ lastStat g1 = lastStat g /\ maxCnt g1 = maxCnt g /\ pubFlag g1 = pubFlag g /\ brkLab g1 = brkLab g /\ cntLab g1 = cntLab g.
Proof. intros (e & -> & _). repeat split. Qed.
Lemma TI_name pub g : TI g -> curScope g <> ScLVAR -> curScope g <> ScPRM ->
  ac (getName krn pub g) (fun r => TI (snd r) /\ curScope (snd r) = curScope g /\ curDim (snd r) = curDim g /\
    (exists n, gnt (snd r) = gnt g ++ [Ent n (curScope g) (curType g) (curDim g) (curCnt g) pub])).
Proof.
  intros T N1 N2. eapply ac_mono; [apply ac_named|]. intros [i g'] (n & g1 & Q & E). cbn [snd] in *. subst g'.
  destruct (quiet_fields _ _ Q) as (E1 & E2 & E3 & E4 & E5 & _). pose proof (TI_reads _ _ (reads_quiet _ _ Q) T) as T1.
  split; [|split; [exact E1|split; [exact E2|]]].
  - apply TI_nt; [|exact T1]. apply Forall_app. split; [exact (i_tab _ T1)|]. constructor; [|constructor]. rewrite E1. repeat split; try assumption. exact (i_dim _ T1).
  - exists n. cbn [wNt gnt]. rewrite E1, E2, E3, E4, E5. reflexivity.
Qed.
Lemma typed_TI g g' : typed g g' -> TI g -> TI g'.
Proof.
  intros (D & g1 & Q & E) T. pose proof (TI_reads _ _ (reads_quiet _ _ Q) T) as [A B C X F G]. rewrite E. constructor; try assumption.
Qed.
Lemma typed_fields g g' : typed g g' -> curScope g' = curScope g /\ curCnt g' = curCnt g /\ gnt g' = gnt g /\
  depth g' = depth g /\ funcIdx g' = funcIdx g /\ lastStat g' = lastStat g /\ maxCnt g' = maxCnt g /\ pubFlag g' = pubFlag g /\ brkLab g' = brkLab g /\ cntLab g' = cntLab g.
Proof.
  intros (D & g1 & Q & E). destruct (quiet_fields _ _ Q) as (E1 & E2 & E3 & E4 & E5 & E6 & E7 & E8 & E9 & E10 & E11 & E12). rewrite E.
  cbn [wDim wType curScope curCnt gnt depth funcIdx lastStat maxCnt pubFlag brkLab cntLab]. repeat split; assumption.
Qed.

(* structs *)
Definition fld (g : gs) : Prop := TI g /\ curScope g = ScFLD.
Lemma ac_nameCnt g : fld g -> ac (nameCnt krn g) fld.
Proof.
  intros [T E]. unfold nameCnt. eapply ac_bind; [apply (TI_name false g T); rewrite E; discriminate|]. intros [i g1] (T1 & E1 & _). cbn [ac snd] in *.
  split; [apply (TI_set g1); try reflexivity; exact T1|]. cbn [wCnt curScope]. congruence.
Qed.
Lemma fld_reads g g' : reads g g' -> fld g -> fld g'.
Proof. intros R [T E]. split; [exact (TI_reads _ _ R T)|]. destruct R as [-> _]. exact E. Qed.
Lemma ac_fieldNames f : forall g, fld g -> ac (fieldNames krn f g) fld.
Proof.
  induction f as [|f IH]; intros g H; [exact I|]. cbn [fieldNames]. destruct (gIsTok cCOMMA g) as [g1|] eqn:K; [|exact H].
  eapply ac_bind; [apply ac_nameCnt; exact (fld_reads _ _ (reads_isTok _ _ _ K) H)|]. exact IH.
Qed.
Lemma ac_getFieldLine g : fld g -> ac (getFieldLine krn g) fld.
Proof.
  intros [T E]. unfold getFieldLine. eapply ac_bind; [apply ac_gGetType|]. intros g1 Y. destruct (typed_fields _ _ Y) as (E1 & _).
  eapply ac_bind; [apply ac_nameCnt; split; [exact (typed_TI _ _ Y T)|congruence]|]. intros g2 H2. eapply ac_bind; [apply ac_fieldNames; exact H2|]. intros g3 H3.
  eapply ac_mono; [apply ac_tok|]. intros g4 R. exact (fld_reads _ _ R H3).
Qed.
Lemma ac_fieldLines f : forall g, fld g -> ac (fieldLines krn f g) fld.
Proof.
  induction f as [|f IH]; intros g H; [exact I|]. cbn [fieldLines]. destruct (gIsTok cRC g) as [g1|] eqn:K; [exact (fld_reads _ _ (reads_isTok _ _ _ K) H)|].
  eapply ac_bind; [apply ac_getFieldLine; exact H|]. exact IH.
Qed.
Lemma ac_getStruct g : TI g -> ac (getStruct krn g) TI.
Proof.
  intros T. unfold getStruct. eapply ac_bind; [apply (TI_chkTok _ _ T)|]. intros g1 T1. cbv zeta.
  assert (fld (wCnt (wScope g1 ScFLD) 0)) as H by (split; [apply (TI_set g1); try reflexivity; exact T1|reflexivity]).
  eapply ac_bind; [apply ac_getFieldLine; exact H|]. intros g2 H2. eapply ac_bind; [apply ac_fieldLines; exact H2|]. intros g3 H3.
  eapply ac_bind; [apply (TI_chkTok _ _ (proj1 H3))|]. intros g4 T4. cbn [ac]. apply TI_nt; [|exact T4]. apply glob_setCnt, glob_setVoid, i_tab. exact T4.
Qed.

(* global variables *)
Definition lastDim (g : gs) : Prop := exists t e, gnt g = t ++ [e] /\ nDim e = curDim g.
Lemma lastDim_at g : lastDim g -> dimAt (gnt g) (ntGetSize (gnt g) - 1) = curDim g.
Proof.
  intros (t & e & E & D). rewrite E. unfold dimAt. rewrite size_app. change (ntGetSize [e]) with 1. replace (ntGetSize t + 1 - 1) with (ntGetSize t) by lia.
  rewrite ent_app_r by lia. rewrite Z.sub_diag. exact D.
Qed.
Lemma dimAt_setScope t i s k : dimAt (ntSetScope t i s) k = dimAt t k.
Proof.
  unfold dimAt, ent, ntSetScope. destruct (k <? 0); [reflexivity|]. rewrite upd_nth. destruct (Nat.eqb _ _); [|reflexivity]. destruct (nth_error t (Z.to_nat k)); reflexivity.
Qed.
Lemma size_setScope t i s : ntGetSize (ntSetScope t i s) = ntGetSize t.
Proof. unfold ntGetSize, ntSetScope. rewrite upd_length. reflexivity. Qed.
Definition tiS (c : Z) (g : gs) : Prop := TI g /\ curScope g = c.
Lemma ac_perr_if b e : ac (perr_if b e) (fun _ => b = false).
Proof. unfold perr_if. destruct b; [exact I|reflexivity]. Qed.
Lemma ac_getGVar g c : tiS c g -> lastDim g -> ac (getGVar g) (tiS c).
Proof.
  intros [T EC] LD. unfold getGVar. cbv zeta.
  eapply ac_bind with (P := tiS c); [|intros g1 H; eapply ac_bind; [apply ac_skip|]; intros _ _; exact H].
  destruct (gIsTok cEQ g) as [g1|] eqn:K.
  - apply reads_isTok in K. pose proof (TI_reads _ _ K T) as T1. pose proof (proj1 K) as K1.
    assert (gnt g1 = gnt g /\ curDim g1 = curDim g /\ curScope g1 = curScope g) as (E1 & E2 & E3) by (rewrite K1; repeat split).
    set (ci := ntGetSize (gnt g) - 1). set (g2 := wNt g1 (ntSetScope (gnt g1) ci ScGVAR)).
    assert (TI g2) as T2 by (apply TI_nt; [apply glob_setScope; [discriminate|discriminate|exact (i_tab _ T1)]|exact T1]).
    assert (dimAt (gnt g2) ci = curDim g2) as DD. { cbn [g2 wNt gnt curDim]. rewrite dimAt_setScope, E1, E2. exact (lastDim_at _ LD). }
    eapply ac_bind with (P := dpost (Z.to_nat (curDim g2 + 1)) g2).
    { destruct (Z.ltb_spec 0 (curDim g2)) as [D|D].
      - eapply ac_mono; [apply ac_getGArrayInitF; lia|]. intros r. replace (S (Z.to_nat (curDim g2))) with (Z.to_nat (curDim g2 + 1)) by lia. auto.
      - destruct (_ || _); [eapply ac_mono; [apply ac_getCnst|]; intros r; apply dpost_mono; lia|].
        destruct (_ <=? _); [|exact I]. eapply ac_mono; [apply ac_getStructInit|]. intros r. apply dpost_mono. pose proof (i_dim _ T2). lia. }
    intros [d g3] (R & L & FL). cbn [fst snd] in *. pose proof (TI_reads _ _ R T2) as T3. pose proof (proj1 R) as R1.
    assert (gnt g3 = gnt g2 /\ curDim g3 = curDim g2 /\ curScope g3 = curScope g2) as (A1 & A2 & A3) by (rewrite R1; repeat split).
    destruct (genData ci (dimAt (gnt g3) ci) d (clab (ge g3))) as [[code l]|] eqn:GD; [|exact I].
    rewrite A1, DD in GD.
    destruct (genData_ok (outDefs (outp (ge g3))) _ _ _ _ _ _ GD FL) as (G1 & G2).
    { intros x X. apply (strs_has (ge g2)); [exact (proj2 R)|exact (L x X)]. }
    set (g4 := wE g3 _).
    assert (TI g4) as T4.
    { destruct T3 as [B1 B2 B3 B4 B5 B6]. constructor; cbn [g4 wE gnt curDim depth ge its outp clab]; try assumption.
      - intros LB. destruct (B5 LB) as [F1 F2]. split; [exact (goodO_app _ _ _ _ _ F1 G1)|]. intros x. rewrite outUses_app, outDefs_app, !in_app_iff. intros [X|X]; [left; exact (F2 x X)|exact (G2 x X)].
      - exact (segs_plain _ _ (plain_genData _ _ _ _ _ _ GD) B6). }
    assert (curScope g4 = c) as C4 by (cbn [g4 wE curScope]; rewrite A3; cbn [g2 wNt curScope]; congruence).
    destruct (0 <=? _); [|exact (conj T4 C4)]. destruct (negb _); [exact I|]. cbn [ac]. split; [|exact C4].
    apply TI_nt; [|exact T4]. apply glob_undef, glob_setScope; [discriminate|discriminate|exact (i_tab _ T4)].
  - destruct (0 <=? _).
    + destruct (_ || _); [|exact I]. cbn [ac]. split; [|exact EC]. apply TI_nt; [|exact T]. apply glob_undef, i_tab. exact T.
    + cbn [ac]. split; [|exact EC]. destruct T as [B1 B2 B3 B4 B5 B6]. constructor; cbn [emit wE gnt curDim depth ge its outp clab]; try assumption.
      * intros LB. destruct (B5 LB) as [F1 F2]. split; [apply (goodO_app _ _ _ _ _ F1); apply goodO_none; reflexivity|]. intros x. rewrite outUses_app, outDefs_app, !in_app_iff. intros [X|[]]. left. exact (F2 x X).
      * apply segs_plain; [reflexivity|exact B6].
Qed.
Lemma lastDim_named g g' n sc ty cn p : gnt g' = gnt g ++ [Ent n sc ty (curDim g) cn p] -> curDim g' = curDim g -> lastDim g'.
Proof. intros E D. exists (gnt g), (Ent n sc ty (curDim g) cn p). split; [exact E|symmetry; exact D]. Qed.
Lemma ac_gvarsLoop f : forall g, tiS ScCOMM g -> ac (gvarsLoop krn f g) (tiS ScCOMM).
Proof.
  induction f as [|f IH]; intros g [T E]; [exact I|]. cbn [gvarsLoop]. destruct (gIsTok cCOMMA g) as [g1|] eqn:K; [|exact (conj T E)].
  apply reads_isTok in K. pose proof (TI_reads _ _ K T) as T1. assert (curScope g1 = ScCOMM) as E1 by (destruct K as [-> _]; exact E).
  eapply ac_bind; [apply (TI_name (pubFlag g1) g1 T1); rewrite E1; discriminate|]. intros [i g2] (T2 & E2 & D2 & (n & N2)). cbn [snd] in *.
  eapply ac_bind; [apply (ac_getGVar g2 ScCOMM); [split; [exact T2|congruence]|exact (lastDim_named _ _ _ _ _ _ _ N2 D2)]|]. exact IH.
Qed.
Lemma ac_getGVars g : tiS ScCOMM g -> lastDim g -> ac (getGVars krn g) TI.
Proof.
  intros T L. unfold getGVars. eapply ac_bind; [apply (ac_getGVar _ _ T L)|]. intros g1 T1. eapply ac_bind; [apply (ac_gvarsLoop _ _ T1)|]. intros g2 [T2 _]. exact (TI_chkTok _ _ T2).
Qed.

(* ---- functions ---- *)
(* k parameters were read since g0 *)
Definition prm (j : nat) (e : entry) : Prop := nScope e = ScPRM /\ 0 <= nDim e /\ nCnt e = Z.of_nat j.
Record pinv (g0 : gs) (r : table) (g : gs) : Prop := MkP {
  n_nt : gnt g = gnt g0 ++ r;
  n_prm : forall j e, nth_error r j = Some e -> prm j e;
  n_fld : curScope g = ScPRM /\ depth g = depth g0 /\ funcIdx g = funcIdx g0 /\ lastStat g = lastStat g0 /\ pubFlag g = pubFlag g0 /\ brkLab g = brkLab g0 /\ cntLab g = cntLab g0;
  n_str : strs (ge g0) (ge g);
  n_dim : 0 <= curDim g }.
Lemma pinv_quiet g0 r g g' : pinv g0 r g -> quiet g g' -> pinv g0 r g'.
Proof.
  intros [A B C D E] Q. pose proof (reads_quiet _ _ Q) as [_ S]. destruct (quiet_fields _ _ Q) as (E1 & E2 & E3 & E4 & E5 & E6 & E7 & E8 & E9 & E10 & E11 & E12).
  constructor; rewrite ?E1, ?E2, ?E5, ?E6, ?E7, ?E8, ?E10, ?E11, ?E12; try assumption. exact (strs_trans _ _ _ D S).
Qed.
Lemma pinv_typed g0 r g g' : pinv g0 r g -> typed g g' -> pinv g0 r g'.
Proof.
  intros P (D & g1 & Q & E). pose proof (pinv_quiet _ _ _ _ P Q) as [A B C X Y]. rewrite E. constructor; try assumption.
Qed.
Lemma pinv_set g0 r g g' : pinv g0 r g -> ge g' = ge g -> gnt g' = gnt g -> curScope g' = curScope g -> depth g' = depth g -> funcIdx g' = funcIdx g -> lastStat g' = lastStat g ->
  pubFlag g' = pubFlag g -> brkLab g' = brkLab g -> cntLab g' = cntLab g -> 0 <= curDim g' -> pinv g0 r g'.
Proof.
  intros [A B C D E] E1 E2 E3 E4 E5 E6 E7 E8 E9 E10. constructor; rewrite ?E1, ?E2, ?E3, ?E4, ?E5, ?E6, ?E7, ?E8, ?E9; assumption.
Qed.
Lemma prm_snoc r e : (forall j x, nth_error r j = Some x -> prm j x) -> prm (List.length r) e -> forall j x, nth_error (r ++ [e]) j = Some x -> prm j x.
Proof.
  intros H P j x Hx. destruct (Nat.lt_ge_cases j (List.length r)) as [L|L].
  - rewrite nth_error_app1 in Hx by exact L. exact (H j x Hx).
  - rewrite nth_error_app2 in Hx by exact L. destruct (j - List.length r)%nat as [|q] eqn:Q; [|destruct q; discriminate Hx]. cbn [nth_error] in Hx. injection Hx as <-.
    replace j with (List.length r) by lia. exact P.
Qed.
Lemma pinv_name g0 r g pub : pinv g0 r g -> curCnt g = Z.of_nat (List.length r) ->
  ac (getName krn pub g) (fun x => exists e, pinv g0 (r ++ [e]) (snd x) /\ curCnt (snd x) = curCnt g).
Proof.
  intros P C. eapply ac_mono; [apply ac_named|]. intros [i g'] (n & g1 & Q & E). cbn [snd] in *. subst g'.
  pose proof (pinv_quiet _ _ _ _ P Q) as [A B F D Y]. destruct (quiet_fields _ _ Q) as (E1 & E2 & E3 & E4 & E5 & _).
  eexists. split; [|exact E4]. constructor; cbn [wNt gnt curScope depth funcIdx lastStat pubFlag brkLab cntLab ge curDim]; try assumption.
  - rewrite A, <- app_assoc. reflexivity.
  - apply prm_snoc; [exact B|]. repeat split; cbn [nScope nDim nCnt]; [apply F|exact Y|congruence].
Qed.
Lemma ac_paramsLoop f : forall idx last g0 r g, pinv g0 r g -> curCnt g = Z.of_nat (List.length r) ->
  ac (paramsLoop krn f idx last g) (fun x => exists r', pinv g0 r' (snd x) /\ (fst x = true -> curCnt (snd x) = Z.of_nat (List.length r'))).
Proof.
  induction f as [|f IH]; intros idx last g0 r g P C; [exact I|]. cbn [paramsLoop]. unfold gIsType. cbn beta iota.
  set (g1 := wType g _). assert (pinv g0 r g1) as P1 by (apply (pinv_set _ _ g); try reflexivity; [exact P|exact (n_dim _ _ _ P)]).
  destruct (isType _ _).
  - eapply ac_bind; [apply ac_gGetType|]. intros g2 Y. pose proof (pinv_typed _ _ _ _ P1 Y) as P2. destruct (typed_fields _ _ Y) as (_ & C2 & _).
    eapply ac_bind; [apply ac_skip|]. intros _ _. eapply ac_bind; [apply (pinv_name _ _ _ _ P2); rewrite C2; exact C|]. intros [i g3] (e & P3 & C3). cbn [snd] in *.
    destruct (gIsTok cCOMMA g3) as [g4|] eqn:K.
    + apply quiet_isTok in K. pose proof (pinv_quiet _ _ _ _ P3 K) as P4. destruct (quiet_fields _ _ K) as (_ & _ & _ & C4 & _).
      apply (IH _ _ _ (r ++ [e])); [apply (pinv_set _ _ g4); try reflexivity; [exact P4|exact (n_dim _ _ _ P4)]|].
      cbn [wCnt curCnt]. rewrite app_length. cbn [List.length]. rewrite C4, C3, C2. cbn [g1 wType curCnt]. lia.
    + cbn [ac]. exists (r ++ [e]). split; [exact P3|]. discriminate.
  - cbn [ac]. exists r. split; [exact P1|]. intros _. exact C.
Qed.
Lemma ac_getParams idx g : 0 <= curDim g -> curScope g = ScPRM -> ac (getParams krn idx g) (fun g' => exists r, pinv g r g').
Proof.
  intros D E. unfold getParams.
  assert (pinv g [] (wCnt g 0)) as P0.
  { constructor; [cbn [wCnt gnt]; rewrite app_nil_r; reflexivity|intros [|j] e; discriminate|repeat split; assumption|apply strs_refl|exact D]. }
  eapply ac_bind; [apply (ac_paramsLoop _ _ _ _ _ _ P0); reflexivity|]. intros [last g1] (r & P1 & C1). cbn [fst snd] in *.
  eapply ac_bind with (P := fun g' => exists r, pinv g r g').
  - destruct last; [|cbn [ac]; exists r; exact P1]. destruct (gIsTok LxDOTDOTDOT g1) as [g2|] eqn:K; [|cbn [ac]; exists r; exact P1].
    apply quiet_isTok in K. pose proof (pinv_quiet _ _ _ _ P1 K) as P2. cbv zeta. set (g3 := wDim (wType g2 TyDOTDOTDOT) 0).
    assert (pinv g r g3) as P3 by (apply (pinv_set _ _ g2); try reflexivity; exact P2).
    eapply ac_bind; [apply ac_skip|]. intros _ _. unfold ntDefName. destruct (_ <=? _); [exact I|]. destruct (_ <=? _); [exact I|]. cbn [ac]. eexists.
    destruct P3 as [A B F S Y]. constructor; cbn [wNt gnt curScope depth funcIdx lastStat pubFlag brkLab cntLab ge curDim]; try assumption.
    + rewrite A, <- app_assoc. reflexivity.
    + apply prm_snoc; [exact B|]. repeat split; cbn [nScope nDim nCnt]; [apply F|lia|]. destruct (quiet_fields _ _ K) as (_ & _ & _ & C2 & _). cbn [g3 wDim wType curCnt]. rewrite C2. exact (C1 eq_refl).
  - intros g2 (r2 & P2). eapply ac_mono; [apply ac_gChkTok|]. intros g3 Q. exists r2. exact (pinv_quiet _ _ _ _ P2 Q).
Qed.

(* the start of a body: T the table before the parameters r *)
Definition bodyV (g : gs) : bool :=
  negb (negb (typeAt (gnt g) (funcIdx g) =? TyINTR) && (negb (typeAt (gnt g) (funcIdx g) =? TyVOID) || negb (dimAt (gnt g) (funcIdx g) =? 0))).
Lemma fin_start T r g : Forall glob T -> (forall j e, nth_error r j = Some e -> prm j e) -> gnt g = T ++ r -> curScope g = ScLVAR -> curCnt g = 0 -> 0 <= funcIdx g < ntGetSize T ->
  fin (ntGetSize T) (ntGetSize T + ntGetSize r) (bodyV g) 0 g.
Proof.
  intros GT PR E SC CN FI. pose proof (size_nonneg T) as N1. pose proof (size_nonneg r) as N2.
  assert (forall i, ntGetSize T <= i < ntGetSize T + ntGetSize r -> exists e, ent (T ++ r) i = Some e /\ prm (Z.to_nat (i - ntGetSize T)) e) as HR.
  { intros i Hi. rewrite ent_app_r by lia. unfold ent. destruct (Z.ltb_spec (i - ntGetSize T) 0); [lia|].
    destruct (nth_error r (Z.to_nat (i - ntGetSize T))) as [e|] eqn:X; [exists e; split; [reflexivity|exact (PR _ _ X)]|]. apply nth_error_None in X. unfold ntGetSize in *. lia. }
  constructor; rewrite ?E, ?size_app; try lia.
  - intros i Hi. rewrite scopeAt_app_l by exact Hi. apply glob_scope. exact GT.
  - intros i Hi. destruct (HR i Hi) as (e & X & Y). unfold scopeAt. rewrite X. apply Y.
  - intros i Hi. destruct (HR i Hi) as (e & X & (_ & _ & Y)). unfold cntAt. rewrite X, Y. lia.
  - apply dimsOk_app. split; [exact (glob_dims _ GT)|]. apply Forall_forall. intros e H. apply In_nth_error in H. destruct H as (j & H). apply (PR j e H).
  - unfold bodyV. rewrite E. reflexivity.
Qed.

(* instructions as the output shows them *)
Lemma asmDefs_code t c : asmDefs (ACode (map (printed t) c)) = defs c.
Proof. cbn [asmDefs]. induction c as [|i c IH]; [reflexivity|]. cbn [map flat_map]. rewrite IH. destruct i; reflexivity. Qed.
Lemma asmUses_code t c x : In x (asmUses (ACode (map (printed t) c))) -> In x (uses c) \/ In (RStr x) (loads c).
Proof.
  cbn [asmUses]. induction c as [|i c IH]; [intros []|]. cbn [map flat_map loads]. rewrite !in_app_iff. intros [H|H].
  - destruct i; cbn [printed uses refsI] in *; try (destruct H; fail); destruct H as [<-|[]]; auto; try (left; left; reflexivity); right; left; left; reflexivity.
  - destruct (IH H) as [X|X]; [left|right; right; exact X]. destruct i; cbn [uses]; auto; right; exact X.
Qed.
Lemma printed_locs t c k : In (ILdLoc k) (map (printed t) c) \/ In (IStLoc k) (map (printed t) c) -> exists i, k = cntAt t i /\ In (RLoc i) (loads c).
Proof.
  intros [H|H]; apply in_map_iff in H; destruct H as (x & E & H); destruct x; try discriminate E; cbn [printed] in E; injection E as <-; eexists; (split; [reflexivity|]);
    apply in_flat_map; eexists; (split; [exact H|left; reflexivity]).
Qed.
Lemma printed_prms t c k : In (ILdPrm k) (map (printed t) c) \/ In (IStPrm k) (map (printed t) c) -> exists i, k = cntAt t i + 1 /\ In (RPrm i) (loads c).
Proof.
  intros [H|H]; apply in_map_iff in H; destruct H as (x & E & H); destruct x; try discriminate E; cbn [printed] in E; injection E as <-; eexists; (split; [reflexivity|]);
    apply in_flat_map; eexists; (split; [exact H|left; reflexivity]).
Qed.
Lemma ac_compileBody pI lI v g0 root g : TI (wNt g0 []) -> post pI lI v g0 root g -> depth g0 = 0 -> (v = false -> endsRet root = true) -> cntAt (gnt g) (funcIdx g) = lI - pI ->
  ac (compileBody opt krn root g) (fun g' => exists e b c, g' = wLabs (wE g e) b c /\ tailOf (its e) l0 /\
     (labelled -> goodO (outp e) 0 (clab e) /\ incl (outUses (outp e)) (outDefs (outp e))) /\ segs (outp e)).
Proof.
  intros T P D V CF. destruct P as [S F R X Y W]. unfold compileBody.
  assert (strs (ge g0) (ge g)) as ST by (destruct S as (_ & ST & _); exact ST).
  destruct T as [_ _ _ I0 L0 G0]. cbn [wNt ge] in I0, L0, G0.
  eapply ac_bind with (P := fun root' => if opt then optTree root = Ok root' else root' = root).
  { destruct opt; [|reflexivity]. destruct (optTree root) as [r'|]; [reflexivity|exact I]. }
  intros root' HO. cbv zeta.
  match goal with |- ac (match ?z with _ => _ end) _ => destruct z as [[c l]|] eqn:GF end; [|exact I].
  cbn [ac]. eexists _, _, _. split; [reflexivity|]. cbn [its outp clab].
  assert (incl (loads c) (refsS root)) as LI.
  { pose proof (genFunc_strs _ _ _ _ _ _ _ _ GF) as A. destruct opt; [|subst root'; exact A]. exact (incl_tran A (optTree_labs _ _ HO)). }
  assert (forall x, In (RStr x) (loads c) -> In x (outDefs (outp (ge g)))) as SL.
  { intros x H. specialize (R _ (LI _ H)). cbn [sref] in R. exact (strs_has _ _ _ ST R). }
  split; [exact (tail_tran _ _ _ (proj1 ST) I0)|]. split.
  - intros LB. destruct (L0 LB) as [A1 A2]. pose proof (strs_good _ _ ST A1) as B1. pose proof (strs_uses _ _ ST A2) as B2.
    assert (escapes root' = false) as EF.
    { assert (escapes root = false) as E0 by (destruct (escapes root); [specialize (X eq_refl); lia|reflexivity]).
      destruct opt eqn:OO; [|subst root'; exact E0]. destruct LB as [LB|LB]; [exfalso; congruence|].
      assert (noDo root = true) as ND by (apply W; intros i Hi; exact (LB i (tail_incl _ _ I0 i Hi))).
      destruct (escapes root') eqn:E1; [|reflexivity]. rewrite (optTree_escapes _ _ ND HO E1) in E0. discriminate E0. }
    assert (0 <= clab (ge g)) as NN by (destruct B1 as (B1 & _); exact B1).
    destruct (genFunc_labels _ _ _ _ _ _ _ _ EF (NN : 0 <= cur (Labs (clab (ge g)) (brkLab g) (cntLab g) (-1))) GF) as [GC CC]. cbn [cur] in GC.
    split.
    + apply (goodO_app _ _ _ (clab (ge g))); [exact B1|]. change [ANam (funcIdx g); ACode (map (printed (gnt g)) c)] with ([ANam (funcIdx g)] ++ [ACode (map (printed (gnt g)) c)]).
      apply (goodO_app _ _ _ (clab (ge g))); [apply goodO_none; reflexivity|]. unfold goodO, outDefs. cbn [flat_map]. rewrite app_nil_r, asmDefs_code. exact GC.
    + intros x. rewrite outUses_app, outDefs_app, !in_app_iff. intros [H|H]; [left; exact (B2 x H)|].
      cbn [outUses outDefs flat_map] in H |- *. change (asmUses (ANam (funcIdx g))) with (@nil Z) in H. change (asmDefs (ANam (funcIdx g))) with (@nil Z).
      cbn [app] in H |- *. rewrite app_nil_r in H. rewrite app_nil_r, asmDefs_code. destruct (asmUses_code _ _ _ H) as [H1|H1]; [right|left; exact (SL x H1)].
      destruct (CC x H1) as [Q|[Q _]]; [exact Q|destruct Q].
  - apply segs_code; [|exact (segs_strs _ _ ST G0)].
    exists (gnt g), root, root', (maxCnt g), (Labs (clab (ge g)) (brkLab g) (cntLab g) (-1)), l, c.
    pose proof (f_v _ _ _ _ _ F) as FV. change (v = negb (hasValue (gnt g) (funcIdx g))) in FV.
    split; [exact HO|]. split; [exact GF|]. split; [reflexivity|]. split; [destruct (escapes root); [specialize (X eq_refl); lia|reflexivity]|]. split; [rewrite <- FV; exact Y|].
    split; [intros HV; apply V; rewrite FV, HV; reflexivity|]. split.
    + intros k H. apply printed_locs in H. destruct H as (i & -> & H). specialize (R _ (LI _ H)). cbn [sref] in R. apply (f_hi _ _ _ _ _ F i R).
    + intros k H. apply printed_prms in H. destruct H as (i & -> & H). specialize (R _ (LI _ H)). cbn [sref] in R. rewrite (f_pc _ _ _ _ _ F i R), CF. lia.
Qed.

Lemma final_undef T y i : Forall glob T -> i <= ntGetSize T -> Forall glob (ntUndefName (T ++ y) i).
Proof. intros G L. unfold ntUndefName. rewrite firstn_short by (unfold ntGetSize in L; lia). apply Forall_firstn. exact G. Qed.
Lemma final_void T r x : Forall glob T -> (forall j e, nth_error r j = Some e -> prm j e) ->
  Forall glob (ntSetVoid (ntUndefName (T ++ r ++ x) (ntGetSize (T ++ r))) (ntGetSize T)).
Proof.
  intros G P. unfold ntUndefName, ntSetVoid, ntGetSize. rewrite !Nat2Z.id. rewrite (app_assoc T r x). rewrite firstn_short by lia. rewrite firstn_all.
  rewrite firstn_app, Nat.sub_diag, firstn_O, app_nil_r, firstn_all. rewrite skipn_app, skipn_all, Nat.sub_diag. cbn [skipn app].
  apply Forall_app. split; [exact G|]. apply glob_voided. apply Forall_forall. intros e H. apply In_nth_error in H. destruct H as (j & H). apply (P j e H).
Qed.
Lemma TI_tab g t : TI (wNt g []) -> Forall glob t -> TI (wNt g t).
Proof. intros [A B C D E F] G. constructor; assumption. Qed.
Lemma TI_notab g : TI g -> TI (wNt g []).
Proof. intros T. apply TI_nt; [constructor|exact T]. Qed.
Lemma pinv_TI g0 r g : TI g0 -> pinv g0 r g -> TI (wNt g []).
Proof.
  intros [A B C D E F] [P1 P2 P3 P4 P5]. constructor; cbn [wNt gnt curDim depth ge].
  - constructor.
  - exact P5.
  - destruct P3 as (_ & -> & _). exact C.
  - exact (tail_tran _ _ _ (proj1 P4) D).
  - intros L. destruct (E L) as [F1 F2]. split; [exact (strs_good _ _ P4 F1)|exact (strs_uses _ _ P4 F2)].
  - exact (segs_strs _ _ P4 F).
Qed.
Lemma size_pos {A} (l : list A) : l <> [] -> 0 <= Z.of_nat (List.length l) - 1.
Proof. destruct l; [congruence|]. cbn [List.length]. lia. Qed.
Lemma cntAt_setScope t j sc i : cntAt (ntSetScope t j sc) i = cntAt t i.
Proof. unfold cntAt, ent, ntSetScope. destruct (i <? 0); [reflexivity|]. rewrite upd_nth. destruct (Nat.eqb _ _); [|reflexivity]. destruct (nth_error t (Z.to_nat i)); reflexivity. Qed.
Lemma cntAt_setCnt t i c : 0 <= i < ntGetSize t -> cntAt (ntSetCnt t i c) i = c.
Proof.
  intros H. unfold cntAt, ent, ntSetCnt. destruct (Z.ltb_spec i 0); [lia|]. rewrite upd_nth, Nat.eqb_refl. destruct (nth_error t (Z.to_nat i)) as [e|] eqn:E; [reflexivity|].
  apply nth_error_None in E. unfold ntGetSize in H. lia.
Qed.
Lemma cntAt_app_l t r i : i < ntGetSize t -> cntAt (t ++ r) i = cntAt t i.
Proof. intros H. unfold cntAt. rewrite ent_app_l by exact H. reflexivity. Qed.
Lemma scan_lt p t : forall i k, scan p t i = Some k -> i <= k < i + Z.of_nat (List.length t).
Proof.
  induction t as [|e t IH]; intros i k H; cbn [scan List.length] in *; [discriminate H|]. destruct (p e); [injection H as <-; lia|]. apply IH in H. lia.
Qed.
Lemma srcGlob_lt t n : 0 <= n -> ntSrcGlob t n < n.
Proof.
  intros H. unfold ntSrcGlob. destruct (ent t n); [|lia]. destruct (scan _ _ 0) eqn:E; [|lia]. apply scan_lt in E. rewrite firstn_length in E. lia.
Qed.
Lemma ac_getFunc g : TI g -> gnt g <> [] -> ac (getFunc opt krn g) TI.
Proof.
  intros T NE. unfold getFunc. set (fi := ntGetSize (gnt g) - 1). set (g1 := wFunc g fi). set (idx := ntSrcGlob (gnt g1) fi).
  eapply ac_bind; [apply ac_skip|]. intros _ _. eapply ac_bind; [apply ac_skip|]. intros _ _. eapply ac_bind; [apply ac_skip|]. intros _ _.
  set (g2 := wScope (wLast (gGetTok g1) LxNONTOK) ScPRM). set (pI := ntGetSize (gnt g2)). cbv zeta.
  assert (TI g2) as T2.
  { apply (TI_set (gGetTok g1)); try reflexivity. apply (TI_reads g1); [apply reads_quiet, quiet_getTok|]. apply (TI_set g); try reflexivity. exact T. }
  assert (0 <= fi < pI) as FI by (unfold fi, pI; pose proof (size_pos _ NE); change (gnt g2) with (gnt g); unfold ntGetSize in *; lia).
  eapply ac_bind; [apply (ac_getParams _ g2 (i_dim _ T2)); reflexivity|]. intros g3 (r & P3). pose proof (pinv_TI _ _ _ T2 P3) as T3.
  eapply ac_bind; [apply ac_skip|]. intros _ _. set (pc := ntGetSize (gnt g3) - pI). set (g4 := wNt g3 (ntSetCnt (gnt g3) fi pc)).
  eapply ac_bind; [apply ac_skip|]. intros _ _.
  set (T4 := ntSetCnt (gnt g2) fi pc).
  assert (gnt g4 = T4 ++ r) as N4.
  { unfold g4, T4. cbn [wNt gnt]. rewrite (n_nt _ _ _ P3). unfold ntSetCnt. apply upd_app. unfold pI, ntGetSize in FI. lia. }
  assert (ntGetSize T4 = pI) as S4 by (unfold T4, ntSetCnt, ntGetSize; rewrite upd_length; reflexivity).
  assert (cntAt T4 fi = pc) as C4 by (unfold T4; apply cntAt_setCnt; exact FI).
  assert (pc = ntGetSize r) as PC by (unfold pc; rewrite (n_nt _ _ _ P3), size_app; unfold pI; lia).
  assert (Forall glob T4) as G4 by (apply glob_setCnt; exact (i_tab _ T2)).
  eapply ac_bind with (P := fun g' => TI (wNt g' []) /\ exists T' x, gnt g' = T' ++ r ++ x /\ Forall glob T' /\ ntGetSize T' = pI).
  - destruct (gIsTok cLC g4) as [g5|] eqn:K.
    + apply quiet_isTok in K. destruct (quiet_fields _ _ K) as (E1 & E2 & E3 & E4 & E5 & E6 & E7 & E8 & E9 & E10 & E11 & E12).
      assert (TI (wNt g5 [])) as T5.
      { destruct K as (e & -> & A & B & C). destruct T3 as [I1 I2 I3 I4 I5 I6]. constructor; cbn [wNt wE gnt curDim depth ge] in *; try assumption; rewrite ?A, ?B; try assumption. exact (tail_tran _ _ _ C I4). }
      eapply ac_bind; [apply ac_skip|]. intros _ _.
      match goal with |- ac (pbind (getBlock _ _ ?G) _) _ => set (g6 := G) end.
      assert (exists T6, gnt g6 = T6 ++ r /\ Forall glob T6 /\ ntGetSize T6 = pI /\ cntAt T6 fi = pc) as (T6 & N6 & G6 & S6 & C6).
      { assert (forall t0 t j, t0 = t ++ r -> Forall glob t -> ntGetSize t = pI -> cntAt t fi = pc -> 0 <= j < pI -> exists t', ntSetScope t0 j ScFUNC = t' ++ r /\ Forall glob t' /\ ntGetSize t' = pI /\ cntAt t' fi = pc) as ST.
        { intros t0 t j A B C CN D. exists (ntSetScope t j ScFUNC). rewrite A. unfold ntSetScope at 1. rewrite upd_app by (unfold ntGetSize in C; lia). split; [reflexivity|].
          split; [apply glob_setScope; [discriminate|discriminate|exact B]|]. rewrite cntAt_setScope. split; [|exact CN]. unfold ntSetScope, ntGetSize in *. rewrite upd_length. exact C. }
        assert (gnt g5 = T4 ++ r) as N5 by (rewrite E5; exact N4).
        unfold g6. clear g6. destruct (0 <=? idx) eqn:IX.
        - apply Z.leb_le in IX. pose proof (srcGlob_lt _ _ (proj1 FI) : idx < fi) as IL. destruct (ST _ _ idx N5 G4 S4 C4 ltac:(lia)) as (t & A & B & C & CC).
          destruct (ST _ _ fi A B C CC FI) as (t' & A' & B' & C'). exists t'. split; [exact A'|split; assumption].
        - destruct (ST _ _ fi N5 G4 S4 C4 FI) as (t' & A' & B' & C'). exists t'. split; [exact A'|split; assumption]. }
      assert (TI (wNt g6 []) /\ curScope g6 = ScLVAR /\ curCnt g6 = 0 /\ maxCnt g6 = 0 /\ funcIdx g6 = fi /\ depth g6 = 0 /\ lastStat g6 = LxNONTOK) as (T6' & Q1 & Q2 & Q3 & Q4 & Q5 & Q6).
      { destruct P3 as [_ _ (_ & P1 & P2 & P6 & _) _ _]. pose proof (i_dep _ T2) as D2.
        unfold g6. split; [destruct (0 <=? idx); apply (TI_set (wNt g5 [])); try reflexivity; exact T5|].
        destruct (0 <=? idx); cbn [wCnt wMax wNt wScope curScope curCnt maxCnt funcIdx depth lastStat]; rewrite E7, E6, E8; unfold g4; cbn [wNt depth lastStat funcIdx]; rewrite P1, P2, P6;
          repeat (split; [first [reflexivity|exact D2]|]); reflexivity. }
      clearbody g6.
      assert (fin (ntGetSize T6) (ntGetSize T6 + ntGetSize r) (bodyV g6) (maxCnt g6) g6) as F6.
      { rewrite Q3. apply fin_start; try assumption; [exact (n_prm _ _ _ P3)|]. rewrite Q4, S6. exact FI. }
      eapply ac_bind.
      { apply (ac_getBlock krn (ntGetSize T6) (ntGetSize T6 + ntGetSize r) (bodyV g6) (getStat krn)); [|exact F6|].
        - intros g' F'. eapply ac_mono; [apply (ac_getStatF krn _ _ _ _ g' F')|]. intros x [A _]. exact A.
        - intros g' F'. eapply ac_mono; [apply (ac_getStatF krn _ _ _ _ g' F')|]. intros x [_ A]. exact A. }
      intros [root g7] [[P7 _] L7]. cbn [fst snd] in P7, L7.
      eapply ac_bind; [apply ac_perr_if|]. intros u V7. cbv beta in V7.
      destruct (p_step _ _ _ _ _ _ P7) as ((_ & _ & Q7 & _ & _ & D7) & _ & (x & N7) & _ & CD).
      eapply ac_mono; [apply (ac_compileBody _ _ _ _ _ _ T6' P7 Q5)|].
      * intros V. destruct (Z.eq_dec (lastStat g7) LxRETURN) as [E|E]; [destruct (L7 E) as [X|X]; [exact X|rewrite Q6 in X; discriminate X]|exfalso].
        apply Z.eqb_neq in E. rewrite E in V7. cbn [negb] in V7. rewrite andb_true_r in V7.
        pose proof (f_v _ _ _ _ _ (p_fin _ _ _ _ _ _ P7)) as FV. rewrite V, Q7, Q4 in FV. symmetry in FV. apply negb_false_iff in FV. apply andb_true_iff in FV. destruct FV as [FA FB].
        rewrite FA, FB in V7. discriminate V7.
      * rewrite Q7, Q4, N7, N6. rewrite !cntAt_app_l by (rewrite ?size_app; pose proof (size_nonneg r); lia). lia.
      * intros g8 (e & b & c & -> & I8 & L8 & S8). split.
        { constructor; cbn [wNt wLabs wE gnt curDim depth ge]; try assumption; [constructor|exact (CD (i_dim _ T6'))|rewrite D7; exact Q5]. }
        { exists T6, x. cbn [wLabs wE gnt]. rewrite N7, N6, app_assoc. split; [reflexivity|split; assumption]. }
    + eapply ac_mono; [apply ac_tok|]. intros g5 Q. split.
      * apply (TI_reads (wNt g4 [])); [|exact T3]. destruct Q as [-> S]. split; [reflexivity|exact S].
      * exists T4, []. rewrite app_nil_r. split; [|split; assumption]. destruct Q as [-> _]. exact N4.
  - intros g5 (T5 & T' & x & N5 & G5 & S5). cbn [ac]. destruct (_ <=? _); apply TI_tab; try exact T5; rewrite N5.
    + apply final_undef; [exact G5|lia].
    + rewrite N4, <- S5. replace (ntGetSize (T4 ++ r)) with (ntGetSize (T' ++ r)) by (rewrite !size_app; lia). apply final_void; [exact G5|exact (n_prm _ _ _ P3)].
Qed.

Lemma TI_optTok k (f : gs -> gs) g g' : (forall g, ge (f g) = ge g /\ gnt (f g) = gnt g /\ curDim (f g) = curDim g /\ depth (f g) = depth g) ->
  gIsTok k g = Some g' -> TI g -> TI (f g').
Proof. intros H E T. destruct (H g') as (A & B & C & D). apply (TI_set g' (f g') A B C D). exact (TI_isTok _ _ _ E T). Qed.
Lemma ac_getProg g : TI g -> ac (getProg opt krn g) TI.
Proof.
  intros T. unfold getProg. cbv zeta.
  match goal with |- ac (match gIsTok LxSTRUCT ?G with _ => _ end) _ => set (g1 := G) end.
  assert (TI g1) as T1.
  { unfold g1. assert (TI (wPub g false)) as T0 by (apply (TI_set g); try reflexivity; exact T). destruct (gIsTok LxPUBLIC (wPub g false)) as [g'|] eqn:K; [|exact T0].
    apply (TI_set g'); try reflexivity. exact (TI_isTok _ _ _ K T0). }
  clearbody g1. destruct (gIsTok LxSTRUCT g1) as [g2|] eqn:K2.
  { pose proof (TI_isTok _ _ _ K2 T1) as T2. destruct (pubFlag _); [exact I|]. set (g3 := wType (wScope g2 ScSTRC) TySTRUC).
    assert (TI g3) as T3 by (apply (TI_set g2); try reflexivity; exact T2).
    eapply ac_bind; [apply (TI_name false g3 T3); discriminate|]. intros [i g4] (T4 & _). cbn [snd] in T4. exact (ac_getStruct _ T4). }
  clear K2. destruct (gIsTok LxTYPEDEF g1) as [g2|] eqn:K2.
  { pose proof (TI_isTok _ _ _ K2 T1) as T2. destruct (pubFlag _); [exact I|]. set (g3 := wType (wScope g2 ScSTRC) TyREF).
    assert (TI g3) as T3 by (apply (TI_set g2); try reflexivity; exact T2).
    eapply ac_bind; [apply (TI_name false g3 T3); discriminate|]. intros [i g4] (T4 & _). cbn [snd] in T4. exact (TI_chkTok _ _ T4). }
  assert (TI (wScope g1 ScPROT)) as T2 by (apply (TI_set g1); try reflexivity; exact T1).
  eapply ac_bind; [apply ac_gGetType|]. intros g3 Y. pose proof (typed_TI _ _ Y T2) as T3. destruct (typed_fields _ _ Y) as (SC & _).
  eapply ac_bind; [apply (TI_name (pubFlag g3) g3 T3); rewrite SC; discriminate|]. intros [i g4] (T4 & E4 & D4 & (n & N4)). cbn [snd] in *.
  destruct (_ =? cLP).
  { apply (ac_getFunc _ T4). rewrite N4. intros H. apply app_eq_nil in H. destruct H as [_ H]. discriminate H. }
  match goal with |- ac (if ?x then _ else _) _ => destruct x end; [exact I|]. match goal with |- ac (if ?x then _ else _) _ => destruct x end; [exact I|].
  apply ac_getGVars.
  - split; [|reflexivity]. apply (TI_set (wNt g4 (ntSetScope (gnt g4) (ntGetSize (gnt g4) - 1) ScCOMM))); try reflexivity. apply TI_nt; [|exact T4].
    apply glob_setScope; [discriminate|discriminate|exact (i_tab _ T4)].
  - unfold lastDim. rewrite N4. cbn [wScope wNt gnt curDim]. eexists (gnt g3), _. split.
    + unfold ntSetScope. rewrite size_app. replace (Z.to_nat _) with (List.length (gnt g3)) by (unfold ntGetSize; cbn [List.length]; lia). apply upd_last.
    + cbn [nDim]. symmetry. exact D4.
Qed.
Lemma ac_progLoop f : forall g, TI g -> ac (progLoop opt krn f g) TI.
Proof.
  induction f as [|f IH]; intros g T; [exact I|]. cbn [progLoop]. destruct (_ =? _); [exact T|]. eapply ac_bind; [apply (ac_getProg _ T)|]. exact IH.
Qed.
End Top.
Lemma skipFile_incl l : tailOf (skipFile l) l.
Proof. induction l as [|a r IH]; cbn [skipFile]; [apply tail_refl|]. destruct (_ =? _); [apply tail_tl; exact IH|apply tail_refl]. Qed.
Lemma TI_init opt krn l : TI opt krn l (gInit l).
Proof.
  constructor; cbn [gInit gnt curDim depth ge its outp clab].
  - apply Forall_nil.
  - lia.
  - reflexivity.
  - apply skipFile_incl.
  - intros _. split; [apply goodO_none; reflexivity|intros x []].
  - intros [|x a] c b E; discriminate E.
Qed.
Theorem psGetSrc_TI opt krn l : ac (psGetSrc opt krn l) (TI opt krn l).
Proof. apply ac_progLoop, TI_init. Qed.
