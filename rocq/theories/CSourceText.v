(* The text the C translator prints for the parts of a declaration is the one of
   CSourceSpec.v. *)
From Coq Require Import ZArith Bool Lia String Ascii List Permutation.
From Verif Require Import Lexer LexProofs NameTable NameProofs SyTree OpTree OptLabs VM VmCode Parser ParserStmt ParseSpec ParseLabs ProgSpec ProgData StmtSpec StmtSound ProgGram ProgSound DataSpec DataProofs CCode AsmText CFile CDataSpec CDataProofs CFileSpec CFileProofs CSourceSpec CSourceRefs.
Import ListNotations.
Open Scope Z_scope.

(* ---- tables with the same names, types, dimensions ---- *)
Definition core (e : entry) : list Z * Z * Z * bool := (nName e, nType e, nDim e, nPub e).
Definition ext (n N : table) : Prop := exists r, map core N = map core n ++ r.
Lemma ext_refl n : ext n n. Proof. exists []. rewrite app_nil_r. reflexivity. Qed.
Lemma ext_trans a b c : ext a b -> ext b c -> ext a c.
Proof. intros [r R] [s S]. exists (r ++ s). rewrite S, R, app_assoc. reflexivity. Qed.
Lemma ext_app n r : ext n (n ++ r). Proof. exists (map core r). apply map_app. Qed.
Lemma ext_core n N : map core N = map core n -> ext n N. Proof. intros E. exists []. rewrite app_nil_r. exact E. Qed.
Lemma core_upd f t : (forall e, core (f e) = core e) -> forall i, map core (NameTable.upd f t i) = map core t.
Proof. intros F. induction t as [|e t IH]; intros [|i]; try reflexivity; cbn [NameTable.upd map]; [rewrite F; reflexivity|]. rewrite IH. reflexivity. Qed.
Lemma core_setScope t i s : map core (ntSetScope t i s) = map core t. Proof. apply core_upd. reflexivity. Qed.
Lemma core_setCnt t i s : map core (ntSetCnt t i s) = map core t. Proof. apply core_upd. reflexivity. Qed.
Lemma core_setVoid t i : map core (ntSetVoid t i) = map core t.
Proof.
  unfold ntSetVoid. rewrite map_app, map_map, <- map_app. rewrite <- (firstn_skipn (Z.to_nat i) t) at 3. rewrite !map_app. reflexivity.
Qed.
Lemma ext_def n nm sc t d c p n1 i : ntDefName n nm sc t d c p = NOk (n1, i) -> ext n n1.
Proof. intros H. destruct (StmtSound.def_app _ _ _ _ _ _ _ _ _ H) as [-> _]. apply ext_app. Qed.
Lemma ext_enter prev fi n : ext n (enter prev fi n).
Proof. apply ext_core. unfold enter. rewrite core_setScope. destruct prev; [apply core_setScope|reflexivity]. Qed.
Lemma ext_leave E E' : more E E' -> ext (eN E) (eN (leave E E')).
Proof. intros [r R]. cbn [leave eN]. apply (ext_trans _ (eN E')); [rewrite R; apply ext_app|apply ext_core, core_setVoid]. Qed.
Lemma ext_ent n N i e : ext n N -> ent n i = Some e -> exists e', ent N i = Some e' /\ core e' = core e.
Proof.
  intros [r R] H. unfold ent in *. destruct (i <? 0); [discriminate H|]. assert (nth_error (map core N) (Z.to_nat i) = Some (core e)) as A.
  { rewrite R, nth_error_app1; [apply map_nth_error; exact H|]. rewrite map_length. apply nth_error_Some. rewrite H. discriminate. }
  destruct (nth_error N (Z.to_nat i)) as [e'|] eqn:E; [exists e'; split; [reflexivity|]|].
  - rewrite (map_nth_error core _ _ E) in A. congruence.
  - apply nth_error_None in E. assert (nth_error (map core N) (Z.to_nat i) = None) as B by (apply nth_error_None; rewrite map_length; exact E). congruence.
Qed.
(* the entry i *)
Definition at_ (N : table) (i : Z) (nm : list Z) (t d : Z) (p : bool) : Prop := nameAt N i = nm /\ typeAt N i = t /\ dimAt N i = d /\ pubAt N i = p.
Lemma at_ext n N i e : ext n N -> ent n i = Some e -> at_ N i (nName e) (nType e) (nDim e) (nPub e).
Proof. intros X H. destruct (ext_ent _ _ _ _ X H) as (e' & E & C). unfold core in C. injection C as C1 C2 C3 C4. unfold at_, nameAt, typeAt, dimAt, pubAt. rewrite E. auto. Qed.
Lemma ent_last n e : ent (n ++ [e]) (ntGetSize n) = Some e.
Proof. rewrite ProgInv.ent_app_r by lia. rewrite Z.sub_diag. reflexivity. Qed.
Lemma at_def n nm sc t d c p n1 i N : ntDefName n nm sc t d c p = NOk (n1, i) -> ext n1 N -> at_ N i nm t d p.
Proof. intros H X. destruct (StmtSound.def_app _ _ _ _ _ _ _ _ _ H) as [-> ->]. exact (at_ext _ _ _ _ X (ent_last _ _)). Qed.

(* ---- types ---- *)
Lemma user_at n N s : ntSrcStruct n s <> TyNON -> ext n N -> ntSrcStruct n s <= 0 /\ nameAt N (- ntSrcStruct n s) = s.
Proof.
  unfold ntSrcStruct. intros H X. pose proof (NameProofs.scan_find (fun e => (nScope e =? ScSTRC) && zeqb_list (nName e) s) n 0) as F.
  destruct (scan _ n 0) as [k|]; [|destruct (H eq_refl)]. destruct F as (R & e & E & P & _). split; [lia|]. rewrite Z.opp_involutive. rewrite Z.sub_0_r in E.
  destruct (at_ext _ _ _ _ X E) as [-> _]. apply andb_true_iff in P. destruct P as [_ P]. apply LexProofs.zeqb_list_eq in P. exact P.
Qed.
Lemma typeText_word n N t w : ext n N -> typeText N (tyCode n t) = Some w -> w = cWord t ++ [32] /\ t <> TnIntr.
Proof.
  intros X. destruct t as [| | | | |s]; cbn [tyCode]; try (intros H; injection H as <-; split; [reflexivity|discriminate]); [intros H; discriminate H|].
  intros H. assert (ntSrcStruct n s <> TyNON) as NN by (intros E; rewrite E in H; discriminate H). destruct (user_at _ _ _ NN X) as [L NM].
  split; [|discriminate]. unfold typeText in H. revert H. generalize dependent (ntSrcStruct n s). intros z NN L NM.
  repeat match goal with |- context [z =? ?k] => replace (z =? k) with false by (symmetry; apply Z.eqb_neq; unfold TyVOID, TyINT, TyBOOL, TyCHAR, TyINTR, TyDOTDOTDOT; lia) end.
  destruct (_ && _); [|discriminate]. intros H. injection H as <-. rewrite NM. reflexivity.
Qed.
Lemma stars_word n N t d w : typeText N (tyCode n t) = Some w -> repeat 42 (stars (tyCode n t) (Z.of_nat d) false) = cStars t d.
Proof.
  intros H. unfold stars, cStars. f_equal. destruct t as [| | | | |s]; cbn [tyCode];
    try (change (TyINT <=? 0) with false; change (TyCHAR <=? 0) with false; change (TyVOID <=? 0) with false; change (TyBOOL <=? 0) with false; change (TyINTR <=? 0) with false; cbn iota; lia).
  cbn [tyCode] in H. unfold ntSrcStruct in *. destruct (scan _ n 0) as [k|] eqn:S; [|discriminate H]. pose proof (NameProofs.scan_find (fun e => (nScope e =? ScSTRC) && zeqb_list (nName e) s) n 0) as F. rewrite S in F.
  destruct F as [R _]. destruct (Z.leb_spec (- k) 0); lia.
Qed.
Lemma some_inj {A} (a b : A) : Some a = Some b -> b = a.
Proof. intros H. injection H. auto. Qed.
Lemma cat_some a b w : CCode.cat a b = Some w -> exists x y, a = Some x /\ b = Some y /\ w = x ++ y.
Proof. destruct a as [x|]; [|discriminate]. destruct b as [y|]; [|discriminate]. intros H. injection H as <-. eauto 6. Qed.
Lemma typeDcl_word n N sta t d w : ext n N -> typeDcl N sta (tyCode n t) (Z.of_nat d) false = Some w -> w = (if sta then codes "static " else []) ++ cType t d /\ t <> TnIntr.
Proof.
  intros X H. unfold typeDcl in H. apply cat_some in H. destruct H as (x & y & A & B & ->). injection A as <-. apply cat_some in B. destruct B as (u & v & B & C & ->). injection C as <-.
  destruct (typeText_word _ _ _ _ X B) as [-> NI]. split; [|exact NI]. unfold cType. rewrite (stars_word _ _ _ _ _ B). rewrite <- app_assoc. reflexivity.
Qed.
Lemma globDcl_word n N i nm t d pub w : ext n N -> at_ N i nm (tyCode n t) (Z.of_nat d) pub -> globDcl N i = Some w -> w = cDecl pub t d nm /\ t <> TnIntr.
Proof.
  intros X (A & B & C & D) H. unfold globDcl in H. rewrite B, C, D in H. apply cat_some in H. destruct H as (x & y & T & E & ->). injection E as <-.
  destruct (typeDcl_word _ _ _ _ _ _ X T) as [-> NI]. split; [|exact NI]. rewrite A. unfold cDecl. destruct pub; cbn [negb app]; rewrite <- ?app_assoc; reflexivity.
Qed.

(* ---- parameters ---- *)
Lemma okParams_size prev n c d0 ps k n2 c' d2 : okParams prev n c d0 ps k n2 c' d2 ->
  ext n n2 /\ ntGetSize n2 = ntGetSize n + Z.of_nat (List.length ps) + match k with PDots => 1 | _ => 0 end.
Proof.
  induction 1 as [n c d0|n c d0 n' i LP DN|n c d0 t d nm n' i VT LP DN|n c d0 t d nm n' i VT LP DN|n c d0 t d nm ps k n1 i n' c' d' VT LP DN NE OP [X IH]];
    try (pose proof (ext_def _ _ _ _ _ _ _ _ _ DN) as XD; destruct (StmtSound.def_app _ _ _ _ _ _ _ _ _ DN) as [-> _]); rewrite ?StmtSound.size_app in *; cbn [List.length] in *.
  - split; [apply ext_refl|lia].
  - split; [exact XD|lia].
  - split; [exact XD|lia].
  - split; [exact XD|lia].
  - split; [exact (ext_trans _ _ _ XD X)|]. lia.
Qed.
Lemma between_cons sep a r : between sep (a :: r) = a ++ match r with [] => [] | _ => sep ++ between sep r end.
Proof. destruct r; [cbn [between]; rewrite app_nil_r; reflexivity|reflexivity]. Qed.
Lemma paramsText_ok prev n c d0 ps k n2 c' d2 N : okParams prev n c d0 ps k n2 c' d2 -> ext n2 N ->
  forall w, paramsText N (ntGetSize n) (Z.to_nat (ntGetSize n2 - ntGetSize n)) = Some w ->
  w = between (codes ",") (map cParam ps ++ match k with PDots => [codes "..."] | _ => [] end).
Proof.
  intros OP. revert N. induction OP as [n c d0|n c d0 n' i LP DN|n c d0 t d nm n' i VT LP DN|n c d0 t d nm n' i VT LP DN|n c d0 t d nm ps k n1 i n' c' d' VT LP DN NE OP IH]; intros N X w H.
  - rewrite Z.sub_diag in H. injection H as <-. reflexivity.
  - destruct (at_def _ _ _ _ _ _ _ _ _ N DN X) as (A & B & C & _). destruct (StmtSound.def_app _ _ _ _ _ _ _ _ _ DN) as [-> ->]. rewrite StmtSound.size_app in H. cbn [List.length] in H.
    replace (Z.to_nat _) with 1%nat in H by lia. cbn [paramsText] in H. rewrite B, C in H. vm_compute in H. injection H as <-. reflexivity.
  - destruct (at_def _ _ _ _ _ _ _ _ _ N DN X) as (A & B & C & _). pose proof (ext_trans _ _ _ (ext_def _ _ _ _ _ _ _ _ _ DN) X) as XN. destruct (StmtSound.def_app _ _ _ _ _ _ _ _ _ DN) as [-> ->]. rewrite StmtSound.size_app in H. cbn [List.length] in H.
    replace (Z.to_nat _) with 1%nat in H by lia. cbn [paramsText] in H. rewrite B, C in H. apply cat_some in H. destruct H as (x & y & TD & R & ->).
    destruct (typeDcl_word _ _ _ _ _ _ XN TD) as [-> NI]. cbn [app map cParam]. cbn [CCode.cat app] in R. injection R as <-. rewrite A, app_nil_r.
    cbn [between]. f_equal. destruct (Z.eqb_spec (tyCode n t) TyDOTDOTDOT) as [E|]; [|reflexivity]. exfalso. rewrite E in TD. clear - E. destruct t; try discriminate E. cbn [tyCode] in E. unfold ntSrcStruct in E.
    pose proof (NameProofs.scan_find (fun e => (nScope e =? ScSTRC) && zeqb_list (nName e) n0) n 0) as F. destruct (scan _ n 0) as [k|]; [|discriminate E]. destruct F as [F _]. unfold TyDOTDOTDOT in E. lia.
  - destruct (at_def _ _ _ _ _ _ _ _ _ N DN X) as (A & B & C & _). pose proof (ext_trans _ _ _ (ext_def _ _ _ _ _ _ _ _ _ DN) X) as XN. destruct (StmtSound.def_app _ _ _ _ _ _ _ _ _ DN) as [-> ->]. rewrite StmtSound.size_app in H. cbn [List.length] in H.
    replace (Z.to_nat _) with 1%nat in H by lia. cbn [paramsText] in H. rewrite B, C in H. apply cat_some in H. destruct H as (x & y & TD & R & ->).
    destruct (typeDcl_word _ _ _ _ _ _ XN TD) as [-> NI]. cbn [app map cParam]. cbn [CCode.cat app] in R. injection R as <-. rewrite A, app_nil_r.
    cbn [between]. f_equal. destruct (Z.eqb_spec (tyCode n t) TyDOTDOTDOT) as [E|]; [|reflexivity]. exfalso. rewrite E in TD. clear - E. destruct t; try discriminate E. cbn [tyCode] in E. unfold ntSrcStruct in E.
    pose proof (NameProofs.scan_find (fun e => (nScope e =? ScSTRC) && zeqb_list (nName e) n0) n 0) as F. destruct (scan _ n 0) as [k|]; [|discriminate E]. destruct F as [F _]. unfold TyDOTDOTDOT in E. lia.
  - destruct (okParams_size _ _ _ _ _ _ _ _ _ OP) as [X1 SZ]. destruct (at_def _ _ _ _ _ _ _ _ _ N DN (ext_trans _ _ _ X1 X)) as (A & B & C & _). pose proof (ext_trans _ _ _ (ext_def _ _ _ _ _ _ _ _ _ DN) (ext_trans _ _ _ X1 X)) as XN.
    destruct (StmtSound.def_app _ _ _ _ _ _ _ _ _ DN) as [EN ->]. assert (ntGetSize n1 = ntGetSize n + 1) as S1 by (rewrite EN, StmtSound.size_app; reflexivity).
    assert (ntGetSize n1 <= ntGetSize n') as SL by (rewrite SZ; destruct k; lia).
    replace (Z.to_nat (ntGetSize n' - ntGetSize n)) with (S (Z.to_nat (ntGetSize n' - ntGetSize n1))) in H by lia. cbn [paramsText] in H. rewrite B, C in H. apply cat_some in H. destruct H as (x & y & TD & R & ->).
    destruct (typeDcl_word _ _ _ _ _ _ XN TD) as [-> NI]. apply cat_some in R. destruct R as (u & v & U & R & ->). apply cat_some in R. destruct R as (u' & v' & U' & R & ->).
    rewrite <- S1 in R. specialize (IH N X v' R). cbn [map app]. rewrite between_cons. rewrite IH.
    assert (exists z zs, map cParam ps ++ match k with PDots => [codes "..."] | _ => [] end = z :: zs) as (z & zs & EZ).
    { destruct NE as [NE| ->]; [destruct ps as [|p ps]; [destruct (NE eq_refl)|cbn [map app]; eauto]|]. destruct ps; cbn [map app]; eauto. }
    rewrite EZ. assert (u' = codes ",") as ->.
    { injection U' as <-. destruct (Z.to_nat (ntGetSize n' - ntGetSize n1)) as [|q] eqn:Q; [|reflexivity]. exfalso.
      assert (ntGetSize n' > ntGetSize n1); [|lia]. rewrite SZ. destruct NE as [NE| ->]; [destruct ps as [|p ps]; [destruct (NE eq_refl)|cbn [List.length]; destruct k; lia]|lia]. }
    rewrite A in U. injection U as <-. cbn [cParam]. rewrite <- !app_assoc.
    assert ((tyCode n t =? TyDOTDOTDOT) = false) as ->; [|reflexivity]. apply Z.eqb_neq. intros E. clear - E. destruct t; try discriminate E. cbn [tyCode] in E. unfold ntSrcStruct in E.
    pose proof (NameProofs.scan_find (fun e => (nScope e =? ScSTRC) && zeqb_list (nName e) n0) n 0) as F. destruct (scan _ n 0) as [k|]; [|discriminate E]. destruct F as [F _]. unfold TyDOTDOTDOT in E. lia.
Qed.
Lemma funcDcl_ok krn n c0 pub t d nm ps e prev fi n2 c d2 prm N w :
  okHead krn n c0 pub (tyCode n t) (Z.of_nat d) nm ps e prev fi n2 c d2 prm -> ext n2 N -> cntAt N fi = prm ->
  funcDcl N fi = Some w -> w = cHead pub t d nm ps e /\ t <> TnIntr.
Proof.
  intros [_ _ _ (n1 & DN & OP) PC _] X CN H. destruct (okParams_size _ _ _ _ _ _ _ _ _ OP) as [X1 SZ]. pose proof (ext_trans _ _ _ X1 X) as X2.
  pose proof (at_def _ _ _ _ _ _ _ _ _ N DN X2) as AT. pose proof (ext_trans _ _ _ (ext_def _ _ _ _ _ _ _ _ _ DN) X2) as XN.
  destruct (StmtSound.def_app _ _ _ _ _ _ _ _ _ DN) as [EN EI]. assert (ntGetSize n1 = fi + 1) as S1 by (rewrite EN, StmtSound.size_app, EI; reflexivity).
  unfold funcDcl in H. apply cat_some in H. destruct H as (x & y & G & R & ->). destruct (globDcl_word _ _ _ _ _ _ _ _ XN AT G) as [-> NI]. split; [|exact NI].
  apply cat_some in R. destruct R as (u & v & U & R & ->). injection U as <-. apply cat_some in R. destruct R as (u & z & P & R & ->). injection R as <-.
  rewrite CN, PC in P. rewrite <- S1 in P. replace (ntGetSize n2 - fi - 1) with (ntGetSize n2 - ntGetSize n1) in P by lia.
  rewrite (paramsText_ok _ _ _ _ _ _ _ _ _ N OP X u P). reflexivity.
Qed.

(* ---- structures ---- *)
Lemma okNames_ok t d ty n c ns n' c' : okNames ty (Z.of_nat d) n c ns n' c' -> forall b, ext b n -> ty = tyCode b t -> ext n n' /\ ntGetSize n' = ntGetSize n + Z.of_nat (List.length ns) /\
  forall N q w, ext n' N -> membersText N (ntGetSize n) (List.length ns + q) = Some w ->
  exists w', membersText N (ntGetSize n') q = Some w' /\ w = flat_map (cMember t d) ns ++ w'.
Proof.
  induction 1 as [n c|n c nm r n1 i n' c' DN ON IH]; intros b XB ET.
  - split; [apply ext_refl|]. split; [cbn [List.length]; lia|]. intros N q w X H. exists w. split; [exact H|reflexivity].
  - pose proof (ext_def _ _ _ _ _ _ _ _ _ DN) as XD. destruct (IH b (ext_trans _ _ _ XB XD) ET) as (X1 & S1 & R). destruct (StmtSound.def_app _ _ _ _ _ _ _ _ _ DN) as [EN EI]. assert (ntGetSize n1 = ntGetSize n + 1) as SZ by (rewrite EN, StmtSound.size_app; reflexivity).
    split; [exact (ext_trans _ _ _ XD X1)|]. split; [cbn [List.length]; lia|]. intros N q w X H. cbn [List.length Nat.add membersText] in H.
    destruct (at_def _ _ _ _ _ _ _ _ _ N DN (ext_trans _ _ _ X1 X)) as (A & B & C & _). rewrite EI in A, B, C. rewrite A, B, C, ET in H. rewrite <- SZ in H.
    apply cat_some in H. destruct H as (x & y & TD & H & ->). apply cat_some in H. destruct H as (u & v & U & H & ->). injection U as <-.
    destruct (R N q v X H) as (w' & M & ->). exists w'. split; [exact M|]. destruct (typeDcl_word _ _ _ _ _ _ (ext_trans _ _ _ XB (ext_trans _ _ _ XD (ext_trans _ _ _ X1 X))) TD) as [-> _].
    cbn [flat_map]. unfold cMember. rewrite <- !app_assoc. reflexivity.
Qed.
Lemma okFlines_ok n c d fs n' c' d' : okFlines n c d fs n' c' d' -> ext n n' /\
  forall N w, ext n' N -> membersText N (ntGetSize n) (Z.to_nat (ntGetSize n' - ntGetSize n)) = Some w -> w = flat_map cMembers fs.
Proof.
  induction 1 as [n c d|n c d0 t d ns r n1 c1 n' c' d' VT ON OF [X IH]].
  - split; [apply ext_refl|]. intros N w X H. rewrite Z.sub_diag in H. injection H as <-. reflexivity.
  - destruct (okNames_ok t d _ _ _ _ _ _ ON n (ext_refl _) eq_refl) as (X1 & S1 & R). split; [exact (ext_trans _ _ _ X1 X)|]. intros N w XN H.
    assert (ntGetSize n1 <= ntGetSize n'). { destruct X as [q Q]. apply (f_equal (@List.length _)) in Q. rewrite app_length, !map_length in Q. unfold ntGetSize. lia. }
    replace (Z.to_nat (ntGetSize n' - ntGetSize n)) with (List.length ns + Z.to_nat (ntGetSize n' - ntGetSize n1))%nat in H by lia.
    destruct (R N _ _ (ext_trans _ _ _ X XN) H) as (w' & M & ->). rewrite (IH N w' XN M). reflexivity.
Qed.
Lemma strucText_ok n d c nm fs n1 i n2 c2 d2 N w : ntDefName n nm ScSTRC TySTRUC d c false = NOk (n1, i) -> okFlines n1 0 d fs n2 c2 d2 -> ext n2 N -> cntAt N i = ntGetSize n2 - i - 1 ->
  strucText N i = Some w -> w = cStruct nm fs.
Proof.
  intros DN OF X CN H. destruct (okFlines_ok _ _ _ _ _ _ _ OF) as [X1 R]. destruct (at_def _ _ _ _ _ _ _ _ _ N DN (ext_trans _ _ _ X1 X)) as (A & _).
  destruct (StmtSound.def_app _ _ _ _ _ _ _ _ _ DN) as [EN EI]. assert (ntGetSize n1 = i + 1) as S1 by (rewrite EN, StmtSound.size_app, EI; reflexivity).
  unfold strucText in H. rewrite A, CN in H. apply cat_some in H. destruct H as (x & y & U & H & ->). apply some_inj in U. subst x. apply cat_some in H. destruct H as (u & v & M & V & ->). apply some_inj in V. subst v.
  rewrite <- S1 in M. replace (ntGetSize n2 - i - 1) with (ntGetSize n2 - ntGetSize n1) in M by lia. rewrite (R N u X M). unfold cStruct, nl, eol. repeat rewrite <- app_assoc. reflexivity.
Qed.

(* ---- strings ---- *)
Lemma textOf_app a : forall b, textOf (a ++ b) = CCode.cat (textOf a) (textOf b).
Proof.
  induction a as [|p a IH]; intros b; cbn [app textOf]; [destruct (textOf b); reflexivity|]. rewrite IH. destruct (pieceText p); [|reflexivity].
  destruct (textOf a); [|reflexivity]. destruct (textOf b); [|reflexivity]. cbn [CCode.cat]. rewrite app_assoc. reflexivity.
Qed.
Lemma textOf_snoc a w p u : textOf a = Some w -> pieceText p = Some u -> textOf (a ++ [p]) = Some (w ++ u).
Proof. intros A B. rewrite textOf_app, A. cbn [textOf]. rewrite B. cbn [CCode.cat]. rewrite app_nil_r. reflexivity. Qed.
Lemma defines_text ss : forall l k, textOf (defines (numbered l ss) k) = Some (cStrs k ss).
Proof.
  induction ss as [|s ss IH]; intros l k; [reflexivity|]. cbn [numbered defines textOf pieceText cStrs]. rewrite IH. cbn [CCode.cat]. f_equal.
  unfold strText, strLab, eol, nl. rewrite <- !app_assoc. reflexivity.
Qed.
Lemma rank_range ss l s k : l < k <= l + Z.of_nat (List.length ss) -> rank (numbered l ss) s k = strNo l s k.
Proof.
  intros R. unfold strNo. set (j := Z.to_nat (k - l - 1)). destruct (nth_error ss j) as [x|] eqn:N; [|apply nth_error_None in N; unfold j in N; lia].
  replace k with (l + 1 + Z.of_nat j) by (unfold j; lia). rewrite (rank_at _ _ _ _ _ N). lia.
Qed.
Lemma renE_ext f g e : (forall k, In (RStr k) (refsE e) -> f k = g k) -> renE f e = renE g e.
Proof.
  induction e as [|k|u a IH|o a IHa b IHb|i a IH]; intros H; cbn [renE refsE] in *; try reflexivity.
  - destruct k; try reflexivity. rewrite H by (left; reflexivity). reflexivity.
  - rewrite IH by exact H. reflexivity.
  - rewrite IHa, IHb; [reflexivity| |]; intros k K; apply H; apply in_or_app; auto.
  - rewrite IH; [reflexivity|]. intros k K. apply H. right. exact K.
Qed.
Lemma renS_ext f g s : (forall k, In (RStr k) (refsS s) -> f k = g k) -> renS f s = renS g s.
Proof.
  induction s; intros H; cbn [renS refsS] in *; try reflexivity;
    repeat match goal with
    | IH : _ -> renS f ?a = renS g ?a |- _ => rewrite IH by (intros; apply H; rewrite ?in_app_iff; auto 6); clear IH
    end;
    repeat match goal with
    | |- context [renE f ?e] => rewrite (renE_ext f g e) by (intros; apply H; rewrite ?in_app_iff; auto 6)
    end; reflexivity.
Qed.
Fixpoint renumber_ext f g (i : init) : (forall k, In k (initStrs i) -> f k = g k) -> renumber f i = renumber g i.
Proof.
  destruct i as [v|l|j|b xs|b ns]; intros H; cbn [renumber]; try reflexivity.
  - rewrite H by (left; reflexivity). reflexivity.
  - f_equal. revert H. cbn [initStrs]. induction xs as [|x xs IH]; intros H; [reflexivity|]. cbn [map flat_map] in *. f_equal.
    + apply renumber_ext. intros k K. apply H, in_or_app. left. exact K.
    + apply IH. intros k K. apply H, in_or_app. right. exact K.
Qed.

(* ---- data ---- *)
Lemma commas_between l : CFile.commas l = between (codes ",") l.
Proof. induction l as [|a l IH]; [reflexivity|]. destruct l; [reflexivity|]. cbn [CFile.commas between] in *. rewrite IH. reflexivity. Qed.
Lemma itemText_ok nm x : itemText nm x = cItem nm x. Proof. destruct x; reflexivity. Qed.
Lemma defText_ok n N t x w : ext n N -> defText N (tyCode n t) x = Some w -> w = cDef (nameAt N) t x.
Proof.
  intros X H. assert (forall s u r, CCode.cat (CCode.cat (Some (codes "static ")) (CCode.cat (typeText N (tyCode n t)) (Some (repeat 42 s)))) (Some u) = Some r -> r = (codes "static " ++ cWord t ++ [32] ++ repeat 42 s) ++ u) as K.
  { intros s u r R. apply cat_some in R. destruct R as (a & b & A & B & ->). injection B as <-. apply cat_some in A. destruct A as (p & q & P & Q & ->). injection P as <-. apply cat_some in Q. destruct Q as (y & z & Y & Z0 & ->). injection Z0 as <-.
    destruct (typeText_word _ _ _ _ X Y) as [-> _]. rewrite <- !app_assoc. reflexivity. }
  assert (forall xs, map (itemText (nameAt N)) xs = map (cItem (nameAt N)) xs) as M by (intros xs; apply map_ext, itemText_ok).
  destruct x as [l s z|l s xs|l s xs]; cbn [defText] in H; apply K in H; rewrite H; cbn [cDef]; rewrite ?commas_between, ?M; reflexivity.
Qed.
Lemma defsText_ok n N t xs : forall w, ext n N -> defsText N (tyCode n t) xs = Some w -> w = flat_map (cDef (nameAt N) t) xs.
Proof.
  induction xs as [|x xs IH]; intros w X H; cbn [defsText] in H; [injection H as <-; reflexivity|]. apply cat_some in H. destruct H as (a & b & A & B & ->).
  cbn [flat_map]. rewrite (defText_ok _ _ _ _ _ X A), (IH _ X B). reflexivity.
Qed.
Lemma dataText_ok n N i nm t d pub xs v w : ext n N -> at_ N i nm (tyCode n t) (Z.of_nat d) pub -> dataText N i xs v = Some w -> w = cData (nameAt N) pub t d nm xs v.
Proof.
  intros X AT H. unfold dataText in H. apply cat_some in H. destruct H as (a & b & A & B & ->). apply cat_some in B. destruct B as (p & q & P & Q & ->). injection Q as <-.
  pose proof AT as (_ & T & _). rewrite T in A. rewrite (defsText_ok _ _ _ _ _ X A). destruct (globDcl_word _ _ _ _ _ _ _ _ X AT P) as [-> _]. rewrite itemText_ok. unfold cData, nl, eol. rewrite <- ?app_assoc. reflexivity.
Qed.
Lemma labels_upto m ds l' : consec m ds l' -> labels ds = map (Z.add m) (CFileSpec.upto (List.length ds)) /\ l' = m + Z.of_nat (List.length ds).
Proof.
  intros [A B]. split; [|exact B]. rewrite A, upto_labSeq. clear. rewrite <- (Z.add_0_r m) at 1. generalize 0 as k. induction (List.length ds) as [|q IH]; intros k; [reflexivity|].
  cbn [labSeq map]. f_equal. rewrite <- IH. f_equal. lia.
Qed.
Lemma dataC_describes t d a i m ds v l' f : inits a = [i] -> dataC t (Z.of_nat d) (renD f a) m = Some (ds, v, l') -> describes t d m ds v (renumber f i) /\ l' = m + Z.of_nat (List.length ds).
Proof.
  intros EI DC. destruct (dataC_consec _ _ _ _ _ _ _ DC) as [CO _]. destruct (labels_upto _ _ _ CO) as [LU ->]. split; [|reflexivity].
  assert (inits (renD f a) = [renumber f i]) as EI' by (rewrite renD_inits, EI; reflexivity).
  split; [exact LU|]. split.
  - intros PL. exact (proj2 (dataC_ok _ _ _ _ _ _ _ _ EI' PL DC)).
  - intros j E. assert (i = IName j) as -> by (destruct i; try discriminate E; exact E). clear - DC EI. destruct a; cbn [renD dataC inits] in *; try discriminate EI; try discriminate DC. injection EI as ->. injection DC as <- <- _. split; reflexivity.
Qed.
