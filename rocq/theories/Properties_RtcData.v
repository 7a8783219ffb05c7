(* C72: initialised data and strings in the C text with run-time checks (cm2c -rtc). *)
From Coq Require Import ZArith Bool Lia List String Ascii Permutation.
From Verif Require Import Lexer LexSpec NameTable SyTree OpTree COpTree Parser ParserStmt ProgSpec DataSpec DataProofs CCode AsmText CFile CDataSpec CFileSpec CFileProofs CSourceSpec RtcHeap RtcSpec RtcDataSpec RtcData RtcDataProofs RtcDataParse RtcDecl TacRun LexProofs Properties_Lex.
Import ListNotations.
Open Scope Z_scope.

Lemma labSeq_upto n : forall l, labSeq l n = map (Z.add l) (upto n).
Proof.
  unfold upto. induction n as [|n IH]; intros l; [reflexivity|]. cbn [labSeq seq map]. f_equal; [lia|]. rewrite IH, <- seq_shift, !map_map. apply map_ext. intros k. lia.
Qed.
Lemma globR_text t idx n w (v : rval) : dimAt t idx = Z.of_nat n -> typeAt t idx <> TyVOID ->
  (n = O -> typeAt t idx = TyINT \/ typeAt t idx = TyCHAR \/ typeAt t idx = TyBOOL \/ typeAt t idx <= 0) -> globDclR t idx = Some w ->
  w ++ codes "=" ++ rvText (nameAt t) v ++ codes ";" ++ eol = rVar (nameAt t) (pubAt t idx) (typeAt t idx) n (nameAt t idx) v.
Proof.
  unfold globDclR, typeDclR, rVar. intros E NV T H. rewrite E in H. unfold wordText in H.
  assert (K : exists u s, w = (if pubAt t idx then [] else codes "static ") ++ u ++ codes " " ++ s ++ nameAt t idx /\
    u = match n with O => baseWord (nameAt t) (typeAt t idx) | S _ => kindWord (kindOf (typeAt t idx) n) end /\
    s = (if (0 <? typeAt t idx) && (n =? 0)%nat then [] else codes "*")).
  { destruct n as [|n].
    - change (Z.of_nat 0 =? 0) with true in H. cbv iota in H. unfold typeText, baseWord in *. specialize (T eq_refl). unfold TyVOID, TyINT, TyBOOL, TyCHAR, TyINTR, TyDOTDOTDOT in *.
      destruct T as [T|[T|[T|T]]].
      + rewrite T in *. cbn in H. destruct (pubAt t idx); cbn in H; injection H as <-; eexists _, _; (split; [|split; reflexivity]); reflexivity.
      + rewrite T in *. cbn in H. destruct (pubAt t idx); cbn in H; injection H as <-; eexists _, _; (split; [|split; reflexivity]); reflexivity.
      + rewrite T in *. cbn in H. destruct (pubAt t idx); cbn in H; injection H as <-; eexists _, _; (split; [|split; reflexivity]); reflexivity.
      + revert H. repeat match goal with |- context [typeAt t idx =? ?k] => replace (typeAt t idx =? k) with false by (symmetry; apply Z.eqb_neq; lia) end.
        replace (typeAt t idx <=? 0) with true by (symmetry; apply Z.leb_le; lia). replace (0 <? typeAt t idx) with false by (symmetry; apply Z.ltb_ge; lia).
        change (0 <? Z.of_nat 0) with false. cbn [andb orb negb]. destruct (_ || _); [|discriminate]. cbn [CCode.cat]. intros H. injection H as <-.
        eexists _, _. split; [|split; reflexivity]. rewrite <- !app_assoc. destruct (pubAt t idx); reflexivity.
    - replace (Z.of_nat (S n) =? 0) with false in H by (symmetry; apply Z.eqb_neq; lia). replace (0 <? Z.of_nat (S n)) with true in H by (symmetry; apply Z.ltb_lt; lia).
      replace (typeAt t idx =? TyVOID) with false in H by (symmetry; apply Z.eqb_neq; exact NV). unfold kindOf.
      replace (S n =? 1)%nat with (Z.of_nat (S n) =? 1) by (destruct (Z.eqb_spec (Z.of_nat (S n)) 1), (Nat.eqb_spec (S n) 1); try reflexivity; lia).
      rewrite andb_false_r. cbn [negb andb orb] in H.
      destruct (_ && _); [destruct (_ =? _)|]; cbn [CCode.cat] in H; injection H as <-; eexists _, _; (split; [|split; reflexivity]); rewrite <- ?app_assoc; destruct (pubAt t idx); reflexivity. }
  destruct K as (u & s & -> & -> & ->). rewrite <- !app_assoc. reflexivity.
Qed.

(* In the translation of any file, the text written for an initialised variable is that of
   definitions that describe the initialiser read for it, element for element (holdsR): the
   number in each array is that of its elements, each temporary is defined before it is used
   and used once, and they are numbered one after the other.  f gives the strings their numbers
   in the C text (C63).  Missing: addresses in lists (C62_address_refuted), void[] (refuted
   below) *)
Theorem C72_data_partial (g g' : gs) (d : dat) (t : table) (idx : Z) (n : nat) (f : Z -> Z) (i : init) (l l' : Z) (text : list Z) :
  readInit g = POk (d, g') -> curType g = typeAt t idx -> curDim g = Z.of_nat n -> dimAt t idx = Z.of_nat n -> inits d = [i] ->
  typeAt t idx <> TyVOID -> plain (typeAt t idx) n i ->
  genDataR t idx (renD f d) l = Some (text, l') ->
  exists ds x ls,
    text = flat_map (rdText (nameAt t) (typeAt t idx)) ds ++ rVar (nameAt t) (pubAt t idx) (typeAt t idx) n (nameAt t idx) x /\
    holdsR (typeAt t idx) ds n x (renumber f i) ls /\ Permutation ls (labelsR ds) /\
    labelsR ds = map (Z.add l) (upto (List.length ds)) /\ l' = l + Z.of_nat (List.length ds).
Proof.
  intros R ET ED EN EI NV PL H. unfold genDataR in H. rewrite EN in H.
  destruct (dataR t (typeAt t idx) (Z.of_nat n) (renD f d) l) as [[[c v] l1]|] eqn:D; [|discriminate H].
  assert (inits (renD f d) = [renumber f i]) as EI' by (rewrite renD_inits, EI; reflexivity).
  destruct (dataR_ok t _ NV _ _ _ _ _ _ _ (renD_lefty f _ (readInit_lefty _ _ _ R)) EI' (plain_ren _ _ _ _ PL) D) as (ds & x & ls & -> & -> & [C1 C2] & HO & P).
  destruct (globDclR t idx) as [w|] eqn:G; [|discriminate H]. cbn [CCode.cat] in H. injection H as <- <-. exists ds, x, ls.
  split; [|split; [exact HO|split; [exact P|split; [rewrite C1; apply labSeq_upto|exact C2]]]].
  apply f_equal. apply globR_text; [exact EN|exact NV| |exact G].
  intros ->. unfold readInit in R. rewrite ED in R. change (0 <? Z.of_nat 0) with false in R. cbv iota in R. rewrite <- ET.
  destruct (Z.eqb_spec (curType g) TyINT); [auto|]. destruct (Z.eqb_spec (curType g) TyCHAR); [auto|]. destruct (Z.eqb_spec (curType g) TyBOOL); [auto|].
  cbn [orb] in R. destruct (Z.leb_spec (curType g) 0); [auto|discriminate R].
Qed.
Print Assumptions C72_data_partial.

(* ==== the arrays in memory ==== *)
Lemma kept_ok k v : elem_ok k (kept k v).
Proof.
  destruct k; cbn [elem_ok kept].
  - pose proof (Z.mod_pos_bound (v + 2 ^ 31) (2 ^ 32)). lia.
  - apply Z.mod_pos_bound. lia.
  - apply Z.mod_pos_bound. lia.
Qed.
Lemma object_lays k es : Forall (elem_ok k) es -> Z.of_nat (List.length es) < 2 ^ 31 -> lays (Arr k es) (object k (Z.of_nat (List.length es)) es).
Proof.
  intros F L. exists (repeat 0 (Z.to_nat (hdr k - 4))). split; [reflexivity|]. split; [rewrite repeat_length; destruct k; reflexivity|]. split; [exact F|exact L].
Qed.
Definition sound (addr : rval -> Z) (t : Z) (y : rdef) : Prop :=
  forall a, arrayOf addr t y = Some a -> alen a < 2 ^ 31 -> exists m, bytesOf addr t y = Some m /\ lays a m.
Lemma arr_sound addr t l d xs : sound addr t (RdArr l d (Z.of_nat (List.length xs)) xs).
Proof.
  intros a E L. cbn [arrayOf bytesOf] in *. injection E as <-. eexists. split; [reflexivity|]. unfold alen in L. cbn [elems] in L.
  rewrite <- (map_length (fun v => kept (kindOf t d) (valueAt addr v)) xs). apply object_lays; [|exact L]. apply Forall_map. apply Forall_forall. intros x _. apply kept_ok.
Qed.
Lemma space_sound addr t l d n : 0 < n -> sound addr t (RdSpace l d n).
Proof.
  intros N a E L. cbn [arrayOf bytesOf] in *. injection E as <-. eexists. split; [reflexivity|]. unfold alen in L. cbn [elems] in L.
  assert (repeat 0 (Z.to_nat (n - 1)) ++ [0] = repeat 0 (Z.to_nat n)) as -> by (replace (Z.to_nat n) with (Z.to_nat (n - 1) + 1)%nat by lia; rewrite repeat_app; reflexivity).
  replace n with (Z.of_nat (List.length (repeat 0 (Z.to_nat n)))) at 2 by (rewrite repeat_length; lia). apply object_lays; [|exact L].
  apply Forall_forall. intros x I. apply repeat_spec in I. subst x. destruct (kindOf t d); cbn; lia.
Qed.
Lemma holds_sound addr t : forall ds d x i ls, holdsR t ds d x i ls -> forall l, In l ls -> exists y, In y ds /\ labelR y = l /\ sound addr t y.
Proof.
  apply (holdsR_mut t (fun ds d x i ls _ => forall l, In l ls -> exists y, In y ds /\ labelR y = l /\ sound addr t y)
                      (fun ds d xs is ls _ => forall l, In l ls -> exists y, In y ds /\ labelR y = l /\ sound addr t y)).
  - intros ds v _ l [].
  - intros ds d l [].
  - intros ds l0 _ l [].
  - intros pre post l xs is _ _ l' [<-|[]]. exists (RdObj l xs). split; [apply in_elt|]. split; [reflexivity|]. intros a E. discriminate E.
  - intros pre post l d xs is ls _ _ IH l' [<-|L].
    + exists (RdArr l (S d) (Z.of_nat (List.length xs)) xs). split; [apply in_elt|]. split; [reflexivity|apply arr_sound].
    + destruct (IH _ L) as (y & A & B). exists y. split; [apply in_or_app; left; exact A|exact B].
  - intros pre post l d n N l' [<-|[]]. exists (RdSpace l (S d) n). split; [apply in_elt|]. split; [reflexivity|apply space_sound; exact N].
  - intros pre post l d xs bytes n rest ls _ N _ IH l' [<-|L].
    + exists (RdArr l (S d) (Z.of_nat (List.length xs)) xs). split; [apply in_elt|]. split; [reflexivity|apply arr_sound].
    + destruct (IH _ L) as (y & A & B). exists y. split; [apply in_or_app; left; exact A|exact B].
  - intros ds d l [].
  - intros ds d x xs i is l1 l2 _ IH1 _ IH2 l L. apply in_app_or in L. destruct L; auto.
Qed.
Lemma labels_inj ds : NoDup (labelsR ds) -> forall y z, In y ds -> In z ds -> labelR y = labelR z -> y = z.
Proof.
  induction ds as [|d ds IH]; intros ND y z Y Z E; [destruct Y|]. cbn [labelsR map] in ND. inversion ND as [|? ? N ND']; subst.
  destruct Y as [->|Y], Z as [->|Z]; [reflexivity| | |auto].
  - destruct N. rewrite E. apply in_map. exact Z.
  - destruct N. rewrite <- E. apply in_map. exact Y.
Qed.
Lemma upto_nodup l n : NoDup (map (Z.add l) (upto n)).
Proof.
  unfold upto. rewrite map_map. apply FinFun.Injective_map_NoDup; [intros a b E; lia|apply seq_NoDup].
Qed.
(* The arrays so defined are, in memory, arrays as the checks of C69 take them: the length and
   the elements, wherever the C compiler puts them *)
Theorem C72_checked (addr : rval -> Z) (t : Z) (n : nat) (ds : list rdef) (x : rval) (i : init) (ls : list Z) (l : Z) :
  holdsR t ds n x i ls -> Permutation ls (labelsR ds) -> labelsR ds = map (Z.add l) (upto (List.length ds)) ->
  forall y a, In y ds -> arrayOf addr t y = Some a -> alen a < 2 ^ 31 -> exists m, bytesOf addr t y = Some m /\ lays a m.
Proof.
  intros H P E y a Y A L. assert (In (labelR y) ls) as IN by (apply (Permutation_in _ (Permutation_sym P)); apply in_map; exact Y).
  destruct (holds_sound addr t _ _ _ _ _ H _ IN) as (z & Z & EZ & S). assert (z = y) as -> by (apply (labels_inj ds); [rewrite E; apply upto_nodup|assumption..]).
  exact (S a A L).
Qed.
Print Assumptions C72_checked.

(* ==== strings ==== *)
Lemma fits_len its : forall p, LexSpec.fits p its -> p + Z.of_nat (List.length its) <= 128.
Proof.
  induction its as [|x its IH]; intros p F; cbn [LexSpec.fits List.length] in *; [lia|]. destruct F as [_ F]. apply IH in F. destruct x; cbn [spelling_size] in F; lia.
Qed.
Lemma oct_pos c : In c octals -> 0 <= dec_of c.
Proof.
  intros I. assert (T : forallb (fun c => 0 <=? dec_of c) octals = true) by (vm_compute; reflexivity). rewrite forallb_forall in T. apply Z.leb_le. exact (T c I).
Qed.
(* A string constant is a char array of its bytes (C05) and a 0, with their number; esc is what
   C takes backslash-c to mean *)
Theorem C72_string (s : lx) (its : list sitem) (r : list Z) (lab : Z) :
  cur s = [34] ++ src_items its ++ [34] ++ r -> items_wf its -> LexSpec.fits 0 its ->
  exists s' w, lxGetTok s = LOk (LxSTRING, s') /\ cur s' = r /\
    strTextR lab (val s') (str s') =
      codes "static _CA _cmm_" ++ dec lab ++ codes "S={" ++ dec (Z.of_nat (List.length its) + 1) ++ codes ",{""" ++ w ++ codes """}};" ++ [10] /\
    forall esc, (forall c, 0 <= esc c < 256) ->
      spelled esc w = map (item_byte esc) its /\
      lays (Arr KChar (map (item_byte esc) its ++ [0])) (object KChar (Z.of_nat (List.length its) + 1) (spelled esc w ++ [0])).
Proof.
  intros C W F. destruct (C05_string s its r C W F) as (s' & A & B & _ & D & E). exists s', (str s'). split; [exact A|]. split; [exact B|]. split.
  - unfold strTextR, strLab. rewrite E. rewrite <- !app_assoc. reflexivity.
  - intros esc HE. split; [apply D|]. rewrite D.
    assert (FB : Forall (elem_ok KChar) (map (item_byte esc) its ++ [0])).
    { apply Forall_app. split; [|repeat constructor; cbn; lia]. apply Forall_map. clear - W HE. induction its as [|x its IH]; [constructor|]. destruct W as [WX W]. constructor; [|exact (IH W)].
      destruct x; cbn [item_wf item_byte elem_ok] in *; [lia|apply HE| |].
      - destruct WX as (_ & H & L & _). split; [|lia]. apply number_nonneg; [lia|]. intros c I. rewrite Forall_forall in H. exact (proj2 (proj2 (hex_ok c (H c I)))).
      - destruct WX as (_ & H & L & _). split; [|lia]. apply number_nonneg; [lia|]. intros c I. rewrite Forall_forall in H. exact (oct_pos c (H c I)). }
    replace (Z.of_nat (List.length its) + 1) with (Z.of_nat (List.length (map (item_byte esc) its ++ [0]))) by (rewrite app_length, map_length; cbn [List.length]; lia).
    apply object_lays; [exact FB|]. apply fits_len in F. rewrite app_length, map_length. cbn [List.length]. lia.
Qed.
Print Assumptions C72_string.

(* ==== declarations ==== *)
(* The header of a function, and a structure: static unless public, the C types of the entries
   of the name table (ctype, RtcDataSpec.v), in their order, with their names *)
Theorem C72_header (t : table) (idx : Z) (text : list Z) :
  (forall j, idx <= j <= idx + cntAt t idx -> 0 <= dimAt t j /\ (typeAt t j = TyDOTDOTDOT -> dimAt t j = 0)) ->
  typeAt t idx <> TyDOTDOTDOT -> 0 <= cntAt t idx -> protoTextR t idx = Some text ->
  exists w ws, text = cStatic (pubAt t idx) ++ w ++ nameAt t idx ++ codes "(" ++ between (codes ",") ws ++ codes ");" ++ [10] /\
    ctype (nameAt t) (typeAt t idx) (Z.to_nat (dimAt t idx)) w /\
    Forall2 (cdecl (nameAt t)) (entries t (idx + 1) (Z.to_nat (cntAt t idx))) ws.
Proof.
  intros D ND NC H. unfold protoTextR, funcDclR, globDclR in H.
  destruct (typeDclR t (negb (pubAt t idx)) (typeAt t idx) (dimAt t idx) false) as [a|] eqn:A; [|discriminate H].
  destruct (paramsTextR t (idx + 1) (Z.to_nat (cntAt t idx))) as [b|] eqn:B; [|discriminate H]. cbn [CCode.cat] in H. injection H as <-.
  destruct (D idx ltac:(lia)) as [D1 D2]. destruct (type_ok t _ _ _ _ D1 D2 A) as (u & -> & C).
  replace (typeAt t idx =? TyDOTDOTDOT) with false in C by (symmetry; apply Z.eqb_neq; exact ND).
  assert (K : forall j, idx + 1 <= j < idx + 1 + Z.of_nat (Z.to_nat (cntAt t idx)) -> dimOk t j) by (intros j J; apply D; lia).
  destruct (params_ok t _ _ _ K B) as (ws & -> & F). exists u, ws. split; [|split; assumption].
  unfold cStatic. destruct (pubAt t idx); cbn [negb]; rewrite <- !app_assoc; do 3 apply f_equal; cbn [app]; rewrite <- !app_assoc; reflexivity.
Qed.
Print Assumptions C72_header.
Theorem C72_struct (t : table) (idx : Z) (text : list Z) :
  (forall j, idx < j <= idx + cntAt t idx -> 0 <= dimAt t j /\ typeAt t j <> TyDOTDOTDOT) -> 0 <= cntAt t idx -> strucTextR t idx = Some text ->
  exists ws, text = codes "typedef struct _" ++ nameAt t idx ++ codes " " ++ nameAt t idx ++ codes ";" ++ [10] ++
      codes "struct _" ++ nameAt t idx ++ codes " {" ++ [10] ++ flat_map (fun w => w ++ codes ";" ++ [10]) ws ++ codes "};" ++ [10] /\
    Forall2 (cdecl (nameAt t)) (entries t (idx + 1) (Z.to_nat (cntAt t idx))) ws.
Proof.
  intros D NC H. unfold strucTextR in H. destruct (membersTextR t (idx + 1) (Z.to_nat (cntAt t idx))) as [b|] eqn:B; [|discriminate H]. cbn [CCode.cat] in H. assert (some_inj : forall a b : list Z, Some a = Some b -> a = b) by (intros a0 b0 E; injection E as E; exact E). apply some_inj in H. subst text.
  assert (K : forall j, idx + 1 <= j < idx + 1 + Z.of_nat (Z.to_nat (cntAt t idx)) -> dimOk t j /\ typeAt t j <> TyDOTDOTDOT).
  { intros j J. destruct (D j ltac:(lia)) as [A C]. split; [split; [exact A|intros E; contradiction]|exact C]. }
  destruct (members_ok t _ _ _ K B) as (ws & -> & F). exists ws. split; [|exact F]. rewrite <- !app_assoc. reflexivity.
Qed.
Print Assumptions C72_struct.

(* a variable without an initial value *)
Theorem C72_variable (t : table) (idx : Z) (text : list Z) :
  0 <= dimAt t idx -> typeAt t idx <> TyDOTDOTDOT -> bssTextR t idx = Some text ->
  exists w, text = cStatic (pubAt t idx) ++ w ++ nameAt t idx ++ codes ";" ++ [10] /\ ctype (nameAt t) (typeAt t idx) (Z.to_nat (dimAt t idx)) w.
Proof.
  intros D ND H. unfold bssTextR, globDclR in H.
  destruct (typeDclR t (negb (pubAt t idx)) (typeAt t idx) (dimAt t idx) false) as [a|] eqn:A; [|discriminate H]. cbn [CCode.cat] in H. injection H as <-.
  destruct (type_ok t _ _ _ _ D (fun E => match ND E with end) A) as (u & -> & C).
  replace (typeAt t idx =? TyDOTDOTDOT) with false in C by (symmetry; apply Z.eqb_neq; exact ND).
  exists u. split; [|exact C]. unfold cStatic. destruct (pubAt t idx); cbn [negb]; rewrite <- !app_assoc; reflexivity.
Qed.
Print Assumptions C72_variable.

(* ==== cases ==== *)
(* the state of the parser at the initialiser of the variable declared last in a file that
   ends with it, and the table then: what getProgC of CFile.v does before it reads it *)
Definition atInit (file : list Z) : option gs :=
  match lexAll file with
  | LOk l =>
    (fix go (n : nat) (g : gs) : option gs :=
       match n with
       | O => None
       | S n =>
         match gGetType (wScope g ScPROT) with
         | POk g1 =>
           match getName false false g1 with
           | POk (_, g2) => gIsTok cEQ (wScope (wNt g2 (ntSetScope (gnt g2) (ntGetSize (gnt g2) - 1) ScCOMM)) ScCOMM) 
           | _ => match getProg true false g with POk g' => go n g' | _ => None end
           end
         | _ => match getProg true false g with POk g' => go n g' | _ => None end
         end
       end) 10%nat (gInit l)
  | _ => None
  end.
Definition C72_src : list Z := codes "struct X {int n; char[] s;}; X[][] t = {{{1,""a""},null},array(2)};".
Definition C72_g : gs := Eval vm_compute in match atInit C72_src with Some g => g | None => gInit [] end.
Example C72_ex_at : atInit C72_src = Some C72_g. Proof. vm_compute. reflexivity. Qed.
Definition C72_t : table := Eval vm_compute in gnt C72_g.
Definition C72_d : dat := Eval vm_compute in match readInit C72_g with POk (d, _) => d | _ => DNull end.
Definition C72_g' : gs := Eval vm_compute in match readInit C72_g with POk (_, g) => g | _ => C72_g end.
Definition C72_idx : Z := Eval vm_compute in ntGetSize C72_t - 1.
Definition C72_i : init := Eval vm_compute in hd (IWord 0) (inits C72_d).
Definition C72_ds : list rdef := [RdObj 4 [RvNum 1; RvStr 0]; RdArr 5 1 2 [RvTmp 4; RvNum 0]; RdSpace 6 1 2; RdArr 7 2 2 [RvTmp 5; RvTmp 6]].
Example C72_ex_read : readInit C72_g = POk (C72_d, C72_g') /\ inits C72_d = [C72_i] /\ curType C72_g = typeAt C72_t C72_idx /\ curDim C72_g = 2 /\ dimAt C72_t C72_idx = 2.
Proof. split; [vm_compute; reflexivity|]. split; [vm_compute; reflexivity|]. split; [vm_compute; reflexivity|]. split; vm_compute; reflexivity. Qed.
Definition C72_out : list Z := codes "static X _cmm_4T={1,&_cmm_0S};
static _RA _cmm_5T={2,{&_cmm_4T,0}};
static _RA _cmm_6T={2,{[1]=0}};
static _RA _cmm_7T={2,{&_cmm_5T,&_cmm_6T}};
static _RA *t=&_cmm_7T;
".
Example C72_ex_text : genDataR C72_t C72_idx (renD (fun _ => 0) C72_d) 4 = Some (C72_out, 8) /\
  C72_out = flat_map (rdText (nameAt C72_t) (typeAt C72_t C72_idx)) C72_ds ++ rVar (nameAt C72_t) (pubAt C72_t C72_idx) (typeAt C72_t C72_idx) 2 (nameAt C72_t C72_idx) (RvTmp 7).
Proof. split; vm_compute; reflexivity. Qed.
Example C72_ex_plain : typeAt C72_t C72_idx <> TyVOID /\ plain (typeAt C72_t C72_idx) 2 C72_i.
Proof.
  change (typeAt C72_t C72_idx) with 0. split; [discriminate|]. unfold C72_i.
  change false with (byteType 0 && (2 =? 1)%nat) at 1. apply (P_list 0 1); [discriminate|]. constructor; [|constructor; [|constructor]].
  - change false with (byteType 0 && (1 =? 1)%nat) at 1. apply (P_list 0 0); [discriminate|]. constructor; [|constructor; [apply P_null|constructor]]. apply P_struct; [lia|]. repeat constructor.
  - change false with (byteType 0 && (List.length [2] =? 1)%nat) at 1. apply (P_array 0 0); [discriminate|cbn; lia|repeat constructor].
Qed.
Example C72_ex_string : strTextR 3 4 (codes "abc") = codes "static _CA _cmm_3S={4,{""abc""}};" ++ [10] /\
  exists s', lxGetTok (at_text (text """a\x62\n"";")) = LOk (LxSTRING, s') /\ val s' = 4 /\ str s' = codes "a\142\n".
Proof. split; [vm_compute; reflexivity|]. eexists. split; [vm_compute; reflexivity|]. split; vm_compute; reflexivity. Qed.
Example C72_ex_variable : bssTextR C72_t C72_idx = Some (codes "static _RA *t;" ++ [10]) /\ dimAt C72_t C72_idx = 2 /\ typeAt C72_t C72_idx = 0.
Proof. split; [vm_compute; reflexivity|]. split; vm_compute; reflexivity. Qed.
Definition C72_t2 : table := Eval vm_compute in match pieces true false (codes "struct X {int n; char[] s; X next;}; public X f(int[][] a, void[] b, boolean c, ...);") with
  | Some ps => match nth_error ps 1 with Some (PProto t _) => t | _ => [] end | None => [] end.
Example C72_ex_decl :
  protoTextR C72_t2 4 = Some (codes "X *f(_RA *a,void *b,char c,...);" ++ [10]) /\
  strucTextR C72_t2 0 = Some (codes "typedef struct _X X;" ++ [10] ++ codes "struct _X {" ++ [10] ++ codes "int n;" ++ [10] ++ codes "_CA *s;" ++ [10] ++ codes "X *next;" ++ [10] ++ codes "};" ++ [10]).
Proof. split; vm_compute; reflexivity. Qed.
Example C72_ex_decl_hyps : cntAt C72_t2 4 = 4 /\ cntAt C72_t2 0 = 3 /\
  forallb (fun j => (0 <=? dimAt C72_t2 j) && (negb (typeAt C72_t2 j =? TyDOTDOTDOT) || (dimAt C72_t2 j =? 0))) (map Z.of_nat (seq 0 9)) = true /\ typeAt C72_t2 8 = TyDOTDOTDOT.
Proof. split; [vm_compute; reflexivity|]. split; [vm_compute; reflexivity|]. split; vm_compute; reflexivity. Qed.

(* A global variable of type void[] can be given storage with array(3): the compiler makes three
   words, the translator with run-time checks an object of type void, which C does not have
   (cCode.c:101); the one without checks an array of void *)
Definition C72v_src : list Z := codes "void[] p = array(3);".
Definition C72v_g : gs := Eval vm_compute in match atInit C72v_src with Some g => g | None => gInit [] end.
Definition C72v_d : dat := Eval vm_compute in match readInit C72v_g with POk (d, _) => d | _ => DNull end.
Definition C72v_g' : gs := Eval vm_compute in match readInit C72v_g with POk (_, g) => g | _ => C72v_g end.
Theorem C72_void_refuted : exists file g d g',
  (match compile true false file with COut _ => True | _ => False end) /\ atInit file = Some g /\ readInit g = POk (d, g') /\
  genDataR (gnt g') (ntGetSize (gnt g') - 1) d 0 =
    Some (codes "static void _cmm_0T={3,{[2]=0}};" ++ [10] ++ codes "static void *p=&_cmm_0T;" ++ [10], 1).
Proof.
  exists C72v_src, C72v_g, C72v_d, C72v_g'. split; [vm_compute; exact I|]. split; [vm_compute; reflexivity|]. split; vm_compute; reflexivity.
Qed.
Print Assumptions C72_void_refuted.
