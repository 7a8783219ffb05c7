(* The pieces of text of the C translator: names of strings and temporaries. *)
From Coq Require Import ZArith Bool Lia String Ascii List Permutation.
From Verif Require Import Lexer NameTable SyTree OpTree OptLabs VM VmCode Parser ParserStmt ParseSpec ParseLabs ProgSpec ProgData ProgInv ProgTop DataSpec DataProofs DataParse CCode CFile CDataSpec CDataProofs CFileSpec TextGrow.
Import ListNotations.
Open Scope Z_scope.

(* ---- numbers ---- *)
Lemma upto_labSeq n : upto n = labSeq 0 n.
Proof.
  unfold upto. change 0 with (Z.of_nat 0). generalize 0%nat as k. induction n as [|n IH]; intros k; [reflexivity|]. cbn [seq map labSeq].
  rewrite (IH (S k)). do 2 f_equal. lia.
Qed.
(* the strings l+1, l+2, .. *)
Fixpoint numbered (l : Z) (ss : list (list Z)) : list (Z * list Z) :=
  match ss with [] => [] | s :: r => (l + 1, s) :: numbered (l + 1) r end.
Lemma strsOf_strOut ss : forall l, strsOf (strOut l ss) = numbered l ss.
Proof. induction ss as [|s ss IH]; intros l; [reflexivity|]. cbn [strOut strsOf numbered]. f_equal. apply IH. Qed.
Lemma numbered_len ss : forall l, List.length (numbered l ss) = List.length ss.
Proof. induction ss as [|s ss IH]; intros l; [reflexivity|]. cbn [numbered List.length]. f_equal. apply IH. Qed.
Lemma rank_at ss : forall l k j s, nth_error ss j = Some s -> rank (numbered l ss) k (l + 1 + Z.of_nat j) = k + Z.of_nat j.
Proof.
  induction ss as [|a ss IH]; intros l k [|j] s H; try discriminate H; cbn [numbered rank].
  - rewrite Z.add_0_r, Z.eqb_refl. lia.
  - replace (l + 1 =? l + 1 + Z.of_nat (S j)) with false by (symmetry; apply Z.eqb_neq; lia).
    replace (l + 1 + Z.of_nat (S j)) with (l + 1 + 1 + Z.of_nat j) by lia. rewrite (IH _ _ _ _ H). lia.
Qed.
Lemma defines_at ss : forall l k j s, nth_error ss j = Some s -> In (PStr (k + Z.of_nat j) s) (defines (numbered l ss) k).
Proof.
  induction ss as [|a ss IH]; intros l k [|j] s H; try discriminate H; cbn [numbered defines].
  - injection H as ->. left. f_equal. lia.
  - right. replace (k + Z.of_nat (S j)) with (k + 1 + Z.of_nat j) by lia. exact (IH _ _ _ _ H).
Qed.
Lemma defines_str ss : forall l k, flat_map definesStr (defines (numbered l ss) k) = labSeq k (List.length ss).
Proof. induction ss as [|a ss IH]; intros l k; [reflexivity|]. cbn [numbered defines flat_map definesStr app List.length labSeq]. f_equal. apply IH. Qed.
Lemma defines_tmp ss : forall l k, flat_map definesTmp (defines (numbered l ss) k) = [].
Proof. induction ss as [|a ss IH]; intros l k; [reflexivity|]. cbn [numbered defines flat_map definesTmp app]. apply IH. Qed.
Lemma defines_is ss : forall l k p, In p (defines (numbered l ss) k) -> exists k' s, p = PStr k' s.
Proof. induction ss as [|a ss IH]; intros l k p H; [destruct H|]. cbn [numbered defines] in H. destruct H as [<-|H]; [eauto|exact (IH _ _ _ H)]. Qed.

(* ---- data: numbers and strings in all cases ---- *)
Section Data.
Variable vt : Z.
Lemma array0_consec d : forall dim cnt l c ln l', array0 vt dim d cnt l = Some (c, ln, l') -> consec l c l' /\ flat_map defStrs c = [].
Proof.
  induction d as [|v|i|s|lv IH1 rv IH2|d0 IH r|d0 IH r]; intros dim cnt l c ln l' H; cbn [array0] in H; try discriminate H.
  - injection H as <- <- <-. destruct (spaces_ok vt dim v (Z.to_nat cnt) l) as [_ B]. split; [split; rewrite spaces_len; [exact B|lia]|].
    clear. revert l. induction (Z.to_nat cnt) as [|n IH]; intros k; [reflexivity|]. exact (IH _).
  - destruct rv as [|size| | | | |]; try discriminate H. destruct (array0 vt (dim - 1) lv (cnt * size) l) as [((c1, ln1), l1)|] eqn:G; [|discriminate H]. injection H as <- <- <-.
    destruct (IH1 _ _ _ _ _ _ G) as [A B]. split.
    + apply (consec_app _ _ l1); [exact A|]. split; rewrite ptrArrays_len; [apply ptrArrays_labels|lia].
    + rewrite flat_map_app, B. cbn [app]. generalize ln1 l1. induction (Z.to_nat cnt) as [|n IH]; intros k m; [reflexivity|]. cbn [ptrArrays flat_map]. rewrite IH, app_nil_r.
      unfold ptrArray. cbn [defStrs]. generalize k. induction (Nat.max 1 (Z.to_nat size)) as [|q IHq]; intros w; [reflexivity|]. exact (IHq _).
Qed.
Lemma list2_strs d : forall dim xs, list2 vt dim d = Some xs -> incl (flat_map itemStrs xs) (strsD d).
Proof.
  induction d as [|v|i|s|a IH1 b IH2|x IH r|x IH r]; intros dim xs H; cbn [list2] in H; try discriminate H; try (injection H as <-; try apply incl_nil_l; apply incl_refl).
  destruct (list2 vt dim a) as [x|] eqn:A; [|discriminate H]. destruct (list2 vt dim b) as [y|] eqn:B; [|discriminate H]. injection H as <-.
  rewrite flat_map_app. cbn [strsD]. apply incl_app_app; [exact (IH1 _ _ A)|exact (IH2 _ _ B)].
Qed.
Lemma list1_consec d : forall dim l c d' l', list1 vt dim d l = Some (c, d', l') -> consec l c l' /\ incl (flat_map defStrs c) (strsD d) /\ strsD d' = strsD d.
Proof.
  induction d as [|v|i|s|a IH1 b IH2|x IH r|x IH r]; intros dim l c d' l' H; cbn [list1] in H; try discriminate H.
  - injection H as <- <- <-. split; [split; [reflexivity|cbn [length]; lia]|]. split; [apply incl_nil_l|reflexivity].
  - injection H as <- <- <-. split; [split; [reflexivity|cbn [length]; lia]|]. split; [apply incl_nil_l|reflexivity].
  - destruct (list1 vt dim a l) as [((c1, a'), l1)|] eqn:A; [|discriminate H]. destruct (list1 vt dim b l1) as [((c2, b'), l2)|] eqn:B; [|discriminate H]. injection H as <- <- <-.
    destruct (IH1 _ _ _ _ _ A) as (A1 & A2 & A3). destruct (IH2 _ _ _ _ _ B) as (B1 & B2 & B3).
    split; [exact (consec_app _ _ _ _ _ A1 B1)|]. cbn [strsD]. rewrite flat_map_app, A3, B3. split; [apply incl_app_app; assumption|reflexivity].
  - destruct (list1 vt (dim - 1) x l) as [((c1, x'), l1)|] eqn:A; [|discriminate H]. destruct (list2 vt dim x') as [xs|] eqn:B; [|discriminate H]. injection H as <- <- <-.
    destruct (IH _ _ _ _ _ A) as (A1 & A2 & A3). split; [|split].
    + apply (consec_app _ _ _ _ _ A1). split; [destruct (0 <? dim); reflexivity|reflexivity].
    + rewrite flat_map_app. cbn [strsD]. apply incl_app; [exact A2|]. apply list2_strs in B. rewrite A3 in B.
      destruct (0 <? dim); cbn [flat_map defStrs]; rewrite app_nil_r; exact B.
    + exact A3.
  - destruct (array0 vt dim x 1 l) as [((c1, ln), l1)|] eqn:A; [|discriminate H]. injection H as <- <- <-. destruct (array0_consec _ _ _ _ _ _ _ A) as [B C].
    split; [exact B|]. split; [rewrite C; apply incl_nil_l|reflexivity].
Qed.
Lemma dataC_consec dim d l c x l' : dataC vt dim d l = Some (c, x, l') -> consec l c l' /\ incl (flat_map defStrs c ++ itemStrs x) (strsD d).
Proof.
  destruct d as [|v|i|s|a b|y r|y r]; cbn [dataC]; intros H; try discriminate H.
  - injection H as <- <- <-. split; [split; [reflexivity|cbn [length]; lia]|apply incl_nil_l].
  - injection H as <- <- <-. split; [split; [reflexivity|cbn [length]; lia]|apply incl_nil_l].
  - injection H as <- <- <-. split; [split; [reflexivity|cbn [length]; lia]|apply incl_refl].
  - destruct (list1 vt dim (DList y r) l) as [((c1, d'), l1)|] eqn:A; [|discriminate H]. destruct d'; try discriminate H. injection H as <- <- <-.
    destruct (list1_consec _ _ _ _ _ _ A) as (A1 & A2 & _). split; [exact A1|]. rewrite app_nil_r. exact A2.
  - destruct (array0 vt dim y 1 l) as [((c1, ln), l1)|] eqn:A; [|discriminate H]. injection H as <- <- <-. destruct (array0_consec _ _ _ _ _ _ _ A) as [B C].
    split; [exact B|]. rewrite C. apply incl_nil_l.
Qed.
End Data.

(* ---- other numbers for the strings ---- *)
Section Ren.
Variable f : Z -> Z.
Lemma renD_strs d : strsD (renD f d) = map f (strsD d).
Proof. induction d; cbn [renD strsD]; try reflexivity; rewrite ?map_app; congruence. Qed.
Lemma renD_dims d : dimsOf (renD f d) = dimsOf d.
Proof. induction d as [| | | |a IHa b IHb| |]; cbn [renD dimsOf]; try reflexivity. destruct b; try reflexivity. cbn [renD]. f_equal. exact IHa. Qed.
Lemma renD_inits d : inits (renD f d) = map (renumber f) (inits d).
Proof.
  induction d; cbn [renD inits map renumber]; try reflexivity.
  - rewrite map_app. congruence.
  - rewrite IHd. reflexivity.
  - unfold arrFlag. rewrite renD_dims. reflexivity.
Qed.
Lemma inits_strs d : incl (flat_map initStrs (inits d)) (strsD d).
Proof.
  induction d; cbn [inits flat_map initStrs strsD]; try (apply incl_nil_l); try apply incl_refl.
  - rewrite flat_map_app. apply incl_app_app; assumption.
  - rewrite app_nil_r. exact IHd.
Qed.
Lemma renE_refs e : flat_map (fun r => match r with RStr l => [l] | _ => [] end) (refsE (renE f e)) = map f (flat_map (fun r => match r with RStr l => [l] | _ => [] end) (refsE e)).
Proof.
  induction e; cbn [renE refsE flat_map app map]; try reflexivity; try assumption.
  - match goal with k : leaf |- _ => destruct k; reflexivity end.
  - rewrite !flat_map_app, map_app. congruence.
Qed.
Lemma renS_refs s : bodyStrs (renS f s) = map f (bodyStrs s).
Proof.
  unfold bodyStrs. induction s; cbn [renS refsS]; try reflexivity; rewrite ?flat_map_app, ?map_app, ?renE_refs; congruence.
Qed.
Lemma fieldValue_ren i : fieldValue i -> fieldValue (renumber f i).
Proof. intros [v|l]; constructor. Qed.
Lemma Forall_ren (P : init -> Prop) xs : (forall i, P i -> P (renumber f i)) -> Forall P xs -> Forall P (map (renumber f) xs).
Proof. intros H F. induction F; constructor; auto. Qed.
Lemma plain_ren t : forall n i, plain t n i -> plain t n (renumber f i).
Proof.
  induction n as [|n IH]; intros i P; inversion P; subst; cbn [renumber]; try (constructor; assumption); try (constructor; reflexivity).
  - constructor; [assumption|]. apply Forall_ren; [exact fieldValue_ren|assumption].
  - constructor; [|apply Forall_ren; assumption]. intros E. apply map_eq_nil in E. contradiction.
Qed.
End Ren.

(* ---- what is known of the pieces printed so far ---- *)
Section Inv.
Variables opt krn : bool.
Notation right := (right opt krn).
Definition literal (ss : list (list Z)) (l : Z) (s : list Z) : Prop := 1 <= l /\ nth_error ss (Z.to_nat (l - 1)) = Some s.
Record XI (ps : list cpiece) (n m : Z) : Prop := MkX {
  x_str : flat_map definesStr ps = labSeq 0 (Z.to_nat n) /\ 0 <= n;
  x_txt : Forall (fun p => pieceText p <> None) ps;
  x_tmp : flat_map definesTmp ps = labSeq 0 (Z.to_nat m) /\ 0 <= m;
  x_ok : forall a p b, ps = a ++ p :: b -> right a p /\ incl (usesStr p) (flat_map definesStr a) }.
Lemma split_snoc {A} (l : list A) y a p b : l ++ [y] = a ++ p :: b -> (exists b', l = a ++ p :: b') \/ (a = l /\ p = y /\ b = []).
Proof.
  destruct b as [|z b] using rev_ind; intros E.
  - apply app_inj_tail in E. destruct E as [-> ->]. right. auto.
  - rewrite app_comm_cons, app_assoc in E. apply app_inj_tail in E. destruct E as [-> _]. left. eauto.
Qed.
Lemma XI_snoc ps n m p n' m' : XI ps n m -> pieceText p <> None -> right ps p -> incl (usesStr p) (flat_map definesStr ps) ->
  definesStr p = labSeq n (Z.to_nat (n' - n)) -> n <= n' -> definesTmp p = labSeq m (Z.to_nat (m' - m)) -> m <= m' -> XI (ps ++ [p]) n' m'.
Proof.
  intros [[A1 A2] TX [B1 B2] C] TP R U D1 D2 E1 E2. constructor.
  - split; [|lia]. rewrite flat_map_app, A1. cbn [flat_map]. rewrite app_nil_r, D1. replace (Z.to_nat n') with (Z.to_nat n + Z.to_nat (n' - n))%nat by lia. rewrite labSeq_app. do 2 f_equal. lia.
  - apply Forall_app. split; [exact TX|constructor; [exact TP|constructor]].
  - split; [|lia]. rewrite flat_map_app, B1. cbn [flat_map]. rewrite app_nil_r, E1. replace (Z.to_nat m') with (Z.to_nat m + Z.to_nat (m' - m))%nat by lia. rewrite labSeq_app. do 2 f_equal. lia.
  - intros a q b E. destruct (split_snoc _ _ _ _ _ E) as [(b' & ->)|(-> & -> & ->)]; [exact (C _ _ _ eq_refl)|split; assumption].
Qed.
Lemma XI_defines ss' : forall l ps n m, XI ps n m -> XI (ps ++ defines (numbered l ss') n) (n + Z.of_nat (List.length ss')) m.
Proof.
  induction ss' as [|s ss' IH]; intros l ps n m X; cbn [numbered defines List.length].
  - rewrite app_nil_r. replace (n + Z.of_nat 0) with n by lia. exact X.
  - change (PStr n s :: defines (numbered (l + 1) ss') (n + 1)) with ([PStr n s] ++ defines (numbered (l + 1) ss') (n + 1)). rewrite app_assoc.
    replace (n + Z.of_nat (S (List.length ss'))) with (n + 1 + Z.of_nat (List.length ss')) by lia. apply IH.
    apply (XI_snoc _ _ _ _ _ _ X); [discriminate|exact I|apply incl_nil_l| |lia| |lia]; cbn [definesStr definesTmp].
    + replace (n + 1 - n) with 1 by lia. reflexivity.
    + rewrite Z.sub_diag. reflexivity.
Qed.

(* the state of the parser and of the translator *)
Definition lits (ss : list (list Z)) (g : gs) : Prop := outp (ge g) = strOut 0 ss /\ clab (ge g) = Z.of_nat (List.length ss).
Definition XS (x : cst) : Prop := XI (cps x) (nstr x) (ntmp x).
Lemma lits_strs ss g g' : lits ss g -> strs (ge g) (ge g') -> exists ss', lits (ss ++ ss') g' /\ outp (ge g') = outp (ge g) ++ strOut (clab (ge g)) ss'.
Proof.
  intros [A B] (_ & ss' & C & D). exists ss'. split; [|exact D]. split.
  - rewrite D, A, strOut_app, B. reflexivity.
  - rewrite C, B, app_length. lia.
Qed.
Lemma strOut_at ss : forall k j s, nth_error ss j = Some s -> exists a b, strOut k ss = a ++ ALab (k + 1 + Z.of_nat j) :: AStr s :: b.
Proof.
  induction ss as [|x ss IH]; intros k [|j] s H; try discriminate H; cbn [strOut].
  - injection H as ->. exists [], (strOut (k + 1) ss). rewrite Z.add_0_r. reflexivity.
  - destruct (IH (k + 1) j s H) as (a & b & E). exists (ALab (k + 1) :: AStr x :: a), b. rewrite E. replace (k + 1 + Z.of_nat (S j)) with (k + 1 + 1 + Z.of_nat j) by lia. reflexivity.
Qed.
Lemma lits_given ss g l s : lits ss g -> literal ss l s -> given g l s.
Proof.
  intros [E _] [L N]. destruct (strOut_at _ 0 _ _ N) as (a & b & H). exists a, b. rewrite E, H. do 2 f_equal. f_equal. lia.
Qed.
(* the strings read are printed *)
Lemma putStrs_ok ss ss' g0 g x x' f : lits ss g0 -> lits (ss ++ ss') g -> outp (ge g) = outp (ge g0) ++ strOut (clab (ge g0)) ss' -> XS x ->
  putStrs g0 g x = (x', f) -> XS x' /\ inhib x' = inhib x /\
  (inhib x = false -> forall l, clab (ge g0) < l <= clab (ge g) -> exists s, given g l s /\ In (PStr (f l) s) (cps x')).
Proof.
  intros [_ L0] LG E X H. pose proof LG as [_ L1]. unfold putStrs in H. rewrite E, skipn_app, Nat.sub_diag in H.
  replace (skipn (List.length (outp (ge g0))) (outp (ge g0))) with (@nil asm) in H by (symmetry; apply skipn_all). cbn [skipn app] in H.
  rewrite strsOf_strOut in H. destruct (inhib x) eqn:IN.
  - injection H as <- <-. split; [exact X|]. split; [exact IN|discriminate].
  - injection H as <- <-. split; [|split; [reflexivity|]].
    + unfold XS. cbn [cps nstr ntmp]. rewrite numbered_len. apply XI_defines. exact X.
    + intros _ l B. rewrite L0, L1, app_length in B. set (j := Z.to_nat (l - 1 - Z.of_nat (List.length ss))).
      destruct (nth_error ss' j) as [s|] eqn:N; [|apply nth_error_None in N; unfold j in N; lia]. exists s. split.
      * apply (lits_given _ _ _ _ LG). split; [lia|]. rewrite nth_error_app2 by lia. replace (Z.to_nat (l - 1) - List.length ss)%nat with j by (unfold j; lia). exact N.
      * cbn [cps]. apply in_or_app. right. replace l with (clab (ge g0) + 1 + Z.of_nat j) by (unfold j; lia). rewrite (rank_at _ _ _ _ _ N). exact (defines_at _ _ _ _ _ N).
Qed.
Lemma put_ok x p : XS x -> (inhib x = false -> right (cps x) p /\ incl (usesStr p) (flat_map definesStr (cps x))) -> definesStr p = [] -> definesTmp p = [] -> ac (put x p) XS.
Proof.
  intros X R D1 D2. unfold put. destruct (inhib x) eqn:IN; [exact X|]. destruct (pieceText p) eqn:PT; [|exact I]. cbn [ac]. destruct (R eq_refl) as [R1 R2].
  apply (XI_snoc _ _ _ _ _ _ X ltac:(rewrite PT; discriminate) R1 R2); cbn [nstr ntmp]; rewrite ?Z.sub_diag; try assumption; lia.
Qed.
Lemma printed_uses g f ls a : printed g f ls a -> incl (map f ls) (flat_map definesStr a).
Proof. intros H y Y. apply in_map_iff in Y. destruct Y as (l & <- & L). destruct (H l L) as (s & _ & B). apply in_flat_map. exists (PStr (f l) s). split; [exact B|left; reflexivity]. Qed.
End Inv.
