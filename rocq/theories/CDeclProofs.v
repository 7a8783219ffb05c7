(* The printed definitions of initialised data (CFile.v) are read back as printed
   (CDeclSpec.v). *)
From Coq Require Import ZArith Bool Lia String Ascii List.
From Verif Require Import Lexer NameTable SyTree CCode CTree CLexProofs AsmSpec AsmRead Parser AsmText CFile CDeclSpec.
Import ListNotations.
Open Scope Z_scope.

(* letters, digits, underscore, minus, ampersand *)
Definition cleanCh (c : Z) : bool :=
  isDigit c || ((65 <=? c) && (c <=? 90)) || ((97 <=? c) && (c <=? 122)) || (c =? 95) || (c =? 45) || (c =? 38).
Definition clean (w : list Z) : Prop := forallb cleanCh w = true.
Lemma clean_app a b : clean a -> clean b -> clean (a ++ b).
Proof. unfold clean. intros. rewrite forallb_app. apply andb_true_intro. split; assumption. Qed.
Lemma clean_no w c : clean w -> cleanCh c = false -> ~ In c w.
Proof. intros W C H. unfold clean in W. rewrite forallb_forall in W. rewrite (W c H) in C. discriminate C. Qed.
Lemma dec_cases v : small v -> (exists d w, dec v = d :: w /\ forallb isDigit (d :: w) = true) \/ (exists d w, dec v = 45 :: d :: w /\ forallb isDigit (d :: w) = true).
Proof.
  intros S. destruct (Z_lt_dec v 0) as [L|L].
  - right. destruct (digits_dec (- v)) as (d & w & E & F & _); [lia|unfold small in *; lia|]. exists d, w. split; [|exact F].
    rewrite <- E. unfold dec. replace (v <? 0) with true by (symmetry; apply Z.ltb_lt; lia).
    replace (- v <? 0) with false by (symmetry; apply Z.ltb_ge; lia). reflexivity.
  - left. destruct (digits_dec v) as (d & w & E & F & _); [lia|unfold small in S; lia|]. exists d, w. split; assumption.
Qed.
Lemma digits_clean w : forallb isDigit w = true -> clean w.
Proof. unfold clean. rewrite !forallb_forall. intros H x X. unfold cleanCh. rewrite (H x X). reflexivity. Qed.
Lemma clean_dec v : small v -> clean (dec v).
Proof.
  intros S. destruct (dec_cases v S) as [(d & w & -> & F)|(d & w & -> & F)]; [apply digits_clean; exact F|].
  unfold clean. change (forallb cleanCh (45 :: d :: w)) with (forallb cleanCh (d :: w)). apply digits_clean. exact F.
Qed.
Lemma dec_head v : small v -> exists c r, dec v = c :: r /\ c <> 95 /\ c <> 38 /\ c <> 42.
Proof.
  intros S. destruct (dec_cases v S) as [(d & w & -> & F)|(d & w & -> & F)]; [|exists 45, (d :: w); repeat split; lia].
  exists d, w. cbn [forallb] in F. unfold isDigit in F. rewrite !andb_true_iff in F. repeat split; lia.
Qed.
Lemma clean_tmp l : small l -> clean (tmpLab l).
Proof. intros S. unfold tmpLab. apply clean_app; [reflexivity|]. apply clean_app; [apply clean_dec; exact S|reflexivity]. Qed.
Lemma clean_str l : small l -> clean (strLab l).
Proof. intros S. unfold strLab. apply clean_app; [reflexivity|]. apply clean_app; [apply clean_dec; exact S|reflexivity]. Qed.

Lemma strip_app p s : strip p (p ++ s) = Some s.
Proof. induction p as [|a p IH]; [reflexivity|]. cbn [app strip]. rewrite Z.eqb_refl. exact IH. Qed.
Lemma strip_no a p c r : c <> a -> strip (a :: p) (c :: r) = None.
Proof. intros N. cbn [strip]. destruct (Z.eqb_spec a c); [congruence|reflexivity]. Qed.
Lemma chop_app c s : chop c (s ++ [c]) = Some s.
Proof. unfold chop. rewrite last_last, Z.eqb_refl, removelast_last. reflexivity. Qed.
Lemma chop_no c d s : d <> c -> chop c (s ++ [d]) = None.
Proof. intros N. unfold chop. rewrite last_last. destruct (Z.eqb_spec d c); [congruence|reflexivity]. Qed.

Lemma num_tmp l : small l -> readNumbered 84 (tmpLab l) = Some l.
Proof.
  intros S. unfold readNumbered, tmpLab. rewrite strip_app. cbn [option_bind]. change (codes "T") with [84]. rewrite chop_app. cbn [option_bind].
  exact (proj1 (dec_read l S)).
Qed.
Lemma num_str l : small l -> readNumbered 83 (strLab l) = Some l /\ readNumbered 84 (strLab l) = None.
Proof.
  intros S. unfold readNumbered, strLab. rewrite strip_app. cbn [option_bind]. change (codes "S") with [83]. rewrite chop_app. rewrite chop_no by lia. cbn [option_bind].
  split; [exact (proj1 (dec_read l S))|reflexivity].
Qed.
Lemma num_dec c v : small v -> readNumbered c (dec v) = None.
Proof.
  intros S. destruct (dec_head v S) as (d & r & E & N & _). unfold readNumbered. rewrite E. change (codes "_cmm_") with (95 :: codes "cmm_"). rewrite strip_no by exact N. reflexivity.
Qed.
(* values that can be read: not the address of a function or variable *)
Definition readable (x : citem) : Prop :=
  match x with IcNum v => small v | IcStr l => small l | IcTmp _ l => small l | IcAddr _ => False end.
Lemma item_read nm x : readable x -> readItem (itemText nm x) = Some x.
Proof.
  intros R. unfold readItem. change (codes "&") with [38]. destruct x as [v|l|[|] l|i]; cbn [readable itemText] in *; try (exfalso; exact R).
  - pose proof (num_dec 84 v R) as A. pose proof (num_dec 83 v R) as B. destruct (dec_head v R) as (d & r & E & _ & N & _).
    rewrite E, strip_no by exact N. rewrite <- E, A, B. rewrite (proj1 (dec_read v R)). reflexivity.
  - destruct (num_str l R) as [A B]. rewrite A, B. reflexivity.
  - change (strip [38] (codes "&" ++ tmpLab l)) with (Some (tmpLab l)). cbv iota beta. rewrite num_tmp by exact R. reflexivity.
  - cbn [app]. rewrite (num_tmp l R). reflexivity.
Qed.
Lemma clean_item nm x : readable x -> clean (itemText nm x).
Proof.
  destruct x as [v|l|[|] l|i]; cbn [readable itemText]; intros R; try (exfalso; exact R).
  - apply clean_dec. exact R.
  - apply clean_str. exact R.
  - apply clean_app; [reflexivity|apply clean_tmp; exact R].
  - apply clean_tmp. exact R.
Qed.
Lemma readAll_map {A B C} (f : B -> option C) (g : A -> B) (h : A -> C) l : Forall (fun x => f (g x) = Some (h x)) l -> readAll f (map g l) = Some (map h l).
Proof. induction 1 as [|x l H F IH]; [reflexivity|]. cbn [map readAll]. rewrite H, IH. reflexivity. Qed.
Lemma cut_commas ws : ws <> [] -> Forall clean ws -> cut 44 (commas ws) = ws.
Proof.
  induction ws as [|w ws IH]; intros NE F; [contradiction|]. inversion F as [|? ? C F']; subst. destruct ws as [|w' ws]; cbn [commas].
  - apply cut_none. apply clean_no; [exact C|reflexivity].
  - change (codes ",") with [44]. cbn [app]. rewrite cut_app by (apply clean_no; [exact C|reflexivity]). f_equal. apply IH; [discriminate|exact F'].
Qed.
Lemma commas_no c ws : c <> 44 -> cleanCh c = false -> Forall clean ws -> ~ In c (commas ws).
Proof.
  intros N K. induction 1 as [|w ws C F IH]; cbn [commas]; [intros []|]. destruct ws; [apply clean_no; assumption|].
  change (codes ",") with [44]. intros H. apply in_app_or in H. destruct H as [H|H]; [exact (clean_no _ _ C K H)|]. apply in_app_or in H. destruct H as [H|H]; [|exact (IH H)].
  destruct H as [H|H]; [congruence|destruct H].
Qed.

(* a character that does not occur in a literal *)
Ltac lits := vm_compute; intuition discriminate.
Lemma no_app c (a b : list Z) : ~ In c a -> ~ In c b -> ~ In c (a ++ b).
Proof. intros A B H. apply in_app_or in H. tauto. Qed.
Lemma no_stars c n : c <> 42 -> ~ In c (repeat 42 n).
Proof. intros N H. apply repeat_spec in H. congruence. Qed.
Lemma no_one (c d : Z) : c <> d -> ~ In c [d].
Proof. intros N [H|[]]. congruence. Qed.
(* ==== lines ==== *)
Section Lines.
Variable t : table.
Variable vt : Z.
Variable ty : list Z.
Hypothesis tyText : typeText t vt = Some (ty ++ [32]).
Hypothesis tyClean : clean ty.
Let nm := nameAt t.

Definition smallDef (d : cdef) : Prop :=
  match d with
  | CSpace l _ n => small l /\ small n
  | CArr l _ xs | CObj l _ xs => small l /\ xs <> [] /\ Forall readable xs
  end.
Definition valsText (xs : list citem) : list Z := codes "={" ++ commas (map (itemText nm) xs) ++ codes "}".
Definition defTail (d : cdef) : list Z :=
  match d with
  | CSpace l _ n => tmpLab l ++ codes "[" ++ dec n ++ codes "]"
  | CArr l _ xs => tmpLab l ++ codes "[]" ++ valsText xs
  | CObj l _ xs => tmpLab l ++ valsText xs
  end.
Definition starsOf (d : cdef) : nat := match d with CSpace _ s _ | CArr _ s _ | CObj _ s _ => s end.
Definition defLine (d : cdef) : list Z := codes "static " ++ (ty ++ [32] ++ repeat 42 (starsOf d) ++ defTail d) ++ [59].
Lemma defText_line d : defText t vt d = Some (defLine d ++ [10]).
Proof.
  unfold defText, defLine. rewrite tyText. destruct d; cbn [CCode.cat starsOf defTail]; unfold valsText; rewrite <- ?app_assoc; reflexivity.
Qed.
Lemma nStars_repeat n r : (match r with 42 :: _ => False | _ => True end) -> nStars (repeat 42 n ++ r) = n.
Proof.
  intros H. induction n as [|n IH]; [|cbn [repeat app nStars]; rewrite IH; reflexivity]. cbn [repeat app].
  destruct r as [|c r]; [reflexivity|]. destruct c as [|p|p]; try reflexivity.
  do 6 (destruct p as [p|p|]; try reflexivity). destruct H.
Qed.
Lemma type_read n r : (match r with 42 :: _ => False | _ => True end) -> readType (ty ++ [32] ++ repeat 42 n ++ r) = Some (ty, n, r).
Proof.
  intros H. unfold readType. cbn [app]. rewrite upto_app by (apply clean_no; [exact tyClean|reflexivity]). cbn [option_bind].
  rewrite nStars_repeat by exact H. do 2 f_equal. clear. induction n as [|n IH]; [reflexivity|]. exact IH.
Qed.
Lemma tmp_head l r : match tmpLab l ++ r with 42 :: _ => False | _ => True end.
Proof. exact I. Qed.
Lemma vals_read xs : xs <> [] -> Forall readable xs -> readVals (codes "{" ++ commas (map (itemText nm) xs) ++ codes "}") = Some xs.
Proof.
  intros NE F. unfold readVals. rewrite strip_app. cbn [option_bind]. change (codes "}") with [125]. rewrite chop_app. cbn [option_bind].
  rewrite cut_commas.
  - rewrite (readAll_map readItem (itemText nm) (fun x => x)); [rewrite map_id; reflexivity|]. revert F. apply Forall_impl. intros x. apply item_read.
  - destruct xs; [contradiction|discriminate].
  - apply Forall_map. revert F. apply Forall_impl. intros x. apply clean_item.
Qed.
Lemma def_read d : smallDef d -> readDef (defLine d) = Some (ty, d).
Proof.
  intros S. unfold readDef, defLine. rewrite strip_app. cbn [option_bind]. rewrite chop_app. cbn [option_bind].
  destruct d as [l s n|l s xs|l s xs]; cbn [starsOf defTail smallDef] in *.
  - destruct S as [S1 S2]. rewrite upto_none.
    2:{ apply no_app; [apply clean_no; [exact tyClean|reflexivity]|]. apply no_app; [lits|]. apply no_app; [apply no_stars; lia|].
        apply no_app; [apply clean_no; [apply clean_tmp; exact S1|reflexivity]|]. apply no_app; [lits|]. apply no_app; [apply clean_no; [apply clean_dec; exact S2|reflexivity]|lits]. }
    rewrite type_read by apply tmp_head. cbn [option_bind]. change (codes "[") with [91]. cbn [app]. rewrite upto_app by (apply clean_no; [apply clean_tmp; exact S1|reflexivity]).
    rewrite num_tmp by exact S1. cbn [option_bind]. change (codes "]") with [93]. rewrite chop_app. cbn [option_bind]. rewrite (proj1 (dec_read n S2)). reflexivity.
  - destruct S as (S1 & NE & F). unfold valsText.
    replace (ty ++ [32] ++ repeat 42 s ++ tmpLab l ++ codes "[]" ++ codes "={" ++ commas (map (itemText nm) xs) ++ codes "}")
      with ((ty ++ [32] ++ repeat 42 s ++ tmpLab l ++ codes "[]") ++ 61 :: codes "{" ++ commas (map (itemText nm) xs) ++ codes "}") by (rewrite <- !app_assoc; reflexivity).
    rewrite upto_app.
    2:{ apply no_app; [apply clean_no; [exact tyClean|reflexivity]|]. apply no_app; [lits|]. apply no_app; [apply no_stars; lia|].
        apply no_app; [apply clean_no; [apply clean_tmp; exact S1|reflexivity]|]. cbn. lia. }
    rewrite type_read by apply tmp_head. cbn [option_bind]. change (codes "[]") with [91; 93]. rewrite upto_app by (apply clean_no; [apply clean_tmp; exact S1|reflexivity]).
    rewrite num_tmp by exact S1. cbn [option_bind]. rewrite vals_read by assumption. reflexivity.
  - destruct S as (S1 & NE & F). unfold valsText.
    replace (ty ++ [32] ++ repeat 42 s ++ tmpLab l ++ codes "={" ++ commas (map (itemText nm) xs) ++ codes "}")
      with ((ty ++ [32] ++ repeat 42 s ++ tmpLab l) ++ 61 :: codes "{" ++ commas (map (itemText nm) xs) ++ codes "}") by (rewrite <- !app_assoc; reflexivity).
    rewrite upto_app.
    2:{ apply no_app; [apply clean_no; [exact tyClean|reflexivity]|]. apply no_app; [lits|]. apply no_app; [apply no_stars; lia|].
        apply clean_no; [apply clean_tmp; exact S1|reflexivity]. }
    rewrite type_read by (pose proof (tmp_head l []) as X; rewrite app_nil_r in X; exact X). cbn [option_bind]. rewrite upto_none by (apply clean_no; [apply clean_tmp; exact S1|reflexivity]).
    rewrite num_tmp by exact S1. cbn [option_bind]. rewrite vals_read by assumption. reflexivity.
Qed.
Lemma defLine_nl d : smallDef d -> ~ In 10 (defLine d).
Proof.
  intros S. unfold defLine. apply no_app; [lits|]. apply no_app; [|lits].
  apply no_app; [apply clean_no; [exact tyClean|reflexivity]|]. apply no_app; [lits|]. apply no_app; [apply no_stars; lia|].
  assert (V : forall xs, Forall readable xs -> ~ In 10 (valsText xs)).
  { intros xs F. unfold valsText. apply no_app; [lits|]. apply no_app; [|lits]. apply commas_no; [lia|reflexivity|].
    apply Forall_map. revert F. apply Forall_impl. intros x. apply clean_item. }
  destruct d as [l s n|l s xs|l s xs]; cbn [defTail smallDef] in *.
  - destruct S as [S1 S2]. apply no_app; [apply clean_no; [apply clean_tmp; exact S1|reflexivity]|]. apply no_app; [lits|]. apply no_app; [apply clean_no; [apply clean_dec; exact S2|reflexivity]|lits].
  - destruct S as (S1 & NE & F). apply no_app; [apply clean_no; [apply clean_tmp; exact S1|reflexivity]|]. apply no_app; [lits|apply V; exact F].
  - destruct S as (S1 & NE & F). apply no_app; [apply clean_no; [apply clean_tmp; exact S1|reflexivity]|apply V; exact F].
Qed.
Definition linesText (ls : list (list Z)) : list Z := flat_map (fun l => l ++ [10]) ls.
Lemma defsText_lines ds : defsText t vt ds = Some (linesText (map defLine ds)).
Proof. induction ds as [|d ds IH]; [reflexivity|]. cbn [defsText]. rewrite defText_line, IH. cbn [CCode.cat map linesText flat_map]. reflexivity. Qed.
End Lines.
Lemma cut_lines ls : Forall (fun l => ~ In 10 l) ls -> cut 10 (linesText ls) = ls ++ [[]].
Proof.
  induction 1 as [|l ls N F IH]; [reflexivity|]. cbn [linesText flat_map]. fold (linesText ls). rewrite <- app_assoc. cbn [app]. rewrite cut_app by exact N. rewrite IH. reflexivity.
Qed.

(* ==== the data of a variable ==== *)
Section Var.
Variable t : table.
Variable idx : Z.
Variable ty : list Z.
Hypothesis tyText : typeText t (typeAt t idx) = Some (ty ++ [32]).
Hypothesis tyClean : clean ty.
Hypothesis notStatic : forall r, strip (codes "static ") (ty ++ 32 :: r) = None.
Hypothesis nmClean : clean (nameAt t idx).
Let s := stars (typeAt t idx) (dimAt t idx) false.
Definition varLine (x : citem) : list Z :=
  (if negb (pubAt t idx) then codes "static " else []) ++ (ty ++ [32] ++ repeat 42 s ++ nameAt t idx ++ codes "=" ++ itemText (nameAt t) x) ++ [59].
Lemma varText_line x : globDcl t idx <> None -> CCode.cat (globDcl t idx) (Some (codes "=" ++ itemText (nameAt t) x ++ codes ";" ++ AsmText.eol)) = Some (varLine x ++ [10]).
Proof.
  intros _. unfold globDcl, typeDcl, varLine. rewrite tyText. cbn [CCode.cat]. rewrite <- !app_assoc. reflexivity.
Qed.
Lemma name_head (r : list Z) : match nameAt t idx ++ 61 :: r with 42 :: _ => False | _ => True end.
Proof.
  pose proof (clean_no _ 42 nmClean eq_refl) as N. destruct (nameAt t idx) as [|c w]; [exact I|]. cbn [app].
  assert (c <> 42) by (intros ->; apply N; left; reflexivity). destruct c as [|p|p]; try exact I. do 6 (destruct p as [p|p|]; try exact I). lia.
Qed.
Lemma name_head0 : match nameAt t idx with 42 :: _ => False | _ => True end.
Proof.
  pose proof (clean_no _ 42 nmClean eq_refl) as N. destruct (nameAt t idx) as [|c w]; [exact I|].
  assert (c <> 42) by (intros ->; apply N; left; reflexivity). destruct c as [|p|p]; try exact I. do 6 (destruct p as [p|p|]; try exact I). lia.
Qed.
Lemma var_read x : readable x -> readVar (varLine x) = Some (negb (pubAt t idx), ty, s, nameAt t idx, x).
Proof.
  intros R. unfold readVar, varLine.
  assert (E : (match strip (codes "static ") ((if negb (pubAt t idx) then codes "static " else []) ++ (ty ++ [32] ++ repeat 42 s ++ nameAt t idx ++ codes "=" ++ itemText (nameAt t) x) ++ [59]) with
     | Some r => (true, r) | None => (false, (if negb (pubAt t idx) then codes "static " else []) ++ (ty ++ [32] ++ repeat 42 s ++ nameAt t idx ++ codes "=" ++ itemText (nameAt t) x) ++ [59]) end)
     = (negb (pubAt t idx), (ty ++ [32] ++ repeat 42 s ++ nameAt t idx ++ codes "=" ++ itemText (nameAt t) x) ++ [59])).
  { destruct (negb (pubAt t idx)); [rewrite strip_app; reflexivity|]. cbn [app]. rewrite <- app_assoc. cbn [app]. rewrite notStatic. reflexivity. }
  rewrite E. clear E. rewrite chop_app. cbn [option_bind].
  replace (ty ++ [32] ++ repeat 42 s ++ nameAt t idx ++ codes "=" ++ itemText (nameAt t) x)
    with ((ty ++ [32] ++ repeat 42 s ++ nameAt t idx) ++ 61 :: itemText (nameAt t) x) by (rewrite <- !app_assoc; reflexivity).
  rewrite upto_app.
  2:{ apply no_app; [apply clean_no; [exact tyClean|reflexivity]|]. apply no_app; [lits|]. apply no_app; [apply no_stars; lia|]. apply clean_no; [exact nmClean|reflexivity]. }
  cbn [option_bind]. rewrite type_read by (assumption || exact name_head0). cbn [option_bind]. rewrite item_read by exact R. reflexivity.
Qed.
Lemma varLine_nl x : readable x -> ~ In 10 (varLine x).
Proof.
  intros R. unfold varLine. apply no_app; [destruct (negb (pubAt t idx)); lits|]. apply no_app; [|lits].
  apply no_app; [apply clean_no; [exact tyClean|reflexivity]|]. apply no_app; [lits|]. apply no_app; [apply no_stars; lia|].
  apply no_app; [apply clean_no; [exact nmClean|reflexivity]|]. apply no_app; [lits|]. apply clean_no; [apply clean_item; exact R|reflexivity].
Qed.
Theorem data_read ds x : Forall smallDef ds -> readable x ->
  exists text, dataText t idx ds x = Some text /\ readData text = Some (map (fun d => (ty, d)) ds, (negb (pubAt t idx), ty, s, nameAt t idx, x)).
Proof.
  intros F R. unfold dataText. rewrite (defsText_lines t _ ty tyText).
  assert (G : globDcl t idx <> None) by (unfold globDcl, typeDcl; rewrite tyText; discriminate).
  rewrite (varText_line x G). cbn [CCode.cat]. eexists. split; [reflexivity|]. unfold readData.
  replace (linesText (map (defLine t ty) ds) ++ varLine x ++ [10]) with (linesText (map (defLine t ty) ds ++ [varLine x])) by (unfold linesText; rewrite flat_map_app; cbn [flat_map]; rewrite app_nil_r; reflexivity).
  rewrite cut_lines.
  2:{ apply Forall_app. split; [|constructor; [exact (varLine_nl x R)|constructor]]. apply Forall_map. revert F. apply Forall_impl. intros d Sd. eapply defLine_nl; eassumption. }
  rewrite !rev_app_distr. cbn [rev app]. rewrite rev_involutive.
  rewrite (readAll_map readDef (defLine t ty) (fun d => (ty, d))).
  - cbn [option_bind]. rewrite (var_read x R). reflexivity.
  - revert F. apply Forall_impl. intros d Sd. eapply def_read; eassumption.
Qed.
End Var.
