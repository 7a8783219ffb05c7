From Coq Require Import ZArith Bool Lia List String Ascii.
From Verif Require Import Lexer CCode RtcHeap RtcSpec.
Import ListNotations.
Open Scope Z_scope.

(* ---- bytes ---- *)
Lemma enc_len : forall w v, List.length (enc w v) = w.
Proof. induction w; intro v; [reflexivity|]. cbn [enc List.length]. now rewrite IHw. Qed.
Lemma enc_bytes : forall w v, Forall (fun b => 0 <= b < 256) (enc w v).
Proof. induction w; intro v; constructor; [apply Z.mod_pos_bound; lia|apply IHw]. Qed.
Lemma dec_enc : forall w v, decB (enc w v) = v mod 256 ^ Z.of_nat w.
Proof.
  induction w; intro v; [now rewrite Z.mod_1_r|]. cbn [enc decB]. rewrite IHw, Nat2Z.inj_succ, Z.pow_succ_r by lia.
  rewrite Z.rem_mul_r by (try lia; apply Z.pow_pos_nonneg; lia). reflexivity.
Qed.
Lemma enc_mod : forall w v, enc w (v mod 256 ^ Z.of_nat w) = enc w v.
Proof.
  induction w; intro v; [reflexivity|]. cbn [enc]. rewrite Nat2Z.inj_succ, Z.pow_succ_r by lia.
  assert (P : 0 < 256 ^ Z.of_nat w) by (apply Z.pow_pos_nonneg; lia).
  rewrite Z.rem_mul_r by lia. f_equal.
  - rewrite (Z.mul_comm 256), Z_mod_plus_full. apply Z.mod_mod. lia.
  - rewrite (Z.mul_comm 256), Z_div_plus_full by lia. rewrite (Z.div_small (v mod 256)) by (apply Z.mod_pos_bound; lia).
    rewrite Z.add_0_l. apply IHw.
Qed.
Lemma enc_dec : forall m, Forall (fun b => 0 <= b < 256) m -> enc (List.length m) (decB m) = m.
Proof.
  induction m as [|x m IH]; intro F; [reflexivity|]. cbn [List.length enc decB].
  inversion F as [|? ? B F']; subst. f_equal.
  - rewrite (Z.mul_comm 256), Z_mod_plus_full. apply Z.mod_small; lia.
  - rewrite (Z.mul_comm 256), Z_div_plus_full by lia. rewrite (Z.div_small x) by lia. rewrite Z.add_0_l. now apply IH.
Qed.
Lemma decB_bound : forall m, Forall (fun b => 0 <= b < 256) m -> 0 <= decB m < 256 ^ Z.of_nat (List.length m).
Proof.
  induction m as [|x m IH]; intro F; [cbn; lia|]. inversion F as [|? ? B F']; subst. specialize (IH F').
  cbn [List.length decB]. rewrite Nat2Z.inj_succ, Z.pow_succ_r by lia. lia.
Qed.
Lemma int32_id : forall v, - 2 ^ 31 <= v < 2 ^ 31 -> int32 v = v.
Proof. intros v B. unfold int32. rewrite Z.mod_small by lia. lia. Qed.
Lemma int32_mod : forall v, int32 (v mod 2 ^ 32) = int32 v.
Proof. intro v. unfold int32. rewrite Zplus_mod_idemp_l. reflexivity. Qed.
Lemma int32_bound : forall v, - 2 ^ 31 <= int32 v < 2 ^ 31.
Proof. intro v. unfold int32. pose proof (Z.mod_pos_bound (v + 2 ^ 31) (2 ^ 32) ltac:(lia)). lia. Qed.
Lemma int32_eq : forall v, int32 v mod 2 ^ 32 = v mod 2 ^ 32.
Proof. intro v. unfold int32. rewrite Zminus_mod_idemp_l. f_equal. lia. Qed.

Lemma pow_w : forall k, 256 ^ Z.of_nat (width k) = match k with KInt => 2 ^ 32 | KChar => 256 | KRef => 2 ^ 64 end.
Proof. destruct k; reflexivity. Qed.
(* what is read back of what was assigned *)
Lemma read_kept : forall k v, asElem k (decB (enc (width k) v)) = kept k v.
Proof. intros k v. rewrite dec_enc, pow_w. destruct k; cbn [asElem kept]; [|reflexivity|reflexivity]. now rewrite int32_mod. Qed.
Lemma enc_kept : forall k v, enc (width k) (kept k v) = enc (width k) v.
Proof.
  intros k v. rewrite <- (enc_mod (width k) v), <- (enc_mod (width k) (kept k v)), pow_w.
  destruct k; cbn [kept]; [|now rewrite Z.mod_mod by lia|now rewrite Z.mod_mod by lia].
  change ((v + 2 ^ 31) mod 2 ^ 32 - 2 ^ 31) with (int32 v). now rewrite int32_eq.
Qed.
Lemma kept_ok : forall k v, elem_ok k (kept k v).
Proof.
  intros k v. destruct k; cbn [elem_ok kept].
  - apply int32_bound.
  - apply Z.mod_pos_bound; lia.
  - apply Z.mod_pos_bound; lia.
Qed.
Lemma kept_id : forall k v, elem_ok k v -> kept k v = v.
Proof.
  intros k v B. destruct k; cbn [elem_ok kept] in *; [now apply int32_id|now apply Z.mod_small|now apply Z.mod_small].
Qed.

(* ---- elements one after another ---- *)
Lemma flat_len : forall w es, List.length (flat_map (enc w) es) = (w * List.length es)%nat.
Proof. induction es as [|e es IH]; [cbn; lia|]. cbn [flat_map List.length]. rewrite app_length, enc_len, IH. lia. Qed.
Lemma chunks : forall k n m, Forall (fun b => 0 <= b < 256) m -> List.length m = (width k * n)%nat ->
  exists es, List.length es = n /\ Forall (elem_ok k) es /\ m = flat_map (enc (width k)) es.
Proof.
  intros k. induction n as [|n IH]; intros m F L.
  - exists []. destruct m; [repeat split; constructor|cbn in L; lia].
  - destruct (IH (skipn (width k) m)) as (es & A & B & C).
    + rewrite <- (firstn_skipn (width k) m) in F. apply Forall_app in F. exact (proj2 F).
    + rewrite skipn_length, L. lia.
    + exists (kept k (decB (firstn (width k) m)) :: es). cbn [List.length flat_map]. rewrite A, enc_kept. repeat split.
      * constructor; [apply kept_ok|exact B].
      * assert (L' : List.length (firstn (width k) m) = width k) by (rewrite firstn_length; lia).
        rewrite <- L' at 1. rewrite enc_dec, <- C; [now rewrite firstn_skipn|].
        rewrite <- (firstn_skipn (width k) m) in F. apply Forall_app in F. exact (proj1 F).
Qed.

Lemma slice_app : forall a x b, slice (Z.of_nat (List.length a)) (List.length x) (a ++ x ++ b) = x.
Proof.
  intros a x b. unfold slice. rewrite Nat2Z.id, skipn_app, skipn_all, Nat.sub_diag. cbn [app skipn].
  rewrite firstn_app, Nat.sub_diag, firstn_all. cbn [firstn]. now rewrite app_nil_r.
Qed.
Lemma splice_app : forall a x y b, List.length x = List.length y -> splice (Z.of_nat (List.length a)) y (a ++ x ++ b) = a ++ y ++ b.
Proof.
  intros a x y b L. unfold splice. rewrite Nat2Z.id, firstn_app, Nat.sub_diag, firstn_all. cbn [firstn]. rewrite app_nil_r.
  do 2 f_equal. rewrite <- L, app_assoc, <- app_length, skipn_app, skipn_all, Nat.sub_diag. reflexivity.
Qed.
Lemma inside_app : forall a x b, inside (Z.of_nat (List.length a)) (List.length x) (a ++ x ++ b) = true.
Proof. intros a x b. unfold inside. rewrite !app_length. apply andb_true_intro; split; apply Z.leb_le; lia. Qed.

Lemma load_app : forall h b a x c, nth_error h b = Some (Some (a ++ x ++ c)) ->
  load b (Z.of_nat (List.length a)) (List.length x) h = ROk (decB x) h.
Proof. intros h b a x c E. unfold load. rewrite E, inside_app, slice_app. reflexivity. Qed.
Lemma store_app : forall h b a x y c, nth_error h b = Some (Some (a ++ x ++ c)) -> List.length x = List.length y ->
  storeB b (Z.of_nat (List.length a)) y h = ROk tt (setAt b (Some (a ++ y ++ c)) h).
Proof. intros h b a x y c E L. unfold storeB. rewrite E, <- L, inside_app, splice_app by exact L. reflexivity. Qed.

(* ---- lists ---- *)
Lemma setAt_app : forall A (l1 : list A) x y l2, setAt (List.length l1) y (l1 ++ x :: l2) = l1 ++ y :: l2.
Proof. induction l1 as [|z l1 IH]; intros; [reflexivity|]. cbn [List.length setAt app]. now rewrite IH. Qed.
Lemma nth_mid : forall A (l1 : list A) x l2, nth_error (l1 ++ x :: l2) (List.length l1) = Some x.
Proof. induction l1 as [|z l1 IH]; intros; [reflexivity|]. exact (IH x l2). Qed.
Lemma nth_split_z : forall A (l : list A) i, 0 <= i < Z.of_nat (List.length l) -> exists l1 x l2, l = l1 ++ x :: l2 /\ Z.of_nat (List.length l1) = i.
Proof.
  intros A l i B. destruct (nth_error l (Z.to_nat i)) as [x|] eqn:E.
  - destruct (nth_error_split _ _ E) as (l1 & l2 & -> & L). exists l1, x, l2. split; [reflexivity|]. rewrite L. lia.
  - apply nth_error_None in E. lia.
Qed.
Lemma f2_len : forall A B (P : A -> B -> Prop) l m, Forall2 P l m -> List.length l = List.length m.
Proof. induction 1; cbn [List.length]; congruence. Qed.
Lemma holds_split : forall st h b a, holds st h -> nth_error st b = Some a ->
  exists s1 s2 h1 m h2, st = s1 ++ a :: s2 /\ h = h1 ++ Some m :: h2 /\ List.length s1 = b /\ List.length h1 = b /\
    lays a m /\ holds s1 h1 /\ holds s2 h2.
Proof.
  intros st h b a H E. destruct (nth_error_split _ _ E) as (s1 & s2 & -> & L).
  apply Forall2_app_inv_l in H as (h1 & h' & H1 & H2 & ->). inversion H2 as [|? m' ? h2 (m & -> & Ly) H2' E1 E2]; subst.
  exists s1, s2, h1, m, h2. repeat split; try assumption. symmetry. exact (f2_len _ _ _ _ _ H1).
Qed.
Lemma holds_join : forall s1 h1 a m s2 h2, holds s1 h1 -> lays a m -> holds s2 h2 -> holds (s1 ++ a :: s2) (h1 ++ Some m :: h2).
Proof. intros. apply Forall2_app; [assumption|]. constructor; [eexists; split; [reflexivity|assumption]|assumption]. Qed.

(* ---- the layout ---- *)
Definition block (k : kind) (n : Z) (pad : list Z) (es : list Z) : list Z := enc 4 n ++ pad ++ flat_map (enc (width k)) es.
Lemma check_ok : forall k st h b es i file line, holds st h -> nth_error st b = Some (Arr k es) -> 
  checkIdx k (Some b) i file line h =
  if (i <? 0) || (Z.of_nat (List.length es) <=? i) then RAbort (boundMsg k file line i) else ROk (b, hdr k + Z.of_nat (width k) * i) h.
Proof.
  intros k st h b es i file line H E. destruct (holds_split _ _ _ _ H E) as (s1 & s2 & h1 & m & h2 & -> & -> & L1 & L2 & (pad & Em & Lp & F & B) & _).
  cbn [akind elems] in *. unfold alen in *. cbn [elems] in *. unfold checkIdx.
  change 0 with (Z.of_nat (List.length (@nil Z))) at 1. rewrite <- (enc_len 4 (Z.of_nat (List.length es))).
  rewrite (load_app _ _ [] _ (pad ++ flat_map (enc (width k)) es)) by (rewrite <- L2, nth_mid, Em; reflexivity).
  cbn [rbind]. rewrite dec_enc. change (256 ^ Z.of_nat 4) with (2 ^ 32). rewrite int32_mod, int32_id by lia. reflexivity.
Qed.

(* the i-th element of an array in memory *)
Lemma elem_at : forall k n pad e1 x e2, Z.of_nat (4 + List.length pad) = hdr k ->
  block k n pad (e1 ++ x :: e2) = (enc 4 n ++ pad ++ flat_map (enc (width k)) e1) ++ enc (width k) x ++ flat_map (enc (width k)) e2 /\
  Z.of_nat (List.length (enc 4 n ++ pad ++ flat_map (enc (width k)) e1)) = hdr k + Z.of_nat (width k) * Z.of_nat (List.length e1).
Proof.
  intros k n pad e1 x e2 L. split.
  - unfold block. rewrite flat_map_app. cbn [flat_map]. now rewrite <- !app_assoc.
  - rewrite !app_length, enc_len, flat_len. rewrite <- L. lia.
Qed.

Lemma get_ok : forall k st h b es i file line, holds st h -> nth_error st b = Some (Arr k es) ->
  (exists v, 0 <= i /\ nth_error es (Z.to_nat i) = Some v /\ getElem k (Some b) i file line h = ROk v h) \/
  (~ (0 <= i < Z.of_nat (List.length es)) /\ getElem k (Some b) i file line h = RAbort (boundMsg k file line i)).
Proof.
  intros k st h b es i file line H E. unfold getElem. rewrite (check_ok k st h b es) by assumption.
  destruct (i <? 0) eqn:E1; [right; split; [lia|reflexivity]|].
  destruct (Z.of_nat (List.length es) <=? i) eqn:E2; [right; split; [lia|reflexivity]|]. left.
  destruct (nth_split_z _ es i ltac:(lia)) as (e1 & x & e2 & -> & L). exists x. split; [lia|]. split.
  { rewrite <- L, Nat2Z.id. apply nth_mid. }
  destruct (holds_split _ _ _ _ H E) as (s1 & s2 & h1 & m & h2 & -> & -> & L1 & L2 & (pad & Em & Lp & F & B) & _).
  cbn [akind elems] in *. cbn [orb rbind]. destruct (elem_at k (alen (Arr k (e1 ++ x :: e2))) pad e1 x e2 Lp) as [A1 A2].
  rewrite <- L, <- A2.
  assert (Ld : load b (Z.of_nat (List.length (enc 4 (alen (Arr k (e1 ++ x :: e2))) ++ pad ++ flat_map (enc (width k)) e1))) (width k) (h1 ++ Some m :: h2) =
    ROk (decB (enc (width k) x)) (h1 ++ Some m :: h2)).
  { rewrite <- (enc_len (width k) x) at 2. apply (load_app _ _ _ _ (flat_map (enc (width k)) e2)). rewrite <- L2, nth_mid, Em. f_equal; f_equal; exact A1. }
  rewrite Ld.
  cbn [rbind]. rewrite read_kept, kept_id; [reflexivity|].
  apply Forall_app in F as [_ F]. now inversion F.
Qed.

Lemma put_ok : forall k st h b es i v file line, holds st h -> nth_error st b = Some (Arr k es) ->
  (exists s1 e1 x e2 s2 h', st = s1 ++ Arr k (e1 ++ x :: e2) :: s2 /\ List.length s1 = b /\ Z.of_nat (List.length e1) = i /\
     putElem k (Some b) i v file line h = ROk tt h' /\ holds (s1 ++ Arr k (e1 ++ kept k v :: e2) :: s2) h') \/
  (~ (0 <= i < Z.of_nat (List.length es)) /\ putElem k (Some b) i v file line h = RAbort (boundMsg k file line i)).
Proof.
  intros k st h b es i v file line H E. unfold putElem. rewrite (check_ok k st h b es) by assumption.
  destruct (i <? 0) eqn:E1; [right; split; [lia|reflexivity]|].
  destruct (Z.of_nat (List.length es) <=? i) eqn:E2; [right; split; [lia|reflexivity]|]. left.
  destruct (nth_split_z _ es i ltac:(lia)) as (e1 & x & e2 & -> & L).
  destruct (holds_split _ _ _ _ H E) as (s1 & s2 & h1 & m & h2 & -> & -> & L1 & L2 & (pad & Em & Lp & F & B) & H1 & H2).
  cbn [akind elems] in *. cbn [orb rbind]. destruct (elem_at k (alen (Arr k (e1 ++ x :: e2))) pad e1 x e2 Lp) as [A1 A2].
  exists s1, e1, x, e2, s2, (h1 ++ Some (block k (alen (Arr k (e1 ++ x :: e2))) pad (e1 ++ kept k v :: e2)) :: h2).
  split; [reflexivity|]. split; [exact L1|]. split; [exact L|]. split.
  - unfold store. rewrite <- L, <- A2.
    rewrite (store_app _ _ _ (enc (width k) x) (enc (width k) v) (flat_map (enc (width k)) e2)); [|rewrite <- L2, nth_mid, Em; f_equal; f_equal; exact A1|now rewrite !enc_len].
    f_equal. rewrite <- L2, setAt_app. do 3 f_equal.
    destruct (elem_at k (alen (Arr k (e1 ++ x :: e2))) pad e1 (kept k v) e2 Lp) as [A3 _]. rewrite A3, enc_kept. reflexivity.
  - apply holds_join; [exact H1| |exact H2]. exists pad. cbn [akind elems]. 
    assert (EL : alen (Arr k (e1 ++ kept k v :: e2)) = alen (Arr k (e1 ++ x :: e2))) by (unfold alen; cbn [elems]; rewrite !app_length; reflexivity).
    rewrite EL. split; [reflexivity|]. split; [exact Lp|]. split; [|exact B].
    apply Forall_app in F as [F1 F2]. inversion F2; subst. apply Forall_app. split; [exact F1|]. constructor; [apply kept_ok|assumption].
Qed.

(* a block got from malloc, once its length is written *)
Lemma new_block : forall k n m, 0 <= n -> Forall (fun b => 0 <= b < 256) m -> Z.of_nat (List.length m) = hdr k + Z.of_nat (width k) * n -> n < 2 ^ 31 ->
  exists es, Z.of_nat (List.length es) = n /\ Forall (elem_ok k) es /\ lays (Arr k es) (splice 0 (enc 4 n) m) /\ inside 0 4 m = true.
Proof.
  intros k n m N F L B. assert (H4 : 4 <= hdr k) by (destruct k; cbn; lia).
  rewrite <- (firstn_skipn 4 m) in F. apply Forall_app in F as [_ F].
  set (p := Z.to_nat (hdr k - 4)). rewrite <- (firstn_skipn p (skipn 4 m)) in F. apply Forall_app in F as [_ F].
  destruct (chunks k (Z.to_nat n) (skipn p (skipn 4 m)) F) as (es & E1 & E2 & E3).
  { rewrite !skipn_length. unfold p. nia. }
  exists es. split; [lia|]. split; [exact E2|]. split.
  - exists (firstn p (skipn 4 m)). cbn [akind elems]. unfold alen. cbn [elems]. rewrite E1, Z2Nat.id by exact N. split.
    + unfold splice. cbn [firstn Z.to_nat app]. rewrite enc_len, <- E3, firstn_skipn. reflexivity.
    + split; [|split; [exact E2|exact B]]. rewrite firstn_length, skipn_length. unfold p. nia.
  - unfold inside. apply andb_true_intro. split; [reflexivity|]. apply Z.leb_le. nia.
Qed.
Lemma store_last : forall h m x, inside 0 (List.length x) m = true -> storeB (List.length h) 0 x (h ++ [Some m]) = ROk tt (h ++ [Some (splice 0 x m)]).
Proof. intros h m x I. unfold storeB. rewrite nth_mid, I, setAt_app. reflexivity. Qed.

Section M.
Variable malloc : heap -> Z -> option (list Z).
Hypothesis MO : malloc_ok malloc.

Lemma mAlloc_ok : forall s h, 0 <= s < 2 ^ 31 ->
  mAlloc malloc (int32 s) h = RExit \/
  exists m, Z.of_nat (List.length m) = s /\ Forall (fun b => 0 <= b < 256) m /\ mAlloc malloc (int32 s) h = ROk (List.length h) (h ++ [Some m]).
Proof.
  intros s h B. unfold mAlloc. rewrite int32_id, Z.mod_small by lia. destruct (malloc h s) as [m|] eqn:E; [right|now left].
  destruct (MO _ _ _ E) as (A1 & A2 & _). exists m. now repeat split.
Qed.
Lemma new_ok : forall k n st h, holds st h -> size_ok k n ->
  newArr malloc k n h = RExit \/
  exists es h', Z.of_nat (List.length es) = n /\ Forall (elem_ok k) es /\ newArr malloc k n h = ROk (List.length st) h' /\ holds (st ++ [Arr k es]) h'.
Proof.
  intros k n st h H [N S]. unfold newArr.
  assert (W : 1 <= Z.of_nat (width k)) by (destruct k; cbn; lia). assert (H4 : 4 <= hdr k) by (destruct k; cbn; lia).
  assert (n < 2 ^ 31) by nia. rewrite (Z.mod_small n) by lia. rewrite (Z.mod_small (hdr k + _)) by lia.
  destruct (mAlloc_ok (hdr k + Z.of_nat (width k) * n) h) as [-> | (m & L & F & ->)]; [nia|now left|right].
  cbn [rbind]. destruct (new_block k n m N F L ltac:(lia)) as (es & E1 & E2 & E3 & E4).
  unfold store. rewrite store_last by (rewrite enc_len; exact E4). cbn [rbind].
  exists es. eexists. split; [exact E1|]. split; [exact E2|]. rewrite <- (f2_len _ _ _ _ _ H). split; [reflexivity|].
  apply Forall2_app; [exact H|]. constructor; [|constructor]. eexists. split; [reflexivity|exact E3].
Qed.

(* ---- runs ---- *)
Inductive ends_as (malloc : heap -> Z -> option (list Z)) : spec_end -> ending -> Prop :=
| ea_goes st h : holds st h -> ends_as malloc (SGoes st) (Goes h)
| ea_stop m : ends_as malloc (SReported m) (Aborted m)
| ea_mem : ends_as malloc SNoMemory NoMemory.

Lemma nullMsg_at : forall k file line i, nullMsg k file line i =
  at_line file line (match k with KInt => codes "Null Pointer idx=" ++ dec i ++ codes " " | _ => codes "Null Pointer(idx=" ++ dec i ++ codes ")" end).
Proof. intros [] file line i; unfold nullMsg, at_line; rewrite <- ?app_assoc; reflexivity. Qed.
Lemma boundMsg_at : forall k file line i, boundMsg k file line i =
  at_line file line (match k with KInt => codes "Out of Bound idx=" ++ dec i | _ => codes "Out of Bound(idx=" ++ dec i ++ codes ")" end).
Proof. intros [] file line i; unfold boundMsg, at_line; rewrite <- ?app_assoc; reflexivity. Qed.

Lemma op_ok : forall o st h, holds st h -> wf_op st o ->
  (exists r st' h', runOp malloc o h = ROk r h' /\ does st o r st' /\ holds st' h') \/
  (exists m, runOp malloc o h = RAbort m /\ stops st o m) \/
  (runOp malloc o h = RExit /\ exists k n, o = New k n).
Proof.
  intros o st h H W. destruct o as [k n|k p i file line|k p i v file line|p file line]; cbn [runOp wf_op] in *.
  - destruct (new_ok k n st h H W) as [-> | (es & h' & E1 & E2 & -> & E3)].
    + right; right. split; [reflexivity|eauto].
    + left. exists (Made (List.length st)), (st ++ [Arr k es]), h'. cbn [rbind]. repeat split; [now constructor|exact E3].
  - destruct p as [b|].
    + destruct W as (es & E). destruct (get_ok k st h b es i file line H E) as [(v & A & B & ->)|(A & ->)]; cbn [rbind].
      * left. exists (Value v), st, h. repeat split; [econstructor; eassumption|exact H].
      * right; left. eexists. split; [reflexivity|]. rewrite boundMsg_at. econstructor; eassumption.
    + right; left. eexists. split; [reflexivity|]. unfold checkIdx. rewrite nullMsg_at. constructor.
  - destruct p as [b|].
    + destruct W as (es & E). destruct (put_ok k st h b es i v file line H E) as [(s1 & e1 & x & e2 & s2 & h' & A1 & A2 & A3 & -> & A5)|(A & ->)]; cbn [rbind].
      * left. exists Done, (s1 ++ Arr k (e1 ++ kept k v :: e2) :: s2), h'. repeat split; [econstructor; eassumption|exact A5].
      * right; left. eexists. split; [reflexivity|]. rewrite boundMsg_at. econstructor; eassumption.
    + right; left. eexists. split; [reflexivity|]. unfold checkIdx. rewrite nullMsg_at. constructor.
  - destruct p as [b|].
    + left. exists Done, st, h. repeat split; [constructor|exact H].
    + right; left. eexists. split; [reflexivity|]. constructor.
Qed.

Theorem run_ok : forall os st h, holds st h -> wf_ops st os ->
  exists e, spec_run st os (fst (runOps malloc os h)) e /\ ends_as malloc e (snd (runOps malloc os h)).
Proof.
  induction os as [|o os IH]; intros st h H W.
  - exists (SGoes st). split; [constructor|now constructor].
  - inversion W as [|? ? ? Wo Wr]; subst. cbn [runOps].
    destruct (op_ok o st h H Wo) as [(r & st' & h' & -> & D & H')|[(m & -> & Sp)|(-> & k & n & ->)]].
    + destruct (IH st' h' H' (Wr _ _ D)) as (e & R & En). destruct (runOps malloc os h') as [rs e']. cbn [fst snd] in *.
      exists e. split; [econstructor; eassumption|exact En].
    + exists (SReported m). split; [now constructor|constructor].
    + exists SNoMemory. split; constructor.
Qed.
End M.
