(* C78: readDir; C79: perror. *)
From Coq Require Import ZArith Bool Lia String List.
From Verif Require Import Lexer LibEnviron LibDirSpec LibDir.
Import ListNotations.
Open Scope Z_scope.

Lemma word_sum h l : 0 <= h < 256 -> 0 <= l < 256 -> Z.lor (Z.shiftl h 8 mod 65536) l = l + 256 * h.
Proof.
  intros H L. rewrite Z.shiftl_mul_pow2 by lia. rewrite Z.mod_small by lia.
  assert (D : Z.land (h * 2 ^ 8) l = 0).
  { apply Z.bits_inj'. intros n N. rewrite Z.land_spec, Z.bits_0. destruct (Z.lt_ge_cases n 8) as [A|A].
    - rewrite Z.mul_pow2_bits_low by lia. reflexivity.
    - replace (Z.testbit l n) with false; [apply andb_false_r|]. symmetry. apply Z.testbit_false; [lia|]. rewrite Z.div_small; [reflexivity|]. split; [lia|]. apply Z.lt_le_trans with (2 ^ 8); [lia|]. apply Z.pow_le_mono_r; lia. }
  rewrite <- Z.lxor_lor by exact D. rewrite <- Z.add_nocarry_lxor by exact D. lia.
Qed.
Lemma attr_bits a : Z.land a 10 =? 0 = negb (Z.testbit a 1) && negb (Z.testbit a 3).
Proof.
  destruct (Z.land a 10 =? 0) eqn:E.
  - apply Z.eqb_eq in E. pose proof (Z.land_spec a 10 1) as A. pose proof (Z.land_spec a 10 3) as B. rewrite E, Z.bits_0 in A, B. change (Z.testbit 10 1) with true in A. change (Z.testbit 10 3) with true in B. rewrite andb_true_r in A, B. rewrite <- A, <- B. reflexivity.
  - apply Z.eqb_neq in E. destruct (Z.testbit a 1) eqn:A; [reflexivity|]. destruct (Z.testbit a 3) eqn:B; [reflexivity|]. destruct E. apply Z.bits_inj'. intros n N. rewrite Z.land_spec, Z.bits_0.
    destruct (Z.eq_dec n 1) as [->|]; [rewrite A; reflexivity|]. destruct (Z.eq_dec n 3) as [->|]; [rewrite B; reflexivity|].
    replace (Z.testbit 10 n) with false; [apply andb_false_r|]. symmetry. destruct (Z.eq_dec n 0) as [->|]; [reflexivity|]. destruct (Z.eq_dec n 2) as [->|]; [reflexivity|].
    apply Z.testbit_false; [lia|]. rewrite Z.div_small; [reflexivity|]. split; [lia|]. apply Z.lt_le_trans with (2 ^ 4); [lia|]. apply Z.pow_le_mono_r; lia.
Qed.
Lemma len_S {A} (l : list A) n : length l = S n -> exists x r, l = x :: r /\ length r = n.
Proof. destruct l as [|x r]; [discriminate|]. intros E. exists x, r. split; [reflexivity|]. cbn [length] in E. lia. Qed.

(* one entry *)
Lemma readDir_entry b rest e buf d : entry b -> length buf = 32%nat -> length (dname d) = 12%nat ->
  (byte b 0 = 0 -> readDir (b :: rest) e buf d = Ok (0, d, b, rest)) /\
  (byte b 0 <> 0 -> shown b = false -> readDir (b :: rest) e buf d = readDir rest e b d) /\
  (byte b 0 <> 0 -> shown b = true -> exists d', readDir (b :: rest) e buf d = Ok (1, d', b, rest) /\ describes b d').
Proof.
  intros [L R] LB LD. assert (BB : (b ++ skipn (length b) buf)%list = b) by (rewrite L, <- LB, skipn_all, app_nil_r; reflexivity).
  cbn [readDir]. rewrite BB. clear BB. unfold shown. rewrite <- andb_assoc, <- attr_bits.
  destruct d as [nm a0 c0 h0 l0]. cbn [dname] in LD |- *.
  do 32 (let x := fresh "b" in let r := fresh "r" in apply len_S in L; destruct L as (x & r & -> & L)). apply length_zero_iff_nil in L. subst.
  do 12 (let x := fresh "n" in let r := fresh "s" in apply len_S in LD; destruct LD as (x & r & -> & LD)). apply length_zero_iff_nil in LD. subst.
  cbv [get set copyName wordLE andThen upd byte nth nth_error Z.to_nat Z.ltb Z.leb Z.compare Pos.compare Pos.compare_cont CompOpp orb Z.of_nat length Pos.of_succ_nat Pos.succ Pos.to_nat Pos.iter_op Nat.add Z.add Pos.add].
  repeat match goal with H : Forall _ (_ :: _) |- _ => apply Forall_cons_iff in H; destruct H end.
  match goal with |- (?x = 0 -> _) /\ _ => destruct (x =? 0) eqn:E0; [apply Z.eqb_eq in E0|apply Z.eqb_neq in E0] end.
  - split; [reflexivity|]. split; intros K; contradiction.
  - split; [intros K; contradiction|]. split.
    + intros _ K. rewrite K. reflexivity.
    + intros _ K. rewrite K. rewrite !word_sum by assumption.
      match goal with |- context [?x =? 5] => destruct (x =? 5) eqn:E5 end; (eexists; split; [reflexivity|]); unfold describes, byte; cbn [dname dattr dclst dlenH dlenL length nth]; rewrite E5;
      (split; [reflexivity|]; split; [reflexivity|]; split; [reflexivity|]; split; [|split; [reflexivity|split; [reflexivity|split; lia]]]);
      intros i [I1 I2]; (destruct i as [|i]; [lia|]); do 10 (destruct i as [|i]; [reflexivity|]); lia.
Qed.
Lemma used_cons b rest : byte b 0 <> 0 -> used (b :: rest) = b :: used rest.
Proof. intros N. cbn [used]. rewrite (proj2 (Z.eqb_neq _ _) N). reflexivity. Qed.
Lemma readDir_all es : forall e buf d, Forall entry es -> e <= 0 -> length buf = 32%nat -> length (dname d) = 12%nat ->
  (filter shown (used es) = [] /\ exists r buf' rest, readDir es e buf d = Ok (r, d, buf', rest) /\ r <= 0 /\ (hasEnd es -> r = 0) /\ (~ hasEnd es -> r = e)) \/
  (exists b es' d', filter shown (used es) = b :: filter shown (used es') /\ readDir es e buf d = Ok (1, d', b, es') /\ describes b d' /\ Forall entry es' /\ (length es' < length es)%nat /\
    (hasEnd es <-> hasEnd es') /\ length b = 32%nat).
Proof.
  induction es as [|b es IH]; intros e buf d H NE LB LD.
  - left. split; [reflexivity|]. exists e, buf, []. split; [reflexivity|]. split; [exact NE|]. split; [intros (x & [] & _)|reflexivity].
  - inversion H as [|? ? Hb Hr]; subst. destruct (readDir_entry b es e buf d Hb LB LD) as (R1 & R2 & R3). destruct (Z.eq_dec (byte b 0) 0) as [Z0|Z0].
    + left. cbn [used]. rewrite Z0. split; [reflexivity|]. exists 0, b, es. split; [exact (R1 Z0)|]. split; [lia|]. split; [reflexivity|]. intros N. destruct N. exists b. split; [left; reflexivity|exact Z0].
    + assert (HE : hasEnd (b :: es) <-> hasEnd es).
      { split; intros (x & I & X); [destruct I as [<-|I]; [contradiction|exists x; auto]|exists x; split; [right; exact I|exact X]]. }
      rewrite used_cons by exact Z0. cbn [filter]. destruct (shown b) eqn:SH.
      * right. destruct (R3 Z0 eq_refl) as (d' & A & B). exists b, es, d'. split; [reflexivity|]. split; [exact A|]. split; [exact B|]. split; [exact Hr|]. split; [cbn [length]; lia|]. split; [exact HE|exact (proj1 Hb)].
      * destruct (IH e b d Hr NE (proj1 Hb) LD) as [(K & r & buf' & rest & A & B & C & D)|(b' & es' & d' & K & A & B & C & D & E & G)].
        -- left. split; [exact K|]. exists r, buf', rest. rewrite (R2 Z0 eq_refl). split; [exact A|]. split; [exact B|]. rewrite HE. split; assumption.
        -- right. exists b', es', d'. rewrite (R2 Z0 eq_refl). split; [exact K|]. split; [exact A|]. split; [exact B|]. split; [exact C|]. split; [cbn [length]; lia|]. split; [rewrite HE; exact E|exact G].
Qed.

(* A caller who calls readDir until the result is not positive is told of the entries that are
   shown, of each once and in their order, and no array is left; the last result is 0 at the end,
   or what read reports *)
Theorem C78_list (es : list (list Z)) (e : Z) (buf : list Z) (d : dirInfo) : Forall entry es -> e <= 0 -> length buf = 32%nat -> length (dname d) = 12%nat ->
  exists l r, listDir (S (length es)) es e buf d = Ok (Some (l, r)) /\ Forall2 describes (filter shown (used es)) l /\ (hasEnd es -> r = 0) /\ (~ hasEnd es -> r = e).
Proof.
  assert (X : forall n es e buf d, (length es < n)%nat -> Forall entry es -> e <= 0 -> length buf = 32%nat -> length (dname d) = 12%nat ->
    exists l r, listDir n es e buf d = Ok (Some (l, r)) /\ Forall2 describes (filter shown (used es)) l /\ (hasEnd es -> r = 0) /\ (~ hasEnd es -> r = e)).
  { clear. induction n as [|n IH]; intros es e buf d LN H NE LB LD; [lia|]. cbn [listDir].
    destruct (readDir_all es e buf d H NE LB LD) as [(K & r & buf' & rest & A & B & C & D)|(b & es' & d' & K & A & B & C & D & E & G)].
    - rewrite A. cbn [andThen]. destruct (0 <? r) eqn:P; [apply Z.ltb_lt in P; lia|]. exists [], r. rewrite K. split; [reflexivity|]. split; [constructor|]. split; assumption.
    - rewrite A. cbn [andThen]. change (0 <? 1) with true. cbn match. destruct (IH es' e b d') as (l & r & A' & B' & C' & D'); [lia|exact C|exact NE|exact G|exact (proj1 B)|].
      rewrite A'. cbn [andThen]. exists (d' :: l), r. split; [reflexivity|]. rewrite K. split; [constructor; assumption|]. rewrite E. split; assumption. }
  intros H NE LB LD. apply X; try assumption. lia.
Qed.
Print Assumptions C78_list.
(* An entry: a file whose name starts with 0xe5, of 0x00010203 bytes from cluster 0x0405 on; one
   that is erased; the label; the end; and what was in a block that is free again *)
Definition c78_entry (first attr : Z) : list Z := first :: codes "BCDEFGHTXT" ++ [attr] ++ repeat 0 14 ++ [5; 4; 3; 2; 1; 0].
Definition c78_dir : list (list Z) := [c78_entry 65 8; c78_entry 229 0; c78_entry 5 32; c78_entry 66 16; c78_entry 0 0; c78_entry 67 0].
Definition c78_info : dirInfo := DirInfo (repeat 0 12) 0 0 0 0.
Example C78_ex : Forall entry c78_dir /\ hasEnd c78_dir /\ length (filter shown (used c78_dir)) = 2%nat /\
  listDir 7 c78_dir 0 (repeat 0 32) c78_info = Ok (Some ([DirInfo (229 :: codes "BCDEFGHTXT" ++ [0]) 32 1029 1 515; DirInfo (codes "BBCDEFGHTXT" ++ [0]) 16 1029 1 515], 0)).
Proof.
  split; [repeat constructor; lia|]. split; [exists (c78_entry 0 0); split; [vm_compute; tauto|reflexivity]|]. split; vm_compute; reflexivity.
Qed.
(* A call after the one that has reported the end goes on behind the end: it tells the caller of
   an entry that there is not *)
Theorem C78_again_refuted : exists es e buf d d' buf' rest d2 buf2 rest2, Forall entry es /\ used es = [] /\
  readDir es e buf d = Ok (0, d', buf', rest) /\ readDir rest e buf' d' = Ok (1, d2, buf2, rest2) /\ length (dname d) = 12%nat.
Proof.
  exists [c78_entry 0 0; c78_entry 67 0], 0, (repeat 0 32), c78_info. do 6 eexists. split; [repeat constructor; lia|]. split; [reflexivity|]. split; [vm_compute; reflexivity|]. split; [vm_compute; reflexivity|reflexivity].
Qed.
Print Assumptions C78_again_refuted.

(* ==== C79: perror ==== *)
(* Each number of the table gives its text, after the caller's text and a colon if there is one;
   every other number gives the text of an unknown error; the list of texts is not left *)
Theorem C79_text (msg : option (list Z)) (err : Z) : exists t, perrorText msg err = Ok ((match msg with Some (c :: r) => (c :: r) ++ codes ": " | _ => [] end) ++ codes t ++ [10]) /\
  ((exists u, In (err, u) errTable) -> In (err, t) errTable) /\ ((forall u, ~ In (err, u) errTable) -> t = "Undefined error"%string).
Proof.
  assert (X : -34 <= err <= -1 \/ ~ (-34 <= err <= -1)) by lia. destruct X as [X|X].
  - assert (Y : exists t, perrorText msg err = Ok ((match msg with Some (c :: r) => (c :: r) ++ codes ": " | _ => [] end) ++ codes t ++ [10]) /\ In (err, t) errTable).
    { assert (C : forall k : nat, (k < 34)%nat -> exists t, perrorText msg (- Z.of_nat (S k)) = Ok ((match msg with Some (c :: r) => (c :: r) ++ codes ": " | _ => [] end) ++ codes t ++ [10]) /\ In (- Z.of_nat (S k), t) errTable).
      { intros k K. do 34 (destruct k as [|k]; [eexists; split; [reflexivity|unfold errTable; cbn [In]; repeat ((left; reflexivity) || right)]|]). lia. }
      destruct (C (Z.to_nat (- err - 1))) as (t & A & B); [lia|]. replace (- Z.of_nat (S (Z.to_nat (- err - 1)))) with err in A, B by lia. exists t. split; assumption. }
    destruct Y as (t & A & B). exists t. split; [exact A|]. split; [intros _; exact B|]. intros N. destruct (N t B).
  - exists "Undefined error"%string. unfold perrorText. replace ((err <? -34) || (0 <=? err)) with true by (symmetry; apply orb_true_iff; destruct (Z.lt_ge_cases err (-34)); [left; apply Z.ltb_lt; lia|right; apply Z.leb_le; lia]).
    split; [reflexivity|]. split; [|reflexivity]. intros (u & I). exfalso. assert (F : Forall (fun p : Z * string => -34 <= fst p <= -1) errTable) by (repeat constructor; cbn [fst]; lia).
    rewrite Forall_forall in F. apply F in I. cbn [fst] in I. contradiction.
Qed.
Print Assumptions C79_text.
Example C79_ex : perrorText (Some (codes "a.txt")) (-2) = Ok (codes "a.txt: No such file or directrory" ++ [10]) /\ perrorText None (-34) = Ok (codes "free: Bad address" ++ [10]) /\ perrorText (Some []) 7 = Ok (codes "Undefined error" ++ [10]) /\
  NoDup (map fst errTable) /\ In (-2, "No such file or directrory"%string) errTable.
Proof. split; [reflexivity|]. split; [reflexivity|]. split; [reflexivity|]. split; [repeat constructor; cbn; intuition discriminate|cbn; tauto]. Qed.
