(* Declarations with run-time checks: the text of RtcData.v is that of RtcDataSpec.v. *)
From Coq Require Import ZArith Bool Lia List String Ascii.
From Verif Require Import Lexer NameTable SyTree Parser ParserStmt CCode AsmText CFile CSourceSpec RtcHeap RtcSpec RtcDataSpec RtcData.
Import ListNotations.
Open Scope Z_scope.

Section Decl.
Variable t : table.
Notation nm := (nameAt t).
(* the dots have no dimension *)
Definition dimOk (i : Z) : Prop := 0 <= dimAt t i /\ (typeAt t i = TyDOTDOTDOT -> dimAt t i = 0).
Lemma type_ok sta ty d w : 0 <= d -> (ty = TyDOTDOTDOT -> d = 0) -> typeDclR t sta ty d false = Some w ->
  exists u, w = (if sta then codes "static " else []) ++ u /\
    (if ty =? TyDOTDOTDOT then u = codes "..." /\ Z.to_nat d = O else ctype nm ty (Z.to_nat d) u).
Proof.
  intros D0 DD H. unfold typeDclR, wordText in H. destruct (Z.eqb_spec d 0) as [->|ND].
  - change (0 <? 0) with false in H. change (Z.to_nat 0) with O. cbn [negb andb orb] in H. unfold typeText in H.
    destruct (Z.eqb_spec ty TyVOID) as [->|]; [cbn [CCode.cat] in H; injection H as <-; eexists; split; [reflexivity|]; exact (ct_void nm)|].
    destruct (Z.eqb_spec ty TyINT) as [->|]; [cbn [CCode.cat] in H; injection H as <-; eexists; split; [reflexivity|]; exact (ct_int nm)|].
    destruct (Z.eqb_spec ty TyBOOL) as [->|]; [cbn [CCode.cat] in H; injection H as <-; eexists; split; [reflexivity|]; exact (ct_bool nm)|].
    destruct (Z.eqb_spec ty TyCHAR) as [->|]; [cbn [CCode.cat] in H; injection H as <-; eexists; split; [reflexivity|]; exact (ct_char nm)|].
    destruct (Z.eqb_spec ty TyINTR) as [->|]; [discriminate H|].
    destruct (Z.eqb_spec ty TyDOTDOTDOT) as [->|]; [cbn [CCode.cat] in H; injection H as <-; eexists; split; [reflexivity|]; split; reflexivity|].
    destruct (Z.leb_spec ty 0) as [L|L]; [|discriminate H]. cbn [andb] in H. destruct (_ || _); [|discriminate H]. cbn [CCode.cat] in H. injection H as <-.
    eexists. split; [reflexivity|]. rewrite <- app_assoc. apply ct_struct. exact L.
  - replace (0 <? d) with true in H by (symmetry; apply Z.ltb_lt; lia). cbn [negb andb orb] in H.
    destruct (Z.eqb_spec ty TyDOTDOTDOT) as [E|E]; [apply DD in E; lia|]. destruct (Z.to_nat d) as [|k] eqn:EK; [lia|].
    replace (d =? 1) with (S k =? 1)%nat in H by (destruct (Z.eqb_spec d 1), (Nat.eqb_spec (S k) 1); try reflexivity; lia).
    destruct ((S k =? 1)%nat && (0 <? ty)) eqn:B.
    + destruct (Z.eqb_spec ty TyINT) as [->|NI]; [|destruct (Z.eqb_spec ty TyVOID) as [->|NV]]; cbn [CCode.cat] in H; injection H as <-; (eexists; split; [reflexivity|]).
      * pose proof (ct_array nm TyINT k) as C. unfold kindOf in C. rewrite B in C. apply C. left. discriminate.
      * apply andb_true_iff in B. destruct B as [B _]. apply Nat.eqb_eq in B. injection B as ->. exact (ct_any nm).
      * pose proof (ct_array nm ty k) as C. unfold kindOf in C. rewrite B in C. replace (ty =? TyINT) with false in C by (symmetry; apply Z.eqb_neq; exact NI). apply C. left. exact NV.
    + cbn [CCode.cat] in H. injection H as <-. eexists. split; [reflexivity|]. pose proof (ct_array nm ty k) as C. unfold kindOf in C. rewrite B in C. apply C.
      destruct (Z.eq_dec ty TyVOID) as [->|]; [right|left; assumption]. intros ->. discriminate B.
Qed.
Lemma decl_ok sta i w : dimOk i -> typeDclR t sta (typeAt t i) (dimAt t i) false = Some w ->
  exists u, w ++ (if typeAt t i =? TyDOTDOTDOT then [] else nameAt t i) = (if sta then codes "static " else []) ++ u /\ cdecl nm (typeAt t i, Z.to_nat (dimAt t i), nameAt t i) u.
Proof.
  intros [D0 DD] H. destruct (type_ok _ _ _ _ D0 DD H) as (u & -> & K). destruct (Z.eqb_spec (typeAt t i) TyDOTDOTDOT) as [E|E].
  - destruct K as [-> EK]. exists (codes "..."). rewrite app_nil_r. split; [reflexivity|]. rewrite E, EK. apply cd_dots.
  - exists (u ++ nameAt t i). split; [rewrite app_assoc; reflexivity|]. apply cd_named; assumption.
Qed.
Lemma entries_S i n : entries t i (S n) = (typeAt t i, Z.to_nat (dimAt t i), nameAt t i) :: entries t (i + 1) n.
Proof.
  unfold entries. cbn [seq map]. f_equal; [change (Z.of_nat 0) with 0; rewrite Z.add_0_r; reflexivity|]. rewrite <- seq_shift, map_map. apply map_ext. intros k.
  replace (i + Z.of_nat (S k)) with (i + 1 + Z.of_nat k) by lia. reflexivity.
Qed.
Lemma params_ok n : forall i w, (forall j, i <= j < i + Z.of_nat n -> dimOk j) -> paramsTextR t i n = Some w ->
  exists ws, w = between (codes ",") ws /\ Forall2 (cdecl nm) (entries t i n) ws.
Proof.
  induction n as [|n IH]; intros i w D H; cbn [paramsTextR] in H.
  - injection H as <-. exists []. split; [reflexivity|constructor].
  - destruct (typeDclR t false (typeAt t i) (dimAt t i) false) as [a|] eqn:A; [|discriminate H]. destruct (paramsTextR t (i + 1) n) as [b|] eqn:B; [|discriminate H].
    cbn [CCode.cat] in H. injection H as <-. destruct (decl_ok _ _ _ (D i ltac:(lia)) A) as (u & E & C). destruct (IH (i + 1) b (fun j J => D j ltac:(lia)) B) as (ws & -> & F).
    exists (u :: ws). split; [|rewrite entries_S; constructor; assumption]. cbn [app] in E. rewrite (app_assoc a), E.
    destruct ws as [|x ws]; cbn [between].
    + inversion F as [E'|]. destruct n; [rewrite !app_nil_r; reflexivity|rewrite entries_S in E'; discriminate E'].
    + destruct n; [inversion F|reflexivity].
Qed.
Lemma members_ok n : forall i w, (forall j, i <= j < i + Z.of_nat n -> dimOk j /\ typeAt t j <> TyDOTDOTDOT) -> membersTextR t i n = Some w ->
  exists ws, w = flat_map (fun u => u ++ codes ";" ++ nl) ws /\ Forall2 (cdecl nm) (entries t i n) ws.
Proof.
  induction n as [|n IH]; intros i w D H; cbn [membersTextR] in H.
  - injection H as <-. exists []. split; [reflexivity|constructor].
  - destruct (typeDclR t false (typeAt t i) (dimAt t i) false) as [a|] eqn:A; [|discriminate H]. destruct (membersTextR t (i + 1) n) as [b|] eqn:B; [|discriminate H].
    cbn [CCode.cat] in H. injection H as <-. destruct (D i ltac:(lia)) as [D1 D2]. destruct (decl_ok _ _ _ D1 A) as (u & E & C). destruct (IH (i + 1) b (fun j J => D j ltac:(lia)) B) as (ws & -> & F).
    replace (typeAt t i =? TyDOTDOTDOT) with false in E by (symmetry; apply Z.eqb_neq; exact D2). cbn [app] in E.
    exists (u :: ws). split; [|rewrite entries_S; constructor; assumption]. cbn [flat_map]. rewrite <- E, <- !app_assoc. reflexivity.
Qed.
End Decl.
