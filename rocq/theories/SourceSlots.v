(* Storage of locals and parameters: the numbers given to the variables that are in scope
   at the same time are different. *)
From Coq Require Import ZArith Bool Lia List.
From Verif Require Import Lexer NameTable SyTree OpTree Parser ParserStmt ParseSpec ProgSpec ProgData ProgInv ProgTop StmtSpec StmtSound ProgGram RuleDet.
Import ListNotations.
Open Scope Z_scope.

(* ---- the places inside a body ---- *)
(* inside a declaration, after some of its variables *)
Inductive inD : env -> decl -> env -> Prop :=
| id_some E t d vs ws x P : okVars (tyCode (eN E) t) (Z.of_nat d) (Env (eN E) (eL E) (eC E) (eM E) (Z.of_nat d)) SNull vs x P -> inD E (Decl t d (vs ++ ws)) P.
Inductive inI : env -> ini -> env -> Prop :=
| ii_decl E d P : inD E d P -> inI E (IDecl d) P.
Section Points.
Variables rt rd : Z.
(* inS b E s P: s, a statement read in E (inside a loop iff b), has a place whose names are
   those of P; inQ the same for a sequence *)
Inductive inS : bool -> env -> sast -> env -> Prop :=
| is_here b E s : inS b E s E
| is_if b E c s x E1 P : okCond E (Some c) x E1 -> inS b E1 s P -> inS b E (BIf c s) P
| is_then b E c s1 s2 x E1 P : okCond E (Some c) x E1 -> inS b E1 s1 P -> inS b E (BIfElse c s1 s2) P
| is_else b E c s1 s2 x E1 y E2 P : okCond E (Some c) x E1 -> okS rt rd b E1 s1 y E2 -> inS b E2 s2 P -> inS b E (BIfElse c s1 s2) P
| is_while b E c s x E1 P : okCond E (Some c) x E1 -> inS true E1 s P -> inS b E (BWhile c s) P
| is_do b E c s P : inS true E s P -> inS b E (BDo s c) P
| is_until b E c s y E1 : okS rt rd true E s y E1 -> inS b E (BDo s c) E1
| is_start b E i c r s P : inI E i P -> inS b E (BFor i c r s) P
| is_for b E i c r s xi E1 xc E2 xr E3 P : okIni E i xi E1 -> okCond E1 c xc E2 -> okOpt E2 r xr E3 -> inS true E3 s P -> inS b E (BFor i c r s) P
| is_block b E q P : inQ b E SNull q P -> inS b E (BBlock q) P
with inQ : bool -> env -> stmt -> sseq -> env -> Prop :=
| iq_here b E a q : inQ b E a q E
| iq_stat b E a s r P : inS b E s P -> inQ b E a (QStat s r) P
| iq_more b E a s x E1 r P : okS rt rd b E s x E1 -> inQ b E1 (chain a x) r P -> inQ b E a (QStat s r) P
| iq_decl b E a d r P : inD E d P -> inQ b E a (QDecl d r) P
| iq_next b E a d x E1 r P : okDecl E d x E1 -> inQ b E1 (chain a x) r P -> inQ b E a (QDecl d r) P.
End Points.

(* ---- slots ---- *)
Definition isSc (sc : Z) (e : entry) : bool := nScope e =? sc.
(* the numbers of the visible names of a kind *)
Definition slots (sc : Z) (n : table) : list Z := map nCnt (filter (isSc sc) n).
Lemma slots_app sc a b : slots sc (a ++ b) = slots sc a ++ slots sc b.
Proof. unfold slots. rewrite filter_app, map_app. reflexivity. Qed.
Lemma slots_void sc r : sc <> ScVOID -> slots sc (map voided r) = [].
Proof.
  intros H. unfold slots. induction r as [|e r IH]; [reflexivity|]. cbn [map filter]. unfold isSc at 1, voided at 1. cbn [nScope].
  destruct (Z.eqb_spec ScVOID sc); [congruence|exact IH].
Qed.
Lemma slots_in sc n i : sc <> ScVOID -> scopeAt n i = sc -> In (cntAt n i) (slots sc n).
Proof.
  intros V. unfold scopeAt, cntAt, ent. destruct (i <? 0); [congruence|]. destruct (nth_error n (Z.to_nat i)) as [e|] eqn:E; [|congruence]. intros S.
  apply in_map. apply filter_In. split; [exact (nth_error_In _ _ E)|]. unfold isSc. apply Z.eqb_eq. exact S.
Qed.
Lemma slots_nth sc n : NoDup (slots sc n) -> forall i j a b, nth_error n i = Some a -> nth_error n j = Some b -> nScope a = sc -> nScope b = sc -> nCnt a = nCnt b -> i = j.
Proof.
  unfold slots. induction n as [|e n IH]; intros ND i j a b A B SA SB C; [destruct i; discriminate A|]. cbn [filter] in ND.
  assert (K : forall m z, nth_error n m = Some z -> nScope z = sc -> In (nCnt z) (map nCnt (filter (isSc sc) n))).
  { intros m z Hz Sz. apply in_map, filter_In. split; [exact (nth_error_In _ _ Hz)|]. unfold isSc. apply Z.eqb_eq. exact Sz. }
  destruct i as [|i]; destruct j as [|j]; cbn [nth_error] in A, B; [reflexivity| | |].
  - injection A as ->. unfold isSc at 1 in ND. rewrite SA, Z.eqb_refl in ND. cbn [map] in ND. apply NoDup_cons_iff in ND; destruct ND as [NI _]; destruct NI. rewrite C. exact (K _ _ B SB).
  - injection B as ->. unfold isSc at 1 in ND. rewrite SB, Z.eqb_refl in ND. cbn [map] in ND. apply NoDup_cons_iff in ND; destruct ND as [NI _]; destruct NI. rewrite <- C. exact (K _ _ A SA).
  - f_equal. refine (IH _ _ _ _ _ A B SA SB C). destruct (isSc sc e); [cbn [map] in ND; inversion ND; assumption|exact ND].
Qed.
Lemma slots_distinct sc n i j : sc <> ScVOID -> NoDup (slots sc n) -> scopeAt n i = sc -> scopeAt n j = sc -> cntAt n i = cntAt n j -> i = j.
Proof.
  intros V ND. unfold scopeAt, cntAt, ent. destruct (Z.ltb_spec i 0); [congruence|]. destruct (Z.ltb_spec j 0); [congruence|].
  destruct (nth_error n (Z.to_nat i)) as [a|] eqn:A; [|congruence]. destruct (nth_error n (Z.to_nat j)) as [b|] eqn:B; [|congruence].
  intros SA SB C. pose proof (slots_nth _ _ ND _ _ _ _ A B SA SB C). lia.
Qed.

(* ---- inside a body ---- *)
Record tidy (E : env) : Prop := Tidy {
  t_diff : NoDup (slots ScLVAR (eN E));
  t_rng : forall c, In c (slots ScLVAR (eN E)) -> 1 <= c <= eC E;
  t_cnt : 0 <= eC E }.
(* E' has the names of E and more, and the same parameters *)
Record grown (E E' : env) : Prop := Grown {
  g_app : exists r, eN E' = eN E ++ r;
  g_prm : slots ScPRM (eN E') = slots ScPRM (eN E);
  g_cnt : eC E <= eC E';
  g_max : eM E <= eM E';
  g_top : eC E <= eM E -> eC E' <= eM E' }.
Lemma grown_refl E : grown E E.
Proof. constructor; try lia; auto. exists []. rewrite app_nil_r. reflexivity. Qed.
Lemma grown_trans A B C : grown A B -> grown B C -> grown A C.
Proof.
  intros [[r R] P1 C1 M1 T1] [[s S] P2 C2 M2 T2]. constructor; try lia; auto; try congruence. exists (r ++ s). rewrite S, R, app_assoc. reflexivity.
Qed.
Lemma tidy_var t d E v x E' : okVar t d E v x E' -> tidy E -> tidy E' /\ (exists r, eN E' = eN E ++ r) /\ slots ScPRM (eN E') = slots ScPRM (eN E) /\ eC E <= eC E' /\ eM E' = eM E.
Proof.
  intros H T. assert (exists nm, eN E' = eN E ++ [Ent nm ScLVAR t d (eC E + 1) false] /\ eC E' = eC E + 1 /\ eM E' = eM E) as (nm & EN & EC & EM).
  { destruct H as [n l c m k nm n' i DN|n l c m k nm n' i e t2 d2 lv x DN HS FT]; apply def_app in DN; destruct DN as [-> ->]; exists nm; auto. }
  destruct T as [ND RG CN]. split; [constructor|split; [eauto|split; [|lia]]].
  - rewrite EN, slots_app. change (slots ScLVAR [Ent nm ScLVAR t d (eC E + 1) false]) with [eC E + 1]. apply NoDup_rev in ND. rewrite <- (rev_involutive (_ ++ _)). apply NoDup_rev. rewrite rev_app_distr. cbn [rev app].
    constructor; [|exact ND]. rewrite <- in_rev. intros I. apply RG in I. lia.
  - intros c I. rewrite EN, slots_app in I. apply in_app_iff in I. destruct I as [I|[<-|[]]]; [apply RG in I|]; cbn [nCnt]; lia.
  - lia.
  - rewrite EN, slots_app. change (slots ScPRM [Ent nm ScLVAR t d (eC E + 1) false]) with (@nil Z). apply app_nil_r.
Qed.
Lemma tidy_vars t d E a vs x E' : okVars t d E a vs x E' -> tidy E -> tidy E' /\ (exists r, eN E' = eN E ++ r) /\ slots ScPRM (eN E') = slots ScPRM (eN E) /\ eC E <= eC E' /\ eM E' = eM E.
Proof.
  induction 1 as [E a|E a v r x E1 y E2 V R IH]; intros T.
  - split; [exact T|]. split; [exists []; rewrite app_nil_r; reflexivity|]. repeat split; auto; lia.
  - destruct (tidy_var _ _ _ _ _ _ V T) as (T1 & (r1 & R1) & P1 & C1 & M1). destruct (IH T1) as (T2 & (r2 & R2) & P2 & C2 & M2).
    split; [exact T2|]. split; [exists (r1 ++ r2); rewrite R2, R1, app_assoc; reflexivity|]. repeat split; congruence || lia.
Qed.
Lemma tidy_decl E d x E' : okDecl E d x E' -> tidy E -> tidy E' /\ grown E E'.
Proof.
  intros H. destruct H as [E t d vs x n l c m k V R]. intros T.
  assert (tidy (Env (eN E) (eL E) (eC E) (eM E) (Z.of_nat d))) as T0 by (destruct T; constructor; assumption).
  destruct (tidy_vars _ _ _ _ _ _ _ R T0) as ([A B C] & X & P & C1 & M1). cbn [eN eC eM] in *. split; constructor; cbn [eN eC eM]; auto; try lia.
Qed.
Lemma tidy_same n l c m k l' k' : tidy (Env n l c m k) -> tidy (Env n l' c m k').
Proof. intros [A B C]. constructor; assumption. Qed.
Lemma grown_same n l c m k l' k' : grown (Env n l c m k) (Env n l' c m k').
Proof. constructor; cbn [eN eC eM]; auto; try lia. exists []. rewrite app_nil_r. reflexivity. Qed.
Lemma tidy_cond E c x E' : okCond E c x E' -> tidy E -> tidy E' /\ grown E E'.
Proof. intros H T. destruct H; [split; [exact T|apply grown_refl]|]. split; [exact (tidy_same _ _ _ _ _ _ _ T)|apply grown_same]. Qed.
Lemma tidy_opt E c x E' : okOpt E c x E' -> tidy E -> tidy E' /\ grown E E'.
Proof. intros H T. destruct H; [split; [exact T|apply grown_refl]|]. split; [exact (tidy_same _ _ _ _ _ _ _ T)|apply grown_same]. Qed.
Lemma tidy_ini E i x E' : okIni E i x E' -> tidy E -> tidy E' /\ grown E E'.
Proof. intros H T. destruct H as [| |E d x E' H]; [split; [exact T|apply grown_refl]|split; [exact (tidy_same _ _ _ _ _ _ _ T)|apply grown_same]|exact (tidy_decl _ _ _ _ H T)]. Qed.
Lemma tidy_leave E E' : tidy E -> grown E E' -> tidy (leave E E') /\ grown E (leave E E').
Proof.
  intros [A B C] [[r R] P C1 M1 T1]. unfold leave.
  assert (V : slots ScLVAR (ntSetVoid (eN E') (ntGetSize (eN E))) = slots ScLVAR (eN E)).
  { rewrite R, setVoid_app, slots_app, slots_void by discriminate. apply app_nil_r. }
  assert (V2 : slots ScPRM (ntSetVoid (eN E') (ntGetSize (eN E))) = slots ScPRM (eN E)).
  { rewrite R, setVoid_app, slots_app, slots_void by discriminate. apply app_nil_r. }
  split; constructor; cbn [eN eC eM]; try rewrite V; auto; try lia.
  rewrite R, setVoid_app. eauto.
Qed.
Lemma tidy_stmt rt rd :
  (forall b E s x E', okS rt rd b E s x E' -> tidy E -> tidy E' /\ grown E E') /\
  (forall b E a q x E', okQ rt rd b E a q x E' -> tidy E -> tidy E' /\ grown E E').
Proof.
  apply ok_mutind; intros;
    repeat match goal with
    | T : tidy ?E, H : okCond ?E _ _ _ |- _ => let A := fresh in let B := fresh in destruct (tidy_cond _ _ _ _ H T) as [A B]; clear H
    | T : tidy ?E, H : okOpt ?E _ _ _ |- _ => let A := fresh in let B := fresh in destruct (tidy_opt _ _ _ _ H T) as [A B]; clear H
    | T : tidy ?E, H : okIni ?E _ _ _ |- _ => let A := fresh in let B := fresh in destruct (tidy_ini _ _ _ _ H T) as [A B]; clear H
    | T : tidy ?E, H : okDecl ?E _ _ _ |- _ => let A := fresh in let B := fresh in destruct (tidy_decl _ _ _ _ H T) as [A B]; clear H
    | T : tidy ?E, H : tidy ?E -> tidy _ /\ _ |- _ => let A := fresh in let B := fresh in destruct (H T) as [A B]; clear H
    end;
    try (split; [assumption|apply grown_refl]);
    try (split; [eapply tidy_same; eassumption|apply grown_same]);
    try (split; [assumption|eauto using grown_trans]);
    try (apply tidy_leave; eauto using grown_trans).
Qed.
Scheme inS_min := Minimality for inS Sort Prop with inQ_min := Minimality for inQ Sort Prop.
Combined Scheme in_mutind from inS_min, inQ_min.
(* what holds of a place of a statement that starts in E *)
Definition fine (E P : env) : Prop := tidy E -> tidy P /\ slots ScPRM (eN P) = slots ScPRM (eN E).
Lemma fine_step A B P : tidy A -> grown A B -> tidy B -> fine B P -> fine A P.
Proof. intros T G TB F _. destruct (F TB) as [X Y]. split; [exact X|]. rewrite Y. exact (g_prm _ _ G). Qed.
Lemma fine_decl E d P : inD E d P -> fine E P.
Proof.
  intros H. destruct H as [E t d vs ws x P H]. intros T.
    assert (tidy (Env (eN E) (eL E) (eC E) (eM E) (Z.of_nat d))) as T0 by (destruct T; constructor; assumption).
    destruct (tidy_vars _ _ _ _ _ _ _ H T0) as (A & _ & B & _). auto.
Qed.
Lemma fine_ini E i P : inI E i P -> fine E P.
Proof. intros H. destruct H as [E d P H]. exact (fine_decl _ _ _ H). Qed.
Lemma fine_places rt rd :
  (forall b E s P, inS rt rd b E s P -> fine E P) /\ (forall b E a q P, inQ rt rd b E a q P -> fine E P).
Proof.
  apply in_mutind; (intros; intros T;
    repeat match goal with
    | T : tidy ?E, H : okCond ?E _ _ _ |- _ => let A := fresh in let B := fresh in destruct (tidy_cond _ _ _ _ H T) as [A B]; clear H
    | T : tidy ?E, H : okOpt ?E _ _ _ |- _ => let A := fresh in let B := fresh in destruct (tidy_opt _ _ _ _ H T) as [A B]; clear H
    | T : tidy ?E, H : okIni ?E _ _ _ |- _ => let A := fresh in let B := fresh in destruct (tidy_ini _ _ _ _ H T) as [A B]; clear H
    | T : tidy ?E, H : okDecl ?E _ _ _ |- _ => let A := fresh in let B := fresh in destruct (tidy_decl _ _ _ _ H T) as [A B]; clear H
    | T : tidy ?E, H : okS _ _ _ ?E _ _ _ |- _ => let A := fresh in let B := fresh in destruct (proj1 (tidy_stmt _ _) _ _ _ _ _ H T) as [A B]; clear H
    end;
    solve [auto | eapply fine_decl; eassumption | eapply fine_ini; eassumption | split; [assumption|eapply g_prm; eassumption] | match goal with F : fine ?B ?P |- _ => refine (fine_step _ B _ _ _ _ F _); eauto using grown_trans end]).
Qed.

(* ---- the frame ---- *)
Lemma okVars_split t d vs : forall E a ws y E2, okVars t d E a (vs ++ ws) y E2 -> exists x E1, okVars t d E a vs x E1 /\ okVars t d E1 x ws y E2.
Proof.
  induction vs as [|v vs IH]; intros E a ws y E2 H; cbn [app] in H.
  - exists a, E. split; [constructor|exact H].
  - inversion H as [|? ? ? ? x E1 ? ? V R]; subst. destruct (IH _ _ _ _ _ R) as (x' & E' & A & B). exists x', E'. split; [econstructor; eassumption|exact B].
Qed.
Lemma max_decl E d P : inD E d P -> forall x E', okDecl E d x E' -> tidy E -> eC P <= eM E'.
Proof.
  intros H. destruct H as [E t d vs ws x P H]. intros y E' O T. inversion O as [? ? ? ? ? n l c m k V R]; subst. cbn [eM].
  assert (tidy (Env (eN E) (eL E) (eC E) (eM E) (Z.of_nat d))) as T0 by (destruct T; constructor; assumption).
  destruct (okVars_split _ _ _ _ _ _ _ _ R) as (x1 & E1 & A & B). destruct (okVars_one _ _ _ _ _ _ _ A _ _ H) as [-> ->].
  destruct (tidy_vars _ _ _ _ _ _ _ A T0) as (T1 & _). destruct (tidy_vars _ _ _ _ _ _ _ B T1) as (_ & _ & _ & C & _). cbn [eC] in C. lia.
Qed.
Lemma max_ini E i P : inI E i P -> forall x E', okIni E i x E' -> tidy E -> eC P <= eM E'.
Proof. intros H. destruct H as [E d P H]. intros x E' O T. inversion O; subst. eapply max_decl; eassumption. Qed.
Definition seen (E E' : env) : Prop := True.
Lemma max_places rt rd :
  (forall b E s P, inS rt rd b E s P -> forall x E', okS rt rd b E s x E' -> tidy E -> eC E <= eM E -> eC P <= eM E') /\
  (forall b E a q P, inQ rt rd b E a q P -> forall x E', okQ rt rd b E a q x E' -> tidy E -> eC E <= eM E -> eC P <= eM E').
Proof.
  assert (KS : forall b E s x E', okS rt rd b E s x E' -> tidy E -> eC E <= eM E -> eC E <= eM E') by (intros b E s x E' O T C; pose proof (g_max _ _ (proj2 (proj1 (tidy_stmt _ _) _ _ _ _ _ O T))); lia).
  assert (KQ : forall b E a q x E', okQ rt rd b E a q x E' -> tidy E -> eC E <= eM E -> eC E <= eM E') by (intros b E a q x E' O T C; pose proof (g_max _ _ (proj2 (proj2 (tidy_stmt _ _) _ _ _ _ _ _ O T))); lia).
  apply in_mutind; try solve [intros; eauto]; intros;
    match goal with H : okS _ _ _ _ _ ?x ?E' |- _ <= eM ?E' => inversion H; subst; clear H | H : okQ _ _ _ _ _ _ ?x ?E' |- _ <= eM ?E' => inversion H; subst; clear H end; unfold leave; cbn [eM];
    repeat match goal with
    | A : okCond ?E ?c _ _, B : okCond ?E ?c _ _ |- _ => destruct (okCond_one _ _ _ _ _ _ A B) as [? ?]; subst; clear B
    | A : okOpt ?E ?c _ _, B : okOpt ?E ?c _ _ |- _ => destruct (okOpt_one _ _ _ _ _ _ A B) as [? ?]; subst; clear B
    | A : okIni ?E ?c _ _, B : okIni ?E ?c _ _ |- _ => destruct (okIni_one _ _ _ _ _ _ A B) as [? ?]; subst; clear B
    | A : okDecl ?E ?c _ _, B : okDecl ?E ?c _ _ |- _ => destruct (okDecl_one _ _ _ _ _ _ A B) as [? ?]; subst; clear B
    | A : okS _ _ ?b ?E ?c _ _, B : okS _ _ ?b ?E ?c _ _ |- _ => destruct (proj1 (ok_det _ _) _ _ _ _ _ A _ _ B) as [? ?]; subst; clear B
    end;
    repeat match goal with
    | H : inD ?E ?d ?P, O : okDecl ?E ?d ?x ?E', T : tidy ?E |- _ => pose proof (max_decl _ _ _ H _ _ O T); clear H
    | H : inI ?E ?d ?P, O : okIni ?E ?d ?x ?E', T : tidy ?E |- _ => pose proof (max_ini _ _ _ H _ _ O T); clear H
    end;
    repeat match goal with
    | T : tidy ?E, H : okCond ?E _ _ _ |- _ => let A := fresh in let B := fresh in destruct (tidy_cond _ _ _ _ H T) as [A B]; clear H
    | T : tidy ?E, H : okOpt ?E _ _ _ |- _ => let A := fresh in let B := fresh in destruct (tidy_opt _ _ _ _ H T) as [A B]; clear H
    | T : tidy ?E, H : okIni ?E _ _ _ |- _ => let A := fresh in let B := fresh in destruct (tidy_ini _ _ _ _ H T) as [A B]; clear H
    | T : tidy ?E, H : okDecl ?E _ _ _ |- _ => let A := fresh in let B := fresh in destruct (tidy_decl _ _ _ _ H T) as [A B]; clear H
    end;
    repeat match goal with
    | T : tidy ?E, H : okS ?r1 ?r2 ?b ?E ?s ?x ?E' |- _ => lazymatch goal with _ : seen E E' |- _ => fail | _ => let A := fresh in let B := fresh in destruct (proj1 (tidy_stmt _ _) _ _ _ _ _ H T) as [A B]; assert (seen E E') by exact Logic.I end
    | T : tidy ?E, H : okQ ?r1 ?r2 ?b ?E ?a ?s ?x ?E' |- _ => lazymatch goal with _ : seen E E' |- _ => fail | _ => let A := fresh in let B := fresh in destruct (proj2 (tidy_stmt _ _) _ _ _ _ _ _ H T) as [A B]; assert (seen E E') by exact Logic.I end
    end;
    repeat match goal with B : grown _ _ |- _ => destruct B as [_ _ ? ? ?] end;
    repeat match goal with A : ?a <= ?b, B : ?a <= ?b -> _ |- _ => specialize (B A) end;
    repeat match goal with
    | IH : forall x E', okS _ _ ?b ?E ?s x E' -> _, O : okS _ _ ?b ?E ?s ?x ?E', T : tidy ?E |- _ => specialize (IH _ _ O T)
    | IH : forall x E', okQ _ _ ?b ?E ?a ?s x E' -> _, O : okQ _ _ ?b ?E ?a ?s ?x ?E', T : tidy ?E |- _ => specialize (IH _ _ O T)
    end; try lia.
  all: match goal with T : tidy ?E, H : okCond ?E _ _ ?E' |- _ => pose proof (g_max _ _ (proj2 (tidy_cond _ _ _ _ H T))) end; lia.
Qed.

(* ---- outside functions no local and no parameter is visible ---- *)
Definition hidden (n : table) : Prop := Forall (fun e => nScope e <> ScLVAR /\ nScope e <> ScPRM) n.
Lemma hidden_app a b : hidden (a ++ b) <-> hidden a /\ hidden b.
Proof. apply Forall_app. Qed.
Lemma hidden_one nm sc t d c p : sc <> ScLVAR -> sc <> ScPRM -> hidden [Ent nm sc t d c p].
Proof. intros A B. constructor; [auto|constructor]. Qed.
Lemma hidden_voided r : hidden (map voided r).
Proof. apply Forall_map, Forall_forall. intros e _. cbn. split; discriminate. Qed.
Lemma hidden_upd f n : (forall e, nScope e <> ScLVAR /\ nScope e <> ScPRM -> nScope (f e) <> ScLVAR /\ nScope (f e) <> ScPRM) -> hidden n -> forall k, hidden (NameTable.upd f n k).
Proof.
  intros F. induction n as [|e n IH]; intros H k; [exact H|]. inversion H; subst. destruct k; cbn [NameTable.upd]; constructor; auto. apply IH. assumption.
Qed.
Lemma hidden_setCnt n i c : hidden n -> hidden (ntSetCnt n i c).
Proof. intros H. apply hidden_upd; [|exact H]. intros e A. exact A. Qed.
Lemma hidden_setScope n i s : s <> ScLVAR -> s <> ScPRM -> hidden n -> hidden (ntSetScope n i s).
Proof. intros A B H. apply hidden_upd; [|exact H]. intros e _. split; assumption. Qed.
Lemma firstn_upd f n : forall k j, firstn k (NameTable.upd f n j) = NameTable.upd f (firstn k n) j.
Proof.
  induction n as [|e n IH]; intros k j; [destruct k; reflexivity|]. destruct k; [reflexivity|]. destruct j; cbn [NameTable.upd firstn]; [reflexivity|]. f_equal. apply IH.
Qed.
Lemma hidden_firstn n k : hidden n -> hidden (firstn k n).
Proof. intros H. rewrite <- (firstn_skipn k n) in H. apply hidden_app in H. exact (proj1 H). Qed.
Lemma hidden_def n nm sc t d c p n' i : ntDefName n nm sc t d c p = NOk (n', i) -> sc <> ScLVAR -> sc <> ScPRM -> hidden n -> hidden n'.
Proof. intros D A B H. apply def_app in D. destruct D as [-> _]. apply hidden_app. split; [exact H|exact (hidden_one _ _ _ _ _ _ A B)]. Qed.
Lemma hidden_names t d n c ns n' c' : okNames t d n c ns n' c' -> hidden n -> hidden n'.
Proof. induction 1 as [|n c nm r n1 i n' c' D R IH]; intros H; [exact H|]. apply IH. exact (hidden_def _ _ _ _ _ _ _ _ _ D ltac:(discriminate) ltac:(discriminate) H). Qed.
Lemma hidden_flines n c d fs n' c' d' : okFlines n c d fs n' c' d' -> hidden n -> hidden n'.
Proof. induction 1 as [|n c d0 t d ns r n1 c1 n' c' d' V N R IH]; intros H; [exact H|]. apply IH. exact (hidden_names _ _ _ _ _ _ _ N H). Qed.
Lemma hidden_setVoid n k : hidden n -> hidden (ntSetVoid n k).
Proof. intros H. apply hidden_app. split; [apply hidden_firstn; exact H|apply hidden_voided]. Qed.
Lemma hidden_gvar t d pub T v T' : okGVar t d pub T v T' -> hidden (tN T) -> hidden (tN T').
Proof.
  intros H I. destruct H; cbn [tN] in *; try (apply hidden_setScope; [discriminate|discriminate|assumption]); try assumption;
    match goal with D : ntDefName _ _ _ _ _ _ _ = _ |- _ => exact (hidden_def _ _ _ _ _ _ _ _ _ D ltac:(discriminate) ltac:(discriminate) I) end.
Qed.
Lemma hidden_gvars t d pub T vs T' : okGVars t d pub T vs T' -> hidden (tN T) -> hidden (tN T').
Proof. induction 1 as [|T v T1 r T2 V R IH]; intros H; [exact H|]. apply IH. exact (hidden_gvar _ _ _ _ _ _ V H). Qed.
(* the parameters: entries after the function's, numbered from 0 *)
Lemma params_slots prev n c d ps k n' c' d' : okParams prev n c d ps k n' c' d' ->
  exists r, n' = n ++ r /\ slots ScPRM r = map (fun j => c + Z.of_nat j) (seq 0 (length r)) /\ slots ScLVAR r = [].
Proof.
  induction 1 as [| | | |n c d0 t d nm ps k n1 i n' c' d' V L D NE R IH].
  - exists []. rewrite app_nil_r. auto.
  - apply def_app in H0. destruct H0 as [-> _]. eexists. split; [reflexivity|]. cbn. rewrite Z.add_0_r. auto.
  - apply def_app in H1. destruct H1 as [-> _]. eexists. split; [reflexivity|]. cbn. rewrite Z.add_0_r. auto.
  - apply def_app in H1. destruct H1 as [-> _]. eexists. split; [reflexivity|]. cbn. rewrite Z.add_0_r. auto.
  - apply def_app in D. destruct D as [-> _]. destruct IH as (r & -> & S1 & S2). eexists. split; [rewrite <- app_assoc; reflexivity|]. rewrite !slots_app, S1, S2. split; [|reflexivity].
    rewrite app_length. cbn [length]. change (slots ScPRM [Ent nm ScPRM (tyCode n t) (Z.of_nat d) c false]) with [c]. cbn [Nat.add seq map app]. f_equal; [lia|].
    rewrite <- seq_shift, map_map. apply map_ext. intros j. lia.
Qed.
Lemma hidden_slots sc n : sc = ScLVAR \/ sc = ScPRM -> hidden n -> slots sc n = [].
Proof.
  intros S H. unfold slots. induction H as [|e n [A B] _ IH]; [reflexivity|]. cbn [filter]. unfold isSc at 1. destruct (Z.eqb_spec (nScope e) sc); [|exact IH]. destruct S; congruence.
Qed.
Lemma upd_app f a b j : (j < length a)%nat -> NameTable.upd f (a ++ b) j = NameTable.upd f a j ++ b.
Proof.
  revert j. induction a as [|e a IH]; intros j L; [cbn in L; lia|]. destruct j; cbn [app NameTable.upd]; [reflexivity|]. f_equal. apply IH. cbn in L. lia.
Qed.
Lemma scan_range f n : forall b i, scan f n b = Some i -> b <= i < b + ntGetSize n.
Proof.
  unfold ntGetSize. induction n as [|e n IH]; intros b i H; cbn [scan] in H; [discriminate H|]. cbn [length]. destruct (f e); [injection H as <-; lia|]. apply IH in H. lia.
Qed.
Lemma prior_range n nm i : prior n nm = Some i -> 0 <= i < ntGetSize n.
Proof. intros H. apply scan_range in H. lia. Qed.
(* the table in a function's body: hidden names, the function, the parameters *)
Lemma enter_shape krn n c0 pub t d nm ps k prev fi n2 c d2 prm : okHead krn n c0 pub t d nm ps k prev fi n2 c d2 prm -> hidden n ->
  exists m r, enter prev fi (ntSetCnt n2 fi prm) = m ++ r /\ hidden m /\ ntGetSize m = fi + 1 /\ fi = ntGetSize n /\
    ntGetSize r = prm /\ slots ScPRM r = map Z.of_nat (seq 0 (length r)) /\ slots ScLVAR r = [].
Proof.
  intros [_ PV _ (n1 & D & OP) PC _] H. pose proof (hidden_def _ _ _ _ _ _ _ _ _ D ltac:(discriminate) ltac:(discriminate) H) as H1. apply def_app in D. destruct D as [EN EF].
  destruct (params_slots _ _ _ _ _ _ _ _ _ OP) as (r & -> & S1 & S2).
  assert (L1 : ntGetSize n1 = fi + 1) by (subst n1 fi; unfold ntGetSize; rewrite app_length; cbn [length]; lia).
  assert (F0 : 0 <= fi) by (subst fi; unfold ntGetSize; lia).
  assert (LU : forall f a j, ntGetSize (NameTable.upd f a j) = ntGetSize a) by (intros f a; unfold ntGetSize; induction a as [|e a IH]; intros j; [reflexivity|]; destruct j; cbn [NameTable.upd length]; [reflexivity|]; specialize (IH j); lia).
  assert (UA : forall f a b j, 0 <= j < ntGetSize a -> NameTable.upd f (a ++ b) (Z.to_nat j) = NameTable.upd f a (Z.to_nat j) ++ b) by (intros f a b j J; apply upd_app; unfold ntGetSize in J; lia).
  exists (enter prev fi (ntSetCnt n1 fi prm)), r. unfold enter, ntSetScope, ntSetCnt.
  assert (PR : ntGetSize r = prm).
  { subst prm. change (n1 ++ r) with (n1 ++ r). unfold ntGetSize in *. rewrite app_length. lia. }
  split.
  - rewrite UA by lia. destruct prev as [i|].
    + assert (0 <= i < ntGetSize n1) by (symmetry in PV; apply prior_range in PV; rewrite L1; lia). rewrite UA by (rewrite LU; lia). rewrite UA by (rewrite !LU; lia). reflexivity.
    + rewrite UA by (rewrite LU; lia). reflexivity.
  - split; [|split; [|split; [exact EF|split; [exact PR|split; [exact S1|exact S2]]]]].
    + apply hidden_setScope; [discriminate|discriminate|]. destruct prev; [apply hidden_setScope; [discriminate|discriminate|]|]; apply hidden_setCnt; exact H1.
    + destruct prev; rewrite !LU; exact L1.
Qed.
Lemma hidden_settle krn n c0 pub t d nm ps k prev fi n2 c d2 prm m r z : okHead krn n c0 pub t d nm ps k prev fi n2 c d2 prm ->
  hidden m -> ntGetSize m = fi + 1 -> 0 <= fi -> hidden (settle prev fi (fi + 1) (ntGetSize n2) ((m ++ r) ++ z)).
Proof.
  intros HD HM LM F. unfold settle. rewrite <- app_assoc. destruct prev as [i|].
  - unfold ntUndefName. rewrite firstn_app. replace (Z.to_nat fi - length m)%nat with O by (unfold ntGetSize in LM; lia). rewrite firstn_O, app_nil_r. apply hidden_firstn, HM.
  - unfold ntUndefName. rewrite firstn_app. destruct HD as [_ _ _ (n1 & D & OP) _ _]. apply def_app in D. destruct D as [EN EF]. destruct (params_slots _ _ _ _ _ _ _ _ _ OP) as (r1 & -> & _).
    rewrite firstn_all2 by (subst n1; unfold ntGetSize in *; rewrite !app_length; cbn [length]; lia). rewrite <- LM. rewrite setVoid_app. apply hidden_app. split; [exact HM|apply hidden_voided].
Qed.
Lemma start_tidy krn n c0 pub t d nm ps k prev fi n2 c d2 prm l : okHead krn n c0 pub t d nm ps k prev fi n2 c d2 prm -> hidden n ->
  tidy (Env (enter prev fi (ntSetCnt n2 fi prm)) l 0 0 d2) /\ slots ScPRM (enter prev fi (ntSetCnt n2 fi prm)) = map Z.of_nat (seq 0 (Z.to_nat prm)).
Proof.
  intros HD H. destruct (enter_shape _ _ _ _ _ _ _ _ _ _ _ _ _ _ _ HD H) as (m & r & E & HM & _ & _ & PR & S1 & S2).
  rewrite E. split.
  - assert (S : slots ScLVAR (m ++ r) = []) by (rewrite slots_app, S2, (hidden_slots ScLVAR m (or_introl eq_refl) HM); reflexivity).
    constructor; cbn [eN eC]; [rewrite S; constructor|intros x I; rewrite S in I; destruct I|lia].
  - rewrite slots_app, S1, (hidden_slots ScPRM m (or_intror eq_refl) HM). cbn [app]. f_equal. f_equal. subst prm. unfold ntGetSize. lia.
Qed.
Lemma hidden_top opt krn T x T' : okTop opt krn T x T' -> hidden (tN T) -> hidden (tN T').
Proof.
  intros H I. destruct H as [n l c d b k o nm fs n1 i n2 c2 d2 D F|n l c d b k o nm n1 i D|n l c d0 b k o pub t d vs T' V R|n l c0 d0 b k o pub t d nm ps e prev fi n2 c d2 prm HD
    |n l c0 d0 b k o pub t d nm ps e prev fi n2 c d2 prm q x E E' root code lb HD PV EE OQ RT RO GF]; cbn [tN] in *.
  - apply hidden_setCnt, hidden_setVoid. apply (hidden_flines _ _ _ _ _ _ _ F). exact (hidden_def _ _ _ _ _ _ _ _ _ D ltac:(discriminate) ltac:(discriminate) I).
  - exact (hidden_def _ _ _ _ _ _ _ _ _ D ltac:(discriminate) ltac:(discriminate) I).
  - exact (hidden_gvars _ _ _ _ _ _ R I).
  - destruct HD as [A1 A2 A3 (n1 & D & OP) A5 A6] eqn:Q. pose proof HD as HD'. clear Q.
    pose proof (hidden_def _ _ _ _ _ _ _ _ _ D ltac:(discriminate) ltac:(discriminate) I) as H1. destruct (params_slots _ _ _ _ _ _ _ _ _ OP) as (r & -> & _). pose proof (def_app _ _ _ _ _ _ _ _ _ D) as [EN EF].
    assert (L1 : ntGetSize n1 = fi + 1) by (subst n1 fi; unfold ntGetSize; rewrite app_length; cbn [length]; lia).
    unfold ntSetCnt. rewrite upd_app by (subst fi; unfold ntGetSize in *; lia). rewrite <- (app_nil_r (NameTable.upd _ _ _ ++ r)). eapply hidden_settle; [exact HD'|apply (hidden_setCnt n1 fi); exact H1| |subst fi; unfold ntGetSize; lia].
    unfold ntGetSize in *. rewrite <- L1. f_equal. clear. revert fi. assert (forall f (a : table) j, length (NameTable.upd f a j) = length a) as X by (intros f a; induction a as [|y a IH]; intros j; [reflexivity|]; destruct j; cbn [NameTable.upd length]; auto). intros. apply X.
  - subst E. destruct (enter_shape _ _ _ _ _ _ _ _ _ _ _ _ _ _ _ HD I) as (m & r & EQ & HM & LM & EF & _). destruct (start_tidy _ _ _ _ _ _ _ _ _ _ _ _ _ _ _ l HD I) as [T0 _].
    destruct (proj2 (tidy_stmt _ _) _ _ _ _ _ _ OQ T0) as [T1 G]. destruct (tidy_leave _ _ T0 G) as [_ [[z Z] _ _ _ _]]. rewrite Z. cbn [eN]. rewrite EQ. eapply hidden_settle; [exact HD|exact HM|exact LM|subst fi; unfold ntGetSize; lia].
Qed.
Lemma hidden_prog opt krn T p T' : okProg opt krn T p T' -> hidden (tN T) -> hidden (tN T').
Proof. induction 1 as [|T x T1 p T2 H R IH]; intros I; [exact I|]. apply IH. exact (hidden_top _ _ _ _ _ H I). Qed.

(* ---- numbers stay ---- *)
Definition kept (n n' : table) : Prop := ntGetSize n <= ntGetSize n' /\ forall i, 0 <= i < ntGetSize n -> cntAt n' i = cntAt n i.
Lemma kept_refl n : kept n n.
Proof. split; [lia|auto]. Qed.
Lemma kept_trans a b c : kept a b -> kept b c -> kept a c.
Proof. intros [A1 A2] [B1 B2]. split; [lia|]. intros i I. rewrite B2 by lia. apply A2. exact I. Qed.
Lemma kept_app n r : kept n (n ++ r).
Proof. split; [unfold ntGetSize; rewrite app_length; lia|]. intros i I. unfold cntAt. rewrite ent_app_l by lia. reflexivity. Qed.
Lemma kept_grown E E' : grown E E' -> kept (eN E) (eN E').
Proof. intros [[r ->] _ _ _ _]. apply kept_app. Qed.
Lemma cnt_voided t i : option_map nCnt (ent (map voided t) i) = option_map nCnt (ent t i).
Proof. rewrite ent_map. destruct (ent t i); reflexivity. Qed.
Lemma kept_void n k : kept n (ntSetVoid n k).
Proof.
  split; [rewrite size_setVoid; lia|]. intros i I. unfold cntAt, ent, ntSetVoid. destruct (i <? 0); [reflexivity|]. set (j := Z.to_nat i).
  destruct (Nat.lt_ge_cases j (length (firstn (Z.to_nat k) n))) as [L|L].
  - rewrite nth_error_app1 by exact L. rewrite <- (firstn_skipn (Z.to_nat k) n) at 2. rewrite nth_error_app1 by exact L. reflexivity.
  - rewrite nth_error_app2 by exact L. rewrite <- (firstn_skipn (Z.to_nat k) n) at 3. rewrite nth_error_app2 by exact L. rewrite nth_error_map. destruct (nth_error _ _); reflexivity.
Qed.
Lemma kept_leave E E' P : kept (eN P) (eN E') -> kept (eN P) (eN (leave E E')).
Proof. intros H. unfold leave. cbn [eN]. exact (kept_trans _ _ _ H (kept_void _ _)). Qed.
Lemma kept_decl E d P : inD E d P -> forall x E', okDecl E d x E' -> tidy E -> kept (eN P) (eN E').
Proof.
  intros H. destruct H as [E t d vs ws x P H]. intros y E' O T. inversion O as [? ? ? ? ? n l c m k V R]; subst. cbn [eN].
  assert (tidy (Env (eN E) (eL E) (eC E) (eM E) (Z.of_nat d))) as T0 by (destruct T; constructor; assumption).
  destruct (okVars_split _ _ _ _ _ _ _ _ R) as (x1 & E1 & A & B). destruct (okVars_one _ _ _ _ _ _ _ A _ _ H) as [-> ->].
  destruct (tidy_vars _ _ _ _ _ _ _ A T0) as (T1 & _). destruct (tidy_vars _ _ _ _ _ _ _ B T1) as (_ & (r & C) & _). cbn [eN] in C. rewrite C. apply kept_app.
Qed.
Lemma kept_ini E i P : inI E i P -> forall x E', okIni E i x E' -> tidy E -> kept (eN P) (eN E').
Proof. intros H. destruct H as [E d P H]. intros x E' O T. inversion O; subst. eapply kept_decl; eassumption. Qed.
Lemma kept_places rt rd :
  (forall b E s P, inS rt rd b E s P -> forall x E', okS rt rd b E s x E' -> tidy E -> kept (eN P) (eN E')) /\
  (forall b E a q P, inQ rt rd b E a q P -> forall x E', okQ rt rd b E a q x E' -> tidy E -> kept (eN P) (eN E')).
Proof.
  assert (KS : forall b E s x E', okS rt rd b E s x E' -> tidy E -> kept (eN E) (eN E')) by (intros b E s x E' O T; exact (kept_grown _ _ (proj2 (proj1 (tidy_stmt _ _) _ _ _ _ _ O T)))).
  assert (KQ : forall b E a q x E', okQ rt rd b E a q x E' -> tidy E -> kept (eN E) (eN E')) by (intros b E a q x E' O T; exact (kept_grown _ _ (proj2 (proj2 (tidy_stmt _ _) _ _ _ _ _ _ O T)))).
  apply in_mutind; try solve [intros; eauto]; intros;
    match goal with H : okS _ _ _ _ _ ?x ?E' |- kept _ (eN ?E') => inversion H; subst; clear H | H : okQ _ _ _ _ _ _ ?x ?E' |- kept _ (eN ?E') => inversion H; subst; clear H end; try apply kept_leave;
    repeat match goal with
    | A : okCond ?E ?c _ _, B : okCond ?E ?c _ _ |- _ => destruct (okCond_one _ _ _ _ _ _ A B) as [? ?]; subst; clear B
    | A : okOpt ?E ?c _ _, B : okOpt ?E ?c _ _ |- _ => destruct (okOpt_one _ _ _ _ _ _ A B) as [? ?]; subst; clear B
    | A : okIni ?E ?c _ _, B : okIni ?E ?c _ _ |- _ => destruct (okIni_one _ _ _ _ _ _ A B) as [? ?]; subst; clear B
    | A : okDecl ?E ?c _ _, B : okDecl ?E ?c _ _ |- _ => destruct (okDecl_one _ _ _ _ _ _ A B) as [? ?]; subst; clear B
    | A : okS _ _ ?b ?E ?c _ _, B : okS _ _ ?b ?E ?c _ _ |- _ => destruct (proj1 (ok_det _ _) _ _ _ _ _ A _ _ B) as [? ?]; subst; clear B
    end;
    repeat match goal with
    | H : inD ?E ?d ?P, O : okDecl ?E ?d ?x ?E', T : tidy ?E |- _ => pose proof (kept_decl _ _ _ H _ _ O T); clear H
    | H : inI ?E ?d ?P, O : okIni ?E ?d ?x ?E', T : tidy ?E |- _ => pose proof (kept_ini _ _ _ H _ _ O T); clear H
    end;
    repeat match goal with
    | T : tidy ?E, H : okCond ?E _ _ _ |- _ => let A := fresh in let B := fresh in destruct (tidy_cond _ _ _ _ H T) as [A B]; clear H
    | T : tidy ?E, H : okOpt ?E _ _ _ |- _ => let A := fresh in let B := fresh in destruct (tidy_opt _ _ _ _ H T) as [A B]; clear H
    | T : tidy ?E, H : okIni ?E _ _ _ |- _ => let A := fresh in let B := fresh in destruct (tidy_ini _ _ _ _ H T) as [A B]; clear H
    | T : tidy ?E, H : okDecl ?E _ _ _ |- _ => let A := fresh in let B := fresh in destruct (tidy_decl _ _ _ _ H T) as [A B]; clear H
    end;
    repeat match goal with
    | T : tidy ?E, H : okS ?r1 ?r2 ?b ?E ?s ?x ?E' |- _ => lazymatch goal with _ : seen E E' |- _ => fail | _ => let A := fresh in let B := fresh in destruct (proj1 (tidy_stmt _ _) _ _ _ _ _ H T) as [A B]; assert (seen E E') by exact Logic.I end
    | T : tidy ?E, H : okQ ?r1 ?r2 ?b ?E ?a ?s ?x ?E' |- _ => lazymatch goal with _ : seen E E' |- _ => fail | _ => let A := fresh in let B := fresh in destruct (proj2 (tidy_stmt _ _) _ _ _ _ _ _ H T) as [A B]; assert (seen E E') by exact Logic.I end
    end;
    repeat match goal with
    | IH : forall x E', okS _ _ ?b ?E ?s x E' -> _, O : okS _ _ ?b ?E ?s ?x ?E', T : tidy ?E |- _ => specialize (IH _ _ O T)
    | IH : forall x E', okQ _ _ ?b ?E ?a ?s x E' -> _, O : okQ _ _ ?b ?E ?a ?s ?x ?E', T : tidy ?E |- _ => specialize (IH _ _ O T)
    end;
    repeat match goal with T : tidy ?E, H : okCond ?E _ _ _ |- _ => let A := fresh in let B := fresh in destruct (tidy_cond _ _ _ _ H T) as [A B]; clear H end;
    repeat match goal with B : grown _ _ |- _ => apply kept_grown in B end; try solve [eauto 6 using kept_trans, kept_refl].
Qed.
Lemma params_len prev n c d ps k n' c' d' : okParams prev n c d ps k n' c' d' ->
  ntGetSize n' = ntGetSize n + Z.of_nat (length ps) + (match k with PDots => 1 | _ => 0 end).
Proof.
  induction 1 as [| | | |n c d0 t d nm ps k n1 i n' c' d' V L D NE R IH];
    repeat match goal with D : ntDefName _ _ _ _ _ _ _ = _ |- _ => apply def_app in D; destruct D as [-> _] end; cbn [length]; unfold ntGetSize in *; try rewrite IH; rewrite ?app_length; cbn [length]; lia.
Qed.
