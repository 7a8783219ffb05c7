(* C65: the C text of a source file.  What the text of each declaration is: CSourceSpec.v. *)
From Coq Require Import ZArith Bool Lia String Ascii List Permutation.
From Verif Require Import Lexer NameTable SyTree OpTree VM Parser ParserStmt ParseSpec ParseShow StmtSpec ProgGram CCode AsmText CFile CDataSpec CFileSpec Properties_Parse Properties_Source CSourceSpec CSourceText CSourceSound CSourceFile.
Import ListNotations.
Open Scope Z_scope.

(* ==== C65 ==== *)
(* A file that is translated is a sequence of declarations of the grammar, with line markers
   between them, that obeys the rules of the language; the text is the text of each
   declaration, one after the other, but only an include line for what comes from a system
   header. *)
Theorem C65_source (opt krn : bool) (file : list Z) (l : list item) (text : list Z) :
  lexAll file = LOk l -> unmarked l -> translate opt krn file = Some text ->
  exists p i T, layout false l p i /\ trFile opt krn cenv0 p T /\ text = cO T ++ i.
Proof. exact (translate_sound opt krn file l text). Qed.
Print Assumptions C65_source.

(* ---- what this says in particular ---- *)
Definition declared (p : list (list Z * bool * top)) : list top := map snd p.
Lemma view_marker h ms i h1 : markers h ms i h1 -> view ms = [].
Proof. intros H. induction H as [|h m i h1 r i2 h2 K _ IH]; [reflexivity|]. destruct K; exact IH. Qed.
(* the declarations are those the compiler reads in the file *)
Theorem C65_reads (l : list item) (p : list (list Z * bool * top)) (i : list Z) (h : bool) : layout h l p i -> reads_as l (declared p).
Proof.
  induction 1 as [h ms e i h1 M E|h ms i h1 f m e y l p j M N NE -> D L (ts & V & DP)].
  - exists []. split; [|constructor]. rewrite ProgSound.view_app, (view_marker _ _ _ _ M). cbn [view app]. rewrite E. change (EOFtok =? LxFILE) with false. cbn iota. rewrite (proj2 (ProgSound.own_eof e) E). reflexivity.
  - exists (view (f ++ [e]) ++ ts). split; [|constructor; assumption]. rewrite !ProgSound.view_app in *. rewrite (view_marker _ _ _ _ M), V. cbn [app]. rewrite <- !app_assoc. reflexivity.
Qed.
Print Assumptions C65_reads.
Lemma adds_gvar hid t ty d pub T v T' : trGVar hid t ty d pub T v T' -> exists w, cO T' = cO T ++ w /\ (hid = true -> w = []).
Proof.
  intros H. destruct H; cbn [cO]; eexists; (split; [first [reflexivity|symmetry; apply app_nil_r]|]); intros ->; try reflexivity.
  match goal with H : _ /\ _ |- _ => exact (proj1 H) end.
Qed.
Lemma adds_gvars hid t ty d pub T v T' : trGVars hid t ty d pub T v T' -> exists w, cO T' = cO T ++ w /\ (hid = true -> w = []).
Proof.
  induction 1 as [|T v T1 r T2 H _ (w & E & W)]; [exists []; rewrite app_nil_r; auto|]. apply adds_gvar in H. destruct H as (w1 & E1 & W1).
  exists (w1 ++ w). rewrite E, E1, app_assoc. split; [reflexivity|]. intros K. rewrite (W K), (W1 K). reflexivity.
Qed.
Lemma adds_top opt krn hid T y T' : trTop opt krn hid T y T' -> exists w, cO T' = cO T ++ w /\ (hid = true -> w = []).
Proof.
  intros H. destruct H; cbn [cO]; try (eexists; split; [reflexivity|]; intros ->; try reflexivity; assumption).
  - exists []. rewrite app_nil_r. auto.
  - match goal with H : trGVars _ _ _ _ _ _ _ _ |- _ => apply adds_gvars in H; exact H end.
Qed.
Lemma adds_file opt krn T p T' : trFile opt krn T p T' -> exists w, cO T' = cO T ++ w.
Proof.
  induction 1 as [|n l c d s m o i h x T1 p T2 H _ (w & E)]; [exists []; rewrite app_nil_r; reflexivity|]. apply adds_top in H. destruct H as (w1 & E1 & _). cbn [cO] in *.
  exists (i ++ w1 ++ w). rewrite E, E1, <- !app_assoc. reflexivity.
Qed.
Lemma file_split opt krn p1 : forall T x p2 T', trFile opt krn T (p1 ++ x :: p2) T' ->
  exists T1 T2, trFile opt krn T p1 T1 /\ trTop opt krn (snd (fst x)) (CE (cN T1) (cL T1) (cC T1) (cD T1) (cS T1) (cT T1) (cO T1 ++ fst (fst x))) (snd x) T2 /\ trFile opt krn T2 p2 T'.
Proof.
  induction p1 as [|a p1 IH]; intros T x p2 T' H; cbn [app] in H; inversion H; subst.
  - eexists _, _. split; [constructor|]. cbn [fst snd cN cL cC cD cS cT cO]. split; eassumption.
  - match goal with H : trFile _ _ _ (p1 ++ _) _ |- _ => destruct (IH _ _ _ _ H) as (A & B & F1 & F2 & F3) end. exists A, B. split; [econstructor; eassumption|auto].
Qed.
(* the declaration y, visible in the file, gives the text w *)
Lemma file_text opt krn file l text y : lexAll file = LOk l -> unmarked l -> translate opt krn file = Some text ->
  exists p i, layout false l p i /\ forall j, In (j, false, y) p ->
    exists T T' a z w, trTop opt krn false T y T' /\ cO T' = cO T ++ w /\ text = a ++ w ++ z.
Proof.
  intros LX U H. destruct (C65_source _ _ _ _ _ LX U H) as (p & i & T & LY & TF & ->). exists p, i. split; [exact LY|]. intros j HI.
  apply in_split in HI. destruct HI as (p1 & p2 & ->). destruct (file_split _ _ _ _ _ _ _ TF) as (T1 & T2 & F1 & F2 & F3). cbn [fst snd] in F2.
  destruct (adds_top _ _ _ _ _ _ F2) as (w & W & _). destruct (adds_file _ _ _ _ _ F3) as (w3 & W3). eexists _, T2, (cO T1 ++ j), (w3 ++ i), w. split; [exact F2|]. split; [exact W|].
  rewrite W3, W. cbn [cO]. rewrite <- !app_assoc. reflexivity.
Qed.
(* every function, with or without a body, is printed with its C header: public or static,
   the type, the name and the parameters; after that a semicolon or the body *)
Theorem C65_functions (opt krn : bool) (file : list Z) (l : list item) (text : list Z) :
  lexAll file = LOk l -> unmarked l -> translate opt krn file = Some text ->
  exists p i, layout false l p i /\ forall j pub t d nm ps e b, In (j, false, PFunc pub t d nm ps e b) p ->
    exists a z, text = a ++ cHead pub t d nm ps e ++ z /\ (b = None -> exists z', z = codes ";" ++ nl ++ z').
Proof.
  intros LX U H. destruct (C65_source _ _ _ _ _ LX U H) as (p & i & T & LY & TF & ->). exists p, i. split; [exact LY|]. intros j pub t d nm ps e b HI.
  apply in_split in HI. destruct HI as (p1 & p2 & ->). destruct (file_split _ _ _ _ _ _ _ TF) as (T1 & T2 & F1 & F2 & F3). cbn [fst snd] in F2.
  destruct (adds_file _ _ _ _ _ F3) as (w3 & W3). rewrite W3. inversion F2; subst; cbn [cO].
  - exists (cO T1 ++ j), (codes ";" ++ nl ++ w3 ++ i). cbn [shown]. split; [unfold shown; rewrite <- !app_assoc; reflexivity|]. intros _. exists (w3 ++ i). reflexivity.
  - match goal with H : exists _, _ /\ w = _ |- _ => destruct H as (bd & _ & ->) end.
    match goal with |- context[cStrs ?s ?q] => exists ((cO T1 ++ j) ++ cStrs s q), (bd ++ w3 ++ i) end.
    split; [rewrite <- !app_assoc; reflexivity|discriminate].
Qed.
Print Assumptions C65_functions.
Theorem C65_structs (opt krn : bool) (file : list Z) (l : list item) (text : list Z) :
  lexAll file = LOk l -> unmarked l -> translate opt krn file = Some text ->
  exists p i, layout false l p i /\ forall j nm fs, In (j, false, PStruct nm fs) p -> exists a z, text = a ++ cStruct nm fs ++ z.
Proof.
  intros LX U H. destruct (C65_source _ _ _ _ _ LX U H) as (p & i & T & LY & TF & ->). exists p, i. split; [exact LY|]. intros j nm fs HI.
  apply in_split in HI. destruct HI as (p1 & p2 & ->). destruct (file_split _ _ _ _ _ _ _ TF) as (T1 & T2 & F1 & F2 & F3). cbn [fst snd] in F2.
  destruct (adds_file _ _ _ _ _ F3) as (w3 & W3). rewrite W3. inversion F2; subst; cbn [cO]. exists (cO T1 ++ j), (w3 ++ i). unfold shown. rewrite <- !app_assoc. reflexivity.
Qed.
Print Assumptions C65_structs.
(* what comes from system headers only leaves the include lines *)
Theorem C65_hidden (opt krn : bool) (T T' : cenv) (p : list (list Z * bool * top)) :
  trFile opt krn T p T' -> (forall x, In x p -> snd (fst x) = true) -> cO T' = cO T ++ flat_map (fun x => fst (fst x)) p.
Proof.
  induction 1 as [|n l c d s m o i h x T1 p T2 H _ IH]; intros A; [cbn; rewrite app_nil_r; reflexivity|].
  pose proof (A _ (or_introl eq_refl)) as HH. cbn [fst snd] in HH. subst h. destruct (adds_top _ _ _ _ _ _ H) as (w & W & E). rewrite IH by (intros y Y; apply A; right; exact Y).
  rewrite W, (E eq_refl). cbn [cO flat_map fst]. rewrite app_nil_r, <- app_assoc. reflexivity.
Qed.
Print Assumptions C65_hidden.

(* ---- a file ---- *)
Definition C65_src : list Z := codes "# 1 ""a.cmm""
# 1 ""/usr/cmmInclude/stdio.hmm"" 1
public int printf(char[] f, ...);
struct H { int x; };
# 2 ""a.cmm"" 2
struct P { int x, y; char[] s; P n; };
int[][] m = {{1,2},null};
boolean b;
public P f(boolean c, char[][] v);
void g(int n, ...) { printf(""%d"", n); }
".
Definition C65_l : list item := Eval vm_compute in match lexAll C65_src with LOk l => l | _ => [] end.
Definition C65_out : list Z := codes "#include <stdio.h>
typedef struct _P P;
struct _P {
int x;
int y;
char *s;
P *n;
};
static int _cmm_0T[]={1,2};
static int *_cmm_1T[]={_cmm_0T,0};
static int **m=_cmm_1T;
static char b;
P *f(char c,char **v);
#define _cmm_0S ""%d""
static void g(int n,...){
printf(_cmm_0S,n);
}
".
Example C65_ex : lexAll C65_src = LOk C65_l /\ unmarked C65_l /\ translate true false C65_src = Some C65_out.
Proof. split; [vm_compute; reflexivity|]. split; [apply unmarkedb_ok; vm_compute; reflexivity|vm_compute; reflexivity]. Qed.
(* the words of the specification on it *)
Example C65_ex_words :
  cHead true (TnUser (codes "P")) 0 (codes "f") [(TnBool, 0%nat, codes "c"); (TnChar, 2%nat, codes "v")] PEnd = codes "P *f(char c,char **v)" /\
  cHead false TnVoid 0 (codes "g") [(TnInt, 0%nat, codes "n")] PDots = codes "static void g(int n,...)".
Proof. split; vm_compute; reflexivity. Qed.
Example C65_ex_hidden : exists T, trFile true false cenv0 [(codes "#include <a.h>" ++ nl, true, PTypedef (codes "T"))] T /\ cO T = codes "#include <a.h>" ++ nl.
Proof. eexists. split; [eapply tf_cons; [eapply tt_typedef; vm_compute; reflexivity|apply tf_nil]|]. reflexivity. Qed.
Example C65_ex_system : system (codes "/usr/cmmInclude/stdio.hmm") /\ ~ system (codes "a.cmm").
Proof. split; [apply system_ok; vm_compute; reflexivity|]. intros H. apply system_ok in H. vm_compute in H. discriminate H. Qed.
