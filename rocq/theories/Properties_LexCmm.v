(* C75: the lexer of the compiler written in C-- (src--/lexer.cmm) against that of the compiler
   written in C (src/lexer.c).  C49: which bytes are taken for reserved words. *)
From Coq Require Import ZArith Bool Lia List String Ascii.
From Verif Require Import Lexer LexSpec LexProofs LexGap LexTok LexTotal LexerCmm LexerCmmProofs.
From Verif Require ParserStmt.
Import ListNotations.
Open Scope Z_scope.

(* ==== specification ==== *)
(* one token read by both: value, spelling and line are the same; the number of the token is
   the same but for the end of the file, -1 in one and 255 in the other *)
Definition same_token (c m : item) : Prop :=
  let '(t, v, w, n) := c in let '(t', v', w', n') := m in
  v' = v /\ w' = w /\ n' = n /\ (t = -1 /\ t' = 255 \/ t <> -1 /\ t' = t).
Definition same_tokens (c m : list item) : Prop := Forall2 same_token c m.
(* ASCII without DEL *)
Definition ascii (file : list Z) : Prop := forall c, In c file -> 0 <= c < 127.
(* bytes that occur in UTF-8 are other than 255 *)
Definition no_ff (file : list Z) : Prop := forall c, In c file -> 0 <= c < 255.

Lemma good_ascii file : ascii file -> good true file.
Proof. intros H. apply Forall_forall. intros c I. specialize (H c I). split; [lia|intros _; lia]. Qed.
Lemma good_ff file : no_ff file -> good false file.
Proof. intros H. apply Forall_forall. intros c I. specialize (H c I). split; [lia|discriminate]. Qed.
Lemma same_map r : same_tokens r (map itemM r).
Proof.
  induction r as [|[[[t v] w] n] r IH]; [constructor|]. constructor; [|exact IH].
  cbn. unfold tokM, EOFtok, LxEOF. repeat split. destruct (Z.eqb_spec t (-1)); [left|right]; auto.
Qed.

(* ==== C75 ==== *)
(* an ASCII text: both read the same tokens, both refuse it, or both are undefined *)
Theorem C75_ascii : forall file, ascii file ->
  match lexAll file with
  | LOk r => exists r', lexAllM file = MOk r' /\ same_tokens r r'
  | LErr e => exists e', lexAllM file = MErr e'
  | LUndef u => lexAllM file = MUndef u
  end.
Proof.
  intros file A. pose proof (lexAll_ok true file (good_ascii _ A)) as S.
  pose proof (lexAll_nofuel file) as N.
  destruct (lexAll file) as [r|e|u]; cbn [sim] in S.
  - destruct S as [a [E ->]]. exists (map itemM r). split; [exact E|apply same_map].
  - destruct (S eq_refl) as [E|[_ E]]; eauto.
  - apply (S eq_refl). congruence.
Qed.
(* the messages are the same too, but for a text that ends after a quote and a backslash *)
Theorem C75_message : forall file e, ascii file -> lexAll file = LErr e -> e <> EBadEsc -> lexAllM file = MErr e.
Proof.
  intros file e A L NB. pose proof (lexAll_ok true file (good_ascii _ A)) as S. rewrite L in S. cbn [sim] in S.
  destruct (S eq_refl) as [E|[E _]]; [exact E|congruence].
Qed.
(* any text without the byte 255: what the compiler in C reads, the compiler in C-- reads too *)
Theorem C75_accepted_partial : forall file r, no_ff file -> lexAll file = LOk r ->
  exists r', lexAllM file = MOk r' /\ same_tokens r r'.
Proof.
  intros file r A L. pose proof (lexAll_ok false file (good_ff _ A)) as S. rewrite L in S. cbn [sim] in S.
  destruct S as [a [E ->]]. exists (map itemM r). split; [exact E|apply same_map].
Qed.
(* a text with the byte 255 is refused wherever the byte is *)
Theorem C75_ff : forall file r, lexAllM file = MOk r -> ~ In 255 file.
Proof. exact lexAllM_end. Qed.
(* the two accept different texts: the byte 255 in a comment, DEL in a string, and an escaped
   byte above 126 in a character constant *)
Theorem C75_refuted : exists f1 f2 f3,
  (exists r, lexAll f1 = LOk r) /\ lexAllM f1 = MNotUtf8 /\
  (exists r, lexAllM f2 = MOk r) /\ lexAll f2 = LErr EStrEnd /\
  (exists r, lexAllM f3 = MOk r) /\ lexAll f3 = LErr EBadEsc.
Proof.
  exists [47; 47; 255; 10], [34; 127; 34; 10], [39; 92; 200; 39; 10].
  repeat split; try (eexists; vm_compute; reflexivity); vm_compute; reflexivity.
Qed.
Print Assumptions C75_ascii.
Print Assumptions C75_message.
Print Assumptions C75_accepted_partial.
Print Assumptions C75_ff.
Print Assumptions C75_refuted.

Definition ex75 : list Z := codes "int f(char[] s) { /* x */ return s[0x1F] + 'a' - '\x41'; }".
Example C75_inhabited : ascii ex75 /\ (exists r, lexAll ex75 = LOk r /\ List.length r = 21%nat) /\
  no_ff [34; 227; 129; 130; 92; 110; 34; 59] /\ (exists r, lexAll [34; 227; 129; 130; 92; 110; 34; 59] = LOk r).
Proof.
  split; [|split; [|split]].
  - intros c I. assert (F : forallb (fun c => (0 <=? c) && (c <? 127)) ex75 = true) by (vm_compute; reflexivity).
    rewrite forallb_forall in F. specialize (F c I). apply andb_prop in F. destruct F. lia.
  - eexists. split; vm_compute; reflexivity.
  - intros c I. repeat (destruct I as [<-|I]; [lia|]). destruct I.
  - eexists. vm_compute. reflexivity.
Qed.
Example C75_inhabited_message : ascii (codes "int x = ""ab") /\ lexAll (codes "int x = ""ab") = LErr EStrEnd.
Proof.
  split; [|vm_compute; reflexivity].
  intros c I. cbv in I. repeat (destruct I as [<-|I]; [lia|]). destruct I.
Qed.

(* ==== C49 ==== *)
(* printable ASCII and white space *)
Definition printable (file : list Z) : Prop := forall c, In c file -> 9 <= c <= 13 \/ 32 <= c <= 126.
Lemma word_reserved w k : searchRsv (firstn LxRsvNUM rsvWord) w = k -> 1 <= k <= 25 -> k <> LxTRUE -> k <> LxFALSE -> In (w, k) reserved.
Proof.
  assert (Q : forall a b, zeqb_list a b = true -> a = b).
  { induction a as [|x a IH]; intros [|y b] H; cbn in H; try discriminate; [reflexivity|].
    apply andb_prop in H. destruct H as [H1 H2]. apply Z.eqb_eq in H1. subst. f_equal. auto. }
  assert (K : forall t, searchRsv t w = k -> 1 <= k <= 25 -> In (w, k) t).
  { induction t as [|[n j] t IH]; cbn [searchRsv]; [unfold LxNAME; lia|].
    destruct (zeqb_list w n) eqn:E; [intros <- _; left; rewrite (Q _ _ E); reflexivity|intros; right; auto]. }
  intros E B N1 N2. apply K in E; [|exact B].
  assert (F : forallb (fun p => (snd p =? LxTRUE) || (snd p =? LxFALSE) ||
    existsb (fun q => zeqb_list (fst p) (fst q) && (snd p =? snd q)) reserved) (firstn LxRsvNUM rsvWord) = true)
    by (vm_compute; reflexivity).
  rewrite forallb_forall in F. specialize (F _ E). cbn [fst snd] in F.
  apply orb_prop in F. destruct F as [F|F].
  - apply orb_prop in F. destruct F as [F|F]; apply Z.eqb_eq in F; contradiction.
  - apply existsb_exists in F. destruct F as [[n j] [I F]]. cbn [fst snd] in F. apply andb_prop in F.
    destruct F as [F1 F2]. apply Q in F1. apply Z.eqb_eq in F2. subst. exact I.
Qed.
Lemma tok_reserved s k s' : (forall c, In c (cur s) -> c = 0 \/ 9 <= c <= 13 \/ 32 <= c <= 126) ->
  lxGetTok s = LOk (k, s') -> 1 <= k <= 25 -> In (str s', k) reserved.
Proof.
  intros P H B. apply lxGetTok_inv in H.
  destruct H as (z & g & s1 & C & _ & _ & (NB & N10 & _) & _ & _ & _ & _ & D & _).
  assert (P1 : forall c, In c (cur s1) -> c = 0 \/ 9 <= c <= 13 \/ 32 <= c <= 126).
  { intros c I. apply P. rewrite C, !in_app_iff. auto. }
  revert D. unfold dispatch.
  destruct (Z.eqb_spec (ch s1) (-1)) as [|NE]; [intros E; apply lres_fst in E; unfold EOFtok in E; lia|].
  destruct ((ch s1 =? 10) && (nextch s1 =? 35)) eqn:SH.
  { intros E. exfalso. revert E. unfold getSharp. destruct (negb _); [discriminate|].
    destruct (getDec _) as [[v t]|e|u]; cbn [lbind]; try discriminate.
    destruct (negb _); [discriminate|]. destruct (storeL _ _ _ _ _) as [[[l n] i] acc].
    destruct (_ <? _); [discriminate|]. destruct (negb _); [discriminate|].
    intros E. apply lres_fst in E. unfold LxFILE in E. lia. }
  destruct (c_isdigit (ch s1)).
  { unfold getDigit. match goal with |- lbind ?x _ = _ -> _ => destruct x as [[v t]|e|u] end; cbn [lbind]; try discriminate.
    intros E. apply lres_fst in E. unfold LxINTEGER in E. lia. }
  destruct (_ || _).
  { unfold getWord. destruct (storeL _ _ _ _ _) as [[[l n] i] acc].
    destruct (negb _); [discriminate|]. destruct (_ <? _); [discriminate|]. cbn [lbind].
    destruct (Z.eqb_spec (searchRsv (firstn LxRsvNUM rsvWord) acc) LxTRUE) as [|N1].
    { intros E. apply lres_fst in E. unfold LxLOGICAL in E. lia. }
    destruct (Z.eqb_spec (searchRsv (firstn LxRsvNUM rsvWord) acc) LxFALSE) as [|N2].
    { intros E. apply lres_fst in E. unfold LxLOGICAL in E. lia. }
    intros E. pose proof (lres_fst _ _ _ _ E) as K.
    assert (S : str s' = acc).
    { apply (f_equal (fun x => match x with LOk (_, t) => str t | _ => [] end)) in E. cbn in E. congruence. }
    rewrite S. apply word_reserved; congruence || assumption. }
  destruct (ch s1 =? 34).
  { intros E. exfalso. revert E. unfold getStr. destruct (getStrF _ _ _ _) as [[[t acc] cnt]|e|u]; cbn [lbind]; try discriminate.
    destruct (_ <? _); [discriminate|]. intros E. apply lres_fst in E. unfold LxSTRING in E. lia. }
  destruct (ch s1 =? 39).
  { unfold getChar. match goal with |- lbind ?x _ = _ -> _ => destruct x as [[v t]|e|u] end; cbn [lbind]; try discriminate.
    destruct (negb _); [discriminate|]. intros E. apply lres_fst in E. unfold LxCHARACTER in E. lia. }
  unfold getSign. cbv zeta.
  repeat match goal with
    | |- (if ?c then LOk _ else _) = _ -> _ => destruct c; [intros E; apply lres_fst in E; exfalso; revert E B; clear; intros <-; cbv; intros []; congruence|] end.
  destruct ((ch s1 =? 46) && (nextch s1 =? 46)).
  { destruct (nextch (getCh s1) =? 46); intros E; apply lres_fst in E; exfalso; revert E B; clear; intros <-; cbv; intros []; congruence. }
  intros E. apply lres_fst in E. exfalso.
  assert (I : In (ch s1) (cur s1)).
  { unfold ch in *. destruct (cur s1) as [|c l]; [cbn in NE; congruence|]. left. reflexivity. }
  change (first (cur s1)) with (ch s1) in NB, N10. change (first (tl (cur s1))) with (nextch s1) in N10.
  assert (N10' : ch s1 <> 10).
  { intros X. specialize (N10 X). rewrite X, N10 in SH. discriminate SH. }
  destruct (P1 _ I) as [X|[X|X]]; [lia| |lia]. apply NB. unfold blanks.
  assert (Y : ch s1 = 9 \/ ch s1 = 11 \/ ch s1 = 12 \/ ch s1 = 13) by lia.
  cbn [In]. intuition congruence.
Qed.
(* in a text of printable ASCII characters and white space, a token is a reserved word only if
   it is spelled as one *)
Theorem C49_reserved_partial : forall file items, printable file -> lexAll file = LOk items ->
  forall t v w n, In (t, v, w, n) items -> 1 <= t <= 25 -> In (w, t) reserved.
Proof.
  intros file items P L.
  assert (K : forall f s r, (forall c, In c (cur s) -> c = 0 \/ 9 <= c <= 13 \/ 32 <= c <= 126) -> lexAllF f s = LOk r ->
    forall t v w n, In (t, v, w, n) r -> 1 <= t <= 25 -> In (w, t) reserved).
  { induction f as [|f IH]; intros s r Q; cbn [lexAllF]; [discriminate|].
    destruct (lxGetTok s) as [[k s']|e|u] eqn:E; cbn [lbind]; try discriminate.
    destruct (k =? EOFtok).
    - intros R. assert (r = [(k, val s', str s', ln s')]) by congruence. subst r.
      intros t v w n [I|[]] B. assert (t = k /\ w = str s') by (split; congruence). destruct H as [-> ->].
      exact (tok_reserved s k s' Q E B).
    - destruct (lexAllF f s') as [r'|e|u] eqn:R'; cbn [lbind]; try discriminate.
      intros R. assert (r = (k, val s', str s', ln s') :: r') by congruence. subst r.
      intros t v w n [I|I] B.
      + assert (t = k /\ w = str s') by (split; congruence). destruct H as [-> ->].
        exact (tok_reserved s k s' Q E B).
      + apply (IH s' r') with (v := v) (n := n); auto.
        intros c J. apply Q. destruct (tok_suffix s k s' E) as [p ->]. apply in_app_iff. auto. }
  apply (K _ _ _) with (2 := L). unfold lxInit. cbn [cur]. intros c [<-|[<-|I]]; [left; reflexivity|right; left; lia|].
  right. exact (P c I).
Qed.
(* other bytes are taken for the tokens whose numbers they happen to be: the byte 2 is the
   keyword int, and the byte 201 is an integer constant with the value of the last one *)
Definition ctl_int : list Z := [2] ++ codes " main() { return 5; }".
Definition ctl_201 : list Z := codes "int main() { return 5 + " ++ [201] ++ codes "; }".
Definition out5 := Eval vm_compute in
  match ParserStmt.compile true false (codes "int main() { return 5; }") with ParserStmt.COut l => l | _ => [] end.
Definition out10 := Eval vm_compute in
  match ParserStmt.compile true false (codes "int main() { return 10; }") with ParserStmt.COut l => l | _ => [] end.
Theorem C49_compiled_refuted : out5 <> [] /\ out10 <> [] /\
  ParserStmt.compile true false (codes "int main() { return 5; }") = ParserStmt.COut out5 /\
  ParserStmt.compile true false ctl_int = ParserStmt.COut out5 /\
  ParserStmt.compile true false (codes "int main() { return 10; }") = ParserStmt.COut out10 /\
  ParserStmt.compile true false ctl_201 = ParserStmt.COut out10.
Proof. split; [discriminate|]. split; [discriminate|]. repeat split; vm_compute; reflexivity. Qed.
Print Assumptions C49_reserved_partial.
Print Assumptions C49_compiled_refuted.
Example C49_reserved_inhabited : printable ex75 /\ exists r, lexAll ex75 = LOk r /\ In (2, 0, text "int", 1) r.
Proof.
  split.
  - intros c I. assert (F : forallb (fun c => (32 <=? c) && (c <=? 126)) ex75 = true) by (vm_compute; reflexivity).
    rewrite forallb_forall in F. specialize (F c I). apply andb_prop in F. destruct F. lia.
  - eexists. split; [vm_compute; reflexivity|]. left. reflexivity.
Qed.
