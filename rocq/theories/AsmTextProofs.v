(* The printed text is read back as the instructions that were printed. *)
From Coq Require Import ZArith Bool Lia String Ascii List.
From Verif Require Import Lexer NameTable SyTree OpTree VM VmCode Parser ParserStmt CCode CTree TacSpec Tac TacSafe TacFrom AsmText AsmSpec AsmRead AsmLines.
Import ListNotations.
Open Scope Z_scope.

Definition word (w : list Z) : Prop := wordy w /\ exists c r, w = c :: r /\ c <> 34.
Definition cword (w : list Z) : Prop := wordy w.
Fixpoint joinC (ws : list (list Z)) : list Z :=
  match ws with
  | [] => []
  | [w] => w
  | w :: r => w ++ 44 :: joinC r
  end.
Lemma cut_joinC ws : ws <> [] -> Forall wordy ws -> cut 44 (joinC ws) = ws.
Proof.
  induction ws as [|w ws IH]; intros N F; [destruct (N eq_refl)|]. inversion F; subst. clear N.
  destruct ws as [|v ws]; [apply cut_none; apply wordy_no; auto|].
  change (joinC (w :: v :: ws)) with (w ++ 44 :: joinC (v :: ws)).
  rewrite cut_app by (apply wordy_no; auto). rewrite IH; [reflexivity|discriminate|assumption].
Qed.
Lemma args_joinC w ws : word w -> Forall wordy ws -> readArgs (joinC (w :: ws)) = map readArg (w :: ws).
Proof.
  intros (W & c & r & E & N) F.
  assert (X : exists q, joinC (w :: ws) = c :: q).
  { destruct ws as [|v ws]; [exists r; exact E|]. exists (r ++ 44 :: joinC (v :: ws)). cbn [joinC]. rewrite E. reflexivity. }
  destruct X as (q & X). assert (readArgs (joinC (w :: ws)) = map readArg (cut 44 (joinC (w :: ws)))) as ->.
  { rewrite X. unfold readArgs. destruct c as [|p|p]; try reflexivity. do 6 (destruct p as [p|p|]; try reflexivity; try lia). }
  rewrite cut_joinC; [reflexivity|discriminate|constructor; assumption].
Qed.
Lemma joinC_nl ws : Forall wordy ws -> ~ In 10 (joinC ws).
Proof.
  induction ws as [|w ws IH]; intros F H; [destruct H|]. inversion F; subst.
  destruct ws as [|v ws]; [exact (wordy_no w 10 H2 (or_intror (or_introl eq_refl)) H)|].
  change (joinC (w :: v :: ws)) with (w ++ 44 :: joinC (v :: ws)) in H. apply in_app_or in H.
  destruct H as [H|[H|H]]; [exact (wordy_no w 10 H2 (or_intror (or_introl eq_refl)) H)|discriminate|exact (IH H3 H)].
Qed.
(* ---- lines ---- *)
Lemma read_ins0 m r : wordy (codes m) -> readAsm (ins0 m ++ r) = option_map (cons (row m [])) (readAsm r).
Proof.
  intros W. unfold ins0, tab, eol. replace (([9] ++ codes m ++ [10]) ++ r) with ((9 :: codes m) ++ 10 :: r) by (cbn [app]; rewrite <- app_assoc; reflexivity).
  rewrite read_line by (intros [H|H]; [discriminate|exact (wordy_no _ 10 W (or_intror (or_introl eq_refl)) H)]).
  cbn [readLine]. change (upto 9 (9 :: codes m)) with (@nil Z, Some (codes m)). cbv iota beta.
  rewrite upto_none by (apply wordy_no; auto). reflexivity.
Qed.
Lemma read_raw m a r : wordy (codes m) -> ~ In 10 a -> readAsm (ins1 m a ++ r) = option_map (cons (row m (readArgs a))) (readAsm r).
Proof.
  intros W NA. unfold ins1, tab, eol.
  replace (([9] ++ codes m ++ [9] ++ a ++ [10]) ++ r) with ((9 :: codes m ++ 9 :: a) ++ 10 :: r) by (cbn [app]; rewrite <- !app_assoc; cbn [app]; rewrite <- !app_assoc; reflexivity).
  rewrite read_line.
  2: { intros [H|H]; [discriminate|]. apply in_app_or in H. destruct H as [H|[H|H]]; [exact (wordy_no _ 10 W (or_intror (or_introl eq_refl)) H)|discriminate|exact (NA H)]. }
  cbn [readLine]. change (upto 9 (9 :: codes m ++ 9 :: a)) with (@nil Z, Some (codes m ++ 9 :: a)). cbv iota beta.
  rewrite upto_app by (apply wordy_no; auto). reflexivity.
Qed.
Lemma read_ins1 m w ws r : wordy (codes m) -> word w -> Forall wordy ws ->
  readAsm (ins1 m (joinC (w :: ws)) ++ r) = option_map (cons (row m (map readArg (w :: ws)))) (readAsm r).
Proof.
  intros W WW F. rewrite read_raw; [rewrite args_joinC by assumption; reflexivity|exact W|].
  apply joinC_nl. constructor; [exact (proj1 WW)|exact F].
Qed.
Lemma read_mark s r : word s -> (exists c q, s = c :: q /\ letterish c = true) -> readAsm (s ++ eol ++ r) = option_map (cons (mark s)) (readAsm r).
Proof.
  intros (W & _) (c & q & E & L). unfold eol. cbn [app].
  rewrite read_line by (apply wordy_no; auto).
  destruct (letterish_cases c L) as (_ & _ & _ & _ & _ & N & N9).
  assert (readLine s = [mark s]) as ->; [|reflexivity].
  assert (X : upto 9 s = (s, None)) by (apply upto_none; apply wordy_no; auto).
  subst s. unfold readLine. rewrite X. destruct c as [|p|p]; try reflexivity.
  do 6 (destruct p as [p|p|]; try reflexivity; try lia).
Qed.
Lemma read_comment s r : ~ In 10 s -> readAsm ((59 :: s) ++ eol ++ r) = readAsm r.
Proof.
  intros N. unfold eol. cbn [app]. change (59 :: s ++ 10 :: r) with ((59 :: s) ++ 10 :: r). rewrite read_line by (intros [H|H]; [discriminate|exact (N H)]).
  cbn [readLine app]. destruct (readAsm r); reflexivity.
Qed.

(* ---- operands ---- *)
Lemma wordy_dec n : small n -> wordy (dec n). Proof. intros S. apply (dec_read n S). Qed.
Lemma word_dec n : small n -> word (dec n).
Proof.
  intros S. destruct (dec_read n S) as (_ & W & c & r & E & C). split; [exact W|]. exists c, r. split; [exact E|].
  unfold isDigit in C. rewrite andb_true_iff in C. lia.
Qed.
Lemma name_word w : forallb nameCh w = true -> wordy w.
Proof.
  unfold wordy. rewrite !forallb_forall. intros H c C. specialize (H c C). unfold nameCh, wordCh in *.
  rewrite negb_true_iff, !orb_false_iff, !Z.eqb_neq. rewrite !orb_true_iff, !andb_true_iff in H. lia.
Qed.
Definition symbol (s : list Z) : Prop := wordy s /\ exists c q, s = c :: q /\ letterish c = true.
Lemma symbol_word s : symbol s -> word s.
Proof. intros (W & c & q & E & L). split; [exact W|]. exists c, q. split; [exact E|]. destruct (letterish_cases c L). tauto. Qed.
Lemma symbol_arg s : symbol s -> readArg s = Plain (Sym s).
Proof. intros (_ & c & q & -> & L). exact (arg_sym c q L). Qed.
Lemma symbol_atom s : symbol s -> readAtom s = Sym s.
Proof. intros (_ & c & q & -> & L). exact (atom_sym c q L). Qed.
Lemma symbol_sym t i : spelled t i -> symbol (symText t i).
Proof.
  intros S. apply name_word in S. unfold symText. split.
  - apply wordy_app; [destruct (pubAt t i); reflexivity|exact S].
  - destruct (pubAt t i); eexists; eexists; (split; [reflexivity|reflexivity]).
Qed.
Lemma symbol_lab l : small l -> symbol (labText l).
Proof.
  intros S. unfold labText. split; [apply wordy_app; [reflexivity|exact (wordy_dec l S)]|].
  eexists; eexists; split; reflexivity.
Qed.
Lemma symbol_tlab l : smallL l -> symbol (tlabText l).
Proof.
  destruct l as [n|n]; [exact (symbol_lab n)|]. intros S. cbn [tlabText]. split; [apply wordy_app; [reflexivity|exact (wordy_dec n S)]|].
  eexists; eexists; split; reflexivity.
Qed.
Lemma symbol_reg r : small r -> symbol (regText r).
Proof.
  intros S. unfold regText. split; [apply wordy_app; [reflexivity|exact (wordy_dec r S)]|].
  eexists; eexists; split; reflexivity.
Qed.

(* ---- one operand ---- *)
Lemma ins_num m n r : wordy (codes m) -> small n -> readAsm (ins1 m (dec n) ++ r) = option_map (cons (row m [num n])) (readAsm r).
Proof. intros W S. pose proof (read_ins1 m (dec n) [] r W (word_dec n S) (Forall_nil _)) as H. cbn [joinC map] in H. rewrite arg_dec in H by exact S. exact H. Qed.
Lemma ins_sym m s r : wordy (codes m) -> symbol s -> readAsm (ins1 m s ++ r) = option_map (cons (row m [sym s])) (readAsm r).
Proof. intros W S. pose proof (read_ins1 m s [] r W (symbol_word s S) (Forall_nil _)) as H. cbn [joinC map] in H. rewrite symbol_arg in H by exact S. exact H. Qed.
Lemma ins_call m n s r : wordy (codes m) -> small n -> symbol s ->
  readAsm (ins1 m (dec n ++ codes "," ++ s) ++ r) = option_map (cons (row m [num n; sym s])) (readAsm r).
Proof.
  intros W N S. pose proof (read_ins1 m (dec n) [s] r W (word_dec n N) (Forall_cons _ (proj1 S) (Forall_nil _))) as H.
  cbn [joinC map] in H. rewrite arg_dec, symbol_arg in H by assumption. exact H.
Qed.
Lemma mark_sym s r : symbol s -> readAsm ((s ++ eol) ++ r) = option_map (cons (mark s)) (readAsm r).
Proof. intros S. rewrite <- app_assoc. apply read_mark; [apply symbol_word; exact S|exact (proj2 S)]. Qed.

(* ==== the virtual machine ==== *)
Lemma read_vmOp t i r : prI t i -> readAsm (vmOp t i ++ r) = option_map (cons (vmLine t i)) (readAsm r).
Proof.
  intros F. destruct i; cbn [vmOp vmLine prI] in *;
    try (apply ins_num; [reflexivity|exact F]);
    try (apply ins_sym; [reflexivity|first [apply symbol_sym; exact F|apply symbol_lab; exact F]]);
    try (apply ins_call; [reflexivity|apply F|apply symbol_sym; apply F]);
    try (apply mark_sym; apply symbol_lab; exact F);
    try (apply read_ins0; reflexivity).
  - destruct o; apply read_ins0; reflexivity.
  - destruct o; apply read_ins0; reflexivity.
Qed.
Lemma map_cons {A} (f : A -> sline) x l r s : readAsm r = option_map (app (map f l)) s ->
  option_map (cons (f x)) (readAsm r) = option_map (app (map f (x :: l))) s.
Proof. intros ->. destruct s; reflexivity. Qed.
Lemma read_ops t l r : Forall (prI t) l -> readAsm (flat_map (vmOp t) l ++ r) = option_map (app (map (vmLine t) l)) (readAsm r).
Proof.
  induction 1 as [|i l F _ IH]; [cbn [flat_map app map]; destruct (readAsm r); reflexivity|].
  cbn [flat_map]. rewrite <- app_assoc, (read_vmOp t i _ F). apply map_cons. exact IH.
Qed.

(* the macros: a comment, the instructions they stand for, a comment *)
Lemma macroAt_bit c v q : macroAt c = Some (v, q) -> match v with VBool x _ _ _ => bit x = true | VI _ => True end.
Proof.
  intros H. destruct c as [|i1 [|i2 [|i3 [|i4 c]]]]; try discriminate H. cbn [macroAt] in H.
  destruct (jmpOf i1) as [a|]; [|discriminate H]. destruct (labOf i2) as [l1|]; [|discriminate H].
  destruct (cnsOf i3) as [x|]; [|discriminate H]. destruct (labOf i4) as [b|].
  - destruct (a =? b); [|discriminate H]. destruct (bit x) eqn:B; [|discriminate H]. injection H as <- <-. exact B.
  - destruct c as [|i5 [|i6 [|i7 c]]]; try discriminate H.
    destruct (jmpOf i4) as [b|]; [|discriminate H]. destruct (labOf i5) as [l2|]; [|discriminate H].
    destruct (cnsOf i6) as [y|]; [|discriminate H]. destruct (labOf i7) as [d|]; [|discriminate H].
    destruct ((a =? b) && (a =? d)); [|discriminate H]. destruct (bit x) eqn:B; [|discriminate H].
    destruct (_ && _); [|discriminate H]. injection H as <- <-. exact B.
Qed.
Definition okV (v : vop) : Prop := match v with VBool x _ _ _ => x = 0 \/ x = 1 | VI _ => True end.
Lemma vops_bits c : Forall okV (vops c).
Proof.
  unfold vops. generalize (List.length c) as n. intros n. revert c.
  induction n as [|n IH]; intros c; [constructor|]. destruct c as [|i q]; [constructor|]. cbn [vopsN].
  destruct (macroAt (i :: q)) as [[v q']|] eqn:E; (constructor; [|apply IH]).
  - apply macroAt_bit in E. destruct v; [exact I|]. apply bit_cases. exact E.
  - exact I.
Qed.
Lemma nl_lab l : small l -> ~ In 10 (labText l).
Proof. intros S. apply (wordy_no _ 10 (proj1 (symbol_lab l S))). auto. Qed.
Lemma comment_labs m l1 l2 l3 r : ~ In 10 (codes m) -> small l1 -> small l2 -> small l3 ->
  readAsm (((59 :: codes m) ++ labText l1 ++ codes "," ++ labText l2 ++ codes "," ++ labText l3) ++ eol ++ r) = readAsm r.
Proof.
  intros N A B C. change ((59 :: codes m) ++ labText l1 ++ codes "," ++ labText l2 ++ codes "," ++ labText l3) with (59 :: (codes m ++ labText l1 ++ codes "," ++ labText l2 ++ codes "," ++ labText l3)).
  apply read_comment. rewrite !in_app_iff.
  intros [H|[H|[H|[H|[H|H]]]]]; [exact (N H)|exact (nl_lab _ A H)| |exact (nl_lab _ B H)| |exact (nl_lab _ C H)];
    (destruct H as [H|[]]; discriminate H).
Qed.
Lemma read_vop t v r : okV v -> Forall (prI t) (expand1 v) -> readAsm (vmVop t v ++ r) = option_map (app (map (vmLine t) (expand1 v))) (readAsm r).
Proof.
  intros O F. destruct v as [i|x l1 l2 l3].
  - cbn [vmVop expand1]. inversion F; subst. rewrite read_vmOp by assumption. destruct (readAsm r); reflexivity.
  - cbn [okV] in O. cbn [vmVop]. unfold vmBool.
    assert (S : small l1 /\ small l2 /\ small l3).
    { destruct O as [-> | ->]; cbn [expand1] in F; unfold vmBoolOR, vmBoolAND in F; cbn [Z.eqb] in F;
        destruct (Z.eqb_spec l2 (-1)) as [->|N]; cbn [Pos.eqb app] in F;
        repeat match goal with H : Forall _ (_ :: _) |- _ => inversion H; clear H; subst end; cbn [prI] in *;
        unfold small in *; lia. }
    destruct S as (S1 & S2 & S3).
    set (ops := IJmp l3 :: ILab l1 :: ILdCns x :: (if l2 =? -1 then [] else [IJmp l3; ILab l2; ILdCns (1 - x)]) ++ [ILab l3]).
    assert (E : expand1 (VBool x l1 l2 l3) = ops).
    { unfold ops. destruct O as [-> | ->]; cbn [expand1]; unfold vmBoolOR, vmBoolAND; destruct (l2 =? -1); reflexivity. }
    rewrite E in *. set (hd := codes (if x =? 1 then "; BOOLOR " else "; BOOLAND ")).
    set (txt := flat_map (vmOp t) ops ++ codes "; ----" ++ eol ++ r).
    match goal with |- readAsm ?a = _ => replace a with ((hd ++ labText l1 ++ codes "," ++ labText l2 ++ codes "," ++ labText l3) ++ eol ++ txt) end.
    2: { unfold txt, ops. cbn [flat_map]. destruct (l2 =? -1); cbn [flat_map app]; rewrite ?app_nil_r, <- ?app_assoc; reflexivity. }
    assert (H1 : exists m, hd = 59 :: codes m /\ ~ In 10 (codes m)).
    { unfold hd. destruct (x =? 1); [exists " BOOLOR "%string|exists " BOOLAND "%string]; (split; [reflexivity|]); cbn; intros H; repeat (destruct H as [H|H]; [discriminate|]); destruct H. }
    destruct H1 as (m & -> & N). rewrite comment_labs by assumption. unfold txt. rewrite read_ops by exact F.
    change (codes "; ----" ++ eol ++ r) with ((59 :: codes " ----") ++ eol ++ r). rewrite read_comment; [reflexivity|].
    cbn. intros H; repeat (destruct H as [H|H]; [discriminate|]); destruct H.
Qed.
Lemma app_some {A} (a b : list A) s : option_map (app a) (option_map (app b) s) = option_map (app (a ++ b)) s.
Proof. destruct s as [l|]; [|reflexivity]. cbn [option_map]. rewrite app_assoc. reflexivity. Qed.
Lemma read_vops t l r : Forall okV l -> Forall (prI t) (expand l) ->
  readAsm (flat_map (vmVop t) l ++ r) = option_map (app (map (vmLine t) (expand l))) (readAsm r).
Proof.
  induction l as [|v l IH]; intros O F; [cbn [flat_map app expand map]; destruct (readAsm r); reflexivity|]. inversion O; subst.
  cbn [expand] in *. apply Forall_app in F. destruct F as (F1 & F2). cbn [flat_map]. rewrite <- app_assoc, read_vop by assumption.
  rewrite IH by assumption. rewrite app_some, map_app. reflexivity.
Qed.
Lemma read_str s r : ~ In 10 s -> readAsm (ins1 "STRING" (quote s) ++ r) = option_map (cons (row "STRING" [Str s])) (readAsm r).
Proof.
  intros N. rewrite read_raw; [|reflexivity|].
  - unfold quote. change (readArgs ([34] ++ s ++ [34])) with [Str (removelast (s ++ [34]))]. rewrite removelast_last. reflexivity.
  - unfold quote. rewrite !in_app_iff. intros [[H|[]]|[H|[H|[]]]]; [discriminate|exact (N H)|discriminate].
Qed.
Lemma one {A} (x : A) s : option_map (cons x) s = option_map (app [x]) s. Proof. destruct s; reflexivity. Qed.
Lemma read_item t a r : prA t a -> readAsm (vmItem t a ++ r) = option_map (app (vmItemLines t a)) (readAsm r).
Proof.
  intros F. destruct a; cbn [prA vmItem vmItemLines] in *; rewrite <- ?one;
    try (apply ins_num; [reflexivity|exact F]);
    try (apply ins_sym; [reflexivity|first [apply symbol_sym; exact F|apply symbol_lab; exact F]]);
    try (apply mark_sym; first [apply symbol_sym; exact F|apply symbol_lab; exact F]);
    try (apply read_str; exact F).
  pose proof (vops_spec c) as E. rewrite read_vops; [|apply vops_bits|].
  - rewrite E, map_map. reflexivity.
  - rewrite E. apply Forall_map. exact F.
Qed.
Theorem read_vm t l : Forall (prA t) l -> readAsm (flat_map (vmItem t) l) = Some (flat_map (vmItemLines t) l).
Proof.
  induction 1 as [|a l F _ IH]; [reflexivity|]. cbn [flat_map]. rewrite (read_item t a _ F), IH. reflexivity.
Qed.

(* ==== TaC ==== *)
Lemma ins_words m w ws a r : wordy (codes m) -> word w -> Forall wordy ws -> map readArg (w :: ws) = a ->
  readAsm (ins1 m (joinC (w :: ws)) ++ r) = option_map (cons (row m a)) (readAsm r).
Proof. intros A B C <-. apply read_ins1; assumption. Qed.
Lemma wordy_sym s : symbol s -> wordy s. Proof. intros S. apply S. Qed.
Lemma hash_sym s : symbol s -> readArg (codes "#" ++ s) = Hash (Sym s) /\ wordy (codes "#" ++ s).
Proof.
  intros S. split; [|apply wordy_app; [reflexivity|apply S]].
  change (readArg (codes "#" ++ s)) with (Hash (readAtom s)). rewrite symbol_atom by exact S. reflexivity.
Qed.
Lemma at_sym s : symbol s -> readArg (codes "@" ++ s) = At (Sym s) /\ wordy (codes "@" ++ s).
Proof.
  intros S. split; [|apply wordy_app; [reflexivity|apply S]].
  change (readArg (codes "@" ++ s)) with (At (readAtom s)). rewrite symbol_atom by exact S. reflexivity.
Qed.
(* the operand as words *)
Definition opdWords (t : table) (o : opd) : list (list Z) :=
  match o with
  | OFp d => [dec d; codes "FP"]
  | OWnd r => [codes "0"; regText r]
  | o => [opdText t o]
  end.
Lemma opdWords_text t o : joinC (opdWords t o) = opdText t o.
Proof. destruct o; reflexivity. Qed.
Lemma opdWords_read t o : prO t o -> Forall wordy (opdWords t o) /\ map readArg (opdWords t o) = opdArgs t o.
Proof.
  intros F. destruct o as [c|i|r|d|l|i|r|r]; cbn [prO opdWords opdText opdArgs map] in *.
  - rewrite arg_hash by exact F. split; [constructor; [apply wordy_app; [reflexivity|exact (wordy_dec c F)]|constructor]|reflexivity].
  - pose proof (symbol_sym t i F) as S. rewrite symbol_arg by exact S. split; [constructor; [apply S|constructor]|reflexivity].
  - pose proof (symbol_reg r F) as S. rewrite symbol_arg by exact S. split; [constructor; [apply S|constructor]|reflexivity].
  - rewrite arg_dec by exact F. split; [constructor; [exact (wordy_dec d F)|constructor; [reflexivity|constructor]]|reflexivity].
  - destruct (hash_sym _ (symbol_lab l F)) as (E & W). rewrite E. split; [constructor; [exact W|constructor]|reflexivity].
  - destruct (hash_sym _ (symbol_sym t i F)) as (E & W). rewrite E. split; [constructor; [exact W|constructor]|reflexivity].
  - pose proof (symbol_reg r F) as S. rewrite (symbol_arg _ S). split; [constructor; [reflexivity|constructor; [apply S|constructor]]|reflexivity].
  - destruct (at_sym _ (symbol_reg r F)) as (E & W). rewrite E. split; [constructor; [exact W|constructor]|reflexivity].
Qed.
Lemma ins_reg_opd m r0 o t r : wordy (codes m) -> small r0 -> prO t o ->
  readAsm (ins1 m (regText r0 ++ codes "," ++ opdText t o) ++ r) = option_map (cons (row m (sym (reg r0) :: opdArgs t o))) (readAsm r).
Proof.
  intros W S O. destruct (opdWords_read t o O) as (F & E). pose proof (symbol_reg r0 S) as R.
  replace (regText r0 ++ codes "," ++ opdText t o) with (joinC (regText r0 :: opdWords t o)).
  - apply ins_words; [exact W|apply symbol_word; exact R|exact F|]. cbn [map]. rewrite symbol_arg by exact R. rewrite E. reflexivity.
  - rewrite <- opdWords_text. destruct (opdWords t o) as [|v vs] eqn:V; [destruct o; discriminate V|reflexivity].
Qed.
Lemma wordy_alu a : wordy (codes (aluText a)). Proof. destruct a; reflexivity. Qed.
Lemma wordy_cc a : wordy (codes (ccText a)). Proof. destruct a; reflexivity. Qed.
Lemma sp_num m n r : wordy (codes m) -> small n ->
  readAsm (ins1 m (codes "SP,#" ++ dec n) ++ r) = option_map (cons (row m [sym (codes "SP"); Hash (Num n)])) (readAsm r).
Proof.
  intros W S. change (codes "SP,#" ++ dec n) with (joinC [codes "SP"; codes "#" ++ dec n]). apply ins_words; [exact W| | |].
  - split; [reflexivity|]. eexists; eexists; split; [reflexivity|discriminate].
  - constructor; [apply wordy_app; [reflexivity|exact (wordy_dec n S)]|constructor].
  - cbn [map]. rewrite arg_hash by exact S. reflexivity.
Qed.
Lemma ins_lit m w ws r : wordy (codes m) -> symbol w -> Forall symbol ws ->
  readAsm (ins1 m (joinC (w :: ws)) ++ r) = option_map (cons (row m (map sym (w :: ws)))) (readAsm r).
Proof.
  intros W S F. apply ins_words; [exact W|apply symbol_word; exact S| |].
  - revert F. apply Forall_impl. exact wordy_sym.
  - cbn [map]. rewrite (symbol_arg _ S). unfold sym at 1. f_equal. induction F as [|x l X _ IH]; [reflexivity|]. cbn [map]. rewrite (symbol_arg _ X), IH. reflexivity.
Qed.
Lemma symbol_FP : symbol (codes "FP"). Proof. split; [reflexivity|]. exists 70, [80]. split; reflexivity. Qed.
Lemma symbol_SP : symbol (codes "SP"). Proof. split; [reflexivity|]. exists 83, [80]. split; reflexivity. Qed.
Lemma symbol_chk : symbol (codes "__stkChk"). Proof. split; [reflexivity|]. exists 95, (codes "_stkChk"). split; reflexivity. Qed.
Lemma read_tin t i r : prT t i -> readAsm (tinText t i ++ r) = option_map (cons (tinLine t i)) (readAsm r).
Proof.
  intros F. destruct i as [q o|a q o|q o|q i|q d|q d|q d|q|q| | | | |n|n|n f| |l|c l|l| | ]; cbn [prT tinText tinLine] in *.
  - apply ins_reg_opd; [reflexivity|apply F|apply F].
  - apply ins_reg_opd; [apply wordy_alu|apply F|apply F].
  - apply ins_reg_opd; [reflexivity|apply F|apply F].
  - refine (ins_reg_opd "ST" q (OGlb i) t r _ _ _); [reflexivity|apply F|apply F].
  - refine (ins_reg_opd "ST" q (OFp d) t r _ _ _); [reflexivity|apply F|apply F].
  - refine (ins_reg_opd "ST" q (OWnd d) t r _ _ _); [reflexivity|apply F|apply F].
  - refine (ins_reg_opd "ST" q (OByt d) t r _ _ _); [reflexivity|apply F|apply F].
  - apply ins_sym; [reflexivity|apply symbol_reg; exact F].
  - apply ins_sym; [reflexivity|apply symbol_reg; exact F].
  - apply ins_sym; [reflexivity|exact symbol_FP].
  - apply ins_sym; [reflexivity|exact symbol_FP].
  - refine (ins_lit "LD" (codes "FP") [codes "SP"] r _ symbol_FP (Forall_cons _ symbol_SP (Forall_nil _))). reflexivity.
  - refine (ins_lit "LD" (codes "SP") [codes "FP"] r _ symbol_SP (Forall_cons _ symbol_FP (Forall_nil _))). reflexivity.
  - apply sp_num; [reflexivity|exact F].
  - apply sp_num; [reflexivity|exact F].
  - apply ins_sym; [reflexivity|apply symbol_sym; exact F].
  - apply ins_sym; [reflexivity|exact symbol_chk].
  - apply ins_sym; [reflexivity|apply symbol_tlab; exact F].
  - apply ins_sym; [apply wordy_cc|apply symbol_tlab; exact F].
  - apply mark_sym. apply symbol_tlab. exact F.
  - apply read_ins0. reflexivity.
  - apply read_ins0. reflexivity.
Qed.
Lemma read_tins t C r : Forall (prT t) C -> readAsm (flat_map (tinText t) C ++ r) = option_map (app (map (tinLine t) C)) (readAsm r).
Proof.
  induction 1 as [|i l F _ IH]; [cbn [flat_map app map]; destruct (readAsm r); reflexivity|].
  cbn [flat_map]. rewrite <- app_assoc, (read_tin t i _ F). apply map_cons. exact IH.
Qed.
Lemma cut_pre c s y w ws : ~ In c s -> cut c y = w :: ws -> cut c (s ++ y) = (s ++ w) :: ws.
Proof.
  intros N E. induction s as [|x s IH]; [exact E|]. cbn [app cut]. destruct (Z.eqb_spec x c) as [->|D]; [destruct N; left; reflexivity|].
  rewrite IH by (intros H; apply N; right; exact H). reflexivity.
Qed.
Lemma attach s x b q : symbol s -> readAsm (9 :: x) = Some (SLine None b :: q) -> readAsm (s ++ 9 :: x) = Some (SLine (Some s) b :: q).
Proof.
  intros (W & c & z & E & L) H. unfold readAsm in *. destruct (cut_cons 10 x) as (w & ws & X).
  assert (Y : cut 10 (9 :: x) = (9 :: w) :: ws) by (cbn [cut]; change (9 =? 10) with false; cbv iota; rewrite X; reflexivity).
  rewrite (cut_pre 10 s (9 :: x) (9 :: w) ws); [|apply (wordy_no _ 10 W); auto|exact Y]. rewrite Y in H.
  destruct ws as [|v ws]; [discriminate H|].
  change (lines ((s ++ 9 :: w) :: v :: ws)) with (option_map (app (readLine (s ++ 9 :: w))) (lines (v :: ws))).
  change (lines ((9 :: w) :: v :: ws)) with (option_map (app (readLine (9 :: w))) (lines (v :: ws))) in H.
  destruct (lines (v :: ws)) as [q0|]; [|discriminate H]. cbn [option_map] in *.
  cbn [readLine] in H. change (upto 9 (9 :: w)) with (@nil Z, Some w) in H. cbv iota beta in H. cbn [app] in H.
  assert (R : readLine (s ++ 9 :: w) = [SLine (Some s) (let (o, a) := upto 9 w in Some (o, match a with None => [] | Some a => readArgs a end))]).
  { pose proof (upto_app 9 s w ltac:(apply (wordy_no _ 9 W); auto)) as U. destruct (letterish_cases c L) as (_ & _ & _ & _ & _ & N & _). subst s.
    unfold readLine. cbn [app] in *. rewrite U. destruct c as [|p|p]; try reflexivity. do 6 (destruct p as [p|p|]; try reflexivity; try lia). }
  rewrite R. cbn [app]. congruence.
Qed.
Lemma ins1_tab m a : exists x, ins1 m a = 9 :: x. Proof. eexists; reflexivity. Qed.
Lemma tin_tab t i b : tinLine t i = SLine None b -> exists x, tinText t i = 9 :: x.
Proof. destruct i; intros H; try discriminate H; eexists; reflexivity. Qed.
Lemma tacRows_text t a n x n' : prTA t a n -> tacRows t a n = Some (x, n') -> exists tx, tacItem t a n = Some (tx, n') /\
  (forall r, readAsm (tx ++ r) = option_map (app x) (readAsm r)) /\
  (x = [] -> tx = []) /\ (forall b q, x = SLine None b :: q -> exists y, tx = 9 :: y).
Proof.
  intros P H. destruct a; cbn [tacRows tacItem prTA prA] in *; try discriminate H;
    try (injection H as <- <-; eexists; split; [reflexivity|]; split;
         [intros r; rewrite <- one; first [apply ins_num; [reflexivity|exact P]|apply ins_sym; [reflexivity|apply symbol_lab; exact P]|apply read_str; exact P]|];
         split; [discriminate|intros; apply ins1_tab]).
  destruct (tac false false 0 0 (vops c) (tinit n)) as [[C s]|] eqn:E; [|discriminate H]. injection H as <- <-. eexists. split; [reflexivity|]. split; [intros r; apply read_tins; exact P|]. split.
  - destruct C; [reflexivity|discriminate].
  - intros b q X. destruct C as [|i C]; [discriminate X|]. cbn [map] in X. injection X as X _.
    destruct (tin_tab t i b X) as (y & Y). exists (y ++ flat_map (tinText t) C). cbn [flat_map]. rewrite Y. reflexivity.
Qed.
Lemma tacRows_next t a n x n1 : tacRows t a n = Some (x, n1) -> n1 = tacNext a n.
Proof. destruct a; cbn [tacRows tacNext]; try discriminate; try (intros H; injection H as _ <-; reflexivity). destruct (tac _ _ _ _ _ _) as [[C s]|]; [|discriminate]. intros H. injection H as _ <-. reflexivity. Qed.
Theorem read_tac t l : forall n L n', prTacs t l n -> tacLines t l n = Some (L, n') ->
  exists tx, vm2tac t l n = Some (tx, n') /\ readAsm tx = Some L.
Proof.
  assert (G : forall n L n', prTacs t l n -> tacLines t l n = Some (L, n') ->
    exists tx, vm2tac t l n = Some (tx, n') /\ readAsm tx = Some L /\ forall b q, L = SLine None b :: q -> exists y, tx = 9 :: y).
  { induction l as [|a r IH]; intros n L n' P H.
    - injection H as <- <-. exists []. split; [reflexivity|]. split; [reflexivity|discriminate].
    - destruct P as [Pa Pr]. cbn [tacLines vm2tac] in *.
      assert (LAB : forall s, tacNext a n = n -> symbol s -> tacItem t a n = Some (s, n) ->
        match tacLines t r n with Some (q, n') => match label s q with Some q => Some (q, n') | None => None end | None => None end = Some (L, n') ->
        exists tx, match tacItem t a n with Some (x, n1) => match vm2tac t r n1 with Some (y, n2) => Some (x ++ y, n2) | None => None end | None => None end = Some (tx, n') /\
          readAsm tx = Some L /\ forall b q, L = SLine None b :: q -> exists y, tx = 9 :: y).
      { intros s NX S I X. rewrite NX in Pr. destruct (tacLines t r n) as [[q m]|] eqn:E; [|discriminate X].
        destruct q as [|[[lb|] b] q]; cbn [label] in X; try discriminate X. injection X as <- <-.
        destruct (IH n _ _ Pr E) as (tx & V & R & T). destruct (T b q eq_refl) as (y & ->).
        rewrite I, V. eexists. split; [reflexivity|]. split; [apply attach; [exact S|exact R]|discriminate]. }
      assert (ROW : match tacRows t a n with Some (x, n1) => match tacLines t r n1 with Some (q, n') => Some (x ++ q, n') | None => None end | None => None end = Some (L, n') ->
        exists tx, match tacItem t a n with Some (x, n1) => match vm2tac t r n1 with Some (y, n2) => Some (x ++ y, n2) | None => None end | None => None end = Some (tx, n') /\
          readAsm tx = Some L /\ forall b q, L = SLine None b :: q -> exists y, tx = 9 :: y).
      { intros X. destruct (tacRows t a n) as [[x n1]|] eqn:E; [|discriminate X].
        destruct (tacLines t r n1) as [[q m]|] eqn:F; [|discriminate X]. injection X as <- <-. pose proof (tacRows_next _ _ _ _ _ E) as NX. subst n1.
        destruct (tacRows_text t a n x _ Pa E) as (tx & I & R & N & T). destruct (IH _ _ _ Pr F) as (ty & V & S & U).
        rewrite I, V. eexists. split; [reflexivity|]. split; [rewrite R, S; reflexivity|].
        intros b q' Q. destruct x as [|x0 x].
        - rewrite (N eq_refl). cbn [app] in *. exact (U b q' Q).
        - cbn [app] in Q. injection Q as -> Q. destruct (T b x eq_refl) as (y & ->). exists (y ++ ty). reflexivity. }
      destruct a; try exact (ROW H).
      + apply (LAB (labText l)); [reflexivity|apply symbol_lab; exact Pa|reflexivity|exact H].
      + apply (LAB (symText t i)); [reflexivity|apply symbol_sym; exact Pa|reflexivity|exact H]. }
  intros n L n' P H. destruct (G n L n' P H) as (tx & A & B & _). exists tx. split; assumption.
Qed.
