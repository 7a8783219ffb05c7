(* The code of the functions of a program, linked, does what their bodies say together. *)
From Coq Require Import ZArith Bool Lia List.
From Verif Require Import Word NameTable SyTree ExprSem StmtSem OptSpec VM Parser ParserStmt AsmText SourceRun LinkSpec Properties_Run.
Import ListNotations.
Open Scope Z_scope.

Section Program.
Variable W : world.
Variable fs : list fn.
Notation lcfg := (lcfg W).
Notation lreaches := (lreaches W fs).

Lemma lsteps_app n m : forall a b c : lcfg, lsteps W fs n a b -> lsteps W fs m b c -> lsteps W fs (n + m) a c.
Proof.
  induction n as [|n IH]; intros a b c A B; cbn [lsteps Nat.add] in *; [subst; exact B|].
  destruct A as (d & S & A). exists d. split; [exact S|]. exact (IH _ _ _ A B).
Qed.
Lemma lreach_trans (a b c : lcfg) : lreaches a b -> lreaches b c -> lreaches a c.
Proof. intros [n A] [m B]. exists (n + m)%nat. exact (lsteps_app _ _ _ _ _ A B). Qed.
Lemma lreach_one (a b : lcfg) : lstep W fs a = Some b -> lreaches a b.
Proof. intros H. exists 1%nat, b. split; [exact H|reflexivity]. Qed.

Lemma fn_of_name l nm f : fn_of l nm = Some f -> fName f = nm /\ In f l.
Proof.
  induction l as [|h r IH]; cbn [fn_of]; intros H; [discriminate H|]. destruct (list_eq_dec Z.eq_dec (fName h) nm) as [E|E].
  - injection H as <-. split; [exact E|left; reflexivity].
  - destruct (IH H). split; [assumption|right; assumption].
Qed.

(* what the callees C do, the linked program does *)
Definition backed (C : list Z -> list Z -> WG W -> option (Z * WG W)) : Prop :=
  forall nm a g v g', C nm a g = Some (v, g') ->
  match fn_of fs nm with Some f => delivers W fs f a g v g' | None => w_ext W nm a g = Some (v, g') end.

Definition embed (f : fn) (C : list Z -> list Z -> WG W -> option (Z * WG W)) (c : cfg (seen W (fTab f) C)) (rest : list frm) : lcfg :=
  let '(Cfg k s a r m) := c in LCfg W (ExprSem.gs m) (Frm f k s a r (locs m) (prms m)) rest.

Lemma back_of (g : WG W) r (f : fn) w rest n i (val : bool) : nth_error (fCode (rF r)) (rPc r) = Some (if val then ICallF n i else ICallP n i) ->
  rF w = f -> nth_error (fCode f) (rPc w) = Some (if fIntr f then IRetI else IRet) ->
  lstep W fs (LCfg W g w (r :: rest)) = Some (LCfg W g (resumed r n (if val then Some (value_of (rReg w)) else None)) rest).
Proof.
  intros N E R. unfold lstep. cbn [lTop]. rewrite E, R. transitivity (back W (LCfg W g w (r :: rest))); [destruct (fIntr f); reflexivity|].
  unfold back. cbn [lRest lW lTop]. rewrite N. destruct val; reflexivity.
Qed.

Lemma call_linked f C (B : backed C) k s a r (m : state (seen W (fTab f) C)) rest n i (val : bool) v g' :
  nth_error (fCode f) k = Some (if val then ICallF n i else ICallP n i) ->
  C (nameAt (fTab f) i) (firstn n a) (ExprSem.gs m) = Some (v, g') ->
  lreaches (LCfg W (ExprSem.gs m) (Frm f k s a r (locs m) (prms m)) rest)
           (LCfg W g' (Frm f (S k) (if val then w16 v :: s else s) (skipn n a) r (locs m) (prms m)) rest).
Proof.
  intros N CC. pose proof (B _ _ _ _ _ CC) as D.
  assert (S1 : lstep W fs (LCfg W (ExprSem.gs m) (Frm f k s a r (locs m) (prms m)) rest) = invoke W fs (LCfg W (ExprSem.gs m) (Frm f k s a r (locs m) (prms m)) rest) n i val)
    by (unfold lstep; cbn [lTop rF rPc]; rewrite N; destruct val; reflexivity).
  unfold invoke in S1. cbn [lTop rF rPc rArgs lW lRest] in S1. destruct (fn_of fs (nameAt (fTab f) i)) as [h|].
  - apply lreach_one in S1. eapply lreach_trans; [exact S1|].
    destruct (D (Frm f k s a r (locs m) (prms m) :: rest)) as (w & R & E & NR & _ & _ & V). eapply lreach_trans; [exact R|].
    apply lreach_one. rewrite (back_of g' (Frm f k s a r (locs m) (prms m)) h w rest n i val N E NR). unfold resumed. cbn. rewrite V. destruct val; reflexivity.
  - rewrite D in S1. apply lreach_one. rewrite S1. unfold resumed. cbn. destruct val; reflexivity.
Qed.

Lemma inside_step f C c d rest : (match nth_error (fCode f) (pc c) with Some (ICallF _ _) | Some (ICallP _ _) | Some IRet | Some IRetI => False | _ => True end) ->
  VM.step (seen W (fTab f) C) (fCode f) c = Some d -> lstep W fs (embed f C c rest) = Some (embed f C d rest).
Proof.
  intros NC S. destruct c as [k s a r m]. cbn [pc] in NC. cbn [embed]. unfold lstep. cbn [lTop rF rPc].
  assert (I : inside W (LCfg W (ExprSem.gs m) (Frm f k s a r (locs m) (prms m)) rest) = Some (embed f C d rest)).
  { unfold inside. cbn [lTop rF rPc rStk rArgs rReg rLoc rPrm lW lRest]. cbn [VM.step] in *. unfold goto in *. destruct (nth_error (fCode f) k) as [i|]; [|discriminate S].
    destruct i; try destruct NC; cbn iota in *;
      repeat match type of S with
      | match ?x with [] => _ | _ :: _ => _ end = _ => destruct x; cbn iota in *; [discriminate S|]
      end;
      repeat match type of S with context [if ?b then _ else _] => destruct b; cbn iota in * end;
      repeat match type of S with match find ?l ?c with Some _ => _ | None => _ end = _ => destruct (find l c); cbn iota in *; [|discriminate S] end;
      repeat match type of S with match op2_val ?o ?v ?w with Some _ => _ | None => _ end = _ => destruct (op2_val o v w); cbn iota in *; [|discriminate S] end;
      injection S as <-; reflexivity. }
  destruct (nth_error (fCode f) k) as [i|]; [|exact I]. destruct i; try destruct NC; exact I.
Qed.

Lemma step_linked f C (B : backed C) c d rest : VM.step (seen W (fTab f) C) (fCode f) c = Some d -> lreaches (embed f C c rest) (embed f C d rest).
Proof.
  intros S. destruct (nth_error (fCode f) (pc c)) as [i|] eqn:N.
  2:{ destruct c as [k s a r m]. cbn [pc] in N. cbn [VM.step] in S. rewrite N in S. discriminate S. }
  destruct c as [k s a r m]. cbn [pc] in N.
  destruct i as [| | | | | | | | | | | | | | | | | | | | | n i|n i| | | | | |];
    try (apply lreach_one, inside_step; [cbn [pc]; rewrite N; exact Logic.I|exact S]).
  - cbn [VM.step] in S. rewrite N in S. cbn [seen ExprSem.call] in S. destruct (C (nameAt (fTab f) i) (firstn n a) (ExprSem.gs m)) as [[v g]|] eqn:CC; [|discriminate S].
    injection S as <-. exact (call_linked f C B k s a r m rest n i true v g N CC).
  - cbn [VM.step] in S. rewrite N in S. cbn [seen ExprSem.call] in S. destruct (C (nameAt (fTab f) i) (firstn n a) (ExprSem.gs m)) as [[v g]|] eqn:CC; [|discriminate S].
    injection S as <-. exact (call_linked f C B k s a r m rest n i false v g N CC).
  - cbn [VM.step] in S. rewrite N in S. discriminate S.
  - cbn [VM.step] in S. rewrite N in S. discriminate S.
Qed.
Lemma steps_linked f C (B : backed C) rest n : forall c d, VM.steps (seen W (fTab f) C) (fCode f) n c d -> lreaches (embed f C c rest) (embed f C d rest).
Proof.
  induction n as [|n IH]; intros c d S; cbn [VM.steps] in S.
  - subst d. exists O. reflexivity.
  - destruct S as (e & S & R). eapply lreach_trans; [exact (step_linked f C B _ _ _ S)|exact (IH _ _ R)].
Qed.

(* each function for itself does what its body says, whatever its callees do *)
Definition each_alike (sw : op2 -> expr -> expr -> bool) : Prop :=
  forall f, In f fs -> forall M, plainM M -> alike sw M (fTab f) (fIntr f) (fBody f) (fCode f).

Lemma calls_delivered sw (A : each_alike sw) n : backed (calls W fs sw n).
Proof.
  induction n as [|n IH]; intros nm a g v g' H; cbn [calls] in H; destruct (fn_of fs nm) as [f|] eqn:F; [discriminate H|exact H| |exact H].
  destruct (fn_of_name _ _ _ F) as [<- I]. set (C := calls W fs sw n) in *.
  assert (PM : plainM (seen W (fTab f) C)) by (split; reflexivity).
  destruct (run _ _ sw (fBody f) (S n) _) as [o st| |] eqn:R; [|discriminate H..]. injection H as <- <-.
  change (seenT W (fTab f) C) with (MT (seen W (fTab f) C) (fTab f)) in *. intros rest.
  destruct (proj1 (A f I _ PM [] [] None _) o st (ex_intro _ (S n) R)) as (k & [m S1] & N).
  apply (steps_linked f C IH rest) in S1. cbn [embed same locs prms ExprSem.gs] in S1.
  eexists. split; [exact S1|]. cbn [rF rPc rStk rArgs rReg]. split; [reflexivity|]. split; [exact N|]. split; [reflexivity|]. split; [reflexivity|].
  destruct o as [| | |[w|]]; reflexivity.
Qed.
(* the linked machine is deterministic *)
Lemma lsteps_end n : forall (a b : lcfg) m c, lsteps W fs n a b -> lstep W fs b = None -> lsteps W fs m a c -> lstep W fs c = None -> c = b.
Proof.
  induction n as [|n IH]; intros a b m c A X B Y; cbn [lsteps] in A.
  - subst b. destruct m as [|m]; cbn [lsteps] in B; [auto|]. destruct B as (d & S & _). congruence.
  - destruct A as (d & S & A). destruct m as [|m]; cbn [lsteps] in B; [subst; congruence|]. destruct B as (e & S' & B). replace e with d in * by congruence. exact (IH _ _ _ _ A X B Y).
Qed.
End Program.
