(* A small concrete machine, and execution of both machines by computation, for
   examples and counterexamples. *)
From Coq Require Import ZArith Bool Lia List.
From Verif Require Import Word WordProofs SyTree ExprSem VM VmCode TacSpec Tac TacSafe TacSim.
Import ListNotations.
Open Scope Z_scope.

(* globals and array elements are cells of one map; function 1 stores 7 in global
   0 and returns 1, every other function returns the sum of its arguments *)
Definition toy : machine :=
  Machine (Z -> Z) (fun g i => g (- i - 1)) (fun g i v => upd g (- i - 1) v)
    (fun g b i => g (w16 (b + 2 * i))) (fun g b i v => upd g (w16 (b + 2 * i)) v)
    (fun g b i => g (w16 (b + i))) (fun g b i v => upd g (w16 (b + i)) v)
    (fun f a g => if f =? 1 then Some (1, upd g (-1) 7) else Some (fold_right Z.add 0 a, g))
    (fun i => 1000 + i) (fun l => 2000 + l) (fun i => i) (fun i => i).
Lemma toy_flat : flat toy.
Proof.
  split; intros; cbn [toy ldw stw ldb stb lcl pcl]; rewrite ?Z.mul_0_r, ?Z.add_0_r, ?w16_w16; reflexivity.
Qed.

Definition junk (t : mst toy) : (Z -> Z) * (Z -> Z) * bool * bool := (fun r => 500 + r, fun a => 600 + a, false, true).
Definition hw0 : hw toy := Hw toy Z.div Z.modulo (fun _ _ _ => false) junk.
(* less-than is the sign of the result *)
Definition hwS : hw toy := Hw toy Z.div Z.modulo (fun a x y => sval (alu_val toy hw0 a x y) <? 0) junk.
(* less-than is that of the exact sum or difference, as with an overflow flag *)
Definition hwV : hw toy := Hw toy Z.div Z.modulo (fun a x y =>
  match a with AAdd => sval x + sval y <? 0 | ASub => sval x - sval y <? 0 | _ => sval (alu_val toy hw0 a x y) <? 0 end) junk.
Lemma hwS_ok : forall ord, hwOk toy hwS ord.
Proof. intros ord. split; reflexivity. Qed.
Lemma hwV_ok : hwOk toy hwV false.
Proof. split; try reflexivity. discriminate. Qed.

(* a state in which a function may begin *)
Definition start (e : instr) (m : state toy) : mst toy :=
  Mst (fun r => w16 (locs m (r - 2))) 5000 1000
      (fun a => if 1000 <=? a then w16 (prms m ((a - 1002) / 2)) else w16 (locs m (9 + (998 - saved e - a) / 2))) false false (gs m).
Lemma start_begins : forall e depth np m, begins toy e depth np (start e m) m.
Proof.
  intros e depth np m. split; cbn [start tg gr sm sp].
  - reflexivity.
  - intros n Hn. destruct (Z.leb_spec 1000 (1000 + 2 + 2 * n)); [|lia].
    replace (1000 + 2 + 2 * n - 1002) with (n * 2) by lia. rewrite Z.div_mul by lia. reflexivity.
  - intros n H1 H2. replace (n + 2 - 2) with n by lia. reflexivity.
  - intros n Hn. assert (0 <= saved e) by (unfold saved; destruct (isIntr e); lia).
    destruct (Z.leb_spec 1000 (1000 - saved e - 2 - 2 * (n - 9))); [lia|].
    replace (998 - saved e - (1000 - saved e - 2 - 2 * (n - 9))) with ((n - 9) * 2) by lia. rewrite Z.div_mul by lia. f_equal. f_equal. lia.
Qed.

(* running the two machines *)
Definition fineb (i : instr) (vs : list Z) : bool :=
  match i, vs with
  | IUn NOT, v :: _ => (v =? 0) || (v =? 1)
  | IBin DIV, b :: a :: _ | IBin MOD, b :: a :: _ => (a <? 32768) && (b <? 32768)
  | _, _ => true
  end.
Lemma fineb_ok : forall i vs, fineb i vs = true -> fineI i vs.
Proof.
  intros i vs H. destruct i; try exact I; destruct o; try (destruct vs as [|? [|]]; exact I); cbn in *.
  - destruct vs as [|v vs]; [exact I|]. apply orb_true_iff in H. destruct H as [H|H]; apply Z.eqb_eq in H; auto.
  - destruct vs as [|b [|a vs]]; try exact I. apply andb_true_iff in H. destruct H as [A B]. apply Z.ltb_lt in A. apply Z.ltb_lt in B. split; assumption.
  - destruct vs as [|b [|a vs]]; try exact I. apply andb_true_iff in H. destruct H as [A B]. apply Z.ltb_lt in A. apply Z.ltb_lt in B. split; assumption.
Qed.
Fixpoint frun {M} (n : nat) (p : code) (c : cfg M) : option (cfg M) :=
  match n with
  | O => Some c
  | S n' => if match nth_error p (pc c) with Some i => fineb i (stk c) | None => true end
            then match step M p c with Some d => frun n' p d | None => None end else None
  end.
Lemma frun_ok : forall M n p (c c' : cfg M), frun n p c = Some c' -> fsteps M p n c c'.
Proof.
  intros M. induction n as [|n IH]; intros p c c' H; cbn [frun fsteps] in *.
  - injection H as ->. reflexivity.
  - destruct (match nth_error p (pc c) with Some i => fineb i (stk c) | None => true end) eqn:F; [|discriminate H].
    destruct (step M p c) as [d|] eqn:S1; [|discriminate H]. split; [|exists d; split; [reflexivity|exact (IH _ _ _ H)]].
    unfold fineAt. destruct (nth_error p (pc c)); [exact (fineb_ok _ _ F)|exact I].
Qed.
Fixpoint trun {M} (H : hw M) (n : nat) (p : list tin) (c : tcfg M) : option (tcfg M) :=
  match n with O => Some c | S n' => match tstep M H p c with Some d => trun H n' p d | None => None end end.
Lemma trun_ok : forall M (Hw : hw M) n p c c', trun Hw n p c = Some c' -> treaches M Hw p c c'.
Proof.
  intros M Hw n p c c' H. exists n. revert c H. induction n as [|n IH]; intros c H; cbn [trun tsteps] in *.
  - injection H as ->. reflexivity.
  - destruct (tstep M Hw p c) as [d|]; [|discriminate H]. exists d. split; [reflexivity|exact (IH _ H)].
Qed.
(* run until the machine stops, counting steps *)
Fixpoint fstop {M} (n : nat) (p : code) (c : cfg M) : nat :=
  match n with O => O | S n' => match step M p c with Some d => S (fstop n' p d) | None => O end end.
Fixpoint tstop {M} (H : hw M) (n : nat) (p : list tin) (c : tcfg M) : nat :=
  match n with O => O | S n' => match tstep M H p c with Some d => S (tstop H n' p d) | None => O end end.
