(* The machine the run-time library runs on, as seen from C-- source text:
   a byte-addressed memory of 65536 bytes, 16-bit signed ints, and loops.
   Library functions are modelled as Gallina functions over this memory; a loop
   gets fuel, and "returns" means: the result for every sufficiently large fuel. *)
From Coq Require Import ZArith Bool List Lia.
Import ListNotations.
Open Scope Z_scope.

(* memory contents; only addresses 0..65535 and values mod 256 are observable *)
Definition mem := Z -> Z.

(* doc/chap3.tex: char is an unsigned byte; addresses are 16-bit.  vm2tac.c
   (LD/ST byte through an address register): the effective address wraps *)
Definition ldb (m : mem) (a : Z) : Z := m (a mod 65536) mod 256.
Definition stb (m : mem) (a v : Z) : mem :=
  fun x => if x =? a mod 65536 then v mod 256 else m x.

(* doc/chap3.tex: int is 16-bit two's complement; arithmetic wraps *)
Definition i16 (z : Z) : Z := (z + 32768) mod 65536 - 32768.

(* words are big endian and even-aligned on TaC: crt0.s:104-116 keeps the upper
   word of a 32-bit number at offset 0 *)
Definition ldw (m : mem) (a : Z) : Z := ldb m a * 256 + ldb m (a + 1).
Definition stw (m : mem) (a v : Z) : mem :=
  stb (stb m a (v / 256)) (a + 1) v.

(* loop body: inl = go on with a new state, inr = leave the loop *)
Fixpoint loop {S R} (body : S -> S + R) (s : S) (fuel : nat) : option R :=
  match fuel with
  | O => None
  | Datatypes.S f => match body s with inl s' => loop body s' f | inr r => Some r end
  end.

Definition comp (R : Type) := nat -> option R.
Definition ret {R} (r : R) : comp R := fun _ => Some r.
Definition bind {A B} (c : comp A) (k : A -> comp B) : comp B :=
  fun fuel => match c fuel with Some a => k a fuel | None => None end.
Notation "'let!' x ':=' c 'in' k" := (bind c (fun x => k))
  (at level 200, x pattern, c at level 100, k at level 200).

(* loop whose body itself contains loops *)
Fixpoint loopM {S R} (body : S -> comp (S + R)) (s : S) (fuel : nat) : option R :=
  match fuel with
  | O => None
  | Datatypes.S f => match body s f with
                     | Some (inl s') => loopM body s' f
                     | Some (inr r) => Some r
                     | None => None
                     end
  end.

(* the computation finishes with result r / never finishes *)
Definition returns {R} (c : comp R) (r : R) : Prop :=
  exists n, forall k, (n <= k)%nat -> c k = Some r.
Definition diverges {R} (c : comp R) : Prop := forall k, c k = None.

(* ---- rules ---- *)
Lemma returns_ret {R} (r : R) : returns (ret r) r.
Proof. exists O. reflexivity. Qed.

Lemma returns_bind {A B} (c : comp A) (k : A -> comp B) a b :
  returns c a -> returns (k a) b -> returns (bind c k) b.
Proof.
  intros (n & H) (n' & H'). exists (Nat.max n n'). intros f L. unfold bind.
  rewrite H by lia. apply H'. lia.
Qed.

Lemma returns_step {S R} (body : S -> S + R) s s' r :
  body s = inl s' -> returns (loop body s') r -> returns (loop body s) r.
Proof.
  intros E (n & H). exists (Datatypes.S n). intros k L. destruct k as [|k]; [lia|].
  simpl. rewrite E. apply H. lia.
Qed.

Lemma returns_done {S R} (body : S -> S + R) s r :
  body s = inr r -> returns (loop body s) r.
Proof.
  intros E. exists 1%nat. intros k L. destruct k; [lia|]. simpl. now rewrite E.
Qed.

Lemma returns_stepM {S R} (body : S -> comp (S + R)) s s' r :
  returns (body s) (inl s') -> returns (loopM body s') r -> returns (loopM body s) r.
Proof.
  intros (n & E) (n' & H). exists (Datatypes.S (Nat.max n n')). intros k L.
  destruct k as [|k]; [lia|]. simpl. rewrite E by lia. apply H. lia.
Qed.

Lemma returns_doneM {S R} (body : S -> comp (S + R)) s r :
  returns (body s) (inr r) -> returns (loopM body s) r.
Proof.
  intros (n & E). exists (Datatypes.S n). intros k L. destruct k; [lia|].
  simpl. now rewrite E by lia.
Qed.

Lemma returns_det {R} (c : comp R) r r' : returns c r -> returns c r' -> r = r'.
Proof.
  intros (n & H) (n' & H').
  specialize (H (Nat.max n n') ltac:(lia)). specialize (H' (Nat.max n n') ltac:(lia)).
  congruence.
Qed.

Lemma returns_not_diverges {R} (c : comp R) r : returns c r -> diverges c -> False.
Proof. intros (n & H) D. specialize (H n (le_n n)). rewrite D in H. discriminate. Qed.

(* a loop that can always take another step never finishes *)
Lemma loop_diverges {S R} (body : S -> S + R) (I : S -> Prop) :
  (forall s, I s -> exists s', body s = inl s' /\ I s') ->
  forall s, I s -> diverges (loop body s).
Proof.
  intros H s Is k. revert s Is. induction k as [|k IH]; intros s Is; [reflexivity|].
  destruct (H s Is) as (s' & E & Is'). simpl. rewrite E. auto.
Qed.

(* ---- memory ---- *)
Lemma ldb_range m a : 0 <= ldb m a < 256.
Proof. unfold ldb. apply Z.mod_pos_bound. lia. Qed.

Lemma ldb_cong m a b : a mod 65536 = b mod 65536 -> ldb m a = ldb m b.
Proof. unfold ldb. now intros ->. Qed.

Lemma ldb_stb m a v b :
  ldb (stb m a v) b = if b mod 65536 =? a mod 65536 then v mod 256 else ldb m b.
Proof.
  unfold ldb, stb. destruct (b mod 65536 =? a mod 65536); auto.
  now rewrite Z.mod_mod by lia.
Qed.

Lemma stb_cong m a b v : a mod 65536 = b mod 65536 -> stb m a v = stb m b v.
Proof. unfold stb. now intros ->. Qed.

Lemma i16_cong z : (i16 z) mod 65536 = z mod 65536.
Proof.
  unfold i16.
  replace ((z + 32768) mod 65536 - 32768) with ((z + 32768) - 32768 + (-((z+32768)/65536)) * 65536)
    by (rewrite (Z.mod_eq (z + 32768)) by lia; lia).
  rewrite Z_mod_plus_full. f_equal. lia.
Qed.

Lemma i16_range z : -32768 <= i16 z < 32768.
Proof. unfold i16. pose proof (Z.mod_pos_bound (z + 32768) 65536 ltac:(lia)). lia. Qed.

Lemma i16_id z : -32768 <= z < 32768 -> i16 z = z.
Proof. intros. unfold i16. rewrite Z.mod_small; lia. Qed.

Lemma add_i16 a z : (a + i16 z) mod 65536 = (a + z) mod 65536.
Proof. rewrite <- (Z.add_mod_idemp_r a (i16 z)), i16_cong, Z.add_mod_idemp_r by lia. reflexivity. Qed.

Lemma i16_eq a b : a mod 65536 = b mod 65536 -> i16 a = i16 b.
Proof.
  intros H. unfold i16. f_equal.
  rewrite <- (Z.add_mod_idemp_l a), <- (Z.add_mod_idemp_l b), H by lia. reflexivity.
Qed.

Lemma i16_add a b : i16 (i16 a + b) = i16 (a + b).
Proof. apply i16_eq. rewrite <- (Z.add_mod_idemp_l (i16 a)), i16_cong, Z.add_mod_idemp_l by lia. reflexivity. Qed.
