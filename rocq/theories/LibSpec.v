(* Specification side for the library: what it means for a string to be in
   memory, for a call to have written exactly some bytes, lexicographic order,
   occurrence.  Nothing here mentions the model of the library. *)
From Coq Require Import ZArith Bool List.
From Verif Require Import LibMem.
Import ListNotations.
Open Scope Z_scope.

Definition len (l : list Z) : Z := Z.of_nat (length l).

(* the bytes l are in memory from address a on *)
Fixpoint bytes_at (m : mem) (a : Z) (l : list Z) : Prop :=
  match l with
  | [] => True
  | c :: l' => ldb m a = c /\ bytes_at m (a + 1) l'
  end.

Definition char_ok (c : Z) : Prop := 1 <= c <= 255.

(* a is the address of the NUL-terminated string l *)
Definition str_at (m : mem) (a : Z) (l : list Z) : Prop :=
  Forall char_ok l /\ bytes_at m a (l ++ [0]).

(* l are the non-NUL bytes of the string at a, as far as its first n bytes are
   concerned: after l comes a NUL, or l already has n bytes *)
Definition str_upto (m : mem) (a n : Z) (l : list Z) : Prop :=
  Forall char_ok l /\ bytes_at m a l /\ (n <= len l \/ ldb m (a + len l) = 0).

(* m' is m with exactly the bytes l written from a on *)
Definition wrote (m : mem) (a : Z) (l : list Z) (m' : mem) : Prop :=
  bytes_at m' a l /\
  forall x, len l <= (x - a) mod 65536 -> ldb m' x = ldb m x.

(* the n bytes from a and the k bytes from b have no address in common *)
Definition apart (a n b k : Z) : Prop :=
  forall i j, 0 <= i < n -> 0 <= j < k -> (a + i) mod 65536 <> (b + j) mod 65536.

(* lexicographic (dictionary) order on byte strings *)
Definition lex_lt (l1 l2 : list Z) : Prop :=
  exists p, (exists c r, l1 = p /\ l2 = p ++ c :: r) \/
            (exists a b r1 r2, l1 = p ++ a :: r1 /\ l2 = p ++ b :: r2 /\ a < b).

(* x occurs in l at position i *)
Definition occurs_at (x l : list Z) (i : Z) : Prop :=
  exists p q, l = p ++ x ++ q /\ len p = i.
