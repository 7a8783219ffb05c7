(* Histories of a program that uses malloc and free (specification of C35, C36).

   The program starts with the heap initialised between E (the address of _end) and F (the stack
   pointer at that time).  From then on it calls malloc, frees blocks it holds, and writes: into
   blocks it holds, into its own variables, into its stack.  L lists the blocks it holds: the
   address malloc returned and the size asked for. *)
From Coq Require Import ZArith Bool List Lia.
From Verif Require Import LibMem LibHeap.
Import ListNotations.
Open Scope Z_scope.

Section Spec.
Variables pool E F : Z.
(* the addresses a program may find: the list head lies below the heap, the heap is even *)
Definition placed : Prop :=
  0 < pool /\ pool + 4 <= E /\ Z.even E = true /\ Z.even F = true /\ E + 8 <= F /\ F < 65536.

Inductive Reach : mem -> Z -> list (Z * Z) -> Prop :=
| r_init m m' alc :
    ldw m (pool + 2) = 0 ->                          (* memPool = {null, 0} *)
    stdlibInit pool E F m = (m', alc) ->
    Reach m' alc []
| r_malloc m alc L sp siz m' alc' p :
    Reach m alc L -> 0 <= siz <= 65530 -> 10 <= sp < 65536 ->
    returns (malloc pool sp siz m alc) (HRet (m', alc', p)) ->
    Reach m' alc' ((p, siz) :: L)
| r_free m alc L1 p siz L2 m' :
    Reach m alc (L1 ++ (p, siz) :: L2) ->
    returns (free pool p m) (HRet m') ->
    Reach m' alc (L1 ++ L2)
| r_write m alc L x v :
    Reach m alc L -> 0 <= x < 65536 ->
    (exists p siz, In (p, siz) L /\ p <= x < p + siz)            (* a block it holds *)
    \/ (~ pool <= x < pool + 4 /\ ~ E <= x < alc + 4) ->         (* variables, stack above _alcAddr *)
    Reach (stb m x v) alc L.
End Spec.
