(* C80: the system calls that take a path. *)
From Coq Require Import ZArith Bool Lia List.
From Verif Require Import LibEnviron EnvironSpec EnvironProofs PathProofs Properties_Environ LibWrap.
Import ListNotations.
Open Scope Z_scope.

(* For every path and every absolute working directory, after any calls that change the
   environment: if the path fits and its directory part is a directory, the kernel is called once,
   for the place the path leads to, and the caller gets its result; otherwise the kernel is not
   called and the caller gets errno.  The buffer is freed once *)
Theorem C80_call : forall K kernel stat raw envp cs e0 r e path buf c errno (k : K), rawOk raw ->
  environInit raw envp = Ok e0 -> run raw cs e0 = Ok (r, e) ->
  exists m, (forall n, getEnv e n = Ok (m n)) /\
  forall (Hp : cstr path) (Hw : cstr (wdOf m)) (Ha : isAbs (wdOf m) = true) (Hb : Z.of_nat (length buf) = 80),
  let w := whole m path in
  let good := Z.of_nat (length w) + 1 < 80 /\ isDir (stat (dirOf w)) = true in
  (good -> wrapped K kernel stat c e path buf errno k = Ok (snd (kernel c (plain (placeOf w)) k), fst (kernel c (plain (placeOf w)) k), [Allocated; Freed])) /\
  (~ good -> wrapped K kernel stat c e path buf errno k = Ok (errno, k, [Allocated; Freed])).
Proof.
  intros K kernel stat raw envp cs e0 r e path buf c errno k R E0 Er. destruct (C42_abs stat raw envp cs e0 r e path buf R E0 Er) as (m & G & A). exists m. split; [exact G|].
  intros Hp Hw Ha Hb w good. destruct (A Hp Hw Ha ltac:(lia)) as (fail & b & at_ & A1 & _ & A2 & A3). fold w in A2, A3. rewrite Hb in A1, A2. unfold wrapped, newAbsPath. rewrite A1. cbn [andThen]. fold good in A2.
  destruct fail; cbn [andThen].
  - split; [|reflexivity]. intros Y. apply A2 in Y. discriminate Y.
  - split; [|intros N; destruct (N (proj1 A2 eq_refl))]. intros _. rewrite (A3 eq_refl). destruct (kernel c (plain (placeOf w)) k) as [k' r']. reflexivity.
Qed.
Print Assumptions C80_call.
(* Two paths that lead to the same place are the same file to the calls *)
Theorem C80_same : forall K kernel stat raw envp cs e0 r e p q buf1 buf2 c errno (k : K), rawOk raw ->
  environInit raw envp = Ok e0 -> run raw cs e0 = Ok (r, e) ->
  exists m, (forall n, getEnv e n = Ok (m n)) /\
  (cstr p -> cstr q -> cstr (wdOf m) -> isAbs (wdOf m) = true -> Z.of_nat (length buf1) = 80 -> Z.of_nat (length buf2) = 80 ->
   Z.of_nat (length (whole m p)) + 1 < 80 -> Z.of_nat (length (whole m q)) + 1 < 80 ->
   isDir (stat (dirOf (whole m p))) = true -> isDir (stat (dirOf (whole m q))) = true -> placeOf (whole m p) = placeOf (whole m q) ->
   wrapped K kernel stat c e p buf1 errno k = wrapped K kernel stat c e q buf2 errno k).
Proof.
  intros K kernel stat raw envp cs e0 r e p q buf1 buf2 c errno k R E0 Er.
  destruct (C80_call K kernel stat raw envp cs e0 r e p buf1 c errno k R E0 Er) as (m & G & A). destruct (C80_call K kernel stat raw envp cs e0 r e q buf2 c errno k R E0 Er) as (m' & G' & B).
  exists m. split; [exact G|]. intros H1 H2 H3 H4 H5 H6 H7 H8 H9 H10 H11.
  assert (W : wdOf m' = wdOf m) by (unfold wdOf; pose proof (G [80; 87; 68]) as X; rewrite (G' [80; 87; 68]) in X; injection X as ->; reflexivity).
  assert (WQ : whole m' q = whole m q) by (unfold whole; rewrite W; reflexivity).
  specialize (A H1 H3 H4 H5). rewrite <- W in H3, H4. specialize (B H2 H3 H4 H6). rewrite WQ in B. cbv zeta in A, B.
  rewrite (proj1 A (conj H7 H9)), (proj1 B (conj H8 H10)), H11. reflexivity.
Qed.
Print Assumptions C80_same.

(* PWD=/h; a kernel that notes the paths and has the result 5; /h/x is opened as x and as
   ../h/./x; without the directory nothing is removed *)
Definition c80_kernel (c : sysCall) (p : str) (k : list str) : list str * Z := (p :: k, 5).
Definition c80_stat (p : str) : option Z := Some 16.
Definition c80_env : out env := environInit raw0 [[80; 87; 68; 61; 47; 104]].
Example C80_ex : match c80_env with
  | Ok e => wrapped _ c80_kernel c80_stat (SOpen 1) e [120] (repeat 7 80) (-12) [] = Ok (5, [[47; 104; 47; 120]], [Allocated; Freed]) /\
            wrapped _ c80_kernel c80_stat (SOpen 1) e [46; 46; 47; 104; 47; 46; 47; 120] (repeat 8 80) (-12) [] = Ok (5, [[47; 104; 47; 120]], [Allocated; Freed]) /\
            wrapped _ c80_kernel (fun _ => None) SRemove e [120] (repeat 8 80) (-2) [] = Ok (-2, [], [Allocated; Freed])
  | Undef => False end.
Proof. vm_compute. repeat split; reflexivity. Qed.
