(* C69: programs translated with run-time checks (cm2c -rtc, doc/command.tex:109-112). *)
From Coq Require Import ZArith Bool Lia List String Ascii.
From Verif Require Import Lexer CCode RtcHeap RtcSpec RtcProofs RtcStart.
Import ListNotations.
Open Scope Z_scope.

(* a malloc for the examples: blocks of zeros, up to a megabyte *)
Definition small (h : heap) (s : Z) : option (list Z) := if (0 <=? s) && (s <? 1048576) then Some (repeat 0 (Z.to_nat s)) else None.
Lemma small_ok : malloc_ok small.
Proof.
  intros h s m E. unfold small in E. destruct ((0 <=? s) && (s <? 1048576)) eqn:B; [|discriminate E].
  apply andb_true_iff in B as [B1 B2]. apply Z.leb_le in B1. apply Z.ltb_lt in B2. injection E as <-. split; [rewrite repeat_length; lia|]. split; [|lia].
  apply Forall_forall. intros x I. apply repeat_spec in I. lia.
Qed.

(* Every run of allocations, reads, assignments and uses of references, whatever the
   indexes, goes as on lists of elements: each access to an element the array has is
   that of the list, all others stop the program with the message, none is undefined.
   Missing: arrays of 2 GB and more (refuted below), void[] references. *)
Theorem C69_checked_partial : forall malloc os st h, malloc_ok malloc -> holds st h -> wf_ops st os ->
  exists e, spec_run st os (fst (runOps malloc os h)) e /\
    match e, snd (runOps malloc os h) with
    | SGoes st', Goes h' => holds st' h'
    | SReported m, Aborted m' => m = m'
    | SNoMemory, NoMemory => True
    | _, _ => False
    end.
Proof.
  intros malloc os st h MO H W. destruct (run_ok malloc MO os st h H W) as (e & R & E). exists e. split; [exact R|].
  destruct E; auto.
Qed.
Print Assumptions C69_checked_partial.

(* what is made and what is reported exclude each other *)
Theorem C69_exclusive : forall st o r st' m, does st o r st' -> stops st o m -> False.
Proof.
  intros st o r st' m D S. destruct D as [k n es L F|k b i file line es v E B N|k b i v file line e1 x e2 s1 s2 E L I|b file line]; inversion S; subst.
  - match goal with H : nth_error st b = Some (Arr k _), B' : ~ _ |- _ => rewrite E in H; injection H as <-; apply B' end.
    split; [assumption|]. assert (X : (Z.to_nat i < List.length es)%nat) by (apply nth_error_Some; congruence). lia.
  - match goal with H : nth_error _ _ = Some (Arr k _), B' : ~ _ |- _ => rewrite nth_mid in H; injection H as <-; apply B' end.
    rewrite app_length. cbn [List.length]. lia.
Qed.
Print Assumptions C69_exclusive.

(* main's arguments: an array of references that ends with null, one char array with
   the characters and a 0 for each string; likewise the environment *)
Theorem C69_start : forall malloc addr argv envp st h, malloc_ok malloc -> addr_ok addr -> holds st h -> strings_ok argv -> strings_ok envp ->
  start malloc addr argv envp h = RExit \/
  exists h', start malloc addr argv envp h = ROk (List.length st, List.length st + 1 + List.length argv)%nat h' /\
    holds (st ++ vector addr (List.length st) argv ++ vector addr (List.length st + 1 + List.length argv) envp) h'.
Proof. intros malloc addr argv envp st h MO AO. exact (start_ok malloc addr MO AO argv envp st h). Qed.
Print Assumptions C69_start.

(* fgets with a buffer of at least n characters changes nothing but the buffer: the line, 0, and what was there *)
Theorem C69_fgets : forall s1 es s2 n s h, holds (s1 ++ Arr KChar es :: s2) h -> n <= Z.of_nat (List.length es) -> Forall (fun c => 0 <= c < 256) s ->
  exists line, first_line (Z.to_nat (n - 1)) s line /\
  ((line = [] /\ fgets (Some (List.length s1)) n s h = ROk (None, false) h) \/
   exists h', line <> [] /\ fgets (Some (List.length s1)) n s h = ROk (Some (List.length s1), false) h' /\
     holds (s1 ++ Arr KChar (line ++ 0 :: skipn (S (List.length line)) es) :: s2) h').
Proof. exact fgets_line. Qed.
Print Assumptions C69_fgets.

(* a history: an array of 3 ints and one of references, assignments, a read, then an index out of range *)
Definition demoOps : list rop :=
  [New KInt 3; New KRef 2; Put KInt (Some 0%nat) 2 (-5) (codes "a.cmm") 7; Get KInt (Some 0%nat) 2 (codes "a.cmm") 8;
   Put KInt (Some 0%nat) 1 4294967297 (codes "a.cmm") 9; Get KInt (Some 0%nat) 1 (codes "a.cmm") 10; Get KRef (Some 1%nat) 2 (codes "a.cmm") 11].
(* well-typed from the kinds of the arrays alone *)
Definition fits (ks : list kind) (k : kind) (p : ref) : Prop := match p with None => True | Some b => nth_error ks b = Some k end.
Fixpoint okOps (ks : list kind) (os : list rop) : Prop :=
  match os with
  | [] => True
  | New k n :: os => size_ok k n /\ okOps (ks ++ [k]) os
  | Get k p _ _ _ :: os | Put k p _ _ _ _ :: os => fits ks k p /\ okOps ks os
  | Deref _ _ _ :: os => okOps ks os
  end.
Lemma fits_refers : forall st k p, fits (map akind st) k p -> refers st k p.
Proof.
  intros st k [b|] F; [|exact I]. cbn [fits refers] in *. rewrite nth_error_map in F. destruct (nth_error st b) as [[k' es]|]; [|discriminate F].
  injection F as <-. now exists es.
Qed.
Lemma okOps_wf : forall os st, okOps (map akind st) os -> wf_ops st os.
Proof.
  induction os as [|o os IH]; intros st W; [constructor|]. destruct o as [k n|k p i file line|k p i v file line|p file line]; cbn [okOps] in W.
  - destruct W as [S W]. apply wf_cons; [exact S|]. intros r st' D. inversion D; subst. apply IH. now rewrite map_app.
  - destruct W as [S W]. apply wf_cons; [now apply fits_refers|]. intros r st' D. inversion D; subst. now apply IH.
  - destruct W as [S W]. apply wf_cons; [now apply fits_refers|]. intros r st' D. inversion D; subst. apply IH.
    rewrite map_app in *. exact W.
  - apply wf_cons; [exact I|]. intros r st' D. inversion D; subst. now apply IH.
Qed.
Example C69_checked_ex : wf_ops [] demoOps /\ holds [] [] /\
  runOps small demoOps [] = ([Made 0; Made 1; Done; Value (-5); Done; Value 1], Aborted (codes "a.cmm:11 Out of Bound(idx=2)" ++ [10])).
Proof.
  split; [|split; [constructor|vm_compute; reflexivity]].
  apply okOps_wf. cbn [demoOps okOps fits map]. unfold size_ok. cbn [hdr width]. repeat split; lia.
Qed.
Example C69_null_ex : runOps small [Get KChar None 0 (codes "b.cmm") 3] [] = ([], Aborted (codes "b.cmm:3 Null Pointer(idx=0)" ++ [10])) /\
  runOps small [Deref None (codes "b.cmm") 4] [] = ([], Aborted (codes "b.cmm:4 Null Pointer" ++ [10])) /\ wf_ops [] [Get KChar None 0 (codes "b.cmm") 3].
Proof.
  split; [vm_compute; reflexivity|]. split; [vm_compute; reflexivity|]. apply wf_cons; [exact I|]. intros r st D. inversion D.
Qed.
Example C69_start_ex : exists h, start small (fun b => 16 * (Z.of_nat b mod 1000) + 16) [codes "prog"; codes "x"] [codes "A=1"] [] = ROk (0%nat, 3%nat) h /\
  getElem KRef (Some 0%nat) 1 [] 0 h = ROk 48 h /\ getElem KRef (Some 0%nat) 2 [] 0 h = ROk 0 h /\ getElem KChar (Some 2%nat) 0 [] 0 h = ROk 120 h /\
  strings_ok [codes "prog"; codes "x"] /\ addr_ok (fun b => 16 * (Z.of_nat b mod 1000) + 16).
Proof.
  eexists. split; [vm_compute; reflexivity|]. split; [vm_compute; reflexivity|]. split; [vm_compute; reflexivity|]. split; [vm_compute; reflexivity|]. split.
  - split; [|vm_compute; reflexivity]. repeat constructor.
  - intro b. pose proof (Z.mod_pos_bound (Z.of_nat b) 1000 ltac:(lia)). lia.
Qed.
Example C69_fgets_ex : exists h, newArr small KChar 4 [] = ROk 0%nat h /\
  match fgets (Some 0%nat) 4 (codes "hello") h with ROk (p, w) h => p = Some 0%nat /\ w = false /\ getElem KChar p 2 [] 0 h = ROk 108 h /\ getElem KChar p 3 [] 0 h = ROk 0 h | _ => False end.
Proof. eexists. split; [vm_compute; reflexivity|]. vm_compute. repeat split. Qed.

(* iMalloc(1073741824): the size wraps to 4 bytes, the length is kept, the check of index 0 passes and the access is outside of the block *)
Theorem C69_size_refuted : exists n, 0 <= n < 2 ^ 31 /\
  runOps small [New KInt n; Put KInt (Some 0%nat) 0 1 (codes "a.cmm") 2] [] = ([Made 0], Undefined).
Proof. exists 1073741824. split; [lia|vm_compute; reflexivity]. Qed.
Print Assumptions C69_size_refuted.
(* iMalloc(-1) writes the length outside of a block of no bytes *)
Theorem C69_negative_refuted : exists n, - 2 ^ 31 <= n < 0 /\ runOps small [New KInt n] [] = ([], Undefined).
Proof. exists (-1). split; [lia|vm_compute; reflexivity]. Qed.
Print Assumptions C69_negative_refuted.
(* fgets with n above the length of the buffer warns and writes outside of it *)
Theorem C69_fgets_refuted : exists n s h, newArr small KChar 2 [] = ROk 0%nat h /\ Forall (fun c => 0 <= c < 256) s /\ fgets (Some 0%nat) n s h = RUndef.
Proof. exists 4, (codes "abc"). eexists. split; [vm_compute; reflexivity|]. split; [|vm_compute; reflexivity]. vm_compute. repeat constructor; discriminate. Qed.
Print Assumptions C69_fgets_refuted.
(* fgets into null is not reported *)
Theorem C69_fgets_null_refuted : exists n s h, fgets None n s h = RUndef.
Proof. exists 4, (codes "abc"), []. reflexivity. Qed.
Print Assumptions C69_fgets_null_refuted.
(* the string of an earlier getEnv is freed by the next: an index within its length is then undefined *)
Theorem C69_getenv_refuted : exists a b p h1 q h2, getEnv small (Some a) None [] = ROk (p, p) h1 /\ getElem KChar p 0 [] 0 h1 = ROk 118 h1 /\
  getEnv small (Some b) p h1 = ROk (q, q) h2 /\ getElem KChar p 0 [] 0 h2 = RUndef.
Proof.
  exists (codes "v1"), (codes "v2"). do 4 eexists. split; [vm_compute; reflexivity|]. split; [vm_compute; reflexivity|].
  split; [vm_compute; reflexivity|]. vm_compute. reflexivity.
Qed.
Print Assumptions C69_getenv_refuted.
