(* C74: the driver cm2c. *)
From Coq Require Import ZArith Bool Lia List String.
From Verif Require Import Lexer CCode DriverSpec Driver DriverProofs.
Import ListNotations.
Open Scope Z_scope.

(* Whatever the tools do, a run changes no file but the C text of a source .cmm, the objects of
   the sources and the executable, and its own temporary file, which is not left behind *)
Theorem C74_frame (T : tools) (f : flags) (pid : list Z) (args : list path) (F F' : files) (status : Z) (o : list Z) :
  cm2c T f pid args F = (status, F', o) ->
  (forall q, q <> Path here pid (codes ".tmp") -> ~ mayTouch f args q -> F' q = F q) /\
  (F (Path here pid (codes ".tmp")) = None -> exe f <> Path here pid (codes ".tmp") -> F' (Path here pid (codes ".tmp")) = None).
Proof.
  intros H. split; [exact (cm2c_frame T f pid args F _ _ _ H)|]. intros A E. exact (cm2c_tmp T f pid args F _ _ _ A E H).
Qed.
Print Assumptions C74_frame.

(* -S: if the run succeeds, each source has its translation beside it *)
Theorem C74_translate (T : tools) (f : flags) (pid : list Z) (args : list path) (F F' : files) (o : list Z) :
  fS f = true -> fE f = false -> cm2c T f pid args F = (0, F', o) ->
  forall p, In p args -> isA p ".cmm" -> exists c, translated T F p c /\ F' (withExt p ".c") = Some c.
Proof. intros S E H. exact (cm2c_S T f pid args F F' o S E H). Qed.
Print Assumptions C74_translate.

(* A run that succeeds has translated every source, and compiled it unless -S is given *)
Theorem C74_status (T : tools) (f : flags) (pid : list Z) (args : list path) (F F' : files) (o : list Z) :
  fE f = false -> cm2c T f pid args F = (0, F', o) ->
  forall p, In p args -> isA p ".cmm" -> exists c, translated T F p c /\ (fS f = false -> exists x, cc T c = Some x).
Proof.
  intros E H p I A. unfold cm2c in H. destruct args as [|p0 r0] eqn:EA; [discriminate H|]. rewrite <- EA in *. clear EA p0 r0.
  destruct (loop T f pid _ args) as [s|] eqn:L; [|discriminate H]. exact (loop_cmm T f pid args (St F [] [] []) s E (Forall_nil _) L p I A).
Qed.
Print Assumptions C74_status.

(* A run fails if it is given a file of another kind; after a run that fails no object is left
   that was not there before, if the sources are in the current directory *)
Theorem C74_failure (T : tools) (f : flags) (pid : list Z) (args : list path) (F F' : files) (status : Z) (o : list Z) :
  cm2c T f pid args F = (status, F', o) ->
  (status = 0 \/ status = 1) /\
  (args = [] \/ (exists p, In p args /\ ~ isA p ".cmm" /\ ~ isA p ".c" /\ ~ isA p ".o") -> status = 1) /\
  (status = 1 -> (forall p, In p args -> pdir p = here) -> forall q, isA q ".o" -> F' q = None \/ F' q = F q).
Proof.
  intros H. unfold cm2c in H. destruct args as [|p0 r0] eqn:EA.
  { injection H as <- <- <-. auto. }
  assert (NE : args <> []) by (rewrite EA; discriminate). rewrite <- EA in *. clear EA p0 r0.
  destruct (loop T f pid _ args) as [s|G g] eqn:L.
  - injection H as <- <- <-. split; [auto|]. split; [|discriminate]. intros [E|(p & I & A & B & C)]; [contradiction|]. destruct (loop_bad T f pid args (St F [] [] []) p I A B C) as (X & Y & Z). rewrite L in Z. discriminate Z.
  - injection H as <- <- <-. split; [auto|]. split; [reflexivity|]. intros _ D. pose proof (loop_clean T f pid F args (St F [] [] []) D (fun q _ => or_intror eq_refl)) as K. rewrite L in K. exact K.
Qed.
Print Assumptions C74_failure.

(* Files of the current directory, each with another name before the extension, that compile:
   with -c each has its object; otherwise, if they can be linked, the executable is what the
   linker makes of the objects in the order of the arguments, and neither the objects nor the C
   texts are left.  Missing: other directories (refuted below) *)
Theorem C74_objects_partial (T : tools) (f : flags) (pid : list Z) (args : list path) (F : files) (os : list (list Z)) :
  fS f = false -> fE f = false -> fC f = true -> args <> [] ->
  (forall p, In p args -> pdir p = here) -> NoDup (map pstem args) -> Forall2 (compiled T F) args os ->
  exists F', cm2c T f pid args F = (0, F', []) /\ Forall2 (fun p o => F' (withExt p ".o") = Some o) args os /\
    forall p, In p args -> isA p ".cmm" -> F' (withExt p ".c") = None.
Proof.
  intros S E C NE D ND H. destruct (loop_ok T f pid S E args os (St F [] [] []) [] H D ND eq_refl ltac:(intros q [])) as (s' & L & CT & O & _ & _ & G & J).
  unfold cm2c. destruct args as [|p0 r0] eqn:EA; [contradiction|]. rewrite <- EA in *. clear EA p0 r0. rewrite L, S, E, C. cbn [negb andb]. exists (sF s'). split; [rewrite O; reflexivity|]. split; [|exact G].
  rewrite J in CT. cbn [objs app] in CT. apply contents_each in CT. clear - CT. revert os CT. induction args as [|p r IH]; intros os CT; cbn [map] in CT; inversion CT; subst; constructor; auto.
Qed.
Print Assumptions C74_objects_partial.
Theorem C74_build_partial (T : tools) (f : flags) (pid : list Z) (args : list path) (F : files) (os : list (list Z)) (x : list Z) :
  links f -> args <> [] -> (forall p, In p args -> pdir p = here) -> NoDup (map pstem args) -> Forall2 (compiled T F) args os ->
  link T os = Some x -> ~ isA (exe f) ".o" -> (forall p, In p args -> exe f <> withExt p ".c") ->
  exists F', cm2c T f pid args F = (0, F', []) /\ F' (exe f) = Some x /\
    forall p, In p args -> (isA p ".cmm" -> F' (withExt p ".c") = None) /\ (isA p ".cmm" \/ isA p ".c" -> F' (withExt p ".o") = None).
Proof.
  intros (S & C & E) NE D ND H K XO XC. destruct (loop_ok T f pid S E args os (St F [] [] []) [] H D ND eq_refl ltac:(intros q [])) as (s' & L & CT & O & TM & _ & G & _).
  unfold cm2c. destruct args as [|p0 r0] eqn:EA; [contradiction|]. rewrite <- EA in *. clear EA p0 r0. rewrite L, S, E, C. cbn [negb andb]. exists (build T f s'). split; [rewrite O; reflexivity|].
  unfold build. rewrite CT. cbn [app]. rewrite K. cbn [tmps app] in TM. split.
  - rewrite rmAll_other; [apply put_same|]. rewrite TM. intros I. apply in_flat_map in I. destruct I as (p & _ & I). destruct (hasExt p ".o"); [destruct I|]. destruct I as [I|[]]. apply XO. rewrite <- I. reflexivity.
  - intros p I. split; intros A.
    + apply rmAll_none. rewrite put_other by exact (XC p I). exact (G p I A).
    + apply rmAll_in. rewrite TM. apply in_flat_map. exists p. split; [exact I|]. replace (hasExt p ".o") with false; [left; reflexivity|].
      symmetry. apply hasExt_ne. unfold isA in *. destruct A as [->| ->]; discriminate.
Qed.
Print Assumptions C74_build_partial.

(* ==== cases ==== *)
Definition c74_path (d s e : string) : path := Path (codes d) (codes s) (codes e).
(* tools that mark what they have seen; the linker needs two objects, or fails *)
Definition c74_tools : tools := Tools (fun s => Some (1 :: s)) (fun s => Some (2 :: s)) (fun s => Some (3 :: s))
  (fun l => match l with [a; b] => Some (a ++ 0 :: b) | _ => None end).
Definition c74_files : files := fun p =>
  if path_dec p (c74_path "." "a" ".cmm") then Some (codes "A") else if path_dec p (c74_path "." "b" ".c") then Some (codes "B") else
  if path_dec p (c74_path "sub" "d" ".cmm") then Some (codes "D") else if path_dec p (c74_path "." "a" ".c") then Some (codes "mine") else None.
Definition c74_flags (s c : bool) : flags := Flags s c false (c74_path "." "a" ".out").
Definition c74_args : list path := [c74_path "." "a" ".cmm"; c74_path "." "b" ".c"].
Example C74_ex_build : links (c74_flags false false) /\ (forall p, In p c74_args -> pdir p = here) /\ NoDup (map pstem c74_args) /\
  Forall2 (compiled c74_tools c74_files) c74_args [3 :: 2 :: 1 :: codes "A"; 3 :: codes "B"] /\
  link c74_tools [3 :: 2 :: 1 :: codes "A"; 3 :: codes "B"] = Some (3 :: 2 :: 1 :: codes "A" ++ 0 :: 3 :: codes "B") /\
  ~ isA (exe (c74_flags false false)) ".o" /\ (forall p, In p c74_args -> exe (c74_flags false false) <> withExt p ".c").
Proof.
  split; [repeat split|]. split; [intros p [<-|[<-|[]]]; reflexivity|]. split; [repeat constructor; vm_compute; intuition discriminate|]. split.
  - constructor; [left; split; [reflexivity|]; exists (2 :: 1 :: codes "A"); split; [|reflexivity]; exists (codes "A"), (1 :: codes "A"); repeat split; vm_compute; reflexivity|].
    constructor; [right; left; split; [reflexivity|]; exists (codes "B"); split; vm_compute; reflexivity|constructor].
  - split; [reflexivity|]. split; [discriminate|]. intros p [<-|[<-|[]]] E; apply (f_equal pext) in E; discriminate E.
Qed.
Example C74_ex_run : let '(status, F, o) := cm2c c74_tools (c74_flags false false) (codes "77") c74_args c74_files in
  status = 0 /\ F (c74_path "." "a" ".out") = Some (3 :: 2 :: 1 :: codes "A" ++ 0 :: 3 :: codes "B") /\ F (c74_path "." "b" ".c") = Some (codes "B") /\ F (c74_path "." "b" ".o") = None.
Proof. vm_compute. repeat split; reflexivity. Qed.
Example C74_ex_S : let '(status, F, o) := cm2c c74_tools (c74_flags true false) (codes "77") [c74_path "sub" "d" ".cmm"] c74_files in
  status = 0 /\ F (c74_path "sub" "d" ".c") = Some (2 :: 1 :: codes "D") /\ F (c74_path "." "77" ".tmp") = None.
Proof. vm_compute. repeat split; reflexivity. Qed.

Example C74_ex_failure : let '(status, F, o) := cm2c c74_tools (c74_flags false true) (codes "77") (c74_args ++ [c74_path "." "e" ".cmm"]) c74_files in
  status = 1 /\ F (c74_path "." "a" ".o") = None /\ F (c74_path "." "b" ".o") = None.
Proof. vm_compute. repeat split; reflexivity. Qed.

(* If linking fails the driver still reports success *)
Theorem C74_status_refuted : exists T f pid args F F', links f /\ cm2c T f pid args F = (0, F', []) /\
  F (exe f) = None /\ F' (exe f) = None /\ args = [c74_path "." "a" ".cmm"] /\ exists o, compiled T F (c74_path "." "a" ".cmm") o /\ link T [o] = None.
Proof.
  exists c74_tools, (c74_flags false false), (codes "77"), [c74_path "." "a" ".cmm"], c74_files. eexists. split; [repeat split|]. split; [vm_compute; reflexivity|].
  split; [vm_compute; reflexivity|]. split; [vm_compute; reflexivity|]. split; [reflexivity|]. exists (3 :: 2 :: 1 :: codes "A"). split; [|reflexivity].
  left. split; [reflexivity|]. exists (2 :: 1 :: codes "A"). split; [|reflexivity]. exists (codes "A"), (1 :: codes "A"). repeat split; vm_compute; reflexivity.
Qed.
Print Assumptions C74_status_refuted.
(* A file a.c beside a.cmm, which the user has not named, is overwritten and removed *)
Theorem C74_lost_refuted : exists T f pid F F' text, cm2c T f pid [c74_path "." "a" ".cmm"] F = (0, F', []) /\
  F (c74_path "." "a" ".c") = Some text /\ F' (c74_path "." "a" ".c") = None.
Proof.
  exists c74_tools, (c74_flags false true), (codes "77"), c74_files. eexists. exists (codes "mine"). split; [vm_compute; reflexivity|]. split; vm_compute; reflexivity.
Qed.
Print Assumptions C74_lost_refuted.
(* A source in another directory is never linked, whatever it contains: cc writes its object to
   the current directory, the driver looks for it beside the source.  The run succeeds *)
Theorem C74_directory_refuted : forall T f pid F p c o, links f -> isA p ".cmm" -> pdir p <> here ->
  translated T F p c -> cc T c = Some o -> F (withExt p ".o") = None -> F (exe f) = None -> ~ isA (exe f) ".o" -> ~ isA (exe f) ".c" -> ~ isA (exe f) ".tmp" ->
  exists F', cm2c T f pid [p] F = (0, F', []) /\ F' (exe f) = None /\ F' (Path here (pstem p) (codes ".o")) = Some o.
Proof.
  intros T f pid F p c o (S & C & E) A D (x & t & X1 & X2 & X3) X4 NO NX X5 X6 X7.
  assert (N : tmpFile pid <> withExt p ".c") by (intros K; apply (f_equal pext) in K; discriminate K).
  assert (N1 : withExt p ".c" <> withExt p ".o") by (intros K; apply (f_equal pext) in K; discriminate K).
  assert (N2 : Path here (pstem p) (codes ".o") <> withExt p ".o") by (intros K; apply (f_equal pdir) in K; apply D; symmetry; exact K).
  assert (N3 : tmpFile pid <> withExt p ".o") by (intros K; apply (f_equal pext) in K; discriminate K).
  assert (N4 : withExt p ".c" <> Path here (pstem p) (codes ".o")) by (intros K; apply (f_equal pext) in K; discriminate K).
  unfold cm2c. cbn [loop]. unfold arg. rewrite (proj2 (hasExt_iff _ _) A), E, S. cbn [sF objs tmps out]. rewrite X1, X2, X3. unfold ccTo. rewrite put_other, put_same, X4 by exact N. rewrite C. cbn [negb andb out].
  eexists. split; [reflexivity|]. unfold build. cbn [sF objs tmps app contents]. rewrite !put_other, NO by assumption. split.
  - apply rmAll_none. rewrite !put_other; try exact NX; intros K; [apply X7|apply X6|apply X7|apply X5|apply X6]; rewrite <- K; reflexivity.
  - rewrite rmAll_other by (intros [K|[]]; apply N2; symmetry; exact K). rewrite put_other by exact N4. apply put_same.
Qed.
Print Assumptions C74_directory_refuted.
Example C74_ex_directory : let p := c74_path "sub" "d" ".cmm" in
  translated c74_tools c74_files p (2 :: 1 :: codes "D") /\ pdir p <> here /\ isA p ".cmm" /\ c74_files (withExt p ".o") = None /\ c74_files (c74_path "." "a" ".out") = None.
Proof.
  split; [exists (codes "D"), (1 :: codes "D"); repeat split; vm_compute; reflexivity|]. split; [discriminate|]. split; [reflexivity|]. split; vm_compute; reflexivity.
Qed.
