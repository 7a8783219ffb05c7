(* C77: the driver cm2e. *)
From Coq Require Import ZArith Bool Lia List String.
From Verif Require Import Lexer CCode DriverSpec Driver DriverProofs DriverTacSpec DriverTac DriverTacProofs.
Import ListNotations.
Open Scope Z_scope.

(* The name of the executable: without an extension it is as if .exe had been given; with another
   extension the run fails and changes nothing *)
Theorem C77_name (T : tacTools) (f : flags) (pid : list Z) (args : list path) (F : files) :
  (pext (exe f) = [] -> cm2e T f pid args F = cm2e T (Flags (fS f) (fC f) (fE f) (withExt (exe f) ".exe")) pid args F) /\
  (pext (exe f) <> [] -> ~ isA (exe f) ".exe" -> cm2e T f pid args F = (1, F, [])).
Proof.
  split.
  - intros E. unfold cm2e. assert (X : exeFile f = exeFile (Flags (fS f) (fC f) (fE f) (withExt (exe f) ".exe"))) by (rewrite !exeFile_of; unfold exeOf at 1; rewrite E; reflexivity).
    destruct args as [|p r]; [reflexivity|]. rewrite <- X. destruct (hasExt _ _); [|reflexivity].
    assert (L : forall l s, loopE T f pid s l = loopE T (Flags (fS f) (fC f) (fE f) (withExt (exe f) ".exe")) pid s l).
    { induction l as [|q l IH]; intros s; cbn [loopE]; [reflexivity|]. change (argE T f pid s q) with (argE T (Flags (fS f) (fC f) (fE f) (withExt (exe f) ".exe")) pid s q). destruct (argE _ _ _ s q); [apply IH|reflexivity]. }
    rewrite <- L. destruct (loopE T f pid _ (p :: r)) as [s|]; [|reflexivity]. unfold buildE. rewrite <- X. reflexivity.
  - intros N A. unfold cm2e. destruct args as [|p r]; [reflexivity|]. rewrite exeFile_of. unfold exeOf. destruct (pext (exe f)) eqn:E; [contradiction|]. rewrite (proj2 (hasExt_ne _ _) A). reflexivity.
Qed.
Print Assumptions C77_name.

(* Whatever the tools do, a run changes no file but those of mayTouchE and its own temporary
   files; the text it gives the translator is not left behind *)
Theorem C77_frame (T : tacTools) (f : flags) (pid : list Z) (args : list path) (F F' : files) (status : Z) (o : list Z) :
  cm2e T f pid args F = (status, F', o) ->
  (forall q, ~ (fE f = false /\ q = Path here pid (codes ".tmp")) -> ~ (links f /\ q = Path here pid (codes ".o")) -> ~ mayTouchE f args q -> F' q = F q) /\
  (F (Path here pid (codes ".tmp")) = None -> F' (Path here pid (codes ".tmp")) = None).
Proof.
  intros H. split; [exact (cm2e_frame T f pid args F _ _ _ H)|]. intros A. exact (cm2e_tmp T f pid args F _ _ _ A H).
Qed.
Print Assumptions C77_frame.

(* -S: if the run succeeds, each source has its translation beside it *)
Theorem C77_translate (T : tacTools) (f : flags) (pid : list Z) (args : list path) (F F' : files) (o : list Z) :
  fS f = true -> fE f = false -> cm2e T f pid args F = (0, F', o) ->
  forall p, In p args -> isA p ".cmm" -> exists c, translatedE T F p c /\ F' (withExt p ".s") = Some c.
Proof.
  intros ES NE H p I E. unfold cm2e in H. destruct args as [|p0 r0] eqn:EA; [discriminate H|]. rewrite <- EA in *. clear EA p0 r0. destruct (hasExt _ _); [|discriminate H].
  destruct (loopE T f pid _ args) as [s|] eqn:L; [|discriminate H]. rewrite ES, NE in H. cbn [negb andb] in H. injection H as <- <-.
  exact (proj2 (loopE_S T f pid _ (St F [] [] []) _ ES NE (Forall_nil _) L) p I E).
Qed.
Print Assumptions C77_translate.

(* A run that succeeds has translated every source, and assembled it unless -S is given *)
Theorem C77_status (T : tacTools) (f : flags) (pid : list Z) (args : list path) (F F' : files) (o : list Z) :
  fE f = false -> cm2e T f pid args F = (0, F', o) ->
  forall p, In p args -> isA p ".cmm" -> exists c, translatedE T F p c /\ (fS f = false -> exists x, assembles T c x).
Proof.
  intros E H p I A. unfold cm2e in H. destruct args as [|p0 r0] eqn:EA; [discriminate H|]. rewrite <- EA in *. clear EA p0 r0. destruct (hasExt _ _); [|discriminate H].
  destruct (loopE T f pid _ args) as [s|] eqn:L; [|discriminate H]. exact (loopE_cmm T f pid args (St F [] [] []) s E (Forall_nil _) L p I A).
Qed.
Print Assumptions C77_status.

(* A run fails if it is given a file of another kind; after a run that fails no object is left
   that was not there before, in whatever directories the sources are *)
Theorem C77_failure (T : tacTools) (f : flags) (pid : list Z) (args : list path) (F F' : files) (status : Z) (o : list Z) :
  cm2e T f pid args F = (status, F', o) ->
  (status = 0 \/ status = 1) /\
  (args = [] \/ (exists p, In p args /\ ~ isA p ".cmm" /\ ~ isA p ".s" /\ ~ isA p ".o") -> status = 1) /\
  (status = 1 -> forall q, isA q ".o" -> F' q = None \/ F' q = F q).
Proof.
  intros H. unfold cm2e in H. destruct args as [|p0 r0] eqn:EA.
  { injection H as <- <- <-. auto. }
  assert (NE : args <> []) by (rewrite EA; discriminate). rewrite <- EA in *. clear EA p0 r0. destruct (hasExt _ _); [|injection H as <- <- <-; auto].
  destruct (loopE T f pid _ args) as [s|G g] eqn:L.
  - injection H as <- <- <-. split; [auto|]. split; [|discriminate]. intros [E|(p & I & A & B & C)]; [contradiction|]. destruct (loopE_bad T f pid args (St F [] [] []) p I A B C) as (X & Y & Z). rewrite L in Z. discriminate Z.
  - injection H as <- <- <-. split; [auto|]. split; [reflexivity|]. intros _. pose proof (loopE_clean T f pid F args (St F [] [] []) (fun q _ => or_intror eq_refl)) as K. rewrite L in K. exact K.
Qed.
Print Assumptions C77_failure.

(* Whether a run succeeds or fails, it leaves no listing, and no translation unless -S is given,
   but what was there before and is as it was *)
Theorem C77_leftovers (T : tacTools) (f : flags) (pid : list Z) (args : list path) (F F' : files) (status : Z) (o : list Z) :
  cm2e T f pid args F = (status, F', o) ->
  (forall q, isA q ".lst" -> F' q = None \/ F' q = F q) /\ (fS f = false -> forall q, isA q ".s" -> F' q = None \/ F' q = F q).
Proof.
  intros H. pose proof (cm2e_gone T f pid args F _ _ _ H) as K. split; [intros q Q; apply K; left; exact Q|]. intros S q Q. apply K. right. split; assumption.
Qed.
Print Assumptions C77_leftovers.

Definition goodName (f : flags) : Prop := pext (exe f) = [] \/ isA (exe f) ".exe".
(* Files in any directories, no two alike but for the extension, that compile: with -c each has
   its object; otherwise, if they can be linked, the executable and the map are what objexe makes
   of the linked objects in the order of the arguments, and neither translations, nor listings,
   nor objects are left; the files given are as they were *)
Theorem C77_objects (T : tacTools) (f : flags) (pid : list Z) (args : list path) (F : files) (os : list (list Z)) :
  fS f = false -> fE f = false -> fC f = true -> goodName f -> args <> [] -> NoDup (map placeOf args) -> Forall2 (compiledE T F) args os ->
  exists F', cm2e T f pid args F = (0, F', []) /\ Forall2 (fun p o => F' (withExt p ".o") = Some o) args os /\
    forall p, In p args -> (isA p ".cmm" -> F' (withExt p ".s") = None) /\ (~ isA p ".o" -> F' (withExt p ".lst") = None).
Proof.
  intros S E C GN NE ND H. destruct (loopE_ok T f pid S E args os (St F [] [] []) [] H ND eq_refl ltac:(intros q [])) as (s' & L & CT & O & _ & _ & G & J).
  assert (X : hasExt (exeFile f) ".exe" = true).
  { rewrite exeFile_of. apply hasExt_iff. unfold exeOf. destruct GN as [->|K]; [reflexivity|]. destruct (pext (exe f)) eqn:EE; [reflexivity|exact K]. }
  unfold cm2e. destruct args as [|p0 r0] eqn:EA; [contradiction|]. rewrite <- EA in *. clear EA p0 r0. rewrite X, L, S, E, C. cbn [negb andb]. exists (sF s'). split; [rewrite O; reflexivity|]. split; [|exact G].
  rewrite J in CT. cbn [objs app] in CT. apply contents_each in CT. clear - CT. revert os CT. induction args as [|p r IH]; intros os CT; cbn [map] in CT; inversion CT; subst; constructor; auto.
Qed.
Print Assumptions C77_objects.
Theorem C77_build (T : tacTools) (f : flags) (pid : list Z) (args : list path) (F : files) (os : list (list Z)) (y x m : list Z) :
  links f -> goodName f -> args <> [] -> NoDup (map placeOf args) -> Forall2 (compiledE T F) args os ->
  tld T os = Some y -> tobjexe T y = Some (x, m) ->
  exists F', cm2e T f pid args F = (0, F', []) /\ F' (exeOf f) = Some x /\ F' (withExt (exeOf f) ".map") = Some m /\ F' (Path here pid (codes ".o")) = None /\
    forall p, In p args -> (isA p ".cmm" -> F' (withExt p ".s") = None) /\ (~ isA p ".o" -> F' (withExt p ".lst") = None /\ F' (withExt p ".o") = None) /\
      (p <> Path here pid (codes ".o") -> F' p = F p).
Proof.
  intros LK GN NE ND H K1 K2. pose proof LK as (S & C & E). destruct (loopE_ok T f pid S E args os (St F [] [] []) [] H ND eq_refl ltac:(intros q [])) as (s' & L & CT & O & TM & _ & G & _).
  assert (X : isA (exeFile f) ".exe").
  { rewrite exeFile_of. unfold exeOf. destruct GN as [->|K]; [reflexivity|]. destruct (pext (exe f)) eqn:EE; [reflexivity|exact K]. }
  assert (R : cm2e T f pid args F = (0, buildE T f pid s', [])).
  { unfold cm2e. destruct args as [|p0 r0] eqn:EA; [contradiction|]. rewrite <- EA in *. clear EA p0 r0. rewrite (proj2 (hasExt_iff _ _) X), L, S, E, C. cbn [negb andb]. rewrite O. reflexivity. }
  exists (buildE T f pid s'). split; [exact R|]. pose proof (cm2e_frame T f pid args F _ _ _ R) as FR.
  assert (B : buildE T f pid s' = rmAll (tmps s' ++ [linkFile pid]) (put (put (put (sF s') (linkFile pid) (Some y)) (exeFile f) (Some x)) (withExt (exeFile f) ".map") (Some m))).
  { unfold buildE. rewrite CT. cbn [app]. rewrite K1, put_same, K2. reflexivity. }
  assert (TO : forall q, In q (tmps s' ++ [linkFile pid]) -> isA q ".o").
  { intros q I. apply in_app_or in I. destruct I as [I|[<-|[]]]; [|reflexivity]. rewrite TM in I. cbn [tmps app] in I. apply in_flat_map in I. destruct I as (p & _ & I). destruct (hasExt p ".o"); [destruct I|]. destruct I as [<-|[]]. reflexivity. }
  assert (DX : forall q, ~ isA q ".o" -> ~ isA q ".exe" -> ~ isA q ".map" -> buildE T f pid s' q = sF s' q).
  { intros q Q1 Q2 Q3. rewrite B, rmAll_other by (intros I; apply Q1, TO, I). rewrite !put_other; [reflexivity| | |]; intros <-; [apply Q1; reflexivity|apply Q2; exact X|apply Q3; reflexivity]. }
  split; [|split; [|split]].
  - rewrite <- exeFile_of, B, rmAll_other by (intros I; apply TO in I; unfold isA in *; rewrite X in I; discriminate I). rewrite put_other; [apply put_same|]. intros Z. apply (f_equal pext) in Z. unfold isA in X. rewrite X in Z. discriminate Z.
  - rewrite <- exeFile_of, B, rmAll_other by (intros I; apply TO in I; discriminate I). apply put_same.
  - rewrite B. apply rmAll_in. apply in_or_app. right. left. reflexivity.
  - intros p I. destruct (G p I) as [G1 G2]. split; [|split].
    + intros A. rewrite DX by discriminate. exact (G1 A).
    + intros A. split; [rewrite DX by discriminate; exact (G2 A)|]. rewrite B. apply rmAll_in. apply in_or_app. left. rewrite TM. cbn [tmps app]. apply in_flat_map. exists p. split; [exact I|]. rewrite (proj2 (hasExt_ne _ _) A). left. reflexivity.
    + intros NL. assert (PX : isA p ".cmm" \/ isA p ".s" \/ isA p ".o").
      { clear - H I. induction H as [|a b l l' Hp _ IH]; [destruct I|]. destruct I as [->|I]; [|exact (IH I)]. destruct Hp as [[A _]|[[A _]|[A _]]]; auto. }
      assert (INJ : forall p', In p' args -> forall e, p = withExt p' e -> p' = p).
      { intros p' I' e Z. assert (PL : placeOf p' = placeOf p) by (rewrite Z; reflexivity). clear - ND I I' PL. induction args as [|a l IH]; [destruct I|]. cbn [map] in ND. inversion ND as [|? ? N1 N2]; subst.
        destruct I as [->|I], I' as [->|I']; [reflexivity| | |exact (IH N2 I I')]; exfalso; apply N1; [rewrite <- PL|rewrite PL]; apply in_map; assumption. }
      apply FR; [intros [_ ->]; destruct PX as [A|[A|A]]; discriminate A|intros [_ Z]; exact (NL Z)|].
      intros [[_ (p' & I' & A & Z)]|[(_ & _ & p' & I' & A & Z)|[_ Z]]].
      * pose proof (INJ p' I' _ Z) as W. rewrite W in *. unfold isA in A. rewrite Z in A. discriminate A.
      * destruct Z as [Z|Z]; pose proof (INJ p' I' _ Z) as W; rewrite W in *; unfold isA in A; rewrite Z in A; destruct A as [A|A]; discriminate A.
      * rewrite <- exeFile_of in Z. unfold isA in *. destruct Z as [Z|Z]; rewrite Z in PX; [rewrite X in PX|]; destruct PX as [A|[A|A]]; discriminate A.
Qed.
Print Assumptions C77_build.

(* ==== cases ==== *)
Definition c77_path (d s e : string) : path := Path (codes d) (codes s) (codes e).
(* tools that mark what they have seen; the assembler refuses an empty text and leaves a listing;
   the linker needs two objects *)
Definition c77_tools : tacTools := TacTools (fun s => Some (1 :: s)) (fun s => Some (2 :: s))
  (fun s => match s with [] => AsmFailed None (Some (codes "?")) | _ => Assembled (3 :: s) (codes "L") end)
  (fun l => match l with [a; b] => Some (a ++ 0 :: b) | _ => None end) (fun s => Some (4 :: s, 5 :: s)).
Definition c77_files : files := fun p =>
  if path_dec p (c77_path "sub" "a" ".cmm") then Some (codes "A") else if path_dec p (c77_path "." "b" ".s") then Some (codes "B") else
  if path_dec p (c77_path "sub" "a" ".s") then Some (codes "mine") else if path_dec p (c77_path "." "e" ".s") then Some [] else None.
Definition c77_flags (s c : bool) : flags := Flags s c false (c77_path "." "prog" "").
Definition c77_args : list path := [c77_path "sub" "a" ".cmm"; c77_path "." "b" ".s"].
Example C77_ex_build : links (c77_flags false false) /\ goodName (c77_flags false false) /\ NoDup (map placeOf c77_args) /\
  Forall2 (compiledE c77_tools c77_files) c77_args [3 :: 2 :: 1 :: codes "A"; 3 :: codes "B"] /\
  tld c77_tools [3 :: 2 :: 1 :: codes "A"; 3 :: codes "B"] = Some (3 :: 2 :: 1 :: codes "A" ++ 0 :: 3 :: codes "B").
Proof.
  split; [repeat split|]. split; [left; reflexivity|]. split; [repeat constructor; vm_compute; intuition discriminate|]. split; [|reflexivity].
  constructor; [left; split; [reflexivity|]; exists (2 :: 1 :: codes "A"); split; [exists (codes "A"), (1 :: codes "A"); repeat split; vm_compute; reflexivity|exists (codes "L"); reflexivity]|].
  constructor; [right; left; split; [reflexivity|]; exists (codes "B"); split; [vm_compute; reflexivity|exists (codes "L"); reflexivity]|constructor].
Qed.
Example C77_ex_run : let '(status, F, o) := cm2e c77_tools (c77_flags false false) (codes "77") c77_args c77_files in
  status = 0 /\ F (c77_path "." "prog" ".exe") = Some (4 :: 3 :: 2 :: 1 :: codes "A" ++ 0 :: 3 :: codes "B") /\ F (c77_path "." "prog" ".map") = Some (5 :: 3 :: 2 :: 1 :: codes "A" ++ 0 :: 3 :: codes "B") /\
  F (c77_path "." "b" ".s") = Some (codes "B") /\ F (c77_path "sub" "a" ".o") = None.
Proof. vm_compute. repeat split; reflexivity. Qed.
Example C77_ex_S : let '(status, F, o) := cm2e c77_tools (c77_flags true false) (codes "77") [c77_path "sub" "a" ".cmm"] c77_files in
  status = 0 /\ F (c77_path "sub" "a" ".s") = Some (2 :: 1 :: codes "A") /\ F (c77_path "." "77" ".tmp") = None.
Proof. vm_compute. repeat split; reflexivity. Qed.
Example C77_ex_failure : let '(status, F, o) := cm2e c77_tools (c77_flags false true) (codes "77") (c77_args ++ [c77_path "." "e" ".s"]) c77_files in
  status = 1 /\ F (c77_path "sub" "a" ".o") = None /\ F (c77_path "." "b" ".o") = None /\ F (c77_path "." "e" ".lst") = None.
Proof. vm_compute. repeat split; reflexivity. Qed.
Example C77_ex_name : cm2e c77_tools (Flags false false false (c77_path "." "prog" ".out")) (codes "77") c77_args c77_files = (1, c77_files, []).
Proof. apply (proj2 (C77_name _ _ _ _ _)); discriminate. Qed.

(* If linking fails the driver still reports success, and leaves an empty map *)
Theorem C77_link_refuted : forall T f pid args F os, links f -> goodName f -> args <> [] -> NoDup (map placeOf args) -> Forall2 (compiledE T F) args os ->
  tld T os = None -> F (Path here pid (codes ".o")) = None -> ~ In (here, pid) (map placeOf args) ->
  exists F', cm2e T f pid args F = (0, F', []) /\ F' (exeOf f) = F (exeOf f) /\ F' (withExt (exeOf f) ".map") = Some [].
Proof.
  intros T f pid args F os LK GN NE ND H K1 K2 NP. pose proof LK as (S & C & E). destruct (loopE_ok T f pid S E args os (St F [] [] []) [] H ND eq_refl ltac:(intros q [])) as (s' & L & CT & O & TM & FR & _ & _).
  assert (X : isA (exeFile f) ".exe").
  { rewrite exeFile_of. unfold exeOf. destruct GN as [->|K]; [reflexivity|]. destruct (pext (exe f)) eqn:EE; [reflexivity|exact K]. }
  assert (TO : forall q, In q (tmps s' ++ [linkFile pid]) -> isA q ".o").
  { intros q I. apply in_app_or in I. destruct I as [I|[<-|[]]]; [|reflexivity]. rewrite TM in I. cbn [tmps app] in I. apply in_flat_map in I. destruct I as (p & _ & I). destruct (hasExt p ".o"); [destruct I|]. destruct I as [<-|[]]. reflexivity. }
  exists (buildE T f pid s'). split.
  { unfold cm2e. destruct args as [|p0 r0] eqn:EA; [contradiction|]. rewrite <- EA in *. clear EA p0 r0. rewrite (proj2 (hasExt_iff _ _) X), L, S, E, C. cbn [negb andb]. rewrite O. reflexivity. }
  assert (B : buildE T f pid s' = rmAll (tmps s' ++ [linkFile pid]) (put (sF s') (withExt (exeFile f) ".map") (Some []))).
  { unfold buildE. rewrite CT. cbn [app]. rewrite K1. replace (sF s' (linkFile pid)) with (@None (list Z)); [reflexivity|]. symmetry. rewrite FR; [exact K2|exact NP|discriminate]. }
  rewrite <- exeFile_of, B. split; [|rewrite rmAll_other by (intros I; apply TO in I; discriminate I); apply put_same].
  rewrite rmAll_other by (intros I; apply TO in I; unfold isA in *; rewrite X in I; discriminate I). rewrite put_other by (intros Z; apply (f_equal pext) in Z; unfold isA in X; rewrite X in Z; discriminate Z).
  pose proof (loopE_frame T f pid (fun q => ~ isA q ".exe") ltac:(discriminate) F args (St F [] [] [])) as LF. rewrite L in LF. destruct LF as [A _]; [|constructor|intros q _; reflexivity|apply A; tauto].
  apply Forall_forall. intros p _. split; [discriminate|]. intros _ _ _. split; discriminate.
Qed.
Print Assumptions C77_link_refuted.
Example C77_ex_link : let args := [c77_path "sub" "a" ".cmm"] in
  Forall2 (compiledE c77_tools c77_files) args [3 :: 2 :: 1 :: codes "A"] /\ tld c77_tools [3 :: 2 :: 1 :: codes "A"] = None /\ ~ In (here, codes "77") (map placeOf args).
Proof.
  split; [|split; [reflexivity|vm_compute; intuition discriminate]]. constructor; [|constructor].
  left; split; [reflexivity|]; exists (2 :: 1 :: codes "A"); split; [exists (codes "A"), (1 :: codes "A"); repeat split; vm_compute; reflexivity|exists (codes "L"); reflexivity].
Qed.
(* A file a.s beside a.cmm, which the user has not named, is overwritten and removed *)
Theorem C77_lost_refuted : exists T f pid F F' text, cm2e T f pid [c77_path "sub" "a" ".cmm"] F = (0, F', []) /\
  F (c77_path "sub" "a" ".s") = Some text /\ F' (c77_path "sub" "a" ".s") = None.
Proof.
  exists c77_tools, (c77_flags false true), (codes "77"), c77_files. eexists. exists (codes "mine"). split; [vm_compute; reflexivity|]. split; vm_compute; reflexivity.
Qed.
Print Assumptions C77_lost_refuted.
