(* C41, C42: environment variables and paths *)
From Coq Require Import ZArith Bool Lia List.
From Verif Require Import LibEnviron EnvironSpec EnvironProofs PathProofs.
Import ListNotations.
Open Scope Z_scope.

(* malloc gives arrays of the size asked for, with any contents *)
Definition rawOk (raw : Z -> list (option str)) : Prop := forall n, 0 <= n -> Z.of_nat (length (raw n)) = n.

(* Any sequence of putEnv, setEnv, unsetEnv and getEnv calls, from any initial environment with
   distinct names, gives the answers of a map from names to values - as long as overwrite = false
   is only used for variables that do not exist. *)
Theorem C41_map : forall raw envp cs, rawOk raw -> NoDup (namesOf envp) -> overwrites cs (initial envp) ->
  exists e e', environInit raw envp = Ok e /\ run raw cs e = Ok (specAll cs (initial envp), e').
Proof.
  intros raw envp cs R D O. destruct (init_Inv raw R envp) as (e & E & I). destruct (run_spec raw R cs e envp (initial envp) I D (fun _ => eq_refl) O) as (e' & H). exists e, e'. auto.
Qed.
Print Assumptions C41_map.
Definition raw0 (n : Z) : list (option str) := repeat (Some [9; 9]) (Z.to_nat n).
Lemma raw0_ok : rawOk raw0.
Proof. intros n H. unfold raw0. rewrite repeat_length. lia. Qed.
(* A=1, B=2: get B, set C=3, unset A, get A, get C, get B, put B=xy, get B, set with = in the name *)
Definition calls0 : list call := [Get [66]; Set_ [67] [51] false; Unset [65]; Get [65]; Get [67]; Get [66]; Put [66; 61; 120; 121]; Get [66]; Set_ [65; 61] [49] true; Unset [90]; Get [66; 61]].
Example C41_map_ex : NoDup (namesOf [[65; 61; 49]; [66; 61; 50]]) /\ overwrites calls0 (initial [[65; 61; 49]; [66; 61; 50]]) /\
  match environInit raw0 [[65; 61; 49]; [66; 61; 50]] with
  | Ok e => match run raw0 calls0 e with
            | Ok (r, _) => r = [Value (Some [50]); Failed false; Failed false; Value None; Value (Some [51]); Value (Some [50]); Failed false; Value (Some [120; 121]); Failed true; Failed false; Value None]
            | Undef => False end
  | Undef => False end.
Proof. split; [cbn; repeat constructor; cbn; intuition discriminate|]. split; [cbn; intuition|]. vm_compute. reflexivity. Qed.
(* the laws of the English statement, for one call after any history *)
Theorem C41_laws : forall c m k v k', validName k = true ->
  (c = Set_ k v true -> fst (spec c m) = Failed false /\ snd (spec c m) k = Some v /\ (k' <> k -> snd (spec c m) k' = m k')) /\
  (c = Unset k -> snd (spec c m) k = None /\ (k' <> k -> snd (spec c m) k' = m k')) /\
  (c = Set_ k v false -> forall w, m k = Some w -> snd (spec c m) = m).
Proof.
  intros c m k v k' V. split; [|split]; intros ->; cbn [spec]; rewrite ?V; cbn [fst snd].
  - split; [reflexivity|]. destruct (m k); unfold with_; rewrite eqStr_refl; (split; [reflexivity|]); intros N; destruct (eqStr_spec k' k); congruence.
  - unfold with_. rewrite eqStr_refl. split; [reflexivity|]. intros N. destruct (eqStr_spec k' k); congruence.
  - intros w ->. reflexivity.
Qed.
Print Assumptions C41_laws.
(* no call reads or writes outside the array, whatever the initial environment *)
Theorem C41_inside : forall raw envp cs, rawOk raw -> exists e r, environInit raw envp = Ok e /\ run raw cs e = Ok r.
Proof.
  intros raw envp cs R. destruct (init_Inv raw R envp) as (e & E & I). exists e. enough (X : forall cs e l, Inv e l -> exists r, run raw cs e = Ok r) by (destruct (X cs e envp I) as (r & H); exists r; auto).
  clear -R. intros cs. induction cs as [|c cs IH]; intros e l I; cbn [run]; [eauto|]. destruct (step_inside raw R c e l I) as (a & e' & l' & -> & I'). cbn [andThen]. destruct (IH e' l' I') as ([r e2] & ->). cbn [andThen]. eauto.
Qed.
Print Assumptions C41_inside.
(* overwrite = false overwrites *)
Theorem C41_overwrite_refuted : exists k v w e, environInit raw0 [k ++ 61 :: w] = Ok e /\ w <> v /\ validName k = true /\
  exists e', setEnv raw0 e k v false = Ok (false, e') /\ getEnv e' k = Ok (Some v).
Proof. exists [65], [50], [49]. eexists. split; [vm_compute; reflexivity|]. split; [discriminate|]. split; [reflexivity|]. eexists. split; vm_compute; reflexivity. Qed.
Print Assumptions C41_overwrite_refuted.
(* if the environment given to the program has a name twice, unsetEnv uncovers the second value *)
Theorem C41_twice_refuted : exists k envp e e' v, environInit raw0 envp = Ok e /\ unsetEnv e k = Ok (false, e') /\ getEnv e' k = Ok (Some v).
Proof. exists [65], [[65; 61; 49]; [65; 61; 50]]. do 3 eexists. repeat split; vm_compute; reflexivity. Qed.
Print Assumptions C41_twice_refuted.

(* ---- C42 ---- *)
(* absPath, for every path, every absolute working directory, every file system and every buffer
   of at least two bytes: it stays inside the buffer; it fails exactly when the path does not fit or
   its directory part is not a directory; otherwise the result is the path from the root with
   nothing but names between single slashes, and it is the place the path leads to. *)
Theorem C42_abs : forall stat raw envp cs e0 r e path buf, rawOk raw ->
  environInit raw envp = Ok e0 -> run raw cs e0 = Ok (r, e) ->
  exists m, (forall k, getEnv e k = Ok (m k)) /\
  forall (Hp : cstr path) (Hw : cstr (wdOf m)) (Ha : isAbs (wdOf m) = true) (Hb : 2 <= Z.of_nat (length buf)),
  let w := whole m path in let siz := Z.of_nat (length buf) in
  exists fail b at_, absPath stat e path buf siz = Ok (fail, b, at_) /\ length b = length buf /\
    (fail = false <-> Z.of_nat (length w) + 1 < siz /\ isDir (stat (dirOf w)) = true) /\
    (fail = false -> strAt b = plain (placeOf w)).
Proof.
  intros stat raw envp cs e0 r e path buf R E0 Er.
  assert (I : exists l, Inv e l).
  { destruct (init_Inv raw R envp) as (e1 & E1 & I1). rewrite E1 in E0. injection E0 as <-. revert r Er. generalize envp I1. clear -R. revert e1. induction cs as [|c cs IH]; intros e1 l I1 r Er; cbn [run] in Er; [injection Er as _ <-; eauto|].
    destruct (step_inside raw R c e1 l I1) as (a & e' & l' & S & I'). rewrite S in Er. cbn [andThen] in Er. destruct (run raw cs e') as [[r' e'']|] eqn:Er'; [|discriminate]. cbn [andThen] in Er. injection Er as <- <-. exact (IH e' l' I' r' Er'). }
  destruct I as (l & I). exists (initial l). split; [intros k; apply get_spec; exact I|]. intros Hp Hw Ha Hb w siz.
  destruct (absPath_spec stat e l path buf siz I eq_refl Hb Hp Hw Ha) as (b & at_ & A & L & S). eexists. exists b, at_. split; [exact A|]. split; [exact L|].
  fold w. fold w in S. rewrite negb_false_iff. split.
  - rewrite andb_true_iff, Z.ltb_lt. intuition lia.
  - intros X. apply S. exact X.
Qed.
Print Assumptions C42_abs.
(* the form is unique: names only, and reading it gives the same place *)
Definition name (p : bytes) : Prop := p <> [] /\ p <> [46] /\ p <> [46; 46] /\ ~ In 47 p.
Lemma walk_names ps : Forall noSl ps -> forall here, Forall name here -> Forall name (walk ps here).
Proof.
  induction 1 as [|p ps N _ IH]; intros here H; cbn [walk]; [apply Forall_rev; exact H|]. destruct (eqStr_spec p []) as [|A]; cbn [orb]; [apply IH; exact H|]. destruct (eqStr_spec p [46]) as [|B]; [apply IH; exact H|].
  destruct (eqStr_spec p [46; 46]) as [|C]; apply IH; [destruct here; [constructor|inversion H; assumption]|constructor; [split; [|split; [|split]]; assumption|exact H]].
Qed.
Lemma parts_plain p : noSl p -> forall r, parts (p ++ 47 :: r) = p :: parts r.
Proof. induction p as [|c p IH]; intros N r; [reflexivity|]. cbn [app parts]. rewrite (proj2 (Z.eqb_neq c 47)) by (intros ->; apply N; left; reflexivity). rewrite IH; [reflexivity|]. intros X. apply N. right. exact X. Qed.
Lemma parts_one p : noSl p -> parts p = [p].
Proof. induction p as [|c p IH]; intros N; [reflexivity|]. cbn [parts]. rewrite (proj2 (Z.eqb_neq c 47)) by (intros ->; apply N; left; reflexivity). rewrite IH; [reflexivity|]. intros X. apply N. right. exact X. Qed.
Lemma parts_slashed ps : Forall noSl ps -> parts (slashed ps) = [] :: ps.
Proof.
  induction 1 as [|p ps N _ IH]; [reflexivity|]. unfold slashed in *. cbn [flat_map app parts]. change (47 =? 47) with true. cbn iota. f_equal. destruct ps as [|q ps]; [cbn [flat_map]; rewrite app_nil_r; apply parts_one; exact N|].
  cbn [flat_map app] in *. rewrite parts_plain by exact N. f_equal. cbn [parts] in IH. change (47 =? 47) with true in IH. cbn iota in IH. congruence.
Qed.
Lemma walk_id ps : Forall name ps -> forall here, walk ps here = rev here ++ ps.
Proof.
  induction 1 as [|p ps (A & B & C & _) _ IH]; intros here; cbn [walk]; [now rewrite app_nil_r|]. destruct (eqStr_spec p []); [congruence|]. destruct (eqStr_spec p [46]); [congruence|]. destruct (eqStr_spec p [46; 46]); [congruence|]. cbn [orb]. rewrite IH. cbn [rev]. now rewrite <- app_assoc.
Qed.
Theorem C42_form : forall w, Forall name (placeOf w) /\ placeOf (plain (placeOf w)) = placeOf w /\ isAbs (plain (placeOf w)) = true.
Proof.
  intros w. assert (N : Forall name (placeOf w)) by (apply walk_names; [apply parts_noSl|constructor]). split; [exact N|]. split; [|unfold plain; destruct (placeOf w); reflexivity].
  unfold placeOf at 1. unfold plain. destruct (placeOf w) as [|p ps] eqn:E; [reflexivity|]. rewrite <- E in *. rewrite parts_slashed by (apply Forall_forall; intros q Hq; rewrite Forall_forall in N; apply (N q Hq)). cbn [walk eqStr]. change (eqStr [] []) with true. cbn [orb].
  now rewrite walk_id.
Qed.
Print Assumptions C42_form.
(* /home + ../x/./y//z/.. : /x/y *)
Definition fs0 (s : str) : option Z := Some 16.
Example C42_abs_ex : match environInit raw0 [[80; 87; 68; 61; 47; 104; 111; 109; 101]] with
  | Ok e => match absPath fs0 e [46; 46; 47; 120; 47; 46; 47; 121; 47; 47; 122; 47; 46; 46] (repeat 7 30) 30 with
            | Ok (fail, b, _) => fail = false /\ strAt b = [47; 120; 47; 121] | Undef => False end
  | Undef => False end /\
  placeOf (whole (initial [[80; 87; 68; 61; 47; 104; 111; 109; 101]]) [46; 46; 47; 120; 47; 46; 47; 121; 47; 47; 122; 47; 46; 46]) = [[120]; [121]].
Proof. vm_compute. auto. Qed.
(* with a buffer of one byte it writes outside *)
Theorem C42_size_refuted : exists e path, environInit raw0 [] = Ok e /\ absPath fs0 e path [0] 1 = Undef.
Proof. eexists. exists [47]. split; vm_compute; reflexivity. Qed.
Print Assumptions C42_size_refuted.

(* chDir: when it succeeds PWD is the place of the path, in plain form, and no other variable
   changes; when it fails nothing changes *)
Theorem C42_chdir : forall stat raw e l path buf at0, rawOk raw -> Inv e l -> length buf = 80%nat -> cstr path -> cstr (wdOf (initial l)) -> isAbs (wdOf (initial l)) = true ->
  exists fail e', chDir stat raw e path buf at0 = Ok (fail, e') /\ (fail = true -> e' = e) /\
    (fail = false -> forall k, getEnv e' k = Ok (if eqStr k [80; 87; 68] then Some (plain (placeOf (whole (initial l) path))) else initial l k)).
Proof.
  intros stat raw e l path buf at0 R I Lb Cp Cw Aw. unfold chDir. assert (H80 : 80 = Z.of_nat (length buf)) by (rewrite Lb; reflexivity). destruct (absPath_spec stat e l path buf 80 I H80 ltac:(lia) Cp Cw Aw) as (b & at_ & -> & _ & S).
  cbn [andThen]. destruct (_ && isDir _) eqn:F; cbn [negb]; [|exists true, e; split; [reflexivity|]; split; [reflexivity|discriminate]]. destruct (S eq_refl) as [-> Sb]. apply andb_true_iff in F. destruct F as [_ F]. destruct (stat _) as [a|]; [|discriminate]. cbn [isDir] in F. destruct (Z.land a 16 =? 0); [discriminate|].
  unfold setEnv. change (0 <=? strChr [80; 87; 68] 61) with false. cbn iota. destruct (setN_spec raw R e l [80; 87; 68] (strLen [80; 87; 68]) (strAt b) true I) as (e' & St & I'); [cbn; lia|intros X; vm_compute in X; intuition discriminate|].
  change (firstn (Z.to_nat (strLen [80; 87; 68])) [80; 87; 68]) with [80; 87; 68] in I'. exists false, e'. split; [exact St|]. split; [discriminate|]. intros _ k. rewrite (get_spec e' _ k I'), set_map by (cbn; intuition discriminate). unfold with_. rewrite Sb. reflexivity.
Qed.
Print Assumptions C42_chdir.
(* but it accepts a path that is not a directory: the attributes it looks at are those of the
   directory part (environ.cmm:226-233, 251) *)
Definition fs1 (s : str) : option Z := if eqStr s [47] then Some 16 else if eqStr s [47; 102] then Some 0 else None.
Theorem C42_chdir_refuted : exists e path e', environInit raw0 [] = Ok e /\ isDir (fs1 (whole (initial []) path)) = false /\
  isDir (fs1 (plain (placeOf (whole (initial []) path)))) = false /\
  chDir fs1 raw0 e path (repeat 7 80) 0 = Ok (false, e') /\ getEnv e' [80; 87; 68] = Ok (Some [47; 102]).
Proof. eexists. exists [47; 102]. eexists. repeat split; vm_compute; reflexivity. Qed.
Print Assumptions C42_chdir_refuted.
Example C42_chdir_ex : match environInit raw0 [[80; 87; 68; 61; 47; 97]] with
  | Ok e => match chDir fs0 raw0 e [98; 47] (repeat 7 80) 0 with Ok (f, e') => f = false /\ getEnv e' [80; 87; 68] = Ok (Some [47; 97; 47; 98]) | Undef => False end
  | Undef => False end.
Proof. vm_compute. auto. Qed.
