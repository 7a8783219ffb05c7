(* The program with run-time checks is the program without them, and nothing in it is used unchecked *)
From Coq Require Import ZArith Bool Lia List String Ascii.
From Verif Require Import Lexer SyTree NameTable CSpec CCode CTree CLexProofs CReadProofs CStmProofs RtcCode RtcTree Properties_CCode.
Import ListNotations.
Open Scope Z_scope.

Lemma not_int w : is (w ++ codes "*") "int" = false.
Proof.
  destruct (is (w ++ codes "*") "int") eqn:E; [|reflexivity]. apply eqs_true in E.
  assert (In 42 (codes "int")) by (rewrite <- E; apply in_or_app; right; left; reflexivity).
  vm_compute in H. intuition discriminate.
Qed.

Section Names.
Variable nm lab own : Z -> list Z.
Variable file : list Z.
Variable vty : Z -> Z * nat.
Variable ln : path -> Z.
Notation argsR := (argsR nm lab own file ln).

Lemma strip_one l : strip (one l) = one (map strip l).
Proof. destruct l; reflexivity. Qed.
Lemma strip_num v : strip (numC v) = numC v.
Proof. unfold numC. destruct (v <? 0); reflexivity. Qed.
Lemma strip_args : forall e p, map strip (argsR p e) = argsC nm lab e.
Proof.
  induction e as [|l|o e IH|o l IHl r IHr|f a IH]; intros p.
  - reflexivity.
  - destruct l; cbn [RtcTree.argsR argsC map]; try reflexivity. now rewrite strip_num.
  - destruct o; cbn [RtcTree.argsR argsC map];
      match goal with |- [strip (CUn ?op ?x)] = _ => change (strip (CUn op x)) with (CUn op (strip x)) | |- [strip (CBin ?op ?y ?x)] = _ => change (strip (CBin op y x)) with (CBin op y (strip x)) end;
      rewrite strip_one, IH; reflexivity.
  - destruct o; cbn [RtcTree.argsR argsC map checkOf];
      try (match goal with |- [strip (CBin ?op ?y ?x)] = _ => change (strip (CBin op y x)) with (CBin op (strip y) (strip x)) end; rewrite !strip_one, IHl, IHr; reflexivity);
      try (match goal with |- [strip (CUn ?op (CCall (CId ?w) [?x; ?y; ?f; ?n]))] = _ => change (strip (CUn op (CCall (CId w) [x; y; f; n]))) with (CIdx (strip x) (strip y)) end;
           rewrite !strip_one, IHl, IHr; reflexivity).
    + set (fd := match r with ELeaf (LCnst f) => f | _ => 0 end).
      match goal with |- [strip (CArrow (CCast ?t (CCall ?c [?x; ?s; ?n])) ?w)] = _ =>
        assert (E : strip (CCast t (CCall c [x; s; n])) = CCast t (CCall c [strip x; s; n])) by (cbn [strip]; rewrite not_int; reflexivity) end.
      cbn [strip] in E |- *. rewrite E. change (is (codes "_CP") "_CP") with true. cbv iota. rewrite strip_one, IHl. reflexivity.
    + rewrite map_app, IHl, IHr. reflexivity.
  - cbn [RtcTree.argsR argsC map strip]. rewrite IH. reflexivity.
Qed.
Lemma strip_exp e p : strip (one (argsR p e)) = expC nm lab e.
Proof. rewrite strip_one, strip_args. reflexivity. Qed.
Lemma strip_opt e p : omap strip (oexpR nm lab own file ln p e) = optC nm lab e.
Proof. destruct e; [reflexivity| | | |]; unfold oexpR, omap, optC; rewrite strip_exp; reflexivity. Qed.

Notation manyR := (manyR nm lab own file ln vty).
Lemma hd_strip l : stripS (hd KEmpty l) = hd KEmpty (map stripS l).
Proof. destruct l; reflexivity. Qed.
Lemma hd_untyped l : untyped (hd KEmpty l) = hd KEmpty (map untyped l).
Proof. destruct l; reflexivity. Qed.
Lemma strip_many : forall s p, map stripS (manyR p s) = map untyped (manyC nm lab vty s).
Proof.
  induction s as [|e|i|c b IHb|c b1 IH1 b2 IH2|c b IHb re|b IHb c| | |e|l IHl r IHr|l IHl r IHr]; intros p; cbn [RtcTree.manyR manyC]; try reflexivity.
  - destruct e as [|[v| | | | |]| | |]; try reflexivity; cbn [map stripS untyped]; rewrite strip_exp; reflexivity.
  - cbn [map stripS untyped]. rewrite strip_exp, hd_strip, hd_untyped, IHb. reflexivity.
  - cbn [map stripS untyped]. rewrite strip_exp, !hd_strip, !hd_untyped, IH1, IH2. reflexivity.
  - cbn [map stripS untyped]. rewrite !strip_opt, hd_strip, hd_untyped, IHb. reflexivity.
  - cbn [map stripS untyped]. rewrite strip_exp, hd_strip, hd_untyped, IHb. reflexivity.
  - cbn [map stripS untyped]. rewrite strip_opt. reflexivity.
  - rewrite !map_app, IHl, IHr. reflexivity.
  - cbn [map stripS untyped]. rewrite !map_app, IHl, IHr. reflexivity.
Qed.

(* ---- nothing unchecked ---- *)
Hypothesis lines : forall p, 0 <= ln p.
Lemma eqs_refl a : eqs a a = true. Proof. apply eqs_true. reflexivity. Qed.
Lemma guard_one l : forallb (guarded file) l = true -> guarded file (one l) = true.
Proof. destruct l as [|c l]; [reflexivity|]. cbn [forallb one hd]. intros H. apply andb_prop in H. apply H. Qed.
Lemma guard_args : forall e p, forallb (guarded file) (argsR p e) = true.
Proof.
  assert (LN : forall p, (0 <=? ln p) = true) by (intros p; apply Z.leb_le; apply lines).
  induction e as [|l|o e IH|o l IHl r IHr|f a IH]; intros p.
  - reflexivity.
  - destruct l; cbn [RtcTree.argsR forallb]; try reflexivity. unfold numC. destruct (v <? 0); reflexivity.
  - pose proof (guard_one _ (IH (false :: p))) as G. destruct o; cbn [RtcTree.argsR forallb guarded]; rewrite G; reflexivity.
  - pose proof (guard_one _ (IHl (false :: p))) as G. pose proof (guard_one _ (IHr (true :: p))) as G'.
    destruct o; cbn [RtcTree.argsR checkOf forallb guarded checkedUse checkedRef]; rewrite ?G, ?G', ?eqs_refl, ?LN; try reflexivity.
    rewrite forallb_app, IHl, IHr. reflexivity.
  - cbn [RtcTree.argsR forallb guarded]. rewrite IH. reflexivity.
Qed.
Lemma guard_exp e p : guarded file (one (argsR p e)) = true.
Proof. apply guard_one. apply guard_args. Qed.
Lemma guard_opt e p : ogd file (oexpR nm lab own file ln p e) = true.
Proof. destruct e; [reflexivity| | | |]; unfold oexpR, ogd; apply guard_exp. Qed.
Lemma guard_hd l : forallb (guardedS file) l = true -> guardedS file (hd KEmpty l) = true.
Proof. destruct l as [|c l]; [reflexivity|]. cbn [forallb hd]. intros H. apply andb_prop in H. apply H. Qed.
Lemma guard_many : forall s p, forallb (guardedS file) (manyR p s) = true.
Proof.
  induction s as [|e|i|c b IHb|c b1 IH1 b2 IH2|c b IHb re|b IHb c| | |e|l IHl r IHr|l IHl r IHr]; intros p; cbn [RtcTree.manyR]; try reflexivity.
  - destruct e as [|[v| | | | |]| | |]; try reflexivity; cbn [forallb guardedS]; rewrite guard_exp; reflexivity.
  - cbn [forallb guardedS]. rewrite guard_exp, guard_hd by apply IHb. reflexivity.
  - cbn [forallb guardedS]. rewrite guard_exp, (guard_hd _ (IH1 _)), (guard_hd _ (IH2 _)). reflexivity.
  - cbn [forallb guardedS]. rewrite !guard_opt, (guard_hd _ (IHb _)). reflexivity.
  - cbn [forallb guardedS]. rewrite guard_exp, (guard_hd _ (IHb _)). reflexivity.
  - cbn [forallb guardedS]. rewrite guard_opt. reflexivity.
  - rewrite forallb_app, IHl, IHr. reflexivity.
  - cbn [forallb guardedS]. rewrite forallb_app, IHl, IHr. reflexivity.
Qed.
Lemma guard_body root : guardedS file (bodyR nm lab own file ln vty root) = true.
Proof. unfold bodyR. destruct root; cbn [guardedS]; try apply guard_many. rewrite forallb_app, !guard_many. reflexivity. Qed.
End Names.

Lemma strip_body nm own file vty ln root : stripS (bodyR nm strLab own file ln vty root) = untyped (bodyC nm vty root).
Proof.
  unfold bodyR, bodyC. destruct root; cbn [stripS untyped]; apply f_equal; try apply strip_many. rewrite !map_app, !strip_many. reflexivity.
Qed.

(* ---- every tree the parser builds is printed ---- *)
Lemma printR_total nm own file ln : forall e p args, formed args e = true -> exists x, printR nm own file ln p args e = Some x.
Proof.
  induction e as [|l|o e IH|o l IHl r IHr|f a IH]; intros p args H; cbn [formed] in H.
  - discriminate.
  - destruct l; eexists; reflexivity.
  - destruct (IH (false :: p) false H) as [x E]. destruct o; cbn [printR]; rewrite E; eexists; reflexivity.
  - destruct o; try (apply andb_prop in H as [A B]; destruct (IHl (false :: p) false A) as [x E]; destruct (IHr (true :: p) false B) as [y K]; cbn [printR checkName]; rewrite E, K; eexists; reflexivity).
    + destruct r as [|[v| | | | |]| | |]; try discriminate H. destruct (IHl (false :: p) false H) as [x E]. cbn [printR]. rewrite E. eexists. reflexivity.
    + apply andb_prop in H as [A C]. apply andb_prop in A as [A B]. destruct (IHl (false :: p) true B) as [x E]. destruct (IHr (true :: p) true C) as [y K].
      cbn [printR]. rewrite A, E, K. eexists. reflexivity.
  - cbn [printR]. destruct a as [|l|o e|o l r|g a]; [eexists; reflexivity| | | |]; destruct (IH (true :: p) true H) as [x ->]; eexists; reflexivity.
Qed.
Lemma optR_total nm own file ln p e : formedO e = true -> exists x, optR nm own file ln p e = Some x.
Proof. destruct e as [|l|o e|o l r|g a]; [intros _; eexists; reflexivity| | | |]; intros H; exact (printR_total nm own file ln _ p false H). Qed.
Lemma traceR_total nm own file vty ln : forall s p, formedS vty s = true -> exists x, traceR nm own file vty ln p s = Some x.
Proof.
  induction s as [|e|i|c b IHb|c b1 IH1 b2 IH2|c b IHb re|b IHb c| | |e|l IHl r IHr|l IHl r IHr]; intros p; cbn [formedS traceR]; intros H;
    try (eexists; reflexivity).
  - destruct (printR_total nm own file ln e p false H) as [x E]. destruct e as [|[v| | | | |]| | |]; try (eexists; reflexivity); rewrite E; eexists; reflexivity.
  - unfold printTypeR. destruct (snd (vty i)) as [|d].
    + unfold printTypeName. destruct (fst (vty i) =? TyVOID); [eexists; reflexivity|]. destruct (fst (vty i) =? TyINT); [eexists; reflexivity|].
      destruct (fst (vty i) =? TyBOOL); [eexists; reflexivity|]. destruct (fst (vty i) =? TyCHAR); [eexists; reflexivity|].
      rewrite !orb_false_r in H. rewrite H. eexists. reflexivity.
    + destruct (Nat.eqb d 0 && (0 <? fst (vty i))); [|eexists; reflexivity]. destruct (fst (vty i) =? TyINT); [eexists; reflexivity|].
      destruct (fst (vty i) =? TyVOID); eexists; reflexivity.
  - apply andb_prop in H as [A B]. destruct (printR_total nm own file ln c (false :: p) false A) as [x ->]. destruct (IHb (true :: p) B) as [y ->]. eexists. reflexivity.
  - apply andb_prop in H as [A B]. apply andb_prop in A as [A C]. destruct (printR_total nm own file ln c (false :: false :: p) false A) as [x ->].
    destruct (IH1 (true :: false :: p) C) as [y ->]. destruct (IH2 (true :: p) B) as [z ->]. eexists. reflexivity.
  - apply andb_prop in H as [A B]. apply andb_prop in A as [A C]. destruct (optR_total nm own file ln (false :: p) c A) as [x ->]. destruct (optR_total nm own file ln (true :: true :: p) re B) as [y ->].
    destruct (IHb (false :: true :: p) C) as [z ->]. eexists. reflexivity.
  - apply andb_prop in H as [A B]. destruct (printR_total nm own file ln c (true :: p) false A) as [x ->]. destruct (IHb (false :: p) B) as [y ->]. eexists. reflexivity.
  - destruct (optR_total nm own file ln (false :: p) e H) as [x ->]. eexists. reflexivity.
  - apply andb_prop in H as [A B]. destruct (IHl (false :: p) A) as [x ->]. destruct (IHr (true :: p) B) as [y ->]. eexists. reflexivity.
  - apply andb_prop in H as [A B]. destruct (IHl (false :: p) A) as [x ->]. destruct (IHr (true :: p) B) as [y ->]. eexists. reflexivity.
Qed.
