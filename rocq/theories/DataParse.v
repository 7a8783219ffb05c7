(* The initialisers the parser accepts are those of the declared type
   (parser.c:1034-1210). *)
From Coq Require Import ZArith Bool Lia List Permutation.
From Verif Require Import Lexer NameTable SyTree OpTree ExprSem VM VmCode Parser ParserStmt ParseSpec ParseLabs OptLabs ProgSpec ProgInv ProgData ProgTop.
From Verif Require Import DataSpec DataProofs.
Import ListNotations.
Open Scope Z_scope.

Lemma typed_levels t d : forall i, typed t d i -> (levels i <= S d)%nat /\ positive i.
Proof.
  induction d as [|d IH]; intros i T; inversion T; subst; cbn [levels positive]; try (split; [lia|exact I]).
  - match goal with H : scalar _ |- _ => destruct H end; cbn; split; (lia || exact I).
  - match goal with H : Forall scalar _ |- _ => induction H as [|x xs S F IHF] end; cbn [fold_right]; [split; [lia|exact I]|].
    destruct IHF as [A B]; [constructor; assumption|]. split; [destruct S; cbn; lia|]. split; [destruct S; exact I|exact B].
  - match goal with H : Forall (typed t d) ?xs |- _ => clear - H IH; induction H as [|x xs S F IHF] end; cbn [fold_right]; [split; [lia|exact I]|].
    destruct IHF as [A B]. destruct (IH _ S) as [C D]. split; [lia|split; assumption].
  - split; [lia|assumption].
Qed.

(* what was read is one value for which P holds *)
Definition tpost (P : list init -> Prop) (g : gs) (r : dat * gs) : Prop := reads g (snd r) /\ P (inits (fst r)).
Definition one (P : init -> Prop) (l : list init) : Prop := exists i, l = [i] /\ P i.
Lemma tpost_mono (P Q : list init -> Prop) g r : (forall l, P l -> Q l) -> tpost P g r -> tpost Q g r.
Proof. intros H [A B]. split; [exact A|exact (H _ B)]. Qed.
Lemma reads_type g g' : reads g g' -> curType g' = curType g /\ curDim g' = curDim g /\ gnt g' = gnt g.
Proof. intros [-> _]. repeat split. Qed.
Lemma inits_cat a b : inits (catD a b) = inits a ++ inits b.
Proof. unfold catD. destruct a; try reflexivity; destruct b; cbn [inits]; rewrite ?app_nil_r; reflexivity. Qed.
Lemma ty_getCnst0 {W : word} typ g : ac (getCnst typ g) (fun r => reads g (snd r) /\ leafD (fst r)).
Proof.
  unfold getCnst, gAsExpr. pose proof (ac_getAsExpr (gnt g) (ge g)) as H. destruct (getAsExpr (gnt g) (ge g)) as [[w e]| | |]; try exact I. cbn [pbind ac] in *.
  destruct H as [S B]. cbn [fst snd] in *. eapply ac_bind; [apply ac_chkCmpat|]. cbn beta. intros w' _. destruct (wOptExp (tr w')) as [e'|]; [|exact I]. cbn [lift_opt pbind].
  assert (reads g (wE g e)) as R by (split; [reflexivity|exact S]).
  destruct e' as [|k| | |]; try exact I. destruct k; try exact I; (split; [exact R|exact I]).
Qed.
Lemma leaf_scalar d : leafD d -> one scalar (inits d).
Proof. destruct d; intros H; destruct H; cbn [inits]; eexists; (split; [reflexivity|constructor]). Qed.
Lemma ty_getCnst {W : word} typ g : ac (getCnst typ g) (tpost (one scalar) g).
Proof. eapply ac_mono; [apply ty_getCnst0|]. intros r [A B]. split; [exact A|exact (leaf_scalar _ B)]. Qed.
Definition dimPost (g : gs) (dim : Z) (r : dat * gs) : Prop :=
  reads g (snd r) /\ Z.of_nat (length (dimsOf (fst r))) <= dim /\ Forall (fun n => 0 < n) (dimsOf (fst r)) /\
  match fst r with DCnst _ | DSemi _ _ | DAddr _ | DStr _ => True | _ => False end.
Lemma ty_getArray0 {W : word} f : forall dim g, ac (getArray0 f dim g) (dimPost g dim).
Proof.
  induction f as [|f IH]; intros dim g; [exact I|]. cbn [getArray0]. destruct (Z.leb_spec dim 0) as [|D]; [exact I|].
  eapply ac_bind; [apply ty_getCnst0|]. intros [n g1] [R1 L1]. cbn [fst snd] in *. destruct (Z.leb_spec (dLVal n) 0) as [|V]; [exact I|].
  destruct (gIsTok cCOMMA g1) as [g2|] eqn:K.
  - apply reads_isTok in K. eapply ac_bind; [apply IH|]. intros [x g3] (R3 & A & B & C). cbn [ac fst snd] in *.
    split; [exact (reads_trans _ _ _ R1 (reads_trans _ _ _ K R3))|]. cbn [fst].
    assert (catD x n = DSemi x n) as -> by (destruct x, n; try (destruct C; fail); try (destruct L1; fail); reflexivity).
    destruct n; try (destruct L1; fail); cbn [dimsOf length dLVal] in *.
    + split; [lia|]. split; [constructor; assumption|exact I].
    + split; [lia|]. split; [constructor|exact I].
    + split; [lia|]. split; [constructor|exact I].
  - cbn [ac]. split; [exact R1|]. cbn [fst]. destruct n; try (destruct L1; fail); cbn [dimsOf length dLVal] in *; (split; [lia|]); (split; [repeat constructor; assumption|exact I]).
Qed.
Lemma ty_getArray {W : word} t d g : curType g = t -> ac (getArray (Z.of_nat (S d)) g) (tpost (one (typed t (S d))) g).
Proof.
  intros ET. unfold getArray. eapply ac_bind; [apply ac_tok|]. intros g1 R1. eapply ac_bind; [apply ty_getArray0|]. intros [x g2] (R2 & A & B & C). cbn [fst snd] in *.
  eapply ac_bind; [apply ac_tok|]. intros g3 R3. cbn [ac]. pose proof (reads_trans _ _ _ R1 (reads_trans _ _ _ R2 R3)) as R. split; [exact R|].
  cbn [fst inits]. destruct (reads_type _ _ R) as (E & _). rewrite E, ET. eexists. split; [reflexivity|].
  replace (arrFlag (byteDim t (Z.of_nat (S d))) x) with (byteType t && (length (dimsOf x) =? S d)%nat); [apply T_array; [lia|exact B]|].
  unfold arrFlag, byteDim, byteType. destruct ((t =? TyCHAR) || (t =? TyBOOL)); cbn [andb].
  - destruct (Nat.eqb_spec (length (dimsOf x)) (S d)), (Z.eqb_spec (Z.of_nat (S d)) (Z.of_nat (length (dimsOf x)))), (Z.ltb_spec 0 (Z.of_nat (length (dimsOf x)))); try reflexivity; lia.
  - destruct (Z.eqb_spec 0 (Z.of_nat (length (dimsOf x)))), (Z.ltb_spec 0 (Z.of_nat (length (dimsOf x)))); try reflexivity; lia.
Qed.
Lemma gStr_ty (P : init -> Prop) g l g' : gStr g = (l, g') -> P (IStr l) -> tpost (one P) g (DStr l, g').
Proof. intros H HP. split; [exact (proj1 (gStr_post 0 _ _ _ H))|]. exists (IStr l). split; [reflexivity|exact HP]. Qed.
Lemma tpost_after P g g1 d g2 g3 : reads g g1 -> tpost P g1 (d, g2) -> reads g2 g3 -> tpost P g (d, g3).
Proof. intros A [B C] D. split; [exact (reads_trans _ _ _ A (reads_trans _ _ _ B D))|exact C]. Qed.
Lemma ty_fieldInit {W : word} i g : ac (fieldInit i g) (tpost (one scalar) g).
Proof.
  unfold fieldInit. cbv zeta. destruct (_ <=? _).
  { eapply ac_bind; [apply ac_tok|]. intros g1 R. cbn [ac]. split; [exact R|]. exists (IWord 0). split; [reflexivity|constructor]. }
  destruct (_ <? _).
  { destruct (gIsTok LxSTRING g) as [g1|] eqn:K.
    - apply reads_isTok in K. destruct (_ || _); [exact I|]. destruct (gStr g1) as [l g2] eqn:G. cbn [ac]. apply (tpost_after _ _ g1 _ g2); [exact K|exact (gStr_ty _ _ _ _ G (S_str l))|apply reads_refl].
    - destruct (gIsTok LxNUL g) as [g1|] eqn:K2; [|exact I]. apply reads_isTok in K2. split; [exact K2|]. exists (IWord 0). split; [reflexivity|constructor]. }
  repeat (destruct (_ =? _); [apply ty_getCnst|]). exact I.
Qed.
Definition all (P : init -> Prop) (l : list init) : Prop := Forall P l.
Lemma all_one (P : init -> Prop) a b : all P a -> one P b -> all P (a ++ b) /\ a ++ b <> [].
Proof.
  intros A (i & -> & H). split; [apply Forall_app; split; [exact A|constructor; [exact H|constructor]]|]. intros E. apply app_eq_nil in E. destruct E as [_ E]. discriminate E.
Qed.
Lemma ty_structLoop {W : word} f : forall i node g0 g, tpost (all scalar) g0 (node, g) -> ac (structLoop f i node g) (tpost (all scalar) g0).
Proof.
  induction f as [|f IH]; intros i node g0 g [R0 D]; [exact I|]. cbn [structLoop]. destruct (_ || _); [exact I|].
  eapply ac_bind; [apply ty_fieldInit|]. intros [n g1] [R1 D1]. cbv zeta. cbn [fst snd] in *.
  assert (tpost (all scalar) g0 (catD node n, g1)) as D2 by (split; [exact (reads_trans _ _ _ R0 R1)|cbn [fst]; rewrite inits_cat; exact (proj1 (all_one _ _ _ D D1))]).
  destruct (gIsTok cCOMMA g1) as [g2|] eqn:K.
  - apply IH. exact (tpost_after _ _ g0 _ g1 _ (reads_refl _) D2 (reads_isTok _ _ _ K)).
  - destruct (_ && _); [exact I|exact D2].
Qed.
Lemma ty_getStructInit {W : word} t g : curType g = t -> t <= 0 -> ac (getStructInit g) (tpost (one (typed t 0)) g).
Proof.
  intros ET T0. unfold getStructInit. destruct (gIsTok LxNUL g) as [g1|] eqn:K; [apply reads_isTok in K; split; [exact K|]; exists (IWord 0); split; [reflexivity|apply T_null]|].
  eapply ac_bind; [apply ac_tok|]. intros g1 R1. eapply ac_bind; [apply ty_structLoop; split; [apply reads_refl|constructor]|]. intros [n g2] [R2 D2]. eapply ac_bind; [apply ac_tok|]. intros g3 R3. cbn [ac].
  split; [exact (reads_trans _ _ _ R1 (reads_trans _ _ _ R2 R3))|]. cbn [fst inits]. eexists. split; [reflexivity|]. apply T_struct; [exact T0|exact D2].
Qed.
Lemma ty_itemLoop (P : init -> Prop) t item f : (forall g, curType g = t -> ac (item g) (tpost (one P) g)) -> forall g0 node g, curType g = t -> reads g0 g -> all P (inits node) ->
  ac (itemLoop item f node g) (tpost (fun l => all P l /\ l <> []) g0).
Proof.
  intros HI. induction f as [|f IH]; intros g0 node g ET R0 D; [exact I|]. cbn [itemLoop]. eapply ac_bind; [apply (HI g ET)|]. intros [d g1] [R1 D1]. cbv zeta. cbn [fst snd] in *.
  pose proof (reads_trans _ _ _ R0 R1) as R. pose proof (all_one _ _ _ D D1) as D2. rewrite <- inits_cat in D2.
  destruct (gIsTok cCOMMA g1) as [g2|] eqn:K; [|split; [exact R|exact D2]].
  apply reads_isTok in K. apply IH; [|exact (reads_trans _ _ _ R K)|exact (proj1 D2)].
  destruct (reads_type _ _ (reads_trans _ _ _ R1 K)) as (E & _). congruence.
Qed.
Lemma ty_getGArrayInitF {W : word} t f : forall d g, curType g = t -> ac (getGArrayInitF f (Z.of_nat (S d)) g) (tpost (one (typed t (S d))) g).
Proof.
  induction f as [|f IH]; intros d g ET; [exact I|]. cbn [getGArrayInitF].
  destruct (gIsTok cLC g) as [g1|] eqn:K1.
  { apply reads_isTok in K1. assert (curType g1 = t) as ET1 by (destruct (reads_type _ _ K1) as (E & _); congruence). unfold getGArrayInit0.
    eapply ac_bind with (P := tpost (one (typed t (S d))) g1).
    - eapply ac_bind with (P := tpost (fun l => all (typed t d) l /\ l <> []) g1).
      + destruct (Z.leb_spec (Z.of_nat (S d)) 1) as [E|E].
        * assert (d = O) as -> by lia. rewrite ET1. destruct (Z.leb_spec t 0) as [T0|T0].
          -- apply (ty_itemLoop _ t); [intros; apply ty_getStructInit; assumption|exact ET1|apply reads_refl|constructor].
          -- destruct (_ || _); [|exact I]. apply (ty_itemLoop _ t); [|exact ET1|apply reads_refl|constructor].
             intros g' _. eapply ac_mono; [apply ty_getCnst|]. intros r. apply tpost_mono. intros l (i & -> & S). exists i. split; [reflexivity|]. apply T_scalar; assumption.
        * destruct d as [|d]; [lia|]. apply (ty_itemLoop _ t); [|exact ET1|apply reads_refl|constructor].
          intros g' E'. replace (Z.of_nat (S (S d)) - 1) with (Z.of_nat (S d)) by lia. apply IH. exact E'.
      + intros [n g2] [R2 [D2 N2]]. cbn [ac fst snd] in *. split; [exact R2|]. cbn [fst inits]. destruct (reads_type _ _ R2) as (E & _). rewrite E, ET1.
        eexists. split; [reflexivity|].
        replace (byteDim t (Z.of_nat (S d)) =? 1) with (byteType t && (S d =? 1)%nat); [apply T_list; assumption|].
        unfold byteDim, byteType. destruct ((t =? TyCHAR) || (t =? TyBOOL)); cbn [andb]; [|reflexivity].
        destruct (Nat.eqb_spec (S d) 1), (Z.eqb_spec (Z.of_nat (S d)) 1); try reflexivity; lia.
    - intros [n g2] D2. eapply ac_bind; [apply ac_tok|]. intros g3 R3. cbn [ac]. exact (tpost_after _ _ _ _ _ _ K1 D2 R3). }
  destruct (gIsTok LxSTRING g) as [g1|] eqn:K2.
  { apply reads_isTok in K2. assert (curType g1 = t) as ET1 by (destruct (reads_type _ _ K2) as (E & _); congruence).
    destruct (Z.eqb_spec (curType g1) TyCHAR) as [TC|]; [|exact I]. destruct (Z.eqb_spec (Z.of_nat (S d)) 1) as [D1|]; [|exact I]. cbn [negb orb].
    destruct (gStr g1) as [l g2] eqn:G. cbn [ac]. apply (tpost_after _ _ g1 _ g2); [exact K2| |apply reads_refl]. apply (gStr_ty _ _ _ _ G).
    assert (d = O) as -> by lia. apply T_string. congruence. }
  destruct (gIsTok LxARRAY g) as [g1|] eqn:K3.
  { apply reads_isTok in K3. assert (curType g1 = t) as ET1 by (destruct (reads_type _ _ K3) as (E & _); congruence).
    eapply ac_mono; [apply (ty_getArray t d g1 ET1)|]. intros [x g2] D2. exact (tpost_after _ _ _ _ _ _ K3 D2 (reads_refl _)). }
  destruct (gIsTok LxNUL g) as [g1|] eqn:K4; [|exact I]. apply reads_isTok in K4. split; [exact K4|]. exists (IWord 0). split; [reflexivity|apply T_null].
Qed.

(* ---- the declaration of a variable ---- *)
Lemma block_unique c l b b' : NoDup (outDefs c) -> block c l b -> block c l b' -> b = b'.
Proof.
  intros N (p & q & E & NM & F) (p' & q' & E' & NM' & F'). subst c.
  assert (forall l : Z, forall x y x' y', NoDup (outDefs (x ++ ALab l :: y)) -> x ++ ALab l :: y = x' ++ ALab l :: y' -> y = y') as UN.
  { clear. intros l x. induction x as [|a x IH]; intros y x' y' N E.
    - destruct x' as [|a' x']; cbn [app] in E; [injection E as E; exact E|]. injection E as <- E. exfalso. cbn [app] in N.
      change (ALab l :: y) with ([ALab l] ++ y) in N. rewrite outDefs_app in N. cbn [outDefs flat_map asmDefs app] in N. inversion N as [|u v N1 N2]. subst. apply N1. fold (outDefs (x' ++ ALab l :: y')). rewrite outDefs_app. apply in_or_app. right. left. reflexivity.
    - destruct x' as [|a' x']; cbn [app] in E.
      + injection E as -> E. exfalso. cbn [app] in N. change (ALab l :: x ++ ALab l :: y) with ([ALab l] ++ (x ++ ALab l :: y)) in N. rewrite outDefs_app in N. cbn [outDefs flat_map asmDefs app] in N. inversion N as [|u v N1 N2]. subst.
        apply N1. fold (outDefs (x ++ ALab l :: y)). rewrite outDefs_app. apply in_or_app. right. left. reflexivity.
      + injection E as <- E. apply (IH y x' y'); [|exact E]. cbn [app] in N. change (a :: x ++ ALab l :: y) with ([a] ++ (x ++ ALab l :: y)) in N. rewrite outDefs_app in N.
        clear - N. induction (outDefs [a]) as [|u v IH]; [exact N|]. cbn [app] in N. inversion N; subst. auto. }
  apply (UN l p (b ++ q) p' (b' ++ q') N) in E'. clear UN N p p'. revert b' E' NM'.
  induction b as [|a b IH]; intros b' E NM'; cbn [app] in E.
  - destruct b' as [|a' b']; [reflexivity|]. cbn [app] in E. subst q. cbn [fresh] in F. cbn [forallb] in NM'. rewrite F in NM'. discriminate NM'.
  - cbn [forallb] in NM. apply andb_prop in NM. destruct NM as [NA NB]. destruct b' as [|a' b']; cbn [app] in E.
    + subst q'. cbn [fresh] in F'. rewrite F' in NA. discriminate NA.
    + injection E as <- E. cbn [forallb] in NM'. apply andb_prop in NM'. f_equal. apply IH; [exact NB|exact E|apply NM'].
Qed.
Lemma strOut_fresh ss l : fresh (strOut l ss).
Proof. destruct ss; [exact I|reflexivity]. Qed.
Lemma getGVar_data g : 0 <= curDim g -> lastDim g -> gIsTok cEQ g <> None ->
  ac (getGVar g) (fun g' => exists ss body w i ls,
    outp (ge g') = outp (ge g) ++ strOut (clab (ge g)) ss ++ body ++ [ANam (ntGetSize (gnt g) - 1); w] /\
    typed (curType g) (Z.to_nat (curDim g)) i /\ reaches (outp (ge g')) w i ls /\ Permutation ls (outDefs body) /\ NoDup ls).
Proof.
  intros CD LD EQ. unfold getGVar. cbv zeta. set (ci := ntGetSize (gnt g) - 1).
  eapply ac_bind with (P := fun g' => exists ss body w i ls,
    outp (ge g') = outp (ge g) ++ strOut (clab (ge g)) ss ++ body ++ [ANam ci; w] /\
    typed (curType g) (Z.to_nat (curDim g)) i /\ reaches (outp (ge g')) w i ls /\ Permutation ls (outDefs body) /\ NoDup ls);
    [|intros g1 H; eapply ac_bind; [apply ac_skip|]; intros _ _; exact H].
  destruct (gIsTok cEQ g) as [g1|] eqn:K; [|destruct (EQ eq_refl)].
  apply reads_isTok in K. pose proof (proj1 K) as K1. destruct (reads_type _ _ K) as (T1 & D1 & N1).
  set (g2 := wNt g1 (ntSetScope (gnt g1) ci ScGVAR)).
  assert (dimAt (gnt g2) ci = curDim g) as DD. { cbn [g2 wNt gnt]. rewrite dimAt_setScope, N1. exact (lastDim_at _ LD). }
  assert (curType g2 = curType g) as T2 by exact T1. assert (curDim g2 = curDim g) as D2 by exact D1.
  eapply ac_bind with (P := tpost (one (typed (curType g) (Z.to_nat (curDim g)))) g2).
  { rewrite D2, T2. destruct (Z.ltb_spec 0 (curDim g)) as [D|D].
    - unfold getGArrayInit. replace (curDim g) with (Z.of_nat (S (Z.to_nat (curDim g - 1)))) at 1 by lia.
      eapply ac_mono; [apply (ty_getGArrayInitF _ _ _ _ T2)|]. intros r. apply tpost_mono. replace (S (Z.to_nat (curDim g - 1))) with (Z.to_nat (curDim g)) by lia. auto.
    - assert (curDim g = 0) as -> by lia. change (Z.to_nat 0) with O. destruct (_ || _) eqn:B.
      + eapply ac_mono; [apply ty_getCnst|]. intros r. apply tpost_mono. intros l (i & -> & S). exists i. split; [reflexivity|]. apply T_scalar; [|exact S].
        apply orb_true_iff in B. rewrite orb_true_iff, !Z.eqb_eq in B. destruct B as [[->| ->]| ->]; reflexivity.
      + destruct (Z.leb_spec (curType g) 0) as [T0|]; [|exact I]. apply (ty_getStructInit _ _ T2 T0). }
  intros [d g3] [R3 (i & EI & TI)]. cbn [fst snd] in *. destruct (reads_type _ _ R3) as (_ & _ & N3).
  destruct (genData ci (dimAt (gnt g3) ci) d (clab (ge g3))) as [[code l]|] eqn:GD; [|exact I].
  rewrite N3, DD in GD. destruct (typed_levels _ _ _ TI) as [LV PO].
  destruct (genData_reaches _ _ _ _ _ _ _ CD EI LV PO GD) as (body & w & ls & EC & FC & RC & PC & NC & _).
  assert (exists ss, outp (ge g3) = outp (ge g) ++ strOut (clab (ge g)) ss) as (ss & ES).
  { pose proof (strs_trans _ _ _ (proj2 K) (proj2 R3 : strs (ge g1) (ge g3))) as (_ & ss & _ & E). exists ss. exact E. }
  assert (outDefs body = outDefs code) as OD.
  { rewrite EC, outDefs_app. pose proof (reaches_nomark _ _ _ _ RC) as NM. destruct RC; cbn [outDefs flat_map asmDefs app]; rewrite app_nil_r; reflexivity. }
  assert (exists ss body w i ls, outp (ge g3) ++ code = outp (ge g) ++ strOut (clab (ge g)) ss ++ body ++ [ANam ci; w] /\
    typed (curType g) (Z.to_nat (curDim g)) i /\ reaches (outp (ge g3) ++ code) w i ls /\ Permutation ls (outDefs body) /\ NoDup ls) as FIN.
  { exists ss, body, w, i, ls. split; [rewrite ES, EC, <- app_assoc; reflexivity|]. split; [exact TI|]. split; [apply reaches_l; exact RC|]. split; [rewrite OD; exact PC|exact NC]. }
  destruct (0 <=? _); [|exact FIN]. destruct (negb _); [exact I|]. exact FIN.
Qed.
