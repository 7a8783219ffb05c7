(* The in-place edits of a path (environ.cmm:156-202) and what they do to its parts. *)
From Coq Require Import ZArith Bool Lia List.
From Verif Require Import LibEnviron EnvironSpec EnvironProofs.
Import ListNotations.
Open Scope Z_scope.

Definition cstr (s : str) : Prop := Forall (fun c => c <> 0) s.
Lemma strAt_mid s t : cstr s -> strAt (s ++ 0 :: t) = s.
Proof. induction 1 as [|c s N _ IH]; cbn [app strAt]; [reflexivity|]. rewrite (proj2 (Z.eqb_neq c 0) N). now rewrite IH. Qed.

(* reading the string t with its final zero, which begins at index i *)
Lemma get_in (a t : list Z) tl i j : i = Z.of_nat (length a) -> (j <= length t)%nat -> get (a ++ t ++ 0 :: tl) (i + Z.of_nat j) = Ok (nth j t 0).
Proof.
  intros -> L. unfold get. rewrite (proj2 (Z.ltb_ge _ _)) by lia. replace (Z.to_nat (Z.of_nat (length a) + Z.of_nat j)) with (length a + j)%nat by lia. rewrite nth_error_app2 by lia. replace (length a + j - length a)%nat with j by lia.
  destruct (Nat.eq_dec j (length t)) as [->|N].
  - rewrite nth_error_app2, Nat.sub_diag by lia. cbn. now rewrite nth_overflow by lia.
  - rewrite nth_error_app1 by lia. rewrite (nth_error_nth' t 0) by lia. reflexivity.
Qed.
(* copying the character c at the read index to the write index *)
Lemma copy (o g : list Z) c r : exists g' pre, set (o ++ g ++ c :: r) (Z.of_nat (length o)) c = Ok (((o ++ [c]) ++ g') ++ r) /\
  (o ++ [c]) ++ g' = pre ++ [c] /\ length pre = (length o + length g)%nat /\ length g' = length g.
Proof.
  destruct g as [|x g].
  - exists [], o. cbn [app]. rewrite (set_mid o c r c _ eq_refl), <- !app_assoc. cbn. auto.
  - exists (g ++ [c]), (o ++ c :: g). cbn [app]. rewrite (set_mid o x (g ++ c :: r) c _ eq_refl). rewrite <- !app_assoc. cbn [app]. rewrite !app_length. cbn [length]. repeat split; lia.
Qed.
Lemma setEnd (o g t tl : list Z) : exists tl', set (o ++ g ++ 0 :: tl) (Z.of_nat (length o)) 0 = Ok (o ++ 0 :: tl') /\ length (o ++ 0 :: tl') = length (o ++ g ++ 0 :: tl).
Proof.
  destruct g as [|x g]; cbn [app].
  - exists tl. now rewrite (set_mid o 0 tl 0 _ eq_refl).
  - exists (g ++ 0 :: tl). rewrite (set_mid o x (g ++ 0 :: tl) 0 _ eq_refl). rewrite !app_length. cbn [length]. split; [reflexivity|lia].
Qed.

Lemma get_two (o g : list Z) c r : get (o ++ g ++ c :: r) (Z.of_nat (length o + length g)) = Ok c.
Proof. rewrite app_assoc. apply get_mid. now rewrite app_length. Qed.

(* ---- delDotDir ---- *)
Definition dotNext (t : str) : bool := match t with d :: t' => (d =? 46) && match t' with [] => true | e :: _ => e =? 47 end | [] => false end.
Fixpoint dotF (s : str) : str :=
  match s with
  | [] => []
  | c :: t => c :: match t with
                   | d :: t' => if (c =? 47) && dotNext t then dotF t' else dotF t
                   | [] => []
                   end
  end.
Lemma dotF_cons c t : dotF (c :: t) = c :: (if (c =? 47) && dotNext t then dotF (tl t) else dotF t).
Proof. destruct t as [|d t]; [cbn; now rewrite andb_false_r|reflexivity]. Qed.
Lemma delDot_spec n : forall rest o g tl k, (length rest <= n)%nat -> (length rest < k)%nat -> cstr rest ->
  exists tl', delDot k (o ++ g ++ rest ++ 0 :: tl) (Z.of_nat (length o)) (Z.of_nat (length o + length g)) = Ok (o ++ dotF rest ++ 0 :: tl') /\
  length (o ++ dotF rest ++ 0 :: tl') = length (o ++ g ++ rest ++ 0 :: tl).
Proof.
  induction n as [|n IH]; intros rest o g tl_ k Ln Lk C; (destruct k as [|k]; [lia|]).
  - destruct rest; [|cbn in Ln; lia]. cbn [delDot dotF app]. rewrite get_two. cbn [andThen]. change (0 =? 0) with true. cbn iota.
    apply (setEnd o g [] tl_).
  - destruct rest as [|c t].
    { cbn [delDot dotF app]. rewrite get_two. cbn [andThen]. change (0 =? 0) with true. cbn iota. apply (setEnd o g [] tl_). }
    inversion C as [|? ? Nc Ct]; subst. cbn [delDot app]. rewrite get_two. cbn [andThen]. rewrite (proj2 (Z.eqb_neq c 0) Nc).
    destruct (copy o g c (t ++ 0 :: tl_)) as (g' & pre & S & P & Lp & Lg). rewrite S. cbn [andThen]. rewrite P. rewrite <- (app_assoc pre [c]). cbn [app]. rewrite get_mid by (rewrite Lp; reflexivity). cbn [andThen].
    rewrite dotF_cons. set (q := pre ++ c :: t ++ 0 :: tl_). assert (Q : q = (pre ++ [c]) ++ t ++ 0 :: tl_) by (unfold q; now rewrite <- app_assoc).
    assert (G : forall j, (j <= length t)%nat -> get q (Z.of_nat (length o + length g) + 1 + Z.of_nat j) = Ok (nth j t 0)). { intros j Hj. rewrite Q. apply get_in; [rewrite app_length, Lp; cbn; lia|exact Hj]. }
    assert (Sk : (do! skip <- (if c =? 47 then do! c1 <- get q (Z.of_nat (length o + length g) + 1) in if c1 =? 46 then do! c2 <- get q (Z.of_nat (length o + length g) + 2) in if c2 =? 47 then Ok true else do! c2 <- get q (Z.of_nat (length o + length g) + 2) in Ok (c2 =? 0) else Ok false else Ok false) in Ok skip) = Ok ((c =? 47) && dotNext t)).
    { destruct (c =? 47); [|reflexivity]. cbn [andb]. specialize (G O ltac:(lia)) as G0. rewrite Z.add_0_r in G0. rewrite G0. cbn [andThen]. destruct t as [|d t]; [reflexivity|]. cbn [nth dotNext]. destruct (d =? 46); [|reflexivity]. cbn [andb].
      specialize (G 1%nat ltac:(cbn; lia)) as G1. replace (Z.of_nat (length o + length g) + 1 + Z.of_nat 1) with (Z.of_nat (length o + length g) + 2) in G1 by lia. rewrite G1. cbn [nth andThen]. destruct t as [|e t]; [reflexivity|]. cbn [nth]. destruct (e =? 47); [reflexivity|].
      inversion Ct as [|? ? _ Ct']; subst. inversion Ct' as [|? ? Ne _]; subst. now rewrite (proj2 (Z.eqb_neq e 0) Ne). }
    destruct (if c =? 47 then _ else _) as [sk|] eqn:Esk; [|discriminate]. cbn [andThen] in Sk |- *. injection Sk as ->.
    destruct ((c =? 47) && dotNext t) eqn:D.
    + destruct t as [|d t]; [rewrite andb_comm in D; discriminate|]. cbn [tl]. inversion Ct as [|? ? _ Ct']; subst. destruct (IH t (o ++ [c]) (g' ++ [d]) tl_ k) as (tl' & E & L); [cbn in Ln; lia|cbn in Lk; lia|exact Ct'|].
      rewrite !app_length in E. cbn [length] in E. replace q with ((o ++ [c]) ++ (g' ++ [d]) ++ t ++ 0 :: tl_) by (rewrite Q, <- P, <- !app_assoc; reflexivity).
      replace (Z.of_nat (length o) + 1) with (Z.of_nat (length o + 1)) by lia. replace (Z.of_nat (length o + length g) + 1 + 1) with (Z.of_nat (length o + 1 + (length g' + 1))) by lia. rewrite E.
      exists tl'. rewrite <- app_assoc in *. cbn [app] in *. split; [reflexivity|]. rewrite L. rewrite !app_length. cbn [length]. rewrite !app_length. cbn [length]. lia.
    + destruct (IH t (o ++ [c]) g' tl_ k) as (tl' & E & L); [cbn in Ln; lia|cbn in Lk; lia|exact Ct|].
      rewrite !app_length in E. cbn [length] in E. replace q with ((o ++ [c]) ++ g' ++ t ++ 0 :: tl_) by (rewrite Q, <- P, <- !app_assoc; reflexivity).
      replace (Z.of_nat (length o) + 1) with (Z.of_nat (length o + 1)) by lia. replace (Z.of_nat (length o + length g) + 1) with (Z.of_nat (length o + 1 + length g')) by lia. rewrite E.
      exists tl'. rewrite <- app_assoc in *. cbn [app] in *. split; [reflexivity|]. rewrite L. rewrite !app_length. cbn [length]. rewrite !app_length. cbn [length]. lia.
Qed.
Lemma delDotDir_spec s tl : cstr s -> exists tl', delDotDir (s ++ 0 :: tl) = Ok (dotF s ++ 0 :: tl') /\ length (dotF s ++ 0 :: tl') = length (s ++ 0 :: tl).
Proof. intros C. apply (delDot_spec (length s) s [] [] tl (length (s ++ 0 :: tl)) (le_n _)); [rewrite app_length; cbn; lia|exact C]. Qed.

(* ---- oneSlash ---- *)
Definition slNext (t : str) : bool := match t with d :: _ => d =? 47 | [] => false end.
Fixpoint oneF (s : str) : str := match s with [] => [] | c :: t => if (c =? 47) && slNext t then oneF t else c :: oneF t end.
(* the slashes skipped, and the rest *)
Fixpoint sk (s : str) : nat := match s with [] => O | c :: t => if (c =? 47) && slNext t then S (sk t) else O end.
Lemma sk_skip s : (sk s <= length s)%nat /\ oneF s = oneF (skipn (sk s) s) /\ (s <> [] -> exists c t, skipn (sk s) s = c :: t /\ oneF (c :: t) = c :: oneF t).
Proof.
  induction s as [|c s (A & B & C)]; cbn [sk oneF]; [split; [auto|split; [reflexivity|congruence]]|]. destruct ((c =? 47) && slNext s) eqn:E.
  - cbn [skipn length]. split; [lia|]. split; [exact B|]. intros _. apply C. destruct s; [rewrite andb_comm in E; discriminate|discriminate].
  - cbn [skipn]. split; [lia|]. split; [cbn [oneF]; rewrite E; reflexivity|]. intros _. exists c, s. split; [reflexivity|]. cbn [oneF]. now rewrite E.
Qed.
Lemma skipSl_spec s : forall a tl k, (length s < k)%nat -> s <> [] -> skipSl k (a ++ s ++ 0 :: tl) (Z.of_nat (length a)) = Ok (Z.of_nat (length a + sk s)).
Proof.
  induction s as [|c s IH]; intros a tl [|k] L N; try congruence; try (cbn in L; lia). cbn [skipSl sk app]. rewrite get_mid by reflexivity. cbn [andThen]. destruct (c =? 47); [|cbn; now rewrite Nat.add_0_r]. cbn [andb].
  replace (a ++ c :: s ++ 0 :: tl) with ((a ++ [c]) ++ s ++ 0 :: tl) by now rewrite <- app_assoc. pose proof (get_in (a ++ [c]) s tl (Z.of_nat (length a) + 1) 0) as G. rewrite Z.add_0_r in G. rewrite G; [|rewrite app_length; cbn; lia|lia]. cbn [andThen].
  destruct s as [|d s]; cbn [nth slNext]; [change (0 =? 47) with false; cbn; now rewrite Nat.add_0_r|]. destruct (d =? 47) eqn:D; [|cbn; now rewrite Nat.add_0_r].
  specialize (IH (a ++ [c]) tl k ltac:(cbn in L |- *; lia) ltac:(discriminate)). rewrite app_length in IH. replace (Z.of_nat (length a) + 1) with (Z.of_nat (length a + 1)) by lia. cbn [length] in IH. rewrite IH. f_equal. lia.
Qed.
Lemma oneSl_spec n : forall rest o g tl k, (length rest <= n)%nat -> (length rest < k)%nat -> cstr rest ->
  exists x, oneSl k (o ++ g ++ rest ++ 0 :: tl) (Z.of_nat (length o)) (Z.of_nat (length o + length g)) = Ok (o ++ oneF rest ++ x, Z.of_nat (length (o ++ oneF rest))) /\
  length (o ++ oneF rest ++ x) = length (o ++ g ++ rest ++ 0 :: tl) /\ x <> [].
Proof.
  induction n as [|n IH]; intros rest o g tl_ k Ln Lk C; (destruct k as [|k]; [lia|]).
  - destruct rest; [|cbn in Ln; lia]. cbn [oneSl oneF app]. rewrite get_two. cbn [andThen]. change (0 =? 0) with true. cbn iota.
    exists (g ++ 0 :: tl_). rewrite app_nil_r. split; [reflexivity|]. split; [reflexivity|]. destruct g; discriminate.
  - destruct rest as [|c t].
    { cbn [oneSl oneF app]. rewrite get_two. cbn [andThen]. change (0 =? 0) with true. cbn iota.
      exists (g ++ 0 :: tl_). rewrite app_nil_r. split; [reflexivity|]. split; [reflexivity|]. destruct g; discriminate. }
    cbn [oneSl]. set (rest := c :: t) in *. set (p := o ++ g ++ rest ++ 0 :: tl_). assert (P0 : p = (o ++ g) ++ rest ++ 0 :: tl_) by (unfold p; now rewrite <- app_assoc).
    assert (G : get p (Z.of_nat (length o + length g)) = Ok c) by (rewrite P0; apply get_mid; rewrite app_length; reflexivity). rewrite G. cbn [andThen]. assert (Nc : c <> 0) by (inversion C; assumption). rewrite (proj2 (Z.eqb_neq c 0) Nc).
    pose proof (skipSl_spec rest (o ++ g) tl_ (length p)) as Sk. rewrite <- P0, app_length in Sk. rewrite Sk; [|rewrite P0, !app_length; cbn; lia|discriminate]. cbn [andThen].
    destruct (sk_skip rest) as (A & B & D). destruct (D ltac:(discriminate)) as (c' & t' & E & F). clear D. set (m := sk rest) in *. assert (R : rest = firstn m rest ++ c' :: t') by (rewrite <- E; symmetry; apply firstn_skipn).
    assert (Lm : length (firstn m rest) = m) by (rewrite firstn_length; lia). assert (P1 : p = o ++ (g ++ firstn m rest) ++ c' :: t' ++ 0 :: tl_) by (unfold p; rewrite R at 1; rewrite <- !app_assoc; reflexivity).
    assert (G2 : get p (Z.of_nat (length o + length g + m)) = Ok c') by (rewrite P1; replace (length o + length g + m)%nat with (length o + length (g ++ firstn m rest))%nat by (rewrite app_length, Lm; lia); apply get_two). rewrite G2. cbn [andThen].
    destruct (copy o (g ++ firstn m rest) c' (t' ++ 0 :: tl_)) as (g' & pre & S & _ & _ & Lg). rewrite <- P1 in S. rewrite S. cbn [andThen].
    destruct (IH t' (o ++ [c']) g' tl_ k) as (x & X & L & Nx). { apply (f_equal (@length Z)) in R. rewrite app_length in R. cbn [length] in R. lia. } { apply (f_equal (@length Z)) in R. rewrite app_length in R. cbn [length] in R. lia. } { unfold cstr in *. rewrite R in C. apply Forall_app in C. destruct C as [_ C]. inversion C. assumption. }
    rewrite <- (app_assoc (o ++ [c'])). rewrite !app_length in X. cbn [length] in X. rewrite app_length, Lm in Lg. replace (Z.of_nat (length o) + 1) with (Z.of_nat (length o + 1)) by lia. replace (Z.of_nat (length o + length g + m) + 1) with (Z.of_nat (length o + 1 + length g')) by lia. rewrite X.
    exists x. rewrite B, E, F. split; [|split; [|exact Nx]].
    + rewrite <- app_assoc. cbn [app]. do 2 f_equal. rewrite !app_length. cbn [length]. lia.
    + rewrite <- app_assoc in L. cbn [app] in L |- *. rewrite L. fold p. rewrite P1. rewrite !app_length. cbn [length]. rewrite !app_length. cbn [length]. rewrite Lm. lia.
Qed.
Definition strip (s : str) : str := if (1 <? Z.of_nat (length s)) && (last s 0 =? 47) then removelast s else s.
Lemma oneSlash_spec s tl : cstr s -> exists tl', oneSlash (s ++ 0 :: tl) = Ok (strip (oneF s) ++ 0 :: tl') /\ length (strip (oneF s) ++ 0 :: tl') = length (s ++ 0 :: tl).
Proof.
  intros C. destruct (oneSl_spec (length s) s [] [] tl (length (s ++ 0 :: tl)) (le_n _)) as (x & E & L & N); [rewrite app_length; cbn; lia|exact C|]. cbn [app length] in *. change (Z.of_nat 0) with 0 in E. cbn [Nat.add] in E. change (Z.of_nat 0) with 0 in E. unfold oneSlash. rewrite E. cbn [andThen].
  destruct x as [|x0 x]; [congruence|]. unfold strip. destruct (Z.ltb_spec 1 (Z.of_nat (length (oneF s)))) as [H|H]; cbn [andb].
  - assert (R : oneF s = removelast (oneF s) ++ [last (oneF s) 0]) by (apply app_removelast_last; intros X; rewrite X in H; cbn in H; lia). set (r := removelast (oneF s)) in *. set (z := last (oneF s) 0) in *.
    assert (Lr : length (oneF s) = S (length r)) by (rewrite R, app_length; cbn; lia).
    assert (P : oneF s ++ x0 :: x = r ++ z :: x0 :: x) by (rewrite R at 1; rewrite <- app_assoc; reflexivity).
    assert (G : get (oneF s ++ x0 :: x) (Z.of_nat (length (oneF s)) - 1) = Ok z) by (rewrite P; apply get_mid; lia). rewrite G. cbn [andThen]. destruct (z =? 47).
    + assert (T : set (oneF s ++ x0 :: x) (Z.of_nat (length (oneF s)) - 1) 0 = Ok (r ++ 0 :: x0 :: x)) by (rewrite P; apply set_mid; lia). rewrite T. exists (x0 :: x). split; [reflexivity|]. rewrite <- L, P, !app_length. reflexivity.
    + rewrite (set_mid (oneF s) x0 x 0 _ eq_refl). exists x. split; [reflexivity|]. rewrite <- L, !app_length. reflexivity.
  - cbn [andThen]. rewrite (set_mid (oneF s) x0 x 0 _ eq_refl). exists x. split; [reflexivity|]. rewrite <- L, !app_length. reflexivity.
Qed.

(* ---- delDotDotDir ---- *)
Fixpoint backN (l : nat) (o : str) : nat := match l with O => O | S l' => if nth l o 0 =? 47 then l else backN l' o end.
Definition backF (o : str) : str := match length o with O => [] | S l => firstn (backN l o) o end.
Definition ddNext (t : str) : bool := match t with a :: b :: t' => (a =? 46) && (b =? 46) && match t' with [] => true | e :: _ => e =? 47 end | _ => false end.
Fixpoint ddF (s o : str) : str :=
  match s with
  | [] => o
  | c :: t =>
      if (c =? 47) && ddNext t then match t with _ :: _ :: t' => ddF t' (backF o) | _ => o end
      else if (c =? 47) && match t with [] => true | _ => false end then o
      else ddF t (o ++ [c])
  end.
Lemma backN_le l o : (backN l o <= l)%nat.
Proof. induction l as [|l IH]; cbn [backN]; [lia|]. destruct (nth (S l) o 0 =? 47); lia. Qed.
Lemma back_spec l : forall k o r, (l < k)%nat -> (l < length o)%nat -> back k (o ++ r) (Z.of_nat l) = Ok (Z.of_nat (backN l o)).
Proof.
  induction l as [|l IH]; intros [|k] o r K L; try lia; cbn [back backN]; [reflexivity|]. rewrite (proj2 (Z.ltb_lt _ _)) by lia. unfold get. rewrite (proj2 (Z.ltb_ge _ _)) by lia. rewrite Nat2Z.id, nth_error_app1, (nth_error_nth' o 0) by lia. cbn [andThen].
  destruct (nth (S l) o 0 =? 47); [reflexivity|]. replace (Z.of_nat (S l) - 1) with (Z.of_nat l) by lia. apply IH; lia.
Qed.
Lemma backF_split o : exists g, o = backF o ++ g.
Proof. unfold backF. destruct (length o) eqn:E; [exists o; reflexivity|]. exists (skipn (backN n o) o). symmetry. apply firstn_skipn. Qed.
Lemma backF_len o : Z.of_nat (length (backF o)) = if 0 <? Z.of_nat (length o) then Z.of_nat (backN (length o - 1) o) else 0.
Proof. unfold backF. destruct (length o) as [|n] eqn:E; [reflexivity|]. rewrite (proj2 (Z.ltb_lt _ _)) by lia. replace (S n - 1)%nat with n by lia. rewrite firstn_length. pose proof (backN_le n o). lia. Qed.
Lemma delDD_spec n : forall rest o g tl k, (length rest <= n)%nat -> (length rest < k)%nat -> cstr rest ->
  exists tl', delDD k (o ++ g ++ rest ++ 0 :: tl) (Z.of_nat (length o)) (Z.of_nat (length o + length g)) = Ok (ddF rest o ++ 0 :: tl') /\
  length (ddF rest o ++ 0 :: tl') = length (o ++ g ++ rest ++ 0 :: tl).
Proof.
  induction n as [|n IH]; intros rest o g tl_ k Ln Lk C; (destruct k as [|k]; [lia|]).
  - destruct rest; [|cbn in Ln; lia]. cbn [delDD ddF app]. rewrite get_two. cbn [andThen]. change (0 =? 0) with true. cbn iota.
    apply (setEnd o g [] tl_).
  - destruct rest as [|c t].
    { cbn [delDD ddF app]. rewrite get_two. cbn [andThen]. change (0 =? 0) with true. cbn iota. apply (setEnd o g [] tl_). }
    assert (Nc : c <> 0) by (inversion C; assumption). assert (Ct : cstr t) by (inversion C; assumption). cbn [delDD ddF]. set (p := o ++ g ++ (c :: t) ++ 0 :: tl_). set (h := Z.of_nat (length o + length g)).
    assert (Q : p = ((o ++ g) ++ [c]) ++ t ++ 0 :: tl_) by (unfold p; rewrite <- !app_assoc; reflexivity).
    assert (G0 : get p h = Ok c) by (rewrite Q, <- app_assoc; apply get_mid; rewrite app_length; reflexivity). rewrite G0. cbn [andThen]. rewrite (proj2 (Z.eqb_neq c 0) Nc).
    assert (G : forall j, (j <= length t)%nat -> get p (h + 1 + Z.of_nat j) = Ok (nth j t 0)). { intros j Hj. rewrite Q. apply get_in; [unfold h; rewrite !app_length; cbn; lia|exact Hj]. }
    assert (G1 : get p (h + 1) = Ok (nth 0 t 0)) by (rewrite <- (Z.add_0_r (h + 1)); apply (G O); lia).
    match goal with |- context [andThen ?X _] => assert (Sk : X = Ok ((c =? 47) && ddNext t)) end.
    { destruct (c =? 47); [|reflexivity]. cbn [andb]. rewrite G1. cbn [andThen]. destruct t as [|d t]; [reflexivity|]. cbn [nth ddNext]. destruct (d =? 46); [|destruct t; reflexivity]. cbn [andb].
      specialize (G 1%nat ltac:(cbn; lia)) as G2. replace (h + 1 + Z.of_nat 1) with (h + 2) in G2 by lia. rewrite G2. cbn [nth andThen]. destruct t as [|e t]; [reflexivity|]. cbn [nth]. destruct (e =? 46); [|reflexivity]. cbn [andb].
      specialize (G 2%nat ltac:(cbn; lia)) as G3. replace (h + 1 + Z.of_nat 2) with (h + 3) in G3 by lia. rewrite G3. cbn [nth andThen]. destruct t as [|f t]; [reflexivity|]. cbn [nth]. destruct (f =? 47); [reflexivity|].
      assert (Nf : f <> 0) by (unfold cstr in Ct; rewrite Forall_forall in Ct; apply Ct; cbn; auto). now rewrite (proj2 (Z.eqb_neq f 0) Nf). }
    rewrite Sk. cbn [andThen]. destruct ((c =? 47) && ddNext t) eqn:D.
    + destruct t as [|a [|b t]]; try (rewrite andb_comm in D; discriminate). destruct (backF_split o) as [g2 Eo].
      assert (B : (if 0 <? Z.of_nat (length o) then back (length p) p (Z.of_nat (length o) - 1) else Ok (Z.of_nat (length o))) = Ok (Z.of_nat (length (backF o)))).
      { rewrite backF_len. destruct (Z.ltb_spec 0 (Z.of_nat (length o))) as [H|H]; [|f_equal; lia]. replace (Z.of_nat (length o) - 1) with (Z.of_nat (length o - 1)) by lia. unfold p at 2. apply back_spec; [|lia]. unfold p. rewrite app_length. lia. }
      rewrite B. cbn [andThen]. destruct (IH t (backF o) (g2 ++ g ++ [c; a; b]) tl_ k) as (tl' & E & L); [cbn in Ln; lia|cbn in Lk; lia|inversion Ct as [|? ? ? Ct2]; inversion Ct2; assumption|].
      assert (Ep : backF o ++ (g2 ++ g ++ [c; a; b]) ++ t ++ 0 :: tl_ = p). { unfold p. rewrite Eo at 2. rewrite <- !app_assoc. reflexivity. }
      rewrite Ep in E, L. replace (h + 2 + 1) with (Z.of_nat (length (backF o) + length (g2 ++ g ++ [c; a; b]))); [exists tl'; split; [exact E|exact L]|].
      apply (f_equal (@length Z)) in Eo. rewrite app_length in Eo. rewrite !app_length. cbn [length]. unfold h. lia.
    + destruct (c =? 47) eqn:E47; cbn [andb].
      * rewrite G1. cbn [andThen]. destruct t as [|a t].
        -- cbn [nth]. change (0 =? 0) with true. cbn iota. unfold p. cbn [app]. destruct (setEnd o (g ++ [c]) [] tl_) as (tl' & S & L). rewrite <- app_assoc in S, L. cbn [app] in S, L. exists tl'. split; [exact S|exact L].
        -- cbn [nth]. assert (Na : a <> 0) by (inversion Ct; assumption). rewrite (proj2 (Z.eqb_neq a 0) Na).
           destruct (copy o g c ((a :: t) ++ 0 :: tl_)) as (g' & pre & S & _ & _ & Lg). unfold p. cbn [app] in S |- *. rewrite S. cbn [andThen].
           destruct (IH (a :: t) (o ++ [c]) g' tl_ k) as (tl' & E & L); [cbn in Ln |- *; lia|cbn in Lk |- *; lia|exact Ct|].
           rewrite <- (app_assoc (o ++ [c])). rewrite !app_length in E. cbn [length app] in E. replace (Z.of_nat (length o) + 1) with (Z.of_nat (length o + 1)) by lia. replace (h + 1) with (Z.of_nat (length o + 1 + length g')) by (unfold h; lia). rewrite E.
           exists tl'. split; [reflexivity|]. rewrite L. rewrite !app_length. cbn [length]. rewrite !app_length. cbn [length]. lia.
      * cbn [andThen]. destruct (copy o g c (t ++ 0 :: tl_)) as (g' & pre & S & _ & _ & Lg). unfold p. cbn [app] in S |- *. rewrite S. cbn [andThen].
        destruct (IH t (o ++ [c]) g' tl_ k) as (tl' & E & L); [cbn in Ln; lia|cbn in Lk; lia|exact Ct|].
        rewrite <- (app_assoc (o ++ [c])). rewrite !app_length in E. cbn [length app] in E. replace (Z.of_nat (length o) + 1) with (Z.of_nat (length o + 1)) by lia. replace (h + 1) with (Z.of_nat (length o + 1 + length g')) by (unfold h; lia). rewrite E.
        exists tl'. split; [reflexivity|]. rewrite L. rewrite !app_length. cbn [length]. rewrite !app_length. cbn [length]. lia.
Qed.
Lemma delDotDotDir_spec s tl : cstr s -> exists tl', delDotDotDir (s ++ 0 :: tl) = Ok (ddF s [] ++ 0 :: tl') /\ length (ddF s [] ++ 0 :: tl') = length (s ++ 0 :: tl).
Proof. intros C. apply (delDD_spec (length s) s [] [] tl (length (s ++ 0 :: tl)) (le_n _)); [rewrite app_length; cbn; lia|exact C]. Qed.

(* ---- the parts of a path ---- *)
Definition noSl (p : str) : Prop := ~ In 47 p.
Lemma parts_noSl s : Forall noSl (parts s) /\ parts s <> [].
Proof.
  induction s as [|c s [IH N]]; cbn [parts]; [split; [repeat constructor; intros []|discriminate]|]. destruct (Z.eqb_spec c 47) as [->|Nc]; [split; [constructor; [intros []|exact IH]|discriminate]|].
  destruct (parts s) as [|p ps]; [congruence|]. split; [|discriminate]. inversion IH; subst. constructor; [intros [X|X]; [congruence|contradiction]|assumption].
Qed.
Lemma slashed_parts s : slashed (parts s) = 47 :: s.
Proof.
  induction s as [|c s IH]; cbn [parts]; [reflexivity|]. destruct (Z.eqb_spec c 47) as [->|Nc]; [unfold slashed in *; cbn [flat_map]; rewrite IH; reflexivity|].
  destruct (parts_noSl s) as [_ N]. destruct (parts s) as [|p ps]; [congruence|]. unfold slashed in *. cbn [flat_map app] in *. congruence.
Qed.
Definition undot (p : str) : str := if eqStr p [46] then [] else p.
Lemma slashed_hd ps : ps = [] \/ exists t, slashed ps = 47 :: t.
Proof. destruct ps; [auto|right; eexists; reflexivity]. Qed.
Lemma dotF_plain p r : noSl p -> dotF (p ++ r) = p ++ dotF r.
Proof. induction p as [|c p IH]; intros N; [reflexivity|]. cbn [app]. rewrite dotF_cons. rewrite (proj2 (Z.eqb_neq c 47)) by (intros ->; apply N; left; reflexivity). cbn [andb]. rewrite IH; [reflexivity|]. intros X. apply N. right. exact X. Qed.
Lemma dotF_slashed ps : Forall noSl ps -> dotF (slashed ps) = slashed (map undot ps).
Proof.
  induction 1 as [|p ps N _ IH]; [reflexivity|]. unfold slashed in *. cbn [flat_map map app]. rewrite dotF_cons. change (47 =? 47) with true. cbn [andb].
  assert (E : dotNext (p ++ flat_map (fun p => 47 :: p) ps) = eqStr p [46]).
  { destruct (eqStr_spec p [46]) as [->|X].
    - cbn. destruct ps; reflexivity.
    - destruct p as [|c p]; [cbn [app]; destruct ps; reflexivity|]. cbn [app dotNext]. destruct (Z.eqb_spec c 46) as [->|]; [|reflexivity]. destruct p as [|d p]; [congruence|]. cbn [app andb]. apply Z.eqb_neq. intros ->. apply N. right. left. reflexivity. }
  rewrite E. unfold undot at 1. destruct (eqStr_spec p [46]) as [->|X]; [cbn [app tl]; now rewrite IH|]. now rewrite dotF_plain, IH.
Qed.
Definition full (p : str) : bool := negb (eqStr p []).
Lemma full_spec p : full p = true <-> p <> [].
Proof. unfold full. rewrite negb_true_iff. destruct (eqStr_spec p []); split; congruence. Qed.
Lemma oneF_plain p r : noSl p -> oneF (p ++ r) = p ++ oneF r.
Proof. induction p as [|c p IH]; intros N; [reflexivity|]. cbn [app oneF]. rewrite (proj2 (Z.eqb_neq c 47)) by (intros ->; apply N; left; reflexivity). cbn [andb]. rewrite IH; [reflexivity|]. intros X. apply N. right. exact X. Qed.
Lemma oneF_slashed ps : Forall noSl ps -> ps <> [] -> oneF (slashed ps) = slashed (filter full ps) ++ (if full (last ps []) then [] else [47]).
Proof.
  induction 1 as [|p ps N Ns IH]; [congruence|]. intros _. unfold slashed in *. cbn [flat_map filter app]. destruct (eqStr_spec p []) as [->|X].
  - change (full []) with false. cbn [app]. destruct ps as [|q ps]; [reflexivity|]. specialize (IH ltac:(discriminate)). rewrite <- IH at 1. reflexivity.
  - rewrite (proj2 (full_spec p) X). cbn [flat_map]. assert (S0 : oneF (47 :: p ++ flat_map (fun p => 47 :: p) ps) = 47 :: p ++ oneF (flat_map (fun p => 47 :: p) ps)).
    { change (oneF (47 :: p ++ flat_map (fun p => 47 :: p) ps)) with (if (47 =? 47) && slNext (p ++ flat_map (fun p => 47 :: p) ps) then oneF (p ++ flat_map (fun p => 47 :: p) ps) else 47 :: oneF (p ++ flat_map (fun p => 47 :: p) ps)).
      destruct p as [|c p]; [congruence|]. cbn [app slNext]. rewrite (proj2 (Z.eqb_neq c 47)) by (intros ->; apply N; left; reflexivity). rewrite andb_false_r. change (c :: p ++ flat_map (fun p => 47 :: p) ps) with ((c :: p) ++ flat_map (fun p => 47 :: p) ps). now rewrite oneF_plain. }
    cbn [app]. rewrite S0. destruct ps as [|q ps].
    + cbn [flat_map oneF filter last app]. rewrite (proj2 (full_spec p) X). now rewrite !app_nil_r.
    + rewrite (IH ltac:(discriminate)). cbn [last]. rewrite app_assoc. reflexivity.
Qed.
Lemma last_plain (qs : list str) q : Forall noSl (qs ++ [q]) -> q <> [] -> last (slashed (qs ++ [q])) 0 <> 47.
Proof.
  intros N X. unfold slashed. rewrite flat_map_app. cbn [flat_map]. rewrite app_nil_r. apply Forall_app in N. destruct N as [_ N]. inversion N as [|? ? Nq _]; subst. rewrite (app_removelast_last 0 X). change (47 :: removelast q ++ [last q 0]) with ((47 :: removelast q) ++ [last q 0]). rewrite app_assoc, last_last.
  intros E. apply Nq. rewrite (app_removelast_last 0 X), E. apply in_or_app. right. left. reflexivity.
Qed.
Lemma strip_oneF ps : Forall noSl ps -> ps <> [] -> strip (oneF (slashed ps)) = plain (filter full ps).
Proof.
  intros N X. rewrite oneF_slashed by assumption. assert (Nf : Forall noSl (filter full ps)) by (apply Forall_forall; intros q Hq; apply filter_In in Hq; rewrite Forall_forall in N; apply N; tauto).
  assert (Ff : Forall (fun q => q <> []) (filter full ps)) by (apply Forall_forall; intros q Hq; apply filter_In in Hq; apply full_spec; tauto).
  destruct (exists_last X) as (ps' & p & E). destruct (full (last ps [])) eqn:F.
  - rewrite app_nil_r. rewrite E, last_last in F. rewrite E, filter_app in *. cbn [filter] in *. rewrite F in *. unfold strip, plain. rewrite (proj2 (Z.eqb_neq (last (slashed (filter full ps' ++ [p])) 0) 47)) by (apply last_plain; [exact Nf|apply full_spec; exact F]). rewrite andb_false_r. destruct (filter full ps'); reflexivity.
  - unfold strip. rewrite last_last. change (47 =? 47) with true. rewrite andb_true_r, app_length. cbn [length]. destruct (filter full ps) as [|q qs] eqn:Q; [reflexivity|]. rewrite (proj2 (Z.ltb_lt _ _)) by (unfold slashed; cbn [flat_map app length]; lia). now rewrite removelast_last.
Qed.
Lemma nth_app_len (a : str) c b d : nth (length a) (a ++ c :: b) d = c.
Proof. rewrite app_nth2, Nat.sub_diag by lia. reflexivity. Qed.
Lemma backN_spec a (q : str) : noSl q -> (a = [] \/ True) -> forall l, (length a <= l <= length a + length q)%nat -> backN l (a ++ 47 :: q) = length a.
Proof.
  intros N _. induction l as [|l IH]; intros L; cbn [backN]; [lia|]. destruct (Nat.eq_dec (S l) (length a)) as [E|E].
  - rewrite E, nth_app_len. change (47 =? 47) with true. reflexivity.
  - rewrite app_nth2 by lia. replace (S l - length a)%nat with (S (l - length a)) by lia. cbn [nth]. assert (X : nth (l - length a) q 0 =? 47 = false). { apply Z.eqb_neq. intros X. apply N. rewrite <- X. apply nth_In. lia. } rewrite X. apply IH. lia.
Qed.
Lemma backF_slashed here : Forall noSl here -> backF (slashed (rev here)) = slashed (rev (tl here)).
Proof.
  intros N. destruct here as [|q here]; [reflexivity|]. cbn [rev tl]. inversion N; subst. unfold slashed. rewrite flat_map_app. cbn [flat_map]. rewrite app_nil_r. set (a := flat_map (fun p => 47 :: p) (rev here)). unfold backF. rewrite app_length. cbn [length]. rewrite Nat.add_succ_r. rewrite backN_spec by (auto; lia).
  rewrite firstn_app, Nat.sub_diag, firstn_all. cbn. apply app_nil_r.
Qed.
Definition proper (q : str) : Prop := noSl q /\ q <> [] /\ q <> [46].
Lemma ddF_plain p : noSl p -> forall r o, ddF (p ++ r) o = ddF r (o ++ p).
Proof.
  induction p as [|c p IH]; intros N r o; [now rewrite app_nil_r|]. cbn [app ddF]. rewrite (proj2 (Z.eqb_neq c 47)) by (intros ->; apply N; left; reflexivity). cbn [andb]. rewrite IH by (intros X; apply N; right; exact X). now rewrite <- app_assoc.
Qed.
Lemma ddF_slashed qs : Forall proper qs -> forall here, Forall noSl here -> ddF (slashed qs) (slashed (rev here)) = slashed (walk qs here).
Proof.
  induction 1 as [|q qs (N & X & Y) _ IH]; intros here Nh; [reflexivity|]. unfold slashed at 1. cbn [flat_map app walk]. fold (slashed qs).
  assert (E0 : eqStr q [] || eqStr q [46] = false) by (destruct (eqStr_spec q []), (eqStr_spec q [46]); congruence || reflexivity). rewrite E0.
  assert (E : ddNext (q ++ slashed qs) = eqStr q [46; 46]).
  { destruct (eqStr_spec q [46; 46]) as [->|Z].
    - cbn. destruct qs; reflexivity.
    - destruct q as [|c [|d q]]; [congruence|cbn [app]; destruct qs; [reflexivity|cbn; now rewrite andb_false_r]|]. cbn [app ddNext]. destruct (Z.eqb_spec c 46) as [->|]; [|reflexivity]. destruct (Z.eqb_spec d 46) as [->|]; [|reflexivity]. destruct q as [|e q]; [congruence|]. cbn [app andb]. apply Z.eqb_neq. intros ->. apply N. right. right. left. reflexivity. }
  cbn [ddF]. change (47 =? 47) with true. cbn [andb]. rewrite E. destruct (eqStr_spec q [46; 46]) as [->|Z].
  - cbn [app]. rewrite backF_slashed by exact Nh. apply IH. destruct here; [constructor|inversion Nh; assumption].
  - destruct (q ++ slashed qs) as [|c0 r0] eqn:Eq; [destruct q; [congruence|discriminate]|]. rewrite <- Eq. rewrite ddF_plain by exact N. replace ((slashed (rev here) ++ [47]) ++ q) with (slashed (rev (q :: here))); [apply IH; constructor; assumption|].
    unfold slashed. cbn [rev]. rewrite flat_map_app. cbn [flat_map]. rewrite app_nil_r, <- app_assoc. reflexivity.
Qed.
Lemma walk_filter ps : forall here, walk (filter full (map undot ps)) here = walk ps here.
Proof.
  induction ps as [|p ps IH]; intros here; [reflexivity|]. cbn [map filter walk]. destruct (eqStr_spec p [46]) as [->|X].
  - change (full (undot [46])) with false. change (eqStr [46] []) with false. cbn [orb]. apply IH.
  - assert (U : undot p = p) by (unfold undot; destruct (eqStr_spec p [46]); congruence). rewrite U. destruct (eqStr_spec p []) as [->|Y]; [change (full []) with false; cbn [orb]; apply IH|].
    rewrite (proj2 (full_spec p) Y). cbn [walk orb]. destruct (eqStr_spec p []); [congruence|]. destruct (eqStr_spec p [46]); [congruence|]. cbn [orb]. destruct (eqStr p [46; 46]); apply IH.
Qed.
Definition steps (s : bytes) : list bytes := filter full (map undot (parts s)).
Lemma steps_proper s : Forall proper (steps s).
Proof.
  unfold steps. destruct (parts_noSl s) as [N _]. apply Forall_forall. intros q Hq. apply filter_In in Hq. destruct Hq as [Hq F]. apply full_spec in F. apply in_map_iff in Hq. destruct Hq as (p & E & I). rewrite Forall_forall in N. specialize (N p I). unfold undot in E. destruct (eqStr_spec p [46]); [congruence|]. subst q. split; auto.
Qed.
(* the three edits together, on an absolute path *)
Lemma clean_spec t : strip (oneF (dotF (47 :: t))) = plain (steps t).
Proof.
  rewrite <- slashed_parts. destruct (parts_noSl t) as [N X]. rewrite dotF_slashed by exact N. unfold steps. apply strip_oneF; [|destruct (parts t); [congruence|discriminate]].
  apply Forall_forall. intros q Hq. apply in_map_iff in Hq. destruct Hq as (p & <- & I). rewrite Forall_forall in N. unfold undot. destruct (eqStr p [46]); [intros []|auto].
Qed.
Lemma ddF_clean t : ddF (plain (steps t)) [] = slashed (walk (parts t) []).
Proof.
  rewrite <- (walk_filter (parts t) []). fold (steps t). unfold plain. pose proof (steps_proper t) as P. destruct (steps t) as [|q qs] eqn:E; [reflexivity|]. apply (ddF_slashed (q :: qs) P []). constructor.
Qed.

(* ---- absPath ---- *)
Lemma incl_dotF n : forall s, (length s <= n)%nat -> incl (dotF s) s.
Proof.
  induction n as [|n IH]; intros s L x X; (destruct s as [|c t]; [exact X|]); cbn [length] in L; [lia|]. rewrite dotF_cons in X. destruct X as [X|X]; [left; exact X|]. right. destruct ((c =? 47) && dotNext t).
  - destruct t as [|d t]; [exact X|]. right. cbn [tl] in X. cbn [length] in L. exact (IH t ltac:(lia) x X).
  - exact (IH t ltac:(lia) x X).
Qed.
Lemma incl_oneF s : incl (oneF s) s.
Proof. induction s as [|c t IH]; intros x X; [exact X|]. cbn [oneF] in X. destruct ((c =? 47) && slNext t); [right; exact (IH x X)|]. destruct X as [X|X]; [left; exact X|right; exact (IH x X)]. Qed.
Lemma incl_strip s : incl (strip s) s.
Proof. unfold strip. destruct (_ && _); [|apply incl_refl]. intros x X. destruct s as [|c s]; [exact X|]. rewrite (app_removelast_last (l := c :: s) 0) by discriminate. apply in_or_app. left. exact X. Qed.
Lemma incl_backF o : incl (backF o) o.
Proof. destruct (backF_split o) as [g E]. intros x X. rewrite E. apply in_or_app. left. exact X. Qed.
Lemma incl_ddF n : forall s o, (length s <= n)%nat -> forall x, In x (ddF s o) -> In x s \/ In x o.
Proof.
  induction n as [|n IH]; intros s o L x X; (destruct s as [|c t]; [right; exact X|]); cbn [length] in L; [lia|]. cbn [ddF] in X. destruct ((c =? 47) && ddNext t).
  - destruct t as [|a [|b t]]; auto. cbn [length] in L. destruct (IH t (backF o) ltac:(lia) x X) as [Y|Y]; [left; right; right; right; exact Y|right; exact (incl_backF o x Y)].
  - destruct ((c =? 47) && _); [auto|]. destruct (IH t (o ++ [c]) ltac:(lia) x X) as [Y|Y]; [left; right; exact Y|]. apply in_app_or in Y. destruct Y as [Y|[Y|[]]]; [right; exact Y|left; left; exact Y].
Qed.
Lemma cstr_incl a b : incl a b -> cstr b -> cstr a.
Proof. unfold cstr. rewrite !Forall_forall. auto. Qed.

Lemma store_ok s : forall a b, (length s < length b)%nat -> exists b', store (a ++ b) (Z.of_nat (length a)) s = Ok (a ++ s ++ 0 :: b') /\ length (a ++ s ++ 0 :: b') = length (a ++ b).
Proof.
  induction s as [|c s IH]; intros a b L; (destruct b as [|x b]; [cbn in L; lia|]); cbn [store].
  - rewrite (set_mid a x b 0 _ eq_refl). exists b. cbn [app]. rewrite !app_length. auto.
  - rewrite (set_mid a x b c _ eq_refl). cbn [andThen]. destruct (IH (a ++ [c]) b) as (b' & E & L'); [cbn in L; lia|]. rewrite app_length in E. cbn [length] in E. rewrite <- app_assoc in E, L'. cbn [app] in E, L'.
    replace (Z.of_nat (length a) + 1) with (Z.of_nat (length a + 1)) by lia. rewrite E. exists b'. rewrite <- app_assoc in *. cbn [app] in *. split; [reflexivity|]. rewrite L'. rewrite !app_length. reflexivity.
Qed.
Lemma rchr_plain q : noSl q -> forall i j, rchrFrom q 47 i j = j.
Proof. induction q as [|c q IH]; intros N i j; cbn [rchrFrom]; [reflexivity|]. rewrite (proj2 (Z.eqb_neq c 47)) by (intros ->; apply N; left; reflexivity). apply IH. intros X. apply N. right. exact X. Qed.
Lemma rchr_app a : forall q i j, noSl q -> rchrFrom (a ++ 47 :: q) 47 i j = i + Z.of_nat (length a).
Proof. induction a as [|c a IH]; intros q i j N; cbn [app rchrFrom length]; [change (47 =? 47) with true; cbn iota; rewrite rchr_plain by exact N; lia|]. rewrite IH by exact N. lia. Qed.
Lemma removelast_snoc {A} (l : list A) x : removelast (l ++ [x]) = l.
Proof. apply removelast_last. Qed.
(* the directory part *)
Lemma named_steps s : named s = steps s.
Proof.
  unfold named, steps. induction (parts s) as [|p ps IH]; [reflexivity|]. cbn [filter map]. unfold undot at 1. destruct (eqStr_spec p [46]) as [->|X]; [exact IH|]. cbn [filter]. rewrite orb_false_r. unfold full at 1. destruct (eqStr_spec p []) as [->|Y]; [exact IH|]. cbn [negb]. f_equal; [unfold undot; destruct (eqStr_spec p [46]); congruence|exact IH].
Qed.
Lemma split_plain s : exists a q, plain (steps s) = a ++ 47 :: q /\ noSl q /\ a ++ [47] = dirOf s.
Proof.
  unfold dirOf. rewrite named_steps. pose proof (steps_proper s) as P. destruct (steps s) as [|x l] eqn:E; [exists [], []; repeat split; intros []|]. rewrite <- E in *.
  destruct (exists_last (l := steps s)) as (qs & q & Eq); [rewrite E; discriminate|]. rewrite Eq in *. rewrite removelast_snoc. exists (slashed qs), q. apply Forall_app in P. destruct P as [_ P]. inversion P as [|? ? (N & _) _]; subst. split; [|split; [exact N|reflexivity]].
  unfold plain. destruct (qs ++ [q]) eqn:X; [destruct qs; discriminate|]. rewrite <- X. unfold slashed. rewrite flat_map_app. cbn [flat_map]. now rewrite app_nil_r.
Qed.
Lemma steps_abs t : steps (47 :: t) = steps t.
Proof. reflexivity. Qed.

Lemma absPath_spec stat e l path buf siz : Inv e l -> siz = Z.of_nat (length buf) -> 2 <= siz -> cstr path -> cstr (wdOf (initial l)) -> isAbs (wdOf (initial l)) = true ->
  exists b at_,
    absPath stat e path buf siz = Ok (negb ((Z.of_nat (length (whole (initial l) path)) <? siz - 1) && isDir (stat (dirOf (whole (initial l) path)))), b, at_) /\
    length b = length buf /\
    ((Z.of_nat (length (whole (initial l) path)) <? siz - 1) && isDir (stat (dirOf (whole (initial l) path))) = true ->
      at_ = stat (dirOf (whole (initial l) path)) /\ strAt b = plain (placeOf (whole (initial l) path))).
Proof.
  intros I Hs H2 Cp Cw Aw. set (m := initial l) in *. unfold absPath. fold (isAbs path).
  assert (Rest : forall base tl, cstr base -> isAbs base = true -> length (base ++ 0 :: tl) = length buf -> whole m path = base ++ path -> exists b at_,
    (if siz - 1 <=? strLen (strAt (base ++ 0 :: tl)) + strLen path then Ok (true, base ++ 0 :: tl, None) else
      do! b <- store (base ++ 0 :: tl) (strLen (strAt (base ++ 0 :: tl))) path in
      do! b <- delDotDir b in
      do! b <- oneSlash b in
      let l := strRchr (strAt b) 47 + 1 in
      do! (fail, b, at_) <- (if 0 <? l then
                  do! c <- get b l in
                  do! b1 <- set b l 0 in
                  match stat (strAt b1) with
                  | None => Ok (true, b1, None)
                  | Some at_ =>
                      if Z.land at_ 16 =? 0 then Ok (true, b1, Some at_)
                      else do! b2 <- set b1 l c in Ok (false, b2, Some at_)
                  end
                else Ok (false, b, None)) in
      if fail : bool then Ok (true, b, at_) else
      do! b <- delDotDotDir b in
      do! c <- get b 0 in
      do! b <- (if c =? 0 then store b 0 [47] else Ok b) in
      Ok (false, b, at_)) = Ok (negb ((Z.of_nat (length (whole m path)) <? siz - 1) && isDir (stat (dirOf (whole m path)))), b, at_) /\
    length b = length buf /\
    ((Z.of_nat (length (whole m path)) <? siz - 1) && isDir (stat (dirOf (whole m path))) = true -> at_ = stat (dirOf (whole m path)) /\ strAt b = plain (placeOf (whole m path)))).
  { intros base tl_ Cb Ab Lb W. rewrite W. rewrite (strAt_mid base tl_ Cb). unfold strLen. rewrite app_length. destruct (Z.leb_spec (siz - 1) (Z.of_nat (length base) + Z.of_nat (length path))) as [H|H].
    - rewrite (proj2 (Z.ltb_ge _ _)) by lia. cbn [andb negb]. eexists. eexists. split; [reflexivity|]. split; [exact Lb|]. intros [=].
    - rewrite (proj2 (Z.ltb_lt _ _)) by lia. cbn [andb]. rewrite app_length in Lb. cbn [length] in Lb. destruct (store_ok path base (0 :: tl_)) as (b1 & E1 & L1); [cbn [length]; lia|]. rewrite E1. cbn [andThen]. rewrite (app_length base (0 :: tl_)) in L1. cbn [length] in L1.
      set (w := base ++ path) in *. assert (Cw' : cstr w) by (apply Forall_app; split; assumption). assert (Hw : exists t, w = 47 :: t). { unfold w. destruct base as [|c base]; [discriminate|]. cbn [isAbs] in Ab. apply Z.eqb_eq in Ab. subst c. eexists. reflexivity. } destruct Hw as (t & Hw).
      rewrite app_assoc. fold w. rewrite app_assoc in L1. fold w in L1. destruct (delDotDir_spec w b1 Cw') as (b2 & E2 & L2). rewrite E2. cbn [andThen].
      assert (C2 : cstr (dotF w)) by (apply (cstr_incl _ w); [apply (incl_dotF (length w)); lia|exact Cw']). destruct (oneSlash_spec (dotF w) b2 C2) as (b3 & E3 & L3). rewrite E3. cbn [andThen].
      set (s3 := strip (oneF (dotF w))) in *. assert (C3 : cstr s3) by (apply (cstr_incl _ (dotF w)); [intros x X; apply incl_oneF, incl_strip, X|exact C2]).
      assert (S3 : s3 = plain (steps w)) by (unfold s3; rewrite Hw, steps_abs; apply clean_spec). rewrite (strAt_mid s3 b3 C3).
      destruct (split_plain w) as (a & q & Sp & Nq & Da). rewrite <- S3 in Sp. assert (Rc : strRchr s3 47 = Z.of_nat (length a)) by (unfold strRchr; rewrite Sp; apply (rchr_app a q 0 (-1) Nq)). rewrite Rc. cbv zeta. rewrite (proj2 (Z.ltb_lt 0 _)) by lia.
      (* buf[l] is read, cut and restored *)
      assert (X : exists c r, q ++ 0 :: b3 = c :: r) by (destruct q; cbn; eauto). destruct X as (c & r & X). assert (P3 : s3 ++ 0 :: b3 = (a ++ [47]) ++ c :: r) by (rewrite Sp, <- !app_assoc; cbn [app]; rewrite X; reflexivity).
      assert (La : Z.of_nat (length a) + 1 = Z.of_nat (length (a ++ [47]))) by (rewrite app_length; cbn; lia). rewrite P3. rewrite (get_mid (a ++ [47]) c r _ La). cbn [andThen]. rewrite (set_mid (a ++ [47]) c r 0 _ La). cbn [andThen].
      assert (Cd : cstr (a ++ [47])) by (apply (cstr_incl _ s3); [rewrite Sp; intros x Hx; apply in_app_or in Hx; destruct Hx as [Hx|[<-|[]]]; apply in_or_app; [left; exact Hx|right; left; reflexivity]|exact C3]).
      rewrite (strAt_mid _ r Cd), Da. assert (Lr : length ((a ++ [47]) ++ 0 :: r) = length buf). { transitivity (length ((a ++ [47]) ++ c :: r)); [rewrite !app_length; reflexivity|]. rewrite <- P3, L3, L2, L1. lia. }
      destruct (stat (dirOf w)) as [at_|] eqn:St; cbn [isDir].
      + destruct (Z.land at_ 16 =? 0) eqn:Ld; cbn [negb].
        * cbn [andThen]. rewrite Da in Lr. eexists. eexists. split; [rewrite <- Da; reflexivity|]. split; [rewrite <- Da in Lr; exact Lr|intros [=]].
        * rewrite <- Da. rewrite (set_mid (a ++ [47]) 0 r c _ La). cbn [andThen]. rewrite <- P3. destruct (delDotDotDir_spec s3 b3 C3) as (b4 & E4 & L4). rewrite E4. cbn [andThen].
          assert (D4 : ddF s3 [] = slashed (placeOf w)) by (rewrite S3, Hw; rewrite steps_abs; apply ddF_clean). rewrite D4 in *. assert (C4 : cstr (slashed (placeOf w))). { rewrite <- D4. unfold cstr. apply Forall_forall. intros x Hx. destruct (incl_ddF (length s3) s3 [] (le_n _) x Hx) as [Y|[]]. unfold cstr in C3. rewrite Forall_forall in C3. exact (C3 x Y). }
          destruct (placeOf w) as [|p ps] eqn:Pw.
          -- cbn [slashed flat_map app] in *. cbn [get nth_error Z.to_nat Z.ltb Z.compare andThen]. change (0 =? 0) with true. cbn iota. destruct (store_ok [47] [] (0 :: b4)) as (b5 & E5 & L5); [cbn [length] in *; destruct b4; [exfalso; cbn [length] in L4; rewrite L3, L2, L1 in L4; lia|cbn; lia]|].
             cbn [app length] in E5, L5. change (Z.of_nat 0) with 0 in E5. rewrite E5. cbn [andThen]. eexists. eexists. split; [reflexivity|]. split; [cbn [length] in *; lia|]. intros _. split; [reflexivity|]. reflexivity.
          -- unfold slashed in *. cbn [flat_map app] in *. cbn [get nth_error Z.to_nat Z.ltb Z.compare andThen]. change (47 =? 0) with false. cbn iota. eexists. eexists. split; [reflexivity|]. cbn [length] in *. split; [lia|]. intros _. split; [reflexivity|].
             exact (strAt_mid (47 :: p ++ flat_map (fun p => 47 :: p) ps) b4 C4).
      + cbn [negb andThen]. eexists. eexists. split; [reflexivity|]. rewrite Da in Lr. split; [exact Lr|intros [=]]. }
  destruct (isAbs path) eqn:Ap.
  - destruct (store_ok [47] [] buf) as (b0 & E0 & L0); [cbn; lia|]. cbn [app length] in E0, L0. change (Z.of_nat 0) with 0 in E0. rewrite E0. cbn [andThen].
    apply (Rest [47] b0); [constructor; [discriminate|constructor]|reflexivity|exact L0|]. unfold whole. now rewrite Ap.
  - assert (Gw : getWd e = Ok (wdOf m)) by (unfold getWd; rewrite (get_spec e l _ I); reflexivity). rewrite Gw. cbn [andThen]. set (pwd := wdOf m) in *. assert (W : whole m path = (pwd ++ [47]) ++ path) by (unfold whole; now rewrite Ap). unfold strLen at 1. destruct (Z.leb_spec (siz - 2) (Z.of_nat (length pwd))) as [H|H].
    + cbn [andThen]. rewrite W, !app_length. cbn [length]. rewrite (proj2 (Z.ltb_ge _ _)) by lia. cbn [andb negb]. eexists. eexists. split; [reflexivity|]. split; [reflexivity|intros [=]].
    + destruct (store_ok pwd [] buf) as (b0 & E0 & L0); [lia|]. cbn [app length] in E0, L0. change (Z.of_nat 0) with 0 in E0. rewrite E0. cbn [andThen]. rewrite (strAt_mid pwd b0 Cw). unfold strLen at 1.
      destruct (store_ok [47] pwd (0 :: b0)) as (b1 & E1 & L1); [rewrite app_length in L0; cbn [length] in *; lia|]. rewrite E1. cbn [andThen]. rewrite app_assoc.
      apply (Rest (pwd ++ [47]) b1); [apply Forall_app; split; [exact Cw|constructor; [discriminate|constructor]]|destruct pwd; [discriminate|exact Aw]|rewrite <- app_assoc; cbn [app] in *; congruence|exact W].
Qed.
