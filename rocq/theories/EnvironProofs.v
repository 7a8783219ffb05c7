(* The environment array holds the variables: proofs for Properties_Environ.v *)
From Coq Require Import ZArith Bool Lia List.
From Verif Require Import LibEnviron EnvironSpec.
Import ListNotations.
Open Scope Z_scope.

Lemma eqStr_spec a b : reflect (a = b) (eqStr a b).
Proof. unfold eqStr. destruct (list_eq_dec Z.eq_dec a b); constructor; assumption. Qed.
Lemma eqStr_refl a : eqStr a a = true.
Proof. destruct (eqStr_spec a a); congruence. Qed.

(* ---- arrays ---- *)
Lemma get_mid {A} (a : list A) x b i : i = Z.of_nat (length a) -> get (a ++ x :: b) i = Ok x.
Proof. intros ->. unfold get. rewrite (proj2 (Z.ltb_ge _ _)) by lia. rewrite Nat2Z.id, nth_error_app2, Nat.sub_diag by lia. reflexivity. Qed.
Lemma upd_mid {A} (a : list A) x b v : upd (a ++ x :: b) (length a) v = a ++ v :: b.
Proof. induction a; cbn; congruence. Qed.
Lemma set_mid {A} (a : list A) x b v i : i = Z.of_nat (length a) -> set (a ++ x :: b) i v = Ok (a ++ v :: b).
Proof. intros ->. unfold set. rewrite (proj2 (Z.ltb_ge _ _)), (proj2 (Z.leb_gt _ _)) by (rewrite ?app_length; cbn; lia). cbn [orb]. now rewrite Nat2Z.id, upd_mid. Qed.
Lemma get_mid1 {A} (a : list A) y x b i : i = Z.of_nat (length a) + 1 -> get (a ++ y :: x :: b) i = Ok x.
Proof. intros ->. replace (a ++ y :: x :: b) with ((a ++ [y]) ++ x :: b) by now rewrite <- app_assoc. apply get_mid. rewrite app_length. cbn. lia. Qed.
Lemma set_mid1 {A} (a : list A) y x b v i : i = Z.of_nat (length a) + 1 -> set (a ++ y :: x :: b) i v = Ok (a ++ y :: v :: b).
Proof. intros ->. replace (a ++ y :: x :: b) with ((a ++ [y]) ++ x :: b) by now rewrite <- app_assoc. rewrite (set_mid (a ++ [y]) x b v). - now rewrite <- app_assoc. - rewrite app_length. cbn. lia. Qed.
Lemma copyTo_ok l : forall a b, (length l < length b)%nat -> exists b', copyTo l (Z.of_nat (length a)) (a ++ b) = Ok (a ++ map Some l ++ None :: b') /\ length b' = (length b - length l - 1)%nat.
Proof.
  induction l as [|s l IH]; intros a b L; (destruct b as [|x b]; [cbn in L; lia|]); cbn [copyTo map].
  - exists b. rewrite (set_mid a x b None _ eq_refl). split; [reflexivity|cbn; lia].
  - rewrite (set_mid a x b (Some s) _ eq_refl). cbn [andThen]. destruct (IH (a ++ [Some s]) b) as (b' & E & L'); [cbn in L; lia|].
    rewrite app_length in E. cbn [length] in E. rewrite <- app_assoc in E. cbn [app] in E. replace (Z.of_nat (length a) + 1) with (Z.of_nat (length a + 1)) by lia. rewrite E, <- app_assoc. exists b'. split; [reflexivity|cbn; lia].
Qed.

(* ---- names ---- *)
Lemma chr_shift s : forall i, chrFrom s 61 i = if chrFrom s 61 0 <? 0 then -1 else i + chrFrom s 61 0.
Proof.
  induction s as [|c s IH]; intros i; cbn [chrFrom]; [reflexivity|]. destruct (c =? 61); [cbn; lia|].
  rewrite (IH (i + 1)), (IH (0 + 1)). destruct (chrFrom s 61 0 <? 0) eqn:E; [reflexivity|]. apply Z.ltb_ge in E. rewrite (proj2 (Z.ltb_ge _ _)) by lia. lia.
Qed.
Lemma chr_cut s : match cut s with Some (k, v) => strChr s 61 = Z.of_nat (length k) /\ s = k ++ 61 :: v /\ ~ In 61 k | None => strChr s 61 = -1 /\ ~ In 61 s end.
Proof.
  unfold strChr. induction s as [|c s IH]; cbn [cut chrFrom]; [split; [reflexivity|intros []]|]. destruct (Z.eqb_spec c 61) as [->|N]; [split; [reflexivity|split; [reflexivity|intros []]]|].
  rewrite chr_shift. destruct (cut s) as [[k v]|].
  - destruct IH as (E & -> & I). rewrite E, (proj2 (Z.ltb_ge _ _)) by lia. cbn [length In app]. split; [lia|]. split; [reflexivity|]. intros [X|X]; auto.
  - destruct IH as (E & I). rewrite E. split; [reflexivity|]. intros [X|X]; auto.
Qed.
Lemma ncmp_spec n : forall a b, (n <= length a)%nat -> (n <= length b)%nat -> ncmp0 n a b = true <-> firstn n a = firstn n b.
Proof.
  induction n as [|n IH]; intros a b A B; cbn [ncmp0 firstn]; [tauto|]. destruct a as [|x a], b as [|y b]; cbn [length] in *; try lia. cbn [firstn]. rewrite andb_true_iff, Z.eqb_eq, IH by lia.
  split; [intros [-> ->]; reflexivity|intros [= -> ->]; auto].
Qed.
Lemma ncmp_short n : forall a b, (n <= length b)%nat -> ncmp0 n a b = true -> firstn n a = firstn n b \/ (length a < n)%nat /\ (length b < n)%nat.
Proof.
  induction n as [|n IH]; intros a b B; cbn [ncmp0 firstn]; [auto|]. destruct a as [|x a], b as [|y b]; cbn [length] in *; try lia; try discriminate. intros H. apply andb_true_iff in H. destruct H as [E H]. apply Z.eqb_eq in E. subst y.
  destruct (IH a b ltac:(lia) H) as [->|]; [auto|right; lia].
Qed.
Definition hit (name : str) (len : Z) (s : str) : bool := (len =? strChr s 61) && ncmp0 (Z.to_nat len) s name.
Definition key (k : str) (s : str) : bool := match cut s with Some (k', _) => eqStr k k' | None => false end.
Lemma hit_key name len s : 0 <= len <= strLen name -> ~ In 61 (firstn (Z.to_nat len) name) -> hit name len s = key (firstn (Z.to_nat len) name) s.
Proof.
  unfold hit, key, strLen. intros L N. pose proof (chr_cut s) as C. destruct (cut s) as [[k v]|].
  - destruct C as (E & -> & I). rewrite E. destruct (Z.eqb_spec len (Z.of_nat (length k))) as [->|X]; cbn [andb].
    + rewrite Nat2Z.id. apply eq_true_iff_eq. rewrite ncmp_spec by (rewrite ?app_length; cbn; lia). rewrite firstn_app, Nat.sub_diag, firstn_all. cbn [firstn]. rewrite app_nil_r.
      destruct (eqStr_spec (firstn (length k) name) k) as [->|F]; [tauto|]. split; [congruence|discriminate].
    + destruct (eqStr_spec (firstn (Z.to_nat len) name) k) as [F|F]; [|reflexivity]. exfalso. apply X. apply (f_equal (@length Z)) in F. rewrite firstn_length in F. lia.
  - destruct C as (E & _). rewrite E. replace (len =? -1) with false by (symmetry; apply Z.eqb_neq; lia). reflexivity.
Qed.
(* a name that contains = names nothing *)
Lemma hit_eq name s : In 61 name -> hit name (strLen name) s = false.
Proof.
  unfold hit, strLen. intros I. apply not_true_is_false. intros H. apply andb_true_iff in H. destruct H as [E H]. apply Z.eqb_eq in E. rewrite Nat2Z.id in H. pose proof (chr_cut s) as C. destruct (cut s) as [[k v]|]; [|lia].
  destruct C as (E' & -> & N). assert (L : length name = length k) by lia. apply ncmp_spec in H; [|rewrite app_length; lia|lia].
  rewrite firstn_all, L, firstn_app, Nat.sub_diag, firstn_all in H. cbn in H. rewrite app_nil_r in H. subst name. contradiction.
Qed.
Lemma key_eq name s : In 61 name -> key name s = false.
Proof. unfold key. intros I. pose proof (chr_cut s) as C. destruct (cut s) as [[k v]|]; [|reflexivity]. destruct C as (_ & _ & N). destruct (eqStr_spec name k); [subst; contradiction|reflexivity]. Qed.

(* ---- the array and the list of entries in it ---- *)
Definition Inv (e : env) (l : list str) : Prop := exists junk, arr e = map Some l ++ None :: junk /\ cap e = Z.of_nat (length (arr e)).
Fixpoint before (f : str -> bool) (l : list str) : list str := match l with [] => [] | s :: l => if f s then [] else s :: before f l end.
Lemma before_spec f l : (before f l = l /\ forallb (fun s => negb (f s)) l = true) \/ exists s r, l = before f l ++ s :: r /\ f s = true /\ forallb (fun s => negb (f s)) (before f l) = true.
Proof.
  induction l as [|s l IH]; cbn [before]; [left; auto|]. destruct (f s) eqn:F; [right; exists s, l; auto|]. cbn [forallb]. rewrite F. cbn.
  destruct IH as [[-> A]|(s' & r & E & A & B)]; [left; auto|right; exists s', r; split; [congruence|auto]].
Qed.
Lemma idx_spec name len l : forall a junk k, (length l < k)%nat ->
  idxFrom k (map Some a ++ map Some l ++ None :: junk) name len (Z.of_nat (length a)) = Ok (Z.of_nat (length a + length (before (hit name len) l))).
Proof.
  induction l as [|s l IH]; intros a junk [|k] K; cbn [length] in *; try lia; cbn [map app before idxFrom].
  - rewrite get_mid by now rewrite map_length. cbn [andThen length]. now rewrite Nat.add_0_r.
  - rewrite get_mid by now rewrite map_length. cbn [andThen]. fold (hit name len s). destruct (hit name len s); [cbn; now rewrite Nat.add_0_r|].
    specialize (IH (a ++ [s]) junk k ltac:(lia)). rewrite map_app, <- app_assoc, app_length in IH. cbn [map app length] in *. replace (Z.of_nat (length a) + 1) with (Z.of_nat (length a + 1)) by lia. rewrite IH. f_equal. lia.
Qed.
Lemma index_spec e l name len : Inv e l -> envIndex e name len = Ok (Z.of_nat (length (before (hit name len) l))).
Proof. intros (junk & E & _). unfold envIndex. rewrite E. apply (idx_spec name len l [] junk). rewrite app_length, map_length. cbn. lia. Qed.

Lemma before_ext f g l : (forall s, f s = g s) -> before f l = before g l.
Proof. intros E. induction l; cbn; [reflexivity|]. now rewrite E, IHl. Qed.
Lemma initial_before k l : ~ In 61 k -> initial l k = match find (key k) l with Some s => Some (skipn (S (length k)) s) | None => None end.
Proof.
  intros N. induction l as [|s l IH]; cbn [initial find]; [reflexivity|]. unfold key at 1. pose proof (chr_cut s) as C. destruct (cut s) as [[k' v]|]; [|exact IH].
  destruct C as (_ & -> & _). destruct (eqStr_spec k k') as [->|]; [|exact IH]. f_equal. rewrite skipn_app, skipn_all2 by lia. replace (S (length k') - length k')%nat with 1%nat by lia. reflexivity.
Qed.
Lemma initial_eq k l : In 61 k -> initial l k = None.
Proof. intros I. induction l as [|s l IH]; cbn [initial]; [reflexivity|]. pose proof (chr_cut s) as C. destruct (cut s) as [[k' v]|]; [|exact IH]. destruct C as (_ & _ & N). destruct (eqStr_spec k k'); [subst; contradiction|exact IH]. Qed.
Lemma find_split f (l : list str) : match find f l with Some s => exists a b, l = a ++ s :: b /\ before f l = a /\ f s = true | None => before f l = l end.
Proof.
  induction l as [|s l IH]; cbn [find before]; [reflexivity|]. destruct (f s) eqn:F; [exists [], l; auto|]. destruct (find f l); [destruct IH as (a & b & -> & E & X); exists (s :: a), b; rewrite E; auto|now rewrite IH].
Qed.
Lemma before_none (f : str -> bool) l : (forall s, f s = false) -> before f l = l.
Proof. intros E. induction l; cbn; [reflexivity|]. now rewrite E, IHl. Qed.
Lemma in_dec61 (k : str) : {In 61 k} + {~ In 61 k}.
Proof. apply in_dec. apply Z.eq_dec. Qed.
Lemma strLen_full (k : str) : firstn (Z.to_nat (strLen k)) k = k.
Proof. unfold strLen. now rewrite Nat2Z.id, firstn_all. Qed.

Lemma get_spec e l k : Inv e l -> getEnv e k = Ok (initial l k).
Proof.
  intros I. unfold getEnv. rewrite (index_spec e l k _ I). cbn [andThen]. destruct I as (junk & E & _). rewrite E. destruct (in_dec61 k) as [Y|N].
  - rewrite before_none by (intros s; apply hit_eq; exact Y). rewrite get_mid by now rewrite map_length. cbn [andThen]. now rewrite initial_eq.
  - rewrite (before_ext _ (key k)) by (intros s; rewrite hit_key; rewrite ?strLen_full; [reflexivity|unfold strLen; lia|exact N]).
    rewrite (initial_before k l N). pose proof (find_split (key k) l) as F. destruct (find (key k) l) as [s|].
    + destruct F as (a & b & -> & -> & _). rewrite map_app, <- app_assoc. cbn [map app]. rewrite get_mid by now rewrite map_length. cbn [andThen]. do 3 f_equal. unfold strLen. lia.
    + rewrite F, get_mid by now rewrite map_length. reflexivity.
Qed.

Section S.
Variable raw : Z -> list (option str).
Hypothesis rawLen : forall n, 0 <= n -> Z.of_nat (length (raw n)) = n.

Lemma init_Inv envp : exists e, environInit raw envp = Ok e /\ Inv e envp.
Proof.
  unfold environInit. set (n := Z.of_nat (length envp) + 1). pose proof (rawLen n ltac:(lia)) as L. destruct (copyTo_ok envp [] (raw n)) as (b & E & B); [lia|]. cbn [app length] in E. change (Z.of_nat 0) with 0 in E. rewrite E. cbn [andThen].
  eexists. split; [reflexivity|]. exists b. cbn [arr cap]. split; [reflexivity|]. rewrite app_length, map_length. cbn [length]. lia.
Qed.
Lemma upTo_spec l : forall a junk k acc, (length l < k)%nat -> upTo k (map Some a ++ map Some l ++ None :: junk) (Z.of_nat (length a)) acc = Ok (acc ++ l).
Proof.
  induction l as [|s l IH]; intros a junk [|k] acc K; cbn [length] in *; try lia; cbn [map app upTo].
  - rewrite get_mid by now rewrite map_length. cbn [andThen]. now rewrite app_nil_r.
  - rewrite get_mid by now rewrite map_length. cbn [andThen].
    specialize (IH (a ++ [s]) junk k (acc ++ [s]) ltac:(lia)). rewrite map_app, <- !app_assoc, app_length in IH. cbn [map app length] in *. replace (Z.of_nat (length a) + 1) with (Z.of_nat (length a + 1)) by lia. exact IH.
Qed.

(* the list after a variable was set *)
Definition setList (l : list str) (k v : str) : list str :=
  match find (key k) l with
  | Some s => before (key k) l ++ (k ++ 61 :: v) :: skipn (S (length (before (key k) l))) l
  | None => l ++ [k ++ 61 :: v]
  end.
Lemma setN_spec e l name len v ow : Inv e l -> 0 < len <= strLen name -> ~ In 61 (firstn (Z.to_nat len) name) ->
  exists e', setNEnv raw e name len v ow = Ok (false, e') /\ Inv e' (setList l (firstn (Z.to_nat len) name) v).
Proof.
  intros I L N. set (k := firstn (Z.to_nat len) name) in *. unfold setNEnv. rewrite (proj2 (Z.leb_gt _ _)) by lia. rewrite (index_spec e l name len I). cbn [andThen].
  rewrite (before_ext _ (key k)) by (intros s; apply hit_key; [lia|exact N]). unfold setList, makeEnvStr. fold k. pose proof (find_split (key k) l) as F.
  destruct I as (junk & E & C). rewrite E. destruct (find (key k) l) as [s|].
  - destruct F as (a & b & -> & -> & _). rewrite map_app, <- app_assoc in *. cbn [map app] in *. rewrite get_mid by now rewrite map_length. cbn [andThen]. rewrite E, set_mid by now rewrite map_length. cbn [andThen].
    eexists. split; [reflexivity|]. exists junk. cbn [arr cap]. replace (skipn (S (length a)) (a ++ s :: b)) with b by (rewrite skipn_app, skipn_all2 by lia; replace (S (length a) - length a)%nat with 1%nat by lia; reflexivity).
    rewrite map_app, <- app_assoc. split; [reflexivity|]. rewrite C, E, !app_length. reflexivity.
  - rewrite F, get_mid by now rewrite map_length. cbn [andThen]. set (i := Z.of_nat (length l)).
    assert (X : exists e1 x j1, (if cap e <? i + 2 then reallocEnv raw e (i + 2) else Ok e) = Ok e1 /\ arr e1 = map Some l ++ None :: x :: j1 /\ cap e1 = Z.of_nat (length (arr e1))).
    { destruct (Z.ltb_spec (cap e) (i + 2)).
      - unfold reallocEnv. rewrite E. pose proof (upTo_spec l [] junk (length (map Some l ++ None :: junk)) []) as U. cbn [map app length] in U. change (Z.of_nat 0) with 0 in U. rewrite U by (rewrite app_length, map_length; cbn; lia). cbn [andThen].
        pose proof (rawLen (i + 2) ltac:(lia)) as R. destruct (copyTo_ok l [] (raw (i + 2))) as (b & B & Lb); [lia|]. cbn [app length] in B. change (Z.of_nat 0) with 0 in B. rewrite B. cbn [andThen].
        destruct b as [|x [|y b]]; cbn [length] in Lb; [lia| |lia]. eexists. exists x, []. split; [reflexivity|]. cbn [arr cap]. split; [reflexivity|]. rewrite app_length, map_length. cbn [length]. lia.
      - rewrite C, E, app_length, map_length in H. destruct junk as [|x junk]; [cbn [length] in H; lia|]. exists e, x, junk. auto. }
    destruct X as (e1 & x & j1 & -> & E1 & C1). cbn [andThen]. rewrite E1.
    rewrite set_mid1 by now rewrite map_length. cbn [andThen arr cap]. rewrite set_mid by now rewrite map_length. cbn [andThen]. eexists. split; [reflexivity|]. exists j1. cbn [arr cap]. rewrite map_app, <- app_assoc. split; [reflexivity|]. rewrite C1, E1, !app_length. reflexivity.
Qed.

(* removing an entry *)
Lemma shift_S k a i : shift (S k) a i = do! x <- get a i in match x with None => Ok a | Some _ => do! y <- get a (i + 1) in do! a <- set a i y in shift k a (i + 1) end.
Proof. reflexivity. Qed.
Lemma shift_spec l : forall a s junk k, (length l < k)%nat -> exists junk', shift (S k) (map Some a ++ map Some (s :: l) ++ None :: junk) (Z.of_nat (length a)) = Ok (map Some a ++ map Some l ++ None :: junk') /\ length junk' = S (length junk).
Proof.
  induction l as [|t l IH]; intros a s junk k K; (destruct k as [|k]; [cbn in K; lia|]); rewrite shift_S; cbn [map app].
  - rewrite get_mid by now rewrite map_length. cbn [andThen]. rewrite get_mid1 by now rewrite map_length. cbn [andThen]. rewrite set_mid by now rewrite map_length. cbn [andThen]. rewrite shift_S.
    rewrite get_mid1 by now rewrite map_length. cbn [andThen]. exists (None :: junk). auto.
  - rewrite get_mid by now rewrite map_length. cbn [andThen]. rewrite get_mid1 by now rewrite map_length. cbn [andThen]. rewrite set_mid by now rewrite map_length. cbn [andThen].
    destruct (IH (a ++ [t]) t junk k) as (j & E & J); [cbn in K; lia|].
    rewrite map_app, app_length, <- !app_assoc in E. cbn [map app length] in E. replace (Z.of_nat (length a) + 1) with (Z.of_nat (length a + 1)) by lia. exists j. rewrite E. auto.
Qed.
Definition delList (l : list str) (k : str) : list str :=
  match find (key k) l with
  | Some _ => before (key k) l ++ skipn (S (length (before (key k) l))) l
  | None => l
  end.
Lemma unset_spec e l k : Inv e l -> exists e', unsetEnv e k = Ok (false, e') /\ Inv e' (delList l k).
Proof.
  intros I. unfold unsetEnv. rewrite (index_spec e l k _ I). cbn [andThen].
  assert (B : before (hit k (strLen k)) l = before (key k) l). { destruct (in_dec61 k) as [Y|N]; [rewrite !before_none by (intros s; first [apply hit_eq|apply key_eq]; exact Y); reflexivity|]. apply before_ext. intros s. rewrite hit_key; rewrite ?strLen_full; [reflexivity|unfold strLen; lia|exact N]. }
  rewrite B. pose proof (find_split (key k) l) as F. unfold delList. destruct I as (junk & E & C). rewrite E. destruct (find (key k) l) as [s|].
  - destruct F as (a & b & -> & -> & _). rewrite map_app, <- app_assoc. cbn [map app]. rewrite get_mid by now rewrite map_length. cbn [andThen].
    rewrite map_app, <- app_assoc in E. set (n := length (map Some a ++ Some s :: map Some b ++ None :: junk)). assert (Hn : exists k, n = S k /\ (length b < k)%nat). { unfold n. rewrite app_length, map_length. cbn [length]. rewrite app_length, map_length. cbn [length]. exists (length a + (length b + S (length junk)))%nat. lia. }
    destruct Hn as (k' & -> & K). destruct (shift_spec b a s junk k' K) as (j & Sh & J). cbn [map app] in Sh. rewrite Sh. cbn [andThen]. eexists. split; [reflexivity|]. exists j.
    replace (skipn (S (length a)) (a ++ s :: b)) with b by (rewrite skipn_app, skipn_all2 by lia; replace (S (length a) - length a)%nat with 1%nat by lia; reflexivity).
    cbn [arr cap]. rewrite map_app, <- app_assoc. split; [reflexivity|]. rewrite C, E. cbn [map app]. repeat (rewrite app_length; cbn [length]). lia.
  - rewrite F, get_mid by now rewrite map_length. cbn [andThen]. eexists. split; [reflexivity|]. exists junk. auto.
Qed.
End S.

(* ---- the lists as maps ---- *)
Lemma cut_made k v : ~ In 61 k -> cut (k ++ 61 :: v) = Some (k, v).
Proof. induction k as [|c k IH]; intros N; cbn [app cut]; [reflexivity|]. rewrite (proj2 (Z.eqb_neq c 61)) by (intros ->; apply N; left; reflexivity). rewrite IH by (intros X; apply N; right; exact X). reflexivity. Qed.
Lemma initial_app a b k : initial (a ++ b) k = match initial a k with Some v => Some v | None => initial b k end.
Proof. induction a as [|s a IH]; cbn [app initial]; [reflexivity|]. destruct (cut s) as [[k' v]|]; [|exact IH]. destruct (eqStr k k'); [reflexivity|exact IH]. Qed.
Lemma initial_none l k : ~ In k (namesOf l) -> initial l k = None.
Proof.
  unfold namesOf. induction l as [|s l IH]; cbn [initial flat_map]; [reflexivity|]. rewrite in_app_iff. intros N. destruct (cut s) as [[k' v]|]; [|apply IH; tauto]. destruct (eqStr_spec k k'); [subst; exfalso; apply N; left; left; reflexivity|apply IH; tauto].
Qed.
Lemma key_cut k s : key k s = true -> exists v, cut s = Some (k, v).
Proof. unfold key. destruct (cut s) as [[k' v]|]; [|discriminate]. destruct (eqStr_spec k k'); [subst; eauto|discriminate]. Qed.
Lemma namesOf_app a b : namesOf (a ++ b) = namesOf a ++ namesOf b.
Proof. unfold namesOf. now rewrite flat_map_app. Qed.
Lemma before_names k l a : before (key k) l = a -> ~ In k (namesOf a).
Proof.
  intros <-. unfold namesOf. induction l as [|s l IH]; cbn [before flat_map]; [intros []|]. destruct (key k s) eqn:E; [intros []|]. cbn [flat_map]. rewrite in_app_iff. intros [X|X]; [|exact (IH X)]. unfold key in E. destruct (cut s) as [[k' v]|]; [|destruct X]. destruct X as [->|[]]. rewrite eqStr_refl in E. discriminate.
Qed.
Lemma set_names l k v : ~ In 61 k -> NoDup (namesOf l) -> NoDup (namesOf (setList l k v)).
Proof.
  intros N D. unfold setList. pose proof (find_split (key k) l) as F. assert (One : namesOf [k ++ 61 :: v] = [k]) by (unfold namesOf; cbn [flat_map]; rewrite cut_made by exact N; reflexivity). destruct (find (key k) l) as [s|].
  - destruct F as (a & b & -> & B & K). rewrite B. replace (skipn (S (length a)) (a ++ s :: b)) with b by (rewrite skipn_app, skipn_all2 by lia; replace (S (length a) - length a)%nat with 1%nat by lia; reflexivity).
    destruct (key_cut _ _ K) as (v' & Cs). change (s :: b) with ([s] ++ b) in D. change ((k ++ 61 :: v) :: b) with ([k ++ 61 :: v] ++ b). rewrite !namesOf_app in *. rewrite One. replace (namesOf [s]) with [k] in D; [exact D|]. unfold namesOf. cbn [flat_map]. rewrite Cs. reflexivity.
  - pose proof (before_names k l l F) as Nk. rewrite namesOf_app, One. clear -Nk D. induction (namesOf l) as [|x n IH]; cbn [app]; [constructor; [intros []|constructor]|]. inversion D; subst. constructor; [|apply IH; [exact H2|intros X; apply Nk; right; exact X]]. rewrite in_app_iff. intros [X|[X|[]]]; [contradiction|]. subst. apply Nk. left. reflexivity.
Qed.
Lemma set_map l k v : ~ In 61 k -> forall k', initial (setList l k v) k' = with_ (initial l) k (Some v) k'.
Proof.
  intros N k'. unfold setList, with_. pose proof (find_split (key k) l) as F. destruct (find (key k) l) as [s|].
  - destruct F as (a & b & -> & B & K). rewrite B. replace (skipn (S (length a)) (a ++ s :: b)) with b by (rewrite skipn_app, skipn_all2 by lia; replace (S (length a) - length a)%nat with 1%nat by lia; reflexivity).
    rewrite !initial_app. cbn [initial]. rewrite cut_made by exact N. destruct (key_cut _ _ K) as (v' & ->). destruct (eqStr_spec k' k) as [->|]; [|reflexivity]. rewrite initial_none by exact (before_names k _ a B). reflexivity.
  - rewrite initial_app. cbn [initial]. rewrite cut_made by exact N. destruct (eqStr_spec k' k) as [->|].
    + now rewrite initial_none by exact (before_names k _ _ F).
    + destruct (initial l k'); reflexivity.
Qed.
Lemma del_names l k : NoDup (namesOf l) -> NoDup (namesOf (delList l k)).
Proof.
  intros D. unfold delList. pose proof (find_split (key k) l) as F. destruct (find (key k) l) as [s|]; [|exact D].
  destruct F as (a & b & -> & B & K). rewrite B. replace (skipn (S (length a)) (a ++ s :: b)) with b by (rewrite skipn_app, skipn_all2 by lia; replace (S (length a) - length a)%nat with 1%nat by lia; reflexivity).
  destruct (key_cut _ _ K) as (v' & Cs). change (s :: b) with ([s] ++ b) in D. rewrite !namesOf_app in *. replace (namesOf [s]) with [k] in D by (unfold namesOf; cbn [flat_map]; rewrite Cs; reflexivity). apply NoDup_remove_1 in D. exact D.
Qed.
Lemma del_map l k : NoDup (namesOf l) -> forall k', initial (delList l k) k' = with_ (initial l) k None k'.
Proof.
  intros D k'. unfold delList, with_. pose proof (find_split (key k) l) as F. destruct (find (key k) l) as [s|].
  - destruct F as (a & b & -> & B & K). rewrite B. replace (skipn (S (length a)) (a ++ s :: b)) with b by (rewrite skipn_app, skipn_all2 by lia; replace (S (length a) - length a)%nat with 1%nat by lia; reflexivity).
    destruct (key_cut _ _ K) as (v' & Cs). change (s :: b) with ([s] ++ b) in D. rewrite !namesOf_app in D. replace (namesOf [s]) with [k] in D by (unfold namesOf; cbn [flat_map]; rewrite Cs; reflexivity). apply NoDup_remove_2 in D.
    rewrite in_app_iff in D. rewrite !initial_app. cbn [initial]. rewrite Cs. destruct (eqStr_spec k' k) as [->|]; [|reflexivity]. rewrite !initial_none by tauto. reflexivity.
  - destruct (eqStr_spec k' k) as [->|]; [|reflexivity]. apply initial_none. exact (before_names k l l F).
Qed.

(* ---- histories ---- *)
Definition step (raw : Z -> list (option str)) (c : call) (e : env) : out (answer * env) :=
  match c with
  | Put s => do! (b, e) <- putEnv raw e s in Ok (Failed b, e)
  | Set_ k v ow => do! (b, e) <- setEnv raw e k v ow in Ok (Failed b, e)
  | Unset k => do! (b, e) <- unsetEnv e k in Ok (Failed b, e)
  | Get k => do! v <- getEnv e k in Ok (Value v, e)
  end.
Fixpoint run (raw : Z -> list (option str)) (cs : list call) (e : env) : out (list answer * env) :=
  match cs with
  | [] => Ok ([], e)
  | c :: cs => do! (a, e) <- step raw c e in do! (r, e) <- run raw cs e in Ok (a :: r, e)
  end.
Lemma existsb_in k : existsb (fun c => c =? 61) k = true <-> In 61 k.
Proof. rewrite existsb_exists. split; [intros (x & I & E); apply Z.eqb_eq in E; subst; exact I|intros I; exists 61; auto]. Qed.
Lemma valid_spec k : validName k = true <-> k <> [] /\ ~ In 61 k.
Proof.
  unfold validName. rewrite andb_true_iff, !negb_true_iff. pose proof (existsb_in k) as X. destruct (eqStr_spec k []) as [->|N]; [split; [intros [Y _]; discriminate|intros [Y _]; congruence]|].
  destruct (existsb (fun c => c =? 61) k); split; intros [A B]; split; auto; try discriminate; [exfalso; apply B; apply X; reflexivity|intros I; apply X in I; discriminate].
Qed.
Lemma with_ext m m' k v : (forall k, m k = m' k) -> forall k', with_ m k v k' = with_ m' k v k'.
Proof. intros E k'. unfold with_. destruct (eqStr k' k); auto. Qed.

Lemma step_spec raw : (forall n, 0 <= n -> Z.of_nat (length (raw n)) = n) -> forall c e l m, Inv e l -> NoDup (namesOf l) -> (forall k, initial l k = m k) ->
  match c with Set_ k _ false => m k = None | _ => True end ->
  exists e' l', step raw c e = Ok (fst (spec c m), e') /\ Inv e' l' /\ NoDup (namesOf l') /\ forall k, initial l' k = snd (spec c m) k.
Proof.
  intros R c e l m I D M O. destruct c as [s|k v ow|k|k]; cbn [step spec].
  - unfold putEnv. pose proof (chr_cut s) as C. destruct (cut s) as [[k v]|].
    + destruct C as (E & -> & N). rewrite E. destruct (validName k) eqn:V; cbn [fst snd].
      * apply valid_spec in V. assert (F : firstn (Z.to_nat (Z.of_nat (length k))) (k ++ 61 :: v) = k) by (rewrite Nat2Z.id, firstn_app, Nat.sub_diag, firstn_all; cbn; apply app_nil_r).
        assert (Sk : skipn (Z.to_nat (Z.of_nat (length k) + 1)) (k ++ 61 :: v) = v) by (rewrite skipn_app, skipn_all2 by lia; replace (Z.to_nat (Z.of_nat (length k) + 1) - length k)%nat with 1%nat by lia; reflexivity). rewrite Sk.
        destruct (setN_spec raw R e l (k ++ 61 :: v) (Z.of_nat (length k)) v true I) as (e' & St & I'). { unfold strLen. rewrite app_length. cbn [length]. destruct k; [destruct V; congruence|]. cbn [length]. lia. } { rewrite F. exact N. }
        rewrite St. cbn [andThen]. rewrite F in I'. exists e', (setList l k v). split; [reflexivity|]. split; [exact I'|]. split; [exact (set_names l k v N D)|]. intros k'. rewrite (set_map l k v N k'). apply with_ext. exact M.
      * unfold setNEnv. destruct k as [|c k]; [|exfalso; apply not_true_iff_false in V; apply V, valid_spec; split; [discriminate|exact N]]. cbn [length Z.of_nat Z.leb Z.compare andThen]. exists e, l. auto.
    + destruct C as (E & N). rewrite E. unfold setNEnv. cbn [Z.leb Z.compare andThen fst snd]. exists e, l. auto.
  - unfold setEnv. pose proof (chr_cut k) as C. destruct (validName k) eqn:V; cbn [fst snd].
    + apply valid_spec in V. destruct V as [V N]. destruct (cut k) as [[k1 v1]|]; [exfalso; apply N; destruct C as (_ & -> & _); apply in_elt|]. destruct C as (E & _). rewrite E. cbn [Z.leb Z.compare].
      destruct (setN_spec raw R e l k (strLen k) v ow I) as (e' & St & I'). { unfold strLen. destruct k; [congruence|]. cbn [length]. lia. } { now rewrite strLen_full. }
      rewrite St. cbn [andThen]. rewrite strLen_full in I'. exists e', (setList l k v). split; [reflexivity|]. split; [exact I'|]. split; [exact (set_names l k v N D)|]. intros k'. rewrite (set_map l k v N k'). rewrite (with_ext _ m k (Some v) M).
      destruct (m k) eqn:Mk; [|reflexivity]. destruct ow; [reflexivity|congruence].
    + exists e, l. destruct (cut k) as [[k1 v1]|].
      * destruct C as (E & _ & _). rewrite E. rewrite (proj2 (Z.leb_le _ _)) by lia. cbn [andThen]. auto.
      * destruct C as (E & N). rewrite E. cbn [Z.leb Z.compare]. destruct k as [|c k]; [|exfalso; apply not_true_iff_false in V; apply V, valid_spec; split; [discriminate|exact N]]. unfold setNEnv. cbn [strLen length Z.of_nat Z.leb Z.compare andThen]. auto.
  - destruct (unset_spec e l k I) as (e' & U & I'). rewrite U. cbn [andThen fst snd]. exists e', (delList l k). split; [reflexivity|]. split; [exact I'|]. split; [exact (del_names l k D)|]. intros k'. rewrite (del_map l k D k'). apply with_ext. exact M.
  - rewrite (get_spec e l k I). cbn [andThen fst snd]. exists e, l. rewrite M. auto.
Qed.
Lemma run_spec raw : (forall n, 0 <= n -> Z.of_nat (length (raw n)) = n) -> forall cs e l m, Inv e l -> NoDup (namesOf l) -> (forall k, initial l k = m k) -> overwrites cs m ->
  exists e', run raw cs e = Ok (specAll cs m, e').
Proof.
  intros R. induction cs as [|c cs IH]; intros e l m I D M O; cbn [run specAll]; [eauto|]. destruct O as [O1 O2]. destruct (step_spec raw R c e l m I D M O1) as (e' & l' & S & I' & D' & M'). rewrite S. cbn [andThen].
  destruct (spec c m) as [a m'] eqn:Sp. cbn [fst snd] in *. destruct (IH e' l' m' I' D' M' O2) as (e2 & ->). cbn [andThen]. eauto.
Qed.
(* without conditions: no access outside the array *)
Lemma step_inside raw : (forall n, 0 <= n -> Z.of_nat (length (raw n)) = n) -> forall c e l, Inv e l -> exists a e' l', step raw c e = Ok (a, e') /\ Inv e' l'.
Proof.
  intros R c e l I. destruct c as [s|k v ow|k|k]; cbn [step].
  - unfold putEnv. pose proof (chr_cut s) as C. destruct (cut s) as [[k v]|].
    + destruct C as (E & -> & N). rewrite E. destruct k as [|c k]; [unfold setNEnv; cbn [length Z.of_nat Z.leb Z.compare andThen]; eauto|].
      set (k0 := c :: k) in *. assert (F : firstn (Z.to_nat (Z.of_nat (length k0))) (k0 ++ 61 :: v) = k0) by (rewrite Nat2Z.id, firstn_app, Nat.sub_diag, firstn_all; cbn [firstn]; apply app_nil_r).
      destruct (setN_spec raw R e l (k0 ++ 61 :: v) (Z.of_nat (length k0)) (skipn (Z.to_nat (Z.of_nat (length k0) + 1)) (k0 ++ 61 :: v)) true I) as (e' & St & I'). { unfold strLen. rewrite app_length. unfold k0. cbn [length]. lia. } { rewrite F. exact N. }
      rewrite St. cbn [andThen]. eauto.
    + destruct C as (E & N). rewrite E. unfold setNEnv. cbn [Z.leb Z.compare andThen]. eauto.
  - unfold setEnv. pose proof (chr_cut k) as C. destruct (cut k) as [[k1 v1]|].
    + destruct C as (E & _ & _). rewrite E, (proj2 (Z.leb_le _ _)) by lia. cbn [andThen]. eauto.
    + destruct C as (E & N). rewrite E. cbn [Z.leb Z.compare]. destruct k as [|c k]; [unfold setNEnv; cbn [strLen length Z.of_nat Z.leb Z.compare andThen]; eauto|].
      destruct (setN_spec raw R e l (c :: k) (strLen (c :: k)) v ow I) as (e' & St & I'). { unfold strLen. cbn [length]. lia. } { now rewrite strLen_full. } rewrite St. cbn [andThen]. eauto.
  - destruct (unset_spec e l k I) as (e' & U & I'). rewrite U. cbn [andThen]. eauto.
  - rewrite (get_spec e l k I). cbn [andThen]. eauto.
Qed.
