(* How C groups the tokens: more fuel never changes a reading, and one rule for
   each shape the printer writes *)
From Coq Require Import ZArith Bool Lia List String Ascii.
From Verif Require Import Lexer SyTree CSpec CCode CTree CLexProofs.
Import ListNotations.
Open Scope Z_scope.

Definition mono5 (f : nat) : Prop := forall f', (f <= f')%nat ->
  (forall m t r, pE f m t = Some r -> pE f' m t = Some r) /\
  (forall m l t r, pL f m l t = Some r -> pL f' m l t = Some r) /\
  (forall t r, pU f t = Some r -> pU f' t = Some r) /\
  (forall e t r, pS f e t = Some r -> pS f' e t = Some r) /\
  (forall t r, pA f t = Some r -> pA f' t = Some r).


Lemma mono : forall f, mono5 f.
Proof.
  induction f as [|f IH]; intros f' L; [repeat split; intros; discriminate|].
  destruct f' as [|f']; [lia|]. destruct (IH f' ltac:(lia)) as (HE & HL & HU & HS & HA). clear IH L.
  repeat split.
  - intros m t r. cbn [pE]. destruct (pU f t) as [[l t']|] eqn:E; [|discriminate]. rewrite (HU _ _ E). apply HL.
  - intros m l t r. cbn [pL]. destruct t as [|[w|v|op|str] t]; auto. destruct (strength op) as [[p rt]|]; auto.
    destruct (m <=? p)%nat; auto. destruct (pE f _ t) as [[e r']|] eqn:E; [|discriminate]. rewrite (HE _ _ _ E). apply HL.
  - intros t r. cbn [pU]. destruct t as [|[w|v|op|str] t]; auto.
    + destruct (isKw w); auto.
    + destruct (is op "(").
      * assert (G : match pE f 0 t with Some (e, TP c :: r0) => if is c ")" then pS f e r0 else None | _ => None end = Some r ->
          match pE f' 0 t with Some (e, TP c :: r0) => if is c ")" then pS f' e r0 else None | _ => None end = Some r).
        { destruct (pE f 0 t) as [[e r']|] eqn:E; [|discriminate]. rewrite (HE _ _ _ E).
          destruct r' as [|[w'|v'|c|str] r']; auto. destruct (is c ")"); auto. }
        destruct t as [|[w|v|q|str] t]; auto. destruct t as [|[w'|v'|q|str] t']; auto.
        destruct ((is w "int" || is w "char" || is w "void") && is q ")").
        { destruct (pU f t') as [[e r']|] eqn:E; [|discriminate]. rewrite (HU _ _ E). auto. }
        destruct (is q "*" && match t' with TP c :: _ => is c ")" | _ => false end); auto.
        destruct (pU f (tl t')) as [[e r']|] eqn:E; [|discriminate]. rewrite (HU _ _ E). auto.
      * destruct (member op prefixOps); auto. destruct (pU f t) as [[e r']|] eqn:E; [|discriminate]. rewrite (HU _ _ E). auto.
  - intros e t r. cbn [pS]. destruct t as [|[w|v|op|str] t]; auto.
    destruct (is op "[").
    { destruct (pE f 0 t) as [[i r']|] eqn:E; [|discriminate]. rewrite (HE _ _ _ E).
      destruct r' as [|[w'|v'|c|str] r']; auto. destruct (is c "]"); auto. }
    destruct (is op "(").
    { assert (G : match pA f t with Some (a, r0) => pS f (CCall e a) r0 | None => None end = Some r ->
          match pA f' t with Some (a, r0) => pS f' (CCall e a) r0 | None => None end = Some r).
      { destruct (pA f t) as [[a r']|] eqn:E; [|discriminate]. rewrite (HA _ _ E). auto. }
      destruct t as [|[w|v|c|str] t]; auto. destruct (is c ")"); auto. }
    destruct (is op "->" || is op ".").
    { destruct t as [|[w|v|c|str] t]; auto. destruct (isKw w); auto. }
    destruct (is op "++" || is op "--"); auto.
  - intros t r. cbn [pA]. destruct (pE f 2 t) as [[e r']|] eqn:E; [|discriminate]. rewrite (HE _ _ _ E).
    destruct r' as [|[w'|v'|c|str] r']; auto. destruct (is c ")"); auto. destruct (is c ","); auto.
    destruct (pA f r') as [[a r'']|] eqn:E'; [|discriminate]. rewrite (HA _ _ E'). auto.
Qed.

Definition PE m t r := exists f, pE f m t = Some r.
Definition PL m l t r := exists f, pL f m l t = Some r.
Definition PU t r := exists f, pU f t = Some r.
Definition PS e t r := exists f, pS f e t = Some r.
Definition PA t r := exists f, pA f t = Some r.

Lemma upE m t r f f' : (f <= f')%nat -> pE f m t = Some r -> pE f' m t = Some r.
Proof. intros L. apply (mono f f' L). Qed.
Lemma upL m l t r f f' : (f <= f')%nat -> pL f m l t = Some r -> pL f' m l t = Some r.
Proof. intros L. apply (mono f f' L). Qed.
Lemma upU t r f f' : (f <= f')%nat -> pU f t = Some r -> pU f' t = Some r.
Proof. intros L. apply (mono f f' L). Qed.
Lemma upS e t r f f' : (f <= f')%nat -> pS f e t = Some r -> pS f' e t = Some r.
Proof. intros L. apply (mono f f' L). Qed.
Lemma upA t r f f' : (f <= f')%nat -> pA f t = Some r -> pA f' t = Some r.
Proof. intros L. apply (mono f f' L). Qed.

Notation P s := (TP (codes s)).

Section Types.
Variable isType : list Z -> bool.
(* the first token of an expression as the printer writes it *)
Definition headOk (t : list ctok) : Prop :=
  match t with
  | TId w :: _ => isKw w = false /\ isType w = false
  | TNum _ :: _ => True
  | TStr _ :: _ => True
  | TP p :: _ => is p "(" || is p "-" || is p "&" = true
  | [] => False
  end.
Definition noPost (t : list ctok) : Prop :=
  match t with TP p :: _ => member p (map codes ["["; "("; "->"; "."; "++"; "--"]%string) = false | _ => True end.
(* t does not go on with the expression *)
Definition noMore (t : list ctok) : Prop :=
  match t with TP p :: _ => noPost t /\ strength p = None | _ => True end.

Lemma PE_intro m t l t' r : PU t (l, t') -> PL m l t' r -> PE m t r.
Proof.
  intros [f H] [g K]. exists (S (Nat.max f g)). cbn [pE].
  rewrite (upU _ _ _ _ (Nat.le_max_l f g) H). exact (upL _ _ _ _ _ _ (Nat.le_max_r f g) K).
Qed.
Lemma PL_stop m l t : noMore t -> PL m l t (l, t).
Proof. intros N. exists 1%nat. cbn [pL]. destruct t as [|[w|v|p|str] t]; try reflexivity. destruct N as [_ ->]. reflexivity. Qed.
Lemma PL_op m l op t p rt e r res : strength op = Some (p, rt) -> (m <= p)%nat ->
  PE (if rt : bool then p else S p) t (e, r) -> PL m (CBin op l e) r res -> PL m l (TP op :: t) res.
Proof.
  intros S M [f H] [g K]. exists (Datatypes.S (Nat.max f g)). cbn [pL]. rewrite S.
  apply Nat.leb_le in M. rewrite M. rewrite (upE _ _ _ _ _ (Nat.le_max_l f g) H). exact (upL _ _ _ _ _ _ (Nat.le_max_r f g) K).
Qed.
Lemma PS_stop e t : noPost t -> PS e t (e, t).
Proof.
  intros N. exists 1%nat. cbn [pS]. destruct t as [|[w|v|p|str] t]; try reflexivity.
  cbn [noPost map member] in N. rewrite !orb_false_iff in N. unfold is.
  destruct N as (-> & -> & -> & -> & -> & -> & _). reflexivity.
Qed.
Lemma PU_num v t r : PS (CNum v) t r -> PU (TNum v :: t) r.
Proof. intros [f H]. exists (S f). exact H. Qed.
Lemma PU_str s t r : PS (CStr s) t r -> PU (TStr s :: t) r.
Proof. intros [f H]. exists (S f). exact H. Qed.
Lemma PU_id w t r : isKw w = false -> PS (CId w) t r -> PU (TId w :: t) r.
Proof. intros K [f H]. exists (S f). cbn [pU]. rewrite K. exact H. Qed.
Lemma PU_un op t e r : is op "(" = false -> member op prefixOps = true -> PU t (e, r) -> PU (TP op :: t) (CUn op e, r).
Proof. intros A B [f H]. exists (S f). cbn [pU]. rewrite A, B, H. reflexivity. Qed.
Lemma kw_word w s : isKw w = false -> member (codes s) keywords = true -> is w s = false.
Proof.
  intros A B. unfold is. destruct (eqs w (codes s)) eqn:E; [|reflexivity]. apply eqs_true in E. subst w. unfold isKw in A. congruence.
Qed.
(* a star before a closing bracket is no product *)
Lemma star_close f w r : pE f 0 (TId w :: P "*" :: P ")" :: r) = None.
Proof.
  destruct f as [|f]; [reflexivity|]. cbn [pE]. destruct f as [|f]; [reflexivity|]. cbn [pU]. destruct (isKw w); [reflexivity|].
  destruct f as [|f]; [reflexivity|]. cbn [pS].
  change (is (codes "*") "[") with false. change (is (codes "*") "(") with false. change (is (codes "*") "->" || is (codes "*") ".") with false.
  change (is (codes "*") "++" || is (codes "*") "--") with false. cbv iota. cbn [pL]. change (strength (codes "*")) with (Some (13%nat, false)).
  cbv iota. change (0 <=? 13)%nat with true. cbv iota. cbn [pE]. destruct f as [|f]; reflexivity.
Qed.
Lemma PU_paren t e r res : headOk t -> PE 0 t (e, P ")" :: r) -> PS e r res -> PU (P "(" :: t) res.
Proof.
  intros A [f H] [g K]. exists (S (Nat.max f g)).
  assert (G : match pE (Nat.max f g) 0 t with Some (e, TP c :: r0) => if is c ")" then pS (Nat.max f g) e r0 else None | _ => None end = Some res).
  { rewrite (upE _ _ _ _ _ (Nat.le_max_l f g) H). exact (upS _ _ _ _ _ (Nat.le_max_r f g) K). }
  cbn [pU]. change (is (codes "(") "(") with true. cbv iota.
  destruct t as [|[w|v|q|str] t]; try exact G. destruct t as [|[w'|v'|q|str] t']; try exact G.
  cbn [headOk] in A. destruct A as [A _].
  rewrite (kw_word w "int" A eq_refl), (kw_word w "char" A eq_refl), (kw_word w "void" A eq_refl). cbn [orb andb].
  destruct (is q "*") eqn:E; [|exact G]. apply eqs_true in E. subst q. destruct t' as [|[w'|v'|q|str] t']; try exact G.
  destruct (is q ")") eqn:E; [|exact G]. apply eqs_true in E. subst q. rewrite star_close in H. discriminate H.
Qed.
Lemma PU_cast t e r : PU t (e, r) -> PU (P "(" :: TId (codes "int") :: P ")" :: t) (CCast (codes "int") e, r).
Proof. intros [f H]. exists (S f). cbn [pU]. change (is (codes "(") "(") with true. cbv iota.
  change ((is (codes "int") "int" || is (codes "int") "char" || is (codes "int") "void") && is (codes ")") ")") with true. cbv iota.
  rewrite H. reflexivity. Qed.
Lemma PU_castp w t e r : PU t (e, r) -> PU (P "(" :: TId w :: P "*" :: P ")" :: t) (CCast (w ++ codes "*") e, r).
Proof. intros [f H]. exists (S f). cbn [pU]. change (is (codes "(") "(") with true. change (is (codes "*") ")") with false. cbv iota.
  rewrite andb_false_r. change (is (codes "*") "*" && is (codes ")") ")") with true. cbv iota. cbn [tl]. rewrite H. reflexivity. Qed.
Lemma PS_idx e t i r res : PE 0 t (i, P "]" :: r) -> PS (CIdx e i) r res -> PS e (P "[" :: t) res.
Proof.
  intros [f H] [g K]. exists (S (Nat.max f g)). cbn [pS]. change (is (codes "[") "[") with true. cbv iota.
  rewrite (upE _ _ _ _ _ (Nat.le_max_l f g) H). exact (upS _ _ _ _ _ (Nat.le_max_r f g) K).
Qed.
Lemma PS_arrow e w r res : isKw w = false -> PS (CArrow e w) r res -> PS e (P "->" :: TId w :: r) res.
Proof.
  intros A [f H]. exists (S f). cbn [pS].
  change (is (codes "->") "[") with false. change (is (codes "->") "(") with false. change (is (codes "->") "->") with true. cbn [orb]. cbv iota.
  rewrite A. exact H.
Qed.
Lemma PS_call0 e r res : PS (CCall e []) r res -> PS e (P "(" :: P ")" :: r) res.
Proof. intros [f H]. exists (S f). exact H. Qed.
Lemma PS_call e t a r res : headOk t -> PA t (a, r) -> PS (CCall e a) r res -> PS e (P "(" :: t) res.
Proof.
  intros A [f H] [g K]. exists (S (Nat.max f g)).
  assert (G : match pA (Nat.max f g) t with Some (a, r0) => pS (Nat.max f g) (CCall e a) r0 | None => None end = Some res).
  { rewrite (upA _ _ _ _ (Nat.le_max_l f g) H). exact (upS _ _ _ _ _ (Nat.le_max_r f g) K). }
  cbn [pS]. change (is (codes "(") "[") with false. change (is (codes "(") "(") with true. cbv iota.
  destruct t as [|[w|v|q|str] t]; try exact G. cbn [headOk] in A.
  destruct (is q ")") eqn:E; [|exact G]. apply eqs_true in E. subst q. discriminate.
Qed.
Lemma PA_last t e r : PE 2 t (e, P ")" :: r) -> PA t ([e], r).
Proof. intros [f H]. exists (S f). cbn [pA]. rewrite H. reflexivity. Qed.
Lemma PA_more t e t2 l r : PE 2 t (e, P "," :: t2) -> PA t2 (l, r) -> PA t (e :: l, r).
Proof.
  intros [f H] [g K]. exists (S (Nat.max f g)). cbn [pA].
  rewrite (upE _ _ _ _ _ (Nat.le_max_l f g) H). change (is (codes ",") ")") with false. change (is (codes ",") ",") with true. cbv iota.
  rewrite (upA _ _ _ _ (Nat.le_max_r f g) K). reflexivity.
Qed.

(* ---- the readings of a list of tokens ---- *)
(* Post: anything may follow; Un: anything but a postfix operator; Args: arguments *)
Definition Post t e := forall rest res, PS e rest res -> PU (t ++ rest) res.
Definition Un t e := forall rest, noPost rest -> PU (t ++ rest) (e, rest).
Definition Args t l := (forall rest, PA (t ++ P ")" :: rest) (l, rest)) /\
  (forall t2 l2 rest, PA t2 (l2, rest) -> PA (t ++ P "," :: t2) (l ++ l2, rest)).

Lemma Post_Un t e : Post t e -> Un t e.
Proof. intros H rest N. apply H. apply PS_stop. exact N. Qed.
Lemma Un_PE t e m rest : Un t e -> noMore rest -> PE m (t ++ rest) (e, rest).
Proof.
  intros H N. apply PE_intro with e rest; [|apply PL_stop; exact N].
  apply H. destruct rest as [|[w|v|p|str] rest]; try exact I. exact (proj1 N).
Qed.
Lemma Un_Args t e : Un t e -> Args t [e].
Proof.
  intros H. split.
  - intros rest. apply PA_last. apply Un_PE; [exact H|]. split; reflexivity.
  - intros t2 l2 rest K. apply PA_more with t2; [|exact K].
    apply PE_intro with e (P "," :: t2); [apply H; reflexivity|]. exists 1%nat. reflexivity.
Qed.
Lemma Args_app t1 l1 t2 l2 : Args t1 l1 -> Args t2 l2 -> Args (t1 ++ P "," :: t2) (l1 ++ l2).
Proof.
  intros [A1 A2] [B1 B2]. split.
  - intros rest. rewrite <- app_assoc. cbn [app]. apply A2. apply B1.
  - intros t3 l3 rest K. rewrite <- !app_assoc. cbn [app]. apply A2. apply B2. exact K.
Qed.
End Types.
