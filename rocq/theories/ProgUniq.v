(* The grammar of statements and source files (StmtSpec.v, ProgGram.v) gives a text one
   reading. *)
From Coq Require Import ZArith Bool Lia List.
From Verif Require Import Lexer NameTable SyTree Parser ParserStmt ParseSpec ParseSound ParseComplete ParseUniq StmtSpec StmtComplete ProgGram.
Import ListNotations.
Open Scope Z_scope.

(* ---- expressions ---- *)
(* after a name at the beginning comes no name and no [] *)
Definition nextOk (r : list stok) : Prop :=
  match r with
  | [] => True
  | TSym c :: q => match q with TSym d :: _ => c = cLB -> d <> cRB | [] => c <> cLB | _ => True end
  | _ => False
  end.
Lemma nextOk_app r c y : c <> cRB -> nextOk (TSym c :: y) -> nextOk r -> nextOk (r ++ TSym c :: y).
Proof. intros C Y H. destruct r as [|[| | | | |a] [|[| | | | |b] r]]; cbn in *; auto; try (exfalso; exact H). Qed.
Lemma op_not k t o : In (t, o) (levelOps k) -> t <> cRB /\ t <> cLB.
Proof.
  intros H. do 12 (destruct k as [|k]; [cbn in H; repeat (destruct H as [H|H]; [injection H as <- <-; split; discriminate|]); destruct H|]). destruct k; destruct H.
Qed.
Lemma nextOk_other c y : c <> cLB -> nextOk (TSym c :: y).
Proof. intros N. cbn. destruct y as [|[] y]; auto. Qed.
Lemma headOk_not x : headOk x -> x <> TSym cRB /\ x <> TSym cRP /\ x <> TSym cSEMI /\ x <> TSym cRC.
Proof.
  intros [B|[u ->]]; [|destruct u; repeat split; discriminate]. destruct x; try (repeat split; discriminate).
  cbn in B. repeat (destruct B as [B|B]; [subst k; repeat split; discriminate|]). subst k. repeat split; discriminate.
Qed.
Lemma name_next k e ts : derives k e ts -> forall n r, ts = TName n :: r -> nextOk r.
Proof.
  induction 1; intros nm q EQ; try discriminate EQ; try (injection EQ as <- <-; cbn; auto; fail); try (destruct u; discriminate EQ).
  - eauto.
  - destruct (head _ _ _ H) as (x & w & -> & _). cbn [app] in EQ. injection EQ as -> <-. apply nextOk_app; [discriminate|apply nextOk_other; discriminate|eauto].
  - destruct (head _ _ _ H) as (x & w & -> & _). cbn [app] in EQ. injection EQ as -> <-. apply nextOk_app; [discriminate|apply nextOk_other; discriminate|eauto].
  - destruct (head _ _ _ H0) as (x & w & -> & _). cbn [app] in EQ. injection EQ as -> <-. destruct (op_not _ _ _ H). apply nextOk_app; [assumption|apply nextOk_other; assumption|eauto].
  - destruct (head _ _ _ H) as (x & w & -> & _). destruct (head _ _ _ H0) as (x1 & w1 & -> & HO). cbn [app] in EQ. injection EQ as -> <-. apply nextOk_app; [discriminate| |eauto].
    cbn. destruct x1; auto. intros _ ->. exact (proj1 (headOk_not _ HO) eq_refl).
  - destruct (head _ _ _ H) as (x & w & -> & _). cbn [app] in EQ. injection EQ as -> <-. apply nextOk_app; [discriminate|apply nextOk_other; discriminate|eauto].
  - injection EQ as <- <-. apply nextOk_other. discriminate.
  - injection EQ as <- <-. apply nextOk_other. discriminate.
Qed.
Ltac hd H := let x := fresh "x" in let w := fresh "w" in let HO := fresh "HO" in destruct (head _ _ _ H) as (x & w & -> & HO); cbn [app] in *.

(* ---- types ---- *)
Lemma ty_unique t t' d d' r r' : tyTok t :: brackets d ++ r = tyTok t' :: brackets d' ++ r' ->
  (forall q, r <> TSym cLB :: TSym cRB :: q) -> (forall q, r' <> TSym cLB :: TSym cRB :: q) -> t = t' /\ d = d' /\ r = r'.
Proof.
  intros E N N'. injection E as ET E. pose proof (tyOf_tok t) as A. rewrite ET, tyOf_tok in A. injection A as <-.
  pose proof (brk_brackets d r N) as B. rewrite E, (brk_brackets d' r' N') in B. injection B as <- <-. auto.
Qed.
(* an expression is no declaration *)
Lemma not_decl k e ts r t d q : derives k e ts -> ts ++ r = tyTok t :: brackets d ++ q -> (exists n w, q = TName n :: w) -> (exists c w, r = TSym c :: w /\ c <> cLB) -> False.
Proof.
  intros D E (n & w & ->) (c & v & -> & NC). pose proof D as D0. hd D. injection E as -> E.
  destruct t; try (destruct HO as [HO|[u HO]]; [cbn in HO; repeat (destruct HO as [HO|HO]; [discriminate HO|]); discriminate HO|destruct u; discriminate HO]).
  pose proof (name_next _ _ _ D0 _ _ eq_refl) as NX. destruct d as [|d]; cbn [brackets app] in E.
  - destruct w0 as [|y w0]; cbn [app] in E; [discriminate E|]. injection E as -> E. exact NX.
  - destruct w0 as [|y w0]; cbn [app] in E; [injection E as -> E; contradiction|]. injection E as -> E. destruct w0 as [|y w0]; cbn [app] in E.
    + exact (NX eq_refl).
    + injection E as -> E. exact (NX eq_refl eq_refl).
Qed.
(* ---- declarations ---- *)
Definition first (c : Z) (r : list stok) : Prop := exists q, r = TSym c :: q.
Lemma var_first v ts : derives_var v ts -> exists r, ts = TName (fst v) :: r.
Proof. intros H. destruct H; eexists; reflexivity. Qed.
Lemma vars_first vs ts : derives_vars vs ts -> exists n r, ts = TName n :: r.
Proof. intros H. destruct H as [v ts H|v r tv tr H _]; apply var_first in H; destruct H as [q ->]; cbn [app]; eauto. Qed.
Lemma var_unique v v' ts ts' r r' : derives_var v ts -> derives_var v' ts' -> ts ++ r = ts' ++ r' ->
  ends 1 r -> ends 1 r' -> v = v' /\ r = r'.
Proof.
  intros H H' E S S'. destruct H as [n|n e ts D]; destruct H' as [n'|n' e' ts' D']; cbn [app] in E; injection E as <- E.
  - auto.
  - exfalso. rewrite E in S. apply S. right; right; right; left. auto.
  - exfalso. rewrite <- E in S'. apply S'. right; right; right; left. auto.
  - destruct (expr_unique _ _ _ _ _ _ _ D D' E S S') as (-> & _ & ->). auto.
Qed.
Lemma vars_unique vs ts : derives_vars vs ts -> forall vs' ts' r r', derives_vars vs' ts' -> ts ++ r = ts' ++ r' -> first cSEMI r -> first cSEMI r' -> vs = vs' /\ r = r'.
Proof.
  induction 1 as [v ts D|v l tv tr D DR IH]; intros vs' ts' r r' D' E [q ->] [q' ->].
  - destruct D' as [v' ts' D'|v' l' tv' tr' D' DR'].
    + destruct (var_unique _ _ _ _ _ _ D D' E) as [-> X]; [apply (ends_le 0); [lia|apply ends_semi]..|]. auto.
    + rewrite <- app_assoc in E. destruct (var_unique _ _ _ _ _ _ D D' E) as [-> X]; [apply (ends_le 0); [lia|apply ends_semi]|apply ends_comma|]. discriminate X.
  - rewrite <- app_assoc in E. destruct D' as [v' ts' D'|v' l' tv' tr' D' DR'].
    + destruct (var_unique _ _ _ _ _ _ D D' E) as [-> X]; [apply ends_comma|apply (ends_le 0); [lia|apply ends_semi]|]. discriminate X.
    + rewrite <- app_assoc in E. destruct (var_unique _ _ _ _ _ _ D D' E) as [-> X]; [apply ends_comma..|]. cbn [app] in X. injection X as X.
      destruct (IH _ _ _ _ DR' X) as [-> ->]; [eexists; reflexivity..|]. auto.
Qed.
Lemma decl_unique d d' ts ts' r r' : derives_decl d ts -> derives_decl d' ts' -> ts ++ r = ts' ++ r' -> first cSEMI r -> first cSEMI r' -> d = d' /\ r = r'.
Proof.
  intros H H' E S S'. destruct H as [t n vs ts D]; destruct H' as [t' n' vs' ts' D']. cbn [app] in E. rewrite <- !app_assoc in E.
  destruct (vars_first _ _ D) as (nm & q & Q). destruct (vars_first _ _ D') as (nm' & q' & Q').
  destruct (ty_unique _ _ _ _ _ _ E) as (-> & -> & X); [rewrite Q; discriminate|rewrite Q'; discriminate|].
  destruct (vars_unique _ _ D _ _ _ _ D' X S S') as [-> ->]. auto.
Qed.
Lemma decl_not k e ts d td r r' : derives k e ts -> derives_decl d td -> ts ++ r = td ++ r' -> (exists c q, r = TSym c :: q /\ c <> cLB) -> False.
Proof.
  intros D H E R. destruct H as [t n vs tv V]. cbn [app] in E. rewrite <- app_assoc in E. destruct (vars_first _ _ V) as (nm & q & ->). cbn [app] in E.
  eapply (not_decl _ _ _ _ _ _ _ D E); eauto.
Qed.
Lemma opt_unique o o' ts ts' r r' c : derives_opt o ts -> derives_opt o' ts' -> ts ++ r = ts' ++ r' -> first c r -> first c r' -> c = cSEMI \/ c = cRP -> o = o' /\ r = r'.
Proof.
  intros H H' E [q ->] [q' ->] C. assert (forall z, ends 0 (TSym c :: z)) as EN by (intros z; destruct C as [-> | ->]; [apply ends_semi|apply ends_rp]).
  assert (forall x, headOk x -> x <> TSym c) as HN by (intros x X; apply headOk_not in X; destruct C as [-> | ->]; tauto).
  destruct H as [|e ts D]; destruct H' as [|e' ts' D'].
  - auto.
  - exfalso. hd D'. injection E as E _. exact (HN _ HO (eq_sym E)).
  - exfalso. hd D. injection E as E _. exact (HN _ HO E).
  - destruct (expr_unique _ _ _ _ _ _ _ D D' E (EN _) (EN _)) as (-> & _ & ->). auto.
Qed.
Lemma decl_first d ts : derives_decl d ts -> exists t r, ts = tyTok t :: r.
Proof. intros H. destruct H. eauto. Qed.
Lemma tyTok_no t c : c = cSEMI \/ c = cRC -> tyTok t <> TSym c.
Proof. intros [-> | ->]; destruct t; discriminate. Qed.
Lemma ini_unique i i' ts ts' r r' : derives_ini i ts -> derives_ini i' ts' -> ts ++ r = ts' ++ r' -> first cSEMI r -> first cSEMI r' -> i = i' /\ r = r'.
Proof.
  intros H H' E S S'. destruct S as [q ->], S' as [q' ->].
  destruct H as [|e ts D|d ts D]; destruct H' as [|e' ts' D'|d' ts' D'].
  - auto.
  - exfalso. hd D'. injection E as E _. destruct (headOk_not _ HO) as (_ & _ & N & _). congruence.
  - exfalso. destruct (decl_first _ _ D') as (t & w & ->). cbn [app] in E. injection E as E _. exact (tyTok_no t cSEMI (or_introl eq_refl) (eq_sym E)).
  - exfalso. hd D. injection E as E _. destruct (headOk_not _ HO) as (_ & _ & N & _). congruence.
  - destruct (expr_unique _ _ _ _ _ _ _ D D' E (ends_semi _) (ends_semi _)) as (-> & _ & ->). auto.
  - exfalso. apply (decl_not _ _ _ _ _ _ _ D D' E). exists cSEMI, q. split; [reflexivity|discriminate].
  - exfalso. destruct (decl_first _ _ D) as (t & w & ->). cbn [app] in E. injection E as E _. exact (tyTok_no t cSEMI (or_introl eq_refl) E).
  - exfalso. apply (decl_not _ _ _ _ _ _ _ D' D (eq_sym E)). exists cSEMI, q'. split; [reflexivity|discriminate].
  - destruct (decl_unique _ _ _ _ _ _ D D' E) as [-> ->]; [eexists; reflexivity..|]. auto.
Qed.

(* ---- statements ---- *)
(* a derivation of a statement, by its form *)
Inductive form : bool -> sast -> list stok -> Prop :=
| f_empty k : form k BEmpty [TSym cSEMI]
| f_expr k e ts : derives 0 e ts -> form k (BExpr e) (ts ++ [TSym cSEMI])
| f_if c s tc ts : derives 0 c tc -> sder false s ts -> form false (BIf c s) (TSym LxIF :: TSym cLP :: tc ++ TSym cRP :: ts)
| f_else k c s1 s2 tc t1 t2 : derives 0 c tc -> sder true s1 t1 -> sder k s2 t2 ->
    form k (BIfElse c s1 s2) (TSym LxIF :: TSym cLP :: tc ++ TSym cRP :: t1 ++ TSym LxELSE :: t2)
| f_while k c b tc tb : derives 0 c tc -> sder k b tb -> form k (BWhile c b) (TSym LxWHILE :: TSym cLP :: tc ++ TSym cRP :: tb)
| f_do k b c tb tc : sder false b tb -> derives 0 c tc ->
    form k (BDo b c) (TSym LxDO :: tb ++ TSym LxWHILE :: TSym cLP :: tc ++ [TSym cRP; TSym cSEMI])
| f_for k i c r b ti tc tr tb : derives_ini i ti -> derives_opt c tc -> derives_opt r tr -> sder k b tb ->
    form k (BFor i c r b) (TSym LxFOR :: TSym cLP :: ti ++ TSym cSEMI :: tc ++ TSym cSEMI :: tr ++ TSym cRP :: tb)
| f_break k : form k BBreak [TSym LxBREAK; TSym cSEMI]
| f_continue k : form k BContinue [TSym LxCONTINUE; TSym cSEMI]
| f_return k e ts : derives_opt e ts -> form k (BReturn e) (TSym LxRETURN :: ts ++ [TSym cSEMI])
| f_block k l ts : qder l ts -> form k (BBlock l) (TSym cLC :: ts ++ [TSym cRC]).
Lemma form_false k s ts : form k s ts -> form false s ts.
Proof. intros H. destruct H; constructor; try assumption; destruct k; try assumption; constructor; assumption. Qed.
Lemma form_of k s ts : sder k s ts -> form k s ts.
Proof. induction 1; try (constructor; assumption). exact (form_false _ _ _ IHsder). Qed.
Definition kw (x : stok) : Prop := exists c, x = TSym c /\ In c [LxIF; LxWHILE; LxDO; LxFOR; LxBREAK; LxCONTINUE; LxRETURN; cLC; cSEMI].
Lemma kw_head x : kw x -> headOk x -> False.
Proof.
  intros (c & -> & I) [B|[u B]].
  - cbn in I, B. repeat (destruct I as [<-|I]; [repeat (destruct B as [B|B]; [discriminate B|]); discriminate B|]). exact I.
  - cbn in I. injection B as ->. repeat (destruct I as [I|I]; [destruct u; discriminate I|]). exact I.
Qed.
Lemma stat_first k s ts : sder k s ts -> exists x r, ts = x :: r /\ (kw x \/ headOk x).
Proof.
  intros H. apply form_of in H. destruct H; try (eexists; eexists; split; [reflexivity|left; eexists; split; [reflexivity|cbn; auto 12]]; fail).
  hd H. eauto.
Qed.
Definition uniqS (k : bool) (s : sast) (ts : list stok) : Prop := forall k' s' ts' r r', sder k' s' ts' -> ts ++ r = ts' ++ r' ->
  (k = false -> ~ elseFirst r) -> (k' = false -> ~ elseFirst r') -> s = s' /\ r = r'.
Definition uniqQ (q : sseq) (ts : list stok) : Prop := forall q' ts' r r', qder q' ts' -> ts ++ r = ts' ++ r' -> first cRC r -> first cRC r' -> q = q' /\ r = r'.
Ltac nrm E := repeat (rewrite <- app_assoc in E || rewrite <- app_comm_cons in E || cbn [app] in E).
Scheme sd_mut := Minimality for sder Sort Prop with qd_mut := Minimality for qder Sort Prop.
Combined Scheme sd_both from sd_mut, qd_mut.
(* an expression statement against one with a keyword *)
Lemma expr_kw e ts r x w : derives 0 e ts -> ts ++ r = x :: w -> kw x -> False.
Proof. intros D E K. hd D. injection E as -> _. exact (kw_head _ K HO). Qed.
Ltac iskw := eexists; split; [reflexivity|cbn; auto 12].
Lemma paren_cond c c' tc tc' r r' : derives 0 c tc -> derives 0 c' tc' -> tc ++ TSym cRP :: r = tc' ++ TSym cRP :: r' -> c = c' /\ r = r'.
Proof. intros D D' E. destruct (expr_unique _ _ _ _ _ _ _ D D' E (ends_rp _) (ends_rp _)) as (-> & _ & X). injection X as ->. auto. Qed.
Lemma semi_expr c c' tc tc' r r' : derives 0 c tc -> derives 0 c' tc' -> tc ++ TSym cSEMI :: r = tc' ++ TSym cSEMI :: r' -> c = c' /\ r = r'.
Proof. intros D D' E. destruct (expr_unique _ _ _ _ _ _ _ D D' E (ends_semi _) (ends_semi _)) as (-> & _ & X). injection X as ->. auto. Qed.
Lemma noelse_while r : ~ elseFirst (TSym LxWHILE :: r).
Proof. intros [q E]. discriminate E. Qed.
Lemma stmts_unique : (forall k s ts, sder k s ts -> uniqS k s ts) /\ (forall q ts, qder q ts -> uniqQ q ts).
Proof.
  apply sd_both.
  - intros s ts D IH k' s' ts' r r' D' E N N'. apply (IH k' s' ts' r r' D' E); [discriminate|exact N'].
  - intros k' s' ts' r r' D' E _ _. apply form_of in D'. destruct D'; nrm E; try discriminate E; try (exfalso; eapply expr_kw; [eassumption|symmetry; exact E|iskw]). injection E as ->. auto.
  - intros e ts D k' s' ts' r r' D' E _ _. apply form_of in D'. destruct D' as [k|k e' te D'| | | | | | | | |]; nrm E; try (exfalso; eapply expr_kw; [exact D|exact E|iskw]; fail).
    destruct (semi_expr _ _ _ _ _ _ D D' E) as [-> ->]. auto.
  - intros c s tc ts DC D IH k' s' ts' r r' D' E N N'. apply form_of in D'.
    destruct D' as [| |c' s' tc' ts' DC' D'|k c' s1' s2' tc' t1' t2' DC' D1' D2'| | | | | | |]; nrm E; try discriminate E; try (exfalso; eapply expr_kw; [eassumption|symmetry; exact E|iskw]; fail); injection E as E;
      destruct (paren_cond _ _ _ _ _ _ DC DC' E) as [-> X].
    + destruct (IH false s' ts' r r' D' X N N') as [-> ->]. auto.
    + exfalso. destruct (IH true _ _ _ _ D1' X N ltac:(discriminate)) as [_ Y]. apply (N eq_refl). rewrite Y. eexists. reflexivity.
  - intros k c s1 s2 tc t1 t2 DC D1 I1 D2 I2 k' s' ts' r r' D' E N N'. apply form_of in D'.
    destruct D' as [| |c' s' tc' ts' DC' D'|k1 c' s1' s2' tc' t1' t2' DC' D1' D2'| | | | | | |]; nrm E; try discriminate E; try (exfalso; eapply expr_kw; [eassumption|symmetry; exact E|iskw]; fail); injection E as E;
      destruct (paren_cond _ _ _ _ _ _ DC DC' E) as [-> X].
    + exfalso. destruct (I1 false _ _ _ _ D' X ltac:(discriminate) N') as [_ Y]. apply (N' eq_refl). rewrite <- Y. eexists. reflexivity.
    + destruct (I1 true _ _ _ _ D1' X ltac:(discriminate) ltac:(discriminate)) as [-> Y]. injection Y as Y. destruct (I2 _ _ _ _ _ D2' Y N N') as [-> ->]. auto.
  - intros k c b tc tb DC D IH k' s' ts' r r' D' E N N'. apply form_of in D'.
    destruct D' as [| | | |k1 c' b' tc' tb' DC' D'| | | | | |]; nrm E; try discriminate E; try (exfalso; eapply expr_kw; [eassumption|symmetry; exact E|iskw]; fail). injection E as E.
    destruct (paren_cond _ _ _ _ _ _ DC DC' E) as [-> X]. destruct (IH _ _ _ _ _ D' X N N') as [-> ->]. auto.
  - intros b c tb tc D IH DC k' s' ts' r r' D' E N N'. apply form_of in D'.
    destruct D' as [| | | | |k1 b' c' tb' tc' D' DC'| | | | |]; nrm E; try discriminate E; try (exfalso; eapply expr_kw; [eassumption|symmetry; exact E|iskw]; fail). injection E as E.
    destruct (IH _ _ _ _ _ D' E (fun _ => noelse_while _) (fun _ => noelse_while _)) as [-> X]. injection X as X. destruct (paren_cond _ _ _ _ _ _ DC DC' X) as [-> Y]. injection Y as ->. auto.
  - intros k i c rr b ti tc tr tb DI DC DR D IH k' s' ts' r r' D' E N N'. apply form_of in D'.
    destruct D' as [| | | | | |k1 i' c' rr' b' ti' tc' tr' tb' DI' DC' DR' D'| | | |]; nrm E; try discriminate E; try (exfalso; eapply expr_kw; [eassumption|symmetry; exact E|iskw]; fail). injection E as E.
    destruct (ini_unique _ _ _ _ _ _ DI DI' E) as [-> X]; [eexists; reflexivity..|]. injection X as X.
    destruct (opt_unique _ _ _ _ _ _ cSEMI DC DC' X) as [-> Y]; [eexists; reflexivity|eexists; reflexivity|auto|]. injection Y as Y.
    destruct (opt_unique _ _ _ _ _ _ cRP DR DR' Y) as [-> Z0]; [eexists; reflexivity|eexists; reflexivity|auto|]. injection Z0 as Z0.
    destruct (IH _ _ _ _ _ D' Z0 N N') as [-> ->]. auto.
  - intros k' s' ts' r r' D' E _ _. apply form_of in D'. destruct D'; nrm E; try discriminate E; try (exfalso; eapply expr_kw; [eassumption|symmetry; exact E|iskw]). injection E as ->. auto.
  - intros k' s' ts' r r' D' E _ _. apply form_of in D'. destruct D'; nrm E; try discriminate E; try (exfalso; eapply expr_kw; [eassumption|symmetry; exact E|iskw]). injection E as ->. auto.
  - intros e ts D k' s' ts' r r' D' E _ _. apply form_of in D'. destruct D' as [| | | | | | | | |k1 e' ts' D'|]; nrm E; try discriminate E; try (exfalso; eapply expr_kw; [eassumption|symmetry; exact E|iskw]; fail). injection E as E.
    destruct (opt_unique _ _ _ _ _ _ cSEMI D D' E) as [-> X]; [eexists; reflexivity|eexists; reflexivity|auto|]. injection X as ->. auto.
  - intros l ts D IH k' s' ts' r r' D' E _ _. apply form_of in D'. destruct D' as [| | | | | | | | | |k1 l' ts' D']; nrm E; try discriminate E; try (exfalso; eapply expr_kw; [eassumption|symmetry; exact E|iskw]; fail). injection E as E.
    destruct (IH _ _ _ _ D' E) as [-> X]; [eexists; reflexivity..|]. injection X as ->. auto.
  - intros q' ts' r r' D' E [w ->] [w' ->]. destruct D' as [|s l ts' tl D' _|d l ts' tl D' _]; nrm E.
    + auto.
    + exfalso. destruct (stat_first _ _ _ D') as (x & y & -> & K). cbn [app] in E. injection E as <- _. destruct K as [(c & K & I)|K].
      * injection K as <-. cbn in I. repeat (destruct I as [I|I]; [discriminate I|]). exact I.
      * apply headOk_not in K. tauto.
    + exfalso. destruct (decl_first _ _ D') as (t & y & ->). cbn [app] in E. injection E as E _. exact (tyTok_no t cRC (or_intror eq_refl) (eq_sym E)).
  - intros s l ts tl DS IS DL IL q' ts' r r' D' E R R'. assert (~ elseFirst (tl ++ r)) as NE by (destruct R as [w ->]; exact (qder_noelse _ _ _ DL)). destruct D' as [|s' l' ts' tl' DS' DL'|d' l' ts' tl' DD' DL']; nrm E.
    + exfalso. destruct R' as [w' ->]. destruct (stat_first _ _ _ DS) as (x & y & -> & K). cbn [app] in E. injection E as -> _. destruct K as [(c & K & I)|K].
      * injection K as <-. cbn in I. repeat (destruct I as [I|I]; [discriminate I|]). exact I.
      * apply headOk_not in K. tauto.
    + assert (~ elseFirst (tl' ++ r')) as NE' by (destruct R' as [w' ->]; exact (qder_noelse _ _ _ DL')).
      destruct (IS _ _ _ _ _ DS' E (fun _ => NE) (fun _ => NE')) as [-> X]. destruct (IL _ _ _ _ DL' X R R') as [-> ->]. auto.
    + exfalso. apply form_of in DS. destruct (decl_first _ _ DD') as (t & y & EY).
      destruct DS as [k|k e te D| | | | | | | | |]; try (rewrite EY in E; nrm E; injection E as E _; destruct t; discriminate E).
      rewrite <- app_assoc in E. cbn [app] in E. apply (decl_not _ _ _ _ _ _ _ D DD' E). exists cSEMI. eexists. split; [reflexivity|discriminate].
  - intros d l ts tl DD DL IL q' ts' r r' D' E R R'. destruct D' as [|s' l' ts' tl' DS' DL'|d' l' ts' tl' DD' DL']; nrm E.
    + exfalso. destruct R' as [w' ->]. destruct (decl_first _ _ DD) as (t & y & ->). cbn [app] in E. injection E as E _. exact (tyTok_no t cRC (or_intror eq_refl) E).
    + exfalso. apply form_of in DS'. destruct (decl_first _ _ DD) as (t & y & EY).
      destruct DS' as [k|k e te D| | | | | | | | |]; try (rewrite EY in E; nrm E; injection E as E _; destruct t; discriminate E).
      rewrite <- app_assoc in E. cbn [app] in E. apply (decl_not _ _ _ _ _ _ _ D DD (eq_sym E)). exists cSEMI. eexists. split; [reflexivity|discriminate].
    + destruct (decl_unique _ _ _ _ _ _ DD DD' E) as [-> X]; [eexists; reflexivity..|]. injection X as X. destruct (IL _ _ _ _ DL' X R R') as [-> ->]. auto.
Qed.

(* ---- lists ---- *)
Definition stopI (r : list stok) : Prop := exists c q, r = TSym c :: q /\ In c [cCOMMA; cSEMI; cRP; cRC].
Lemma stopI_ends r : stopI r -> ends 1 r.
Proof.
  intros (c & q & -> & I). cbn in I. destruct I as [<-|[<-|[<-|[<-|[]]]]].
  - apply ends_comma. - apply (ends_le 0); [lia|apply ends_semi]. - apply (ends_le 0); [lia|apply ends_rp]. - apply (ends_le 0); [lia|apply ends_rc].
Qed.
Lemma stopI_first c r : In c [cCOMMA; cSEMI; cRP; cRC] -> first c r -> stopI r.
Proof. intros I [q ->]. exists c, q. auto. Qed.
Lemma stopI_comma r : stopI (TSym cCOMMA :: r).
Proof. exists cCOMMA, r. cbn. auto. Qed.
Lemma commas_unique {A B} (f : A -> B) (der : A -> list stok -> Prop) :
  (forall x ts x' ts' r r', der x ts -> der x' ts' -> ts ++ r = ts' ++ r' -> stopI r -> stopI r' -> f x = f x' /\ r = r') ->
  forall xs ts, commas der xs ts -> forall xs' ts' r r' c, commas der xs' ts' -> ts ++ r = ts' ++ r' -> In c [cSEMI; cRP; cRC] ->
  first c r -> first c r' -> map f xs = map f xs' /\ r = r'.
Proof.
  intros U. induction 1 as [x ts D|x l tx tl D DL IH]; intros xs' ts' r r' c D' E C R R'.
  - assert (stopI r) as S by (apply (stopI_first c); [right; exact C|exact R]). assert (stopI r') as S' by (apply (stopI_first c); [right; exact C|exact R']).
    destruct D' as [x' ts' D'|x' l' tx' tl' D' DL'].
    + destruct (U _ _ _ _ _ _ D D' E S S') as [X ->]. cbn [map]. rewrite X. auto.
    + rewrite <- app_assoc in E. destruct (U _ _ _ _ _ _ D D' E S (stopI_comma _)) as [_ X]. destruct R as [q ->]. injection X as -> _. cbn in C.
      destruct C as [C|[C|[C|[]]]]; discriminate C.
  - rewrite <- app_assoc in E. assert (stopI r') as S' by (apply (stopI_first c); [right; exact C|exact R']).
    destruct D' as [x' ts' D'|x' l' tx' tl' D' DL'].
    + destruct (U _ _ _ _ _ _ D D' E (stopI_comma _) S') as [_ X]. destruct R' as [q ->]. injection X as <- _. cbn in C.
      destruct C as [C|[C|[C|[]]]]; discriminate C.
    + rewrite <- app_assoc in E. destruct (U _ _ _ _ _ _ D D' E (stopI_comma _) (stopI_comma _)) as [X Y]. cbn [app] in Y. injection Y as Y.
      destruct (IH _ _ _ _ _ DL' Y C R R') as [Q ->]. cbn [map]. rewrite X, Q. auto.
Qed.

(* ---- initial values ---- *)
(* null and a string are values on their own and expressions *)
Fixpoint normG (x : gini) : gini :=
  match x with
  | GExp ANull => GNull
  | GExp (AText s) => GStr s
  | GBraces xs => GBraces (map normG xs)
  | _ => x
  end.
Inductive formG : gini -> list stok -> Prop :=
| fg_exp x e ts : derives 1 e ts -> normG x = normG (GExp e) -> formG x ts
| fg_array ns ts : commas (derives 1) ns ts -> formG (GArray ns) (TSym LxARRAY :: TSym cLP :: ts ++ [TSym cRP])
| fg_braces xs ts : derives_ginis xs ts -> formG (GBraces xs) (TSym cLC :: ts ++ [TSym cRC]).
Lemma up13 e ts k : derives 13 e ts -> (k <= 13)%nat -> derives k e ts.
Proof.
  intros D L. remember (13 - k)%nat as m eqn:M. revert k L M. induction m as [|m IH]; intros k L M.
  - replace k with 13%nat by lia. exact D.
  - apply d_up; [lia|]. apply IH; lia.
Qed.
Lemma formG_of x ts : derives_gini x ts -> formG x ts.
Proof.
  intros H. destruct H.
  - apply (fg_exp _ e); [assumption|reflexivity].
  - apply (fg_exp _ ANull); [apply up13; [apply d_null|lia]|reflexivity].
  - apply (fg_exp _ (AText s)); [apply up13; [apply d_str|lia]|reflexivity].
  - constructor; assumption.
  - constructor; assumption.
Qed.
Lemma exp1_unique e ts e' ts' r r' : derives 1 e ts -> derives 1 e' ts' -> ts ++ r = ts' ++ r' -> stopI r -> stopI r' -> e = e' /\ r = r'.
Proof. intros D D' E S S'. destruct (expr_unique _ _ _ _ _ _ _ D D' E (stopI_ends _ S) (stopI_ends _ S')) as (-> & _ & ->). auto. Qed.
Lemma exp_no k e ts r c w : derives k e ts -> ts ++ r = TSym c :: w -> c = LxARRAY \/ c = cLC -> False.
Proof.
  intros D E C. hd D. injection E as -> _. destruct HO as [B|[u B]].
  - cbn in B. destruct C as [-> | ->]; repeat (destruct B as [B|B]; [discriminate B|]); discriminate B.
  - injection B as ->. destruct C as [C|C]; destruct u; discriminate C.
Qed.
Scheme gi_mut := Minimality for derives_gini Sort Prop with gis_mut := Minimality for derives_ginis Sort Prop.
Combined Scheme gi_both from gi_mut, gis_mut.
Definition uniqG (x : gini) (ts : list stok) : Prop := forall x' ts' r r', derives_gini x' ts' -> ts ++ r = ts' ++ r' ->
  stopI r -> stopI r' -> normG x = normG x' /\ r = r'.
Definition uniqGs (xs : list gini) (ts : list stok) : Prop := forall xs' ts' r r', derives_ginis xs' ts' -> ts ++ r = ts' ++ r' ->
  first cRC r -> first cRC r' -> map normG xs = map normG xs' /\ r = r'.
Lemma uniqG_exp x e ts : derives 1 e ts -> normG x = normG (GExp e) -> uniqG x ts.
Proof.
  intros D N x' ts' r r' D' E S S'. apply formG_of in D'. destruct D' as [x' e' ts' D' N'|ns ts' D'|xs ts' D'].
  - destruct (exp1_unique _ _ _ _ _ _ D D' E S S') as [-> ->]. rewrite N, N'. auto.
  - exfalso. nrm E. eapply exp_no; [exact D|exact E|auto].
  - exfalso. nrm E. eapply exp_no; [exact D|exact E|auto].
Qed.
Lemma rc_stop r : first cRC r -> stopI r.
Proof. apply stopI_first. cbn. auto. Qed.
Lemma ginis_unique : (forall x ts, derives_gini x ts -> uniqG x ts) /\ (forall xs ts, derives_ginis xs ts -> uniqGs xs ts).
Proof.
  apply gi_both.
  - intros e ts D. exact (uniqG_exp _ e ts D eq_refl).
  - apply (uniqG_exp _ ANull); [apply up13; [apply d_null|lia]|reflexivity].
  - intros s. apply (uniqG_exp _ (AText s)); [apply up13; [apply d_str|lia]|reflexivity].
  - intros ns ts D x' ts' r r' D' E S S'. apply formG_of in D'. destruct D' as [x' e' ts' D' N'|ns' ts' D'|xs' ts' D']; nrm E.
    + exfalso. eapply exp_no; [exact D'|symmetry; exact E|auto].
    + injection E as E. destruct (commas_unique (fun e : ast => e) (derives 1) exp1_unique _ _ D _ _ _ _ cRP D' E) as [X Y]; [cbn; auto|eexists; reflexivity..|].
      rewrite !map_id in X. subst ns'. injection Y as ->. auto.
    + discriminate E.
  - intros xs ts D IH x' ts' r r' D' E S S'. apply formG_of in D'. destruct D' as [x' e' ts' D' N'|ns' ts' D'|xs' ts' D']; nrm E.
    + exfalso. eapply exp_no; [exact D'|symmetry; exact E|auto].
    + discriminate E.
    + injection E as E. destruct (IH _ _ _ _ D' E) as [X Y]; [eexists; reflexivity..|]. injection Y as ->. cbn [normG]. rewrite X. auto.
  - intros x ts D IH xs' ts' r r' D' E R R'. destruct D' as [x' ts' D'|x' l' tx' tl' D' DL'].
    + destruct (IH _ _ _ _ D' E (rc_stop _ R) (rc_stop _ R')) as [X ->]. cbn [map]. rewrite X. auto.
    + rewrite <- app_assoc in E. destruct (IH _ _ _ _ D' E (rc_stop _ R) (stopI_comma _)) as [_ X]. destruct R as [q ->]. discriminate X.
  - intros x l tx tl D IH DL IL xs' ts' r r' D' E R R'. rewrite <- app_assoc in E. destruct D' as [x' ts' D'|x' l' tx' tl' D' DL'].
    + destruct (IH _ _ _ _ D' E (stopI_comma _) (rc_stop _ R')) as [_ X]. destruct R' as [q ->]. discriminate X.
    + rewrite <- app_assoc in E. destruct (IH _ _ _ _ D' E (stopI_comma _) (stopI_comma _)) as [X Y]. cbn [app] in Y. injection Y as Y.
      destruct (IL _ _ _ _ DL' Y R R') as [Q ->]. cbn [map]. rewrite X, Q. auto.
Qed.
Definition normV (v : list Z * option gini) : list Z * option gini := (fst v, option_map normG (snd v)).
Lemma gvar_unique v ts v' ts' r r' : derives_gvar v ts -> derives_gvar v' ts' -> ts ++ r = ts' ++ r' -> stopI r -> stopI r' -> normV v = normV v' /\ r = r'.
Proof.
  intros H H' E S S'. assert (forall r, stopI r -> ~ exists w, r = TSym cEQ :: w) as NE.
  { intros a (c & q & -> & I) [w W]. injection W as -> _. cbn in I. repeat (destruct I as [I|I]; [discriminate I|]). exact I. }
  destruct H as [n|n x ts D]; destruct H' as [n'|n' x' ts' D']; nrm E; injection E as <- E.
  - auto.
  - exfalso. apply (NE _ S). rewrite E. eauto.
  - exfalso. apply (NE _ S'). rewrite <- E. eauto.
  - destruct (proj1 ginis_unique _ _ D _ _ _ _ D' E S S') as [X ->]. unfold normV. cbn [fst snd option_map]. rewrite X. auto.
Qed.

(* ---- structs ---- *)
Lemma name_unique n ts n' ts' r r' : derives_name n ts -> derives_name n' ts' -> ts ++ r = ts' ++ r' -> stopI r -> stopI r' -> n = n' /\ r = r'.
Proof. intros -> -> E _ _. cbn [app] in E. injection E as -> ->. auto. Qed.
Lemma names_first ns ts : commas derives_name ns ts -> exists n q, ts = TName n :: q.
Proof. intros H. destruct H as [x ts H|x l tx tl H _]; rewrite H; cbn [app]; eauto. Qed.
Lemma fline_unique f ts f' ts' r r' : derives_fline f ts -> derives_fline f' ts' -> ts ++ r = ts' ++ r' -> f = f' /\ r = r'.
Proof.
  intros H H' E. destruct H as [t d ns ts D]; destruct H' as [t' d' ns' ts' D']. nrm E.
  destruct (names_first _ _ D) as (a & q & Q). destruct (names_first _ _ D') as (a' & q' & Q').
  destruct (ty_unique _ _ _ _ _ _ E) as (-> & -> & X); [rewrite Q; discriminate|rewrite Q'; discriminate|].
  destruct (commas_unique (fun e : list Z => e) derives_name name_unique _ _ D _ _ _ _ cSEMI D' X) as [Y W]; [cbn; auto|eexists; reflexivity..|].
  rewrite !map_id in Y. subst ns'. injection W as ->. auto.
Qed.
Lemma fline_first f ts : derives_fline f ts -> exists t r, ts = tyTok t :: r.
Proof. intros H. destruct H. eauto. Qed.
Lemma flines_unique fs ts : derives_flines fs ts -> forall fs' ts' r r', derives_flines fs' ts' -> ts ++ r = ts' ++ r' -> first cRC r -> first cRC r' -> fs = fs' /\ r = r'.
Proof.
  assert (forall l tl, derives_flines l tl -> forall r, first cRC (tl ++ r) -> False) as NF.
  { intros l tl H r [q Q]. destruct H as [f t0 H|f l t0 t1 H _]; destruct (fline_first _ _ H) as (t & w & ->); cbn [app] in Q; injection Q as Q _; exact (tyTok_no t cRC (or_intror eq_refl) Q). }
  induction 1 as [f ts D|f l tf tl D DL IH]; intros fs' ts' r r' D' E R R'.
  - destruct D' as [f' ts' D'|f' l' tf' tl' D' DL'].
    + destruct (fline_unique _ _ _ _ _ _ D D' E) as [-> ->]. auto.
    + rewrite <- app_assoc in E. destruct (fline_unique _ _ _ _ _ _ D D' E) as [-> ->]. exfalso. exact (NF _ _ DL' _ R).
  - rewrite <- app_assoc in E. destruct D' as [f' ts' D'|f' l' tf' tl' D' DL'].
    + destruct (fline_unique _ _ _ _ _ _ D D' E) as [-> <-]. exfalso. exact (NF _ _ DL _ R').
    + rewrite <- app_assoc in E. destruct (fline_unique _ _ _ _ _ _ D D' E) as [-> X]. destruct (IH _ _ _ _ DL' X R R') as [-> ->]. auto.
Qed.

(* ---- functions ---- *)
Lemma paramToks_eq p p' r r' : paramToks p ++ r = paramToks p' ++ r' -> p = p' /\ r = r'.
Proof.
  destruct p as [[t d] n], p' as [[t' d'] n']. cbn [paramToks]. intros E. nrm E.
  destruct (ty_unique _ _ _ _ _ _ E) as (-> & -> & X); [discriminate..|]. injection X as -> ->. auto.
Qed.
Lemma paramToks_no p r c q : c = cRP \/ c = LxDOTDOTDOT -> paramToks p ++ r = TSym c :: q -> False.
Proof. intros [-> | ->] E; destruct p as [[t d] n]; cbn [paramToks app] in E; injection E as E _; destruct t; discriminate E. Qed.
Lemma params_first ps k ts r : derives_params ps k ts -> ps <> [] \/ k = PDots -> first cRP (ts ++ r) -> False.
Proof.
  intros H N [q Q]. destruct H as [| |p|p|p ps k ts H1 H2].
  - destruct N as [N|N]; [congruence|discriminate N].
  - discriminate Q.
  - eapply paramToks_no; [|exact Q]; auto.
  - rewrite <- app_assoc in Q. eapply paramToks_no; [|exact Q]; auto.
  - rewrite <- app_assoc in Q. eapply paramToks_no; [|exact Q]; auto.
Qed.
Lemma params_unique ps k ts : derives_params ps k ts -> forall ps' k' ts' r r', derives_params ps' k' ts' -> ts ++ r = ts' ++ r' -> first cRP r -> first cRP r' ->
  ps = ps' /\ k = k' /\ r = r'.
Proof.
  induction 1 as [| |p|p|p ps k ts N D IH]; intros ps' k' ts' r r' D' E R R'; destruct R as [q ->], R' as [q' ->].
  - destruct D' as [| |p'|p'|p' ps' k' ts' N' D']; nrm E; try discriminate E; [auto|exfalso; eapply paramToks_no; [|symmetry; exact E]; auto..].
  - destruct D' as [| |p'|p'|p' ps' k' ts' N' D']; nrm E; try discriminate E; [injection E as ->; auto|exfalso; eapply paramToks_no; [|symmetry; exact E]; auto..].
  - destruct D' as [| |p'|p'|p' ps' k' ts' N' D']; nrm E; try (exfalso; eapply paramToks_no; [|exact E]; auto; fail); destruct (paramToks_eq _ _ _ _ E) as [-> X]; try discriminate X. auto.
  - destruct D' as [| |p'|p'|p' ps' k' ts' N' D']; nrm E; try (exfalso; eapply paramToks_no; [|exact E]; auto; fail); destruct (paramToks_eq _ _ _ _ E) as [-> X]; try discriminate X.
    + injection X as ->. auto.
    + injection X as X. exfalso. eapply params_first; [exact D'|exact N'|rewrite <- X; eexists; reflexivity].
  - destruct D' as [| |p'|p'|p' ps' k' ts' N' D']; nrm E; try (exfalso; eapply paramToks_no; [|exact E]; auto; fail); destruct (paramToks_eq _ _ _ _ E) as [-> X]; try discriminate X.
    + injection X as X. exfalso. eapply params_first; [exact D|exact N|rewrite X; eexists; reflexivity].
    + injection X as X. destruct (IH _ _ _ _ _ D' X) as (-> & -> & ->); [eexists; reflexivity..|]. auto.
Qed.
Lemma body_unique b ts b' ts' r r' : derives_body b ts -> derives_body b' ts' -> ts ++ r = ts' ++ r' -> b = b' /\ r = r'.
Proof.
  intros H H' E. destruct H as [|q ts D]; destruct H' as [|q' ts' D']; nrm E; try discriminate E; injection E as E.
  - auto.
  - destruct (proj2 stmts_unique _ _ D _ _ _ _ D' E) as [-> X]; [eexists; reflexivity..|]. injection X as ->. auto.
Qed.

(* ---- source files ---- *)
Definition normT (x : top) : top := match x with PVars pub t d vs => PVars pub t d (map normV vs) | _ => x end.
Lemma pub_ty pub t pub' t' r r' : pubToks pub ++ tyTok t :: r = pubToks pub' ++ tyTok t' :: r' -> pub = pub' /\ tyTok t :: r = tyTok t' :: r'.
Proof. intros E. destruct pub, pub'; cbn [pubToks app] in E; [injection E as E1 E2; rewrite E1, E2; auto|destruct t'; discriminate E|destruct t; discriminate E|auto]. Qed.
Lemma pub_no pub t r c q : c = LxSTRUCT \/ c = LxTYPEDEF -> pubToks pub ++ tyTok t :: r = TSym c :: q -> False.
Proof. intros [-> | ->] E; destruct pub; [discriminate E|destruct t; discriminate E|discriminate E|destruct t; discriminate E]. Qed.
Lemma gvars_first vs ts : commas derives_gvar vs ts -> exists n q, ts = TName n :: q.
Proof. intros H. destruct H as [x ts H|x l tx tl H _]; destruct H; cbn [app]; eauto. Qed.
(* after the first name of global variables comes no parenthesis *)
Lemma gvars_second vs ts r n q : commas derives_gvar vs ts -> ts ++ TSym cSEMI :: r = TName n :: TSym cLP :: q -> False.
Proof. intros H E. destruct H as [x ts H|x l tx tl H _]; destruct H; nrm E; discriminate E. Qed.
Lemma top_unique x ts x' ts' r r' : derives_top x ts -> derives_top x' ts' -> ts ++ r = ts' ++ r' -> normT x = normT x' /\ r = r'.
Proof.
  intros H H' E.
  destruct H as [n fs ts D|n|pub t d n ps k b tp tb DP DB|pub t d vs ts D].
  - destruct H' as [n' fs' ts' D'|n'|pub' t' d' n' ps' k' b' tp' tb' DP' DB'|pub' t' d' vs' ts' D']; nrm E; try discriminate E; try (exfalso; eapply pub_no; [|symmetry; exact E]; auto; fail).
    injection E as -> E. destruct (flines_unique _ _ D _ _ _ _ D' E) as [-> X]; [eexists; reflexivity..|]. injection X as ->. auto.
  - destruct H' as [n' fs' ts' D'|n'|pub' t' d' n' ps' k' b' tp' tb' DP' DB'|pub' t' d' vs' ts' D']; nrm E; try discriminate E; try (exfalso; eapply pub_no; [|symmetry; exact E]; auto; fail).
    injection E as -> ->. auto.
  - destruct H' as [n' fs' ts' D'|n'|pub' t' d' n' ps' k' b' tp' tb' DP' DB'|pub' t' d' vs' ts' D']; nrm E; try (exfalso; eapply pub_no; [|exact E]; auto; fail);
      destruct (pub_ty _ _ _ _ _ _ E) as [-> X].
    + destruct (ty_unique _ _ _ _ _ _ X) as (-> & -> & Y); [discriminate..|]. injection Y as -> Y.
      destruct (params_unique _ _ _ DP _ _ _ _ _ DP' Y) as (-> & -> & W); [eexists; reflexivity..|]. injection W as W.
      destruct (body_unique _ _ _ _ _ _ DB DB' W) as [-> ->]. auto.
    + exfalso. destruct (gvars_first _ _ D') as (a & q & Q). destruct (ty_unique _ _ _ _ _ _ X) as (-> & -> & Y); [discriminate|rewrite Q; discriminate|].
      exact (gvars_second _ _ _ _ _ D' (eq_sym Y)).
  - destruct (gvars_first _ _ D) as (a & q & Q).
    destruct H' as [n' fs' ts' D'|n'|pub' t' d' n' ps' k' b' tp' tb' DP' DB'|pub' t' d' vs' ts' D']; nrm E; try (exfalso; eapply pub_no; [|exact E]; auto; fail);
      destruct (pub_ty _ _ _ _ _ _ E) as [-> X].
    + exfalso. destruct (ty_unique _ _ _ _ _ _ X) as (-> & -> & Y); [rewrite Q; discriminate|discriminate|].
      exact (gvars_second _ _ _ _ _ D Y).
    + destruct (gvars_first _ _ D') as (a' & q' & Q'). destruct (ty_unique _ _ _ _ _ _ X) as (-> & -> & Y); [rewrite Q; discriminate|rewrite Q'; discriminate|].
      destruct (commas_unique normV derives_gvar gvar_unique _ _ D _ _ _ _ cSEMI D' Y) as [V W]; [cbn; auto|eexists; reflexivity..|].
      injection W as ->. cbn [normT]. rewrite V. auto.
Qed.
Lemma top_first x ts : derives_top x ts -> exists a r, ts = a :: r.
Proof. intros H. destruct H; cbn [app]; eauto; destruct pub; cbn [pubToks app]; eauto. Qed.
Theorem prog_unique p ts : derives_prog p ts -> forall p', derives_prog p' ts -> map normT p = map normT p'.
Proof.
  assert (forall p x q tx tq, derives_prog p [] -> derives_top x tx -> derives_prog q tq -> tx ++ tq = [] -> False) as NN.
  { intros p0 x q tx tq _ H _ E. destruct (top_first _ _ H) as (a & r & ->). discriminate E. }
  induction 1 as [|x p tx tp D DP IH]; intros p' D'.
  - inversion D' as [|x p tx tp D DP E0 E]; [reflexivity|]. subst. destruct (top_first _ _ D) as (a & r & ->). discriminate.
  - inversion D' as [E0 E|x' p1 tx' tp' D1 DP1 E0 E].
    + destruct (top_first _ _ D) as (a & r & ->). discriminate.
    + subst p'. destruct (top_unique _ _ _ _ _ _ D D1 (eq_sym E)) as [X Y]. subst tp'. cbn [map]. rewrite X, (IH _ DP1). reflexivity.
Qed.
