(* The parser builds the lists of initialisers to the left (parser.c:1034-1168). *)
From Coq Require Import ZArith Bool Lia List.
From Verif Require Import Lexer NameTable SyTree OpTree COpTree Parser ParserStmt ParseLabs ProgSpec ProgTop DataSpec DataProofs DataParse CFile CFileSpec RtcDataProofs.
Import ListNotations.
Open Scope Z_scope.

Definition elem (r : dat * gs) : Prop := single (fst r) /\ lefty (fst r).
Lemma catD_lefty a b : a = DNull \/ lefty a -> single b -> lefty b -> lefty (catD a b).
Proof.
  intros A S L. assert (E : a = DNull \/ (lefty a /\ catD a b = DSemi a b)).
  { destruct A as [A|A]; [left; exact A|right]. split; [exact A|]. destruct a; try (destruct A; fail); destruct b; try (destruct S; fail); reflexivity. }
  destruct E as [-> | [L' ->]]; [exact L|]. split; [exact L'|]. split; [exact S|exact L].
Qed.
Lemma el_getCnst {W : word} typ g : ac (getCnst typ g) elem.
Proof. eapply ac_mono; [apply ty_getCnst0|]. intros [d g'] [_ B]. cbn [fst] in *. unfold elem. cbn [fst]. destruct d; try (destruct B; fail); split; exact I. Qed.
Lemma el_fieldInit {W : word} i g : ac (fieldInit i g) elem.
Proof.
  unfold fieldInit. cbv zeta. destruct (_ <=? _); [eapply ac_bind; [apply ac_tok|]; intros; split; exact I|].
  destruct (_ <? _).
  { destruct (gIsTok LxSTRING g) as [g1|].
    - destruct (_ || _); [exact I|]. destruct (gStr g1) as [l g2]. split; exact I.
    - destruct (gIsTok LxNUL g) as [g1|]; [split; exact I|exact I]. }
  repeat (destruct (_ =? _); [apply el_getCnst|]). exact I.
Qed.
Lemma el_structLoop {W : word} f : forall i node g, node = DNull \/ lefty node -> ac (structLoop f i node g) (fun r => lefty (fst r)).
Proof.
  induction f as [|f IH]; intros i node g N; [exact I|]. cbn [structLoop]. destruct (_ || _); [exact I|].
  eapply ac_bind; [apply el_fieldInit|]. intros [n g1] [S L]. cbv zeta. cbn [fst snd] in *. pose proof (catD_lefty _ _ N S L) as K.
  destruct (gIsTok cCOMMA g1) as [g2|]; [apply IH; right; exact K|]. destruct (_ && _); [exact I|exact K].
Qed.
Lemma el_getStructInit {W : word} g : ac (getStructInit g) elem.
Proof.
  unfold getStructInit. destruct (gIsTok LxNUL g) as [g1|]; [split; exact I|]. eapply ac_bind; [apply ac_tok|]. intros g1 _.
  eapply ac_bind; [apply el_structLoop; left; reflexivity|]. intros [n g2] L. eapply ac_bind; [apply ac_tok|]. intros g3 _. split; [exact I|exact L].
Qed.
Lemma el_itemLoop (item : gs -> pres (dat * gs)) : (forall g, ac (item g) elem) -> forall f node g, node = DNull \/ lefty node -> ac (itemLoop item f node g) (fun r => lefty (fst r)).
Proof.
  intros HI. induction f as [|f IH]; intros node g N; [exact I|]. cbn [itemLoop]. eapply ac_bind; [apply HI|]. intros [n g1] [S L]. cbv zeta. cbn [fst snd] in *.
  pose proof (catD_lefty _ _ N S L) as K. destruct (gIsTok cCOMMA g1) as [g2|]; [apply IH; right; exact K|exact K].
Qed.
Lemma el_getGArrayInit0 {W : word} (init : Z -> gs -> pres (dat * gs)) : (forall d g, ac (init d g) elem) -> forall dim g, ac (getGArrayInit0 init dim g) elem.
Proof.
  intros HI dim g. unfold getGArrayInit0.
  assert (K : ac (if dim <=? 1 then if curType g <=? 0 then itemLoop getStructInit (gfuel g) DNull g
                  else if (curType g =? TyINT) || (curType g =? TyCHAR) || (curType g =? TyBOOL) then itemLoop (getCnst (curType g)) (gfuel g) DNull g else PErr XBug
                  else itemLoop (init (dim - 1)) (gfuel g) DNull g) (fun r => lefty (fst r))).
  { destruct (_ <=? _); [destruct (_ <=? _); [|destruct (_ || _); [|exact I]]|]; (apply el_itemLoop; [|left; reflexivity]); intros; [apply el_getStructInit|apply el_getCnst|apply HI]. }
  eapply ac_bind; [exact K|]. intros [n g1] L. split; [exact I|exact L].
Qed.
Lemma el_getArray {W : word} dim g : ac (getArray dim g) elem.
Proof.
  unfold getArray. eapply ac_bind; [apply ac_tok|]. intros g1 _. eapply ac_bind; [apply ty_getArray0|]. intros [x g2] _. eapply ac_bind; [apply ac_tok|]. intros g3 _. split; exact I.
Qed.
Lemma el_getGArrayInitF {W : word} f : forall dim g, ac (getGArrayInitF f dim g) elem.
Proof.
  induction f as [|f IH]; intros dim g; [exact I|]. cbn [getGArrayInitF]. destruct (gIsTok cLC g) as [g1|].
  { eapply ac_bind; [apply el_getGArrayInit0; exact IH|]. intros [n g2] E. eapply ac_bind; [apply ac_tok|]. intros g3 _. exact E. }
  destruct (gIsTok LxSTRING g) as [g1|]; [destruct (_ || _); [exact I|]; destruct (gStr g1); split; exact I|].
  destruct (gIsTok LxARRAY g) as [g1|]; [apply el_getArray|]. destruct (gIsTok LxNUL g) as [g1|]; [split; exact I|exact I].
Qed.
Lemma el_readInit g : ac (readInit g) elem.
Proof.
  unfold readInit. destruct (_ <? _); [apply el_getGArrayInitF|]. destruct (_ || _); [apply el_getCnst|]. destruct (_ <=? _); [apply el_getStructInit|exact I].
Qed.
Theorem readInit_lefty g d g' : readInit g = POk (d, g') -> lefty d.
Proof. intros H. pose proof (el_readInit g) as K. rewrite H in K. exact (proj2 K). Qed.
Lemma renD_single f d : single d -> single (renD f d).
Proof. destruct d; cbn [single renD]; auto. Qed.
Lemma renD_lefty f d : lefty d -> lefty (renD f d).
Proof.
  induction d as [|v|i|s|a IHa b IHb|x IH r|x IH r]; cbn [lefty renD]; intros L; auto. destruct L as (A & B & C). split; [auto|]. split; [apply renD_single; exact B|auto].
Qed.
