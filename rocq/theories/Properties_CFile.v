(* C62: initialised data in the C text.  C63: the strings and the temporaries of the C text.
   C64: the C text as C. *)
From Coq Require Import ZArith Bool Lia String Ascii List Permutation.
From Verif Require Import Lexer NameTable SyTree OpTree COpTree Parser ParserStmt ParseLabs ProgSpec DataSpec DataProofs CCode CTree AsmText TacRun CFile CDataSpec CDataProofs CDeclSpec AsmRead CDeclProofs CFileSpec CFileProofs CFileTop.
Import ListNotations.
Open Scope Z_scope.

(* ==== C62 ==== *)
(* In every file that is translated, each initialised variable is printed after definitions
   that describe the initialiser read for it, member for member, with C types that agree
   (holds, CDataSpec.v), the temporaries used being exactly those defined; under the
   condition that the scalars are numbers (plain).  Missing: C62_address_refuted *)
Theorem C62_data_partial (opt krn : bool) (file : list Z) (ps a b : list cpiece) (t : table) (idx : Z) (ds : list cdef) (x : citem) :
  pieces opt krn file = Some ps -> ps = a ++ PDat t idx ds x :: b ->
  exists g g' d i f,
    readInit g = POk (d, g') /\ inits d = [i] /\ gnt g' = t /\ curType g = typeAt t idx /\ curDim g = dimAt t idx /\
    typed (typeAt t idx) (Z.to_nat (dimAt t idx)) i /\ printed g' f (initStrs i) a /\
    (plain (typeAt t idx) (Z.to_nat (dimAt t idx)) i ->
     exists ls, holds (typeAt t idx) ds (depth (typeAt t idx) (Z.to_nat (dimAt t idx))) x (renumber f i) ls /\ Permutation ls (labels ds)) /\
    (forall j, i = IName j -> ds = [] /\ x = IcAddr j).
Proof.
  intros P E. destruct (pieces_right _ _ _ _ P) as (n & m & [_ _ _ R]). destruct (R _ _ _ E) as [(g & g' & d & i & f & A & B & C & D & F & G & H & K & L) _].
  exists g, g', d, i, f. rewrite <- D, <- F. do 7 (split; [first [assumption|reflexivity]|]). split; assumption.
Qed.
Print Assumptions C62_data_partial.

(* the text of the definitions can be read back (CDeclSpec.v): the same definitions of the
   same temporaries with the type of the variable, then the variable with its asterisks, its
   name and its value, static unless it is public.  Missing: an address as the value *)
Theorem C62_text_partial (t : table) (idx : Z) (ty : list Z) (ds : list cdef) (x : citem) :
  typeText t (typeAt t idx) = Some (ty ++ [32]) -> clean ty -> (forall r, strip (codes "static ") (ty ++ 32 :: r) = None) -> clean (nameAt t idx) ->
  Forall smallDef ds -> readable x ->
  exists text, pieceText (PDat t idx ds x) = Some text /\
    readData text = Some (map (fun d => (ty, d)) ds, (negb (pubAt t idx), ty, stars (typeAt t idx) (dimAt t idx) false, nameAt t idx, x)).
Proof. intros A B C D. exact (data_read t idx ty A B C D ds x). Qed.
Print Assumptions C62_text_partial.

(* the case of a file: the data of three variables, the last two read back from their text *)
Definition C62_src : list Z := codes "char[][] a = {{'a','b'}, ""x"", array(3)}; public int[][] b = array(2,3); struct X {int n; char[] s;}; X[] t = {{1,""a""},null};".
Definition C62_ps : list cpiece := Eval vm_compute in match pieces true false C62_src with Some ps => ps | None => [] end.
Example C62_ex_file : pieces true false C62_src = Some C62_ps. Proof. vm_compute. reflexivity. Qed.
Definition C62_t : table := Eval vm_compute in match nth_error C62_ps 5 with Some (PDat t _ _ _) => t | _ => [] end.
Definition C62_ds : list cdef := [CObj 6 0 [IcNum 1; IcStr 1]; CArr 7 1 [IcTmp true 6; IcNum 0]].
Example C62_ex_data : nth_error C62_ps 5 = Some (PDat C62_t 5 C62_ds (IcTmp false 7)). Proof. vm_compute. reflexivity. Qed.
Definition C62_i (f : Z -> Z) : init := IList false [IList false [IWord 1; IStr (f 2)]; IWord 0].
Example C62_ex_plain : plain (typeAt C62_t 5) (Z.to_nat (dimAt C62_t 5)) (C62_i (fun l => l)).
Proof.
  change (typeAt C62_t 5) with (-2). change (Z.to_nat (dimAt C62_t 5)) with 1%nat. unfold C62_i. change false with (byteType (-2) && (1 =? 1)%nat) at 1.
  apply (P_list (-2) 0); [discriminate|]. constructor; [|constructor; [apply P_null|constructor]]. apply P_struct; [lia|]. repeat constructor.
Qed.
Example C62_ex_holds : holds (-2) C62_ds 2 (IcTmp false 7) (C62_i (fun _ => 1)) [7; 6].
Proof.
  unfold C62_ds, C62_i. change ([CObj 6 0 [IcNum 1; IcStr 1]; CArr 7 1 [IcTmp true 6; IcNum 0]]) with ([CObj 6 0 [IcNum 1; IcStr 1]] ++ CArr 7 1 [IcTmp true 6; IcNum 0] :: []).
  change false with (byteType (-2) && (1 =? 0)%nat) at 2. apply H_list; [discriminate|]. change [6] with ([6] ++ [] ++ []).
  constructor; [|constructor; [apply H_null|constructor]].
  change [CObj 6 0 [IcNum 1; IcStr 1]] with ([] ++ CObj 6 0 [IcNum 1; IcStr 1] :: []). apply H_obj; [lia|]. repeat constructor.
Qed.
Example C62_ex_text :
  match pieceText (PDat C62_t 5 C62_ds (IcTmp false 7)) with
  | Some tx => tx = codes "static X _cmm_6T={1,_cmm_1S};" ++ eol ++ codes "static X *_cmm_7T[]={&_cmm_6T,0};" ++ eol ++ codes "static X **t=_cmm_7T;" ++ eol /\
               readData tx = Some ([(codes "X", CObj 6 0 [IcNum 1; IcStr 1]); (codes "X", CArr 7 1 [IcTmp true 6; IcNum 0])], (true, codes "X", 2%nat, codes "t", IcTmp false 7))
  | None => False
  end.
Proof. vm_compute. split; reflexivity. Qed.
Example C62_ex_text_hyps : typeText C62_t (typeAt C62_t 5) = Some (codes "X" ++ [32]) /\ clean (codes "X") /\ (forall r, strip (codes "static ") (codes "X" ++ 32 :: r) = None) /\
  clean (nameAt C62_t 5) /\ Forall smallDef C62_ds /\ readable (IcTmp false 7).
Proof.
  split; [vm_compute; reflexivity|]. split; [vm_compute; reflexivity|]. split; [intros r; vm_compute; reflexivity|]. split; [vm_compute; reflexivity|].
  split; [|unfold readable, small; lia]. unfold C62_ds, smallDef, readable, small. repeat constructor; try lia; discriminate.
Qed.

(* The compiler accepts addresses in a list, the translator does not: it stops with its
   message for an internal error (cCode.c:520-522) *)
Theorem C62_address_refuted : exists file out, compile true false file = COut out /\ pieces true false file = None.
Proof. exists (codes "void f(){} int[] t = {addrof(f)};"). eexists. split; vm_compute; reflexivity. Qed.
Print Assumptions C62_address_refuted.

(* ==== C63 ==== *)
(* In every file that is translated, the strings are defined once each, with the numbers 0,
   1, 2, .. in the order of the text; so are the temporaries; and each string is defined
   before the function or the variable that uses it *)
Theorem C63_numbers (opt krn : bool) (file : list Z) (ps : list cpiece) :
  pieces opt krn file = Some ps ->
  (exists n, flat_map definesStr ps = upto n) /\ (exists m, flat_map definesTmp ps = upto m) /\
  forall a p b, ps = a ++ p :: b -> incl (usesStr p) (flat_map definesStr a).
Proof.
  intros P. destruct (pieces_right _ _ _ _ P) as (n & m & [[A _] _ [B _] R]).
  split; [exists (Z.to_nat n); rewrite upto_labSeq; exact A|]. split; [exists (Z.to_nat m); rewrite upto_labSeq; exact B|].
  intros a p b E. exact (proj2 (R a p b E)).
Qed.
Print Assumptions C63_numbers.
(* the body of each function is the one the parser reads for it, after the optimiser if that
   is asked for, and each string in it has become the one defined with the same characters *)
Theorem C63_functions (opt krn : bool) (file : list Z) (ps a b : list cpiece) (t : table) (idx : Z) (root : stmt) :
  pieces opt krn file = Some ps -> ps = a ++ PFun t idx root :: b ->
  exists g g' body r f,
    getBlock krn (getStat krn) g = POk (body, g') /\ gnt g' = t /\ funcIdx g = idx /\
    (if opt then cOptTree body = Ok r else r = body) /\ root = renS f r /\
    forall l, In (RStr l) (refsS r) -> exists s, given g' l s /\ In (PStr (f l) s) a.
Proof.
  intros P E. destruct (pieces_right _ _ _ _ P) as (n & m & [_ _ _ R]). destruct (R _ _ _ E) as [(g & g' & d & r & f & A & B & C & D & F & G) _].
  exists g, g', d, r, f. repeat (split; [assumption|]). intros l L. apply G. apply bodyStrs_in. exact L.
Qed.
Print Assumptions C63_functions.
(* a string is printed with one number only, so it is determined by it *)
Theorem C63_unique (opt krn : bool) (file : list Z) (ps : list cpiece) (k : Z) (s s' : list Z) :
  pieces opt krn file = Some ps -> In (PStr k s) ps -> In (PStr k s') ps -> s = s'.
Proof.
  intros P. destruct (C63_numbers _ _ _ _ P) as ((n & N) & _). assert (NoDup (flat_map definesStr ps)) as ND.
  { rewrite N. unfold upto. apply FinFun.Injective_map_NoDup; [intros x y; apply Nat2Z.inj|apply seq_NoDup]. }
  clear N P. induction ps as [|p ps IH]; intros A B; [destruct A|]. cbn [flat_map] in ND.
  destruct A as [->|A], B as [B|B].
  - injection B as <-. reflexivity.
  - cbn [definesStr app] in ND. inversion ND as [|? ? X Y]. subst. exfalso. apply X. apply in_flat_map. exists (PStr k s'). split; [exact B|left; reflexivity].
  - subst p. cbn [definesStr app] in ND. inversion ND as [|? ? X Y]. subst. exfalso. apply X. apply in_flat_map. exists (PStr k s). split; [exact A|left; reflexivity].
  - apply IH; try assumption. apply NoDup_app_r in ND. exact ND.
Qed.
Print Assumptions C63_unique.

(* two strings and temporaries in one text with different numbers have different names *)
Theorem C63_names (k l : Z) : small k -> small l ->
  (tmpLab k = tmpLab l -> k = l) /\ (strLab k = strLab l -> k = l) /\ tmpLab k <> strLab l.
Proof.
  intros K L. assert (forall c d, codes "_cmm_" ++ dec k ++ [c] = codes "_cmm_" ++ dec l ++ [d] -> k = l /\ c = d) as H.
  { intros c d E. apply app_inv_head in E. apply app_inj_tail in E. destruct E as [E ->]. split; [|reflexivity].
    pose proof (proj1 (dec_read k K)) as A. rewrite E, (proj1 (dec_read l L)) in A. injection A as ->. reflexivity. }
  split; [|split].
  - intros E. exact (proj1 (H _ _ E)).
  - intros E. exact (proj1 (H _ _ E)).
  - intros E. destruct (H _ _ E) as [_ X]. discriminate X.
Qed.
Print Assumptions C63_names.
Definition C63_src : list Z := codes "int f(){ return 0; } int[] a = {1, 2}; char[] g(){ char[] s = ""u""; if (s==null) s=""w""; return ""v""; } int[] b = {3};".
Definition C63_ps : list cpiece := Eval vm_compute in match pieces true false C63_src with Some ps => ps | None => [] end.
Example C63_ex : pieces true false C63_src = Some C63_ps /\ flat_map definesStr C63_ps = [0; 1; 2] /\ flat_map definesTmp C63_ps = [0; 1] /\
  map usesStr C63_ps = [[]; []; []; []; []; [0; 1; 2]; []] /\ nth_error C63_ps 3 = Some (PStr 1 (codes "w")).
Proof. vm_compute. repeat split; reflexivity. Qed.

(* ==== C64 ==== *)
(* the text is that of the pieces, one after the other, and exists whenever the file is
   translated *)
Theorem C64_text (opt krn : bool) (file : list Z) (ps : list cpiece) :
  pieces opt krn file = Some ps -> Forall (fun p => pieceText p <> None) ps /\ exists text, translate opt krn file = Some text.
Proof.
  intros P. destruct (pieces_right _ _ _ _ P) as (n & m & [_ T _ _]). split; [exact T|]. unfold translate. rewrite P. clear P.
  induction T as [|p ps H T IH]; [exists []; reflexivity|]. destruct IH as (tx & IH). cbn [textOf]. rewrite IH. destruct (pieceText p) as [u|]; [|destruct (H eq_refl)]. exists (u ++ tx). reflexivity.
Qed.
Print Assumptions C64_text.
Example C64_ex : match translate true false C62_src with Some tx => (200 <? Z.of_nat (List.length tx)) = true | None => False end.
Proof. vm_compute. reflexivity. Qed.
(* The text need not be C.  A type name that is declared by typedef is used, but nothing
   declares it: the variable is the only piece *)
Theorem C64_typedef_refuted : exists file t i,
  pieces true false file = Some [PBss t i] /\ typeText t (typeAt t i) = Some (codes "P ") /\ translate true false file = Some (codes "static P *q;" ++ eol).
Proof.
  exists (codes "typedef P; P q;"). eexists. eexists. split; [vm_compute; reflexivity|]. split; vm_compute; reflexivity.
Qed.
Print Assumptions C64_typedef_refuted.
(* a variable of the source can have the name of a temporary, which is then defined twice *)
Theorem C64_clash_refuted : exists file ps t i k,
  pieces true false file = Some ps /\ In (PBss t i) ps /\ nameAt t i = tmpLab k /\ In k (flat_map definesTmp ps) /\
  translate true false file = Some (codes "static int _cmm_0T;" ++ eol ++ codes "static int _cmm_0T[]={1};" ++ eol ++ codes "static int *a=_cmm_0T;" ++ eol).
Proof.
  exists (codes "int _cmm_0T; int[] a = {1};"). eexists. eexists. eexists. exists 0. split; [vm_compute; reflexivity|]. split; [left; reflexivity|].
  split; [vm_compute; reflexivity|]. split; [left; reflexivity|vm_compute; reflexivity].
Qed.
Print Assumptions C64_clash_refuted.
(* a name of the source can be a keyword of C *)
Theorem C64_keyword_refuted : translate true false (codes "int double;") = Some (codes "static int double;" ++ eol).
Proof. vm_compute. reflexivity. Qed.
Print Assumptions C64_keyword_refuted.
