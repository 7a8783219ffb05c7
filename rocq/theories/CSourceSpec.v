(* What C text belongs to a source file of the language, stated from the source trees of
   ProgGram.v.  The words of the C text are computed from the source alone; the name table is
   used for the rules of the language and inside function bodies (CCode.v, C29) and data
   (CDataSpec.v, C62).  Nothing here refers to how the translator prints declarations.
   hid: the declaration comes from a system header, for which nothing is printed. *)
From Coq Require Import ZArith Bool String Ascii List Permutation.
From Verif Require Import Lexer NameTable SyTree OpTree COpTree VM VmCode Parser ParserStmt ParseSpec StmtSpec ProgGram DataSpec CCode AsmText CFile CDataSpec CFileSpec.
Import ListNotations.
Open Scope Z_scope.

Definition nl : list Z := [10].
(* the word of a type; boolean is char *)
Definition cWord (t : tyname) : list Z :=
  match t with
  | TnInt => codes "int" | TnChar => codes "char" | TnBool => codes "char" | TnVoid => codes "void"
  | TnIntr => codes "interrupt" | TnUser s => s
  end.
(* one asterisk for each dimension, and one more for a structure, which is a reference *)
Definition cStars (t : tyname) (d : nat) : list Z := repeat 42 (match t with TnUser _ => S d | _ => d end).
Definition cType (t : tyname) (d : nat) : list Z := cWord t ++ [32] ++ cStars t d.
(* what is not public is static *)
Definition cDecl (pub : bool) (t : tyname) (d : nat) (nm : list Z) : list Z :=
  (if pub then [] else codes "static ") ++ cType t d ++ nm.
Definition cParam (p : param) : list Z := let '(t, d, n) := p in cType t d ++ n.
Fixpoint between (sep : list Z) (l : list (list Z)) : list Z :=
  match l with [] => [] | [a] => a | a :: r => a ++ sep ++ between sep r end.
Definition cHead (pub : bool) (t : tyname) (d : nat) (nm : list Z) (ps : list param) (k : ptail) : list Z :=
  cDecl pub t d nm ++ codes "(" ++
  between (codes ",") (map cParam ps ++ match k with PDots => [codes "..."] | _ => [] end) ++ codes ")".
Definition cMember (t : tyname) (d : nat) (n : list Z) : list Z := cType t d ++ n ++ codes ";" ++ nl.
Definition cMembers (f : fline) : list Z := flat_map (cMember (flT f) (flD f)) (flN f).
Definition cStruct (nm : list Z) (fs : list fline) : list Z :=
  codes "typedef struct _" ++ nm ++ codes " " ++ nm ++ codes ";" ++ nl ++
  codes "struct _" ++ nm ++ codes " {" ++ nl ++ flat_map cMembers fs ++ codes "};" ++ nl.
(* the strings of a declaration, numbered from s *)
Fixpoint cStrs (s : Z) (ss : list (list Z)) : list Z :=
  match ss with
  | [] => []
  | x :: r => codes "#define _cmm_" ++ dec s ++ codes "S " ++ quote x ++ nl ++ cStrs (s + 1) r
  end.

(* ---- initialised data: the text of the definitions of CDataSpec.v ---- *)
Definition cTmp (l : Z) : list Z := codes "_cmm_" ++ dec l ++ codes "T".
Definition cItem (nm : Z -> list Z) (x : citem) : list Z :=
  match x with
  | IcNum v => dec v
  | IcStr l => codes "_cmm_" ++ dec l ++ codes "S"
  | IcTmp amp l => (if amp then codes "&" else []) ++ cTmp l
  | IcAddr i => codes "((int)&" ++ nm i ++ codes ")"
  end.
Definition cDef (nm : Z -> list Z) (t : tyname) (d : cdef) : list Z :=
  let dcl s := codes "static " ++ cWord t ++ [32] ++ repeat 42 s in
  let vals xs := codes "={" ++ between (codes ",") (map (cItem nm) xs) ++ codes "};" ++ nl in
  match d with
  | CSpace l s n => dcl s ++ cTmp l ++ codes "[" ++ dec n ++ codes "];" ++ nl
  | CArr l s xs => dcl s ++ cTmp l ++ codes "[]" ++ vals xs
  | CObj l s xs => dcl s ++ cTmp l ++ vals xs
  end.
Definition cData (nm : Z -> list Z) (pub : bool) (t : tyname) (d : nat) (n : list Z) (ds : list cdef) (v : citem) : list Z :=
  flat_map (cDef nm t) ds ++ cDecl pub t d n ++ codes "=" ++ cItem nm v ++ codes ";" ++ nl.
(* the definitions ds and the value v describe the initialiser i (C62), and define the
   temporaries m, m+1, .. *)
Definition describes (t : Z) (d : nat) (m : Z) (ds : list cdef) (v : citem) (i : init) : Prop :=
  labels ds = map (Z.add m) (upto (length ds)) /\
  (plain t d i -> exists ls, holds t ds (CDataSpec.depth t d) v i ls /\ Permutation ls (labels ds)) /\
  (forall j, i = IName j -> ds = [] /\ v = IcAddr j).

(* ---- the rules ---- *)
(* the state between declarations: as in tenv (ProgGram.v) the names, the number of strings
   read, the count and the dimension left over; the numbers of strings and of temporaries
   printed; the text *)
Record cenv := CE { cN : table; cL : Z; cC : Z; cD : Z; cS : Z; cT : Z; cO : list Z }.
Definition cenv0 : cenv := CE [] 0 0 0 0 0 [].
Definition adds (hid : bool) (n : Z) : Z := if hid then 0 else n.
Definition count (ss : list (list Z)) : Z := Z.of_nat (length ss).
(* a string is named in the tree by its number among the strings read, from 1; l have been
   read and s printed before the declaration *)
Definition strNo (l s k : Z) : Z := k - l - 1 + s.

Section Rules.
Variables opt krn hid : bool.
Definition shown (w : list Z) : list Z := if hid then [] else w.

(* ty is the code of t when the declaration begins *)
Inductive trGVar (t : tyname) (ty : Z) (d : nat) (pub : bool) : cenv -> list Z * option gini -> cenv -> Prop :=
| tg_new n l c k s m o nm n1 ci :
    ntDefName n nm ScCOMM ty (Z.of_nat d) c pub = NOk (n1, ci) -> prior n nm = None ->
    trGVar t ty d pub (CE n l c k s m o) (nm, None) (CE n1 l c k s m (o ++ shown (cDecl pub t d nm ++ codes ";" ++ nl)))
| tg_again n l c k s m o nm n1 ci i :
    ntDefName n nm ScCOMM ty (Z.of_nat d) c pub = NOk (n1, ci) -> prior n nm = Some i ->
    scopeAt n i = ScCOMM \/ scopeAt n i = ScGVAR -> agrees n i ty (Z.of_nat d) pub ->
    trGVar t ty d pub (CE n l c k s m o) (nm, None) (CE n l c k s m o)
| tg_init n l c k s m o nm n1 ci x a l1 i ds v n2 m2 w :
    ntDefName n nm ScGVAR ty (Z.of_nat d) c pub = NOk (n1, ci) ->
    match prior n nm with
    | None => n2 = n1
    | Some j => scopeAt n j = ScCOMM /\ agrees n j ty (Z.of_nat d) pub /\ n2 = ntSetScope n j ScGVAR
    end ->
    okIn (W := W32) n1 ty (Z.of_nat d) l x a l1 -> l1 = l + count (stringsG x) -> inits a = [i] -> typed ty d i ->
    (if hid then w = [] /\ m2 = m
     else describes ty d m ds v (renumber (strNo l s) i) /\ m2 = m + Z.of_nat (length ds) /\
          w = cStrs s (stringsG x) ++ cData (nameAt n1) pub t d nm ds v) ->
    trGVar t ty d pub (CE n l c k s m o) (nm, Some x) (CE n2 l1 c k (s + adds hid (count (stringsG x))) m2 (o ++ w)).
Inductive trGVars (t : tyname) (ty : Z) (d : nat) (pub : bool) : cenv -> list (list Z * option gini) -> cenv -> Prop :=
| tgs_nil T : trGVars t ty d pub T [] T
| tgs_cons T v T1 r T2 : trGVar t ty d pub T v T1 -> trGVars t ty d pub T1 r T2 -> trGVars t ty d pub T (v :: r) T2.
Inductive trTop : cenv -> top -> cenv -> Prop :=
| tt_struct n l c d s m o nm fs n1 i n2 c2 d2 :
    ntDefName n nm ScSTRC TySTRUC d c false = NOk (n1, i) -> okFlines n1 0 d fs n2 c2 d2 ->
    trTop (CE n l c d s m o) (PStruct nm fs)
      (CE (ntSetCnt (ntSetVoid n2 (i + 1)) i (ntGetSize n2 - i - 1)) l c2 d2 s m (o ++ shown (cStruct nm fs)))
| tt_typedef n l c d s m o nm n1 i :
    ntDefName n nm ScSTRC TyREF d c false = NOk (n1, i) ->
    trTop (CE n l c d s m o) (PTypedef nm) (CE n1 l c d s m o)
| tt_vars n l c d0 s m o pub t d vs T' :
    varType (tyCode n t) (Z.of_nat d) ->
    trGVars t (tyCode n t) d pub (CE n l c (Z.of_nat d) s m o) vs T' ->
    trTop (CE n l c d0 s m o) (PVars pub t d vs) T'
| tt_proto n l c0 d0 s m o pub t d nm ps e prev fi n2 c d2 prm :
    okHead krn n c0 pub (tyCode n t) (Z.of_nat d) nm ps e prev fi n2 c d2 prm -> (t = TnIntr -> hid = true) ->
    trTop (CE n l c0 d0 s m o) (PFunc pub t d nm ps e None)
      (CE (settle prev fi (fi + 1) (ntGetSize n2) (ntSetCnt n2 fi prm)) l c d2 s m (o ++ shown (cHead pub t d nm ps e ++ codes ";" ++ nl)))
(* the strings, the header, the body *)
| tt_func n l c0 d0 s m o pub t d nm ps e prev fi n2 c d2 prm q x E E' root w :
    okHead krn n c0 pub (tyCode n t) (Z.of_nat d) nm ps e prev fi n2 c d2 prm -> (t = TnIntr -> hid = true) ->
    (forall i, prev = Some i -> scopeAt n i = ScPROT) ->
    E = Env (enter prev fi (ntSetCnt n2 fi prm)) l 0 0 d2 ->
    okQ (tyCode n t) (Z.of_nat d) false E SNull q x E' ->
    (valued_fn (tyCode n t) (Z.of_nat d) -> endsReturn q false = true) ->
    (if opt then cOptTree (StmtSpec.block x) = Ok root else root = StmtSpec.block x) ->
    (if hid then w = []
     else exists b, printBody (nameAt (eN (leave E E'))) (localType (eN (leave E E'))) (renS (strNo l s) root) = Some b /\
                    w = cStrs s (stringsQ q) ++ cHead pub t d nm ps e ++ b) ->
    trTop (CE n l c0 d0 s m o) (PFunc pub t d nm ps e (Some q))
      (CE (settle prev fi (fi + 1) (ntGetSize n2) (eN (leave E E'))) (eL E') 0 (eD E') (s + adds hid (count (stringsQ q))) m (o ++ w)).
End Rules.
(* a file: each declaration after the include line for the header it begins, if any, and
   whether it is hidden *)
Inductive trFile (opt krn : bool) : cenv -> list (list Z * bool * top) -> cenv -> Prop :=
| tf_nil T : trFile opt krn T [] T
| tf_cons n l c d s m o i h x T1 p T2 :
    trTop opt krn h (CE n l c d s m (o ++ i)) x T1 -> trFile opt krn T1 p T2 ->
    trFile opt krn (CE n l c d s m o) ((i, h, x) :: p) T2.

(* ---- the headers ---- *)
(* The preprocessor marks in the text where a file begins or is resumed: an item of the token
   LxFILE, with the line number and the name of the file.  The files with names that end in
   .hmm in a directory cmmInclude are the system's: their declarations are not translated,
   but at the first line an include line for the header of the same name in C is printed. *)
Definition isMark (i : item) : Prop := tokOf i = LxFILE.
Definition system (f : list Z) : Prop := (exists a b, f = a ++ codes "/cmmInclude/" ++ b) /\ (exists a, f = a ++ codes ".hmm").
Inductive mark : item -> list Z -> bool -> Prop :=
| mk_first f n dir b : system f -> f = dir ++ codes "/" ++ b ++ codes ".hmm" -> ~ In 47 b ->
    mark (LxFILE, 1, f, n) (codes "#include <" ++ b ++ codes ".h>" ++ nl) true
| mk_later f n k : system f -> k <> 1 -> mark (LxFILE, k, f, n) [] true
| mk_own f n k : ~ system f -> mark (LxFILE, k, f, n) [] false.
(* marks in a row, and whether declarations are hidden before and after them *)
Inductive markers : bool -> list item -> list Z -> bool -> Prop :=
| ms_nil h : markers h [] [] h
| ms_cons h m i h1 r i2 h2 : mark m i h1 -> markers h1 r i2 h2 -> markers h (m :: r) (i ++ i2) h2.
(* l is a file of the declarations p, each with the include lines before it; i: those at the
   end of the file *)
Inductive layout : bool -> list item -> list (list Z * bool * top) -> list Z -> Prop :=
| ly_end h ms e i h1 : markers h ms i h1 -> tokOf e = EOFtok -> layout h (ms ++ [e]) [] i
| ly_top h ms i h1 f m e y l p j :
    markers h ms i h1 -> (forall a, hd_error (f ++ [e]) = Some a -> ~ isMark a) -> ~ isMark e -> m = f ++ [e] -> derives_top y (view m) ->
    layout h1 l p j -> layout h (ms ++ m ++ l) ((i, h1, y) :: p) j.
