(* C23: the data written for the initialiser of a global variable. *)
From Coq Require Import ZArith Bool Lia String Ascii List Permutation.
From Verif Require Import Lexer NameTable Word SyTree ExprSem OpTree VM VmCode Parser ParserStmt ParseSpec ParseLabs ProgSpec ProgData ProgInv ProgTop ProgRun.
From Verif Require Import DataSpec DataProofs DataParse.
Import ListNotations.
Open Scope Z_scope.

(* genData writes, for the tree of any initialiser i whose lists are not nested
   deeper than the dimension of the variable allows, the name of the variable with
   one word w that holds i; each block belongs to one place of i (NoDup) and there
   is nothing else in the text (the blocks of i are the labels of c) *)
Theorem C23_layout (idx dim : Z) (root : dat) (l : Z) (c : list asm) (l' : Z) (i : init) :
  0 <= dim -> inits root = [i] -> (levels i <= S (Z.to_nat dim))%nat -> positive i ->
  genData idx dim root l = Some (c, l') ->
  exists body w ls, c = body ++ [ANam idx; w] /\ reaches c w i ls /\ Permutation ls (outDefs c) /\ NoDup ls.
Proof.
  intros D E L P H. destruct (genData_reaches _ _ _ _ _ _ _ D E L P H) as (body & w & ls & A & _ & B & C & N & _). exists body, w, ls. auto.
Qed.
Print Assumptions C23_layout.

(* blocks are determined by their labels, so what is reached is the only thing that can be *)
Theorem C23_blocks (c : list asm) (l : Z) (b b' : list asm) : NoDup (outDefs c) -> block c l b -> block c l b' -> b = b'.
Proof. apply block_unique. Qed.
Print Assumptions C23_blocks.

(* a declaration with an initialiser that the parser accepts: the text grows by the
   string constants and the data of a value of the declared type and dimension,
   with byte elements exactly in the innermost arrays of char and boolean *)
Theorem C23_declaration (g g' : gs) :
  0 <= curDim g -> lastDim g -> gIsTok cEQ g <> None -> getGVar g = POk g' ->
  exists ss body w i ls,
    outp (ge g') = outp (ge g) ++ strOut (clab (ge g)) ss ++ body ++ [ANam (ntGetSize (gnt g) - 1); w] /\
    typed (curType g) (Z.to_nat (curDim g)) i /\ reaches (outp (ge g')) w i ls /\ Permutation ls (outDefs body) /\ NoDup ls.
Proof.
  intros C L E H. pose proof (getGVar_data g C L E) as X. rewrite H in X. exact X.
Qed.
Print Assumptions C23_declaration.

(* ---- cases ---- *)
Definition outC (r : cres) : list asm := match r with COut l => l | _ => [] end.
(* rows of three kinds; the bytes are bytes *)
Example C23_rows : outC (compile false false (codes "char[][] a = {{'a', 'b'}, ""x"", array(3)}; ")) =
  [ALab 1; AStr [120]; ALab 2; ADbCns 97; ADbCns 98; ALab 3; ABs 3; ALab 4; ADwLab 2; ADwLab 1; ADwLab 3; ANam 0; ADwLab 4].
Proof. vm_compute. reflexivity. Qed.
Example C23_rows_value : let c := [ALab 2; ADbCns 1; ADbCns 2; ALab 3; ABs 3; ALab 4; ADwLab 2; ADwLab 1; ADwLab 3; ANam 0; ADwLab 4] in
  genData 0 2 (DList (DSemi (DSemi (DList (DSemi (DCnst 1) (DCnst 2)) 1) (DStr 1)) (DArry (DCnst 3) 1)) 2) 1 = Some (c, 4) /\
  reaches c (ADwLab 4) (IList false [IList true [IWord 1; IWord 2]; IStr 1; IArray true [3]]) [4; 2; 3].
Proof.
  split; [reflexivity|]. cbv zeta.
  apply (R_list _ 4 [ADwLab 2; ADwLab 1; ADwLab 3] _ [2; 3]).
  - exists [ALab 2; ADbCns 1; ADbCns 2; ALab 3; ABs 3], [ANam 0; ADwLab 4]. repeat split.
  - apply (R_cons _ _ _ _ _ [2] [3]); [|apply (R_cons _ _ _ _ _ [] [3]); [apply R_str|apply (R_cons _ _ _ _ _ [3] []); [|constructor]]].
    + apply (R_bytes _ 2 [1; 2]). exists [], [ALab 3; ABs 3; ALab 4; ADwLab 2; ADwLab 1; ADwLab 3; ANam 0; ADwLab 4]. repeat split.
    + apply (R_space _ 3 true 3). exists [ALab 2; ADbCns 1; ADbCns 2], [ALab 4; ADwLab 2; ADwLab 1; ADwLab 3; ANam 0; ADwLab 4]. repeat split.
Qed.
(* array(2, 3) of int: two rows of three words; of char[][][]: the innermost references *)
Example C23_array : outC (compile false false (codes "int[][] a = array(2, 3); char[][][] b = array(2, 3); ")) =
  [ALab 1; AWs 3; ALab 2; AWs 3; ALab 3; ADwLab 1; ADwLab 2; ANam 0; ADwLab 3;
   ALab 4; AWs 3; ALab 5; AWs 3; ALab 6; ADwLab 4; ADwLab 5; ANam 1; ADwLab 6].
Proof. vm_compute. reflexivity. Qed.
(* structures: every field is a word, the strings are reached through their labels *)
Example C23_struct : outC (compile false false (codes "struct P { int x; char[] s; char c; }; P[] t = {{1, ""a"", 'b'}, null}; ")) =
  [ALab 1; AStr [97]; ALab 2; ADwCns 1; ADwLab 1; ADwCns 98; ALab 3; ADwLab 2; ADwCns 0; ANam 4; ADwLab 3].
Proof. vm_compute. reflexivity. Qed.
(* the hypotheses of C23_declaration: a declared name, then the sign *)
Example C23_declaration_met : let it (t v : Z) := (t, v, @nil Z, 0) : item in
  exists g', getGVar (GS (ES [it cEQ 0; it cLC 0; it LxINTEGER 0; it cCOMMA 7; it LxINTEGER 0; it cRC 8; it cSEMI 0; it EOFtok 0] 0 []) [Ent [97] ScCOMM TyINT 1 0 false]
      ScCOMM TyINT 1 0 false 0 0 0 0 0 0) = POk g' /\ outp (ge g') = [ALab 1; ADwCns 7; ADwCns 8; ANam 0; ADwLab 1].
Proof. cbv zeta. eexists. split; [vm_compute; reflexivity|vm_compute; reflexivity]. Qed.
