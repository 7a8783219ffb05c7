(* The lines that the calls of the back ends stand for: operation and operands, as an
   assembler reads them (AsmSpec.v).  Specification for C60. *)
From Coq Require Import ZArith Bool String List.
From Verif Require Import Lexer NameTable SyTree VM Parser TacSpec Tac TacFrom CTree AsmText AsmSpec.
Import ListNotations.
Open Scope Z_scope.

Definition row (m : string) (a : list arg) : sline := SLine None (Some (codes m, a)).
Definition mark (s : list Z) : sline := SLine (Some s) None.
Definition num (n : Z) : arg := Plain (Num n).
Definition sym (s : list Z) : arg := Plain (Sym s).

(* ==== the virtual machine (doc/vm.tex) ==== *)
Definition vmLine (t : table) (i : instr) : sline :=
  match i with
  | ILab l => mark (labText l)
  | IEntry d => row "ENTRY" [num d]
  | IEntryK d => row "ENTRYK" [num d]
  | IRet => row "RET" []
  | IEntryI d => row "ENTRYI" [num d]
  | IRetI => row "RETI" []
  | IMReg => row "MREG" []
  | IArg => row "ARG" []
  | ICallP n f => row "CALLP" [num (Z.of_nat n); sym (symText t f)]
  | ICallF n f => row "CALLF" [num (Z.of_nat n); sym (symText t f)]
  | IJmp l => row "JMP" [sym (labText l)]
  | IJT l => row "JT" [sym (labText l)]
  | IJF l => row "JF" [sym (labText l)]
  | ILdCns c => row "LDC" [num c]
  | ILdGlb i => row "LDG" [sym (symText t i)]
  | ILdLoc n => row "LDL" [num n]
  | ILdPrm n => row "LDP" [num (n + 1)]
  | ILdLab l => row "LDC" [sym (labText l)]
  | ILdWrd => row "LDW" []
  | ILdByt => row "LDB" []
  | ILdNam i => row "LDC" [sym (symText t i)]
  | IStGlb i => row "STG" [sym (symText t i)]
  | IStLoc n => row "STL" [num n]
  | IStPrm n => row "STP" [num (n + 1)]
  | IStWrd => row "STW" []
  | IStByt => row "STB" []
  | IUn NEG => row "NEG" [] | IUn NOT => row "NOT" [] | IUn BNOT => row "BNOT" []
  | IUn CHR => row "CHR" [] | IUn BOOL => row "BOOL" []
  | IBin ADD => row "ADD" [] | IBin SUB => row "SUB" [] | IBin SHL => row "SHL" [] | IBin SHR => row "SHR" []
  | IBin BAND => row "BAND" [] | IBin BXOR => row "BXOR" [] | IBin BOR => row "BOR" []
  | IBin MUL => row "MUL" [] | IBin DIV => row "DIV" [] | IBin MOD => row "MOD" []
  | IBin GT => row "GT" [] | IBin GE => row "GE" [] | IBin LT => row "LT" [] | IBin LE => row "LE" []
  | IBin EQU => row "EQ" [] | IBin NEQ => row "NE" [] | IBin _ => row "?" []
  | IPop => row "POP" []
  end.
(* the short-circuit macros are printed as the instructions they stand for; parameters are
   counted from 0 in the calls (TacFrom.v) *)
Definition vmItemLines (t : table) (a : asm) : list sline :=
  match a with
  | ALab l => [mark (labText l)]
  | ANam i => [mark (symText t i)]
  | ADwName i => [row "DW" [sym (symText t i)]]
  | ADwLab l => [row "DW" [sym (labText l)]]
  | ADwCns n => [row "DW" [num n]]
  | ADbCns n => [row "DB" [num n]]
  | AWs n => [row "WS" [num n]]
  | ABs n => [row "BS" [num n]]
  | AStr s => [row "STRING" [Str s]]
  | ACode c => map (fun i => vmLine t (from0 i)) c
  end.

(* ==== TaC ==== *)
Definition reg (r : Z) : list Z := regText r.
Definition opdArgs (t : table) (o : opd) : list arg :=
  match o with
  | OImm c => [Hash (Num c)]
  | OGlb i => [sym (symText t i)]
  | OReg r => [sym (reg r)]
  | OFp d => [num d; sym (codes "FP")]
  | OLab l => [Hash (Sym (labText l))]
  | ONam i => [Hash (Sym (symText t i))]
  | OWnd r => [num 0; sym (reg r)]
  | OByt r => [At (Sym (reg r))]
  end.
Definition tinLine (t : table) (i : tin) : sline :=
  match i with
  | TLd r o => row "LD" (sym (reg r) :: opdArgs t o)
  | TAlu a r o => row (aluText a) (sym (reg r) :: opdArgs t o)
  | TCmp r o => row "CMP" (sym (reg r) :: opdArgs t o)
  | TStG r i => row "ST" [sym (reg r); sym (symText t i)]
  | TStF r d => row "ST" [sym (reg r); num d; sym (codes "FP")]
  | TStW r b => row "ST" [sym (reg r); num 0; sym (reg b)]
  | TStB r b => row "ST" [sym (reg r); At (Sym (reg b))]
  | TPush r => row "PUSH" [sym (reg r)]
  | TPop r => row "POP" [sym (reg r)]
  | TPushFP => row "PUSH" [sym (codes "FP")]
  | TPopFP => row "POP" [sym (codes "FP")]
  | TLdFPSP => row "LD" [sym (codes "FP"); sym (codes "SP")]
  | TLdSPFP => row "LD" [sym (codes "SP"); sym (codes "FP")]
  | TSubSP n => row "SUB" [sym (codes "SP"); Hash (Num n)]
  | TAddSP n => row "ADD" [sym (codes "SP"); Hash (Num n)]
  | TCall _ f => row "CALL" [sym (symText t f)]
  | TStkChk => row "CALL" [sym (codes "__stkChk")]
  | TJmp l => row "JMP" [sym (tlabText l)]
  | TJcc c l => row (ccText c) [sym (tlabText l)]
  | TLab l => mark (tlabText l)
  | TRet => row "RET" []
  | TRetI => row "RETI" []
  end.

(* ==== what can be printed ==== *)
(* numbers are C ints; names are made of letters, digits and _ ; strings have no newline *)
Definition nameCh (c : Z) : bool :=
  ((97 <=? c) && (c <=? 122)) || ((65 <=? c) && (c <=? 90)) || ((48 <=? c) && (c <=? 57)) || (c =? 95).
Definition spelled (t : table) (i : Z) : Prop := forallb nameCh (nameAt t i) = true.
Definition prI (t : table) (i : instr) : Prop :=
  match i with
  | ILab n | IEntry n | IEntryK n | IEntryI n | IJmp n | IJT n | IJF n | ILdCns n | ILdLoc n | ILdLab n | IStLoc n => small n
  | ILdPrm n | IStPrm n => small (n + 1)
  | ICallP n f | ICallF n f => small (Z.of_nat n) /\ spelled t f
  | ILdGlb i | ILdNam i | IStGlb i => spelled t i
  | _ => True
  end.
Definition prA (t : table) (a : asm) : Prop :=
  match a with
  | ALab n | ADwLab n | ADwCns n | ADbCns n | AWs n | ABs n => small n
  | ANam i | ADwName i => spelled t i
  | AStr s => ~ In 10 s
  | ACode c => Forall (fun i => prI t (from0 i)) c
  end.
Definition smallL (l : tlabel) : Prop := match l with LbL n | LbT n => small n end.
Definition prO (t : table) (o : opd) : Prop :=
  match o with
  | OImm n | OReg n | OFp n | OLab n | OWnd n | OByt n => small n
  | OGlb i | ONam i => spelled t i
  end.
Definition prT (t : table) (i : tin) : Prop :=
  match i with
  | TLd r o | TAlu _ r o | TCmp r o => small r /\ prO t o
  | TStG r i => small r /\ spelled t i
  | TStF r d | TStW r d | TStB r d => small r /\ small d
  | TPush n | TPop n | TSubSP n | TAddSP n => small n
  | TCall _ f => spelled t f
  | TJmp l | TJcc _ l | TLab l => smallL l
  | _ => True
  end.

(* outside of functions a label stands on the line of the directive or instruction after it *)
Definition tacRows (t : table) (a : asm) (n : Z) : option (list sline * Z) :=
  match a with
  | ADwLab l => Some ([row "DW" [sym (labText l)]], n)
  | ADwCns v => Some ([row "DW" [num v]], n)
  | ADbCns v => Some ([row "DB" [num v]], n)
  | AWs v => Some ([row "WS" [num v]], n)
  | ABs v => Some ([row "BS" [num v]], n)
  | AStr s => Some ([row "STRING" [Str s]], n)
  | ACode c => match tac false false 0 0 (vops c) (tinit n) with
               | Some (C, s) => Some (map (tinLine t) C, Tac.tl s)
               | None => None
               end
  | _ => None
  end.
Definition label (s : list Z) (l : list sline) : option (list sline) :=
  match l with SLine None b :: q => Some (SLine (Some s) b :: q) | _ => None end.
Fixpoint tacLines (t : table) (l : list asm) (n : Z) : option (list sline * Z) :=
  match l with
  | [] => Some ([], n)
  | a :: r =>
    match a with
    | ALab k => match tacLines t r n with
                | Some (q, n') => match label (labText k) q with Some q => Some (q, n') | None => None end
                | None => None
                end
    | ANam i => match tacLines t r n with
                | Some (q, n') => match label (symText t i) q with Some q => Some (q, n') | None => None end
                | None => None
                end
    | _ => match tacRows t a n with
           | Some (x, n1) => match tacLines t r n1 with Some (q, n') => Some (x ++ q, n') | None => None end
           | None => None
           end
    end
  end.
(* what the translator makes of the code of a function can be printed; n: number of the last
   label made by the translator *)
Definition prTA (t : table) (a : asm) (n : Z) : Prop :=
  match a with
  | ACode c => match tac false false 0 0 (vops c) (tinit n) with Some (C, _) => Forall (prT t) C | None => True end
  | _ => prA t a
  end.
Definition tacNext (a : asm) (n : Z) : Z :=
  match a with
  | ACode c => match tac false false 0 0 (vops c) (tinit n) with Some (_, s) => Tac.tl s | None => n end
  | _ => n
  end.
Fixpoint prTacs (t : table) (l : list asm) (n : Z) : Prop :=
  match l with [] => True | a :: r => prTA t a n /\ prTacs t r (tacNext a n) end.
