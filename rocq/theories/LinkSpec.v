(* Whole programs (specification side): the functions of a source file calling each other.

   In ExprSem.v and VM.v a callee is an abstract function of the machine.  Here the functions
   of a file are put together: a call goes to the function of that name, and only a function
   that the file does not define stays abstract.  Nothing here refers to the parser, the
   optimiser or the code generator. *)
From Coq Require Import ZArith Bool List.
From Verif Require Import Word NameTable SyTree ExprSem StmtSem OptSpec VM Parser ParserStmt AsmText.
Import ListNotations.
Open Scope Z_scope.

(* What is outside of the program: how memory works, where objects are, and what the functions
   do that the program does not define.  Names are what the linker sees.  No law is assumed. *)
Record world : Type := World {
  WG : Type;                                          (* global variables, arrays, devices *)
  w_ldg : WG -> list Z -> Z;                          (* global variable, by name *)
  w_stg : WG -> list Z -> Z -> WG;
  w_ldw : WG -> Z -> Z -> Z;                          (* word array: base, index *)
  w_stw : WG -> Z -> Z -> Z -> WG;
  w_ldb : WG -> Z -> Z -> Z;                          (* byte array *)
  w_stb : WG -> Z -> Z -> Z -> WG;
  w_adr : list Z -> Z;                                (* address of a named object *)
  w_lab : Z -> Z;                                     (* address of a string literal *)
  w_ext : list Z -> list Z -> WG -> option (Z * WG);  (* other functions; None: no return *)
  w_old : list Z -> list Z -> WG -> Z -> Z;           (* what fresh locals hold: function, arguments, number *)
  w_arg : list Z -> list Z -> WG -> Z -> Z            (* what stands behind the last argument *)
}.

(* a function of the program: its name, the names that its text and its code use by number,
   its body and its code; is it an interrupt function? *)
Record fn : Type := Fn { fName : list Z; fTab : table; fBody : stmt; fCode : code; fIntr : bool }.

(* the function of a name *)
Fixpoint fn_of (fs : list fn) (nm : list Z) : option fn :=
  match fs with
  | [] => None
  | f :: r => if list_eq_dec Z.eq_dec (fName f) nm then Some f else fn_of r nm
  end.

Section Program.
Variable W : world.
Variable fs : list fn.

(* the world as a function with the names t sees it; C: what callees do *)
Definition seen (t : table) (C : list Z -> list Z -> WG W -> option (Z * WG W)) : machine :=
  Machine (WG W) (fun g i => w_ldg W g (nameAt t i)) (fun g i v => w_stg W g (nameAt t i) v)
    (w_ldw W) (w_stw W) (w_ldb W) (w_stb W) (fun f a g => C (nameAt t f) a g)
    (fun i => w_adr W (nameAt t i)) (w_lab W) (fun i => i) (fun i => i).
(* the same with the cells of variables: local variables and parameters are numbered in the
   table of names, parameters from 1 *)
Definition seenT (t : table) (C : list Z -> list Z -> WG W -> option (Z * WG W)) : machine :=
  Machine (WG W) (fun g i => w_ldg W g (nameAt t i)) (fun g i v => w_stg W g (nameAt t i) v)
    (w_ldw W) (w_stw W) (w_ldb W) (w_stb W) (fun f a g => C (nameAt t f) a g)
    (fun i => w_adr W (nameAt t i)) (w_lab W) (fun i => cntAt t i) (fun i => cntAt t i + 1).

(* parameter k is argument k *)
Definition given (nm : list Z) (a : list Z) (g : WG W) (k : Z) : Z :=
  if (1 <=? k) && (k <=? Z.of_nat (length a)) then nth (Z.to_nat (k - 1)) a 0 else w_arg W nm a g k.

(* the value of a call: that of return; nobody uses the value of a function without one *)
Definition value_of (v : option Z) : Z := match v with Some v => v | None => 0 end.
Definition returned (o : outcome) : option Z := match o with ORet v => v | _ => None end.

(* ---- what the source says ---- *)
(* The call nm(a) in the world g: its value and the world afterwards, if it comes back with no
   more than n calls inside each other and no more than n rounds of a loop. *)
Variable sw : op2 -> expr -> expr -> bool.
Fixpoint calls (n : nat) (nm : list Z) (a : list Z) (g : WG W) : option (Z * WG W) :=
  match fn_of fs nm with
  | None => w_ext W nm a g
  | Some f =>
      match n with
      | O => None
      | S m =>
          match run (seenT (fTab f) (calls m)) (namesOf (fTab f)) sw (fBody f) n
                  (@State (seenT (fTab f) (calls m)) g (w_old W nm a g) (given nm a g)) with
          | Done o st => Some (value_of (returned o), ExprSem.gs st)
          | _ => None
          end
      end
  end.

(* ---- the linked machine ---- *)
(* Simplified: every frame has its own operand stack, argument area and result register, as in
   VM.v; on the target they share one stack and one register. *)
(* a function at work: where it is, its operands, arguments for its callees, result register,
   locals and parameters *)
Record frm : Type := Frm { rF : fn; rPc : nat; rStk : list Z; rArgs : list Z; rReg : option Z; rLoc : Z -> Z; rPrm : Z -> Z }.
(* the world, the function at work, and those that wait for it, innermost first *)
Record lcfg : Type := LCfg { lW : WG W; lTop : frm; lRest : list frm }.
(* the frame of a called function *)
Definition entered (f : fn) (a : list Z) (g : WG W) : frm := Frm f 0 [] [] None (w_old W (fName f) a g) (given (fName f) a g).

(* an instruction that is no call and no return works inside the frame *)
Definition noCall : list Z -> list Z -> WG W -> option (Z * WG W) := fun _ _ _ => None.
Definition inside (c : lcfg) : option lcfg :=
  let r := lTop c in
  match VM.step (seen (fTab (rF r)) noCall) (fCode (rF r))
          (@Cfg (seen (fTab (rF r)) noCall) (rPc r) (rStk r) (rArgs r) (rReg r) (@State (seen (fTab (rF r)) noCall) (lW c) (rLoc r) (rPrm r))) with
  | Some (Cfg k s a v m) => Some (LCfg (ExprSem.gs m) (Frm (rF r) k s a v (locs m) (prms m)) (lRest c))
  | None => None
  end.
(* the frame after a call with n arguments has come back with v: the next instruction *)
Definition resumed (r : frm) (n : nat) (push : option Z) : frm :=
  Frm (rF r) (S (rPc r)) (match push with Some v => w16 v :: rStk r | None => rStk r end) (skipn n (rArgs r)) (rReg r) (rLoc r) (rPrm r).

(* a call: the function of the program gets a frame, or the world answers *)
Definition invoke (c : lcfg) (n : nat) (i : Z) (val : bool) : option lcfg :=
  let r := lTop c in
  let nm := nameAt (fTab (rF r)) i in
  let a := firstn n (rArgs r) in
  match fn_of fs nm with
  | Some f => Some (LCfg (lW c) (entered f a (lW c)) (r :: lRest c))
  | None => match w_ext W nm a (lW c) with
            | Some (v, g) => Some (LCfg g (resumed r n (if val then Some v else None)) (lRest c))
            | None => None
            end
  end.
(* a return: the waiting function goes on behind its call *)
Definition back (c : lcfg) : option lcfg :=
  match lRest c with
  | [] => None
  | r :: rest =>
      match nth_error (fCode (rF r)) (rPc r) with
      | Some (ICallF n _) => Some (LCfg (lW c) (resumed r n (Some (value_of (rReg (lTop c))))) rest)
      | Some (ICallP n _) => Some (LCfg (lW c) (resumed r n None) rest)
      | _ => None
      end
  end.
(* one instruction; None: the machine stands still *)
Definition lstep (c : lcfg) : option lcfg :=
  match nth_error (fCode (rF (lTop c))) (rPc (lTop c)) with
  | Some (ICallF n i) => invoke c n i true
  | Some (ICallP n i) => invoke c n i false
  | Some IRet | Some IRetI => back c
  | _ => inside c
  end.
Fixpoint lsteps (n : nat) (c c' : lcfg) : Prop :=
  match n with
  | O => c = c'
  | S m => exists d, lstep c = Some d /\ lsteps m d c'
  end.
Definition lreaches (c c' : lcfg) : Prop := exists n, lsteps n c c'.

(* the function f, started with the arguments a in the world g, comes to its return instruction
   with the value v in the world g'; its callers wait where they waited *)
Definition delivers (f : fn) (a : list Z) (g : WG W) (v : Z) (g' : WG W) : Prop :=
  forall rest, exists r, lreaches (LCfg g (entered f a g) rest) (LCfg g' r rest) /\
    rF r = f /\ nth_error (fCode f) (rPc r) = Some (if fIntr f then IRetI else IRet) /\
    rStk r = [] /\ rArgs r = [] /\ value_of (rReg r) = v.
End Program.
