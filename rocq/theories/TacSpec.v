(* The TaC processor, as far as the code emitted by src/vm2tac.c uses it.
   Specification side: mnemonics and operand forms are those printed by
   vm2tac.c:130-190 (addressing modes) and 250-880 (instructions). Nothing here
   refers to the translator.

   What the repository does not fix about the processor is left open: the
   quotients of DIV and MOD, the less-than flag after an arithmetic
   instruction, and what a callee leaves in G0-G2, in the flags and in the part
   of the stack that belongs to it. These are the fields of [hw], and the
   theorems quantify over them.
   Simplifications: stack addresses are integers that do not wrap around, and
   the stack is disjoint from the memory of globals and arrays (the abstract
   [machine] of ExprSem); the return address pushed by CALL is not modelled
   beyond the two bytes it occupies; CALL carries the number of arguments as a
   comment for [call]. *)
From Coq Require Import ZArith Bool List.
From Verif Require Import Word SyTree ExprSem.
Import ListNotations.
Open Scope Z_scope.

(* .Ln and .Tn *)
Inductive tlabel : Type := LbL (n : Z) | LbT (n : Z).
Definition tlabel_eqb (a b : tlabel) : bool :=
  match a, b with LbL x, LbL y | LbT x, LbT y => x =? y | _, _ => false end.

(* source operands *)
Inductive opd : Type :=
| OImm (c : Z)            (* #n          *)
| OGlb (i : Z)            (* name        *)
| OReg (r : Z)            (* Gr          *)
| OFp (d : Z)             (* d,FP        *)
| OLab (l : Z)            (* #.Ln        *)
| ONam (i : Z)            (* #name       *)
| OWnd (r : Z)            (* 0,Gr : word *)
| OByt (r : Z).           (* @Gr  : byte *)

Inductive alu : Type :=
| AAdd | AAdds | ASub | AAnd | AOr | AXor | AShl | AShr | AMul | ADiv | AMod.

(* conditional jumps, vm2tac.c:118-124 *)
Inductive cc : Type := JLT | JLE | JEQ | JGE | JGT | JNZ.

Inductive tin : Type :=
| TLd (r : Z) (o : opd)
| TAlu (a : alu) (r : Z) (o : opd)
| TCmp (r : Z) (o : opd)
| TStG (r : Z) (i : Z)    (* ST Gr,name  *)
| TStF (r : Z) (d : Z)    (* ST Gr,d,FP  *)
| TStW (r b : Z)          (* ST Gr,0,Gb  *)
| TStB (r b : Z)          (* ST Gr,@Gb   *)
| TPush (r : Z) | TPop (r : Z)
| TPushFP | TPopFP | TLdFPSP | TLdSPFP
| TSubSP (n : Z) | TAddSP (n : Z)
| TCall (n : nat) (f : Z) | TStkChk
| TJmp (l : tlabel) | TJcc (c : cc) (l : tlabel) | TLab (l : tlabel)
| TRet | TRetI.

Fixpoint tfind (l : tlabel) (p : list tin) : option nat :=
  match p with
  | [] => None
  | TLab k :: q => if tlabel_eqb k l then Some O else option_map S (tfind l q)
  | _ :: q => option_map S (tfind l q)
  end.

(* does the jump take place, given the zero and less-than flags? *)
Definition holds (c : cc) (z lt : bool) : bool :=
  match c with
  | JLT => lt | JLE => lt || z | JEQ => z
  | JGE => negb lt | JGT => negb (lt || z) | JNZ => negb z
  end.

Section Tac.
Variable M : machine.

(* registers G0-G11, frame and stack pointer, stack memory, flags, the rest *)
Record mst : Type := Mst {
  gr : Z -> Z; fp : Z; sp : Z; sm : Z -> Z; zf : bool; lf : bool; tg : G M }.

Record hw : Type := Hw {
  hdiv : Z -> Z -> Z;
  hmod : Z -> Z -> Z;
  hlt : alu -> Z -> Z -> bool;
  hjunk : mst -> (Z -> Z) * (Z -> Z) * bool * bool }.

Variable H : hw.

Definition alu_val (a : alu) (x y : Z) : Z :=
  match a with
  | AAdd => w_add x y
  | AAdds => w16 (x + 2 * y)
  | ASub => w_sub x y
  | AAnd => w_and x y
  | AOr => w_or x y
  | AXor => w_xor x y
  | AShl => w16 (x * 2 ^ y)
  | AShr => w16 (sval x / 2 ^ y)
  | AMul => w_mul x y
  | ADiv => hdiv H x y
  | AMod => hmod H x y
  end.

Definition opd_val (o : opd) (t : mst) : Z :=
  match o with
  | OImm c => w16 c
  | OGlb i => w16 (ldg M (tg t) i)
  | OReg r => gr t r
  | OFp d => sm t (fp t + d)
  | OLab l => w16 (lab M l)
  | ONam i => w16 (adr M i)
  | OWnd r => w16 (ldw M (tg t) (gr t r) 0)
  | OByt r => w_chr (ldb M (tg t) (gr t r) 0)
  end.

Definition setr (t : mst) r v := Mst (upd (gr t) r v) (fp t) (sp t) (sm t) (zf t) (lf t) (tg t).
Definition setf (t : mst) z l := Mst (gr t) (fp t) (sp t) (sm t) z l (tg t).
Definition setg (t : mst) g := Mst (gr t) (fp t) (sp t) (sm t) (zf t) (lf t) g.
Definition setfp (t : mst) v := Mst (gr t) v (sp t) (sm t) (zf t) (lf t) (tg t).
Definition setsp (t : mst) v := Mst (gr t) (fp t) v (sm t) (zf t) (lf t) (tg t).
Definition setsm (t : mst) a v := Mst (gr t) (fp t) (sp t) (upd (sm t) a v) (zf t) (lf t) (tg t).
Definition push (t : mst) v := setsm (setsp t (sp t - 2)) (sp t - 2) v.

(* words a .. a + 2*(n-1) of the stack, lowest address first *)
Definition stackWords (t : mst) (n : nat) : list Z :=
  map (fun k => sm t (sp t + 2 * Z.of_nat k)) (seq 0 n).

(* a callee returns with its result in G0. It may change G1, G2, the flags, its
   own part of the stack and its argument words; it keeps G3-G11, FP and SP. *)
Definition docall (t : mst) (n : nat) (f : Z) : option mst :=
  match call M f (stackWords t n) (tg t) with
  | Some (v, g) =>
      let '(jr, js, z, l) := hjunk H t in
      Some (Mst (fun r => if r =? 0 then w16 v
                          else if (r =? 1) || (r =? 2) then jr r else gr t r)
                (fp t) (sp t)
                (fun a => if a <? sp t + 2 * Z.of_nat n then js a else sm t a)
                z l g)
  | None => None
  end.

(* instructions that do not jump; None: not such an instruction, or no return *)
Definition exec1 (i : tin) (t : mst) : option mst :=
  match i with
  | TLd r o => Some (setr t r (opd_val o t))
  | TAlu a r o =>
      let x := gr t r in let y := opd_val o t in
      let v := alu_val a x y in
      Some (setf (setr t r v) (v =? 0) (hlt H a x y))
  | TCmp r o =>
      let x := gr t r in let y := opd_val o t in
      Some (setf t (x =? y) (sval x <? sval y))
  | TStG r i => Some (setg t (stg M (tg t) i (gr t r)))
  | TStF r d => Some (setsm t (fp t + d) (gr t r))
  | TStW r b => Some (setg t (stw M (tg t) (gr t b) 0 (gr t r)))
  | TStB r b => Some (setg t (stb M (tg t) (gr t b) 0 (gr t r)))
  | TPush r => Some (push t (gr t r))
  | TPop r => Some (setsp (setr t r (sm t (sp t))) (sp t + 2))
  | TPushFP => Some (push t (fp t))
  | TPopFP => Some (setsp (setfp t (sm t (sp t))) (sp t + 2))
  | TLdFPSP => Some (setfp t (sp t))
  | TLdSPFP => Some (setsp t (fp t))
  | TSubSP n => Some (setsp t (sp t - n))
  | TAddSP n => Some (setsp t (sp t + n))
  | TCall n f => docall t n f
  | TStkChk =>           (* __stkChk, lib/SrcTac/crt0.s: uses G0 and the stack below SP *)
      let '(jr, js, z, l) := hjunk H t in
      Some (Mst (fun r => if r =? 0 then jr 0 else gr t r) (fp t) (sp t)
                (fun a => if a <? sp t then js a else sm t a) z l (tg t))
  | TLab _ => Some t
  | TJmp _ | TJcc _ _ | TRet | TRetI => None
  end.

Record tcfg : Type := TCfg { tpc : nat; ms : mst }.

Definition tgoto (p : list tin) (l : tlabel) (t : mst) : option tcfg :=
  match tfind l p with Some k => Some (TCfg k t) | None => None end.

(* one step; None: RET, end of code, undefined label, or a callee that does not
   return *)
Definition tstep (p : list tin) (c : tcfg) : option tcfg :=
  match nth_error p (tpc c) with
  | None => None
  | Some i =>
    match i with
    | TJmp l => tgoto p l (ms c)
    | TJcc k l => if holds k (zf (ms c)) (lf (ms c)) then tgoto p l (ms c)
                  else Some (TCfg (S (tpc c)) (ms c))
    | _ => match exec1 i (ms c) with
           | Some t => Some (TCfg (S (tpc c)) t)
           | None => None
           end
    end
  end.

Fixpoint tsteps (p : list tin) (n : nat) (c c' : tcfg) : Prop :=
  match n with
  | O => c = c'
  | S n' => exists d, tstep p c = Some d /\ tsteps p n' d c'
  end.
Definition treaches (p : list tin) (c c' : tcfg) : Prop := exists n, tsteps p n c c'.

(* Assumptions the correctness theorems make about the processor and memory.
   [flat]: the element of an array depends only on its address; a word takes two
   bytes; locals and parameters are addressed by their slots. [hwOk]: quotient and remainder of non-negative words are as usual; when
   [ord] is set, the less-than flag after an arithmetic instruction is the sign
   of its result. *)
Record flat : Prop := {
  fl_ldw : forall g b i, is_word b -> is_word i -> ldw M g b i = ldw M g (w16 (b + 2 * i)) 0;
  fl_stw : forall g b i v, is_word b -> is_word i -> stw M g b i v = stw M g (w16 (b + 2 * i)) 0 v;
  fl_ldb : forall g b i, is_word b -> is_word i -> ldb M g b i = ldb M g (w16 (b + i)) 0;
  fl_stb : forall g b i v, is_word b -> is_word i -> stb M g b i v = stb M g (w16 (b + i)) 0 v;
  fl_lcl : forall i, lcl M i = i;
  fl_pcl : forall i, pcl M i = i }.
Record hwOk (ord : bool) : Prop := {
  hw_div : forall a b, 0 <= a < 32768 -> 0 < b < 32768 -> hdiv H a b = a / b;
  hw_mod : forall a b, 0 <= a < 32768 -> 0 < b < 32768 -> hmod H a b = a mod b;
  hw_lt : ord = true -> forall a x y, hlt H a x y = (sval (alu_val a x y) <? 0) }.

End Tac.

Arguments gr {M}. Arguments fp {M}. Arguments sp {M}. Arguments sm {M}.
Arguments zf {M}. Arguments lf {M}. Arguments tg {M}. Arguments Mst {M}.
Arguments tpc {M}. Arguments ms {M}. Arguments TCfg {M}.
Arguments hdiv {M}. Arguments hmod {M}. Arguments hlt {M}. Arguments hjunk {M}.
