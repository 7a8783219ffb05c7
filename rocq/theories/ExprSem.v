(* Reference semantics of C-- expressions (specification side, independent of
   optimiser and code generator).

   Quantified over the machine: how globals, words and bytes are stored, what
   callees do, where objects live. No law is assumed about them, so any
   aliasing between globals and array memory and any callee is covered. *)
From Coq Require Import ZArith Bool List.
From Verif Require Import Word SyTree.
Import ListNotations.
Open Scope Z_scope.

Record machine : Type := Machine {
  G : Type;                              (* everything a callee can see *)
  ldg : G -> Z -> Z;                     (* global variable, by name index *)
  stg : G -> Z -> Z -> G;
  ldw : G -> Z -> Z -> Z;                (* word array: base, index *)
  stw : G -> Z -> Z -> Z -> G;           (* base, index, value *)
  ldb : G -> Z -> Z -> Z;                (* byte array *)
  stb : G -> Z -> Z -> Z -> G;
  call : Z -> list Z -> G -> option (Z * G);  (* callee; None: no return *)
  adr : Z -> Z;                          (* address of a named object *)
  lab : Z -> Z;                          (* address of a string literal *)
  lcl : Z -> Z;                          (* the cell of a local variable, by name index *)
  pcl : Z -> Z                           (* the cell of a parameter *)
}.

(* what the semantics needs from the name table *)
Record names : Type := Names {
  is_bool : Z -> bool;   (* variable, field or function of type boolean *)
  is_void : Z -> bool;   (* function returning void *)
  slot : Z -> Z          (* field number of a struct field *)
}.

Section Sem.
Variable M : machine.
Variable N : names.

Record state : Type := State { gs : G M; locs : Z -> Z; prms : Z -> Z }.

Definition upd (f : Z -> Z) (i v : Z) : Z -> Z :=
  fun j => if j =? i then v else f j.
Definition set_g (st : state) g := State g (locs st) (prms st).
Definition set_loc (st : state) i v := State (gs st) (upd (locs st) i v) (prms st).
Definition set_prm (st : state) i v := State (gs st) (locs st) (upd (prms st) i v).

(* a boolean object must hold 0 or 1; otherwise the program is undefined *)
Definition chk (b : bool) (v : Z) : option Z :=
  if b then (if (v =? 0) || (v =? 1) then Some v else None) else Some v.

Definition leaf_val (k : leaf) (st : state) : option Z :=
  match k with
  | LCnst v => Some (w16 v)
  | LLoc i => chk (is_bool N i) (w16 (locs st (lcl M i)))
  | LPrm i => chk (is_bool N i) (w16 (prms st (pcl M i)))
  | LGlb i => chk (is_bool N i) (w16 (ldg M (gs st) i))
  | LStr l => Some (w16 (lab M l))
  | LAddr i => Some (w16 (adr M i))
  end.

Definition op1_val (o : op1) (a : Z) : Z :=
  match o with
  | NEG => w_neg a | NOT => w_not a | BNOT => w_bnot a
  | CHR => w_chr a | BOOL => w_bool a
  end.

(* strict binary operators *)
Definition op2_val (o : op2) (a b : Z) : option Z :=
  match o with
  | ADD => Some (w_add a b) | SUB => Some (w_sub a b)
  | MUL => Some (w_mul a b) | DIV => w_div a b | MOD => w_mod a b
  | SHL => w_shl a b | SHR => w_shr a b
  | BAND => Some (w_and a b) | BOR => Some (w_or a b) | BXOR => Some (w_xor a b)
  | GT => Some (w_gt a b) | GE => Some (w_ge a b) | LT => Some (w_lt a b)
  | LE => Some (w_le a b) | EQU => Some (w_eq a b) | NEQ => Some (w_ne a b)
  | _ => None
  end.

(* operators whose operands the compiler may evaluate in either order *)
Definition either_order (o : op2) : bool :=
  match o with
  | ADD | MUL | BAND | BOR | BXOR | GT | GE | LT | LE | EQU | NEQ => true
  | _ => false
  end.

(* An evaluation-order policy: [sw o l r = true] means the right operand of
   [l o r] is evaluated first; consulted only for [either_order] operators. *)
Variable sw : op2 -> expr -> expr -> bool.

Definition one (x : option (list Z * state)) : option (Z * state) :=
  match x with Some ([v], s) => Some (v, s) | _ => None end.

Definition ret1 (o : option Z) (st : state) : option (list Z * state) :=
  match o with Some v => Some ([v], st) | None => None end.

(* [ev e st]: the values denoted by e (one for an expression, one per argument
   for an argument list) and the state afterwards; None if undefined.
   Arguments are evaluated last to first; an assignment evaluates its right
   side, then the array and index of its left side, then stores. *)
Fixpoint ev (e : expr) (st : state) {struct e} : option (list Z * state) :=
  match e with
  | ENull => None
  | ELeaf k => ret1 (leaf_val k st) st
  | E1 o a =>
      match one (ev a st) with
      | Some (v, s) => Some ([op1_val o v], s)
      | None => None
      end
  | EFunc f a =>
      match (match a with ENull => Some ([], st) | _ => ev a st end) with
      | Some (vs, s) =>
          match call M f vs (gs s) with
          | Some (v, g) => ret1 (chk (is_bool N f) (w16 v)) (set_g s g)
          | None => None
          end
      | None => None
      end
  | E2 SEMI l r =>
      match one (ev r st) with
      | Some (v, s) =>
          match ev l s with
          | Some (vs, s') => Some (vs ++ [v], s')
          | None => None
          end
      | None => None
      end
  | E2 AND l r =>
      match one (ev l st) with
      | Some (v, s) => if v =? 0 then Some ([0], s)
                       else match one (ev r s) with
                            | Some (w, s') => Some ([w], s') | None => None end
      | None => None
      end
  | E2 OR l r =>
      match one (ev l st) with
      | Some (v, s) => if v =? 0 then
                         match one (ev r s) with
                         | Some (w, s') => Some ([w], s') | None => None end
                       else Some ([1], s)
      | None => None
      end
  | E2 COMM l r =>
      match one (ev l st) with
      | Some (_, s) => match one (ev r s) with
                       | Some (w, s') => Some ([w], s') | None => None end
      | None => None
      end
  | E2 DOT l r =>
      match r, one (ev l st) with
      | Cnst f, Some (b, s) =>
          ret1 (chk (is_bool N f) (w16 (ldw M (gs s) b (w16 (slot N f))))) s
      | _, _ => None
      end
  | E2 ASS l r =>
      match one (ev r st) with
      | Some (v, s) =>
          match l with
          | ELeaf (LLoc i) => Some ([v], set_loc s (lcl M i) v)
          | ELeaf (LPrm i) => Some ([v], set_prm s (pcl M i) v)
          | ELeaf (LGlb i) => Some ([v], set_g s (stg M (gs s) i v))
          | E2 DOT b (Cnst f) =>
              match one (ev b s) with
              | Some (a, s') =>
                  Some ([v], set_g s' (stw M (gs s') a (w16 (slot N f)) v))
              | None => None
              end
          | E2 o b i =>
              match one (ev b s) with
              | Some (a, s1) =>
                  match one (ev i s1) with
                  | Some (k, s2) =>
                      match o with
                      | IDXR | IDXI => Some ([v], set_g s2 (stw M (gs s2) a k v))
                      | IDXC | IDXB => Some ([v], set_g s2 (stb M (gs s2) a k v))
                      | _ => None
                      end
                  | None => None
                  end
              | None => None
              end
          | _ => None
          end
      | None => None
      end
  | E2 o l r =>
      if either_order o && sw o l r then
        match one (ev r st) with
        | Some (b, s) =>
            match one (ev l s) with
            | Some (a, s') => ret1 (op2_val o a b) s'
            | None => None
            end
        | None => None
        end
      else
        match one (ev l st) with
        | Some (a, s) =>
            match one (ev r s) with
            | Some (b, s') =>
                match o with
                | IDXR | IDXI => ret1 (Some (w16 (ldw M (gs s') a b))) s'
                | IDXC => ret1 (Some (w_chr (ldb M (gs s') a b))) s'
                | IDXB => ret1 (chk true (w_chr (ldb M (gs s') a b))) s'
                | _ => ret1 (op2_val o a b) s'
                end
            | None => None
            end
        | None => None
        end
  end.

(* value and final state of an expression *)
Definition eval (e : expr) (st : state) : option (Z * state) := one (ev e st).

End Sem.

Arguments State {M}.
Arguments gs {M}.
Arguments locs {M}.
Arguments prms {M}.

(* strict left-to-right evaluation *)
Definition ltr (o : op2) (l r : expr) : bool := false.
