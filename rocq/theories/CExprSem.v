(* Reference semantics of expressions with 32-bit words: ExprSem.v with the words of CWord.v.
   This is the meaning of C-- in the build of the translator and, for the operators that the C
   text uses, that of C on a machine whose int has 32 bits and wraps around. *)
From Coq Require Import ZArith Bool List.
From Verif Require Import CWord SyTree ExprSem.
Import ListNotations.
Open Scope Z_scope.

Section Sem.
Variable M : machine.
Variable N : names.
Notation state := (state M).

Definition cleaf (k : leaf) (st : state) : option Z :=
  match k with
  | LCnst v => Some (w32 v)
  | LLoc i => chk (is_bool N i) (w32 (locs st (lcl M i)))
  | LPrm i => chk (is_bool N i) (w32 (prms st (pcl M i)))
  | LGlb i => chk (is_bool N i) (w32 (ldg M (gs st) i))
  | LStr l => Some (w32 (lab M l))
  | LAddr i => Some (w32 (adr M i))
  end.

Definition c1_val (o : op1) (a : Z) : Z :=
  match o with
  | NEG => w_neg a | NOT => w_not a | BNOT => w_bnot a
  | CHR => w_chr a | BOOL => w_bool a
  end.

(* strict binary operators *)
Definition c2_val (o : op2) (a b : Z) : option Z :=
  match o with
  | ADD => Some (w_add a b) | SUB => Some (w_sub a b)
  | MUL => Some (w_mul a b) | DIV => w_div a b | MOD => w_mod a b
  | SHL => w_shl a b | SHR => w_shr a b
  | BAND => Some (w_and a b) | BOR => Some (w_or a b) | BXOR => Some (w_xor a b)
  | GT => Some (w_gt a b) | GE => Some (w_ge a b) | LT => Some (w_lt a b)
  | LE => Some (w_le a b) | EQU => Some (w_eq a b) | NEQ => Some (w_ne a b)
  | _ => None
  end.

Variable sw : op2 -> expr -> expr -> bool.

(* [cev e st]: the values denoted by e (one for an expression, one per argument
   for an argument list) and the state afterwards; None if undefined.
   Arguments are evaluated last to first; an assignment evaluates its right
   side, then the array and index of its left side, then stores. *)
Fixpoint cev (e : expr) (st : state) {struct e} : option (list Z * state) :=
  match e with
  | ENull => None
  | ELeaf k => ret1 M (cleaf k st) st
  | E1 o a =>
      match one M (cev a st) with
      | Some (v, s) => Some ([c1_val o v], s)
      | None => None
      end
  | EFunc f a =>
      match (match a with ENull => Some ([], st) | _ => cev a st end) with
      | Some (vs, s) =>
          match call M f vs (gs s) with
          | Some (v, g) => ret1 M (chk (is_bool N f) (w32 v)) (set_g M s g)
          | None => None
          end
      | None => None
      end
  | E2 SEMI l r =>
      match one M (cev r st) with
      | Some (v, s) =>
          match cev l s with
          | Some (vs, s') => Some (vs ++ [v], s')
          | None => None
          end
      | None => None
      end
  | E2 AND l r =>
      match one M (cev l st) with
      | Some (v, s) => if v =? 0 then Some ([0], s)
                       else match one M (cev r s) with
                            | Some (w, s') => Some ([w], s') | None => None end
      | None => None
      end
  | E2 OR l r =>
      match one M (cev l st) with
      | Some (v, s) => if v =? 0 then
                         match one M (cev r s) with
                         | Some (w, s') => Some ([w], s') | None => None end
                       else Some ([1], s)
      | None => None
      end
  | E2 COMM l r =>
      match one M (cev l st) with
      | Some (_, s) => match one M (cev r s) with
                       | Some (w, s') => Some ([w], s') | None => None end
      | None => None
      end
  | E2 DOT l r =>
      match r, one M (cev l st) with
      | Cnst f, Some (b, s) =>
          ret1 M (chk (is_bool N f) (w32 (ldw M (gs s) b (w32 (slot N f))))) s
      | _, _ => None
      end
  | E2 ASS l r =>
      match one M (cev r st) with
      | Some (v, s) =>
          match l with
          | ELeaf (LLoc i) => Some ([v], set_loc M s (lcl M i) v)
          | ELeaf (LPrm i) => Some ([v], set_prm M s (pcl M i) v)
          | ELeaf (LGlb i) => Some ([v], set_g M s (stg M (gs s) i v))
          | E2 DOT b (Cnst f) =>
              match one M (cev b s) with
              | Some (a, s') =>
                  Some ([v], set_g M s' (stw M (gs s') a (w32 (slot N f)) v))
              | None => None
              end
          | E2 o b i =>
              match one M (cev b s) with
              | Some (a, s1) =>
                  match one M (cev i s1) with
                  | Some (k, s2) =>
                      match o with
                      | IDXR | IDXI => Some ([v], set_g M s2 (stw M (gs s2) a k v))
                      | IDXC | IDXB => Some ([v], set_g M s2 (stb M (gs s2) a k v))
                      | _ => None
                      end
                  | None => None
                  end
              | None => None
              end
          | _ => None
          end
      | None => None
      end
  | E2 o l r =>
      if either_order o && sw o l r then
        match one M (cev r st) with
        | Some (b, s) =>
            match one M (cev l s) with
            | Some (a, s') => ret1 M (c2_val o a b) s'
            | None => None
            end
        | None => None
        end
      else
        match one M (cev l st) with
        | Some (a, s) =>
            match one M (cev r s) with
            | Some (b, s') =>
                match o with
                | IDXR | IDXI => ret1 M (Some (w32 (ldw M (gs s') a b))) s'
                | IDXC => ret1 M (Some (w_chr (ldb M (gs s') a b))) s'
                | IDXB => ret1 M (chk true (w_chr (ldb M (gs s') a b))) s'
                | _ => ret1 M (c2_val o a b) s'
                end
            | None => None
            end
        | None => None
        end
  end.

(* value and final state of an expression *)
Definition ceval (e : expr) (st : state) : option (Z * state) := one M (cev e st).

End Sem.
