(* What a user of a program with run-time checks relies on: an array is a list of
   elements, made with a length; an access to an element it has is an access to that
   list; every other access stops the program with a message that names the file, the
   line and the index. Blocks and bytes are not mentioned here. *)
From Coq Require Import ZArith Bool List String Ascii.
From Verif Require Import Lexer CCode RtcHeap.
Import ListNotations.
Open Scope Z_scope.

Record array := Arr { akind : kind; elems : list Z }.
Definition arrays := list array.

(* the values an element can have, and what is kept of a number that is assigned to it *)
Definition elem_ok (k : kind) (v : Z) : Prop :=
  match k with KInt => - 2 ^ 31 <= v < 2 ^ 31 | KChar => 0 <= v < 256 | KRef => 0 <= v < 2 ^ 64 end.
Definition kept (k : kind) (v : Z) : Z :=
  match k with KInt => (v + 2 ^ 31) mod 2 ^ 32 - 2 ^ 31 | KChar => v mod 256 | KRef => v mod 2 ^ 64 end.
Definition alen (a : array) : Z := Z.of_nat (List.length (elems a)).

(* a reference of the program: null, or an array of that kind *)
Definition refers (st : arrays) (k : kind) (p : ref) : Prop :=
  match p with None => True | Some b => exists es, nth_error st b = Some (Arr k es) end.
(* the size of what is asked for is below 2 GB *)
Definition size_ok (k : kind) (n : Z) : Prop := 0 <= n /\ hdr k + Z.of_nat (width k) * n < 2 ^ 31.
Definition wf_op (st : arrays) (o : rop) : Prop :=
  match o with
  | New k n => size_ok k n
  | Get k p _ _ _ => refers st k p
  | Put k p _ _ _ _ => refers st k p
  | Deref _ _ _ => True
  end.

(* an access that is made *)
Inductive does (st : arrays) : rop -> reply -> arrays -> Prop :=
| does_new k n es : Z.of_nat (List.length es) = n -> Forall (elem_ok k) es ->
    does st (New k n) (Made (List.length st)) (st ++ [Arr k es])
| does_get k b i file line es v : nth_error st b = Some (Arr k es) -> 0 <= i -> nth_error es (Z.to_nat i) = Some v ->
    does st (Get k (Some b) i file line) (Value v) st
| does_put k b i v file line e1 x e2 s1 s2 : st = s1 ++ Arr k (e1 ++ x :: e2) :: s2 -> List.length s1 = b -> Z.of_nat (List.length e1) = i ->
    does st (Put k (Some b) i v file line) Done (s1 ++ Arr k (e1 ++ kept k v :: e2) :: s2)
| does_deref b file line : does st (Deref (Some b) file line) Done st.

(* an access that is reported *)
Definition at_line (file : list Z) (line : Z) (what : list Z) : list Z := file ++ codes ":" ++ dec line ++ codes " " ++ what ++ [10].
Inductive stops (st : arrays) : rop -> list Z -> Prop :=
| stops_null k i file line : stops st (Get k None i file line)
    (at_line file line (match k with KInt => codes "Null Pointer idx=" ++ dec i ++ codes " " | _ => codes "Null Pointer(idx=" ++ dec i ++ codes ")" end))
| stops_nullp k i v file line : stops st (Put k None i v file line)
    (at_line file line (match k with KInt => codes "Null Pointer idx=" ++ dec i ++ codes " " | _ => codes "Null Pointer(idx=" ++ dec i ++ codes ")" end))
| stops_range k b i file line es : nth_error st b = Some (Arr k es) -> ~ (0 <= i < Z.of_nat (List.length es)) -> stops st (Get k (Some b) i file line)
    (at_line file line (match k with KInt => codes "Out of Bound idx=" ++ dec i | _ => codes "Out of Bound(idx=" ++ dec i ++ codes ")" end))
| stops_rangep k b i v file line es : nth_error st b = Some (Arr k es) -> ~ (0 <= i < Z.of_nat (List.length es)) -> stops st (Put k (Some b) i v file line)
    (at_line file line (match k with KInt => codes "Out of Bound idx=" ++ dec i | _ => codes "Out of Bound(idx=" ++ dec i ++ codes ")" end))
| stops_deref file line : stops st (Deref None file line) (at_line file line (codes "Null Pointer")).

(* how the run of a list of operations goes on arrays *)
Inductive spec_end := SGoes (st : arrays) | SReported (msg : list Z) | SNoMemory.
Inductive spec_run : arrays -> list rop -> list reply -> spec_end -> Prop :=
| run_nil st : spec_run st [] [] (SGoes st)
| run_step st o r st' os rs e : does st o r st' -> spec_run st' os rs e -> spec_run st (o :: os) (r :: rs) e
| run_stop st o m os : stops st o m -> spec_run st (o :: os) [] (SReported m)
| run_memory st k n os : spec_run st (New k n :: os) [] SNoMemory.

(* the operations of a program use the references it has when it comes to them *)
Inductive wf_ops : arrays -> list rop -> Prop :=
| wf_nil st : wf_ops st []
| wf_cons st o os : wf_op st o -> (forall r st', does st o r st' -> wf_ops st' os) -> wf_ops st (o :: os).

(* malloc gives null or a new block of that many bytes, not more than half the address space *)
Definition malloc_ok (malloc : heap -> Z -> option (list Z)) : Prop :=
  forall h s m, malloc h s = Some m -> Z.of_nat (List.length m) = s /\ Forall (fun b => 0 <= b < 256) m /\ s < 2 ^ 63.

(* a block of memory is an array: the length, its elements from the first on *)
Definition lays (a : array) (m : list Z) : Prop :=
  exists pad, m = enc 4 (alen a) ++ pad ++ flat_map (enc (width (akind a))) (elems a) /\
              Z.of_nat (4 + List.length pad) = hdr (akind a) /\ Forall (elem_ok (akind a)) (elems a) /\ alen a < 2 ^ 31.
Definition holds (st : arrays) (h : heap) : Prop := Forall2 (fun a m => exists b, m = Some b /\ lays a b) st h.

(* what main hands to the program, for the strings ss and the arrays from number n on:
   an array of references with null at its end, and a char array for each string *)
Definition vector (addr : nat -> Z) (n : nat) (ss : list (list Z)) : arrays :=
  Arr KRef (map addr (seq (n + 1) (List.length ss)) ++ [0]) :: map (fun s => Arr KChar (s ++ [0])) ss.
Definition addr_ok (addr : nat -> Z) : Prop := forall b, 0 < addr b < 2 ^ 64.
(* C strings whose sizes fit *)
Definition strings_ok (ss : list (list Z)) : Prop :=
  Forall (fun s => Forall (fun c => 0 < c < 256) s /\ Z.of_nat (List.length s) + 5 < 2 ^ 31) ss /\ 8 * (Z.of_nat (List.length ss) + 2) < 2 ^ 31.

(* the part of the rest of a file that one call of fgets takes: up to and with the first newline, m characters at most, less only at the end of the file *)
Definition first_line (m : nat) (s line : list Z) : Prop :=
  exists rest, s = line ++ rest /\ (List.length line <= m)%nat /\
    ((exists l, line = l ++ [10] /\ ~ In 10 l) \/ (~ In 10 line /\ (rest = [] \/ List.length line = m))).
