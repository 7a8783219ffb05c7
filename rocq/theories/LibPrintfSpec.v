(* Specification side for C37: numerals, padded fields and formats, stated
   without reference to the model of printf. *)
From Coq Require Import String Ascii ZArith Bool List Lia.
From Verif Require Import LibMem LibSpec LibStdProofs LibPrintf Properties_Str Properties_Std.
Import ListNotations.
Open Scope Z_scope.

Definition hexdigits : list Z := codes "0123456789abcdef".

(* l is the numeral of x in base b: digits of that base, value x, no leading 0 *)
Definition numeral (b x : Z) (l : list Z) : Prop :=
  Forall (fun c => In c (firstn (Z.to_nat b) hexdigits)) l /\
  radix_value b (fun c => pos_in c hexdigits) l = x /\
  l <> [] /\ (forall r, l = 48 :: r -> r = []).

(* a field at least w wide: left-justified with blanks, or right-justified with
   blanks or zeros *)
Definition padding (w c : Z) (body : list Z) : list Z := repeat c (Z.to_nat (w - len body)).
Definition field (left zero : bool) (w : Z) (body : list Z) : list Z :=
  if left then body ++ padding w 32 body
  else padding w (if zero then 48 else 32) body ++ body.

Inductive kind := Kd | Kx | Ko | Kc | Ks | Kpct | Kld.
Inductive item := Lit (c : Z) | Conv (left : bool) (width : list Z) (k : kind).

Definition kind_text (k : kind) : list Z :=
  match k with
  | Kd => codes "d" | Kx => codes "x" | Ko => codes "o" | Kc => codes "c"
  | Ks => codes "s" | Kpct => codes "%" | Kld => codes "ld"
  end.
Definition item_text (i : item) : list Z :=
  match i with
  | Lit c => [c]
  | Conv lf ws k => codes "%" ++ (if lf then codes "-" else []) ++ ws ++ kind_text k
  end.
Definition format_text (f : list item) : list Z := flat_map item_text f.

Definition width_of (ws : list Z) : Z := radix_value 10 dec_digit ws.
Definition zero_flag (ws : list Z) : bool := match ws with 48 :: _ => true | _ => false end.
Definition item_ok (i : item) : Prop :=
  match i with
  | Lit c => char_ok c /\ c <> 37
  | Conv _ ws _ => Forall (fun c => In c digits) ws /\ width_of ws <= 32767
  end.

(* the n-th int of the argument array *)
Definition argv (m : mem) (args n : Z) : Z := i16 (ldw m (args + 2 * n)).

Definition signed_text (x : Z) (l : list Z) : Prop :=
  exists n, numeral 10 (Z.abs x) n /\ l = (if x <? 0 then [45] else []) ++ n.

(* What a conversion prints (k, justification, zero flag, width) when the next
   argument is number pos, and the number of the argument after that.
   D says how the machine divides: see LibPrintf.v. *)
Inductive conv_spec (D : divsem) (m : mem) (args pos : Z) (lf zero : bool) (w : Z) :
    kind -> list Z -> Z -> Prop :=
| Sd l : D = unsigned_div \/ D = signed_div /\ argv m args pos <> -32768 ->
    signed_text (argv m args pos) l ->
    conv_spec D m args pos lf zero w Kd (field lf zero w l) (pos + 1)
| Sx l : D = unsigned_div \/ D = signed_div /\ 0 <= argv m args pos ->
    numeral 16 (argv m args pos mod 65536) l ->
    conv_spec D m args pos lf zero w Kx (field lf zero w l) (pos + 1)
| So l : D = unsigned_div \/ D = signed_div /\ 0 <= argv m args pos ->
    numeral 8 (argv m args pos mod 65536) l ->
    conv_spec D m args pos lf zero w Ko (field lf zero w l) (pos + 1)
| Sc : conv_spec D m args pos lf zero w Kc (field lf false w [argv m args pos mod 256]) (pos + 1)
| Ss l : str_at m (argv m args pos) l -> len l <= 32767 ->
    conv_spec D m args pos lf zero w Ks (field lf false w l) (pos + 1)
| Spct : conv_spec D m args pos lf zero w Kpct (codes "%") pos.

(* the text printed for a list of items *)
Inductive items_spec (D : divsem) (m : mem) (args : Z) : Z -> list item -> list Z -> Z -> Prop :=
| Snil pos : items_spec D m args pos [] [] pos
| Slit pos c f t pos' : items_spec D m args pos f t pos' ->
    items_spec D m args pos (Lit c :: f) (c :: t) pos'
| Sconv pos lf ws k f t1 pos1 t2 pos2 :
    conv_spec D m args pos lf (zero_flag ws) (width_of ws) k t1 pos1 ->
    items_spec D m args pos1 f t2 pos2 ->
    items_spec D m args pos (Conv lf ws k :: f) (t1 ++ t2) pos2.
