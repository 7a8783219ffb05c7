(* What streams should do, in terms of the calls made, their results, and the events the
   operating system sees. *)
From Coq Require Import ZArith Bool List Lia.
From Verif Require Import LibStdio.
Import ListNotations.
Open Scope Z_scope.

(* the descriptors open after the events *)
Definition openFds (t : list ev) : list Z :=
  fold_left (fun o e => match e with EOpen d _ => d :: o | EClose d => remove Z.eq_dec d o | _ => o end) t [].

(* What is asked of the operating system and the allocator: write never takes more than it is
   given, read and ttyRead never give more than there is room for, open gives a descriptor that
   is not open, and calloc an address that is not in use (C35). *)
Record kernOk (K : kernel) : Prop := {
  k_write : forall t d bs, kWrite K t d bs <= Z.of_nat (length bs);
  k_read : forall t d n bs, 0 <= n -> kRead K t d n = Some bs -> Z.of_nat (length bs) <= n;
  k_ttyr : forall t n, 0 <= n -> Z.of_nat (length (kTtyR K t n)) <= n;
  k_open : forall t nm m, 0 <= kOpen K t nm m -> ~ In (kOpen K t nm m) (openFds t);
  k_alloc : forall t l, kAlloc K t l <> 0 /\ ~ In (kAlloc K t l) l }.
(* the console shows everything *)
Definition showsAll (K : kernel) : Prop := forall t bs, kTtyW K t bs = Z.of_nat (length bs).

(* reading from the keyboard waits for something *)
Definition keysOk (K : kernel) : Prop := forall t n, 0 < n -> kTtyR K t n <> [].

(* what goes to a file, in order *)
Inductive item : Type := Byte (b : Z) | Seek (h l : Z).

(* what a call asks to be put on stream fp *)
Definition asks (fp : Z) (o : op) : list item :=
  match o with
  | Fputc c p => if p =? fp then [Byte c] else []
  | Fputs w p => if p =? fp then map Byte w else []
  | Fseek p h l => if p =? fp then [Seek h l] else []
  | _ => []
  end.
Definition written (fp : Z) (h : list (op * res)) : list item := flat_map (fun x => asks fp (fst x)) h.

(* what has reached the file with descriptor d *)
Definition toFile (d : Z) (e : ev) : list item :=
  match e with
  | EWrite d' bs => if d' =? d then map Byte bs else []
  | ESeek d' h l => if d' =? d then [Seek h l] else []
  | _ => []
  end.
(* what stream fp has shown on the console *)
Definition toCon (fp d : Z) (e : ev) : list item :=
  match e with
  | ECon p bs => if p =? fp then map Byte bs else []
  | ESeek d' h l => if d' =? d then [Seek h l] else []
  | _ => []
  end.
Definition delivered (d : Z) (t : list ev) : list item := flat_map (toFile d) t.
Definition shown (fp d : Z) (t : list ev) : list item := flat_map (toCon fp d) t.
Definition bytes (l : list item) : list item := filter (fun x => match x with Byte _ => true | _ => false end) l.

(* what a call has returned from stream fp *)
Definition gives (fp : Z) (x : op * res) : list Z :=
  match x with
  | (Fgetc p, RChar c) => if p =? fp then [c] else []
  | (Fgets _ p, RLine l _) => if p =? fp then removelast l else []
  | _ => []
  end.
Definition returned (fp : Z) (h : list (op * res)) : list Z := flat_map (gives fp) h.
(* what has been read from descriptor d, and from the keyboard *)
Definition fromFile (d : Z) (e : ev) : list Z := match e with ERead d' (Some bs) => if d' =? d then bs else [] | _ => [] end.
Definition fromKey (e : ev) : list Z := match e with EKey bs => bs | _ => [] end.
Definition readBytes (d : Z) (t : list ev) : list Z := flat_map (fromFile d) t.
Definition typed (t : list ev) : list Z := flat_map fromKey t.

(* no call that closes fp *)
Definition noClose (fp : Z) (h : list (op * res)) : Prop := forall r, ~ In (Fclose fp, r) h.
Definition noSeek (fp : Z) (h : list (op * res)) : Prop := forall a b r, ~ In (Fseek fp a b, r) h.

(* descriptor d reads a file with content bs from the start: chunks in order, of any size, an
   empty chunk only at the end, no error *)
Definition serves (bs : list Z) (d : Z) (t : list ev) : Prop :=
  forall t1 r t2, t = t1 ++ ERead d r :: t2 ->
  exists c rest, r = Some c /\ bs = readBytes d t1 ++ c ++ rest /\ (c = [] -> rest = []).
