(* Model of src/vm2tac.c: from virtual machine instructions to TaC code.

   The static variables accBsy, accCnt (vm2tac.c:78-79), stkSta/stkAux/stkPtr
   (145-147), flgPtr (150), flgJcc (153), tlab (162), rvCnt, frSize (309-310)
   are the record [tst]; an error() or BUG() is None. A stack entry is
   (stkSta, stkAux) as one constructor; the stack is a list, top first, and
   flgPtr is the index of an entry counted from the bottom. printf of an
   instruction emits a [tin]; names are name table indices (getPref and
   ntGetName, 105-108, are not modelled).

   Two ghost components, not in the C code, never influence the code emitted:
   [lay] records what the words on the real stack are, and [fv] whether the
   flags still say what flgPtr claims. They are read only by [guard], which does
   nothing when [strict] is false. With [strict] true a failed guard makes the
   translation fail; see TacSafe.v for what the guards mean. *)
From Coq Require Import ZArith Bool List.
From Verif Require Import Word SyTree ExprSem VM VmCode TacSpec.
Import ListNotations.
Open Scope Z_scope.

(* vm2tac.c:127-141 *)
Inductive ent : Type :=
| XCns (c : Z) | XGlb (i : Z) | XLoc (d : Z) | XReg (r : Z) | XPrm (d : Z)
| XLab (l : Z) | XNam (i : Z) | XWnd (r : Z) | XByt (r : Z)
| XAcc (r : Z) | XFlg (r : Z) | XStk.

Record tst : Type := Tst {
  bsy : list bool;            (* accBsy *)
  acnt : Z;                   (* accCnt *)
  vst : list ent;             (* the virtual stack, top first *)
  flg : option nat;           (* flgPtr; None is -1 *)
  fcc : cc;                   (* flgJcc *)
  tl : Z;                     (* tlab *)
  rv : Z; fr : Z;             (* rvCnt, frSize *)
  lay : list (option nat);    (* ghost: words on the real stack, top first:
                                 Some i the value of entry i, None an argument *)
  fv : bool }.                (* ghost *)

Definition set_acc (s : tst) b n := Tst b n (vst s) (flg s) (fcc s) (tl s) (rv s) (fr s) (lay s) (fv s).
Definition set_vst (s : tst) v := Tst (bsy s) (acnt s) v (flg s) (fcc s) (tl s) (rv s) (fr s) (lay s) (fv s).
Definition set_flg (s : tst) f := Tst (bsy s) (acnt s) (vst s) f (fcc s) (tl s) (rv s) (fr s) (lay s) (fv s).
Definition set_fcc (s : tst) c := Tst (bsy s) (acnt s) (vst s) (flg s) c (tl s) (rv s) (fr s) (lay s) (fv s).
Definition set_tl (s : tst) n := Tst (bsy s) (acnt s) (vst s) (flg s) (fcc s) n (rv s) (fr s) (lay s) (fv s).
Definition set_frm (s : tst) r f := Tst (bsy s) (acnt s) (vst s) (flg s) (fcc s) (tl s) r f (lay s) (fv s).
Definition set_lay (s : tst) l := Tst (bsy s) (acnt s) (vst s) (flg s) (fcc s) (tl s) (rv s) (fr s) l (fv s).
Definition set_fv (s : tst) b := Tst (bsy s) (acnt s) (vst s) (flg s) (fcc s) (tl s) (rv s) (fr s) (lay s) b.

(* what a piece of the translator does: code emitted and new state *)
Definition act := tst -> option (list tin * tst).
Definition andThen (f g : act) : act := fun s =>
  match f s with
  | Some (c1, s1) =>
      match g s1 with Some (c2, s2) => Some (c1 ++ c2, s2) | None => None end
  | None => None
  end.
Notation "f ;; g" := (andThen f g) (at level 61, right associativity).
Definition emit (c : list tin) : act := fun s => Some (c, s).
Definition skip : act := emit [].
Definition fail : act := fun _ => None.
Definition modify (h : tst -> tst) : act := fun s => Some ([], h s).
Definition get (k : tst -> act) : act := fun s => k s s.
Definition bug (b : bool) : act := if b then fail else skip.   (* BUG(), vm2tac.c:59 *)

(* entry at a distance from the top. Reading below the bottom (undefined in the
   C code; excluded by C20, which bounds the stack from below) is None. *)
Definition ent_at (o : nat) (k : ent -> act) : act := fun s =>
  match nth_error (vst s) o with Some e => k e s | None => None end.

Fixpoint put {A} (l : list A) (o : nat) (e : A) : list A :=
  match l, o with
  | [], _ => []
  | _ :: l', O => e :: l'
  | x :: l', S o' => x :: put l' o' e
  end.
Definition set_ent (o : nat) (e : ent) : act := modify (fun s => set_vst s (put (vst s) o e)).

(* index from the bottom of the entry at distance o from the top *)
Definition idx (s : tst) (o : nat) : nat := (length (vst s) - 1 - o)%nat.
Definition flg_is (s : tst) (o : nat) : bool :=
  match flg s with Some i => Nat.eqb (i + o + 1) (length (vst s)) | None => false end.

Section Translator.
Variable strict : bool.
Variable ord : bool.      (* ghost: see TacSafe.v *)
Variable depth np : Z.    (* ghost: local variables and parameters of the function *)

Definition guard (b : bool) : act := if strict && negb b then fail else skip.

(* relAcc, vm2tac.c:82-86 *)
Definition relAcc (a : Z) : act := get (fun s =>
  bug ((a <? 0) || (3 <=? a) || negb (nth (Z.to_nat a) (bsy s) false)) ;;
  modify (fun s => set_acc s (put (bsy s) (Z.to_nat a) false) (acnt s - 1))).

(* allocAcc, vm2tac.c:89-98: the first free one *)
Definition firstFree (b : list bool) : option Z :=
  match b with
  | false :: _ => Some 0
  | true :: false :: _ => Some 1
  | true :: true :: false :: _ => Some 2
  | _ => None
  end.
Definition allocAcc (k : Z -> act) : act := get (fun s =>
  match firstFree (bsy s) with
  | Some a => modify (fun s => set_acc s (put (bsy s) (Z.to_nat a) true) (acnt s + 1)) ;; k a
  | None => fail
  end).

(* (n+3)%6, vm2tac.c:117 *)
Definition negJcc (c : cc) : cc :=
  match c with JLT => JGE | JLE => JGT | JEQ => JNZ | JGE => JLT | JGT => JLE | JNZ => JEQ end.
(* swapJcc, vm2tac.c:735-742 *)
Definition swapJcc (c : cc) : cc :=
  match c with JGT => JLT | JGE => JLE | JLT => JGT | JLE => JGE | _ => c end.

Definition isFlg (e : ent) := match e with XFlg _ => true | _ => false end.
Definition isStk (e : ent) := match e with XStk => true | _ => false end.
Definition isReg (e : ent) := match e with XReg _ => true | _ => false end.
Definition isACC (e : ent) := match e with XAcc _ => true | _ => false end.
(* isCnst0, vm2tac.c:243-246 *)
Definition isCnst0 (e : ent) := match e with XCns c => c =? 0 | _ => false end.
(* isAcc, vm2tac.c:249-255: the accumulator an entry uses *)
Definition accOf (e : ent) : option Z :=
  match e with
  | XAcc r | XFlg r => Some r
  | XWnd r | XByt r => if r <? 3 then Some r else None
  | _ => None
  end.
Definition relEnt (o : nat) : act := ent_at o (fun e =>   (* if (isAcc(p)) relAcc(stkAux[p]) *)
  match accOf e with Some a => relAcc a | None => skip end).
(* stkAux of an entry that holds a register *)
Definition regOf (e : ent) (k : Z -> act) : act :=
  match e with XAcc r | XReg r | XFlg r | XWnd r | XByt r => k r | _ => fail end.

(* loadFlg, vm2tac.c:163-171 *)
Definition loadFlg (r : Z) (o : nat) : act := get (fun s =>
  bug (negb (flg_is s o)) ;;
  ent_at o (fun e => bug (negb (isFlg e))) ;;
  emit [TLd r (OImm 1); TJcc (fcc s) (LbT (tl s)); TLd r (OImm 0); TLab (LbT (tl s))] ;;
  modify (fun s => set_tl s (tl s + 1))).

(* clearFlg, vm2tac.c:174-180. [flgPos]: distance of flgPtr from the top *)
Definition flgPos (s : tst) : option nat :=
  match flg s with Some i => Some (length (vst s) - 1 - i)%nat | None => None end.
Definition clearFlg : act := get (fun s =>
  match flgPos s with
  | Some o => ent_at o (fun e =>
      match e with
      | XFlg r => loadFlg r o ;; set_ent o (XAcc r)
      | _ => skip
      end)
  | None => skip
  end) ;;
  modify (fun s => set_flg s None).

(* calReg, vm2tac.c:183-214: the operand an entry gives *)
Definition opdOf (e : ent) : option opd :=
  match e with
  | XCns c => Some (OImm c) | XGlb i => Some (OGlb i) | XLoc d => Some (OFp (- d))
  | XReg r => Some (OReg r) | XPrm d => Some (OFp d)
  | XLab l => Some (OLab l) | XNam i => Some (ONam i)
  | XWnd r => Some (OWnd r) | XByt r => Some (OByt r) | XAcc r => Some (OReg r)
  | XFlg _ | XStk => None
  end.
Definition calReg (mk : opd -> tin) (o : nat) : act := ent_at o (fun e =>
  match opdOf e with Some x => emit [mk x] | None => fail end).

(* loadReg, vm2tac.c:217-228 *)
Definition loadReg (r : Z) (o : nat) : act := ent_at o (fun e =>
  match e with
  | XStk => get (fun s => guard (match lay s with Some i :: _ => Nat.eqb i (idx s o) | _ => false end)) ;;
            emit [TPop r] ;;
            modify (fun s => set_lay s (List.tl (lay s)))
  | XFlg _ => loadFlg r o ;; modify (fun s => set_fv s false)
  | _ => bug (match e with XAcc q | XReg q => q =? r | _ => false end) ;;
         calReg (TLd r) o
  end).

(* pushStk, vm2tac.c:231-236; StkSIZ is 20 *)
Definition pushStk (e : ent) : act := get (fun s =>
  bug (Nat.leb 20 (length (vst s))) ;; modify (fun s => set_vst s (e :: vst s))).

(* popStk, vm2tac.c:239-244 *)
Definition popRaw (n : nat) : act := get (fun s =>
  bug (Nat.ltb (length (vst s)) n) ;;
  modify (fun s =>
    let s := set_flg s (match flg s with
                        | Some i => if Nat.ltb (i + n) (length (vst s)) then Some i else None
                        | None => None end) in
    set_vst s (skipn n (vst s)))).
(* a value left on the real stack would be lost *)
Definition popStk (n : nat) : act :=
  get (fun s => guard (negb (existsb isStk (firstn n (vst s))))) ;; popRaw n.

(* srchAcc, vm2tac.c:258-263: distance from the top of the deepest accumulator *)
Fixpoint srchAcc (l : list ent) : option nat :=
  match l with
  | [] => None
  | e :: l' => match srchAcc l' with
               | Some o => Some (S o)
               | None => match accOf e with Some _ => Some O | None => None end
               end
  end.

(* outStk, vm2tac.c:266-275 *)
Definition outStk : act := get (fun s =>
  match srchAcc (vst s) with
  | None => fail
  | Some o => ent_at o (fun e =>
      match accOf e with
      | Some a =>
          (if isACC e then skip else loadReg a o) ;;
          emit [TPush a] ;;
          modify (fun s => set_lay s (Some (idx s o) :: lay s)) ;;
          relAcc a ;;
          set_ent o XStk
      | None => fail
      end)
  end).

(* outStkAll, vm2tac.c:278-282. accCnt is at most 3 *)
Fixpoint outStkN (n : nat) : act := get (fun s =>
  if acnt s <=? 0 then skip
  else match n with O => fail | S n' => outStk ;; outStkN n' end).
Definition outStkAll : act := outStkN 4.

(* loadStk, vm2tac.c:286-300 *)
Definition loadStk (o : nat) : act := ent_at o (fun e =>
  if isACC e then skip
  else match accOf e with
       | Some a => loadReg a o ;; set_ent o (XAcc a)
       | None => get (fun s => if 3 <=? acnt s then outStk else skip) ;;
                 allocAcc (fun a => loadReg a o ;; set_ent o (XAcc a))
       end).

(* makeFrame, vm2tac.c:322-338 *)
Definition makeFrame (d : Z) : act :=
  let f := if 9 <? d then (d - 9) * 2 else 0 in
  let r := if 9 <? d then 9 else d in
  modify (fun s => set_frm s r f) ;;
  emit ([TPushFP; TLdFPSP] ++ (if 0 <? f then [TSubSP f] else [])
        ++ map (fun i => TPush (Z.of_nat i + 3)) (seq 0 (Z.to_nat r))).
(* cancelFrame, vm2tac.c:341-350 *)
Definition cancelFrame : act := get (fun s =>
  bug (negb (Nat.eqb (length (vst s)) 0)) ;; bug (negb (acnt s =? 0)) ;;
  guard (Nat.eqb (length (lay s)) 0) ;;
  emit (map (fun i => TPop (Z.of_nat i + 3)) (rev (seq 0 (Z.to_nat (rv s))))
        ++ (if 0 <? fr s then [TLdSPFP] else []) ++ [TPopFP])).

(* no entry in the virtual stack still waits to read what is about to change *)
Definition noPend (f : ent -> bool) : act := get (fun s => guard (negb (existsb f (vst s)))).
Definition readsMem (e : ent) := match e with XGlb _ | XWnd _ | XByt _ => true | _ => false end.
Definition readsReg (r : Z) (e : ent) :=
  match e with XReg q | XWnd q | XByt q => q =? r | _ => false end.
Definition readsLoc (d : Z) (e : ent) := match e with XLoc q => q =? d | _ => false end.
Definition readsPrm (d : Z) (e : ent) := match e with XPrm q => q =? d | _ => false end.

(* vmMReg, vm2tac.c:387-392 *)
Definition vmMReg : act :=
  ent_at 0 (fun e => match e with
    | XAcc r => if r =? 0 then skip else loadReg 0 0
    | _ => loadReg 0 0 end) ;;
  get (fun s => guard (Nat.eqb (length (vst s)) 1)) ;;
  relEnt 0 ;; popRaw 1.

(* vmArg, vm2tac.c:395-404 *)
Definition vmArg : act :=
  ent_at 0 (fun e =>
    match e with
    | XReg r => outStkAll ;; emit [TPush r] ;;
                modify (fun s => set_lay s (None :: lay s))
    | _ => loadStk 0 ;; outStkAll ;;
           get (fun s => guard (match lay s with Some i :: _ => Nat.eqb i (idx s 0) | _ => false end)) ;;
           modify (fun s => set_lay s (None :: List.tl (lay s)))
    end) ;;
  popRaw 1.

(* call, vm2tac.c:407-414 *)
Definition isArg (t : option nat) := match t with None => true | _ => false end.
Definition callF (n : nat) (f : Z) : act :=
  outStkAll ;;
  noPend readsMem ;;
  get (fun s => guard (Nat.leb n (length (lay s)) && forallb isArg (firstn n (lay s)))) ;;
  emit [TCall n f] ;;
  (match n with O => skip | _ => emit [TAddSP (Z.of_nat n * 2)] end) ;;
  modify (fun s => set_fv (set_lay s (skipn n (lay s))) false).

(* vmCallF, vm2tac.c:422-427 *)
Definition vmCallF (n : nat) (f : Z) : act :=
  callF n f ;; allocAcc (fun a => bug (negb (a =? 0)) ;; pushStk (XAcc a)).

(* boolJmp, vm2tac.c:435-453 *)
Definition boolJmp (tf : bool) (l : Z) : act :=
  ent_at 0 (fun e =>
    match e with
    | XFlg _ => get (fun s =>
        bug (negb (flg_is s 0)) ;;
        emit [TJcc (if tf then fcc s else negJcc (fcc s)) (LbL l)])
    | _ =>
      get (fun s => if flg_is s 0 then guard (fv s) else
        clearFlg ;;
        ent_at 0 (fun e => if isReg e then skip else loadStk 0) ;;
        ent_at 0 (fun e => regOf e (fun r => emit [TCmp r (OImm 0)]))) ;;
      emit [TJcc (if tf then JNZ else JEQ) (LbL l)]
    end) ;;
  relEnt 0 ;; popStk 1.

(* vmLdLoc, vm2tac.c:476-482; n is ntGetCnt of the variable *)
Definition vmLdLoc (n : Z) : act :=
  guard ((1 <=? n) && (n <=? depth)) ;;
  if n <=? 9 then pushStk (XReg (n - 1 + 3)) else pushStk (XLoc ((n - 9) * 2)).
(* vmLdPrm, vm2tac.c:485-488 *)
Definition vmLdPrm (n : Z) : act :=
  guard ((0 <=? n) && (n <? np)) ;; pushStk (XPrm ((n + 2) * 2)).

(* if (topSta!=RVAR) loadStk(0) *)
Definition loadTop (o : nat) : act := ent_at o (fun e => if isReg e then skip else loadStk o).

(* vmStGlb, vm2tac.c:501-505 *)
Definition vmStGlb (i : Z) : act :=
  loadTop 0 ;; noPend readsMem ;;
  ent_at 0 (fun e => regOf e (fun r => emit [TStG r i])).

(* vmStLoc, vm2tac.c:508-525 *)
Definition vmStLoc (n : Z) : act :=
  guard ((1 <=? n) && (n <=? depth)) ;;
  if n <=? 9 then
    let reg := n - 1 + 3 in
    get (fun s => guard (negb (existsb (readsReg reg) (List.tl (vst s))))) ;;
    ent_at 0 (fun e => match e with
      | XReg r => if r =? reg then skip else loadReg reg 0
      | _ => loadReg reg 0 end) ;;
    ent_at 0 (fun e => if isACC e then skip else relEnt 0 ;; set_ent 0 (XReg reg))
  else
    loadTop 0 ;; noPend (readsLoc ((n - 9) * 2)) ;;
    ent_at 0 (fun e => regOf e (fun r => emit [TStF r (- ((n - 9) * 2))])).

(* vmStPrm, vm2tac.c:528-533 *)
Definition vmStPrm (n : Z) : act :=
  guard ((0 <=? n) && (n <? np)) ;;
  loadTop 0 ;; noPend (readsPrm ((n + 2) * 2)) ;;
  ent_at 0 (fun e => regOf e (fun r => emit [TStF r ((n + 2) * 2)])).

(* vmLdWrd, vm2tac.c:537-549. stkAux is kept when stkSta becomes WINDR *)
Definition vmLdWrd : act :=
  ent_at 0 (fun t => ent_at 1 (fun b =>
    if negb (isCnst0 t) || negb (isReg b) then
      loadStk 1 ;;
      (if isCnst0 t then skip
       else clearFlg ;; ent_at 1 (fun b => regOf b (fun r => calReg (TAlu AAdds r) 0)))
    else skip)) ;;
  relEnt 0 ;; popStk 1 ;;
  ent_at 0 (fun b => regOf b (fun r => set_ent 0 (XWnd r))) ;;
  modify (fun s => set_fv s false).

(* vmLdByt, vm2tac.c:553-573 *)
Definition vmLdByt : act :=
  ent_at 0 (fun t => ent_at 1 (fun b =>
    if (isACC t || isStk t) && negb (isACC b) && negb (isStk b) then
      clearFlg ;; loadStk 0 ;;
      ent_at 0 (fun t => regOf t (fun r =>
        calReg (TAlu AAdd r) 1 ;; relEnt 1 ;; set_ent 1 (XAcc r)))
    else
      (if negb (isCnst0 t) || negb (isReg b) then
        loadStk 1 ;;
        (if isCnst0 t then skip
         else clearFlg ;; ent_at 1 (fun b => regOf b (fun r => calReg (TAlu AAdd r) 0))) ;;
        relEnt 0
      else skip))) ;;
  popStk 1 ;;
  ent_at 0 (fun b => regOf b (fun r => set_ent 0 (XByt r))) ;;
  modify (fun s => set_fv s false).

(* vmStWrd, vm2tac.c:578-586, and vmStByt, 591-598 *)
Definition storeInd (mk : Z -> Z -> tin) : act :=
  loadTop 1 ;;
  get (fun s => guard (negb (existsb readsMem (List.tl (vst s))))) ;;
  ent_at 1 (fun v => regOf v (fun r => ent_at 0 (fun d => regOf d (fun b => emit [mk r b])))) ;;
  relEnt 0 ;; popStk 1.
Definition vmStWrd : act := vmLdWrd ;; storeInd TStW.
Definition vmStByt : act := vmLdByt ;; storeInd TStB.

(* flgPtr = stkPtr, after an arithmetic instruction on the top entry *)
Definition flgTop : act := modify (fun s => set_fv (set_flg s (Some (idx s 0))) true).

(* vmNeg, vmNot, vmBNot, vmChr, vmBool, vm2tac.c:602-648 *)
Definition unCode (o : op1) (r : Z) : list tin :=
  match o with
  | NEG => [TAlu AXor r (OImm (-1)); TAlu AAdd r (OImm 1)]
  | NOT => [TAlu AXor r (OImm 1)]
  | BNOT => [TAlu AXor r (OImm (-1))]
  | CHR => [TAlu AAnd r (OImm 255)]
  | BOOL => [TAlu AAnd r (OImm 1)]
  end.
Definition vmUn (o : op1) : act :=
  clearFlg ;; loadStk 0 ;;
  ent_at 0 (fun e => regOf e (fun r => emit (unCode o r))) ;; flgTop.

(* cal, vm2tac.c:651-659 *)
Definition cal (a : alu) : act :=
  clearFlg ;; loadStk 1 ;;
  ent_at 0 (fun t => if isStk t || isFlg t then loadStk 0 else skip) ;;
  ent_at 1 (fun d => regOf d (fun r => calReg (TAlu a r) 0)) ;;
  relEnt 0 ;; popStk 1 ;; flgTop.

(* SwapInt on both halves of the two top entries, vm2tac.c:661 *)
Definition swap : act := ent_at 0 (fun t => ent_at 1 (fun b => set_ent 0 b ;; set_ent 1 t)).

(* rcal, vm2tac.c:664-671 *)
Definition rcal (a : alu) : act :=
  ent_at 0 (fun t => ent_at 1 (fun b =>
    if isACC t && negb (isACC b) && negb (isStk b) && negb (isFlg b) then swap else skip)) ;;
  cal a.

(* isPower2, vm2tac.c:708-715: NWORD-1 rounds *)
Definition isPower2 (n : Z) : Z :=
  (fix go (k : nat) (i p : Z) : Z :=
     match k with
     | O => -1
     | S k' => if n =? p then i else go k' (i + 1) (p * 2)
     end) 15%nat 0 1.
Definition pow2 (e : ent) : option Z :=   (* CNST and isPower2 > 0 *)
  match e with
  | XCns c => if 0 <? isPower2 c then Some (isPower2 c) else None
  | _ => None
  end.

(* vmMul, vm2tac.c:719-731 *)
Definition vmMul : act :=
  ent_at 0 (fun t => ent_at 1 (fun b =>
    match pow2 t with
    | Some n => set_ent 0 (XCns n) ;; cal AShl
    | None =>
        match pow2 b with
        | Some n => guard (negb (isStk t) && negb (isFlg t)) ;; set_ent 1 t ;; set_ent 0 (XCns n) ;; cal AShl
        | None => rcal AMul
        end
    end)).
(* vmDiv, vm2tac.c:735-741 *)
Definition vmDiv : act :=
  ent_at 0 (fun t => match pow2 t with
    | Some n => set_ent 0 (XCns n) ;; cal AShr
    | None => cal ADiv end).
(* vmMod, vm2tac.c:745-751 *)
Definition vmMod : act :=
  ent_at 0 (fun t => match pow2 t with
    | Some n => set_ent 0 (XCns (2 ^ n - 1)) ;; rcal AAnd
    | None => cal AMod end).

Definition onlyZ (c : cc) := match c with JEQ | JNZ => true | _ => false end.

(* cmp, vm2tac.c:764-793 *)
Definition cmpEnd (c : cc) : act :=
  relEnt 0 ;; relEnt 1 ;; popStk 2 ;;
  get (fun s => if 3 <=? acnt s then outStk else skip) ;;
  allocAcc (fun a => pushStk (XFlg a)) ;;
  modify (fun s => set_fcc (set_flg s (Some (idx s 0))) c).
Definition cmp (c : cc) : act :=
  get (fun s => ent_at 0 (fun t => ent_at 1 (fun b =>
    if isCnst0 t && flg_is s 1 then
      guard (fv s && negb (isFlg b) && (ord || onlyZ c)) ;; cmpEnd c
    else if isCnst0 b && flg_is s 0 then
      guard (fv s && negb (isFlg t) && (ord || onlyZ c)) ;; cmpEnd (swapJcc c)
    else
      let sw := (isACC t || isReg t)
                && negb (isACC b) && negb (isReg b) && negb (isStk b) && negb (isFlg b) in
      (if sw then swap else skip) ;;
      clearFlg ;;
      loadTop 1 ;;
      ent_at 0 (fun t => if isStk t || isFlg t then loadStk 0 else skip) ;;
      ent_at 1 (fun b => regOf b (fun r => calReg (TCmp r) 0)) ;;
      cmpEnd (if sw then swapJcc c else c)))).

(* vmPop, vm2tac.c:839-843 *)
Definition vmPop : act := relEnt 0 ;; popStk 1.

(* boolOrAnd, vm2tac.c:850-862, flagOrAnd, 865-884, vmBoolOR and vmBoolAND,
   887-900; x is 1 for OR and 0 for AND *)
Definition vmBool (x : Z) (l1 l2 l3 : Z) : act :=
  ent_at 0 (fun e =>
    match e with
    | XFlg a => get (fun s =>
        let c := if x =? 1 then negJcc (fcc s) else fcc s in
        emit (if l2 =? -1 then
                [TLd a (OImm (1 - x)); TJcc c (LbL l3); TLab (LbL l1); TLd a (OImm x); TLab (LbL l3)]
              else
                [TJcc c (LbL l2); TLab (LbL l1); TLd a (OImm x); TJmp (LbL l3);
                 TLab (LbL l2); TLd a (OImm (1 - x)); TLab (LbL l3)]) ;;
        guard (flg_is s 0) ;;
        set_ent 0 (XAcc a))
    | _ =>
        loadStk 0 ;;
        ent_at 0 (fun e => regOf e (fun a =>
          emit ([TJmp (LbL l3); TLab (LbL l1); TLd a (OImm x)]
                ++ (if l2 =? -1 then []
                    else [TJmp (LbL l3); TLab (LbL l2); TLd a (OImm (1 - x))])
                ++ [TLab (LbL l3)])))
    end) ;;
  get (fun s => guard (negb (existsb isFlg (vst s)))) ;;
  modify (fun s => set_fv s false).

(* what vmCode.c calls: instructions, and the macro instructions BOOLOR (x = 1)
   and BOOLAND (x = 0). Operands of ILdLoc, IStLoc, ILdPrm, IStPrm are the
   numbers ntGetCnt gives. *)
Inductive vop : Type :=
| VI (i : instr)
| VBool (x l1 l2 l3 : Z).

Definition ccOf (o : op2) : option cc :=
  match o with
  | GT => Some JGT | GE => Some JGE | LT => Some JLT | LE => Some JLE
  | EQU => Some JEQ | NEQ => Some JNZ | _ => None
  end.
Definition vmBin (o : op2) : act :=   (* vm2tac.c:674-704, 796-836 *)
  match o with
  | ADD => rcal AAdd | SUB => cal ASub | SHL => cal AShl | SHR => cal AShr
  | BAND => rcal AAnd | BXOR => rcal AXor | BOR => rcal AOr
  | MUL => vmMul | DIV => vmDiv | MOD => vmMod
  | GT | GE | LT | LE | EQU | NEQ => match ccOf o with Some c => cmp c | None => fail end
  | _ => fail
  end.

Definition vm (v : vop) : act :=
  match v with
  | VBool x l1 l2 l3 => vmBool x l1 l2 l3
  | VI i =>
    match i with
    | ILab l => get (fun s => guard (negb (existsb isFlg (vst s)))) ;;
                emit [TLab (LbL l)] ;; modify (fun s => set_fv s false)
    | IJmp l => emit [TJmp (LbL l)]
    | IJT l => boolJmp true l
    | IJF l => boolJmp false l
    | ILdCns c => pushStk (XCns c)
    | ILdGlb i => pushStk (XGlb i)
    | ILdLoc n => vmLdLoc n
    | ILdPrm n => vmLdPrm n
    | ILdLab l => pushStk (XLab l)
    | ILdNam i => pushStk (XNam i)
    | ILdWrd => vmLdWrd
    | ILdByt => vmLdByt
    | IStGlb i => vmStGlb i
    | IStLoc n => vmStLoc n
    | IStPrm n => vmStPrm n
    | IStWrd => vmStWrd
    | IStByt => vmStByt
    | IUn o => vmUn o
    | IBin o => vmBin o
    | IPop => vmPop
    | IArg => vmArg
    | ICallF n f => vmCallF n f
    | ICallP n f => callF n f
    | IMReg => vmMReg
    | IEntry d => makeFrame d ;; emit [TStkChk]                       (* 353-357 *)
    | IEntryK d => makeFrame d                                        (* 360-362 *)
    | IEntryI d => emit [TPush 0; TPush 1; TPush 2] ;; makeFrame d    (* 371-375 *)
    | IRet => cancelFrame ;; emit [TRet]                              (* 365-368 *)
    | IRetI => cancelFrame ;; emit [TPop 2; TPop 1; TPop 0; TRetI]    (* 378-383 *)
    end
  end.

(* the whole of a function, instruction after instruction *)
Fixpoint tac (p : list vop) : act :=
  match p with
  | [] => skip
  | v :: q => vm v ;; tac q
  end.
End Translator.

(* vm2tac.c:78-79, 147-150 at the start of a function: everything is free *)
Definition tinit (n : Z) : tst := Tst [false; false; false] 0 [] None JLT n 0 0 [] false.
