(** Model of the typed array builders of src/utils/mut.c and mut.h: [Mut], an array written at arbitrary positions, and [ApdMut], an array that pieces are appended to.
    Both start in the narrowest storage the first value needs, and move everything to wider storage when a value comes that does not fit.
    Simplified: reference counts (C05), the debug build, and allocation failure except for the size check are left out; the portable copy loops are modelled, not the SIMD ones;
    a slice is an array that starts at its offset; the fill of an array of values is a value, compared by identity of its contents. *)
From Verif Require Import Base BitsModel SqueezeModel ReuseModel.
From Coq Require Import List.
Open Scope Z_scope.

(** Memory of an array: packed bits, or cells of one machine type. The word after the last one of a bit array is in the list: copies read it and fills rewrite it (F9, F23). *)
Inductive store := SBits (w : list Z) | SCells (e : el) (c : list val).
Definition st_el (s : store) : el := match s with SBits _ => EBit | SCells e _ => e end.

(* mut.c:529-538 m_getU_* *)
Definition getU (s : store) (i : nat) : res val :=
  match s with
  | SBits w => do b <- bitp_get w 0 (Z.of_nat i); Ok (VNum (if b then 1 else 0))
  | SCells _ c => rd c i
  end.
(* h.h o2iG, o2cG, o2fG and the store to the narrower C type; a conversion from another kind of value is undefined *)
Definition conv (e : el) (v : val) : res val :=
  match e, v with
  | EI8, VNum z => Ok (VNum (to_s 8 z))
  | EI16, VNum z => Ok (VNum (to_s 16 z))
  | EI32, VNum z => Ok (VNum (to_s 32 z))
  | EF64, VNum _ | EF64, VDbl _ => Ok v
  | EC8, VChr c => Ok (VChr (to_u 8 c))
  | EC16, VChr c => Ok (VChr (to_u 16 c))
  | EC32, VChr c => Ok v
  | EB, _ => Ok v
  | _, _ => UB
  end.
(* h.h:513 o2bG *)
Definition o2b (v : val) : res bool := match v with VNum z => Ok (negb (z =? 0)) | _ => UB end.

(* mut.c:165-174 m_setG_* *)
Definition setG (s : store) (i : nat) (v : val) : res store :=
  match s with
  | SBits w => do b <- o2b v; do w <- bitp_set w 0 (Z.of_nat i) b; Ok (SBits w)
  | SCells e c => do x <- conv e v; do c <- wr c i x; Ok (SCells e c)
  end.
(* mut.c:197-209: for (i<l) p[i] = v *)
Fixpoint fill_cells (l : nat) (c : list val) (p : nat) (x : val) : res (list val) :=
  match l with O => Ok c | S l => do c <- wr c p x; fill_cells l c (S p) x end.
(* mut.c:176-209 m_fillG_* *)
Definition fillG (s : store) (i : nat) (v : val) (l : nat) : res store :=
  match s with
  | SBits w => do b <- o2b v; do w <- bit_fill w 0 (Z.of_nat i) b (Z.of_nat l); Ok (SBits w)
  | SCells e c => do x <- conv e v; do c <- fill_cells l c i x; Ok (SCells e c)
  end.
(* mut.c:226-268, 275-302: the cases of the switches; "default: UD" is undefined *)
Definition okcopy (e xe : el) : bool :=
  match e, xe with
  | EI8, (EBit | EI8) => true
  | EI16, (EBit | EI8 | EI16) => true
  | EI32, (EBit | EI8 | EI16 | EI32) => true
  | EF64, (EBit | EI8 | EI16 | EI32 | EF64) => true
  | EC8, EC8 => true
  | EC16, (EC8 | EC16) => true
  | EC32, (EC8 | EC16 | EC32) => true
  | EB, _ => true
  | _, _ => false
  end.
(* BIT_COPY, PTR_COPY, mut.c:217-218 *)
Fixpoint copy_cells (l : nat) (e : el) (c : list val) (p : nat) (x : store) (xs : nat) : res (list val) :=
  match l with
  | O => Ok c
  | S l => do v <- getU x xs; do y <- conv e v; do c <- wr c p y; copy_cells l e c (S p) x (S xs)
  end.
(* mut.c:220-302 m_copyG_*, COPY_TO; the bit copy is between two arrays in one memory, with a word of the header of x between them *)
Definition copyG (s : store) (ms : nat) (x : store) (xs l : nat) : res store :=
  match s with
  | SBits w =>
    match x with
    | SBits xw => do m <- bit_cpy (w ++ 0 :: xw) 0 (Z.of_nat ms) (Z.of_nat (length w) + 1) (Z.of_nat xs) (Z.of_nat l); Ok (SBits (firstn (length w) m))
    | _ => UB
    end
  | SCells e c => if okcopy e (st_el x) then do c <- copy_cells l e c ms x xs; Ok (SCells e c) else UB
  end.

Section Mk.
(** mut.c:4-18 mut_make_arr: new memory for n elements, with anything in it *)
Variable mk : el -> nat -> store.

(** ** Mut: None is a Mut without memory (el_MAX) *)
Record mut := { m_ia : nat; m_st : option store }.
(* mut.c:54-78 mut_to, with cpy*Arr (mut.c:452-525), which converts every element, also those that were not written yet *)
Definition mut_to (m : mut) (n : el) : res mut :=
  match m_st m with
  | None => Ok {| m_ia := m_ia m; m_st := Some (mk n (m_ia m)) |}
  | Some s => match st_el s with EB => UB | _ => do s' <- copyG (mk n (m_ia m)) 0 s 0 (m_ia m); Ok {| m_ia := m_ia m; m_st := Some s' |} end
  end.
(* fatal("m_setG_MAX") *)
Definition with_st (m : mut) (f : store -> res store) : res mut :=
  match m_st m with None => UB | Some s => do s' <- f s; Ok {| m_ia := m_ia m; m_st := Some s' |} end.
(* the CHK argument of DEF_S, mut.c:164-209: does x fit the storage? *)
Definition holds (m : mut) (v : val) : bool := match m_st m with None => false | Some s => fits (st_el s) v end.
(* mut.c:938-946 el_or with el_MAX *)
Definition or_max (m : mut) (e : el) : el := match m_st m with None => e | Some s => el_or (st_el s) e end.
(* mut.c:140-150 DEF0: widen if needed, then write *)
Definition mut_set (m : mut) (i : nat) (v : val) : res mut :=
  do m <- (if holds m v then Ok m else mut_to m (or_max m (self_el v))); with_st m (fun s => setG s i v).
Definition mut_fill (m : mut) (i : nat) (v : val) (l : nat) : res mut :=
  do m <- (if holds m v then Ok m else mut_to m (or_max m (self_el v))); with_st m (fun s => fillG s i v l).
(* mut.c:214 DEF_COPY, :269 for el_MAX *)
Definition mut_copy (m : mut) (ms : nat) (x : store) (xs l : nat) : res mut :=
  let ne := or_max m (st_el x) in
  do m <- (match m_st m with Some s => if elc ne =? elc (st_el s) then Ok m else mut_to m ne | None => mut_to m ne end);
  with_st m (fun s => copyG s ms x xs l).

(** ** ApdMut *)
Inductive src := Atom (v : val) | Arr (sh : list nat) (s : store) (f : option val). (* [f]: the fill of an array of values *)
Definition prod (l : list nat) : nat := fold_right Nat.mul 1%nat l.
Inductive kind := Tot | Sh0 | Sh1 (cia : nat) | Sh2 (csh : list nat) | ShE (csh : list nat).
Record apd := { a_kind : kind; a_st : store; a_tia : nat; a_pos : nat; a_fill : option val; a_keep : bool; a_rsh : list nat }. (* [a_keep]: end is apd_fill_end *)
Inductive apds := Run (a : apd) | ShFail | RnkFail.

Definition el_of (x : src) : el := match x with Atom v => self_el v | Arr _ s _ => st_el s end.
(* core/fillarr.h:32-47 getFillN *)
Definition getFill (x : src) : option val :=
  match x with
  | Arr _ s f => if elNum (st_el s) then Some (VNum 0) else if elChr (st_el s) then Some (VChr 32) else f
  | Atom (VNum _) | Atom (VDbl _) => Some (VNum 0)
  | Atom (VChr _) => Some (VChr 32)
  | Atom (VObj _) => None
  end.
Definition val_eqb (a b : val) : bool :=
  match a, b with VNum x, VNum y | VDbl x, VDbl y | VChr x, VChr y | VObj x, VObj y => x =? y | _, _ => false end.
(* fillarr.h:123-125, fillEqual of a known fill *)
Definition fillEqualsGetFill (f : val) (x : src) : bool := match getFill x with Some g => val_eqb f g | None => false end.
(* mut.c:580-584 APD_OR_FILL_1 *)
Definition or_fill (f : option val) (x : src) : option val := match f with Some f0 => if fillEqualsGetFill f0 x then f else None | None => None end.
(* mut.c:632-636: the TARR arguments *)
Definition tarr (e xe : el) : bool :=
  match e with
  | EBit => elc xe =? elc EBit
  | EI8 => elc xe <=? elc EI8
  | EI16 => elc xe <=? elc EI16
  | EI32 => elc xe <=? elc EI32
  | EF64 => elc xe <=? elc EF64
  | EC8 => elc xe =? elc EC8
  | EC16 => (elc EC8 <=? elc xe) && (elc xe <=? elc EC16)
  | EC32 => (elc EC8 <=? elc xe) && (elc xe <=? elc EC32)
  | EB => true
  end.
Definition is_B (e : el) : bool := match e with EB => true | _ => false end.
Definition upd_apd (a : apd) (s : store) (pos : nat) (f : option val) : apd :=
  {| a_kind := a_kind a; a_st := s; a_tia := a_tia a; a_pos := pos; a_fill := f; a_keep := a_keep a; a_rsh := a_rsh a |}.
(* APD_WATOM after its check, mut.c:608-612 *)
Definition put_atom (a : apd) (v : val) : res apd := do s <- setG (a_st a) (a_pos a) v; Ok (upd_apd a s (a_pos a + 1) (a_fill a)).
(* the end of APD_MK0, mut.c:600-602: COPY0_TO(m->a, E, p0, x, xe, cia); [f] for APD_OR_FILL *)
Definition put_arr (a : apd) (s : store) (cia : nat) (f : option val) : res apd :=
  do r <- copyG (a_st a) (a_pos a) s 0 cia; Ok (upd_apd a r (a_pos a + cia) f).
(* mut.c:755-784 apd_widen, up to the call of the new function *)
Definition apd_widen (a : apd) (x : src) : res apd :=
  let pe := st_el (a_st a) in
  let re := el_or (el_of x) pe in
  if is_B pe || (elc pe =? elc re) then UB else
  let cf := if elNum pe then VNum 0 else VChr 32 in
  let (f, keep) := if is_B re then if fillEqualsGetFill cf x then (Some cf, true) else (None, a_keep a) else (a_fill a, a_keep a) in
  do s <- copyG (mk re (a_tia a)) 0 (a_st a) 0 (a_pos a);
  Ok {| a_kind := a_kind a; a_st := s; a_tia := a_tia a; a_pos := a_pos a; a_fill := f; a_keep := keep; a_rsh := a_rsh a |}.
Definition sheq (a b : list nat) : bool := if list_eq_dec Nat.eq_dec a b then true else false.
(* the shape checks of APD_SH1_CHK, APD_SHH_CHK, mut.c:606-607, 624, 645-646; for Tot there is none *)
Definition sh_chk (k : kind) (x : src) : bool :=
  match k, x with
  | Tot, _ => true
  | Sh0, Atom _ => true
  | Sh0, Arr sh _ _ => (length sh =? 0)%nat
  | Sh1 cia, Arr sh _ _ => (length sh =? 1)%nat && (cia =? prod sh)%nat
  | (Sh2 csh | ShE csh), Arr sh _ _ => (length sh =? length csh)%nat && sheq csh sh
  | _, Atom _ => false
  end.
(** One append: Some None is a failed shape check, None that the storage is too narrow *)
Definition try_apd (a : apd) (x : src) : res (option (option apd)) :=
  let e := st_el (a_st a) in
  let atom a v := if fits e v then do a <- put_atom a v; Ok (Some (Some a)) else Ok None in
  let arr sh s f := if tarr e (st_el s) then do a <- put_arr a s (prod sh) f; Ok (Some (Some a)) else Ok None in
  match a_kind a with
  | Tot => (* mut.c:619: apd_tot_* *)
    match x with
    | Atom v => atom a v
    | Arr sh s f => if (prod sh =? 0)%nat then Ok (Some (Some a)) else arr sh s (a_fill a)
    end
  | Sh0 => (* mut.c:620-629 apd_sh0_*; APD_OR_FILL comes before the check *)
    let a := if is_B e then upd_apd a (a_st a) (a_pos a) (or_fill (a_fill a) x) else a in
    if sh_chk Sh0 x then
      match x with Atom v => atom a v | Arr sh s f => do v <- getU s 0; atom a v end
    else Ok (Some None)
  | ShE csh => if sh_chk (ShE csh) x then Ok (Some (Some a)) else Ok (Some None) (* mut.c:639-640 *)
  | k => (* mut.c:594-603 *)
    if sh_chk k x then
      match x with Arr sh s f => arr sh s (if is_B e then or_fill (a_fill a) x else a_fill a) | Atom _ => UB end
    else Ok (Some None)
  end.
Definition apd_step (a : apd) (x : src) : res apds :=
  do r <- try_apd a x;
  match r with
  | Some (Some a) => Ok (Run a)
  | Some None => Ok ShFail
  | None =>
    do a <- apd_widen a x; do r <- try_apd a x;
    match r with Some (Some a) => Ok (Run a) | Some None => Ok ShFail | None => UB end (* it would widen for ever *)
  end.
(* mut.c:660-668 apd_tot_init *)
Definition apd_tot_init (ia0 : nat) (x : src) : res apds :=
  apd_step {| a_kind := Tot; a_st := mk (el_of x) ia0; a_tia := ia0; a_pos := 0; a_fill := None; a_keep := false; a_rsh := [] |} x.
(* mut.c:669-727 apd_sh_init *)
Definition apd_sh_init (rsh0 : list nat) (x : src) : res apds :=
  let ria := Z.to_nat (to_u 32 (Z.of_nat (prod rsh0))) in
  match x with
  | Atom v =>
    let xe := self_el v in
    apd_step {| a_kind := Sh0; a_st := mk xe ria; a_tia := ria; a_pos := 0; a_fill := if is_B xe then getFill x else None; a_keep := is_B xe; a_rsh := rsh0 |} x
  | Arr sh s f =>
    let xe := st_el s in
    let start k ria xia :=
      do r <- copyG (mk xe ria) 0 s 0 xia;
      Ok (Run {| a_kind := k; a_st := r; a_tia := ria; a_pos := xia; a_fill := if is_B xe then getFill x else None; a_keep := is_B xe; a_rsh := rsh0 ++ sh |}) in
    if (length sh =? 0)%nat then start Sh0 ria 1%nat
    else if (255 <? length rsh0 + length sh)%nat then Ok RnkFail
    else
      let xia := prod sh in
      let k := if (xia =? 0)%nat then ShE sh else if (length sh =? 1)%nat then Sh1 xia else Sh2 sh in
      if 2 ^ 32 <=? Z.of_nat ria * Z.of_nat xia then Err else start k (ria * xia)%nat xia
  end.
(* all appends: the first one initialises *)
Fixpoint apd_rest (st : apds) (xs : list src) : res apds :=
  match xs, st with
  | [], _ => Ok st
  | x :: xs, Run a => do st <- apd_step a x; apd_rest st xs
  | _ :: xs, st => apd_rest st xs (* apd_fail_apd *)
  end.
Definition build_tot (ia0 : nat) (xs : list src) : res (store * nat) :=
  match xs with
  | [] => UB
  | x :: xs => do st <- apd_tot_init ia0 x; do st <- apd_rest st xs; match st with Run a => Ok (a_st a, a_tia a) | _ => UB end
  end.
(* APD_SH_GET: mut.c:557-574, 650-654; the result has a shape, memory and, if it is an array of values, a fill *)
Definition build_sh (rsh0 : list nat) (xs : list src) : res (list nat * store * option val) :=
  match xs with
  | [] => UB
  | x :: xs =>
    do st <- apd_sh_init rsh0 x; do st <- apd_rest st xs;
    match st with Run a => Ok (a_rsh a, a_st a, if is_B (st_el (a_st a)) && a_keep a then a_fill a else None) | _ => Err end
  end.
End Mk.
