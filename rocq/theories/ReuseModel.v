(** Model of arrays whose memory may be reused: reference counts, slices, appending in place, truncating in place, replacing in place, and the "sorted" mark.
    src/utils/mut.h:159-236, src/utils/mut.c:75-137, src/builtins/sfns.c:66-112, 1362-1404, src/builtins/grade.h:206-264, 474-478, src/core (slice functions).
    Simplified: elements are values without references of their own (their counts are C05); arrays are lists; fills are left out, only whether the array type has one; the "sorted descending" mark behaves like the ascending one and is left out, and so is the "squeezed" mark; Sort is insertion sort (C17 proves the real one equal to it). *)
From Verif Require Import Base.
From Coq Require Import List.
Open Scope Z_scope.

Inductive val := VNum (z : Z) | VDbl (bits : Z) | VChr (c : Z) | VObj (id : Z). (* whole number, other number, character, anything else *)
(* h.h:277-289 element types, in order *)
Inductive el := EBit | EI8 | EI16 | EI32 | EF64 | EC8 | EC16 | EC32 | EB.
Definition elc (e : el) : Z := match e with EBit => 0 | EI8 => 1 | EI16 => 2 | EI32 => 3 | EF64 => 4 | EC8 => 5 | EC16 => 6 | EC32 => 7 | EB => 8 end.
Definition fits (e : el) (v : val) : bool :=
  match e, v with
  | EBit, VNum z => (z =? 0) || (z =? 1)
  | EI8, VNum z => (-128 <=? z) && (z <=? 127)
  | EI16, VNum z => (-32768 <=? z) && (z <=? 32767)
  | EI32, VNum z => (-2147483648 <=? z) && (z <=? 2147483647)
  | EF64, VNum _ | EF64, VDbl _ => true
  | EC8, VChr c => (0 <=? c) && (c <=? 255)
  | EC16, VChr c => (0 <=? c) && (c <=? 65535)
  | EC32, VChr c => true
  | EB, _ => true
  | _, _ => false
  end.
(* core/stuff.h:241-256 selfElType *)
Definition self_el (v : val) : el :=
  match v with
  | VNum z => if fits EBit v then EBit else if fits EI8 v then EI8 else if fits EI16 v then EI16 else if fits EI32 v then EI32 else EF64
  | VDbl _ => EF64
  | VChr c => if fits EC8 v then EC8 else if fits EC16 v then EC16 else EC32
  | VObj _ => EB
  end.
Definition elNum (e : el) : bool := elc e <=? 4.
Definition elChr (e : el) : bool := (5 <=? elc e) && (elc e <=? 7).
(* utils/mut.c:938-946 el_or *)
Definition el_or (a b : el) : el := if elNum a && elNum b || elChr a && elChr b then if elc b <? elc a then a else b else EB.

(** An array object: memory of its own ([fill]: a t_fillarr; otherwise a typed array or t_harr), or a slice. [size] is mm_sizeUsable. *)
Inductive body := Plain (fill : bool) (e : el) (mem : list val) (size : Z) | Slc (fill : bool) (p off len : nat).
Record obj := { o_rc : Z; o_body : body; o_asc : bool }.
Definition heap := list (option obj).

(* numarr.h:71, stuff.h:71, h.h:119 BITARR_SZ, TYARR_SZ, fsizeof: an array header has 24 bytes, one with a fill 32 *)
Definition bytes (e : el) (n : nat) : Z := let n := Z.of_nat n in match e with EBit => 8 * ((n + 63) / 64) | EI8 | EC8 => n | EI16 | EC16 => 2 * n | EI32 | EC32 => 4 * n | EF64 | EB => 8 * n end.
Definition SZ (fill : bool) (e : el) (n : nat) : Z := (if fill then 32 else 24) + bytes e n.
(* opt/mm_buddy.h:21-43 *)
Definition mm_round (sz : Z) : Z := 2 ^ Z.log2_up sz.

Definition get (h : heap) (a : nat) : res obj := match nth_error h a with Some (Some o) => Ok o | _ => UB end.
Definition set_rc (o : obj) (r : Z) : obj := {| o_rc := r; o_body := o_body o; o_asc := o_asc o |}.
Definition inc (h : heap) (a : nat) : res heap := do o <- get h a; Ok (upd h a (Some (set_rc o (o_rc o + 1)))).
(* h.h dec, value_free; core/fillarr.c:62-63 and core/harr.c, tyarr.c: freeing a slice releases its parent *)
Definition dec1 (h : heap) (a : nat) : res heap := do o <- get h a; Ok (upd h a (if o_rc o =? 1 then None else Some (set_rc o (o_rc o - 1)))).
Definition dec (h : heap) (a : nat) : res heap :=
  do o <- get h a; do h <- dec1 h a;
  match o_body o with Slc _ p _ _ => if o_rc o =? 1 then do q <- get h p; match o_body q with Slc _ _ _ _ => UB | _ => dec1 h p end else Ok h | _ => Ok h end.
Definition slice_of (m : list val) (off len : nat) : res (list val) := if (off + len <=? length m)%nat then Ok (firstn len (skipn off m)) else UB.
(** element type and elements *)
Definition elems (h : heap) (a : nat) : res (el * list val) :=
  do o <- get h a;
  match o_body o with
  | Plain _ e m _ => Ok (e, m)
  | Slc _ p off len => do q <- get h p; match o_body q with Plain _ e m _ => do l <- slice_of m off len; Ok (e, l) | _ => UB end
  end.
Definition is_fill (o : obj) : bool := match o_body o with Plain f _ _ _ => f | Slc f _ _ _ => f end.
Definition alloc (h : heap) (o : obj) : heap * nat := (h ++ [Some o], length h).
(** a new array with reference count 1; elements that do not fit the type would be written wrong *)
Definition new_arr (h : heap) (fill : bool) (e : el) (l : list val) : res (heap * nat) :=
  if forallb (fits e) l then Ok (alloc h {| o_rc := 1; o_body := Plain fill e l (mm_round (SZ fill e (length l))); o_asc := false |}) else UB.
(* the slice functions (core/tyarr.c:76-81, tyarrTemplate.c:11-12, harr.c:28-29, fillarr.c:39-40), consuming a *)
Definition do_slice (h : heap) (a off len : nat) : res (heap * nat) :=
  do o <- get h a;
  match o_body o with
  | Plain f EBit m _ => do l <- slice_of m off len; do (h, r) <- new_arr h false EBit l; do h <- dec h a; Ok (h, r)
  | Plain f _ _ _ => Ok (alloc h {| o_rc := 1; o_body := Slc f a off len; o_asc := false |})
  | Slc f p off0 _ => do h <- inc h p; let '(h, r) := alloc h {| o_rc := 1; o_body := Slc f p (off0 + off) len; o_asc := false |} in do h <- dec h a; Ok (h, r)
  end.
(* sfns.c:66-112 take_head, ria at most the length *)
Definition take_head (h : heap) (a ria : nat) : res (heap * nat) :=
  do o <- get h a;
  match o_body o with
  | Plain f e m size =>
    if o_rc o =? 1 then
      if SZ f e ria <? size / 4 then do (h, r) <- new_arr h f e (firstn ria m); do h <- dec h a; Ok (h, r)
      else Ok (upd h a (Some {| o_rc := 1; o_body := Plain f e (firstn ria m) size; o_asc := o_asc o |}), a)
    else do_slice h a 0 ria
  | _ => do_slice h a 0 ria
  end.
(** write l after the elements of an array in place; outside of the memory is undefined *)
Definition extend (h : heap) (a : nat) (l : list val) : res heap :=
  do o <- get h a;
  match o_body o with
  | Plain f e m size => if (SZ f e (length m + length l) <=? size) && forallb (fits e) l then Ok (upd h a (Some {| o_rc := o_rc o; o_body := Plain f e (m ++ l) size; o_asc := false |})) else UB
  | _ => UB
  end.
(* mut.h:168-176: can elements of type xe be stored *)
Definition stores (we xe : el) : bool :=
  match we with
  | EBit => elc xe =? 0 | EI8 | EI16 | EI32 | EF64 => elc xe <=? elc we | EC8 => elc xe =? 5
  | EC16 | EC32 => (elc xe <=? elc we) && (5 <=? elc xe) | EB => true
  end.
(* mut.h:188-195, mut.c:75-83 *)
Definition join_no (h : heap) (w x : nat) : res (heap * nat) :=
  do (we, wl) <- elems h w; do (xe, xl) <- elems h x;
  do (h, r) <- new_arr h false (el_or we xe) (wl ++ xl); do h <- dec h x; do h <- dec h w; Ok (h, r).
(* mut.h:159-203 arr_join_inline, consuming both; mut.c:105-137 fillslice_getJoin *)
Definition join (h : heap) (w x : nat) : res (heap * nat) :=
  do (xe, xl) <- elems h x; do o <- get h w;
  if negb (o_rc o =? 1) then join_no h w x else
  match o_body o with
  | Plain f e m size =>
    if (SZ f e (length m + length xl) <? size) && stores e xe then do h <- extend h w xl; do h <- dec h x; Ok (h, w) else join_no h w x
  | Slc true p off len =>
    do q <- get h p;
    match o_body q with
    | Plain f EB m size =>
      if (o_rc q =? 1) && (off =? 0)%nat && (length m =? len)%nat && (SZ f EB (len + length xl) <? size)
      then do h <- inc h p; do h <- dec h w; do h <- extend h p xl; do h <- dec h x; Ok (h, p) else join_no h w x
    | _ => join_no h w x
    end
  | _ => join_no h w x
  end.
(* mut.h:205-236 vec_add, mut.c:75-83 vec_addF *)
Definition add (h : heap) (w : nat) (v : val) : res (heap * nat) :=
  do o <- get h w; do (we, wl) <- elems h w;
  let other := do (h, r) <- new_arr h false (el_or we (self_el v)) (wl ++ [v]); do h <- dec h w; Ok (h, r) in
  match o_body o with
  | Plain false e m size => if (o_rc o =? 1) && (SZ false e (length m + 1) <? size) && fits e v then do h <- extend h w [v]; Ok (h, w) else other
  | _ => other
  end.

Section S.
Variable vle : val -> val -> bool.
Fixpoint insert (v : val) (l : list val) : list val := match l with [] => [v] | u :: l' => if vle v u then v :: l else u :: insert v l' end.
Definition isort (l : list val) : list val := fold_right insert [] l.
Fixpoint ascending (l : list val) : bool := match l with a :: (b :: _) as l' => vle a b && ascending l' | _ => true end.
(* grade.h:207-264 SORT_C1 on a list: the mark decides, and the result is marked *)
Definition set_asc (h : heap) (a : nat) : res heap := do o <- get h a; Ok (upd h a (Some {| o_rc := o_rc o; o_body := o_body o; o_asc := true |})).
Definition sort (h : heap) (a : nat) : res (heap * nat) :=
  do o <- get h a; do (e, l) <- elems h a;
  if (length l <=? 1)%nat || o_asc o then Ok (h, a)
  else do (h, r) <- new_arr h (is_fill o) e (isort l); do h <- set_asc h r; do h <- dec h a; Ok (h, r).
(* grade.h:474-478: is 𝕨 of 𝕨⍋𝕩 sorted? *)
Definition check (h : heap) (a : nat) : res (heap * bool) :=
  do o <- get h a; do (e, l) <- elems h a;
  if o_asc o then Ok (h, true) else if ascending l then do h <- set_asc h a; Ok (h, true) else Ok (h, false).
End S.
(* sfns.c:1362-1404 pick_replaceOne with a constant result v; [clears]: does the replacement in an array of any values clear the mark? The code does not (1363-1383) *)
Definition put (clears : bool) (h : heap) (a pos : nat) (v : val) : res (heap * nat) :=
  do o <- get h a; do (e, l) <- elems h a;
  if negb (pos <? length l)%nat then UB else
  let l' := upd l pos v in
  match e with
  | EB =>
    match o_body o with
    | Plain f _ m size => if o_rc o =? 1 then Ok (upd h a (Some {| o_rc := 1; o_body := Plain f EB l' size; o_asc := if clears then false else o_asc o |}), a)
                          else do (h, r) <- new_arr h f EB l'; do h <- dec h a; Ok (h, r)
    | Slc f _ _ _ => do (h, r) <- new_arr h f EB l'; do h <- dec h a; Ok (h, r)
    end
  | _ =>
    let other h := do (h, r) <- new_arr h false (el_or e (self_el v)) l'; do h <- dec h a; Ok (h, r) in
    match o_body o with
    | Plain f e m size =>
      if (o_rc o =? 1) && fits e v then
        match e with EBit => other h | _ => Ok (upd h a (Some {| o_rc := 1; o_body := Plain f e l' size; o_asc := false |}), a) end
      else other h
    | _ => other h
    end
  end.

(** * Programs: a list of arrays held by the program; each operation uses up its arguments and appends its result *)
Inductive op :=
| ONew (fill : bool) (e : el) (l : list val) (* any array of a type its elements fit *)
| ODup (i : nat) | ODrop (i : nat)
| OSlice (i off len : nat) (* part of a list *)
| OTake (i n : nat) | OJoin (i j : nat) | OAdd (i : nat) (v : val)
| OSort (i : nat) | OCheck (i : nat) | OPut (i pos : nat) (v : val).
Definition state := (heap * list nat * list bool)%type.
Definition without {B} (i : nat) (l : list B) : list B := firstn i l ++ skipn (S i) l.
Definition len_of (h : heap) (a : nat) : res nat := do (e, l) <- elems h a; Ok (length l).
(** operations on what is not there, or with a part out of bounds, do nothing *)
Definition step (clears : bool) (vle : val -> val -> bool) (s : state) (o : op) : res state :=
  let '(h, R, out) := s in
  let use i (f : nat -> res (heap * nat)) := match nth_error R i with None => Ok s | Some a => do (h, r) <- f a; Ok (h, without i R ++ [r], out) end in
  let when i (c : nat -> bool) (f : nat -> res (heap * nat)) := match nth_error R i with None => Ok s | Some a => do n <- len_of h a; if c n then use i f else Ok s end in
  match o with
  | ONew fill e l => do (h, r) <- new_arr h fill e l; Ok (h, R ++ [r], out)
  | ODup i => match nth_error R i with None => Ok s | Some a => do h <- inc h a; Ok (h, R ++ [a], out) end
  | ODrop i => match nth_error R i with None => Ok s | Some a => do h <- dec h a; Ok (h, without i R, out) end
  | OSlice i off len => when i (fun n => (off + len <=? n)%nat) (fun a => do_slice h a off len)
  | OTake i n => when i (fun m => (n <=? m)%nat) (fun a => take_head h a n)
  | OJoin i j => match nth_error R i, nth_error (without i R) j with Some w, Some x => do (h, r) <- join h w x; Ok (h, without j (without i R) ++ [r], out) | _, _ => Ok s end
  | OAdd i v => use i (fun a => add h a v)
  | OSort i => use i (fun a => sort vle h a)
  | OCheck i => match nth_error R i with None => Ok s | Some a => do (h, b) <- check vle h a; Ok (h, R, out ++ [b]) end
  | OPut i pos v => when i (fun n => (pos <? n)%nat) (fun a => put clears h a pos v)
  end.
Fixpoint run (clears : bool) (vle : val -> val -> bool) (s : state) (p : list op) : res state := match p with [] => Ok s | o :: p => do s <- step clears vle s o; run clears vle s p end.
Fixpoint look (h : heap) (R : list nat) : res (list (list val)) := match R with [] => Ok [] | a :: R => do (e, l) <- elems h a; do r <- look h R; Ok (l :: r) end.
