(** Model of value hashing: src/utils/hash.h:7-39, src/utils/hash.c:7-47, asNormalized of src/builtins/search.c:546-588 (portable loops).
    The mixing functions wyhash64 and wyhash (src/utils/wyhash.h) are parameters: any functions of what they read. *)
From Verif Require Import Base BitsModel TagModel TagSpec NumSpec ArrSpec DataSpec SqueezeModel MatchModel.

(** A stored value with the flags of its arrays (src/h.h:621-625), at every depth. *)
Record hfl := { h_sq : bool; h_asc : bool; h_dsc : bool }.
Inductive hobj :=
| HAtom (w : Z)
| HBits (f : hfl) (sh : list Z) (ws : list Z)
| HTyped (f : hfl) (sh : list Z) (t : elt) (raws : list Z)
| HBox (f : hfl) (sh : list Z) (els : list hobj).
Fixpoint erase (o : hobj) : obj :=
  match o with
  | HAtom w => OAtom w
  | HBits _ sh ws => OBits sh ws
  | HTyped _ sh t l => OTyped sh t l
  | HBox _ sh els => OBox sh (map erase els)
  end.
Definition h_shape (o : hobj) : list Z := o_shape (erase o).

(** The word stored in a boxed array for an element. Only its tag is looked at by squeezing, so the address of an array is left out. *)
Definition word_of (o : hobj) : Z := match o with HAtom w => w | _ => ftag ARR_TAG end.
Definition bitzs (ws : list Z) (n : Z) : res (list Z) := mapM (bitz ws) (seq 0 (Z.to_nat n)).
Definition with_fl (f : hfl) (t : elt) (l : list Z) : arr := {| a_et := t; a_els := l; a_sq := h_sq f; a_asc := h_asc f; a_dsc := h_dsc f |}.
(** The array as squeezing sees it *)
Definition to_arr (o : hobj) : res arr :=
  match o with
  | HAtom _ => UB
  | HBits f sh ws => do l <- bitzs ws (prod sh); Ok (with_fl f EBit l)
  | HTyped f _ t l => Ok (with_fl f t l)
  | HBox f _ els => Ok (with_fl f EB (map word_of els))
  end.

(* src/utils/hash.h:7-12 bcl: zeroes the bits past the end *)
Definition bcl (ws : list Z) (ia : Z) : res (list Z) :=
  if Z.land ia 63 =? 0 then Ok ws
  else do w <- rdz ws (Z.shiftr ia 6); wrz ws (Z.shiftr ia 6) (Z.land w (shl 1 (Z.land ia 63) - 1)).

(** v+0 on a double that is not NaN: only -0 changes *)
Definition add0 (u : Z) : Z := if u =? 2 ^ 63 then 0 else u.

Section Hash.
Variable cast : Z -> Z.
Variable wyhash64 : Z -> Z -> Z.
Variable wyhash : list Z -> Z -> list Z -> Z.
(** wy_secret, 4 words *)
Variables s0 s1 s2 s3 : Z.
(** the pattern of 0.0/0.0 *)
Variable nan0 : Z.
(** Bits past the end of a freshly allocated bit array *)
Variable junk : nat -> bool.

Definition secret := [s0; s1; s2; s3].

(* src/utils/hash.h:14-16 normalizeFloat *)
Definition normalizeFloat (u : Z) : Z := if is_nan u then nan0 else add0 u.
(* src/builtins/search.c:546-588 asNormalized with nanBad=false: the elements before the first -0 or NaN are kept *)
Fixpoint asNormalized (l : list Z) : list Z :=
  match l with
  | [] => []
  | v :: t => if (v =? 2 ^ 63) || is_nan v then map normalizeFloat l else v :: asNormalized t
  end.

(** The words of a new bit array with the elements l: cpyBitArr, src/utils/mut.c:452-520 *)
Definition pack_word (f : nat -> bool) (i : nat) : Z :=
  fold_right (fun j acc => Z.lor (if f (64 * i + j)%nat then 2 ^ Z.of_nat j else 0) acc) 0 (seq 0 64).
Definition pack (l : list Z) : list Z :=
  map (pack_word (fun k => match nth_error l k with Some z => negb (z =? 0) | None => junk k end)) (seq 0 ((length l + 63) / 64)).

(* src/utils/hash.h:18-34 bqn_hash on an atom; the hash of functions, modifiers and namespaces (hash.c:49-107) is not modelled: UB *)
Definition hash_atom (x : Z) : res Z :=
  if negb (is_nan x) then Ok (wyhash64 s0 (add0 x))
  else if isVal x then UB
  else if shl x 1 =? shl 0x7FF8000000000000 1 then Ok (wyhash64 s0 s1)
  else Ok (wyhash64 s0 x).

(* src/utils/hash.c:8-46 bqn_hashObj on an array, with [hs] the hashes of the elements of a boxed array *)
Definition hash_arr (o : hobj) (hs : res (list Z)) : res Z :=
  let sh := h_shape o in
  let xia := prod sh in
  if xia =? 0 then Ok (2 ^ 64 - 1 - s3) else
  do a <- to_arr o;
  do r <- squeeze_any cast a;
  let xe := a_et r in
  let shHash := if (length sh <=? 1)%nat then wyhash64 xia (elt_no xe) else wyhash (flat_map (bytes 8) sh) (elt_no xe) secret in
  do data <-
    match xe with
    | EBit =>
      let ws := match o with HBits _ _ ws => ws | _ => pack (a_els r) end in
      do ws <- bcl ws xia; Ok (firstn (Z.to_nat (Z.shiftr (xia + 7) 3)) (flat_map (bytes 8) ws))
    | EF64 => Ok (flat_map (bytes 8) (asNormalized (a_els r)))
    | EB => do hs <- hs; Ok (flat_map (bytes 8) hs)
    | t => Ok (flat_map (bytes (esize t)) (a_els r))
    end;
  Ok (wyhash data shHash secret).

(* src/utils/hash.h:18-34 bqn_hash *)
Fixpoint bqn_hash (o : hobj) : res Z :=
  match o with
  | HAtom w => hash_atom w
  | HBox _ _ els =>
    hash_arr o ((fix go (l : list hobj) : res (list Z) := match l with [] => Ok [] | x :: t => do h <- bqn_hash x; do r <- go t; Ok (h :: r) end) els)
  | _ => hash_arr o UB
  end.
(* src/utils/hash.h:36-39 bqn_hashP *)
Definition bqn_hashP (o : hobj) : res Z := do r <- bqn_hash o; Ok (if r =? 0 then s3 else r).
End Hash.

(** An empty or growing list made by Reshape and Join, as far as its element type and flags go. *)
(* src/builtins/sfns.c:148-181 reshape_one, numbers only (others: UB): n copies, with all flags set *)
Definition reshape_one (nia : nat) (x : Z) : res arr :=
  if negb (isF64 x) then UB else
  let n := ftrunc x in
  let mk3 t v := {| a_et := t; a_els := repeat v nia; a_sq := true; a_asc := true; a_dsc := true |} in
  if is_nan x || negb (n * one =? fval x) || negb ((-2147483648 <=? n) && (n <=? 2147483647)) then Ok (mk3 EF64 x)
  else if (-128 <=? n) && (n <=? 127) then Ok (if (0 <=? n) && (n <=? 1) then mk3 EBit n else mk3 EI8 n)
  else if (-32768 <=? n) && (n <=? 32767) then Ok (mk3 EI16 n) else Ok (mk3 EI32 n).
(* src/h.h:500-503 q_bit q_i8 q_i16 q_i32 and o2iG *)
Definition q_int (lo hi x : Z) : option Z :=
  if is_nan x then None else if (ftrunc x * one =? fval x) && (lo <=? ftrunc x) && (ftrunc x <=? hi) then Some (ftrunc x) else None.
(* src/utils/mut.h:205-230 inplace_add on a number list that is not referenced elsewhere and has [usable] bytes (mm_sizeUsable);
   TYARR_SZ is a header of 24 bytes and the elements, BITARR_SZ rounds up to 8 bytes. None: not done in place.
   FL_KEEP keeps only the squeezed flag. *)
Definition inplace_add (usable : Z) (a : arr) (x : Z) : option arr :=
  let ria := Z.of_nat (length (a_els a)) + 1 in
  let add sz o := if 24 + sz <? usable then match o with Some z => Some {| a_et := a_et a; a_els := a_els a ++ [z]; a_sq := a_sq a; a_asc := false; a_dsc := false |} | None => None end else None in
  match a_et a with
  | EBit => add (8 * ((ria + 63) / 64)) (q_int 0 1 x)
  | EI8 => add ria (q_int (-128) 127 x)
  | EI16 => add (2 * ria) (q_int (-32768) 32767 x)
  | EI32 => add (4 * ria) (q_int (-2147483648) 2147483647 x)
  | EF64 => add (8 * ria) (if isF64 x then Some x else None)
  | _ => None
  end.
