(** Model of the dyadic search functions on a list and an array: src/builtins/search.c (portable code, SINGELI=0).
    Reference counts, allocation of results and the shape of results (that of the searched-for argument) are left out: a result is the list of its elements. *)
From Verif Require Import Base BitsModel TagModel TagSpec NumSpec ArrSpec DataSpec SqueezeModel MatchModel HashModel HtabModel.
From Coq Require Import List.
Notation htab := HtabModel.map.

(** GetU: an element as a value (as in MatchModel, with flags) *)
Definition getH (o : hobj) (i : nat) : res hobj :=
  match o with
  | HBits _ _ ws => do z <- bitz ws i; do v <- conv1 EBit EB z; Ok (HAtom v)
  | HTyped _ _ t l => do z <- rd l i; do v <- conv1 t EB z; Ok (HAtom v)
  | HBox _ _ els => rd els i
  | HAtom _ => UB
  end.
Definition h_ia (o : hobj) : Z := prod (h_shape o).
Definition h_elt (o : hobj) : elt := o_elt (erase o).
(** all elements in order *)
Definition elems (o : hobj) : res (list hobj) := mapM (getH o) (seq 0 (Z.to_nat (h_ia o))).
(** Reading the memory of a flat array at its type, as integers *)
Definition raws_of (o : hobj) : res (list Z) :=
  match o with
  | HBits _ sh ws => bitzs ws (prod sh)
  | HTyped _ _ _ l => Ok l
  | _ => UB
  end.
Definition elNum (t : elt) : bool := elt_no t <=? 4.
Definition elChr (t : elt) : bool := (5 <=? elt_no t) && (elt_no t <=? 7).

(** for (i<n) if (p(l[i])) return i; return n *)
Fixpoint scan {A} (p : A -> bool) (l : list A) : Z := match l with [] => 0 | a :: l => if p a then 0 else 1 + scan p l end.
Fixpoint scanM {A} (p : A -> res bool) (l : list A) : res Z :=
  match l with [] => Ok 0 | a :: l => do b <- p a; if b : bool then Ok 0 else do r <- scanM p l; Ok (1 + r) end.
Definition u_eq (k a b : Z) : bool := a mod 2 ^ k =? b mod 2 ^ k.
(* search.c:192-229 indexOfOne *)
Definition indexOfOne (l e : hobj) : res Z :=
  let wia := h_ia l in
  let chk q k raws := match q with Some v => Ok (scan (u_eq k v) raws) | None => Ok wia end in
  let num lo hi := match e with HAtom u => q_int lo hi u | _ => None end in
  let chr (q : Z -> bool) := match e with HAtom u => if q u then Some (o2cG u) else None | _ => None end in
  match l with
  | HAtom _ => UB
  | HBits _ _ ws => match num 0 1 with Some v => bit_find ws 0 wia (negb (v =? 0)) | None => Ok wia end
  | HTyped _ _ t raws =>
    match t with
    | EI8 => chk (num (-128) 127) 8 raws
    | EI16 => chk (num (-32768) 32767) 16 raws
    | EI32 => chk (num (-2147483648) 2147483647) 32 raws
    | EF64 => match e with HAtom u => if isF64 u then Ok (scan (fun v => feq v u) raws) else Ok wia | _ => Ok wia end
    | EC8 => chk (chr q_c8) 8 raws
    | EC16 => chk (chr q_c16) 16 raws
    | EC32 => chk (chr isC32) 32 raws
    | EBit | EB => UB
    end
  | HBox _ _ els =>
    match e with
    | HAtom u => if isF64 u then Ok (scan (fun a => feq (word_of a) u) els) else scanM (fun a => equal (erase a) (erase e)) els
    | _ => scanM (fun a => equal (erase a) (erase e)) els
    end
  end.

(* search.c:231-248 CHECK_CHRS_ELSE: the outcome, with the arguments and the element types to continue with *)
Definition cpyC16Arr (o : hobj) : hobj := match o with HTyped f sh _ l => HTyped {| h_sq := false; h_asc := false; h_dsc := false |} sh EC16 l | _ => o end.
Definition chr_to_int (t : elt) : elt := match t with EC8 => EI8 | EC16 => EI16 | EC32 => EI32 | _ => t end.
Inductive chk := NoneFound | Flat (w x : hobj) (we xe : elt) | Gen.
Definition check_chrs (w x : hobj) : chk :=
  let we := h_elt w in let xe := h_elt x in
  if negb (elNum we) then
    if elChr we then
      if elNum xe then NoneFound
      else if negb (elt_no we =? elt_no xe) && (elt_no we <=? elt_no EC16) && (elt_no xe <=? elt_no EC16) then
        if elt_no xe <? elt_no we then Flat w (cpyC16Arr x) EI16 EI16 else Flat (cpyC16Arr w) x EI16 EI16
      else if elChr xe then Flat w x (chr_to_int we) (chr_to_int xe) else Gen
    else Gen
  else if negb (elNum xe) then if elChr xe then NoneFound else Gen
  else Flat w x we xe.
(** memory read as signed integers of the type *)
Definition sraws (t : elt) (o : hobj) : res (list Z) :=
  do l <- raws_of o; Ok (match t with EI8 => map (to_s 8) l | EI16 => map (to_s 16) l | EI32 => map (to_s 32) l | _ => l end).

(** ne_c2 and eq_c2 with a value of a flat array and a flat array: element by element (src/builtins/cmp.c, seen only through this effect) *)
Definition eq_each (a : hobj) (x : hobj) : res (list bool) := do l <- elems x; mapM (fun b => equal (erase a) (erase b)) l.
Definition b2z (b : bool) : Z := if b then 1 else 0.

(* search.c:92-121 elRange, TABLE: tab0 is a list of cells that hold nothing until written; [iv] the index in it of value v. *)
Definition elRange (t : elt) : Z := match t with EBit => 2 | EI8 => 256 | EI16 => 65536 | EI32 => 2 ^ 32 | _ => 2 ^ 64 end.
Definition tinit (tab : list (option Z)) (iv : Z -> nat) (v : Z) (l : list Z) : res (list (option Z)) := fold_left (fun t k => do t <- t; wr t (iv k) (Some v)) l (Ok tab).
Definition tget (tab : list (option Z)) (i : nat) : res Z := do c <- rd tab i; match c with Some v => Ok v | None => UB end.
Definition table (same : bool) (ine fore : elt) (inl forl : list Z) (cast : Z -> Z) (szTY : Z) (init : Z) (set : nat -> Z) : res (list Z) :=
  let it := elRange ine in let ft := elRange fore in let t := if ft <? it then it else ft in
  let iv v := Z.to_nat (t / 2 + v) in
  let tab0 : list (option Z) := repeat None (Z.to_nat t) in
  do tab <- (if same then Ok tab0 else
    if (elt_no fore =? 2) && (Z.of_nat (length forl) <? ft / (64 / szTY)) then tinit tab0 iv (cast init) forl
    else fold_left (fun t k => do t <- t; wr t (iv (Z.of_nat k - (ft / 2 - b2z (ft =? 2)))) (Some (cast init))) (seq 0 (Z.to_nat ft)) (Ok tab0));
  do tab <- fold_right (fun ki t => do t <- t; wr t (iv (fst ki)) (Some (cast (set (snd ki))))) (Ok tab) (combine inl (seq 0 (length inl)));
  match fore with
  | EBit => do a <- tget tab (iv 0); do b <- tget tab (iv 1); Ok (map (fun z => if z =? 0 then a else b) forl)
  | _ => mapM (fun z => tget tab (iv z)) forl
  end.

Section Search.
Variable cast : Z -> Z.
Variable wyhash64 : Z -> Z -> Z.
Variable wyhash : list Z -> Z -> list Z -> Z.
Variables s0 s1 s2 s3 nan0 : Z.
Variable junk : nat -> bool.
(** Comparison and hash as used by the tables (src/utils/hash.h:42-77). Both are defined on data values (C16, C11); elsewhere the model gives an arbitrary answer. *)
Definition EQH (a b : hobj) : bool := match equal (erase a) (erase b) with Ok r => r | _ => false end.
Definition HASH (a : hobj) : Z := match bqn_hashP cast wyhash64 wyhash s0 s1 s2 s3 nan0 junk a with Ok h => h | _ => 1 end.

Definition foldM {A S} (f : S -> A -> res S) (l : list A) (s : S) : res S := fold_left (fun s a => do s <- s; f s a) l (Ok s).
(** the result type is narrowed only if all indices fit (search.c:188-190 reduceI32Width), so nothing changes *)
(* search.c:348-358 *)
Definition indexOf_gen (wl xl : list hobj) : res (list Z) :=
  let wia := Z.of_nat (length wl) in
  do m <- foldM (fun m ki => do (m, _) <- mk_get hobj Z EQH HASH m (fst ki) (to_s 32 (Z.of_nat (snd ki))); Ok m) (combine wl (seq 0 (length wl))) (m_new hobj Z (2 ^ 6));
  mapM (fun x => getD hobj Z EQH HASH m x (to_s 32 wia)) xl.

(* search.c:250-360 indexOf_c2 with a list w and an array x of rank at least 1; [same]: w and x are the same object *)
Definition indexOf_many (same : bool) (w x : hobj) : res (list Z) :=
  let wia := h_ia w in let xia := h_ia x in
  let none := Ok (repeat wia (Z.to_nat xia)) in
  let gen w x := do wl <- elems w; do xl <- elems x; indexOf_gen wl xl in
  if (wia =? 0) || (xia =? 0) then none else
  match check_chrs w x with
  | NoneFound => none
  | Gen => gen w x
  | Flat w x we xe =>
    if (32 <? wia) && (xia <=? (if elt_no we <=? 1 then 1 else 3)) then
      do xl <- elems x; mapM (fun e => do r <- indexOfOne w e; Ok (to_s 32 r)) xl
    else if elt_no we =? 0 then
      match w with
      | HBits _ _ ws =>
        do b0 <- bitz ws 0; let w0 := negb (b0 =? 0) in
        do i <- bit_find ws 0 wia (negb w0);
        do e0 <- eq_each (HAtom (of_int (b2z w0))) x;
        let r := map (fun b => to_s 32 wia * b2z (negb b)) e0 in
        if i =? wia then Ok r else
        do e1 <- eq_each (HAtom (of_int (b2z (negb w0)))) x;
        Ok (map (fun rb => fst rb - to_s 32 (wia - i) * b2z (snd rb)) (combine r e1))
      | _ => UB
      end
    else if (wia <=? 4) && (16 <? xia) then
      do wl <- elems w;
      do ne <- mapM (fun a => do e <- eq_each a x; Ok (map (fun b => b2z (negb b)) e)) wl;
      match rev ne with
      | [] => UB
      | l :: t => Ok (fold_left (fun r n => map (fun nr => fst nr * (1 + snd nr)) (combine n r)) t l)
      end
    else if (20 <? xia + wia) && (elt_no we <=? 2) && (elt_no xe <=? 2) then
      do wl <- sraws we w; do xl <- sraws xe x;
      if wia <=? 127 then table same we xe wl xl (to_s 8) 1 wia Z.of_nat
      else if wia <=? 32767 then table same we xe wl xl (to_s 16) 2 wia Z.of_nat
      else table same we xe wl xl (to_s 32) 4 wia Z.of_nat
    else gen w x
  end.
(* search.c:258-264: a unit or an atom is looked up alone *)
Definition indexOf_c2 (same : bool) (w x : hobj) : res (list Z) :=
  match x with
  | HAtom _ => do r <- indexOfOne w x; Ok [r]
  | _ => if (length (h_shape x) =? 0)%nat then do e <- getH x 0; do r <- indexOfOne w e; Ok [r] else indexOf_many same w x
  end.

(* search.c:454-460 *)
Definition memberOf_gen (xl wl : list hobj) : res (list bool) :=
  do m <- foldM (fun m k => do (m, _) <- ins hobj unit EQH HASH m k tt; Ok m) xl (m_new hobj unit (2 ^ 6));
  mapM (has hobj unit EQH HASH m) wl.
(* search.c:363-466 memberOf_c2 with an array w of rank at least 1 and a list x; x is searched *)
Definition memberOf_many (same : bool) (w x : hobj) : res (list bool) :=
  let wia := h_ia w in let xia := h_ia x in
  let none := Ok (repeat false (Z.to_nat wia)) in
  let gen w x := do wl <- elems w; do xl <- elems x; memberOf_gen xl wl in
  if (wia =? 0) || (xia =? 0) then none else
  match check_chrs w x with
  | NoneFound => none
  | Gen => gen w x
  | Flat w x we xe =>
    if (32 <? xia) && (wia <=? (if elt_no xe <=? 1 then 1 else if elt_no xe =? 3 then 4 else 6)) then
      do wl <- elems w; mapM (fun e => do r <- indexOfOne x e; Ok (r <? xia)) wl
    else if elt_no xe =? 0 then
      match x with
      | HBits _ _ xs =>
        do b0 <- bitz xs 0; let x0 := negb (b0 =? 0) in
        do r <- eq_each (HAtom (of_int (b2z x0))) w;
        do h <- bit_has xs 0 xia (negb x0);
        if negb h then Ok r else
        do e <- eq_each (HAtom (of_int (b2z (negb x0)))) w;
        Ok (map (fun ab => fst ab || snd ab) (combine r e))
      | _ => UB
      end
    else if (xia <=? (if elt_no we =? 1 then 1 else if elt_no we =? 2 then 4 else 8)) && (16 <? wia) then
      do xl <- elems x;
      do es <- mapM (fun a => eq_each a w) xl;
      match es with
      | [] => UB
      | l :: t => Ok (fold_left (fun r n => map (fun ab => fst ab || snd ab) (combine r n)) t l)
      end
    else if (20 <? xia + wia) && (elt_no we <=? 2) && (elt_no xe <=? 2) then
      do wl <- sraws we w; do xl <- sraws xe x;
      do r <- table same xe we xl wl (to_s 8) 1 0 (fun _ => 1);
      Ok (map (fun z => negb (z =? 0)) r)
    else gen w x
  end.
Definition memberOf_c2 (same : bool) (w x : hobj) : res (list bool) :=
  let one e := do r <- indexOfOne x e; Ok [negb (r =? h_ia x)] in
  match w with
  | HAtom _ => one w
  | _ => if (length (h_shape w) =? 0)%nat then do e <- getH w 0; one e else memberOf_many same w x
  end.

(** Progressive index. The chain array wnext holds nothing until written. *)
(* search.c:489-512 *)
Definition count_table (we xe : elt) (wl xl : list Z) : res (list Z) :=
  let wia := Z.of_nat (length wl) in
  let we := match we with EBit => EI8 | _ => we end in let xe := match xe with EBit => EI8 | _ => xe end in
  let it := elRange we in let ft := elRange xe in let t := if ft <? it then it else ft in
  let iv v := Z.to_nat (t / 2 + v) in
  let tab0 : list (option Z) := repeat None (Z.to_nat t) in
  do tab <-
    (if (elt_no xe =? 2) && (Z.of_nat (length xl) <? ft / (64 / 4)) then tinit tab0 iv (to_s 32 wia) xl
     else foldM (fun t k => wr t (iv (Z.of_nat k - ft / 2)) (Some (to_s 32 wia))) (seq 0 (Z.to_nat ft)) tab0);
  let wnext0 : list (option Z) := repeat None (length wl) ++ [Some wia] in
  do st <- foldM (fun st ki =>
      let '(tab, wnext) := st in
      do c <- rd tab (iv (fst ki)); do wnext <- wr wnext (snd ki) c; do tab <- wr tab (iv (fst ki)) (Some (to_s 32 (Z.of_nat (snd ki)))); Ok (tab, wnext))
    (rev (combine wl (seq 0 (length wl)))) (tab, wnext0);
  let '(tab, wnext) := st in
  do st <- foldM (fun (st : list (option Z) * list Z) k =>
      let '(tab, r) := st in
      do j <- tget tab (iv k);
      if j <? 0 then UB else
      do c <- rd wnext (Z.to_nat j); do tab <- wr tab (iv k) c; Ok (tab, r ++ [j])) xl (tab, []);
  Ok (snd st).
(* search.c:522-535 *)
Definition count_gen (wl xl : list hobj) : res (list Z) :=
  let wia := Z.of_nat (length wl) in
  do st <- foldM (fun (st : htab hobj Z * list Z) ki =>
      let '(m, wnext) := st in
      do (m, v) <- swap hobj Z EQH HASH m (fst ki) (to_s 32 (Z.of_nat (snd ki))) wia; do wnext <- wr wnext (snd ki) v; Ok (m, wnext))
    (rev (combine wl (seq 0 (length wl)))) (m_new hobj Z (2 ^ 6), repeat 0 (length wl) ++ [wia]);
  let '(m, wnext) := st in
  do st <- foldM (fun (st : htab hobj Z * list Z) k =>
      let '(m, r) := st in
      do (m, j) <- getq_upd hobj Z EQH HASH m k (fun j => to_s 32 (nth (Z.to_nat j) wnext 0)) wia; Ok (m, r ++ [to_s 32 j])) xl (m, []);
  Ok (snd st).
(* search.c:468-541 count_c2 with a list w *)
Definition count_c2 (w x : hobj) : res (list Z) :=
  match x with
  | HAtom _ => indexOf_c2 false w x
  | _ =>
    let wia := h_ia w in let xia := h_ia x in
    if (xia <=? 1) || (wia =? 0) then indexOf_c2 false w x else
    match check_chrs w x with
    | NoneFound => Ok (repeat wia (Z.to_nat xia))
    | Gen => do wl <- elems w; do xl <- elems x; count_gen wl xl
    | Flat w x we xe =>
      if (elt_no we <=? 2) && (elt_no xe <=? 2) then do wl <- sraws we w; do xl <- sraws xe x; count_table we xe wl xl
      else do wl <- elems w; do xl <- elems x; count_gen wl xl
    end
  end.
End Search.
