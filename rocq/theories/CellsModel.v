(** Model of the modifiers Cells and Rank: src/builtins/cells.c 27-66, 154-200, 234-314, 385-424, 429-648, 675-917. An operand is any function of values
    that may change a state of any type S and may raise an error, or one of the primitives for which the code has a special case.
    An array is its shape and the list of its elements. The places where the code calculates in usz (32 bits in the default build) or
    ur (8 bits) are reduced explicitly. Simplified: element types and reference counts; fills of results; when there is no cell, a function
    that isPureFn accepts is called on a cell of fills, and this is not modelled (what is modelled is the array that other functions give).
    The special cases not modelled give the same value by other code: ⍉ ∧ ∨ ⍋ ⍒ ⊐ ∊ ⊒ ⍷ ´ ˝ ` ≡ ≢ ↑ ↓ and pervasive functions as operands.
    [amax]: largest element count an allocation accepts. [box]: the element that an array is when it is inside another array. *)
From Verif Require Import Base SqueezeModel JoinModel MapModel.
Open Scope nat_scope.
Section Cells.
Context {A S : Type}.
Notation jarr := (list nat * list A)%type.
Notation arg := (arg A).
Variables (amax : Z) (box : jarr -> A).

Definition usz (sh : list nat) : nat := Z.to_nat (shProd32 sh).
Definition unarg (a : arg) : jarr := match a with At v => ([], [v]) | Ar sh d => (sh, d) end.
(** the slice function of an array: n elements from position p *)
Definition sl (d : list A) (p n : nat) : res (list A) := if p + n <=? length d then Ok (firstn n (skipn p d)) else UB.
(** stuff.h 90-93 m_shArr(r) followed by writing l to it; r is a ur, so the space is for r mod 256 lengths *)
Definition m_sh (r : nat) (l : list nat) : res (list nat) := if (Z.of_nat (length l) <=? ur (Z.of_nat r))%Z then Ok l else UB.

(** ** Operands *)
(** 𝔽 with one argument: any function; ⊢ or ⊣; <; ⊏; ⊑; ≍; ⥊; » or « (true: «); ⌽; a value that is not a function or modifier, or v˙ *)
Inductive cop : Type :=
| CGen (f : arg -> S -> res (arg * S)) | CTack | CEnclose | CFirst | CPick | CCouple | CDeshape | CShift (after : bool) | CReverse | CConst (v : arg).
(** 𝔽 with two arguments: any function; ⊣; ⊢; ≍; ⊏; a constant *)
Inductive cop2 : Type := CGen2 (f : arg -> arg -> S -> res (arg * S)) | CLeft | CRight | CCouple2 | CSelect | CConst2 (v : arg).
(** the element as an index, o2i64 (none: not an integer) *)
Variable idx : A -> option Z.
(** what the fill of 𝕩 is, if known *)
Variable fill : option A.

(** the primitives on one cell. select.c 137-148 select_c1, sfns.c 395-404 pick_c1, 1058-1072 couple_c1,
    186-200 shape_c1, 1101-1115 shiftb_c1 and 1131-1145 shifta_c1, 1165-1230 reverse_c1; JoinModel has more on
    ⊑, RevModel on ⌽ *)
Fixpoint blocks (n m : nat) (d : list A) : list (list A) := match n with O => [] | Datatypes.S n => firstn m d :: blocks n m (skipn m d) end.
Definition p_first (c : arg) : res arg :=
  match c with Ar (Datatypes.S n :: t) d => Ok (Ar t (firstn (length d / Datatypes.S n) d)) | _ => Err end.
Definition p_pick (c : arg) : res arg := match snd (unarg c) with [] => Err | a :: _ => Ok (At a) end.
Definition p_couple (c : arg) : res arg := if 255 <=? length (fst (unarg c)) then Err else Ok (Ar (1 :: fst (unarg c)) (snd (unarg c))).
Definition p_deshape (c : arg) : res arg := Ok (Ar [length (snd (unarg c))] (snd (unarg c))).
Definition p_shift (after : bool) (c : arg) : res arg :=
  match c with
  | Ar (n :: t) d =>
    if length d =? 0 then Ok c else
    match fill with
    | None => Err
    | Some z => let m := length d / n in
                Ok (Ar (n :: t) (if after then skipn m d ++ repeat z m else repeat z m ++ firstn (length d - m) d))
    end
  | _ => Err
  end.
Definition p_reverse (c : arg) : res arg :=
  match c with Ar (n :: t) d => Ok (Ar (n :: t) (concat (rev (blocks n (length d / n) d)))) | _ => Err end.
Definition call1 (op : cop) (c : arg) (s : S) : res (arg * S) :=
  let pure (r : res arg) := do r <- r; Ok (r, s) in
  match op with
  | CGen f => f c s
  | CTack => Ok (c, s)
  | CEnclose => Ok (Ar [] [box (unarg c)], s)
  | CFirst => pure (p_first c)
  | CPick => pure (p_pick c)
  | CCouple => pure (p_couple c)
  | CDeshape => pure (p_deshape c)
  | CShift after => pure (p_shift after c)
  | CReverse => pure (p_reverse c)
  | CConst v => Ok (v, s)
  end.
(** IA(w)+IA(x) as a usz; the elements written after an allocation of that size *)
Definition two_parts (a b : nat) : res unit :=
  let ia := to_u 32 (Z.of_nat a + Z.of_nat b) in
  if (amax <? ia)%Z then Err else if (ia <? Z.of_nat a + Z.of_nat b)%Z then UB else Ok tt.
(** sfns.c 1073-1092 couple_c2; ⊏ of one set of indices, select.c 207-340, see SelectModel *)
Definition p_couple2 (w x : arg) : res arg :=
  let (wsh, wd) := unarg w in let (xsh, xd) := unarg x in
  if negb ((length wsh =? length xsh) && eqShPart wsh xsh (length wsh)) || (255 <=? length xsh) then Err else
  do _ <- two_parts (length wd) (length wd); Ok (Ar (2 :: xsh) (wd ++ xd)).
Definition index (n : nat) (v : A) : res nat := match idx v with None => Err | Some z => do i <- wrap z n; Ok (Z.to_nat i) end.
(** the cell of 𝕩 at each element of 𝕨, one after another *)
Definition p_select (w x : arg) : res arg :=
  match x with
  | Ar (n :: t) d =>
    let (wsh, wd) := unarg w in
    if (255 <? length wsh + length t) || (amax <? Z.of_nat (length wd) * Z.of_nat (length d / n))%Z then Err else
    do rs <- mapr (fun v => do i <- index n v; sl d (i * (length d / n)) (length d / n)) wd;
    Ok (Ar (wsh ++ t) (concat rs))
  | _ => Err
  end.
Definition call2 (op : cop2) (w x : arg) (s : S) : res (arg * S) :=
  match op with
  | CGen2 f => f w x s
  | CLeft => Ok (w, s)
  | CRight => Ok (x, s)
  | CCouple2 => do r <- p_couple2 w x; Ok (r, s)
  | CSelect => do r <- p_select w x; Ok (r, s)
  | CConst2 v => Ok (v, s)
  end.

(** ** Cells *)
(** cells.c 45-66 S_KSLICES, SLICE: the cell of rank RNK(x)-k that starts at position p *)
Definition csz_of (sh : list nat) (k : nat) : nat := usz (skipn k sh).
Definition slice (x : jarr) (k p : nat) : res arg := do d <- sl (snd x) p (csz_of (fst x) k); Ok (Ar (skipn k (fst x)) d).
(** the APD_SH builder: results are appended in order, see JoinModel; a wrong first shape ends the loop at once, which only matters to later calls *)
Definition gather (frame : list nat) (r : res (list arg * S)) : res (jarr * S) :=
  do (rs, s) <- r; do r <- merge amax frame (map unarg rs); Ok (r, s).
(** cells.c 154-160 *)
Definition empty_frame (sh : list nat) (k : nat) : jarr := (firstn k sh, []).
(** cells.c 181-200 toKCells, 161-180 toCells *)
Definition toKCells (x : jarr) (k : nat) : res jarr :=
  let cam := usz (firstn k (fst x)) in
  if cam =? 0 then Ok (empty_frame (fst x) k) else
  if (amax <? Z.of_nat cam)%Z then Err else
  do r <- mapr (fun i => do c <- slice x k (i * csz_of (fst x) k); Ok (box (unarg c))) (seq 0 cam);
  Ok (firstn k (fst x), r).
(** select.c 848-905 select_cells_single *)
Definition select_single (ind : nat) (d : list A) (cam l csz : nat) : res (list A) :=
  if l =? 1 then Ok d else
  do r <- mapr (fun i => sl d (csz * ind + i * (l * csz)) csz) (seq 0 cam); Ok (concat r).
(** cells.c 236-250 select_cells, 251-262 pick_cells *)
Definition select_cells (ind : nat) (x : jarr) (cam k : nat) : res jarr :=
  let sh := fst x in
  do l <- rd sh k;
  do r <- select_single ind (snd x) cam l (usz (skipn (k + 1) sh));
  Ok (firstn k sh ++ skipn (k + 1) sh, r).
Definition pick_cells (ind : nat) (x : jarr) (cam k : nat) : res jarr :=
  do r <- select_single ind (snd x) cam (usz (skipn k (fst x))) 1; Ok (firstn k (fst x), r).
(** cells.c 263-314 shift_cells, set_column_typed; the special case for bits in set_column_typed gives what its loop gives *)
Fixpoint set_column (r : list A) (v : A) (p stride n : nat) : res (list A) :=
  match n with O => Ok r | Datatypes.S n => do r <- wr r p v; set_column r v (p + stride) stride n end.
Definition shift_cells (zero f : A) (x : jarr) (cam csz : nat) (after : bool) : res jarr :=
  let xia := length (snd x) in
  if csz =? 1 then Ok (fst x, repeat f xia) else
  do c <- sl (snd x) (if after then 1 else 0) (xia - 1);
  do r <- set_column (if after then c ++ [zero] else zero :: c) f (if after then csz - 1 else 0) csz cam;
  Ok (fst x, r).
(** cells.c 402-423 const_cells; the elements of v over and over. 420: C2(shape, ...) refuses sizes out of range *)
Definition const_cells (frame : list nat) (v : arg) : res jarr :=
  let (vsh, vd) := unarg v in
  if negb (length vsh =? 0) && (255 <? length vsh + length frame) then Err else
  let ria := fold_right (fun l r => Z.of_nat l * r)%Z 1%Z (frame ++ vsh) in
  if (2 ^ 32 <=? ria)%Z || (amax <? ria)%Z then Err else
  do r <- reshape_cycle (Z.to_nat ria) vd;
  Ok (frame ++ vsh, r).
(** cells.c 431 reverse_inds_64: its first 64 entries *)
Definition reverse_inds : list nat := map (fun i => 63 - i) (seq 0 64).
(** select.c 917-1172 select_rows_direct as used at 492, and 1173-1201 select_rows_B: one row of indices for every row *)
Definition select_rows (d : list A) (csz cam : nat) (inds : list nat) : res (list A) :=
  if (amax <? Z.of_nat (length inds) * Z.of_nat cam)%Z then Err else
  do rs <- mapr (fun i => mapr (fun j => if j <? csz then rd d (i * csz + j) else UB) inds) (seq 0 cam); Ok (concat rs).

(** cells.c 433-625 for_cells_c1. [d1]: TI(x,arrD1), 𝕩 is a list or array of plain atoms; [small]: the test of line 490 on the storage of 𝕩 *)
Definition for_cells_c1 (zero : A) (d1 small : bool) (op : cop) (cr k : nat) (x : jarr) (s : S) : res (jarr * S) :=
  let xsh := fst x in let xr := length xsh in
  let frame := firstn k xsh in
  let cam := usz frame in
  let ia := length (snd x) in
  let base := gather frame (collect cam 0 (fun i s => do c <- slice x k (i * csz_of xsh k); call1 op c s) s) in
  let noSpecial := if cam =? 0 then Ok (empty_frame xsh k, s) else base in
  let ok (r : res jarr) := do r <- r; Ok (r, s) in
  match op with
  | CGen _ => noSpecial
  | CTack => Ok (x, s)
  | CEnclose => if cam =? 0 then noSpecial else ok (toKCells x k)
  | CFirst => if ia =? 0 then noSpecial else if cr =? 0 then base else ok (select_cells 0 x cam k)
  | CPick => if ia =? 0 then noSpecial else if negb d1 then base else ok (pick_cells 0 x cam k)
  | CCouple => if xr =? 255 then Err else ok (do sh <- m_sh (xr + 1) (frame ++ 1 :: skipn k xsh); Ok (sh, snd x))
  | CDeshape => if cr =? 1 then Ok (x, s) else ok (do sh <- m_sh (k + 1) (frame ++ [usz (skipn k xsh)]); Ok (sh, snd x))
  | CShift after =>
    if ia =? 0 then Ok (x, s) else
    if cr =? 0 then base else
    do l <- rd xsh k;
    if negb (cr =? 1) && negb ((l =? 1) || (usz (skipn (k + 1) xsh) =? 1)) then base else
    match fill with None => base | Some z => ok (shift_cells zero z x cam l after) end
  | CReverse =>
    if cr =? 0 then noSpecial else
    do l <- rd xsh k;
    if (l <=? 1) || (ia =? 0) then Ok (x, s) else
    if (cr =? 1) && (l <=? 64) && small then ok (do r <- select_rows (snd x) l cam (firstn l (skipn (64 - l) reverse_inds)); Ok (xsh, r))
    else noSpecial
  | CConst v => ok (const_cells frame v)
  end.

(** ** The rank operand *)
(** a number as 𝕘: a whole number, an infinity, any other; what is not a number *)
Inductive wnum : Type := Whole (z : Z) | PInf | NInf | Frac | NotNum.
Inductive gval : Type := GNum (q : wnum) | GArr (qs : list wnum) | GOther.
(** cells.c 385-388 req_whole, o2f *)
Definition req_whole (q : wnum) : res wnum := match q with Whole _ | PInf | NInf => Ok q | Frac | NotNum => Err end.
(** cells.c 389-396 *)
Definition check_rank_vec (g : gval) : res (list wnum) :=
  match g with
  | GArr qs => if (1 <=? length qs) && (length qs <=? 3) then mapr req_whole qs else Err
  | _ => Err
  end.
(** cells.c 397-399 *)
Definition cell_rank (r : nat) (k : wnum) : nat :=
  match k with
  | Whole z => if (z <? 0)%Z then (if (z + Z.of_nat r <? 0)%Z then 0 else Z.to_nat (z + Z.of_nat r)) else (if (Z.of_nat r <? z)%Z then r else Z.to_nat z)
  | PInf => r
  | _ => 0
  end.
(** cells.c 429-430 c1wrap, c2wrap *)
Definition wrap_unit (r : res (arg * S)) : res (jarr * S) := do (r, s) <- r; Ok (unarg r, s).
(** cells.c 627-648 *)
Definition cell_c1 (zero : A) (d1 small : bool) (op : cop) (x : arg) (s : S) : res (jarr * S) :=
  match x with
  | At _ | Ar [] _ => wrap_unit (call1 op x s)
  | Ar sh d => for_cells_c1 zero d1 small op (length sh - 1) 1 (sh, d) s
  end.
Definition rank_c1 (zero : A) (d1 small : bool) (op : cop) (g : gval) (x : arg) (s : S) : res (jarr * S) :=
  do q <- match g with
          | GNum q => req_whole q
          | _ => do qs <- check_rank_vec g; rd qs (if length qs =? 2 then 1 else 0)
          end;
  match x with
  | At _ => wrap_unit (call1 op x s)
  | Ar sh d =>
    let cr := cell_rank (length sh) q in
    if cr =? length sh then wrap_unit (call1 op x s) else for_cells_c1 zero d1 small op cr (length sh - cr) (sh, d) s
  end.

(** ** Two arguments *)
(** transpose.c 100-165 join_cells: cells in turn *)
Fixpoint turns (n : nat) (w x : list A) (wc xc : nat) : list A :=
  match n with O => [] | Datatypes.S n => firstn wc w ++ firstn xc x ++ turns n (skipn wc w) (skipn xc x) wc xc end.
(** cells.c 27-36 interleave_cells. Line 30 has no test for the largest rank *)
Definition interleave_cells (w x : jarr) (k : nat) : res jarr :=
  let xsh := fst x in
  do sh <- m_sh (length xsh + 1) (firstn k xsh ++ 2 :: skipn k xsh);
  do _ <- two_parts (length (snd w)) (length (snd x));
  Ok (sh, turns (usz (firstn k xsh)) (snd w) (snd x) (usz (skipn k (fst w))) (usz (skipn k xsh))).
(** cells.c 675-681 unpack_unit *)
Definition unpack (a : arg) : option A := match a with At v => Some v | Ar [] (v :: _) => Some v | _ => None end.
(** cells.c 683-714 for_cells_AS *)
Definition for_cells_AS (op : cop2) (w : jarr) (x : arg) (wcr : nat) (s : S) : res (jarr * S) :=
  let wsh := fst w in let wk := length wsh - wcr in
  let frame := firstn wk wsh in let cam := usz frame in
  let ok (r : res jarr) := do r <- r; Ok (r, s) in
  let generic := gather frame (collect cam 0 (fun i s => do c <- slice w wk (i * csz_of wsh wk); call2 op c x s) s) in
  if cam =? 0 then Ok (empty_frame wsh wk, s) else
  match op with
  | CLeft => Ok (w, s)
  | CRight => ok (const_cells frame x)
  | CCouple2 => if length wsh =? 1 then match unpack x with None => generic | Some v => ok (interleave_cells w ([length (snd w)], repeat v (length (snd w))) 1) end
                else generic
  | CConst2 v => ok (const_cells frame v)
  | _ => generic
  end.
(** cells.c 715-823 for_cells_SA; [wt]: 𝕨 is stored as numbers, or squeezes to numbers (729-733) *)
Definition for_cells_SA (wt : bool) (op : cop2) (w : arg) (x : jarr) (xcr : nat) (s : S) : res (jarr * S) :=
  let xsh := fst x in let xk := length xsh - xcr in
  let frame := firstn xk xsh in let cam := usz frame in
  let ok (r : res jarr) := do r <- r; Ok (r, s) in
  let generic := gather frame (collect cam 0 (fun i s => do c <- slice x xk (i * csz_of xsh xk); call2 op w c s) s) in
  if cam =? 0 then Ok (empty_frame xsh xk, s) else
  match op with
  | CRight => Ok (x, s)
  | CLeft => ok (const_cells frame w)
  | CSelect =>
    match w with
    | Ar wsh wd =>
      if (xcr =? 1) && wt then
        do l <- rd xsh xk;
        match wsh with
        | [] => do v <- rd wd 0;
                match index l v with Ok i => ok (select_cells i x cam xk) | _ => generic end
        | _ =>
          (* 739-744: rr is a ur, without a test *)
          ok (do sh <- m_sh (xk + length wsh) (frame ++ wsh);
              do inds <- mapr (index l) wd;
              do r <- select_rows (snd x) l cam inds;
              Ok (sh, r))
        end
      else generic
    | At v =>
      match idx v with
      | Some z => if 1 <=? xcr then do l <- rd xsh xk; do i <- index l v; ok (select_cells i x cam xk) else generic
      | None => generic
      end
    end
  | CCouple2 => if length xsh =? 1 then match unpack w with None => generic | Some v => ok (interleave_cells ([length (snd x)], repeat v (length (snd x))) x 1) end
                else generic
  | CConst2 v => ok (const_cells frame v)
  | _ => generic
  end.
(** cells.c 824-884 for_cells_AA *)
Definition for_cells_AA (op : cop2) (w x : jarr) (wcr xcr : nat) (s : S) : res (jarr * S) :=
  let wsh := fst w in let xsh := fst x in
  let wk := length wsh - wcr in let xk := length xsh - xcr in
  let xkM := wk <? xk in
  let k := if xkM then wk else xk in let zk := if xkM then xk else wk in
  let zsh := if xkM then xsh else wsh in
  if negb (eqShPart wsh xsh k) then Err else
  let cam0 := usz (firstn k wsh) in
  let ext := usz (firstn (zk - k) (skipn k zsh)) in
  let cam := Z.to_nat (to_u 32 (Z.of_nat cam0 * Z.of_nat ext)) in
  let frame := firstn zk zsh in
  let ok (r : res jarr) := do r <- r; Ok (r, s) in
  let call i j s := do a <- slice w wk (i * csz_of wsh wk); do b <- slice x xk (j * csz_of xsh xk); call2 op a b s in
  let generic := gather frame (if ext =? 1 then collect cam 0 (fun i s => call i i s) s
                               else if xkM then nested cam0 ext 0 0 (fun i k s => call i k s) s
                               else nested cam0 ext 0 0 (fun i k s => call k i s) s) in
  if cam =? 0 then Ok (empty_frame zsh zk, s) else
  match op with
  | CRight => if wk =? xk then Ok (x, s) else generic
  | CLeft => if wk =? xk then Ok (w, s) else generic
  | CCouple2 => if (wk =? xk) && (length wsh =? length xsh) && eqShPart (skipn wk wsh) (skipn wk xsh) wcr then ok (interleave_cells w x wk) else generic
  | CConst2 v => ok (const_cells frame v)
  | _ => generic
  end.
(** the argument is used whole: it is an atom or has no axis before its cells *)
Definition whole (a : arg) (q : wnum) : bool := match a with At _ => true | Ar sh _ => cell_rank (length sh) q =? length sh end.
(** cells.c 885-909 rank_c2 *)
Definition rank_c2 (wt : bool) (op : cop2) (g : gval) (w x : arg) (s : S) : res (jarr * S) :=
  do (wf, xf) <- match g with
                 | GNum q => do q <- req_whole q; Ok (q, q)
                 | _ => do qs <- check_rank_vec g;
                        let gia := length qs in
                        do a <- rd qs (if gia <? 2 then 0 else gia - 2); do b <- rd qs (gia - 1); Ok (a, b)
                 end;
  let cr a q := cell_rank (length (fst (unarg a))) q in
  match whole w wf, whole x xf with
  | true, true => wrap_unit (call2 op w x s)
  | true, false => for_cells_SA wt op w (unarg x) (cr x xf) s
  | false, true => for_cells_AS op (unarg w) x (cr w wf) s
  | false, false => for_cells_AA op (unarg w) (unarg x) (cr w wf) (cr x xf) s
  end.
(** cells.c 910-918 cell_c2 *)
Definition cell_c2 (wt : bool) (op : cop2) (w x : arg) (s : S) : res (jarr * S) :=
  let wr := length (fst (unarg w)) in let xr := length (fst (unarg x)) in
  if wr =? 0 then (if xr =? 0 then wrap_unit (call2 op w x s) else for_cells_SA wt op w (unarg x) (xr - 1) s)
  else if xr =? 0 then for_cells_AS op (unarg w) x (wr - 1) s
  else for_cells_AA op (unarg w) (unarg x) (wr - 1) (xr - 1) s.
End Cells.
Arguments cop : clear implicits.
Arguments cop2 : clear implicits.
