(** Model of Transpose and Reorder Axes: src/builtins/transpose.c (SINGELI=0).
    An array is its shape and the list of its elements; sizes are natural numbers (they are bounded by the number of elements of 𝕩 or multiply an index below a length, so the usz
    arithmetic of the code does not wrap where the result is used). Result memory is a list of cells, [None] while unwritten. *)
From Verif Require Import Base.
From Coq Require Import List Arith.
Import ListNotations.
Open Scope nat_scope.

(* src/core/stuff.c shProd over a whole list *)
Definition shProd (l : list nat) : nat := fold_right Nat.mul 1 l.
(* for (i=0; i<n; i++) *)
Fixpoint loop {S : Type} (n i : nat) (f : nat -> S -> res S) (s : S) : res S := match n with O => Ok s | S n => do s <- f i s; loop n (i + 1) f s end.
Section T.
Context {A : Type}.
Definition mem := list (option A).
(* the memory of a finished array: reading a cell nobody wrote is [UB] *)
Fixpoint done (r : mem) : res (list A) := match r with [] => Ok [] | Some v :: r => do l <- done r; Ok (v :: l) | None :: _ => UB end.
(* transpose.c:57-62 DECL_BASE: transpose_T(rp, xp, bw, bh, w, h), with [rp], [xp] pointers [ro], [xo] elements into the result and 𝕩 *)
Definition tran1 (r : mem) (ro : nat) (x : list A) (xo w h xi y : nat) : res mem := do v <- rd x (xo + (y * w + xi)); wr r (ro + (xi * h + y)) (Some v).
Definition transpose_T (r : mem) (ro : nat) (x : list A) (xo bw bh w h : nat) : res mem :=
  if bh <? bw then loop bh 0 (fun y r => loop bw 0 (fun xi r => tran1 r ro x xo w h xi y) r) r
  else loop bw 0 (fun xi r => loop bh 0 (fun y r => tran1 r ro x xo w h xi y) r) r.
(* transpose.c:167-170, 173-219 transpose_move, transpose_noshape for other than bits; two rows of bits are in TransBitModel; for bits otherwise the elements are converted to i8, moved and converted back *)
Definition transpose_noshape (x : list A) (w h : nat) : res (list A) := do r <- transpose_T (repeat None (length x)) 0 x 0 w h w h; done r.

(* transpose.c:221-245 transp_c1 *)
Definition transp_c1 (xsh : list nat) (x : list A) : res (list nat * list A) :=
  match xsh with
  | [] | [_] => Ok (xsh, x)
  | h :: tl =>
    let ia := length x in
    if (ia =? 0) || (h =? 1) || (h =? ia) then Ok (tl ++ [h], x)
    else let w := shProd tl in do r <- transpose_noshape x w h; Ok (tl ++ [h], r)
  end.
(* transpose.c:451-475 transp_im *)
Definition transp_im (xsh : list nat) (x : list A) : res (list nat * list A) :=
  if length xsh <=? 1 then Ok (xsh, x) else
  let w := last xsh 0 in let hd := removelast xsh in
  let ia := length x in
  if (ia =? 0) || (w =? 1) || (w =? ia) then Ok (w :: hd, x)
  else let h := shProd hd in do r <- transpose_noshape x w h; Ok (w :: hd, r).

(** ** Reorder Axes *)
(* transpose.c:290-300: result axis lengths for the given axes, number of duplicates, largest result axis, number of axes that stay. [None] is no_sh *)
Fixpoint given (p xsh : list nat) (i : nat) (rsh : list (option nat)) (dup max id : nat) : res (list (option nat) * nat * nat * nat) :=
  match p, xsh with
  | [], _ => Ok (rsh, dup, max, id)
  | j :: p, xl :: xsh =>
    do l <- rd rsh j;
    let dup := dup + (match l with Some _ => 1 | None => 0 end) in
    let id := id + (if i =? j then 1 else 0) in
    let max := if max <? j then j else max in
    let nl := match l with Some l => if xl <? l then xl else l | None => xl end in
    do rsh <- wr rsh j (Some nl); given p xsh (i + 1) rsh dup max id
  | _, [] => UB
  end.
(* transpose.c:304-310: remaining axes; [n] result axes to go, from [j]; [xsh] the lengths of the remaining axes of 𝕩 *)
Fixpoint missing (n j : nat) (rsh : list (option nat)) (xsh : list nat) : res (list nat * list nat) :=
  match n with
  | O => Ok ([], [])
  | S n =>
    do l <- rd rsh j;
    match l with
    | Some l => do (p, r) <- missing n (j + 1) rsh xsh; Ok (p, l :: r)
    | None => match xsh with [] => UB | xl :: xsh => do (p, r) <- missing n (j + 1) rsh xsh; Ok (j :: p, xl :: r) end
    end
  end.
(* transpose.c:329-331: strides; going from the last moved axis to the first, [ax] is the list of (result axis, length) in that order *)
Fixpoint strides (ax : list (nat * nat)) (c : nat) (st : list nat) : res (list nat) :=
  match ax with [] => Ok st | (j, l) :: ax => do s <- rd st j; do st <- wr st j (s + c); strides ax (c * l) st end.
(* transpose.c:335-341: simplification; [ax] the (length, stride) of result axes, last first; [acc] the axes kept so far, first first. [lp] points to the length of the first axis in [acc], or to csz *)
Fixpoint simplify (ax : list (nat * nat)) (csz sz : nat) (acc : list (nat * nat)) : nat * list (nat * nat) :=
  match ax with
  | [] => (csz, acc)
  | (l, s) :: ax =>
    if l =? 1 then simplify ax csz sz acc
    else if s =? sz then match acc with [] => simplify ax (csz * l) (sz * l) [] | (l', s') :: acc => simplify ax csz (sz * l) ((l' * l, s') :: acc) end
    else simplify ax csz (l * s) ((l, s) :: acc)
  end.
(* transpose.c:350-371 AXIS_LOOP; the axes other than the last, from the inner one, with length, stride and current index ri *)
Fixpoint bump (ax : list (nat * nat * nat)) (j0 : nat) : res (list (nat * nat * nat) * nat) :=
  match ax with
  | [] => UB
  | (l, s, r) :: ax =>
    let j := j0 + s in
    if r + 1 <? l then Ok ((l, s, r + 1) :: ax, j)
    else if j <? l * s then UB else do (ax, j) <- bump ax (j - l * s); Ok ((l, s, 0) :: ax, j)
  end.
Fixpoint axis_loop {S : Type} (fuel : nat) (inner : nat -> nat -> S -> res S) (inc ria i j0 : nat) (ax : list (nat * nat * nat)) (s : S) : res S :=
  match fuel with
  | O => UB
  | S fuel => do s <- inner i j0 s; let i := i + inc in if i =? ria then Ok s else do (ax, j0) <- bump ax j0; axis_loop fuel inner inc ria i j0 ax s
  end.
(* mut_copyG(rm, i, x, j, n): n elements *)
Definition copy (r : mem) (i : nat) (x : list A) (j n : nat) : res mem := loop n 0 (fun k r => do v <- rd x (j + k); wr r (i + k) (Some v)) r.
(* transpose.c:373-381: large cells. [ax]: the axes kept, first first *)
Definition reorder_copy (csz : nat) (ax : list (nat * nat)) (x : list A) : res (list A) :=
  match rev ax with
  | [] => UB
  | (l, str) :: outer =>
    let ria := csz * shProd (map fst ax) in
    do r <- axis_loop (S ria) (fun i j0 r => loop l 0 (fun k r => copy r (i + k * csz) x (j0 + k * str) csz) r) (l * csz) ria 0 0 (map (fun '(l, s) => (l, s, 0)) outer) (repeat None ria);
    done r
  end.
(* transpose.c:388-389: the axis with stride 1, below [k] *)
Fixpoint find1 (st : list nat) (k : nat) : option nat := match k with O => None | S k => if nth k st 0 =? 1 then Some k else find1 st k end.
(* transpose.c:408-420; axes from the inner one; the axis done by the kernel is marked *)
Fixpoint bump2 (skip : nat) (ax : list (bool * (nat * nat * nat))) (i j : nat) : res (list (bool * (nat * nat * nat)) * nat * nat) :=
  match ax with
  | [] => UB
  | (true, a) :: ax => do (s, j) <- bump2 skip ax (i + skip) j; let '(ax, i) := s in Ok ((true, a) :: ax, i, j)
  | (false, (l, s, r)) :: ax =>
    let j := j + s in
    if r + 1 <? l then Ok ((false, (l, s, r + 1)) :: ax, i, j)
    else if j <? l * s then UB else do (t, j) <- bump2 skip ax i (j - l * s); let '(ax, i) := t in Ok ((false, (l, s, 0)) :: ax, i, j)
  end.
Fixpoint loop2d (fuel : nat) (tran : nat -> nat -> mem -> res mem) (h skip end_ i j : nat) (ax : list (bool * (nat * nat * nat))) (r : mem) : res mem :=
  match fuel with
  | O => UB
  | S fuel => do r <- tran i j r; let i := i + h in if i =? end_ then Ok r else do (t, j) <- bump2 skip ax i j; let '(ax, i) := t in loop2d fuel tran h skip end_ i j ax r
  end.
(* transpose.c:391-424: strided transposes. Cells of one element (with cells of more, no stride is 1 - this is proved; the model is [UB] there); in elements, not bytes *)
Definition reorder_2d (csz : nat) (ax : list (nat * nat)) (x : list A) (xai : nat) : res (list A) :=
  if negb (csz =? 1) then UB else
  let rsh := map fst ax in let st := map snd ax in let rai := length ax - 1 in
  let rf := shProd rsh in
  let w := nth xai rsh 0 in let ws := nth rai st 0 in let h := nth rai rsh 0 in
  let hs := shProd (firstn (rai - (xai + 1)) (skipn (xai + 1) rsh)) * h in
  if length ax =? 2 then do r <- transpose_T (repeat None rf) 0 x 0 w h ws hs; done r
  else
    let skip := (w - 1) * hs in
    let axs := rev (map (fun '(k, (l, s)) => (k =? xai, (l, s, 0))) (combine (seq 0 rai) (firstn rai ax))) in
    do r <- loop2d (S rf) (fun i j r => transpose_T r i x j w h ws hs) h skip (rf - skip) 0 0 axs (repeat None rf); done r.
(* transpose.c:434-439: +⌜´st×⟜↕¨rsh, in cells *)
Fixpoint indices (csz : nat) (ax : list (nat * nat)) : list nat :=
  match ax with
  | [] => []
  | [(l, s)] => map (fun k => s / csz * k) (seq 0 l)
  | (l, s) :: ax => flat_map (fun v => map (fun u => v + u) (indices csz ax)) (map (fun k => s / csz * k) (seq 0 l))
  end.
(* transpose.c:428-432, 440: Select of cells *)
Fixpoint select_cells (ind : list nat) (n csz : nat) (x : list A) : res (list A) :=
  match ind with [] => Ok [] | k :: ind => if k <? n then do r <- select_cells ind n csz x; Ok (firstn csz (skipn (k * csz) x) ++ r) else Err end.
(* transpose.c:372-440: which method; [lw] is log2 of the element width in bits *)
Definition move (lw : nat) (isB : bool) (csz : nat) (ax : list (nat * nat)) (x : list A) : res (list A) :=
  let na := length ax in
  let sel := select_cells (indices csz ax) (length x / csz) csz x in
  if (32 * 8) / 2 ^ lw <=? csz then reorder_copy csz ax x
  else if (Nat.land csz (csz - 1) =? 0) && (csz <=? 64 / 2 ^ lw) && (8 <=? csz * 2 ^ lw) && negb isB && (2 <=? na) then
    match find1 (map snd ax) (na - 1) with
    | None => sel
    | Some xai => if nth xai (map fst ax) 0 * nth (na - 1) (map fst ax) 0 <? (256 * 8) / 2 ^ lw then sel else reorder_2d csz ax x xai
    end
  else sel.
(* transpose.c:257-448 transp_c2 with a list 𝕨 of axes and an array 𝕩 *)
Definition reorder (lw : nat) (isB : bool) (w : list nat) (xsh : list nat) (x : list A) : res (list nat * list A) :=
  let wia := length w in let xr := length xsh in
  if wia =? 0 then Ok (xsh, x)
  else if xr <? wia then Err
  else if negb (forallb (fun a => a <? xr) w) then Err
  else
    do (t, id) <- given w xsh 0 (repeat None xr) 0 0 0; let '(rsh, dup, max) := t in
    if id =? wia then Ok (xsh, x)
    else let rr := xr - dup in
    if rr <=? max then Err
    else
      do (q, rsh) <- missing rr 0 rsh (skipn wia xsh);
      let p := w ++ q in
      if length x =? 0 then Ok (rsh, [])
      else
        let na := max + 1 in
        let csz := shProd (skipn (na + dup) xsh) in
        do st <- strides (rev (firstn (na + dup) (combine p xsh))) csz (repeat 0 na);
        let '(csz, ax) := simplify (rev (combine (firstn na rsh) st)) csz csz [] in
        do r <- match ax with [] => (if csz <=? length x then Ok (firstn csz x) else UB) | _ => move lw isB csz ax x end;
        Ok (rsh, r).
(* transpose.c:257-274 with a number 𝕨 *)
Definition reorder1 (lw : nat) (isB : bool) (a : nat) (xsh : list nat) (x : list A) : res (list nat * list A) :=
  let xr := length xsh in
  if xr <? 1 then Err else if xr <=? a then Err else if a =? xr - 1 then transp_c1 xsh x else reorder lw isB [a] xsh x.
(* transpose.c:482-512 invert_transp_w for a list; [None]: duplicates *)
Fixpoint inv_fill (w : list nat) (xr i max : nat) (p : list (option nat)) : res (option (list (option nat) * nat)) :=
  match w with
  | [] => Ok (Some (p, max))
  | a :: w => if xr <=? a then Err else do o <- rd p a; match o with Some _ => Ok None | None => do p <- wr p a (Some i); inv_fill w xr (i + 1) (if max <? a then a else max) p end
  end.
Fixpoint inv_out (p : list (option nat)) (j : nat) : list nat := match p with [] => [] | Some i :: p => i :: inv_out p j | None :: p => j :: inv_out p (j + 1) end.
Definition invert_w (w : list nat) (xr : nat) : res (option (list nat)) :=
  if length w =? 0 then Ok (Some w) else if xr <? length w then Err
  else do o <- inv_fill w xr 0 0 (repeat None xr); match o with None => Ok None | Some (p, max) => Ok (Some (inv_out (firstn (max + 1) p) (length w))) end.
(* transpose.c:483-488 for a number *)
Definition invert_w1 (a xr : nat) : res (list nat) := if xr <? 1 then Err else if xr <=? a then Err else Ok (map (fun i => i + 1) (seq 0 a)).
(* transpose.c:514-519 transp_ix *)
Definition transp_ix (lw : nat) (isB : bool) (w : list nat) (xsh : list nat) (x : list A) : res (list nat * list A) :=
  do o <- invert_w w (length xsh); match o with None => Err | Some v => reorder lw isB v xsh x end.
Definition transp_ix1 (lw : nat) (isB : bool) (a : nat) (xsh : list nat) (x : list A) : res (list nat * list A) := do v <- invert_w1 a (length xsh); reorder lw isB v xsh x.
(* transpose.c:477-479 transp_uc1 (𝔽⌾⍉); [f] any function from arrays to arrays *)
Definition transp_uc1 (f : list nat -> list A -> res (list nat * list A)) (xsh : list nat) (x : list A) : res (list nat * list A) :=
  do (s, r) <- transp_c1 xsh x; do (s, r) <- f s r; transp_im s r.
(* transpose.c:521-525 transp_ucw (𝔽⌾(𝕨⊸⍉)); duplicate axes are left to the general Under, [None] *)
Definition transp_ucw (lw : nat) (isB : bool) (f : list nat -> list A -> res (list nat * list A)) (w xsh : list nat) (x : list A) : res (option (list nat * list A)) :=
  do o <- invert_w w (length xsh); match o with None => Ok None | Some wi => do (s, r) <- reorder lw isB w xsh x; do (s, r) <- f s r; do y <- reorder lw isB wi s r; Ok (Some y) end.
End T.
