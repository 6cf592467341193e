(** Model of the modifiers Each and Table (src/builtins/md1.c 39-166, src/utils/each.c 5-115) and Repeat (src/builtins/md2.c 60-130).
    An operand is any function of values that may change a state of any type S (everything a BQN function can read and write) and may raise an
    error, so one model covers all operands. V is the type of values. Array elements are read without their storage type
    (C14 and C36 cover the storage). Fills of the result (homFil1, homFil2) are not modelled. *)
From Verif Require Import Base SqueezeModel.
Open Scope nat_scope.
Section Map.
Context {V S : Type}.
(** a value given to a modifier: an atom, or an array with its shape and elements *)
Inductive arg : Type := At (v : V) | Ar (sh : list nat) (d : list V).
Definition fn1 := V -> S -> res (V * S).
Definition fn2 := V -> V -> S -> res (V * S).
(** 𝔽: a function; one of the functions ⊣ ⊢; a modifier; any other value, which is a constant function *)
Inductive op1 : Type := F1 (f : fn1) | Tack | Mod1 | Const1 (v : V).
Inductive op2 : Type := F2 (f : fn2) | Mod2 | Const2 (v : V).

(** for (i = i0; i < i0+n; i++) HARR_ADD(r, i, g(i)) *)
Fixpoint collect (n i : nat) (g : nat -> S -> res (V * S)) (s : S) : res (list V * S) :=
  match n with
  | O => Ok ([], s)
  | Datatypes.S n => do (v, s) <- g i s; do (vs, s) <- collect n (Datatypes.S i) g s; Ok (v :: vs, s)
  end.
(** for (...) a[i] = g(i, mv(a,i)), each.c 5-6, 23-28, 102: the element is taken out of the array, a 0 left in its place *)
Fixpoint inplace (zero : V) (n i : nat) (g : nat -> V -> S -> res (V * S)) (a : list V) (s : S) : res (list V * S) :=
  match n with
  | O => Ok (a, s)
  | Datatypes.S n => do v <- rd a i; do a <- wr a i zero; do (r, s) <- g i v s; do a <- wr a i r; inplace zero n (Datatypes.S i) g a s
  end.
(** each.c 72-115 eachm_fn; [own]: the array is not shared and has pointers to its elements, so it is written in place *)
Definition eachm_fn (zero : V) (own : bool) (f : fn1) (sh : list nat) (d : list V) (s : S) : res (arg * S) :=
  let ia := length d in
  if ia =? 0 then Ok (Ar sh d, s) else
  do (r, s) <- (if own then inplace zero ia 0 (fun _ => f) d s else collect ia 0 (fun i s => do x <- rd d i; f x s) s);
  Ok (Ar sh r, s).
(** md1.c 39-58 each_c1, 60-62 tbl_c1. 43: the result for an atom is a unit *)
Definition call1 (f : op1) (x : V) (s : S) : res (V * S) :=
  match f with F1 f => f x s | Tack => Ok (x, s) | Mod1 => Err | Const1 v => Ok (v, s) end.
Definition each_c1 (zero : V) (own : bool) (f : op1) (x : arg) (s : S) : res (arg * S) :=
  match x with
  | At x => do (r, s) <- call1 f x s; Ok (Ar [] [r], s)
  | Ar sh d =>
    match f with
    | Tack => Ok (Ar sh d, s)
    | F1 f => eachm_fn zero own f sh d s
    | Mod1 => if 0 <? length d then Err else Ok (Ar sh [], s)
    | Const1 v => Ok (Ar sh (repeat v (length d)), s)
    end
  end.

Definition call2 (f : op2) (w x : V) (s : S) : res (V * S) :=
  match f with F2 f => f w x s | Mod2 => Err | Const2 v => Ok (v, s) end.
(** each.c 10-11: an array of rank 0 is replaced with its element *)
Definition unit_of (a : arg) : res (nat * arg) :=
  match a with
  | At v => Ok (O, At v)
  | Ar [] d => do v <- rd d 0; Ok (O, At v)
  | Ar sh d => Ok (length sh, a)
  end.
Definition sh_of (a : arg) : list nat := match a with At _ => [] | Ar sh _ => sh end.
Definition get (a : arg) (i : nat) : res V := match a with At v => Ok v | Ar _ d => rd d i end.
Definition ia_of (a : arg) : nat := match a with At _ => 1 | Ar _ d => length d end.
(** core/stuff.h 185-188 *)
Definition eqShPart (a b : list nat) (n : nat) : bool := forallb (fun p => fst p =? snd p) (combine (firstn n a) (firstn n b)).
(** the two nested loops of each.c 62-63: [g i k] for the element i of the smaller argument, and k running over the larger one *)
Fixpoint nested (min ext i k : nat) (g : nat -> nat -> S -> res (V * S)) (s : S) : res (list V * S) :=
  match min with
  | O => Ok ([], s)
  | Datatypes.S min => do (a, s) <- collect ext k (g i) s; do (b, s) <- nested min ext (Datatypes.S i) (k + ext) g s; Ok (a ++ b, s)
  end.
(** each.c 8-70 eachd_fn; [ow], [ox]: 𝕨, 𝕩 is not shared and stored as plain pointers *)
Definition eachd_fn (zero : V) (ow ox : bool) (fo : op2) (w x : arg) (s : S) : res (arg * S) :=
  do (wr_, w) <- unit_of w;
  do (xr, x) <- unit_of x;
  let f := call2 fo in
  let wg := xr <? wr_ in
  let rM := if wg then wr_ else xr in
  let rm := if wg then xr else wr_ in
  if rM =? 0 then do w <- get w 0; do x <- get x 0; do (r, s) <- f w x s; Ok (Ar [] [r], s) else
  if negb (rm =? 0) && negb (eqShPart (sh_of w) (sh_of x) rm) then Err else
  let rw := (rM =? wr_) && ow in
  let rx := (rM =? xr) && ox in
  if (rw || rx) && ((wr_ =? xr) || (rm =? 0)) then
    let b := if rw then w else x in
    match b with
    | At _ => UB
    | Ar rsh a =>
      let ria := length a in
      do (r, s) <-
        (if ria =? 0 then Ok (a, s) else
         if wr_ =? 0 then do w <- get w 0; inplace zero ria 0 (fun _ x s => f w x s) a s else
         if xr =? 0 then do x <- get x 0; inplace zero ria 0 (fun _ w s => f w x s) a s else
         if rw then inplace zero ria 0 (fun i w s => do x <- get x i; f w x s) a s
         else inplace zero ria 0 (fun i x s => do w <- get w i; f w x s) a s);
      Ok (Ar rsh r, s)
    end
  else
    let bo := if wg then w else x in
    let ria := ia_of bo in
    if ria =? 0 then Ok (Ar (sh_of bo) [], s) else
    match fo with
    | Const2 v => Ok (Ar (sh_of bo) (repeat v ria), s)
    | _ =>
      do (r, s) <-
        (if wr_ =? xr then collect ria 0 (fun i s => do w <- get w i; do x <- get x i; f w x s) s else
         if wr_ =? 0 then do w <- get w 0; collect ria 0 (fun i s => do x <- get x i; f w x s) s else
         if xr =? 0 then do x <- get x 0; collect ria 0 (fun i s => do w <- get w i; f w x s) s else
         let min := if wg then ia_of x else ia_of w in
         let ext := ria / min in
         if wg then nested min ext 0 0 (fun i k s => do x <- get x i; do w <- get w k; f w x s) s
         else nested min ext 0 0 (fun i k s => do w <- get w i; do x <- get x k; f w x s) s);
      Ok (Ar (sh_of bo) r, s)
    end.
(** md1.c 153-156 eachd, 158-163 each_c2 *)
Definition each_c2 (zero : V) (ow ox : bool) (f : op2) (w x : arg) (s : S) : res (arg * S) :=
  match w, x with
  | At w, At x => do (r, s) <- call2 f w x s; Ok (Ar [] [r], s)
  | _, _ => eachd_fn zero ow ox f w x s
  end.

(** ** Table *)
(** 𝔽 of 𝕨𝔽⌜𝕩: a function; ⊣; ⊢; a pervasive function, given by what it does to two elements; a modifier; a constant *)
Inductive opt : Type := TF (f : fn2) | TLeft | TRight | TPerv (f : V -> V -> res V) | TMod | TConst (v : V).
Definition unit_arr (a : arg) : list nat * list V := match a with At v => ([], [v]) | Ar sh d => (sh, d) end.
Fixpoint mapr {A B} (f : A -> res B) (l : list A) : res (list B) :=
  match l with [] => Ok [] | a :: l => do b <- f a; do r <- mapr f l; Ok (b :: r) end.
(** core/stuff.h uszMul: error if the product does not fit *)
Definition uszMul (a b : nat) : res nat := if (2 ^ 32 <=? Z.of_nat a * Z.of_nat b)%Z then Err else Ok (a * b).
(** md1.c 67-71 replicate_by: 𝕩 as a list, each element [rep] times (C22 covers Replicate) *)
Definition replicate_by (rep : nat) (d : list V) : list V := flat_map (fun v => repeat v rep) d.
(** sfns.c reshape_cycle: the elements again and again, ria in all *)
Definition reshape_cycle (ria : nat) (d : list V) : res (list V) := mapr (fun i => rd d (i mod length d)) (seq 0 ria).
(** md1.c 72-151 tbl_c2. [wd], [xd]: 𝕨, 𝕩 has only atoms in typed storage; [lim]: the 2560>>arrTypeBitsLog of line 98. Pervasive functions of two
    lists or of an atom and an array act element by element (arithd.c) and do not change the state *)
Definition tbl_c2 (wd xd : bool) (lim : nat) (f : opt) (w x : arg) (s : S) : res (arg * S) :=
  let (wsh, wv) := unit_arr w in
  let (xsh, xv) := unit_arr x in
  let wia := length wv in let xia := length xv in
  do ria <- uszMul wia xia;
  let wr_ := Z.of_nat (length wsh) in let xr := Z.of_nat (length xsh) in
  let rr := to_u 8 (wr_ + xr) in
  if (rr <? xr)%Z then Err else
  let generic (g : fn2) := nested wia xia 0 0 (fun i k s => do w <- rd wv i; do x <- rd xv (k - i * xia); g w x s) s in
  do (r, s) <-
    match f with
    | TMod => if 0 <? ria then Err else Ok ([], s)
    | TConst v => Ok (repeat v ria, s)
    | TLeft => Ok (replicate_by xia wv, s)
    | TRight => if ria <=? xia then Ok (firstn ria xv, s) else do r <- reshape_cycle ria xv; Ok (r, s)
    | TPerv p =>
      let g := fun a b s => do r <- p a b; Ok (r, s) in
      if ria =? 0 then Ok ([], s) else
      if negb wd then generic g else
      if xd && (3 <=? wia) && (xia <? lim) then
        do ex <- reshape_cycle ria xv; do r <- mapr (fun q => p (fst q) (snd q)) (combine (replicate_by xia wv) ex); Ok (r, s)
      else if 3 <? xia then
        do rs <- mapr (fun a => mapr (p a) xv) wv; Ok (concat rs, s)
      else generic g
    | TF g => generic g
    end;
  Ok (Ar (wsh ++ xsh) r, s).
End Map.

(** ** Repeat *)
Section Repeat.
Context {V S : Type}.
(** the result of 𝔾: a number (None: not an integer of 64 bits), another atom, or an array, [num] if its storage has only numbers *)
Inductive gv : Type := GNum (z : option Z) | GOther | GArr (num : bool) (sh : list nat) (gs : list gv).
Inductive rv : Type := RV (v : V) | RArr (sh : list nat) (rs : list rv).
Open Scope Z_scope.
(** search.c 53-61 getRange; false is None *)
Definition num_of (g : gv) : option Z := match g with GNum z => z | _ => None end.
Fixpoint range_from (gs : list gv) (lo hi : Z) : option (Z * Z) :=
  match gs with
  | [] => Some (lo, hi)
  | g :: gs => match num_of g with
               | Some c => let lo := if c <? lo then c else lo in let hi := if hi <? c then c else hi in range_from gs lo hi
               | None => None
               end
  end.
Definition get_range (gs : list gv) : option (Z * Z) :=
  match gs with
  | [] => None
  | g :: gs => match num_of g with Some c => range_from gs c c | None => None end
  end.
(** md2.c 65-88 repeat_bounds *)
Fixpoint bounds (g : gv) (b : Z * Z) : res (Z * Z) :=
  match g with
  | GArr num _ gs =>
    match gs with
    | [] => Ok b
    | _ =>
      if num then
        match get_range gs with
        | None => Err
        | Some (lo, hi) => Ok (if lo <? fst b then lo else fst b, if snd b <? hi then hi else snd b)
        end
      else (fix go gs b := match gs with [] => Ok b | g :: gs => do b <- bounds g b; go gs b end) gs b
    end
  | GNum (Some c) => Ok (if c <? fst b then c else fst b, if snd b <? c then c else snd b)
  | GNum None => Err
  | GOther => Err
  end.
(** md2.c 90-100 repeat_replace: all + min + count *)
Fixpoint replace (all : list (option V)) (min : Z) (g : gv) : res rv :=
  match g with
  | GArr _ sh gs =>
    do rs <- (fix go gs := match gs with [] => Ok [] | g :: gs => do r <- replace all min g; do rs <- go gs; Ok (r :: rs) end) gs; Ok (RArr sh rs)
  | GNum (Some z) => if min + z <? 0 then UB else do q <- rd all (Z.to_nat (min + z)); match q with Some v => Ok (RV v) | None => UB end
  | _ => UB
  end.
(** md2.c 104-111: the number is known to be at least 0 *)
Fixpoint times (n : nat) (f : V -> S -> res (V * S)) (x : V) (s : S) : res (V * S) :=
  match n with O => Ok (x, s) | Datatypes.S n => do (x, s) <- f x s; times n f x s end.
(** md2.c 121, 125: n calls, the i-th result written to all[at + step*(1+i)] *)
Fixpoint fill_calls (n : nat) (f : V -> S -> res (V * S)) (step at_ : Z) (all : list (option V)) (x : V) (s : S) : res (list (option V) * S) :=
  match n with
  | O => Ok (all, s)
  | Datatypes.S n =>
    do (x, s) <- f x s;
    let p := at_ + step in
    if p <? 0 then UB else do all <- wr all (Z.to_nat p) (Some x);
    fill_calls n f step p all x s
  end.
(** md2.c 101-136 REPEAT_T. [f] is 𝔽 (with 𝕨, if there is one), [fi] its inverse 𝔽⁼ *)
Definition repeat_ (f fi : V -> S -> res (V * S)) (g : gv) (x : V) (s : S) : res (rv * S) :=
  let many :=
    do (lo, hi) <- bounds g (0, 0);
    let min := to_s 64 (- lo) in
    let max := hi in
    if negb (Z.shiftr (Z.lor min max) 48 =? 0) then Err else
    let all := repeat None (Z.to_nat (min + max + 1)) in
    do all <- wr all (Z.to_nat min) (Some x);
    do (all, s) <- (if min =? 0 then Ok (all, s) else fill_calls (Z.to_nat min) fi (-1) min all x s);
    do (all, s) <- fill_calls (Z.to_nat max) f 1 min all x s;
    do r <- replace all min g; Ok (r, s) in
  match g with
  | GNum None => Err
  | GNum (Some am) => if 0 <=? am then do (x, s) <- times (Z.to_nat am) f x s; Ok (RV x, s) else many
  | _ => many
  end.
End Repeat.
Arguments arg : clear implicits.
Arguments op1 : clear implicits.
Arguments op2 : clear implicits.
Arguments opt : clear implicits.
Arguments rv : clear implicits.
