(** Model of the merge sort for generic values: src/builtins/sortTemplate.h. The array is a list, positions are nat; reads and writes
    outside of it, and use of the scratch storage or the run stack past its size, are UB. SORT_CMP is the parameter [cmp]; that it can
    raise an error (leaving the sort) is not modelled. *)
From Verif Require Import Base.

Section Tim.
Context {A : Type} (cmp : A -> A -> Z).

(* sortTemplate.h:101-128 BINARY_INSERTION_FIND on the array at dst+b *)
Fixpoint find_loop (fuel : nat) (dst : list A) (b : nat) (x : A) (l r c : nat) : res nat :=
  match fuel with
  | O => UB
  | S f =>
    do cx <- rd dst (b + c);
    if cmp x cx <? 0 then
      if (c - l <=? 1)%nat then Ok c else find_loop f dst b x l c (l + (c - l) / 2)%nat
    else
      if (r - c <=? 1)%nat then Ok (c + 1)%nat else find_loop f dst b x c r (c + (r - c) / 2)%nat
  end.
Definition binary_insertion_find (dst : list A) (b : nat) (x : A) (size : nat) : res nat :=
  let r := (size - 1)%nat in
  do d0 <- rd dst b;
  if cmp x d0 <? 0 then Ok 0%nat else
  do dr <- rd dst (b + r);
  if 0 <? cmp x dr then Ok r else
  find_loop size dst b x 0 r (r / 2).

(* sortTemplate.h:143-146: for (j = i-1; j >= location; j--) { dst[j+1] = dst[j]; if (j==0) break; } *)
Fixpoint shift_loop (fuel : nat) (dst : list A) (b loc j : nat) : res (list A) :=
  match fuel with
  | O => UB
  | S f =>
    if (j <? loc)%nat then Ok dst else
    do v <- rd dst (b + j);
    do d <- wr dst (b + (j + 1)) v;
    if (j =? 0)%nat then Ok d else shift_loop f d b loc (j - 1)
  end.
(* sortTemplate.h:131-150 BINARY_INSERTION_SORT_START on dst+b: n iterations from i *)
Fixpoint bins_loop (n : nat) (dst : list A) (b i : nat) : res (list A) :=
  match n with
  | O => Ok dst
  | S n =>
    do p <- rd dst (b + (i - 1)); do x <- rd dst (b + i);
    if cmp p x <=? 0 then bins_loop n dst b (S i) else
    do loc <- binary_insertion_find dst b x i;
    do d <- shift_loop (S i) dst b loc (i - 1);
    do d <- wr d (b + loc) x;
    bins_loop n d b (S i)
  end.
Definition bins_sort_start (dst : list A) (b start size : nat) : res (list A) := bins_loop (size - start) dst b start.
(* sortTemplate.h:153-156 BINARY_INSERTION_SORT *)
Definition bins_sort (dst : list A) (size : nat) : res (list A) :=
  if (size <=? 1)%nat then Ok dst else bins_sort_start dst 0 1 size.

(* sortTemplate.h:26 SORT_SWAP *)
Definition swap (dst : list A) (i j : nat) : res (list A) :=
  do x <- rd dst i; do y <- rd dst j; do d <- wr dst i y; wr d j x.
(* sortTemplate.h:167-175 REVERSE_ELEMENTS *)
Fixpoint reverse_elements (fuel : nat) (dst : list A) (s e : nat) : res (list A) :=
  match fuel with
  | O => UB
  | S f => if (e <=? s)%nat then Ok dst else do d <- swap dst s e; reverse_elements f d (s + 1) (e - 1)
  end.

(* sortTemplate.h:192-196 and 201-205: advance curr while the order of neighbours is as in the run *)
Fixpoint run_loop (fuel : nat) (dst : list A) (up : bool) (size curr : nat) : res nat :=
  match fuel with
  | O => UB
  | S f =>
    if (curr =? size - 1)%nat then Ok curr else
    do p <- rd dst (curr - 1); do q <- rd dst curr;
    if (if up then 0 <? cmp p q else cmp p q <=? 0) then Ok curr else run_loop f dst up size (curr + 1)
  end.
(* sortTemplate.h:177-211 COUNT_RUN *)
Definition count_run (dst : list A) (start size : nat) : res (list A * nat) :=
  if (size - start =? 1)%nat then Ok (dst, 1%nat) else
  if (size - 2 <=? start)%nat then
    do p <- rd dst (size - 2); do q <- rd dst (size - 1);
    if 0 <? cmp p q then do d <- swap dst (size - 2) (size - 1); Ok (d, 2%nat) else Ok (dst, 2%nat)
  else
    do p <- rd dst start; do q <- rd dst (start + 1);
    if cmp p q <=? 0 then
      do curr <- run_loop size dst true size (start + 2); Ok (dst, (curr - start)%nat)
    else
      do curr <- run_loop size dst false size (start + 2);
      do d <- reverse_elements size dst start (curr - 1); Ok (d, (curr - start)%nat).

(** A run: start and length; the run stack has its top at the head of the list. *)
Definition run := (nat * nat)%type.
Definition STACK_SIZE : nat := 128.
(* sortTemplate.h:213-230 CHECK_INVARIANT *)
Definition check_invariant (st : list run) : bool :=
  match st with
  | [] | [_] => true
  | [(_, B1); (_, A1)] => negb (A1 <=? B1)%nat
  | (_, c) :: (_, b) :: (_, a) :: _ => negb ((a <=? b + c)%nat || (b <=? c)%nat)
  end.

(* sortTemplate.h:237-245 TIM_SORT_RESIZE: only the allocated size is kept *)
Definition resize (alloc new_size : nat) : nat := if (alloc <? 2 * new_size)%nat then (2 * new_size)%nat else alloc.
(* sortTemplate.h:95 memcpy of n elements to the storage of size alloc *)
Definition cpy_storage (alloc : nat) (dst : list A) (o n : nat) : res (list A) :=
  if (alloc <? n)%nat || (length dst <? o + n)%nat then UB else Ok (firstn n (skipn o dst)).
(* sortTemplate.h:263-275 left merge: n iterations, from k *)
Fixpoint left_loop (n : nat) (dst sto : list A) (X e k i j : nat) : res (list A) :=
  match n with
  | O => Ok dst
  | S n =>
    if (i <? X)%nat && (j <? e)%nat then
      do s <- rd sto i; do d <- rd dst j;
      if cmp s d <=? 0 then do dst <- wr dst k s; left_loop n dst sto X e (S k) (S i) j
      else do dst <- wr dst k d; left_loop n dst sto X e (S k) i (S j)
    else if (i <? X)%nat then
      do s <- rd sto i; do dst <- wr dst k s; left_loop n dst sto X e (S k) (S i) j
    else Ok dst
  end.
(* sortTemplate.h:279-295 right merge: while (k-- > curr) *)
Fixpoint right_loop (n : nat) (dst sto : list A) (curr i j : nat) : res (list A) :=
  match n with
  | O => Ok dst
  | S n =>
    let k := (curr + n)%nat in
    if (0 <? i)%nat && (curr <? j)%nat then
      do d <- rd dst (j - 1); do s <- rd sto (i - 1);
      if 0 <? cmp d s then do dst <- wr dst k d; right_loop n dst sto curr i (j - 1)
      else do dst <- wr dst k s; right_loop n dst sto curr (i - 1) j
    else if (0 <? i)%nat then
      do s <- rd sto (i - 1); do dst <- wr dst k s; right_loop n dst sto curr (i - 1) j
    else Ok dst
  end.
(* sortTemplate.h:247-297 TIM_SORT_MERGE of the runs (curr,X) and (_,Y) *)
Definition tim_merge (dst : list A) (alloc : nat) (lo hi : run) : res (list A * nat) :=
  let X := snd lo in let Y := snd hi in let curr := fst lo in
  let alloc := resize alloc (Nat.min X Y) in
  if (X <? Y)%nat then
    do sto <- cpy_storage alloc dst curr X;
    do d <- left_loop (X + Y) dst sto X (curr + X + Y) curr 0 (curr + X); Ok (d, alloc)
  else
    do sto <- cpy_storage alloc dst (curr + X) Y;
    do d <- right_loop (X + Y) dst sto curr Y (curr + X); Ok (d, alloc).

(** state: array, storage size, run stack *)
Definition tst := (list A * nat * list run)%type.
(* sortTemplate.h:299-359 TIM_SORT_COLLAPSE *)
Fixpoint tim_collapse (fuel : nat) (size : nat) (s : tst) : res tst :=
  match fuel with
  | O => UB
  | S f =>
    let '(dst, alloc, st) := s in
    match st with
    | [] | [_] => Ok s
    | [hi; lo] =>
      if (snd lo + snd hi =? size)%nat || (snd lo <=? snd hi)%nat then
        do (dst, alloc) <- tim_merge dst alloc lo hi; Ok (dst, alloc, [(fst lo, (snd lo + snd hi)%nat)])
      else Ok s
    | d :: c :: b :: rest =>
      let B := snd b in let C := snd c in let D := snd d in
      let ABC := match rest with a :: _ => (snd a <=? B + C)%nat | [] => false end in
      let BCD := (B <=? C + D)%nat || ABC in
      let CD := (C <=? D)%nat in
      if negb BCD && negb CD then Ok s else
      if BCD && negb CD then
        do (dst, alloc) <- tim_merge dst alloc b c;
        tim_collapse f size (dst, alloc, d :: (fst b, (B + C)%nat) :: rest)
      else
        do (dst, alloc) <- tim_merge dst alloc c d;
        tim_collapse f size (dst, alloc, (fst c, (C + D)%nat) :: b :: rest)
    end
  end.

(* sortTemplate.h:387-391: while (stack_curr > 1) merge the top two *)
Fixpoint merge_all (fuel : nat) (s : tst) : res (list A) :=
  match fuel with
  | O => UB
  | S f =>
    let '(dst, alloc, st) := s in
    match st with
    | hi :: lo :: rest =>
      do (dst, alloc) <- tim_merge dst alloc lo hi; merge_all f (dst, alloc, (fst lo, (snd lo + snd hi)%nat) :: rest)
    | _ => Ok dst
    end
  end.
(* sortTemplate.h:361-402 PUSH_NEXT: [inl] the finished array, or [inr] the state and the next position *)
Definition push_next (size minrun : nat) (s : tst) (curr : nat) : res (list A + tst * nat) :=
  let '(dst, alloc, st) := s in
  do (dst, len) <- count_run dst curr size;
  let run := if (size - curr <? minrun)%nat then (size - curr)%nat else minrun in
  do (dst, len) <- (if (len <? run)%nat then do d <- bins_sort_start dst curr len run; Ok (d, run) else Ok (dst, len));
  if (STACK_SIZE <=? length st)%nat then UB else
  let st := (curr, len) :: st in
  let curr := (curr + len)%nat in
  if (curr =? size)%nat then do d <- merge_all (length st) (dst, alloc, st); Ok (inl d) else Ok (inr ((dst, alloc, st), curr)).

(* sortTemplate.h:430-437: while (1) *)
Fixpoint tim_loop (fuel : nat) (size minrun : nat) (s : tst) (curr : nat) : res (list A) :=
  match fuel with
  | O => UB
  | S f =>
    if negb (check_invariant (snd s)) then
      do s <- tim_collapse (length (snd s)) size s; tim_loop f size minrun s curr
    else
      do p <- push_next size minrun s curr;
      match p with inl d => Ok d | inr (s, curr) => tim_loop f size minrun s curr end
  end.
(* sortTemplate.h:41-48 compute_minrun; size > 0 *)
Definition compute_minrun (size : nat) : nat :=
  let top_bit := S (Nat.log2 size) in
  let shift := (Nat.max top_bit 6 - 6)%nat in
  let minrun := (size / 2 ^ shift)%nat in
  if (size mod 2 ^ shift =? 0)%nat then minrun else (minrun + 1)%nat.
(* sortTemplate.h:404-438 TIM_SORT *)
Definition tim_sort (dst : list A) : res (list A) :=
  let size := length dst in
  if (size <=? 1)%nat then Ok dst else
  if (size <? 64)%nat then bins_sort dst size else
  let minrun := compute_minrun size in
  do p <- push_next size minrun (dst, 0%nat, []) 0;
  match p with inl d => Ok d | inr (s, curr) =>
  do p <- push_next size minrun s curr;
  match p with inl d => Ok d | inr (s, curr) =>
  do p <- push_next size minrun s curr;
  match p with inl d => Ok d | inr (s, curr) => tim_loop (2 * size + 2) size minrun s curr end end end.
End Tim.
