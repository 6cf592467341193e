(** Model of the sorting and grading of integers, characters and bits: src/builtins/grade.h:69-265 (Sort), 280-361 (Grade), radix.h, and
    src/builtins/slash.c:347-402 (Grade of bits), in the build without Singeli. [up] selects between the two expansions of GRADE_UD.
    Arrays are lists; results of arithmetic in a C type are wrapped explicitly; accesses outside of an array are UB. *)
From Verif Require Import Base BitsModel TimsortModel.

Definition sgn (k v : Z) : Z := (v + 2 ^ (k - 1)) mod 2 ^ k - 2 ^ (k - 1).     (* conversion to a signed k-bit integer *)
(* grade.h:69 LT *)
Definition LT (up : bool) (a b : Z) : bool := if up then a <? b else b <? a.

(* grade.h:77: while (0<j && xi LT (rj=rp[jn=j-1])) { rp[j]=rj; j=jn; } then rp[j] = xi *)
Fixpoint ins_loop (up : bool) (rp : list Z) (xi : Z) (j : nat) : res (list Z) :=
  match j with
  | O => wr rp 0 xi
  | S jn => do rj <- rd rp jn; if LT up xi rj then do rp <- wr rp (S jn) rj; ins_loop up rp xi jn else wr rp (S jn) xi
  end.
Fixpoint ins_outer (up : bool) (n : nat) (xp rp : list Z) (i : nat) : res (list Z) :=
  match n with
  | O => Ok rp
  | S n => do xi <- rd xp i; do rp <- ins_loop up rp xi i; ins_outer up n xp rp (S i)
  end.
(* grade.h:73-79 INSERTION_SORT; rp is the result array, of unspecified contents *)
Definition insertion_sort (up : bool) (xp rp : list Z) : res (list Z) :=
  do x0 <- rd xp 0; do rp <- wr rp 0 x0; ins_outer up (length xp) xp rp 0.

(** ** radix passes (grade.h:146-204, radix.h:9-12)
    [ks] gives the table slot of a value for every pass; the tables of 256 counters are adjacent in [c]. [M] is the modulus of the
    counter type. The items are values, or for Grade pairs of a value and an index (the code keeps these in parallel arrays). *)
Section Radix.
Context {A : Type} (up : bool) (M : Z).
Definition ROFF : nat := if up then 1 else 0.
(* grade.h:148 INC, for one value in every table *)
Fixpoint inc_digits (c : list Z) (b : nat) (ks : list (A -> nat)) (v : A) : res (list Z) :=
  match ks with
  | [] => Ok c
  | k :: ks =>
    let p := (b + k v + ROFF)%nat in
    do o <- rd c p; do c <- wr c p ((if up then o + 1 else o - 1) mod M); inc_digits c (b + 256) ks v
  end.
Fixpoint inc_all (c : list Z) (ks : list (A -> nat)) (xs : list A) : res (list Z) :=
  match xs with [] => Ok c | v :: xs => do c <- inc_digits c 0 ks v; inc_all c ks xs end.
(* radix.h:9-12 RDX_PRE for one table. The code interleaves the loops over the tables, which are disjoint. *)
Fixpoint psum (n : nat) (c : list Z) (p : nat) (s : Z) : res (list Z) :=
  match n with
  | O => Ok c
  | S n => do o <- rd c p; let s := (o + s) mod M in do c <- wr c p s; psum n c (S p) s
  end.
Fixpoint sum_all (c : list Z) (b : nat) (ks : list (A -> nat)) : res (list Z) :=
  match ks with [] => Ok c | _ :: ks => do c <- psum 256 c b 0; sum_all c (b + 256) ks end.
(* assignments to c1[0], c2[0], c3[0]: radix.h:11-12 *)
Fixpoint set_starts (c : list Z) (b : nat) (ks : list (A -> nat)) (v : Z) : res (list Z) :=
  match ks with [] => Ok c | _ :: ks => do c <- wr c b v; set_starts c (b + 256) ks v end.
(* grade.h:155-157, 165-168, 183-186: the tables before counting; [junk] is the uninitialised extra counter *)
Definition tables (n : Z) (ks : list (A -> nat)) (junk : Z) : res (list Z) :=
  let c := repeat 0 (256 * length ks) ++ (if up then [junk] else []) in
  do c <- (if up then Ok c else wr c 0 (n mod M));
  match ks with [] => Ok c | _ :: t => set_starts c 256 t ((if up then - n else n) mod M) end.
(* one distribution pass: v = src[i]; T c = tab[key]++; dst[c] = v *)
Fixpoint dist (c : list Z) (b : nat) (k : A -> nat) (src dst : list A) : res (list Z * list A) :=
  match src with
  | [] => Ok (c, dst)
  | v :: src =>
    do o <- rd c (b + k v); do c <- wr c (b + k v) ((o + 1) mod M); do dst <- wr dst (Z.to_nat o) v; dist c b k src dst
  end.
Fixpoint passes (c : list Z) (b : nat) (ks : list (A -> nat)) (src junk : list A) : res (list A) :=
  match ks with
  | [] => Ok src
  | k :: ks => do (c, dst) <- dist c b k src junk; passes c (b + 256) ks dst junk
  end.
Definition radix (ks : list (A -> nat)) (xs : list A) (cjunk : Z) (junk : list A) : res (list A) :=
  do c <- tables (Z.of_nat (length xs)) ks cjunk;
  do c <- inc_all c ks xs;
  do c <- (if up then match ks with [] => Ok c | _ :: t => set_starts c 256 t 0 end else Ok c);
  do c <- sum_all c 0 ks;
  passes c 0 ks xs junk.
End Radix.
(* the table slots: grade.h:158, 169, 188-189: (u8)(v>>s) and, for the last byte, c+128+(i8)(v>>s) *)
Definition ubyte (s : Z) (v : Z) : nat := Z.to_nat (Z.shiftr v s mod 256).
Definition sbyte (s : Z) (v : Z) : nat := Z.to_nat (sgn 8 (Z.shiftr v s) + 128).
Definition digits (w : Z) : list (Z -> nat) :=
  if w =? 8 then [sbyte 0] else if w =? 16 then [ubyte 0; sbyte 8] else [ubyte 0; ubyte 8; ubyte 16; sbyte 24].
Definition U8 : Z := 2 ^ 8.
Definition U32 : Z := 2 ^ 32.
Definition radix_sort (up : bool) (w M : Z) (xs : list Z) (cjunk : Z) (junk : list Z) : res (list Z) := radix up M (digits w) xs cjunk junk.
Definition radix_grade (up : bool) (w M : Z) (xs : list Z) (cjunk : Z) (junk : list (Z * Z)) : res (list Z) :=
  do r <- radix up M (map (fun k (p : Z * Z) => k (fst p)) (digits w)) (combine xs (map Z.of_nat (seq 0 (length xs)))) cjunk junk;
  Ok (map snd r).

(** ** counting sort, grade.h:119-144; elements of w = 8 or 16 bits *)
Section Counting.
Context (up : bool) (w : Z).
Definition cslot (v : Z) : nat := Z.to_nat (v + 2 ^ (w - 1)).     (* c0o[v], c0o = c0+C/2 *)
(* grade.h:136 *)
Fixpoint count_loop (c : list Z) (xs : list Z) : res (list Z) :=
  match xs with [] => Ok c | v :: xs => do o <- rd c (cslot v); do c <- wr c (cslot v) ((o + 1) mod U32); count_loop c xs end.
Definition cstep (j : Z) : Z := sgn w (if up then j + 1 else j - 1).
(* grade.h:139: while ((ij=c0o[j])==0) j++ *)
Fixpoint skip_loop (fuel : nat) (c : list Z) (j : Z) : res (Z * Z) :=
  match fuel with
  | O => UB
  | S f => do ij <- rd c (cslot j); if ij =? 0 then skip_loop f c (cstep j) else Ok (ij, j)
  end.
(* grade.h:124: while (ij<n) { rp[ij]++; ij += c0o[++j]; } *)
Fixpoint sparse_loop (fuel : nat) (c rp : list Z) (n ij j : Z) : res (list Z) :=
  match fuel with
  | O => UB
  | S f =>
    if ij <? n then
      do o <- rd rp (Z.to_nat ij); do rp <- wr rp (Z.to_nat ij) (sgn w (if up then o + 1 else o - 1));
      let j := cstep j in do d <- rd c (cslot j); sparse_loop f c rp n (ij + d) j
    else Ok rp
  end.
(* grade.h:125: js = rp[i] += js *)
Fixpoint scan_loop (rp : list Z) (js : Z) : list Z :=
  match rp with [] => [] | v :: t => let s := sgn w (v + js) in s :: scan_loop t s end.
(* grade.h:142: for (usz c=c0[j]; c--; ) *rp++ = j-C/2 *)
Fixpoint emit (k : nat) (rp : list Z) (p : nat) (v : Z) : res (list Z * nat) :=
  match k with O => Ok (rp, p) | S k => do rp <- wr rp p v; emit k rp (S p) v end.
Fixpoint dense_loop (js : list nat) (c rp : list Z) (p : nat) : res (list Z) :=
  match js with
  | [] => Ok rp
  | j :: js => do k <- rd c j; do (rp, p) <- emit (Z.to_nat k) rp p (Z.of_nat j - 2 ^ (w - 1)); dense_loop js c rp p
  end.
Definition C : nat := Z.to_nat (2 ^ w).
Definition counting_sort (xs rp : list Z) : res (list Z) :=
  let n := Z.of_nat (length xs) in
  do c <- count_loop (repeat 0 C) xs;
  if n / (16 * (w / 8)) <=? 2 ^ w then
    do (ij, j) <- skip_loop C c (if up then - 2 ^ (w - 1) else 2 ^ (w - 1) - 1);
    do rp <- sparse_loop (S C) c (repeat 0 (length xs)) n ij j;
    Ok (scan_loop rp j)
  else dense_loop (if up then seq 0 C else rev (seq 0 C)) c rp 0.
End Counting.

(** ** bits: grade.h:215-224; the words of x and of the result *)
Fixpoint fill_words (k : nat) (rp : list Z) (i : Z) (v : Z) : res (list Z) :=
  match k with O => Ok rp | S k => do rp <- wrz rp i v; fill_words k rp (i + 1) v end.
Definition sort_bits (up : bool) (xp : list Z) (n : Z) (rp : list Z) : res (list Z) :=
  do sum <- bit_sum xp 0 n;
  let n0 := if up then n - sum else sum in
  let v0 := if up then 0 else Z.ones 64 in
  let e := (n + 63) / 64 in
  do rp <- fill_words (Z.to_nat (n0 / 64)) rp 0 v0;
  let i := n0 / 64 in
  do (rp, i) <- (if i <? e then do rp <- wrz rp i (Z.lxor v0 (shl (Z.ones 64) (n0 mod 64))); Ok (rp, i + 1) else Ok (rp, i));
  fill_words (Z.to_nat (e - i)) rp i (not64 v0).

(** ** grade.h:225-256: Sort of a list of integers of w = 8, 16 or 32 bits. The junk arguments stand for uninitialised memory. *)
Definition sort_ints (up : bool) (w : Z) (xp rp : list Z) (cjunk : Z) (junk : list Z) : res (list Z) :=
  let n := Z.of_nat (length xp) in
  if n <=? 1 then Ok xp else
  if w =? 8 then
    if n <? 16 then insertion_sort up xp rp
    else if n <? 256 then radix_sort up 8 U8 xp cjunk junk
    else counting_sort up 8 xp rp
  else if w =? 16 then
    if n <? 20 then insertion_sort up xp rp
    else if n <? 256 then radix_sort up 16 U8 xp cjunk junk
    else if n <? 2 ^ 15 then radix_sort up 16 U32 xp cjunk junk
    else counting_sort up 16 xp rp
  else
    if n <? 32 then insertion_sort up xp rp
    else if n <? 256 then radix_sort up 32 U8 xp cjunk junk
    else radix_sort up 32 U32 xp cjunk junk.

(** ** Grade, grade.h:281-361 and slash.c:347-402 *)
(* slash.c:353-358 BG_LOOP *)
Fixpoint bg_loop (up : bool) (n : nat) (xp rp : list Z) (i r0 r1 : Z) : res (list Z) :=
  match n with
  | O => Ok rp
  | S n =>
    do g <- bitp_get xp 0 i; let b := if up then negb g else g in
    do rp <- wrz rp (if b then r0 else r1 - r0) i;
    bg_loop up n xp rp (i + 1) (r0 + (if b then 1 else 0)) (r1 + 1)
  end.
Definition grade_bool (up : bool) (xp : list Z) (n : Z) (rp : list Z) : res (list Z) :=
  do sum <- bit_sum xp 0 n;
  bg_loop up (Z.to_nat n) xp rp 0 0 (if up then n - sum else sum).

(* grade.h:312-317 *)
Fixpoint minmax (xs : list Z) (mn mx sum : Z) : Z * Z * Z :=
  match xs with
  | [] => (mn, mx, sum)
  | c :: t => minmax t (if c <? mn then c else mn) (if mx <? c then c else mx) ((sum + c) mod U32)
  end.
(* grade.h:323 *)
Fixpoint inv_loop (up : bool) (mn mx : Z) (xs : list Z) (i : Z) (rp : list Z) : res (list Z) :=
  match xs with [] => Ok rp | v :: t => do rp <- wrz rp (if up then v - mn else mx - v) i; inv_loop up mn mx t (i + 1) rp end.
(* grade.h:329 *)
Fixpoint bcount (mn : Z) (c : list Z) (xs : list Z) : res (list Z) :=
  match xs with [] => Ok c | v :: t => do o <- rdz c (v - mn); do c <- wrz c (v - mn) ((o + 1) mod U32); bcount mn c t end.
(* grade.h:330: over the slots in the order of FOR *)
Fixpoint boffs (js : list nat) (c : list Z) (s : Z) : res (list Z) :=
  match js with [] => Ok c | j :: js => do o <- rd c j; do c <- wr c j s; boffs js c ((s + o) mod U32) end.
(* grade.h:331 *)
Fixpoint bdist (mn : Z) (c : list Z) (xs : list Z) (i : Z) (rp : list Z) : res (list Z) :=
  match xs with
  | [] => Ok rp
  | v :: t => do o <- rdz c (v - mn); do c <- wrz c (v - mn) ((o + 1) mod U32); do rp <- wrz rp o i; bdist mn c t (i + 1) rp
  end.
Definition bucket_grade (up : bool) (mn range : Z) (xs rp : list Z) : res (list Z) :=
  let C := Z.to_nat range in
  do c <- bcount mn (repeat 0 C) xs;
  do c <- boffs (if up then seq 0 C else rev (seq 0 C)) c 0;
  bdist mn c xs 0 rp.
(* grade.h:63 SORT_CMP of the pairs *)
Definition ip_cmp (up : bool) (a b : Z * Z) : Z := if up then fst a - fst b else - (fst a - fst b).
(* grade.h:326-348, when the list was not found to be a permutation *)
Definition grade_32_rest (up : bool) (mn range : Z) (xs rp : list Z) (cjunk : Z) (junk : list (Z * Z)) : res (list Z) :=
  let ia := Z.of_nat (length xs) in
  if range / 2 <? ia then bucket_grade up mn range xs rp else
  if 40 <? ia then radix_grade up 32 U32 xs cjunk junk else
  do r <- tim_sort (ip_cmp up) (combine xs (map Z.of_nat (seq 0 (length xs)))); Ok (map snd r).
(* grade.h:307-349; elements are i32 or c32 *)
Definition grade_32 (up : bool) (xs rp : list Z) (cjunk : Z) (junk : list (Z * Z)) : res (list Z) :=
  let ia := Z.of_nat (length xs) in
  let '(mn, mx, sum) := minmax xs (2 ^ 31 - 1) (- 2 ^ 31) 0 in
  let range := mx - mn + 1 in
  if (range / 2 <? ia) && (range =? ia) && (sum =? (ia * (mn + mx) ÷ 2) mod U32) then
    do rp <- inv_loop up mn mx xs 0 (repeat ia (length xs));
    if forallb (fun v => negb (v =? ia)) rp then Ok rp else grade_32_rest up mn range xs rp cjunk junk
  else grade_32_rest up mn range xs rp cjunk junk.
