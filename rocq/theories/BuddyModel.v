(** Model of the buddy allocator: src/opt/mm_buddyTemplate.{c,h}, src/opt/mm_buddy.h (MM=1; MUL is 1), and the template as instantiated
    with MUL=3 by src/opt/mm_2buddy.c.
    Memory is a function from addresses to object headers; only the fields the allocator uses are kept (type as a three-way kind, the
    bucket in mmInfo, and the next pointer of free blocks). The mark bit of mmInfo is clear outside of a collection and is not modelled.
    The list [live] is a ghost: the addresses handed out and not yet released, with the requested sizes.
    What the environment decides (interrupts, whether a collection happens and what it frees, the address returned by mmap) is an
    explicit argument. *)
From Verif Require Import Base.

Inductive kind : Type := KEmpty (* t_empty *) | KFreed (* t_freed *) | KLive (* any other type *).
Record hdr : Type := mkHdr { h_kind : kind; h_bkt : nat; h_next : Z }.
Record heap : Type := mkHeap {
  mem : Z -> hdr;
  bkts : list Z;            (* BN(buckets); 0 is NULL *)
  ctrs : list Z;            (* BN(ctrs) *)
  chunks : list (Z * Z);    (* BN(al): address, size *)
  heapAlloc : Z;            (* mm_heapAlloc *)
  heapMax : Z;              (* mm_heapMax *)
  recur : bool;             (* BN(allocMore_rec) *)
  live : list (Z * Z) }.    (* ghost *)

Definition NB : nat := 64.
Section Tmpl.
Variable MUL : Z.
(* mm_buddy.h:16 / mm_2buddy.c:43 BSZ *)
Definition BSZ (b : nat) : Z := MUL * 2 ^ Z.of_nat b.
(* mm_buddyTemplate.c:35 ALSZ *)
Definition ALSZ : nat := 20.
(* mm_buddy.h:21 LOG2(X) = 64-CLZ(X-1): the number of significant bits of X-1 *)
Definition LOG2 (x : Z) : nat := Z.to_nat (if x =? 1 then 0 else Z.log2 (x - 1) + 1).

Definition setm (h : heap) (a : Z) (v : hdr) : heap :=
  mkHeap (fun x => if x =? a then v else mem h x) (bkts h) (ctrs h) (chunks h) (heapAlloc h) (heapMax h) (recur h) (live h).
Definition setb (h : heap) (b : nat) (v : Z) : heap :=
  mkHeap (mem h) (upd (bkts h) b v) (ctrs h) (chunks h) (heapAlloc h) (heapMax h) (recur h) (live h).
Definition setc (h : heap) (b : nat) (v : Z) : heap :=
  mkHeap (mem h) (bkts h) (upd (ctrs h) b v) (chunks h) (heapAlloc h) (heapMax h) (recur h) (live h).
Definition setrec (h : heap) (r : bool) : heap :=
  mkHeap (mem h) (bkts h) (ctrs h) (chunks h) (heapAlloc h) (heapMax h) r (live h).
Definition setlive (h : heap) (l : list (Z * Z)) : heap :=
  mkHeap (mem h) (bkts h) (ctrs h) (chunks h) (heapAlloc h) (heapMax h) (recur h) l.

(* x->next = buckets[b]; buckets[b] = x, with the given type *)
Definition push (h : heap) (k : kind) (a : Z) (b : nat) : res heap :=
  do n <- rd (bkts h) b;
  Ok (setb (setm h a (mkHdr k b n)) b a).

(* mm_buddyTemplate.h:5-23 freeLink *)
Definition freeLink (h : heap) (x : Z) (link : bool) : res heap :=
  let b := h_bkt (mem h x) in
  do c <- rd (ctrs h) b;
  let h := setc h b (c - 1) in
  if link then push h KEmpty x b
  else Ok (setm h x (mkHdr KEmpty b (h_next (mem h x)))).
(* mm_buddyTemplate.h:25-27 *)
Definition free (h : heap) (x : Z) : res heap := freeLink h x true.

(* mm_buddyTemplate.c:16-30 splitTo *)
Fixpoint split_loop (n : nat) (h : heap) (c : Z) (from : nat) : res heap :=
  match n with
  | O => Ok h
  | S n => let from := (from - 1)%nat in do h <- push h KEmpty (BSZ from + c) from; split_loop n h c from
  end.
Definition splitTo (h : heap) (c : Z) (from to : nat) : res heap :=
  do h <- split_loop (from - to) h c from;
  push h (h_kind (mem h c)) c to.

(* mm_buddyTemplate.h:31-36: the part of allocL after the NULL check; a NULL bucket here would be a read through NULL *)
Definition take (h : heap) (b : nat) : res (heap * Z) :=
  do x <- rd (bkts h) b;
  if x =? 0 then UB else
  let h := setb h b (h_next (mem h x)) in
  do c <- rd (ctrs h) b;
  let h := setc h b (c + 1) in
  Ok (setm h x (mkHdr KLive b (h_next (mem h x))), x).

(* mm_buddyTemplate.c:141-186 freeFreedAndMerge; the inner loop that cuts an empty range into power-of-two blocks *)
Definition CLZ64 (x : Z) : Z := 63 - Z.log2 x.
Fixpoint cut_loop (n : nat) (h : heap) (start size : Z) : res heap :=
  if size =? 0 then Ok h else
  match n with
  | O => UB
  | S n =>
    let left := Z.land size (size - 1) in
    let curr := Z.lxor size left in
    let b := Z.to_nat (63 - CLZ64 curr) in
    do h <- push h KEmpty start b;
    cut_loop n h (start + curr * MUL) left
  end.
Definition cut (h : heap) (e size : Z) : res heap := cut_loop 64 h (e - size * MUL) size.
Fixpoint merge_loop (n : nat) (h : heap) (c e emptySize : Z) : res heap :=
  match n with
  | O => UB
  | S n =>
    do h <- match h_kind (mem h c) with KFreed => freeLink h c false | _ => Ok h end;
    let b := h_bkt (mem h c) in
    let next := BSZ b + c in
    do (h, emptySize) <-
      match h_kind (mem h c) with
      | KEmpty => Ok (h, emptySize + 2 ^ Z.of_nat b)
      | _ => if 0 <? emptySize then do h <- cut h c emptySize; Ok (h, 0) else Ok (h, emptySize)
      end;
    if next =? e then (if emptySize =? 0 then Ok h else cut h next emptySize)
    else merge_loop n h next e emptySize
  end.
Definition merge_chunk (h : heap) (ci : Z * Z) : res heap := let '(p, sz) := ci in merge_loop (S (Z.to_nat (sz / 16))) h p (sz + p) 0.
Fixpoint merge_chunks (h : heap) (l : list (Z * Z)) : res heap :=
  match l with [] => Ok h | ci :: l => do h <- merge_chunk h ci; merge_chunks h l end.
Definition clear_buckets (h : heap) : heap :=
  mkHeap (mem h) (map (fun _ => 0) (bkts h)) (ctrs h) (chunks h) (heapAlloc h) (heapMax h) (recur h) (live h).
Definition freeFreedAndMerge (h : heap) : res heap := let h := clear_buckets h in merge_chunks h (chunks h).

(* the ghost list *)
Fixpoint in_live (l : list (Z * Z)) (a : Z) : bool := match l with [] => false | (x, _) :: l => (x =? a) || in_live l a end.
Fixpoint del_live (l : list (Z * Z)) (a : Z) : list (Z * Z) := match l with [] => [] | (x, n) :: l => if x =? a then l else (x, n) :: del_live l a end.

(** Outcomes of a request; [Invalid]: the environment's or user's choice is not a possible one (an object that is not live is released,
    memory in use is returned by mmap, or no decision is given) *)
Inductive outcome : Type := Got (a : Z) | OOM | Interrupted | Fatal | Invalid.

(* gc.c:56-79 gc_tryFree as far as the allocator is concerned: the objects found unreachable are either released with mm_free right away
   or left behind as t_freed; then gc.c:168 mm_freeFreedAndMerge. *)
Fixpoint gc_frees (h : heap) (l : list (Z * bool)) : res (option heap) :=
  match l with
  | [] => Ok (Some h)
  | (a, now) :: l =>
    if in_live (live h) a then
      do h <- (if now then free h a else Ok (setm h a (mkHdr KFreed (h_bkt (mem h a)) (h_next (mem h a)))));
      gc_frees (setlive h (del_live (live h) a)) l
    else Ok None
  end.
Definition gc_run (h : heap) (l : list (Z * bool)) : res (option heap) :=
  do r <- gc_frees h l;
  match r with None => Ok None | Some h => do h <- freeFreedAndMerge h; Ok (Some h) end.

(* the decisions of the environment during one call of allocateMore *)
Record env : Type := mkEnv { e_intr : bool; e_maybe : option (list (Z * bool)); e_force : list (Z * bool); e_mmap : option Z }.

(* mmap gives memory that is not in use; its start is moved up to leave room for padding in front (mm_buddyTemplate.c:77-81) *)
Definition overlaps (p n : Z) (c : Z * Z) : bool := let '(q, k) := c in (p <? q + k) && (q <? p + n).
Definition PAD : Z := 2048.

(* mm_buddyTemplate.c:102-117 allocS: look for a larger free block, in buckets b+1 .. 63 *)
Fixpoint find_from (n : nat) (h : heap) (from : nat) : res (option nat) :=
  match n with
  | O => Ok None
  | S n => do x <- rd (bkts h) from; if x =? 0 then find_from n h (S from) else Ok (Some from)
  end.

(* mm_buddyTemplate.h:30-49 allocL and mm_buddyTemplate.c:35-117 allocateMore, allocS; recursion is on the list of environment decisions.
   [req] is the requested size (ghost) *)
Fixpoint allocL (envs : list env) (h : heap) (b : nat) (req : Z) : res (heap * outcome) :=
  do x <- rd (bkts h) b;
  if negb (x =? 0) then
    do (h, a) <- take h b; Ok (setlive h ((a, req) :: live h), Got a)
  else
    do f <- find_from (63 - b) h (S b);
    match f with
    | Some from =>
      do c <- rd (bkts h) from;
      let h := setb h from (h_next (mem h c)) in
      do h <- splitTo h c from b;
      do (h, a) <- take h b; Ok (setlive h ((a, req) :: live h), Got a)
    | None =>
      match envs with
      | [] => Ok (h, Invalid)
      | e :: envs =>
        let from := Nat.max ALSZ b in
        let sz := BSZ from in
        if e_intr e then Ok (h, Interrupted) else
        match e_maybe e with
        | Some fs =>
          do r <- gc_run h fs;
          match r with
          | None => Ok (h, Invalid)
          | Some h => do (h, o) <- allocL envs h b req;
                      Ok (match o with Got _ => setrec h false | _ => h end, o)
          end
        | None =>
          if heapMax h <? (heapAlloc h + sz) mod 2 ^ 64 then
            if recur h then Ok (setrec h false, OOM)
            else
              do r <- gc_run h (e_force e);
              match r with
              | None => Ok (h, Invalid)
              | Some h => do (h, o) <- allocL envs (setrec h true) b req;
                          Ok (match o with Got _ => setrec h false | _ => h end, o)
              end
          else
          match e_mmap e with
          | None => Ok (h, OOM)
          | Some p =>
            if (2 ^ 48 + PAD <? p + sz) then Ok (h, Fatal)
            else if (p <=? 0) || existsb (overlaps p sz) (chunks h) then Ok (h, Invalid)
            else
              let h := mkHeap (mem h) (bkts h) (ctrs h) (chunks h ++ [(p, sz)]) (heapAlloc h + sz) (heapMax h) (recur h) (live h) in
              let h := setm h p (mkHdr KEmpty from 0) in
              do h <- splitTo h p from b;
              do (h, a) <- take h b; Ok (setlive h ((a, req) :: live h), Got a)
          end
        end
      end
    end.
(* mm_buddy.h:24-40 mm_alloc; sizes below 16 are excluded by an assert *)
Definition alloc (envs : list env) (h : heap) (sz : Z) : res (heap * outcome) := allocL envs h (LOG2 sz) sz.

(* mm_buddyTemplate.c:189-193 heapUsed *)
Fixpoint used_loop (l : list Z) (i : nat) : Z := match l with [] => 0 | c :: l => c * BSZ i + used_loop l (S i) end.
Definition heapUsed (h : heap) : Z := used_loop (ctrs h) 0.

(** One step of a history. [OWrite a x v]: the owner of the live object at a changes memory inside of it (its header keeps bucket and a type
    that is neither empty nor freed). *)
Inductive op : Type := OAlloc (sz : Z) (envs : list env) | OFree (a : Z) | OGc (l : list (Z * bool)) | OWrite (a x : Z) (v : hdr).
Fixpoint live_size (l : list (Z * Z)) (a : Z) : Z := match l with [] => 0 | (x, n) :: l => if x =? a then n else live_size l a end.
Definition step (h : heap) (o : op) : res (heap * outcome) :=
  match o with
  | OAlloc sz envs => if (sz <? 16) || (MUL * 2 ^ 62 <? sz) then Ok (h, Invalid) else allocL envs h (LOG2 ((sz + MUL - 1) / MUL)) sz
  | OFree a =>
    if in_live (live h) a then do h <- free h a; Ok (setlive h (del_live (live h) a), Got 0) else Ok (h, Invalid)
  | OGc l => do r <- gc_run h l; match r with Some h => Ok (h, Got 0) | None => Ok (h, Invalid) end
  | OWrite a x v =>
    if in_live (live h) a && (a <=? x) && (x <? a + live_size (live h) a) then
      Ok (setm h x (if x =? a then mkHdr KLive (h_bkt (mem h a)) (h_next v) else v), Got 0)
    else Ok (h, Invalid)
  end.
Fixpoint run (h : heap) (l : list op) : res (heap * list outcome) :=
  match l with
  | [] => Ok (h, [])
  | o :: l => do (h, r) <- step h o; do (h, rs) <- run h l; Ok (h, r :: rs)
  end.
(* load.c:23, mm_buddy.c:11-12: the state at startup *)
Definition init (max : Z) : heap := mkHeap (fun _ => mkHdr KLive 0 0) (repeat 0 64) (repeat 0 64) [] 0 max false [].
End Tmpl.
