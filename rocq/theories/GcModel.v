(** Model of the garbage collector: src/opt/gc.c, with the parts of src/h.h that decrement reference counts.
    The heap is the list of its blocks in the order of mm_forHeap (mm_buddyTemplate.c:118-129); a pointer is a position in that list.
    An object keeps its kind, reference count, mark bit (mmInfo&0x80) and the list of heap pointers it holds. For every type, visit and freeO go
    over the same pointers (read off the DEF_FREE / _visit pairs, e.g. core/harr.c:35-44, core/derv.c:5-8, vm.c:1085-1144); freeO of a custom
    object may run other code and that is not modelled, nor are memory-mapped files, the 32-bit width of the counter or the C stack depth. *)
From Verif Require Import Base.

(* t_empty; t_freed; t_shape, t_temp and t_talloc, which are never freed directly and hold no pointers; every other type *)
Inductive gkind : Type := GEmpty | GFreed | GSkip | GLive.
Record obj : Type := mkObj { o_kind : gkind; o_refc : Z; o_mark : bool; o_refs : list nat }.
Definition gheap : Type := list obj.

Definition set_kind (h : gheap) (x : nat) (k : gkind) : res gheap := do o <- rd h x; wr h x (mkObj k (o_refc o) (o_mark o) (o_refs o)).
Definition set_mark (h : gheap) (x : nat) (m : bool) : res gheap := do o <- rd h x; wr h x (mkObj (o_kind o) (o_refc o) m (o_refs o)).
Definition add_refc (h : gheap) (x : nat) (d : Z) : res gheap := do o <- rd h x; wr h x (mkObj (o_kind o) (o_refc o + d) (o_mark o) (o_refs o)).

(* gc.c:93-119 gc_onVisit, in the modes GC_DEC_REFC (d = -1) and GC_INC_REFC (d = 1), over the pointers of an object *)
Fixpoint visit_add (d : Z) (h : gheap) (l : list nat) : res gheap :=
  match l with [] => Ok h | y :: l => do h <- add_refc h y d; visit_add d h l end.
(* gc.c:93-119 gc_onVisit in the mode GC_MARK. Visiting a free block is fatal (load.c:675-682) *)
Fixpoint mark (n : nat) (h : gheap) (x : nat) : res gheap :=
  match n with
  | O => UB
  | S n =>
    do o <- rd h x;
    if o_mark o then Ok h else
    match o_kind o with
    | GEmpty | GFreed => UB
    | _ => do h <- set_mark h x true;
           (fix go (l : list nat) (h : gheap) : res gheap := match l with [] => Ok h | y :: l => do h <- mark n h y; go l h end) (o_refs o) h
    end
  end.
Fixpoint marks (n : nat) (h : gheap) (l : list nat) : res gheap :=
  match l with [] => Ok h | y :: l => do h <- mark n h y; marks n h l end.

(* mm_forHeap: f on every block that is not empty when reached *)
Fixpoint for_heap (f : gheap -> nat -> res gheap) (h : gheap) (l : list nat) : res gheap :=
  match l with
  | [] => Ok h
  | x :: l => do o <- rd h x; do h <- match o_kind o with GEmpty => Ok h | _ => f h x end; for_heap f h l
  end.
Definition all (h : gheap) : list nat := seq 0 (length h).
Definition fuel (h : gheap) : nat := S (length h).

(* h.h:643-655 dec, ptr_dec; h.h:641 value_free: freeO, then mm_free. For t_freed freeO does nothing (load.c:832-833); a t_empty object is a fatal error *)
Fixpoint value_free (n : nat) (h : gheap) (x : nat) : res gheap :=
  match n with
  | O => UB
  | S n =>
    do o <- rd h x;
    match o_kind o with
    | GEmpty => UB
    | GFreed => set_kind h x GEmpty
    | _ =>
      do h <- (fix go (l : list nat) (h : gheap) : res gheap :=
                 match l with
                 | [] => Ok h
                 | y :: l => do h <- add_refc h y (-1); do p <- rd h y; do h <- (if o_refc p =? 0 then value_free n h y else Ok h); go l h
                 end) (o_refs o) h;
      set_kind h x GEmpty
    end
  end.
Fixpoint decs (n : nat) (h : gheap) (l : list nat) : res gheap :=
  match l with
  | [] => Ok h
  | y :: l => do h <- add_refc h y (-1); do p <- rd h y; do h <- (if o_refc p =? 0 then value_free n h y else Ok h); decs n h l
  end.

(* gc.c:55-79 gc_tryFree *)
Definition try_free (h : gheap) (x : nat) : res gheap :=
  do o <- rd h x;
  if o_mark o then Ok h else
  match o_kind o with
  | GEmpty | GSkip => Ok h
  | GFreed => set_kind h x GEmpty
  | GLive =>
    do h <- set_kind h x GFreed;
    do h <- add_refc h x 1;
    do h <- decs (fuel h) h (o_refs o);
    do h <- add_refc h x (-1);
    do p <- rd h x;
    if o_refc p =? 0 then set_kind h x GEmpty else Ok h
  end.

(* gc.c:121-163: unmark; decrement along every pointer inside the heap; mark from every object left with a nonzero count; increment back *)
Definition unmark (h : gheap) : gheap := map (fun o => mkObj (o_kind o) (o_refc o) false (o_refs o)) h.
Definition visit_obj (d : Z) (h : gheap) (x : nat) : res gheap := do o <- rd h x; visit_add d h (o_refs o).
Definition mark_nonzero (h : gheap) (x : nat) : res gheap := do o <- rd h x; if o_refc o =? 0 then Ok h else mark (fuel h) h x.
(* mm_buddyTemplate.c:152: what is left as t_freed becomes free when merging *)
Definition merge_freed (h : gheap) : gheap := map (fun o => match o_kind o with GFreed => mkObj GEmpty (o_refc o) (o_mark o) (o_refs o) | _ => o end) h.
(* gc.c:165-181 gc_run *)
Definition gc_run (toplevel : bool) (roots : list nat) (h : gheap) : res gheap :=
  do h <- (if toplevel then Ok (unmark h) else
    do h <- for_heap (visit_obj (-1)) (unmark h) (all h);
    do h <- for_heap mark_nonzero h (all h);
    for_heap (visit_obj 1) h (all h));
  do h <- marks (fuel h) h roots;
  do h <- for_heap try_free h (all h);
  Ok (merge_freed h).
