(** What a user of the allocator relies on, in terms of the addresses handed out. *)
From Verif Require Import Base BuddyModel.
From Coq Require Import Permutation.

(** ranges [a, a+n) and [b, b+k) share no byte *)
Definition apart (x y : Z * Z) : Prop := fst x + snd x <= fst y \/ fst y + snd y <= fst x.
(** pairwise, by position *)
Definition all_apart (l : list (Z * Z)) : Prop := ForallOrdPairs apart l.
Definition inside (x c : Z * Z) : Prop := fst c <= fst x /\ fst x + snd x <= fst c + snd c.
Definition total (l : list (Z * Z)) : Z := fold_right (fun x s => snd x + s) 0 l.

(** size of the block that serves a request: MUL times the smallest sufficient power of two *)
Definition is_block_size (MUL req sz : Z) : Prop := exists k, 0 <= k /\ sz = MUL * 2 ^ k /\ req <= sz /\ (forall j, 0 <= j -> req <= MUL * 2 ^ j -> k <= j).

(** the addresses reached from a bucket through the next pointers *)
Fixpoint chain (m : Z -> hdr) (head : Z) (l : list Z) : Prop :=
  match l with [] => head = 0 | a :: l => head = a /\ a <> 0 /\ chain m (h_next (m a)) l end.

(** [bl] lists the block (address, size) that serves each live object (address, requested size), in order *)
Definition blocks_of (MUL : Z) (objs bl : list (Z * Z)) : Prop := Forall2 (fun o b => fst b = fst o /\ is_block_size MUL (snd o) (snd b)) objs bl.

(** [fl] is the content of all free lists: (address, bucket), each list being the chain of next pointers from its head *)
Definition free_blocks (h : heap) (fl : list (Z * nat)) : Prop :=
  Forall (fun x => (snd x < 64)%nat) fl /\
  forall b, (b < 64)%nat -> exists l, chain (mem h) (nth b (bkts h) 0) l /\ Permutation l (map fst (filter (fun x => (snd x =? b)%nat) fl)).

(** the heap differs only in that some objects are gone; no byte of a remaining object has changed and no memory was obtained *)
Definition only_collected (h h' : heap) : Prop :=
  chunks h' = chunks h /\ heapAlloc h' = heapAlloc h /\ heapMax h' = heapMax h /\ incl (live h') (live h) /\
  (forall a n, In (a, n) (live h') -> forall x, a <= x < a + n -> mem h' x = mem h x).
