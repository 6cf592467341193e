(** What Join, Join To, Merge and Pick give, index by index. Shapes, indices and [elt] are those of TransSpec; an array is its shape and its
    elements, an atom an array of rank 0. *)
From Coq Require Import List Arith ZArith.
Import ListNotations.
From Verif Require Import TransSpec JoinModel.
Open Scope nat_scope.
Definition valid_arr {A} (a : list nat * list A) : Prop := array (fst a) (snd a).
(** ** Join. With cells of shape t, an array is one cell (its shape is t) or a list of cells *)
Definition fits {A} (t : list nat) (a : list nat * list A) : Prop := fst a = t \/ exists l, fst a = l :: t.
Definition ncells {A} (t : list nat) (a : list nat * list A) : nat := if length (fst a) =? length t then 1 else hd 0 (fst a).
Definition cell {A} (t : list nat) (a : list nat * list A) (i : nat) (J : list nat) : option A :=
  if length (fst a) =? length t then elt (fst a) (snd a) J else elt (fst a) (snd a) (i :: J).
Definition count {A} (t : list nat) (xs : list (list nat * list A)) : nat := fold_right (fun a n => ncells t a + n) 0 xs.
(** every item is a cell or a list of cells, and some item is a list of cells *)
Definition joinable {A} (t : list nat) (xs : list (list nat * list A)) : Prop :=
  Forall (fits t) xs /\ Exists (fun a => exists l, fst a = l :: t) xs.
(** the cells of all the items one after another *)
Definition joined {A} (t : list nat) (xs : list (list nat * list A)) (r : list nat * list A) : Prop :=
  fst r = count t xs :: t /\ valid_arr r /\
  forall pre a post i J, xs = pre ++ a :: post -> i < ncells t a -> inb t J -> elt (fst r) (snd r) (count t pre + i :: J) = cell t a i J.
(** ** Merge: all items have the same shape s; the element at index I followed by J is the element at J of the item at I *)
Definition merged {A} (osh : list nat) (xs : list (list nat * list A)) (s : list nat) (r : list nat * list A) : Prop :=
  fst r = osh ++ s /\ valid_arr r /\
  forall I J a, inb osh I -> inb s J -> elt osh xs I = Some a -> elt (fst r) (snd r) (I ++ J) = elt s (snd a) J.
(** ** Pick *)
(** z selects position i of an axis of length n: from the start, or if negative from the end *)
Definition selects (n : nat) (z : Z) (i : nat) : Prop := (Z.of_nat i = if (z <? 0)%Z then z + Z.of_nat n else z)%Z /\ i < n.
Inductive selects_all : list nat -> list Z -> list nat -> Prop :=
| sel_nil : selects_all [] [] []
| sel_cons n z i sh zs I : selects n z i -> selects_all sh zs I -> selects_all (n :: sh) (z :: zs) (i :: I).
Definition is_array (w : pw) : Prop := match w with PArr _ _ _ => True | _ => False end.
Inductive picks {A} (x : list nat * list A) : pw -> pr A -> Prop :=
| picks_num z i a : selects_all (fst x) [z] [i] -> elt (fst x) (snd x) [i] = Some a -> picks x (PNum (Some z)) (RElt a)
| picks_idx e zs I a : selects_all (fst x) zs I -> elt (fst x) (snd x) I = Some a ->
    picks x (PArr e [length zs] (map (fun z => PNum (Some z)) zs)) (RElt a)
| picks_arr e sh ws rs : ws <> [] -> Forall is_array ws -> picks_each x ws rs -> picks x (PArr e sh ws) (RArr sh rs)
with picks_each {A} (x : list nat * list A) : list pw -> list (pr A) -> Prop :=
| each_nil : picks_each x [] []
| each_cons w r ws rs : picks x w r -> picks_each x ws rs -> picks_each x (w :: ws) (r :: rs).
(** the arrays in 𝕨 have as many elements as their shape says, storage for numbers has only numbers, and arrays without elements are lists *)
Inductive wf_pw : pw -> Prop :=
| wf_num z : wf_pw (PNum z)
| wf_atm : wf_pw PAtm
| wf_arr e sh ws : Forall wf_pw ws -> length ws = size sh -> (e = TNum -> Forall (fun w => isNum w = true) ws) -> (ws = [] -> sh = [0]) ->
    wf_pw (PArr e sh ws).
