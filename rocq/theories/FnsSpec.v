(** What Range, Windows, Shape and Find give, as functions of an index. Shapes, indices, [elt], [inb] and [array] are those of TransSpec. *)
From Verif Require Import Base TransSpec.
Open Scope nat_scope.
(** Range of a list of lengths: an array of that shape, with the index of each position at that position *)
Definition all_indices (sh : list nat) (r : list (list Z)) : Prop := array sh r /\ forall I, inb sh I -> elt sh r I = Some (map Z.of_nat I).
(** sum of two indices *)
Fixpoint plus (a b : list nat) : list nat := match a, b with i :: a, j :: b => i + j :: plus a b | _, _ => [] end.
(** Windows of lengths [ws] along the first axes of 𝕩: an axis of length h has h+1-m windows of length m *)
Definition window_starts (ws xsh : list nat) : list nat := map (fun '(h, m) => h + 1 - m) (combine xsh ws).
Definition window_shape (ws xsh : list nat) : list nat := window_starts ws xsh ++ ws ++ skipn (length ws) xsh.
(** first where each window starts, then the position in the window, then the other axes of 𝕩 *)
Definition windows_of {A} (ws xsh : list nat) (x : list A) (r : list A) : Prop :=
  array (window_shape ws xsh) r /\
  forall P Q R, inb (window_starts ws xsh) P -> inb ws Q -> inb (skipn (length ws) xsh) R -> elt (window_shape ws xsh) r (P ++ Q ++ R) = elt xsh x (plus P Q ++ R).
(** every window fits in its axis, or is one longer *)
Definition fit (ws xsh : list nat) : Prop := length ws <= length xsh /\ forall a, a < length ws -> nth a ws 0 <= nth a xsh 0 + 1.
(** number of places a piece of length m fits in an axis of length h *)
Definition places (h m : nat) : nat := h + 1 - m.
(** Find: along the last axes of 𝕩, one position for every place 𝕨 could be at *)
Definition find_shape (wsh xsh : list nat) : list nat :=
  let d := length xsh - length wsh in firstn d xsh ++ map (fun '(h, m) => places h m) (combine (skipn d xsh) wsh).
(** 1 exactly where all elements of 𝕨 are equal to those of 𝕩 from there *)
Definition found {A} (wsh : list nat) (w : list A) (xsh : list nat) (x : list A) (r : list bool) : Prop :=
  array (find_shape wsh xsh) r /\
  forall I J, length I + length wsh = length xsh -> inb (find_shape wsh xsh) (I ++ J) ->
    exists b, elt (find_shape wsh xsh) r (I ++ J) = Some b /\ (b = true <-> forall K, inb wsh K -> elt xsh x (I ++ plus J K) = elt wsh w K).
