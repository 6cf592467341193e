(** Specification of representation squeezing. *)
From Verif Require Import Base TagSpec NumSpec ArrSpec SqueezeModel.
From Coq Require Export Sorted.

(** (i32)x gives the truncation of every double whose truncation is an i32; elsewhere it gives some i32. *)
Definition cast_ok (cast : Z -> Z) : Prop := forall w, word w ->
  -2147483648 <= cast w <= 2147483647 /\
  (is_nan w = false -> -2147483648 <= ftrunc w <= 2147483647 -> cast w = ftrunc w).

(** The elements of an array as BQN values. *)
Definition values (a : arr) : list value := map (vof (a_et a)) (a_els a).
Definition arr_ok (a : arr) : Prop := Forall (raw_ok (a_et a)) (a_els a).
(** The flags an array carries are true. *)
Definition flags_ok (a : arr) : Prop :=
  (a_sq a = true -> a_els a <> [] -> smallest (a_et a) (values a)) /\
  (a_asc a = true -> elt_no (a_et a) <= 3 -> StronglySorted Z.le (a_els a)) /\
  (a_dsc a = true -> elt_no (a_et a) <= 3 -> StronglySorted Z.ge (a_els a)).
