(** What Cells and Rank do. Shapes, indices, [elt] and [array] are those of TransSpec; [calls], [arr_of] and [longer] those of MapSpec; [merged] that of
    JoinSpec: the results, all of one shape, become the cells of the result. *)
From Coq Require Import List Arith ZArith.
Import ListNotations.
From Verif Require Import Base TransSpec JoinSpec MapModel MapSpec CellsModel.
Open Scope nat_scope.
(** ** The rank operand *)
(** a number of axes counted from the last if not negative, else from the first; at most as many as there are *)
Definition cell_axes (q : wnum) (r : nat) : nat :=
  match q with
  | Whole z => if (z <? 0)%Z then Z.to_nat (Z.of_nat r + z) else Nat.min r (Z.to_nat z)
  | PInf => r
  | _ => 0
  end.
Definition is_whole (q : wnum) : Prop := match q with Whole _ | PInf | NInf => True | _ => False end.
(** 𝕘 is a number for all arguments; a list of one number; or of the ranks of 𝕨 and 𝕩; or of those of a sole 𝕩, of 𝕨 and of 𝕩 *)
Inductive gives : gval -> wnum -> wnum -> wnum -> Prop :=
| gives_num q : is_whole q -> gives (GNum q) q q q
| gives_1 q : is_whole q -> gives (GArr [q]) q q q
| gives_2 a b : is_whole a -> is_whole b -> gives (GArr [a; b]) b a b
| gives_3 m a b : is_whole m -> is_whole a -> is_whole b -> gives (GArr [m; a; b]) m a b.
(** ** Cells *)
(** the axes before the cells *)
Definition lead {V} (k : nat) (x : arg V) : list nat := firstn k (fst (arr_of x)).
(** c is the cell of x at index I of its first k axes; with k = 0 it is x itself *)
Definition cell_at {V} (k : nat) (x : arg V) (I : list nat) (c : arg V) : Prop :=
  let (sh, d) := arr_of x in
  match k with
  | O => c = x
  | _ => exists cd, c = Ar (skipn k sh) cd /\ array (skipn k sh) cd /\ forall J, inb (skipn k sh) J -> elt (skipn k sh) cd J = elt sh d (I ++ J)
  end.
Definition cells_of {V} (k : nat) (x : arg V) (cs : list (arg V)) : Prop :=
  array (lead k x) cs /\ forall I, inb (lead k x) I -> exists c, elt (lead k x) cs I = Some c /\ cell_at k x I c.
(** the cells of w and x at the same index, where one of them may have more axes before its cells than the other *)
Definition cell_pairs {V} (j k : nat) (w x : arg V) (ps : list (arg V * arg V)) : Prop :=
  let f := longer (lead j w) (lead k x) in
  array f ps /\ forall I, inb f I -> exists a b, elt f ps I = Some (a, b) /\ cell_at j w (firstn j I) a /\ cell_at k x (firstn k I) b.
(** the results of the calls are the cells of the result: they have the same shape, and the result is not too large, or there is an error *)
Definition fits_frame {V} (amax : Z) (frame : list nat) (rs : list (arg V)) (t : list nat) : Prop :=
  Forall (fun r => fst (arr_of r) = t) rs /\ length frame + length t <= 255 /\ (Z.of_nat (size frame) * Z.of_nat (size t) <= amax)%Z.
Definition placed {V S} (amax : Z) (frame : list nat) (rs : res (list (arg V) * S)) (out : res ((list nat * list V) * S)) : Prop :=
  match rs with
  | Ok (rs, s) => (exists t r, fits_frame amax frame rs t /\ out = Ok (r, s) /\ merged frame (map arr_of rs) t r) \/
                  ((forall t, ~ fits_frame amax frame rs t) /\ out = Err)
  | Err => out = Err
  | UB => out = UB
  end.
(** a value that can exist: as many elements as the shape says, and no more than the limits *)
Definition exists_val {V} (amax : Z) (x : arg V) : Prop := valid_arg x /\ length (fst (arr_of x)) <= 255 /\ (Z.of_nat (length (snd (arr_of x))) <= amax)%Z.
(** the operand, if it is not a primitive, gives values that can exist *)
Definition sound1 {V S} (amax : Z) (op : cop V S) : Prop :=
  match op with
  | CGen f => forall c s r s', exists_val amax c -> f c s = Ok (r, s') -> exists_val amax r
  | CConst v => exists_val amax v
  | _ => True
  end.
Definition sound2 {V S} (amax : Z) (op : cop2 V S) : Prop :=
  match op with
  | CGen2 f => forall w x s r s', exists_val amax w -> exists_val amax x -> f w x s = Ok (r, s') -> exists_val amax r
  | CConst2 v => exists_val amax v
  | _ => True
  end.
(** there are cells, and fewer than 2^32 *)
Definition some_cells (frame : list nat) : Prop := (0 < Z.of_nat (size frame) < 2 ^ 32)%Z.
