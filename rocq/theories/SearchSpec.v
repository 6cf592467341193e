(** Specification of searching, on data. *)
From Verif Require Import Base BitsSpec TagSpec NumSpec ArrSpec DataSpec MatchModel MatchSpec HashModel HashSpec.

(** Two values are the same for the search functions if they match: equal data, without NaN. *)
Definition same (a b : data) : Prop := a = b /\ nan_free a.
(** [i] is the position of the first element of [W] that is the same as [d], or the length of [W] if there is none. *)
Definition first_at (W : list data) (d : data) (i : Z) : Prop :=
  (forall k d', nth_error W k = Some d' -> Z.of_nat k < i -> ~ same d' d) /\
  (i = Z.of_nat (length W) \/ exists k d', i = Z.of_nat k /\ nth_error W k = Some d' /\ same d' d).
(** Progressive: the same among positions that were not results before. *)
Definition first_free (W : list data) (used : list Z) (d : data) (i : Z) : Prop :=
  (forall k d', nth_error W k = Some d' -> Z.of_nat k < i -> same d' d -> In (Z.of_nat k) used) /\
  (i = Z.of_nat (length W) \/ exists k d', i = Z.of_nat k /\ nth_error W k = Some d' /\ same d' d /\ ~ In i used).
Definition progressive (W X : list data) (r : list Z) : Prop :=
  length r = length X /\ forall j d i, nth_error X j = Some d -> nth_error r j = Some i -> first_free W (firstn j r) d i.
Definition member (W : list data) (d : data) (b : bool) : Prop := b = true <-> exists d', In d' W /\ same d' d.

(** The elements of an array, as data *)
Definition els (d : data) : list data := match d with DArr _ l => l | DAtom _ => [d] end.
Definition rank1 (d : data) : Prop := exists n l, d = DArr [n] l.
(** A stored value that is plain data and has true flags; bit arrays have a readable word at the position of their end. *)
Definition padded (o : hobj) : Prop := match o with HBits _ sh ws => prod sh / 64 < Z.of_nat (length ws) | _ => True end.
Definition sval (o : hobj) : Prop := odata (erase o) /\ hflags_ok o /\ padded o.
(** The mixing functions give 64-bit words, and the last secret word is not zero. *)
Definition mixers (wyhash64 : Z -> Z -> Z) (wyhash : list Z -> Z -> list Z -> Z) (s3 : Z) : Prop :=
  (forall a b, 0 <= wyhash64 a b) /\ (forall l a b, 0 <= wyhash l a b) /\ 0 < s3 < 2 ^ 64 - 1.
