(** What Indices and Replicate are. *)
From Verif Require Import Base BitsModel BitsSpec SqueezeModel SlashModel SlashModel2.
From Coq Require Import List.

(** the i-th value of xs, as often as the i-th count says, in order *)
Definition replicate {A} (cs : list Z) (xs : list A) : list A := concat (map (fun cx => repeat (snd cx) (Z.to_nat (fst cx))) (combine cs xs)).
(** 0, 1, .. n-1 *)
Definition iota (n : nat) : list Z := map Z.of_nat (seq 0 n).
Definition indices (cs : list Z) : list Z := replicate cs (iota (length cs)).
Definition total (cs : list Z) : Z := fold_right Z.add 0 cs.

(** the elements of a stored list of counts; None is anything but a whole number of at most 64 bits *)
Definition counts (c : cnts) : list (option Z) :=
  match c with CB src n => map (fun b : bool => Some (if b then 1 else 0)) (bits_of src 0 n) | CI _ l => map Some l | CF l => l end.
(** stored as its type requires *)
Definition cnts_ok (c : cnts) : Prop :=
  match c with
  | CB src n => words src /\ 0 <= n <= 64 * Z.of_nat (length src)
  | CI k l => (k = 8 \/ k = 16 \/ k = 32) /\ Forall (fun z => - 2 ^ (k - 1) <= z < 2 ^ (k - 1)) l
  | CF l => Forall (fun e => match e with Some z => - 2 ^ 64 < z < 2 ^ 64 | None => True end) l
  end.
Definition naturals (l : list (option Z)) : Prop := Forall (fun e => exists z, e = Some z /\ 0 <= z) l.
Definition nats_of (l : list (option Z)) : list Z := map (fun e => match e with Some z => z | None => 0 end) l.
