(** What a user relies on from •rand and •MakeRand: the results are valid for every state of the generator. *)
From Verif Require Import Base RandModel.
From Coq Require Import Permutation Sorting.Sorted.

(** a state of the generator *)
Definition state (s : Z) : Prop := 0 <= s < 2^64.
(** the numbers 0, 1, …, n-1 *)
Definition naturals (n : Z) : list Z := map Z.of_nat (seq 0 (Z.to_nat n)).
(** every number of l is a natural less than n *)
Definition below (n : Z) (l : list Z) : Prop := Forall (fun v => 0 <= v < n) l.
Definition ascending (l : list Z) : Prop := StronglySorted Z.lt l.
(** a result of Range with limit n: a natural less than n; for n=0 a number from 0 to less than 1, in units of 2^-52 *)
Definition valid (n : Z) (v : number) : Prop := match v with Whole z => 0 < n /\ 0 <= z < n | Frac z => n = 0 /\ 0 <= z < 2^52 end.
Definition product (w : list Z) : Z := fold_right Z.mul 1 w.
(** the memory for am results less than n, packed in elements of 1, 8, 16 or 32 bits, is less than 2^32 bytes, also when rounded up to words *)
Definition bits_for (n : Z) : Z := if n =? 2 then 1 else if n <=? 128 then 8 else if n <=? 32768 then 16 else 32.
Definition packed (am n : Z) : Prop := am + (64 / bits_for n - 1) < 2^32 /\ (am * bits_for n + 63) / 64 * 8 < 2^32.
(** results of 8 bytes: an array larger than this is refused *)
Definition doubles (n : Z) : Prop := n = 0 \/ 2^31 < n.
Definition small (am : Z) : Prop := am <= 2^28 - 1000.

(** the arguments for which a call gives a result. The results are 32-bit integers for Deal and Subset *)
Definition allowed (c : call) : Prop :=
  match c with
  | Range1 x => 0 <= x <= 2^53
  | Range2 w x => Forall (fun c => 0 <= c < 2^32) w /\ (length w <= 255)%nat /\ 0 <= x < 2^53 /\ product w < 2^32 /\ (doubles x -> small (product w)) /\ (~ doubles x -> x <> 1 -> packed (product w) x)
  | Deal1 x => 0 <= x < 2^31
  | Deal2 w x | Subset2 w x => 0 <= w <= x /\ x < 2^31
  end.
(** memory for the result before it is written: of any content *)
Definition memory (c : call) (junk : list Z) : Prop :=
  match c with
  | Range2 w x => Forall (fun v => 0 <= v < 2^64) junk /\ product w * 32 + 64 <= 64 * Z.of_nat (length junk)
  | Deal1 x | Deal2 _ x => Z.of_nat (length junk) = x
  | _ => True
  end.
Definition good (c : call) (a : answer) : Prop :=
  match c, a with
  | Range1 x, Number v => valid x v
  | Range2 w x, Array sh l => sh = w /\ Z.of_nat (length l) = product w /\ Forall (valid x) l
  | Deal1 x, List l => Permutation l (naturals x)
  | Deal2 w x, List l => Z.of_nat (length l) = w /\ NoDup l /\ below x l
  | Subset2 w x, List l => Z.of_nat (length l) = w /\ ascending l /\ below x l
  | _, _ => False
  end.
(** arguments that are refused *)
Definition refused (c : call) : Prop :=
  match c with
  | Range1 x => x < 0
  | Range2 w x => Forall (fun c => 0 <= c < 2^32) w /\ (2^32 <= product w \/ x < 0 \/ 2^53 <= x)
  | Deal1 x => x < 0
  | Deal2 w x => x < 0 \/ w < 0 \/ x < w
  | Subset2 w x => x < 0 \/ w < 0 \/ x < w
  end.
