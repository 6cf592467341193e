(** What •bit's modifiers promise: arrays as bit strings. *)
From Verif Require Import Base BitsSpec SqueezeModel WidenModel BitopModel.

(** the i-th W-bit group of the data, as a number from 0 to 2^W-1 *)
Definition field (W : Z) (m : list Z) (i : Z) : Z := (memZ m / 2^(W * i)) mod 2^W.
(** bit p of the data *)
Definition bitat (m : list Z) (p : Z) : bool := Z.odd (memZ m / 2^p).

Definition size (sh : list Z) : Z := fold_right Z.mul 1 sh.
Definition total (w : Z) (x : barr) : Z := size (b_sh x) * w.          (* bits of data of an array with elements of w bits *)

(** an array of elements of w bits: as many elements as its shape says, a count that fits 32 bits, and memory for all of them *)
Definition wf (w : Z) (x : barr) : Prop :=
  Forall (fun e => 0 <= e < 2^32) (b_sh x) /\ b_ia x = size (b_sh x) /\ b_ia x < 2^32 /\ words (b_mem x) /\ total w x <= 64 * Z.of_nat (length (b_mem x)).

Definition pow2 (n : Z) : Prop := exists k, 0 <= k < 32 /\ n = 2^k.
Definition width (n : Z) : Prop := n = 1 \/ n = 8 \/ n = 16 \/ n = 32 \/ n = 64.
Definition lanew (n : Z) : Prop := n = 8 \/ n = 16 \/ n = 32 \/ n = 64.

(** the k widths meant by the operand: the last one given also stands for those left out *)
Definition given (k : nat) (f t : list Z) : Prop :=
  (1 <= length f <= k)%nat /\ Forall pow2 f /\ length t = k /\ forall i, (i < k)%nat -> nth i t 0 = nth (Nat.min i (length f - 1)) f 0.

(** bits in a 1-cell: an atom (or unit) is one element *)
Definition rowbits (w : Z) (sh : list Z) : Z := match sh with [] => w | _ => w * last sh 0 end.
(** the shape of the result: the last axis holds the same bits in elements of another width *)
Definition reshaped (sh : list Z) (xw rw : Z) : list Z := removelast sh ++ [last sh 0 * xw / rw].
(** the widths and the lengths allow it *)
Definition fitting (ow rw xw : Z) (sh : list Z) : Prop :=
  sh <> [] /\ (ow | last sh 0 * xw) /\ (rw | last sh 0 * xw) /\ last sh 0 * xw / rw < 2^32 - 1 /\ width xw /\ width rw.

(** the result r holds as many elements of rw bits as its shape says *)
Definition sound (rw : Z) (r : barr) : Prop := b_ia r = size (b_sh r) /\ b_ia r * rw <= 64 * Z.of_nat (length (b_mem r)).

(** which argument, if any, is a single group of the operation width to be combined with all of the other *)
Inductive mode : Type := Each | ExtW | ExtX.
Definition alike (ww xw : Z) (wsh xsh : list Z) : Prop := length wsh = length xsh /\ rowbits ww wsh = rowbits xw xsh.
Definition single (ow w : Z) (sh : list Z) : Prop := (length sh <= 1)%nat /\ rowbits w sh = ow.
Definition moded (m : mode) (ow ww xw : Z) (wsh xsh : list Z) : Prop :=
  match m with
  | Each => alike ww xw wsh xsh /\ xsh <> [] /\ removelast wsh = removelast xsh
  | ExtW => ~ alike ww xw wsh xsh /\ single ow ww wsh /\ xsh <> []
  | ExtX => ~ alike ww xw wsh xsh /\ ~ (single ow ww wsh /\ xsh <> []) /\ single ow xw xsh /\ wsh <> []
  end.
Definition wpos (m : mode) (i : Z) : Z := match m with ExtW => 0 | _ => i end.
Definition xpos (m : mode) (i : Z) : Z := match m with ExtX => 0 | _ => i end.
Definition wbit (m : mode) (ow p : Z) : Z := match m with ExtW => p mod ow | _ => p end.
Definition xbit (m : mode) (ow p : Z) : Z := match m with ExtX => p mod ow | _ => p end.

Definition bool_op (op : op2) : option (bool -> bool -> bool) :=
  match op with And_ => Some andb | Or_ => Some orb | Xor_ => Some xorb | _ => None end.
Definition num_op (op : op2) : option (Z -> Z -> Z) :=
  match op with Add_ => Some Z.add | Sub_ => Some Z.sub | Mul_ => Some Z.mul | _ => None end.
(** operation widths allowed *)
Definition opw (op : op2) (m : mode) (ow : Z) : Prop :=
  match num_op op with Some _ => lanew ow | None => match m with Each => True | _ => ow <= 64 end end.

(** what _not and _neg do to data of n bits *)
Definition unary (op : op1) (ow n : Z) (x r : list Z) : Prop :=
  match op with
  | Not_ => forall p, 0 <= p < n -> bitat r p = negb (bitat x p)
  | Neg_ => forall i, 0 <= i < n / ow -> field ow r i = (- field ow x i) mod 2^ow
  end.

(** the argument that is not extended, and the other one *)
Definition base {A} (m : mode) (w x : A) : A := match m with ExtX => w | _ => x end.
Definition other {A} (m : mode) (w x : A) : A := match m with ExtX => x | _ => w end.
(** what the operations with two arguments do: the logical ones to every bit, the arithmetic ones to every group of ow bits modulo 2^ow *)
Definition combined (op : op2) (m : mode) (ow n : Z) (w x r : list Z) : Prop :=
  (forall g, bool_op op = Some g -> forall p, 0 <= p < n -> bitat r p = g (bitat w (wbit m ow p)) (bitat x (xbit m ow p))) /\
  (forall g, num_op op = Some g -> forall i, 0 <= i < n / ow -> field ow r i = (g (field ow w (wpos m i)) (field ow x (xpos m i))) mod 2^ow).
(** the products of 32- and 64-bit groups taken as signed numbers stay in the range of those *)
Definition signed (W v : Z) : Z := if v <? 2^(W-1) then v else v - 2^W.
Definition prod_fits (W a b : Z) : Prop := - 2^(W-1) <= signed W a * signed W b < 2^(W-1).
Definition products_fit (op : op2) (m : mode) (ow n : Z) (w x : list Z) : Prop :=
  op = Mul_ -> 32 <= ow -> forall i, 0 <= i < n / ow -> prod_fits ow (field ow w (wpos m i)) (field ow x (xpos m i)).

(** widths of •bit._cast: a number, or a width with a type letter: characters and integers (c, i), bits (u), floats (f) *)
Definition castable (e : ctype) (s : Z) : Prop :=
  match e with
  | CNum n => s = n /\ width s
  | CTyped n t => s = n /\ ((t = 99 \/ t = 105) /\ (s = 8 \/ s = 16 \/ s = 32) \/ t = 117 /\ s = 1 \/ t = 102 /\ s = 64)
  end.
