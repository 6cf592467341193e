(** C15: comparison is a total order on plain data, consistent with equality of data. *)
From Verif Require Import Base TagModel TagSpec TagProof NumSpec NumProof ArrSpec DataSpec SqueezeModel SqueezeSpec SqueezeProof CompareModel CompareSpec CompareProof CompareProof2.

(** Comparing plain data never fails and gives -1, 0 or 1. *)
Theorem C15_compare_defined w x : plain_data w -> plain_data x -> exists c, compare w x = Ok c /\ -1 <= c <= 1.
Proof. intros W X. apply plain_G in W, X. exists (cmp w x). split; [apply compare_def|apply cmp_range]; auto. Qed.
Print Assumptions C15_compare_defined.

Theorem C15_compare_refl w : plain_data w -> compare w w = Ok 0.
Proof. intros W. apply plain_G in W. rewrite (compare_def w w W W). f_equal. apply cmp_0; auto. Qed.
Print Assumptions C15_compare_refl.

Theorem C15_compare_antisym w x c : plain_data w -> plain_data x -> compare w x = Ok c -> compare x w = Ok (- c).
Proof.
  intros W X H. apply plain_G in W, X. rewrite (compare_def x w X W). rewrite (compare_def w x W X) in H. rewrite (cmp_antisym w x W X). congruence.
Qed.
Print Assumptions C15_compare_antisym.

Theorem C15_compare_trans x y z a b : plain_data x -> plain_data y -> plain_data z ->
  compare x y = Ok a -> a <= 0 -> compare y z = Ok b -> b <= 0 ->
  exists c, compare x z = Ok c /\ c <= 0 /\ (c = 0 -> a = 0 /\ b = 0).
Proof.
  intros X Y Z H1 A H2 B. apply plain_G in X, Y, Z. rewrite (compare_def x y X Y) in H1. rewrite (compare_def y z Y Z) in H2.
  assert (E1 : cmp x y = a) by congruence. assert (E2 : cmp y z = b) by congruence. exists (cmp x z). split; [apply compare_def; auto|].
  assert (C : cmp x z <= 0) by (apply (cmp_trans _ x y z (le_n _)); auto; lia). split; auto. intros C0.
  assert (Q : cmp z x <= 0) by (rewrite (cmp_antisym x z); auto; lia).
  assert (Q1 := cmp_trans _ y z x (le_n _) Y Z X ltac:(lia) Q). assert (Q2 := cmp_trans _ z x y (le_n _) Z X Y Q ltac:(lia)).
  rewrite (cmp_antisym x y X Y) in Q1. rewrite (cmp_antisym y z Y Z) in Q2. lia.
Qed.
Print Assumptions C15_compare_trans.

(** The result 0 says exactly that the two values are the same data: same shapes, numerically equal numbers, same characters. *)
Theorem C15_compare_zero_iff_same w x : plain_data w -> plain_data x -> (compare w x = Ok 0 <-> gden w = gden x).
Proof.
  intros W X. apply plain_G in W, X. rewrite (compare_def w x W X). rewrite <- cmp_0 by auto. split; congruence.
Qed.
Print Assumptions C15_compare_zero_iff_same.

(** Atoms: numbers in numeric order, then not-a-number, then characters by code point. *)
Definition atom_before (u v : value) : Prop :=
  match u, v with
  | VNum a, VNum b => a < b
  | VNum _, (VNaN | VChr _) => True
  | VNaN, VChr _ => True
  | VChr a, VChr b => a < b
  | _, _ => False
  end.
Lemma den_k w : okatom w -> den w = if isC32 w then VChr (o2cG w) else if is_nan w then VNaN else VNum (fval w).
Proof.
  intros A. assert (W := den_word w (proj1 A)). destruct (okatom_cases w A) as [[F C]|[F C]]; rewrite C.
  - destruct (den_cases w W) as [(X&_&D)|[(X&_&D)|(X&_&D)]]; try congruence. unfold den in *. destruct (is_nan w); auto. destruct (_ <=? _); auto. destruct D as [D|[x D]]; destruct (_ =? _); discriminate.
  - destruct A as [[W' R] _]. destruct (den_cases w W) as [(X&Y&Q)|[(X&Y&Q)|(X&Y&Q)]]; try congruence. assert (L := R _ Q). destruct (o2c_chr w _ W Q L) as [_ O]. rewrite O. exact Q.
Qed.
Theorem C15_compare_atoms w x : plain_data (GAtom w) -> plain_data (GAtom x) -> (compare (GAtom w) (GAtom x) = Ok (-1) <-> atom_before (den w) (den x)).
Proof.
  intros W X. apply plain_G in W, X. apply G_atom_inv in W, X. rewrite (atom_def w (GAtom x)) by (auto; constructor; apply X). rewrite E1 by auto.
  assert (Q : catom w x = -1 <-> (k1 w < k1 x \/ k1 w = k1 x /\ k2 w < k2 x)).
  { assert (R := catom_range w x). assert (L := catom_le x w). rewrite (catom_antisym w x) in L. lia. }
  assert (E : Ok (catom w x) = Ok (-1) <-> catom w x = -1) by (split; congruence). rewrite E, Q. clear Q E.
  rewrite (den_k w W), (den_k x X). unfold k1, k2. destruct (isC32 w), (isC32 x), (is_nan w), (is_nan x); cbn [atom_before]; lia.
Qed.
Print Assumptions C15_compare_atoms.

(** Lists compare lexicographically by their elements, a proper prefix first. *)
Theorem C15_compare_lists xs ys : plain_data (GArr [Z.of_nat (length xs)] xs) -> plain_data (GArr [Z.of_nat (length ys)] ys) ->
  compare (GArr [Z.of_nat (length xs)] xs) (GArr [Z.of_nat (length ys)] ys) = Ok (lexc (fun a b => match compare a b with Ok c => c | _ => 0 end) xs ys).
Proof.
  intros X Y. apply plain_G in X, Y. rewrite (compare_def _ _ X Y). f_equal. rewrite E5' by auto. change (fun a b : gobj => match compare a b with Ok c => c | _ => 0 end) with cmp.
  destruct xs as [|a r], ys as [|b s]; cbn [empty]; try reflexivity.
  unfold tokens. cbn [rev app tk]. rewrite !firstn_all2 by (cbn [length]; lia). cbn [lexc tokcmp].
  destruct (Z.eqb_spec (cmp a b) 0); auto. generalize (Z.of_nat (length (a :: r))) (Z.of_nat (length (b :: s))). clear. intros _ _.
  revert s. induction r as [|x r IH]; intros [|y s]; cbn [map app lexc tokcmp]; auto; try reflexivity. rewrite IH. reflexivity.
Qed.
Print Assumptions C15_compare_lists.

(** Hypotheses are met: a nested value with a list, a table, numbers and characters. *)
Definition ex_list : gobj := GArr [3] [GAtom (of_int 1); GAtom (of_int (-5)); GArr [2; 1] [GAtom (m_c32 97); GAtom (of_int 7)]].
Definition ex_list2 : gobj := GArr [3] [GAtom (of_int 1); GAtom (of_int (-5)); GArr [1; 2] [GAtom (m_c32 97); GAtom (of_int 7)]].
Lemma of_int_G n : Z.abs n < 2^53 -> G (GAtom (of_int n)).
Proof.
  intros N. destruct (of_int_den n N) as (W&D&S). assert (R : raw_ok EB (of_int n)) by (split; [auto|intros c E; rewrite D in E; discriminate]).
  constructor; auto. destruct (den_cases _ W) as [(A&_&_)|[(_&_&C)|(_&_&C)]]; auto; rewrite D in C; discriminate.
Qed.
Lemma chr_G n : 0 <= n < 1114112 -> G (GAtom (m_c32 n)).
Proof.
  intros N. destruct (den_c32 n N) as (W&D). assert (R : raw_ok EB (m_c32 n)) by (split; [auto|intros c E; rewrite D in E; injection E; lia]).
  constructor; auto. destruct (den_cases _ W) as [(A&_&_)|[(_&A&_)|(_&_&C)]]; auto; rewrite D in C; discriminate.
Qed.
Example C15_example_plain : plain_data ex_list /\ plain_data ex_list2.
Proof.
  split; apply plain_G; unfold ex_list, ex_list2; repeat first [apply of_int_G; lia | apply chr_G; lia | constructor; lia | apply G_arr | apply Forall_cons | apply Forall_nil | reflexivity | lia].
Qed.
(** The 1-by-2 table against the 2-by-1 table: the trailing axis is compared first. *)
Example C15_example_compare : compare ex_list ex_list2 = Ok (-1) /\ compare ex_list2 ex_list = Ok 1 /\ compare (GAtom (m_c32 0)) ex_list = Ok 1 /\ compare (GAtom (of_int 1)) ex_list = Ok (-1).
Proof. vm_compute. auto. Qed.
(** Other atoms (functions) cannot be compared: an error, not an arbitrary order. *)
Theorem C15_compare_other_errors w x : word w -> word x -> den w = VOth w -> is_number (den x) \/ is_char (den x) \/ den x = VOth x -> compare (GAtom w) (GAtom x) = Err /\ compare (GAtom x) (GAtom w) = Err.
Proof.
  intros W X D _. cbn [compare cmp_atom]. unfold cmp_atoms. destruct (den_cases w W) as [(_&_&C)|[(_&_&C)|(A&B&_)]].
  - rewrite D in C. destruct C as [C|[? C]]; discriminate. - congruence. - rewrite A, B, !andb_false_r. auto.
Qed.
Print Assumptions C15_compare_other_errors.
