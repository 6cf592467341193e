(** C22: Replicate. C38: sizes of its results. *)
From Verif Require Import Base ListLib BitsModel BitsSpec BitsProof BitsProof2 SqueezeModel SqueezeProof WidenModel SlashModel SlashModel2 SlashModel3 SlashModel4 SlashSpec SlashProof SlashBsp SlashWhere SlashWhere2 SlashInd SlashComp SlashComp2 SlashComp3 SlashThm SlashRep.
From Coq Require Import List.

(** C22, Replicate with a list of counts, for cells that are not single bits. However the counts are stored (bits, integers of 8, 16 or 32 bits, doubles or mixed) and however the cells are stored, the result has every cell as often as its count, in order. It is an error exactly if a count is not a natural number, there are not as many counts as cells, or the result has too many cells. [csz] is the number of elements in a cell; the total number of elements is asked to fit the size type (see C38). *)
Theorem C22_replicate_list : forall A (junk umax amax ub csz : Z) sq cl c (xs : list A), (umax = 2 ^ 48 \/ umax = 2 ^ 32 - 1) -> keeps sq -> 1 <= csz -> Z.of_nat (length xs) < umax -> cnts_ok c -> 0 < c_ia c ->
  let good := c_ia c = Z.of_nat (length xs) /\ naturals (counts c) /\ total (nats_of (counts c)) < umax in
  (good -> total (nats_of (counts c)) * csz < Z.min amax (2 ^ 64) -> slash_c2 junk umax amax ub sq csz cl (WArr c) xs = Ok (replicate (nats_of (counts c)) xs)) /\
  (~ good -> slash_c2 junk umax amax ub sq csz cl (WArr c) xs = Err).
Proof.
  intros A junk umax amax ub csz sq cl c xs U K C N Hx P good. cbn [slash_c2]. destruct (Z.eq_dec (c_ia c) (Z.of_nat (length xs))) as [E|E].
  - destruct (rep_arr_ok junk umax amax csz sq xs ltac:(lia) K C N cl c Hx E ltac:(lia)) as (R1&R2). unfold good. split; [intros (_&H) H2; apply R1; auto|intros H; apply R2; intros H2; apply H; auto].
  - split; [intros (H&_); contradiction|]. intros _. unfold rep_arr. destruct (Z.eqb_spec (c_ia c) 0); [lia|]. destruct (Z.eqb_spec (c_ia c) (Z.of_nat (length xs))); [contradiction|auto].
Qed.
Print Assumptions C22_replicate_list.
(** no counts: 𝕩 *)
Theorem C22_replicate_empty : forall A (junk umax amax ub csz : Z) sq cl c (xs : list A), c_ia c = 0 -> slash_c2 junk umax amax ub sq csz cl (WArr c) xs = Ok xs.
Proof. intros A junk umax amax ub csz sq cl c xs E. cbn [slash_c2]. unfold rep_arr. rewrite E. auto. Qed.

(** C22, Replicate with one number: every cell that many times; an error for a negative one. *)
Theorem C22_replicate_constant : forall A (junk umax amax ub csz : Z) sq cl wv (xs : list A), 1 <= csz ->
  (wv < 0 -> slash_c2 junk umax amax ub sq csz cl (WAtom wv) xs = Err) /\
  (0 <= wv -> Z.of_nat (length xs) * wv * csz < Z.min amax (2 ^ ub) -> slash_c2 junk umax amax ub sq csz cl (WAtom wv) xs = Ok (replicate (repeat wv (length xs)) xs)).
Proof. intros A junk umax amax ub csz sq cl wv xs C. cbn [slash_c2]. apply rep_atom_ok. auto. Qed.
Print Assumptions C22_replicate_constant.

(** C22, Replicate of a list of bits with a list of bits *)
Theorem C22_replicate_bits_by_bits : forall junk w xp n, words w -> 0 <= n <= 64 * Z.of_nat (length w) -> n <= 64 * Z.of_nat (length xp) ->
  exists r m, compress_bits junk w n xp = Ok (r, m) /\ 0 <= m <= 64 * Z.of_nat (length r) /\ bits_of r 0 m = replicate (map (fun b : bool => if b then 1 else 0) (bits_of w 0 n)) (bits_of xp 0 n).
Proof. exact compress_bits_ok. Qed.
Print Assumptions C22_replicate_bits_by_bits.

(** C38: the number of elements of the result of Replicate is computed in 64 bits (or the size type), and nothing tests whether it fits. With one row of 2^17 elements and the count 2^47 memory for none is allocated, and then written: ⟨2⋆47⟩/1‿131072⥊0. *)
Lemma copy_over {A} csz c (v : A) cap : 0 < c -> cap < csz -> copy_cells csz (Z.to_nat c) v cap [] = UB.
Proof. intros C L. destruct (Z.to_nat c) as [|k] eqn:E; [lia|]. cbn [copy_cells]. unfold copy_cell. cbn [length]. destruct (Z.leb_spec ((Z.of_nat 0 + 1) * csz) cap); [lia|auto]. Qed.
Theorem C38_replicate_list_overflow_refuted : exists c csz, cnts_ok c /\ naturals (counts c) /\ total (nats_of (counts c)) < 2 ^ 48 /\ c_ia c * csz < 2 ^ 48 /\ 2 ^ 48 <= total (nats_of (counts c)) * csz /\
  forall junk sq, slash_c2 junk (2 ^ 48) (2 ^ 48) 64 sq csz (COther true) (WArr c) [tt] = UB.
Proof.
  exists (CF [Some (2 ^ 47)]), (2 ^ 17). split; [cbn [cnts_ok]; constructor; [lia|constructor]|]. split; [constructor; [exists (2 ^ 47); split; [reflexivity|lia]|constructor]|]. split; [reflexivity|]. split; [reflexivity|]. split; [cbn; lia|]. intros junk sq.
  cbn [slash_c2]. unfold rep_arr. change (c_ia (CF [Some (2 ^ 47)]) =? 0) with false. change (c_ia (CF [Some (2 ^ 47)]) =? Z.of_nat (length [tt])) with true. cbn [negb]. change (usum (CF [Some (2 ^ 47)])) with (Ok (2 ^ 47)). cbn [bind]. unfold arrW_base. change (to_u 64 (2 ^ 47 * 2 ^ 17)) with 0. change (2 ^ 48 <=? 2 ^ 47) with false. change (2 ^ 48 <=? 0) with false. cbn [welts slow_rep]. change (o2s (2 ^ 48) (Some (2 ^ 47))) with (Ok (2 ^ 47)). cbn [bind]. change (2 ^ 47 =? 0) with false. change (xat [tt] 0) with (Ok tt). cbn [bind]. rewrite copy_over by lia. auto.
Qed.
Print Assumptions C38_replicate_list_overflow_refuted.
(** the same with one number, 2^30, and two rows of 2^33 elements each *)
Theorem C38_replicate_constant_overflow_refuted : exists wv csz, 0 <= wv < 2 ^ 31 /\ 2 * csz < 2 ^ 48 /\ 2 ^ 48 <= 2 * wv * csz /\ forall junk sq, slash_c2 junk (2 ^ 48) (2 ^ 48) 64 sq csz (COther true) (WAtom wv) [tt; tt] = UB.
Proof.
  exists (2 ^ 30), (2 ^ 33). split; [lia|]. split; [reflexivity|]. split; [cbn; lia|]. intros junk sq. cbn [slash_c2]. unfold rep_atom. cbn [length]. change (Z.of_nat 2) with 2. change (2 ^ 30 <? 0) with false. change (2 ^ 30 <=? 1) with false. change (2 =? 0) with false. change (2 ^ 64 <=? 2 * 2 ^ 30) with false. cbv iota zeta. change (to_u 64 (2 * 2 ^ 33 * 2 ^ 30)) with 0. change (2 ^ 48 <=? 0) with false. cbv iota. change (Z.to_nat 2) with 2%nat. cbn [for_]. unfold xat. change (0 <? 0) with false. change (Z.to_nat 0) with 0%nat. cbn [nth_error bind]. rewrite copy_over by lia. auto.
Qed.
Print Assumptions C38_replicate_constant_overflow_refuted.

Example C22_rep_ex : slash_c2 77 (2 ^ 48) (2 ^ 48) 64 no_sq 1 C8_16 (WArr (CI 8 [0; 2; 1; 0; 3; 0])) [10; 11; 12; 13; 14; 15] = Ok [11; 11; 12; 14; 14; 14]. Proof. vm_compute. reflexivity. Qed.
Example C22_rep_bits : slash_c2 77 (2 ^ 48) (2 ^ 48) 64 no_sq 1 C32_64 (WArr (CB [2 ^ 63 + 5; 1] 66)) (map Z.of_nat (seq 100 66)) = Ok [100; 102; 163; 164]. Proof. vm_compute. reflexivity. Qed.
Example C22_rep_runs : slash_c2 77 (2 ^ 48) (2 ^ 48) 64 no_sq 3 (COther true) (WArr (CB [2 ^ 64 - 4; 7; 0] 130)) (map Z.of_nat (seq 0 130)) = Ok (map Z.of_nat (seq 2 65)). Proof. vm_compute. reflexivity. Qed.
Example C22_rep_const : slash_c2 77 (2 ^ 48) (2 ^ 48) 64 no_sq 2 (COther false) (WAtom 3) [1; 2] = Ok [1; 1; 1; 2; 2; 2]. Proof. vm_compute. reflexivity. Qed.
Example C22_rep_len : slash_c2 77 (2 ^ 48) (2 ^ 48) 64 no_sq 1 C8_16 (WArr (CI 8 [0; 2])) [10; 11; 12] = Err. Proof. vm_compute. reflexivity. Qed.
Example C22_rep_bits2 : compress_bits 77 [2 ^ 63 + 5; 3] 66 [2 ^ 63 + 4; 2] = Ok ([2 + 4 + 16], 5). Proof. vm_compute. reflexivity. Qed.
