(** C48: Range, Windows, Shape and Find *)
From Verif Require Import Base SqueezeModel ReuseModel TransSpec FnsModel FnsSpec SqueezeProof FnsProof FnsProof2 FnsProof6 FnsProof7 FnsProof8.
From Coq Require Import Lia.
Open Scope Z_scope.

(** a value that can be a length *)
Definition natural (v : val) : Prop := exists z, v = VNum z /\ 0 <= z < 2 ^ 32.
Lemma o2s_nat v : match o2s v with Ok z => v = VNum z /\ 0 <= z < 2 ^ 32 | Err => ~ natural v | UB => False end.
Proof.
  unfold o2s, natural. destruct v as [z|z|z|z]; try (intros (y & H & _); discriminate). destruct (Z.leb_spec 0 z), (Z.ltb_spec z (2 ^ 32)); cbn [andb]; try (split; [reflexivity|lia]); intros (y & E & Q); inversion E; subst; lia.
Qed.
Lemma o2s_all_nat : forall l, match o2s_all l with Ok _ => Forall natural l | Err => ~ Forall natural l | UB => False end.
Proof.
  induction l as [|v l IH]; cbn [o2s_all]; [constructor|]. pose proof (o2s_nat v) as H. destruct (o2s v) as [z| |]; cbn [bind]; [|intros F; inversion F; auto|exact H].
  destruct (o2s_all l); cbn [bind]; [|intros F; inversion F; auto|exact IH]. constructor; [exists z; exact H|exact IH].
Qed.

(** ** Range *)
(** Range of a number: the naturals below it, stored in a type that holds them all; anything else throws. *)
Theorem C48_range_number : forall v, match range_atom v with
  | Ok (e, r) => exists n : nat, v = VNum (Z.of_nat n) /\ r = map Z.of_nat (seq 0 n) /\ Forall (fun z => fits e (VNum z) = true) r
  | Err => ~ natural v
  | UB => False end.
Proof.
  intros v. pose proof (o2s_nat v) as H. destruct (o2s v) as [z| |] eqn:E.
  - destruct H as [-> B]. destruct (range_atom_ok z B) as (e & R & F). rewrite R. exists (Z.to_nat z). split; [f_equal; lia|]. split; [reflexivity|]. apply Forall_forall. intros y Y. apply in_map_iff in Y. destruct Y as (i & <- & I). apply in_seq in I. apply F. lia.
  - unfold range_atom. rewrite E. exact H.
  - destruct H.
Qed.
Print Assumptions C48_range_number.
(** Range of a list of lengths: an array of that shape with every index at its place and a fill of zeroes, exactly if there are at most 255 axes, none longer than 2^31, and fewer than 2^32 positions. Whatever is in the memory it starts with. *)
Theorem C48_range_list : forall pos junk sh, length pos = length sh -> Forall (fun l => Z.of_nat l < 2 ^ 32) sh ->
  let allowed := (length sh <= 255)%nat /\ Z.of_nat (size sh) < 2 ^ 32 /\ Forall (fun l => Z.of_nat l <= 2 ^ 31) sh in
  match range_list pos junk 1 (map VNum (map Z.of_nat sh)) with
  | Ok (rsh, r, f) => allowed /\ rsh = map Z.of_nat sh /\ all_indices sh r /\ f = repeat 0 (length sh)
  | Err => ~ allowed
  | UB => False
  end.
Proof. intros pos junk sh L B. exact (range_list_ok pos junk sh L B). Qed.
Print Assumptions C48_range_list.
(** Any other argument throws *)
Theorem C48_range_error : forall pos junk rank x, rank <> 1%nat \/ ~ Forall natural x -> range_list pos junk rank x = Err.
Proof.
  intros pos junk rank x H. unfold range_list. destruct (Nat.eqb_spec rank 1) as [E|E]; [|reflexivity]. destruct H as [H|H]; [contradiction|]. cbn [negb]. destruct (255 <? Z.of_nat (length x)); [reflexivity|].
  destruct x as [|v x]; [exfalso; apply H; constructor|]. pose proof (o2s_nat v) as V. destruct (o2s v) as [z| |]; cbn [bind]; [|reflexivity|destruct V].
  pose proof (o2s_all_nat x) as W. destruct (o2s_all x); cbn [bind]; [|reflexivity|destruct W]. exfalso. apply H. constructor; [exists z; exact V|exact W].
Qed.
Print Assumptions C48_range_error.
Example C48_range_example : range_list [7; 7] 5 1 [VNum 2; VNum 3] = Ok ([2; 3], [[0; 0]; [0; 1]; [0; 2]; [1; 0]; [1; 1]; [1; 2]], [0; 0]) /\
  range_list [7; 7; 7] 5 1 [VNum 2; VNum 1; VNum 2] = Ok ([2; 1; 2], [[0; 0; 0]; [0; 0; 1]; [1; 0; 0]; [1; 0; 1]], [0; 0; 0]) /\
  range_list [7; 7] 5 1 [VNum 3; VChr 3] = Err /\ range_atom (VNum 3) = Ok (EI8, [0; 1; 2]).
Proof. vm_compute. auto. Qed.

(** ** Windows *)
(** [ws] not empty. The two last hypotheses leave out the axes of length 2^32-1 and 2↕ of 2^31 or more elements, see the refutations. *)
Theorem C48_windows_partial : forall {A} (x : list A) xsh ws w, array xsh x -> Z.of_nat (size xsh) < 2 ^ 32 -> ws <> [] ->
  w_list w = map VNum (map Z.of_nat ws) -> (match w with WArr r _ => r <= 1 | WAtom _ => True end)%nat -> Forall (fun m => Z.of_nat m < 2 ^ 32) ws ->
  Forall (fun h => Z.of_nat h + 1 < 2 ^ 32) (firstn (length ws) xsh) -> (ws = [2%nat] -> 2 * Z.of_nat (length x) < 2 ^ 32) ->
  let allowed := fit ws xsh /\ (length xsh + length ws <= 255)%nat /\ Z.of_nat (size (window_shape ws xsh)) < 2 ^ 32 in
  match windows w false (map Z.of_nat xsh) x with
  | Ok (rsh, r) => allowed /\ rsh = map Z.of_nat (window_shape ws xsh) /\ windows_of ws xsh x r
  | Err => ~ allowed
  | UB => False
  end.
Proof. intros A x xsh ws w AX XB NE EW WR WB HB P2. exact (windows_ok x xsh ws w EW WR AX XB NE WB HB P2). Qed.
Print Assumptions C48_windows_partial.
(** No lengths: 𝕩 itself. *)
Theorem C48_windows_none : forall {A} (x : list A) xatom xsh r, (r <= 1)%nat -> windows (WArr r []) xatom xsh x = Ok (xsh, x).
Proof. intros A x xatom xsh r R. unfold windows. cbn [w_list length]. replace (1 <? r)%nat with false by (symmetry; apply Nat.ltb_ge; exact R). reflexivity. Qed.
Print Assumptions C48_windows_none.
(** An 𝕨 of rank over 1, one with something else than lengths, or any lengths for an atom: an error *)
Theorem C48_windows_error : forall {A} (x : list A) w xatom xsh, (match w with WArr r _ => 2 <= r | WAtom _ => False end)%nat \/ ~ Forall natural (w_list w) \/ xatom = true /\ w_list w <> [] -> windows w xatom xsh x = Err.
Proof.
  intros A x w xatom xsh H. unfold windows. destruct (match w with WArr r _ => (1 <? r)%nat | WAtom _ => false end) eqn:R; [reflexivity|].
  destruct H as [H|H]; [exfalso; destruct w; [exact H|apply Nat.ltb_ge in R; lia]|].
  destruct (Z.eqb_spec (Z.of_nat (length (w_list w))) 0) as [E|E]. { exfalso. assert (EN : w_list w = []) by (destruct (w_list w); [reflexivity|cbn [length] in E; lia]). rewrite EN in H. destruct H as [H|[_ H]]; apply H; [constructor|reflexivity]. }
  cbv zeta. destruct (_ || _) eqn:Q; [reflexivity|]. destruct (255 <? _); [reflexivity|]. destruct H as [H|[H _]]; [|rewrite H in Q; discriminate].
  pose proof (o2s_all_nat (w_list w)) as W. destruct (o2s_all (w_list w)); cbn [bind]; [contradiction|reflexivity|destruct W].
Qed.
Print Assumptions C48_windows_error.
(** An axis of length 2^32-1: windows of length 1 are refused although the result is that array with one more axis of length 1; those of length 0 give an axis of length 0 although there would be 2^32. *)
Theorem C48_windows_axis_refuted :
  (exists xsh x, array xsh x /\ fit [1%nat] xsh /\ (length xsh + 1 <= 255)%nat /\ size (window_shape [1%nat] xsh) = 0%nat /\ Forall (fun h => Z.of_nat h < 2 ^ 32) (window_shape [1%nat] xsh) /\
    windows (A := Z) (WAtom (VNum 1)) false (map Z.of_nat xsh) x = Err) /\
  (exists xsh x r, array xsh x /\ windows (A := Z) (WAtom (VNum 0)) false (map Z.of_nat xsh) x = Ok r /\ fst r <> map Z.of_nat (window_shape [0%nat] xsh)).
Proof.
  set (N := Z.to_nat (2 ^ 32 - 1)). assert (EN : Z.of_nat N = 4294967295) by (unfold N; rewrite Z2Nat.id; [reflexivity|lia]). clearbody N. split.
  - exists [N; 0%nat], []. split; [unfold array; cbn [size fold_right length]; lia|]. split; [split; [cbn [length]; lia|]; intros [|a] H; cbn [length nth] in *; lia|].
    split; [cbn [length]; lia|]. assert (S : window_shape [1%nat] [N; 0%nat] = [N; 1%nat; 0%nat]) by (unfold window_shape, window_starts; cbn [combine map app skipn length]; do 2 f_equal; lia). rewrite S. split; [cbn [size fold_right]; lia|].
    split; [repeat constructor; lia|]. cbn [map]. rewrite EN. reflexivity.
  - exists [N; 0%nat], [], ([0; 0; 0], []). split; [unfold array; cbn [size fold_right length]; lia|]. split; [cbn [map]; rewrite EN; reflexivity|]. unfold window_shape, window_starts. cbn [combine map app skipn length fst]. intros H. inversion H. lia.
Qed.
Print Assumptions C48_windows_axis_refuted.
(** 2↕ of a list of 2^31 elements is refused although the result has fewer than 2^32 elements *)
Theorem C48_windows_pairs_refuted : forall x : list Z, Z.of_nat (length x) = 2 ^ 31 -> windows (WAtom (VNum 2)) false [Z.of_nat (length x)] x = Err /\ fit [2%nat] [length x] /\ Z.of_nat (size (window_shape [2%nat] [length x])) < 2 ^ 32.
Proof.
  intros x L. split; [|split].
  - unfold windows. rewrite L. reflexivity.
  - split; [cbn [length]; lia|]. intros [|a] H; cbn [length nth] in *; lia.
  - unfold window_shape, window_starts. cbn [combine map app skipn length size fold_right]. lia.
Qed.
Print Assumptions C48_windows_pairs_refuted.
Example C48_windows_example : windows (WArr 1 [VNum 2; VNum 2]) false [3; 3] [1; 2; 3; 4; 5; 6; 7; 8; 9] = Ok ([2; 2; 2; 2], [1; 2; 4; 5; 2; 3; 5; 6; 4; 5; 7; 8; 5; 6; 8; 9]) /\
  windows (WAtom (VNum 2)) false [4] [1; 2; 3; 4] = Ok ([3; 2], [1; 2; 2; 3; 3; 4]) /\
  windows (WAtom (VNum 3)) false [4; 2] [1; 2; 3; 4; 5; 6; 7; 8] = Ok ([2; 3; 2], [1; 2; 3; 4; 5; 6; 3; 4; 5; 6; 7; 8]) /\ windows (WAtom (VNum 6)) false [4] [1; 2; 3; 4] = Err.
Proof. vm_compute. auto. Qed.

(** ** Shape *)
(** The lengths themselves, in a type that holds them. *)
Lemma le_lor a b : 0 <= a -> 0 <= b -> a <= Z.lor a b.
Proof.
  intros A B. assert (D : Z.ldiff a (Z.lor a b) = 0). { apply Z.bits_inj'. intros k _. rewrite Z.ldiff_spec, Z.lor_spec, Z.bits_0. destruct (Z.testbit a k), (Z.testbit b k); reflexivity. }
  pose proof (Z.sub_nocarry_ldiff _ _ D) as E. assert (0 <= Z.ldiff (Z.lor a b) a) by (apply Z.ldiff_nonneg; left; apply Z.lor_nonneg; auto). lia.
Qed.
Lemma le_fold : forall l o, 0 <= o -> Forall (fun z => 0 <= z) l -> o <= fold_left Z.lor l o /\ Forall (fun z => z <= fold_left Z.lor l o) l.
Proof.
  induction l as [|z l IH]; intros o O F; cbn [fold_left]; [split; [lia|constructor]|]. inversion F; subst. pose proof (le_lor o z O H1). pose proof (le_lor z o H1 O) as Q. rewrite Z.lor_comm in Q. destruct (IH (Z.lor o z)) as [G1 G2]; [lia|assumption|]. split; [lia|]. constructor; [lia|exact G2].
Qed.
Theorem C48_shape : forall sh, Forall (fun l => Z.of_nat l < 2 ^ 32) sh -> exists e, shape_of (map Z.of_nat sh) = (e, map Z.of_nat sh) /\ Forall (fun l => fits e (VNum (Z.of_nat l)) = true) sh.
Proof.
  intros sh B. destruct (le_fold (map Z.of_nat sh) 0) as [_ H]; [lia|apply Forall_forall; intros z Z; apply in_map_iff in Z; destruct Z as (n & <- & _); lia|]. unfold shape_of. set (o := fold_left _ _ _) in *. clearbody o.
  assert (K : forall k, 1 < k -> o < 2 ^ (k - 1) -> map (to_s k) (map Z.of_nat sh) = map Z.of_nat sh).
  { intros k K O. rewrite <- (map_id (map Z.of_nat sh)) at 2. apply map_ext_in. intros z Z. rewrite Forall_forall in H. specialize (H z Z). apply in_map_iff in Z. destruct Z as (n & <- & _). apply to_s_id; lia. }
  assert (L : forall l, In l sh -> Z.of_nat l <= o). { intros l I. rewrite Forall_forall in H. apply H. apply in_map. exact I. }
  assert (Q : forall e, (forall z, 0 <= z -> z <= o -> fits e (VNum z) = true) -> Forall (fun l => fits e (VNum (Z.of_nat l)) = true) sh). { intros e E. apply Forall_forall. intros l I. apply E; [lia|apply L; exact I]. }
  destruct (Z.leb_spec o 127); [exists EI8; rewrite (K 8) by (try change (2 ^ (8 - 1)) with 128; lia); split; [reflexivity|]; apply Q; intros; cbn [fits]; lia|].
  destruct (Z.leb_spec o 32767); [exists EI16; rewrite (K 16) by (try change (2 ^ (16 - 1)) with 32768; lia); split; [reflexivity|]; apply Q; intros; cbn [fits]; lia|].
  destruct (Z.leb_spec o 2147483647); [exists EI32; rewrite (K 32) by (try change (2 ^ (32 - 1)) with 2147483648; lia); split; [reflexivity|]; apply Q; intros; cbn [fits]; lia|].
  exists EF64. split; [reflexivity|]. apply Forall_forall. intros l I. reflexivity.
Qed.
Print Assumptions C48_shape.
Example C48_shape_example : shape_of [3; 200; 5] = (EI16, [3; 200; 5]) /\ shape_of [2; 3] = (EI8, [2; 3]) /\ shape_of [3000000000; 0] = (EF64, [3000000000; 0]).
Proof. vm_compute. auto. Qed.

(** ** Find *)
(** Every case done in C; [None] stands for the operands it hands to the definition of ⍷ in BQN: 𝕨 of rank over 0, and 𝕩 not empty, unless both hold elements of one type and are lists, or a list and a table. *)
Theorem C48_find_partial : forall wk wsh w xk xsh x, array wsh w -> array xsh x -> (wk = KAtom -> wsh = []) -> (xk = KAtom -> xsh = []) -> Forall (fun l => Z.of_nat l < 2 ^ 32) (find_shape wsh xsh) ->
  match FnsModel.find wk (map Z.of_nat wsh) w xk (map Z.of_nat xsh) x with
  | Ok (Some (rsh, r)) => (length wsh <= length xsh)%nat /\ rsh = map Z.of_nat (find_shape wsh xsh) /\ found wsh w xsh x r
  | Ok None => wsh <> [] /\ x <> [] /\ ~ (typed xk = true /\ typed wk = true /\ (length xsh = 1 \/ length wsh = 1 /\ length xsh = 2)%nat)
  | Err => (length xsh < length wsh)%nat \/ exists n, 2 ^ 32 <= Z.of_nat (size (firstn n (find_shape wsh xsh)))
  | UB => False
  end.
Proof. exact find_ok. Qed.
Print Assumptions C48_find_partial.
Definition nums (l : list Z) : list val := map VNum l.
Example C48_find_example : FnsModel.find KTyped [2] (nums [1; 2]) KTyped [6] (nums [1; 2; 1; 1; 2; 2]) = Ok (Some ([5], [true; false; false; true; false])) /\
  FnsModel.find KTyped [2] (nums [1; 2]) KTyped [2; 3] (nums [1; 2; 1; 1; 1; 2]) = Ok (Some ([2; 2], [true; false; false; true])) /\
  FnsModel.find KAtom [] [VNum 2] KVals [2; 2] [VNum 2; VChr 2; VObj 5; VNum 2] = Ok (Some ([2; 2], [true; false; false; true])) /\
  FnsModel.find KTyped [3] (nums [1; 2; 3]) KTyped [2] (nums [1; 2]) = Ok (Some ([0], [])) /\
  FnsModel.find KTyped [2; 0] [] KTyped [3; 4; 0] [] = Ok (Some ([3; 3; 1], repeat true 9)) /\
  FnsModel.find KTyped [1; 2] (nums [1; 2]) KTyped [6] (nums [1; 2; 1; 1; 2; 2]) = Err.
Proof. vm_compute. repeat split. Qed.
(** An empty 𝕨 and a list of 2^32-1 numbers: the result is an empty list although there would be 2^32 places. *)
Theorem C48_find_wrap_refuted : forall x, Z.of_nat (length x) = 2 ^ 32 - 1 -> FnsModel.find KTyped [0] [] KTyped [Z.of_nat (length x)] x = Ok (Some ([0], [])) /\ Z.of_nat (size (find_shape [0%nat] [length x])) = 2 ^ 32.
Proof.
  intros x L. split; [|unfold find_shape, places; cbn [length Nat.sub firstn skipn combine map app size fold_right]; lia].
  unfold FnsModel.find. cbn [length Nat.ltb Nat.leb Nat.eqb typed is_atom is_bits andb orb]. unfold find_list. cbn [length]. rewrite L. reflexivity.
Qed.
Print Assumptions C48_find_wrap_refuted.
(** An empty 𝕩 of shape 65536‿65536‿0: an error although the result has no elements. *)
Theorem C48_find_empty_refuted : exists xsh, size xsh = 0%nat /\ Forall (fun l => Z.of_nat l < 2 ^ 32) xsh /\ size (find_shape [1%nat] xsh) = 0%nat /\ FnsModel.find KTyped [1] (nums [5]) KTyped (map Z.of_nat xsh) [] = Err.
Proof.
  set (N := Z.to_nat 65536). assert (EN : Z.of_nat N = 65536) by (unfold N; rewrite Z2Nat.id; [reflexivity|lia]). clearbody N. exists [N; N; 0%nat].
  split; [cbn [size fold_right]; lia|]. split; [repeat constructor; lia|]. split; [unfold find_shape; cbn [length Nat.sub firstn skipn combine map app places]; unfold places; cbn [Nat.add Nat.sub size fold_right]; lia|]. cbn [map]. rewrite EN. reflexivity.
Qed.
Print Assumptions C48_find_empty_refuted.
