(** C22: Indices. *)
From Verif Require Import Base ListLib BitsModel BitsSpec BitsProof BitsProof2 SqueezeModel SqueezeProof WidenModel SlashModel SlashModel2 SlashSpec SlashProof SlashBsp SlashWhere SlashWhere2 SlashInd.
From Coq Require Import List.

(** narrowing an array keeps its elements *)
Definition keeps (sq : cnts -> cnts) : Prop := forall c, cnts_ok c -> cnts_ok (sq c) /\ counts (sq c) = counts c.
Lemma counts_len c : cnts_ok c -> Z.of_nat (length (counts c)) = c_ia c.
Proof. destruct c; cbn [counts c_ia cnts_ok]; intros H; rewrite ?map_length; auto. unfold bits_of. rewrite map_length, seq_length. lia. Qed.
Lemma nat_iff l : forallb natb l = true <-> naturals l.
Proof.
  unfold naturals. rewrite forallb_forall, Forall_forall. split; intros H e He; specialize (H e He). - destruct e as [z|]; [|discriminate]. exists z. split; auto. apply Z.leb_le. auto. - destruct H as (z&->&H). apply Z.leb_le. auto.
Qed.
Lemma indices_ok junk umax sq x : 0 < umax <= 2 ^ 48 -> keeps sq -> cnts_ok x -> c_ia x < umax -> slash_c1 junk umax sq x = if forallb natb (counts x) && (total (nats_of (counts x)) <? umax) then Ok (indices (nats_of (counts x))) else Err.
Proof.
  intros U K Hx Ia. unfold slash_c1. rewrite usum_ok by (auto; lia). unfold usum_spec. destruct (forallb natb (counts x)) eqn:N; cbn [andb bind]; [|auto]. pose proof (total_nonneg _ N) as T0.
  destruct (Z.ltb_spec (total (nats_of (counts x))) (2 ^ 64)); cbn [bind]; [|destruct (Z.ltb_spec (total (nats_of (counts x))) umax); [lia|auto]].
  destruct (Z.leb_spec umax (total (nats_of (counts x)))), (Z.ltb_spec (total (nats_of (counts x))) umax); auto; try lia. destruct (Z.eqb_spec (total (nats_of (counts x))) 0) as [E|E].
  { rewrite rep_indices. f_equal. symmetry. apply length_zero_iff_nil. pose proof (rep_len (fun i => i) (nats_of (counts x)) 0) as L. unfold len in L. rewrite E in L. assert (nonneg (nats_of (counts x)) = true); [|specialize (L H2); lia]. unfold nonneg, nats_of. clear - N. induction (counts x) as [|[z|] l IH]; auto; cbn [forallb natb map] in *; [|discriminate]. apply andb_true_iff in N. destruct N as [-> N]. cbn [andb]. auto. }
  set (y := match x with CB _ _ => x | _ => if total (nats_of (counts x)) <=? c_ia x then sq x else x end).
  assert (Y : cnts_ok y /\ counts y = counts x) by (subst y; destruct x; auto; destruct (_ <=? _); auto). destruct Y as (Hy&Cy). assert (Iy : c_ia y = c_ia x) by (rewrite <- !counts_len by auto; rewrite Cy; auto). rewrite <- Iy, <- Cy in *. clear Cy Iy Hx. clearbody y. clear x.
  set (s := total (nats_of (counts y))) in *. assert (Nn : nonneg (nats_of (counts y)) = true). { unfold nonneg, nats_of. clear - N. induction (counts y) as [|[z|] l IH]; auto; cbn [forallb natb map] in *; [|discriminate]. apply andb_true_iff in N. destruct N as [-> N]. cbn [andb]. auto. }
  assert (Fin : forall tr cs d, (forall k, 0 <= k < Z.of_nat (length cs) -> tr k = k) -> indices cs = indices (nats_of (counts y)) -> nonneg cs = true -> total cs = s -> wrote (mem junk s) 0 (rep tr cs 0) d -> d = indices (nats_of (counts y))).
  { intros tr cs d Ht Hi Nc Tc W. rewrite <- Hi, rep_indices, <- (rep_ext tr (fun i => i) cs 0) by (intros k Hk; apply Ht; lia). apply (wrote_full _ _ _ W). rewrite rep_len, len_mem by (auto; lia). auto. }
  destruct y as [src n|k l|l]; cbn [counts c_ia cnts_ok] in *.
  - destruct Hy as (W&Hn). destruct (bits_total (bits_of src 0 n)) as (E1&E2&E3). subst s. rewrite E1, E2 in *. pose proof (where_ok junk src n W Hn) as Wo. rewrite count_cnt. change (fun i => mbit src (64 * 0 + i)) with (mbit src). rewrite Wo. f_equal. rewrite <- ons_rep. reflexivity.
  - assert (Es : total l = s) by (unfold s; rewrite nats_some; auto). clearbody s. rewrite nats_some in *. destruct Hy as (Hk&Hl). destruct (Z.ltb_spec (2 ^ 31) (Z.of_nat (length l))).
    + rewrite slow_ind_dense by (rewrite ?nats_some; auto; lia). rewrite nats_some. destruct (dense_ind_ok (fun i => i) l 0 (mem junk s) 0 Nn) as (d&E2&W2); [lia|rewrite len_mem by lia; lia|]. rewrite E2. f_equal. apply (Fin (fun i => i) l d); auto.
    + destruct (trim_split l) as (q&Q). assert (Nt : nonneg (trim l) = true /\ total (trim l) = s). { rewrite Q, nonneg_app in Nn. apply andb_true_iff in Nn. destruct Nn as [A B]. split; auto. rewrite <- Es. rewrite Q at 2. rewrite total_app. clear. induction q as [|q IH]; cbn [repeat total fold_right] in *; unfold total in *; lia. } destruct Nt as (Nt&Tt). assert (Lt : (length (trim l) <= length l)%nat) by (rewrite Q at 2; rewrite app_length; lia).
      set (tr := if Z.of_nat (length (trim l)) <=? 128 then to_s 8 else _). destruct (dense_ind_ok tr (trim l) 0 (mem junk s) 0 Nt) as (d&E2&W2); [lia|rewrite len_mem by lia; lia|]. rewrite E2. f_equal. apply (Fin tr (trim l) d); auto.
      * intros i Hi. subst tr. destruct (Z.leb_spec (Z.of_nat (length (trim l))) 128); [apply ts_id; [lia|]; change (2 ^ (8 - 1)) with 128; lia|]. destruct (Z.leb_spec (Z.of_nat (length (trim l))) 32768); [apply ts_id; [lia|change (2 ^ (16 - 1)) with 32768; lia]|apply ts_id; [lia|change (2 ^ (32 - 1)) with (2 ^ 31); lia]].
      * rewrite !rep_indices. rewrite Q at 2. rewrite rep_app, rep_zeros, app_nil_r. auto.
  - rewrite slow_ind_dense by (auto; unfold s in *; lia). set (tr := if 2 ^ 31 <? Z.of_nat (length l) then _ else to_s 32). destruct (dense_ind_ok tr (nats_of l) 0 (mem junk s) 0 Nn) as (d&E2&W2); [lia|rewrite len_mem by lia; unfold s; lia|]. rewrite E2. f_equal. apply (Fin tr (nats_of l) d); auto. intros i Hi. unfold nats_of in Hi. rewrite map_length in Hi. subst tr. destruct (Z.ltb_spec (2 ^ 31) (Z.of_nat (length l))); auto. apply ts_id; [lia|]. change (2 ^ (32 - 1)) with (2 ^ 31). lia.
Qed.

(** C22, Indices. For every list of counts however stored (bits, integers of 8, 16 or 32 bits, doubles or mixed), the result lists every index as often as its count, in order; it is an error exactly if an element is not a natural number or the result is too long for the size type. [sq] is the narrowing of the list to a smaller type, any function that keeps the elements. *)
Theorem C22_indices : forall junk umax sq x, (umax = 2 ^ 48 \/ umax = 2 ^ 32 - 1) -> keeps sq -> cnts_ok x -> c_ia x < umax ->
  (naturals (counts x) /\ total (nats_of (counts x)) < umax -> slash_c1 junk umax sq x = Ok (indices (nats_of (counts x)))) /\
  (~ (naturals (counts x) /\ total (nats_of (counts x)) < umax) -> slash_c1 junk umax sq x = Err).
Proof.
  intros junk umax sq x U K Hx Ia. rewrite indices_ok by (auto; lia). rewrite <- nat_iff. destruct (forallb natb (counts x)); cbn [andb]; (destruct (Z.ltb_spec (total (nats_of (counts x))) umax)); split; intros H'; auto; try (destruct H'; discriminate || lia); exfalso; apply H'; auto.
Qed.
Print Assumptions C22_indices.

(** the indices of the set bits, in a block of bits at any place, by each of the block methods (used by Replicate and by the sorting functions) *)
Theorem C22_where_block : forall junk src p n, words src -> 0 <= p -> 0 <= n <= bsp_max -> p + (n + 63) / 64 <= Z.of_nat (length src) -> (forall i, n <= i < 64 * ((n + 63) / 64) -> mbit src (64 * p + i) = false) ->
  where_block junk src p n (count_true (bits_of src p n)) bsp_max = Ok (indices (map (fun b : bool => if b then 1 else 0) (bits_of src p n))).
Proof. intros junk src p n W P N L T. rewrite count_cnt, <- ons_rep. apply where_block_ok; auto. Qed.
Print Assumptions C22_where_block.

Definition no_sq (c : cnts) : cnts := c.
Example C22_indices_ex : slash_c1 77 (2 ^ 48) no_sq (CI 8 [0; 2; 1; 0; 3; 0; 0]) = Ok [1; 1; 2; 4; 4; 4]. Proof. vm_compute. reflexivity. Qed.
Example C22_indices_neg : slash_c1 77 (2 ^ 48) no_sq (CI 16 [0; 2; -1; 0]) = Err. Proof. vm_compute. reflexivity. Qed.
Example C22_indices_bits : slash_c1 77 (2 ^ 48) no_sq (CB [5; 2 ^ 63; 1] 130) = Ok [0; 2; 127; 128]. Proof. vm_compute. reflexivity. Qed.
(** the three methods for many bits: dense, byte counting, sparse *)
Example C22_indices_u16 : slash_c1 77 (2 ^ 48) no_sq (CB (2 ^ 20 :: repeat (2 ^ 7 + 2 ^ 60) 40) (64 * 41)) = Ok (20 :: concat (map (fun i => [64 * Z.of_nat i + 7; 64 * Z.of_nat i + 60]) (seq 1 40))). Proof. vm_compute. reflexivity. Qed.
Example C22_keeps : keeps no_sq. Proof. intros c H. auto. Qed.
