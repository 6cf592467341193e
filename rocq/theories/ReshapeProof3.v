(** Reshape: one repeated element, and shapes. *)
From Coq Require Import ZArith List Bool Lia Znumtheory.
Import ListNotations.
From Verif Require Import Base ListLib SqueezeModel SqueezeProof ReshapeModel ReshapeSpec ReshapeProof ReshapeProof2.
Open Scope Z_scope.

(** memset and fill_words read back *)
Lemma gset_ok m b n : 0 <= n -> 8 * n <= msz m -> exists m', gset m b n = Ok m' /\ forall k, 0 <= k < 8 * n -> at_ m' k = Z.testbit b (k mod 8).
Proof.
  intros H0 Hs. unfold gset. destruct (Z.leb_spec 0 n); [|lia]. destruct (Z.leb_spec (8*n) (msz m)); [|lia]. cbn [andb]. eexists. split; [reflexivity|].
  intros k Hk. cbn [at_]. destruct (Z.leb_spec 0 k), (Z.ltb_spec k (8*n)); cbn [andb]; try lia; reflexivity.
Qed.
Lemma words_fit n : n <= 8 * ((n + 7) / 8).
Proof. pose proof (Z.div_mod (n+7) 8 ltac:(lia)). pose proof (Z.mod_pos_bound (n+7) 8 ltac:(lia)). lia. Qed.
(** an element of w bits in memory holding copies of the w-bit number u *)
Lemma raw_copies (at' : Z -> bool) w u i : 0 < w -> 0 <= u < 2 ^ w -> (forall j, 0 <= j < w -> at' (w * i + j) = Z.testbit u j) -> numat (Z.to_nat w) at' (w * i) = u.
Proof.
  intros Hw Hu H. rewrite <- (numat_testbit (Z.to_nat w) u) by (rewrite Z2Nat.id by lia; exact Hu).
  apply numat_ext. intros j Hj. rewrite Z.add_0_l. apply H. lia.
Qed.
(** w divides 64: the word c*(1+2^w+...) has testbit by position mod w *)
Lemma rep16_tb u k : 0 <= u < 2 ^ 16 -> 0 <= k < 64 -> Z.testbit (to_u 64 (u * 281479271743489)) k = Z.testbit u (k mod 16).
Proof.
  intros Hu Hk. rewrite to_u64_tb by lia.
  replace (u * 281479271743489) with (u + 2^16 * (u + 2^16 * (u + 2^16 * u))) by lia.
  assert (S : forall a b j, 0 <= a < 2^16 -> 0 <= j -> Z.testbit (a + 2^16 * b) j = if j <? 16 then Z.testbit a j else Z.testbit b (j - 16)).
  { intros a b j Ha Hj. destruct (Z.ltb_spec j 16).
    - rewrite <- (Z.mod_pow2_bits_low _ 16 j) by lia. f_equal. rewrite (Z.mul_comm (2^16)), Z.mod_add by lia. apply Z.mod_small. exact Ha.
    - replace j with (j - 16 + 16) at 1 by lia. rewrite <- Z.div_pow2_bits by lia. f_equal. rewrite (Z.mul_comm (2^16)), Z.div_add by lia. rewrite Z.div_small by lia. lia. }
  rewrite S by lia. destruct (Z.ltb_spec k 16). { f_equal. symmetry. apply Z.mod_small. lia. }
  rewrite S by lia. destruct (Z.ltb_spec (k-16) 16). { f_equal. apply Z.mod_unique with 1; lia. }
  rewrite S by lia. destruct (Z.ltb_spec (k-16-16) 16). { f_equal. apply Z.mod_unique with 2; lia. }
  f_equal. apply Z.mod_unique with 3; lia.
Qed.
Lemma rep32_tb u k : 0 <= u < 2 ^ 32 -> 0 <= k < 64 -> Z.testbit (to_u 64 (u * 4294967297)) k = Z.testbit u (k mod 32).
Proof.
  intros Hu Hk. rewrite to_u64_tb by lia. replace (u * 4294967297) with (u + 2^32 * u) by lia.
  destruct (Z.ltb_spec k 32) as [L|L].
  - rewrite (Z.mod_small k) by lia. rewrite <- (Z.mod_pow2_bits_low _ 32 k) by lia. f_equal. rewrite (Z.mul_comm (2^32)), Z.mod_add by lia. apply Z.mod_small. exact Hu.
  - replace (k mod 32) with (k - 32) by (apply Z.mod_unique with 1; lia). replace k with (k - 32 + 32) at 1 by lia. rewrite <- Z.div_pow2_bits by lia. f_equal.
    rewrite (Z.mul_comm (2^32)), Z.div_add by lia. rewrite Z.div_small by lia. lia.
Qed.
Lemma mod_mod_64 w k i j : 0 < w -> (w | 64) -> 0 <= j < w -> k = w * i + j -> (k mod 64) mod w = j.
Proof.
  intros Hw [q Hq] Hj ->. rewrite Hq. rewrite <- Znumtheory.Zmod_div_mod; try lia; [|exists q; lia].
  symmetry. apply Z.mod_unique with i; lia.
Qed.
Lemma to_s_of_u k n : 0 < k -> - 2 ^ (k - 1) <= n < 2 ^ (k - 1) -> to_s k (to_u k n) = n.
Proof.
  intros Hk Hn. unfold to_s, to_u. rewrite Z.add_mod_idemp_l by (apply Z.pow_nonzero; lia). 
  assert (2 ^ k = 2 * 2 ^ (k-1)) by (rewrite <- Z.pow_succ_r by lia; f_equal; lia). rewrite Z.mod_small by lia. lia.
Qed.
Lemma to_s_range k n : 0 < k -> - 2 ^ (k - 1) <= to_s k n < 2 ^ (k - 1).
Proof.
  intros Hk. unfold to_s. assert (E : 2 ^ k = 2 * 2 ^ (k-1)) by (rewrite <- Z.pow_succ_r by lia; f_equal; lia).
  assert (0 < 2 ^ k) by (apply Z.pow_pos_nonneg; lia). pose proof (Z.mod_pos_bound (n + 2^(k-1)) (2^k)). lia.
Qed.
Lemma to_u_range k n : 0 <= k -> 0 <= to_u k n < 2 ^ k.
Proof. intros. unfold to_u. apply Z.mod_pos_bound. apply Z.pow_pos_nonneg; lia. Qed.

Lemma fill16 g nia u : 0 <= u < 2 ^ 16 -> 0 <= nia -> exists m, fill_words (Mem (64 * ((nia * 2 + 7) / 8)) g) (to_u 64 (u * 281479271743489)) (nia * 2) = Ok m /\
  forall i, 0 <= i < nia -> numat (Z.to_nat 16) (at_ m) (16 * i) = u.
Proof.
  intros Hu Hn. pose proof (words_fit (nia*2)).
  destruct (fill_words_ok (Mem (64 * ((nia * 2 + 7) / 8)) g) (to_u 64 (u * 281479271743489)) (nia*2)) as [m [E [_ Q]]]; [lia|cbn [msz]; lia|].
  exists m. split; [exact E|]. intros i Hi. apply raw_copies; [lia|exact Hu|]. intros j Hj. rewrite Q by lia.
  rewrite rep16_tb by (try exact Hu; apply Z.mod_pos_bound; lia). f_equal. eapply mod_mod_64; [lia|exists 4; reflexivity|exact Hj|reflexivity].
Qed.
Lemma fill32 g nia u : 0 <= u < 2 ^ 32 -> 0 <= nia -> exists m, fill_words (Mem (64 * ((nia * 4 + 7) / 8)) g) (to_u 64 (u * 4294967297)) (nia * 4) = Ok m /\
  forall i, 0 <= i < nia -> numat (Z.to_nat 32) (at_ m) (32 * i) = u.
Proof.
  intros Hu Hn. pose proof (words_fit (nia*4)).
  destruct (fill_words_ok (Mem (64 * ((nia * 4 + 7) / 8)) g) (to_u 64 (u * 4294967297)) (nia*4)) as [m [E [_ Q]]]; [lia|cbn [msz]; lia|].
  exists m. split; [exact E|]. intros i Hi. apply raw_copies; [lia|exact Hu|]. intros j Hj. rewrite Q by lia.
  rewrite rep32_tb by (try exact Hu; apply Z.mod_pos_bound; lia). f_equal. eapply mod_mod_64; [lia|exists 2; reflexivity|exact Hj|reflexivity].
Qed.
Lemma fill8 g nia u : 0 <= u < 2 ^ 8 -> 0 <= nia -> exists m, gset (Mem (64 * ((nia + 7) / 8)) g) u nia = Ok m /\
  forall i, 0 <= i < nia -> numat (Z.to_nat 8) (at_ m) (8 * i) = u.
Proof.
  intros Hu Hn. pose proof (words_fit nia).
  destruct (gset_ok (Mem (64 * ((nia + 7) / 8)) g) u nia) as [m [E Q]]; [lia|cbn [msz]; lia|].
  exists m. split; [exact E|]. intros i Hi. apply raw_copies; [lia|exact Hu|]. intros j Hj. rewrite Q by lia. f_equal. symmetry. apply Z.mod_unique with i; lia.
Qed.

Lemma one_int_ok g nia n : - 2 ^ 31 <= n < 2 ^ 31 -> 0 <= nia <= 2 ^ 31 / 4 - 1000 ->
  exists k m, one_num g nia (inl n) = Ok (k, m) /\ forall i, 0 <= i < nia -> val_at k m i = n.
Proof.
  intros Hn Hi. unfold one_num. destruct (Z.eqb_spec n (to_s 8 n)) as [E8|N8].
  - pose proof (to_s_range 8 n ltac:(lia)) as R8. rewrite <- E8 in R8. change (8-1) with 7 in R8.
    destruct (Z.leb_spec (to_u 8 n) 1) as [L|L].
    + assert (B : n = 0 \/ n = 1) by (unfold to_u in L; pose proof (Z.div_mod n (2^8) ltac:(lia)); pose proof (Z.mod_pos_bound n (2^8) ltac:(lia)); lia).
      destruct (Z.ltb_spec (2^32-66) nia); [lia|].
      set (nb := 8 * ((nia+63)/64)). assert (NB : nia <= 8 * nb) by (unfold nb; pose proof (Z.div_mod (nia+63) 64 ltac:(lia)); pose proof (Z.mod_pos_bound (nia+63) 64 ltac:(lia)); lia).
      assert (NB0 : 0 <= nb) by lia. pose proof (words_fit nb).
      destruct (gset_ok (Mem (64 * ((nb+7)/8)) g) (to_u 8 (- n)) nb) as [m [E Q]]; [lia|cbn [msz]; lia|].
      cbv zeta. change (8 * ((nia+63)/64)) with nb. rewrite E. cbn [bind]. exists KBit, m. split; [reflexivity|]. intros i Hi2. unfold val_at, raw_at. cbn [width]. change (Z.to_nat 1) with 1%nat. cbn [numat].
      rewrite Z.mul_1_l, Q by lia. pose proof (Z.mod_pos_bound i 8 ltac:(lia)) as M.
      destruct B as [-> | ->].
      * change (to_u 8 (-0)) with 0. rewrite Z.bits_0. reflexivity.
      * change (to_u 8 (- (1))) with (Z.ones 8). rewrite Z.testbit_ones_nonneg by lia. destruct (Z.ltb_spec (i mod 8) 8); [reflexivity|lia].
    + destruct (Z.ltb_spec (2^31-1000) nia); [lia|].
      destruct (fill8 g nia (to_u 8 n)) as [m [E Q]]; [apply to_u_range; lia|lia|]. cbv zeta. rewrite E. cbn [bind]. exists (KI 0), m. split; [reflexivity|].
      intros i Hi2. unfold val_at, raw_at. cbn [width]. change (8 * 2^0) with 8. rewrite Q by lia. apply to_s_of_u; [lia|exact R8].
  - destruct (Z.eqb_spec n (to_s 16 n)) as [E16|N16].
    + pose proof (to_s_range 16 n ltac:(lia)) as R. rewrite <- E16 in R. destruct (Z.ltb_spec (2^31/2-1000) nia); [change (2^31/2) with 1073741824 in *; change (2^31/4) with 536870912 in *; lia|].
      destruct (fill16 g nia (to_u 16 n)) as [m [E Q]]; [apply to_u_range; lia|lia|]. cbv zeta. rewrite E. cbn [bind]. exists (KI 1), m. split; [reflexivity|].
      intros i Hi2. unfold val_at, raw_at. cbn [width]. change (8 * 2^1) with 16. rewrite Q by lia. apply to_s_of_u; [lia|exact R].
    + destruct (Z.ltb_spec (2^31/4-1000) nia); [lia|].
      destruct (fill32 g nia (to_u 32 n)) as [m [E Q]]; [apply to_u_range; lia|lia|]. cbv zeta. rewrite E. cbn [bind]. exists (KI 2), m. split; [reflexivity|].
      intros i Hi2. unfold val_at, raw_at. cbn [width]. change (8 * 2^2) with 32. rewrite Q by lia. apply to_s_of_u; [lia|]. change (32-1) with 31. exact Hn.
Qed.
Lemma one_flt_ok g nia u : 0 <= u < 2 ^ 64 -> 0 <= nia <= 2 ^ 31 / 8 - 1000 ->
  exists k m, one_num g nia (inr u) = Ok (k, m) /\ k = KF /\ forall i, 0 <= i < nia -> val_at k m i = u.
Proof.
  intros Hu Hi. unfold one_num. destruct (Z.ltb_spec (2^31/8-1000) nia); [lia|]. pose proof (words_fit (nia*8)).
  destruct (fill_words_ok (Mem (64 * ((nia*8+7)/8)) g) u (nia*8)) as [m [E [_ Q]]]; [lia|cbn [msz]; lia|]. cbv zeta. rewrite E. cbn [bind].
  exists KF, m. split; [reflexivity|]. split; [reflexivity|]. intros i Hi2. unfold val_at, raw_at. cbn [width]. apply raw_copies; [lia|exact Hu|].
  intros j Hj. rewrite Q by lia. f_equal. symmetry. apply Z.mod_unique with i; lia.
Qed.
Lemma one_chr_ok g nia c : 0 <= c < 2 ^ 32 -> 0 <= nia <= 2 ^ 31 / 4 - 1000 ->
  exists k m, one_chr g nia c = Ok (k, m) /\ forall i, 0 <= i < nia -> val_at k m i = c.
Proof.
  intros Hc Hi. unfold one_chr. destruct (Z.eqb_spec c (to_u 8 c)) as [E8|N8].
  - pose proof (to_u_range 8 c ltac:(lia)) as R. rewrite <- E8 in R. destruct (Z.ltb_spec (2^31-1000) nia); [lia|].
    destruct (fill8 g nia c) as [m [E Q]]; [exact R|lia|]. cbv zeta. rewrite E. cbn [bind]. exists (KC 0), m. split; [reflexivity|]. intros i Hi2. unfold val_at, raw_at. cbn [width]. change (8 * 2^0) with 8. apply Q. lia.
  - destruct (Z.eqb_spec c (to_u 16 c)) as [E16|N16].
    + pose proof (to_u_range 16 c ltac:(lia)) as R. rewrite <- E16 in R. destruct (Z.ltb_spec (2^31/2-1000) nia); [change (2^31/2) with 1073741824 in *; change (2^31/4) with 536870912 in *; lia|].
      destruct (fill16 g nia c) as [m [E Q]]; [exact R|lia|]. cbv zeta. rewrite E. cbn [bind]. exists (KC 1), m. split; [reflexivity|]. intros i Hi2. unfold val_at, raw_at. cbn [width]. change (8 * 2^1) with 16. apply Q. lia.
    + destruct (Z.ltb_spec (2^31/4-1000) nia); [lia|].
      destruct (fill32 g nia c) as [m [E Q]]; [exact Hc|lia|]. cbv zeta. rewrite E. cbn [bind]. exists (KC 2), m. split; [reflexivity|]. intros i Hi2. unfold val_at, raw_at. cbn [width]. change (8 * 2^2) with 32. apply Q. lia.
Qed.

(** lists *)
Lemma nth_map_seq {A} (h : nat -> A) n i : (i < n)%nat -> nth_error (map h (seq 0 n)) i = Some (h i).
Proof. intros H. rewrite nth_error_map. rewrite (nth_error_nth' _ 0%nat) by (rewrite seq_length; exact H). rewrite seq_nth by exact H. reflexivity. Qed.
Lemma to_list_repeats {A} (d : A) n l (r : list A) : (0 < length l)%nat -> 0 <= n -> length r = Z.to_nat n ->
  (forall i, 0 <= i < n -> nth_error r (Z.to_nat i) = Some (nth (Z.to_nat (i mod Z.of_nat (length l))) l d)) -> repeats n l r.
Proof.
  intros Hl Hn Hr H. split; [lia|]. intros i Hi. rewrite H by exact Hi. symmetry. apply nth_error_nth'.
  pose proof (Z.mod_pos_bound i (Z.of_nat (length l)) ltac:(lia)). lia.
Qed.
Definition wf_arr {B} (x : arr B) : Prop := match x with ATyp k l => 0 <= k <= 3 /\ Forall (fun z => 0 <= z < 2 ^ (8 * 2 ^ k)) l | _ => True end.
Definition max_len {B} (x : arr B) : Z := match x with ABit _ => 2 ^ 32 - 66 | ATyp _ _ => 2 ^ 32 - 2 | ABox _ => 2 ^ 28 - 1000 end.

Lemma reshape_cycle_ok {B} g (gb : Z -> B) nia x : wf_arr x -> 1 <= alen x < nia -> nia <= max_len x ->
  exists r, reshape_cycle g gb nia x = Ok r /\
    match x, r with ABit l, ABit l' => repeats nia l l' | ATyp k l, ATyp k' l' => k' = k /\ repeats nia l l' | ABox l, ABox l' => repeats nia l l' | _, _ => False end.
Proof.
  intros WF Hx Hn. unfold reshape_cycle. destruct (Z.eqb_spec (alen x) 0); [lia|]. destruct x as [l|k l|l]; cbn [alen max_len wf_arr] in *.
  - destruct (cycle_bits_ok g (of_bits g l) (Z.of_nat (length l)) nia) as [m [E Q]]; [lia|lia|cbn [of_bits msz]; lia|]. rewrite E. cbn [bind]. eexists. split; [reflexivity|].
    cbn beta iota. apply (to_list_repeats false); [lia|lia|unfold to_bits; rewrite map_length, seq_length; reflexivity|].
    intros i Hi. unfold to_bits. rewrite nth_map_seq by lia. rewrite Z2Nat.id by lia. rewrite Q by lia. unfold of_bits. cbn [at_].
    pose proof (Z.mod_pos_bound i (Z.of_nat (length l)) ltac:(lia)). destruct (Z.leb_spec 0 (i mod Z.of_nat (length l))), (Z.ltb_spec (i mod Z.of_nat (length l)) (Z.of_nat (length l))); cbn [andb]; try lia. reflexivity.
  - destruct WF as [Hk Hf]. set (w := 8 * 2^k) in *. assert (Hw : 1 <= w) by (unfold w; assert (1 <= 2^k) by (apply (Z.pow_le_mono_r 2 0 k); lia); lia).
    destruct (cycle_typ_ok g k (of_typ k l) (Z.of_nat (length l)) nia) as [m [E Q]]; [lia|lia|lia|reflexivity|]. fold w in Q. rewrite E. cbn [bind]. eexists. split; [reflexivity|].
    cbn beta iota. split; [reflexivity|]. apply (to_list_repeats 0); [lia|lia|unfold to_typ; rewrite map_length, seq_length; reflexivity|].
    intros i Hi. unfold to_typ. rewrite nth_map_seq by lia. rewrite Z2Nat.id by lia. f_equal. fold w.
    pose proof (Z.mod_pos_bound i (Z.of_nat (length l)) ltac:(lia)) as M. set (j := i mod Z.of_nat (length l)) in *.
    apply raw_copies; [lia| |].
    { rewrite Forall_forall in Hf. apply Hf. apply nth_In. lia. }
    intros b Hb. rewrite Q by nia. unfold of_typ. cbn [at_]. fold w.
    assert (EI : (w * i + b) mod (w * Z.of_nat (length l)) = w * j + b).
    { symmetry. apply Z.mod_unique with (i / Z.of_nat (length l)); [left; nia|]. pose proof (Z.div_mod i (Z.of_nat (length l)) ltac:(lia)) as DM. fold j in DM. rewrite DM at 1. ring. }
    rewrite EI. replace ((w*j+b)/w) with j by (apply Z.div_unique with b; lia). replace ((w*j+b) mod w) with b by (apply Z.mod_unique with j; lia). reflexivity.
  - destruct (cycle_box_ok gb (of_box (gb 0) l) (Z.of_nat (length l)) nia) as [m [E Q]]; [lia|lia|change (2^31/8) with (2^28); lia|cbn [of_box msz]; lia|]. rewrite E. cbn [bind]. eexists. split; [reflexivity|].
    cbn beta iota. apply (to_list_repeats (gb 0)); [lia|lia|unfold to_box; rewrite map_length, seq_length; reflexivity|].
    intros i Hi. unfold to_box. rewrite nth_map_seq by lia. rewrite Z2Nat.id by lia. rewrite Q by lia. reflexivity.
Qed.
