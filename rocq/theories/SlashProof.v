(** Positions of set bits: every method of [where_] gives them in order. *)
From Verif Require Import Base ListLib BitsModel BitsSpec BitsProof BitsProof2 SqueezeModel SqueezeProof WidenModel SlashModel.
From Coq Require Import List.

Definition zseq (a : Z) (n : nat) : list Z := map (fun i => a + Z.of_nat i) (seq 0 n).
Definition ons (g : Z -> bool) (a : Z) (n : nat) : list Z := filter g (zseq a n).
Definition cnt (g : Z -> bool) (a : Z) (n : nat) : Z := Z.of_nat (length (ons g a n)).
Lemma zseq_app a n m : zseq a (n + m) = zseq a n ++ zseq (a + Z.of_nat n) m.
Proof. unfold zseq. rewrite seq_app, map_app. f_equal. rewrite Nat.add_0_l. replace n with (0 + n)%nat at 1 by lia. rewrite seq_shift_add, map_map. apply map_ext. intros i. lia. Qed.
Lemma zseq_S a n : zseq a (S n) = a :: zseq (a + 1) n.
Proof. change (S n) with (1 + n)%nat. rewrite zseq_app. unfold zseq at 1. cbn [seq map app]. f_equal. lia. Qed.
Lemma zseq_len a n : length (zseq a n) = n. Proof. unfold zseq. rewrite map_length, seq_length. auto. Qed.
Lemma zseq_in a n k : In k (zseq a n) <-> a <= k < a + Z.of_nat n.
Proof. unfold zseq. rewrite in_map_iff. split; [intros (i&<-&H); apply in_seq in H; lia|]. intros H. exists (Z.to_nat (k - a)). rewrite in_seq. lia. Qed.
Lemma zseq_shift a b n : zseq (a + b) n = map (fun k => a + k) (zseq b n).
Proof. unfold zseq. rewrite map_map. apply map_ext. intros. lia. Qed.
Lemma ons_app g a n m : ons g a (n + m) = ons g a n ++ ons g (a + Z.of_nat n) m.
Proof. unfold ons. rewrite zseq_app, filter_app. auto. Qed.
Lemma ons_S g a n : ons g a (S n) = (if g a then [a] else []) ++ ons g (a + 1) n.
Proof. unfold ons. rewrite zseq_S. cbn [filter]. destruct (g a); auto. Qed.
Lemma ons_0 g a : ons g a 0 = []. Proof. reflexivity. Qed.
Lemma filter_ext_in' {A} (f g : A -> bool) l : (forall a, In a l -> f a = g a) -> filter f l = filter g l.
Proof. induction l as [|a l IH]; intros H; auto. cbn [filter]. rewrite (H a) by (left; auto). rewrite IH by (intros; apply H; right; auto). auto. Qed.
Lemma ons_ext f g a n : (forall k, a <= k < a + Z.of_nat n -> f k = g k) -> ons f a n = ons g a n.
Proof. intros H. apply filter_ext_in'. intros k Hk. apply zseq_in in Hk. auto. Qed.
Lemma filter_map' {A B} (f : B -> bool) (h : A -> B) l : filter f (map h l) = map h (filter (fun a => f (h a)) l).
Proof. induction l as [|a l IH]; auto. cbn [map filter]. destruct (f (h a)); cbn [map]; rewrite IH; auto. Qed.
Lemma ons_shift g a b n : ons g (a + b) n = map (fun k => a + k) (ons (fun k => g (a + k)) b n).
Proof. unfold ons. rewrite zseq_shift, filter_map'. auto. Qed.
Lemma cnt_app g a n m : cnt g a (n + m) = cnt g a n + cnt g (a + Z.of_nat n) m.
Proof. unfold cnt. rewrite ons_app, app_length. lia. Qed.
Lemma cnt_S g a n : cnt g a (S n) = (if g a then 1 else 0) + cnt g (a + 1) n.
Proof. unfold cnt. rewrite ons_S, app_length. destruct (g a); cbn [length]; lia. Qed.
Lemma cnt_nonneg g a n : 0 <= cnt g a n. Proof. unfold cnt. lia. Qed.
Lemma filter_le {A} (f : A -> bool) l : (length (filter f l) <= length l)%nat.
Proof. induction l as [|a l IH]; cbn [filter length]; [lia|]. destruct (f a); cbn [length]; lia. Qed.
Lemma cnt_le g a n : cnt g a n <= Z.of_nat n. Proof. unfold cnt, ons. pose proof (filter_le g (zseq a n)). rewrite zseq_len in H. lia. Qed.
Lemma ons_in g a n k : In k (ons g a n) <-> a <= k < a + Z.of_nat n /\ g k = true.
Proof. unfold ons. rewrite filter_In, zseq_in. tauto. Qed.
Lemma ons_none g a n : cnt g a n = 0 -> ons g a n = []. Proof. unfold cnt. destruct (ons g a n); auto. cbn [length]. lia. Qed.
Lemma ons_first g c n : 0 <= c < Z.of_nat n -> g c = true -> (forall i, 0 <= i < c -> g i = false) -> ons g 0 n = c :: ons (fun k => g k && negb (k =? c)) 0 n.
Proof.
  intros Hc Gc Lo. replace n with (Z.to_nat c + S (n - Z.to_nat c - 1))%nat by lia. rewrite !ons_app, !ons_S, Z2Nat.id by lia. rewrite Z.add_0_l, Gc, Z.eqb_refl. cbn [andb negb app].
  assert (E0 : forall f, (forall i, 0 <= i < c -> f i = false) -> ons f 0 (Z.to_nat c) = []).
  { intros f H. apply ons_none. unfold cnt. rewrite (ons_ext f (fun _ => false)) by (intros; apply H; lia). unfold ons. induction (zseq 0 (Z.to_nat c)); cbn [filter]; auto. }
  rewrite !E0; [|intros i Hi; rewrite Lo by auto; auto|auto]. cbn [app]. f_equal. apply ons_ext. intros k Hk. destruct (Z.eqb_spec k c); [lia|]. rewrite andb_true_r. auto.
Qed.

Lemma cut g a n m : (n <= m)%nat -> (forall k, a + Z.of_nat n <= k < a + Z.of_nat m -> g k = false) -> ons g a m = ons g a n.
Proof.
  intros L H. replace m with (n + (m - n))%nat by lia. rewrite ons_app. rewrite (ons_none g (a + Z.of_nat n)); [rewrite app_nil_r; auto|]. unfold cnt. rewrite (ons_ext g (fun _ => false)) by (intros; apply H; lia). unfold ons. induction (zseq _ _); cbn [filter]; auto.
Qed.

(** clearing the lowest set bit *)
Lemma clear_low v c : 0 <= c -> Z.testbit v c = true -> (forall i, 0 <= i < c -> Z.testbit v i = false) -> forall i, 0 <= i -> Z.testbit (Z.land v (v - 1)) i = Z.testbit v i && negb (i =? c).
Proof.
  intros Hc Tc Lo i Hi. rewrite Z.land_spec.
  assert (M0 : v mod 2 ^ c = 0). { apply Z.bits_inj'. intros k Hk. rewrite Z.bits_0. destruct (Z.lt_ge_cases k c); [rewrite Z.mod_pow2_bits_low by lia; auto|apply Z.mod_pow2_bits_high; lia]. }
  assert (P : 0 < 2 ^ c) by (apply Z.pow_pos_nonneg; lia). set (u := v / 2 ^ c). assert (V : v = 2 ^ c * u) by (pose proof (Z.div_mod v (2 ^ c)); fold u in H; lia).
  assert (Tb : forall k, 0 <= k -> Z.testbit u k = Z.testbit v (k + c)) by (intros k Hk; unfold u; rewrite Z.div_pow2_bits by lia; auto).
  assert (Od : Z.odd u = true) by (rewrite <- Z.bit0_odd, Tb by lia; auto). destruct (Z.lt_trichotomy i c) as [L|[->|L]].
  - rewrite Lo by lia. auto.
  - rewrite Tc, Z.eqb_refl. cbn [andb negb]. replace (v - 1) with (2 ^ c * (u - 1) + (2 ^ c - 1)) by lia. replace c with (0 + c) at 3 by lia. rewrite <- Z.div_pow2_bits by lia. rewrite Z.mul_comm, Z.div_add_l by lia. rewrite (Z.div_small (2 ^ c - 1)) by lia. rewrite Z.add_0_r, Z.bit0_odd, Z.odd_sub, Od. reflexivity.
  - destruct (Z.eqb_spec i c); [lia|]. replace (v - 1) with (2 ^ c * (u - 1) + (2 ^ c - 1)) by lia. replace i with ((i - c) + c) at 2 by lia. rewrite <- Z.div_pow2_bits by lia. rewrite Z.mul_comm, Z.div_add_l by lia. rewrite (Z.div_small (2 ^ c - 1)) by lia. rewrite Z.add_0_r.
    pose proof (Z.odd_spec u) as [O _]. destruct (O Od) as (q&Q). rewrite Q. replace (2 * q + 1 - 1) with (2 * q) by lia. replace (i - c) with (Z.succ (i - c - 1)) by lia. rewrite Z.double_bits_succ.
    replace (Z.testbit q (i - c - 1)) with (Z.testbit v i). + destruct (Z.testbit v i); reflexivity. + replace i with (Z.succ (i - c - 1) + c) at 1 by lia. rewrite <- Tb by lia. rewrite Q, Z.testbit_odd_succ by lia. reflexivity.
Qed.
Lemma lowest n v : 0 < n <= 64 -> 0 <= v < 2 ^ n -> v <> 0 -> exists c, CTZ v = Ok c /\ 0 <= c < n /\ ons (Z.testbit v) 0 (Z.to_nat n) = c :: ons (Z.testbit (Z.land v (v - 1))) 0 (Z.to_nat n) /\ 0 <= Z.land v (v - 1) < 2 ^ n.
Proof.
  intros Hn V N. destruct (nonzero_bit (Z.to_nat n) v) as (b&Hb&Tb); [rewrite Z2Nat.id by lia; auto|auto|]. rewrite Z2Nat.id in Hb by lia. destruct (CTZ_spec v b ltac:(lia) Tb) as (c&Ec&Hc&Tc&Lo). exists c. split; auto. split; [lia|].
  split. { rewrite (ons_first (Z.testbit v) c) by (auto; lia). f_equal. apply ons_ext. intros k Hk. symmetry. apply (clear_low v c); auto; lia. }
  apply bits_range; [lia|]. intros i Hi. rewrite Z.land_spec, (range_bits v n i) by lia. auto.
Qed.

(** ** Writing *)
Definition wrote (d : list Z) (r : Z) (l : list Z) (d' : list Z) : Prop := length d' = length d /\ firstn (Z.to_nat (r + len l)) d' = firstn (Z.to_nat r) d ++ l /\ 0 <= r /\ r + len l <= len d.
Lemma wrote_nil d r : 0 <= r <= len d -> wrote d r [] d. Proof. intros H. split; auto. unfold len in *. cbn [length]. rewrite Z.add_0_r, app_nil_r. split; [reflexivity|]. lia. Qed.
Lemma firstn_upd_ge {A} (l : list A) i n v : (n <= i)%nat -> firstn n (upd l i v) = firstn n l.
Proof. revert i n. induction l as [|a l IH]; intros [|i] [|n] H; cbn [upd firstn]; auto; [lia|]. f_equal. apply IH. lia. Qed.
Lemma wrote_skip d r v : 0 <= r < len d -> exists d', wrz d r v = Ok d' /\ wrote d r [] d'.
Proof.
  intros H. rewrite wrz_ok by auto. eexists. split; [reflexivity|]. split; [apply upd_length|]. unfold len in *. cbn [length]. rewrite Z.add_0_r, app_nil_r, firstn_upd_ge by lia. split; [reflexivity|]. lia.
Qed.
Lemma wrote_one d r v : 0 <= r < len d -> exists d', wrz d r v = Ok d' /\ wrote d r [v] d'.
Proof.
  intros H. rewrite wrz_ok by auto. eexists. split; [reflexivity|]. split; [apply upd_length|]. unfold len in *. cbn [length]. split; [|lia]. replace (Z.to_nat (r + Z.of_nat 1)) with (S (Z.to_nat r)) by lia. rewrite (firstn_snoc _ _ v); [rewrite firstn_upd_ge by lia; auto|]. apply upd_same. lia.
Qed.
Lemma wrote_app d r l1 d1 l2 d2 : wrote d r l1 d1 -> wrote d1 (r + len l1) l2 d2 -> wrote d r (l1 ++ l2) d2.
Proof.
  intros (L1&F1&R1&C1) (L2&F2&R2&C2). split; [congruence|]. unfold len in *. rewrite app_length, Nat2Z.inj_add, Z.add_assoc. rewrite L1 in C2. split; [|lia]. rewrite F2, F1, app_assoc. auto.
Qed.
Lemma wrote_app2 d r r' l1 d1 l2 d2 : r' = r + len l1 -> wrote d r l1 d1 -> wrote d1 r' l2 d2 -> wrote d r (l1 ++ l2) d2. Proof. intros ->. apply wrote_app. Qed.
Lemma wrote_all d l d' : wrote d 0 l d' -> firstn (length l) d' = l. Proof. intros (_&F&_&_). unfold len in F. rewrite Z.add_0_l, Nat2Z.id in F. exact F. Qed.
Lemma wrote_len d r l d' : wrote d r l d' -> len d' = len d. Proof. intros (L&_). unfold len. congruence. Qed.

Section Src.
Context (src : list Z) (tr : Z -> Z).
Hypothesis Ws : words src.
Notation outs f l := (map (fun k => tr (f + k)) l).

Lemma bits_loop base n : forall k v dst r, 0 <= k -> 0 <= r -> (r + Z.of_nat n <= len dst \/ r + cnt (fun i => Z.testbit v (i - k)) k n < len dst) -> exists v' d',
  for_ n k (fun k (st : Z * (list Z * Z)) => let '(v, (dst, r)) := st in do dst <- wrz dst r (tr (base + k)); Ok (Z.shiftr v 1, (dst, r + Z.land v 1))) (v, (dst, r)) = Ok (v', (d', r + cnt (fun i => Z.testbit v (i - k)) k n)) /\
  wrote dst r (outs base (ons (fun i => Z.testbit v (i - k)) k n)) d'.
Proof.
  induction n as [|n IH]; intros k v dst r Hk Hr C; cbn [for_].
  - exists v, dst. unfold cnt. rewrite ons_0. cbn [length map]. rewrite Z.add_0_r. split; auto. apply wrote_nil. unfold cnt in C. rewrite ons_0 in C. cbn [length] in C. lia.
  - assert (R : r < len dst) by (destruct C as [C|C]; [lia|pose proof (cnt_nonneg (fun i => Z.testbit v (i - k)) k (S n)); lia]).
    assert (Bt : Z.land v 1 = if Z.testbit v 0 then 1 else 0) by (change 1 with (Z.ones 1) at 1; rewrite Z.land_ones by lia; change (2 ^ 1) with 2; rewrite Zmod_odd, <- Z.bit0_odd; auto).
    assert (Sh : forall i, k + 1 <= i < k + 1 + Z.of_nat n -> Z.testbit (Z.shiftr v 1) (i - (k + 1)) = Z.testbit v (i - k)) by (intros i Hi; rewrite Z.shiftr_spec by lia; f_equal; lia).
    rewrite cnt_S in C |- *. rewrite ons_S. replace (k - k) with 0 in * by lia.
    assert (Cn : cnt (fun i => Z.testbit (Z.shiftr v 1) (i - (k + 1))) (k + 1) n = cnt (fun i => Z.testbit v (i - k)) (k + 1) n) by (unfold cnt; rewrite (ons_ext _ _ _ _ Sh); auto).
    pose proof (ons_ext _ _ _ _ Sh) as On. destruct (Z.testbit v 0); rewrite Bt.
    + destruct (wrote_one dst r (tr (base + k)) ltac:(lia)) as (d1&E1&W1). rewrite E1. cbn [bind]. destruct (IH (k + 1) (Z.shiftr v 1) d1 (r + 1) ltac:(lia) ltac:(lia)) as (v'&d'&E&W). { rewrite (wrote_len _ _ _ _ W1), Cn. lia. }
      exists v', d'. rewrite E, Cn, Z.add_assoc. split; auto. rewrite map_app. eapply wrote_app2; [|exact W1|]; [reflexivity|]. rewrite <- On. exact W.
    + destruct (wrote_skip dst r (tr (base + k)) ltac:(lia)) as (d1&E1&W1). rewrite E1. cbn [bind]. rewrite Z.add_0_r, Z.add_0_l. destruct (IH (k + 1) (Z.shiftr v 1) d1 r ltac:(lia) ltac:(lia)) as (v'&d'&E&W). { rewrite (wrote_len _ _ _ _ W1), Cn. lia. }
      exists v', d'. rewrite E, Cn. split; auto. cbn [app]. rewrite <- On. change (outs base (ons (fun i => Z.testbit (Z.shiftr v 1) (i - (k + 1))) (k + 1) n)) with ([] ++ outs base (ons (fun i => Z.testbit (Z.shiftr v 1) (i - (k + 1))) (k + 1) n)). eapply wrote_app2; [|exact W1|exact W]. unfold len. cbn [length]. lia.
Qed.
Lemma dense_byte_ok v base dst r : 0 <= r -> (r + 8 <= len dst \/ r + cnt (Z.testbit v) 0 8 < len dst) -> exists d', dense_byte tr v base (dst, r) = Ok (d', r + cnt (Z.testbit v) 0 8) /\ wrote dst r (outs base (ons (Z.testbit v) 0 8)) d'.
Proof.
  intros Hr C. assert (E : ons (fun i => Z.testbit v (i - 0)) 0 8 = ons (Z.testbit v) 0 8) by (apply ons_ext; intros; f_equal; lia). assert (E' : cnt (fun i => Z.testbit v (i - 0)) 0 8 = cnt (Z.testbit v) 0 8) by (unfold cnt; rewrite E; auto).
  destruct (bits_loop base 8 0 v dst r ltac:(lia) Hr) as (v'&d'&E1&W). { rewrite E'. exact C. } unfold dense_byte. rewrite E1. cbn [bind snd]. exists d'. rewrite E', E in *. auto.
Qed.
Lemma mbit_byte p ii k : 0 <= p -> 0 <= ii -> 0 <= k < 8 -> p + ii / 8 < len src -> Z.testbit (Z.land (Z.shiftr (word src (p + ii / 8)) (8 * (ii mod 8))) 255) k = mbit src (64 * p + (8 * ii + k)).
Proof.
  intros P I K L. rewrite Z.land_spec. change 255 with (Z.ones 8). rewrite Z.ones_spec_low by lia. rewrite andb_true_r, Z.shiftr_spec by lia. rewrite <- mbit_word by lia. f_equal. lia.
Qed.
Lemma where_dense_loop p off n : forall ii dst r, 0 <= p -> 0 <= ii -> 0 <= r -> p + (ii + Z.of_nat n + 7) / 8 <= len src -> let g i := mbit src (64 * p + i) in
  (r + Z.of_nat (8 * n) <= len dst \/ r + cnt g (8 * ii) (8 * n) < len dst) -> exists d',
  for_ n ii (fun ii st => do w <- rdz src (p + ii / 8); dense_byte tr (Z.land (Z.shiftr w (8 * (ii mod 8))) 255) (off + 8 * ii) st) (dst, r) = Ok (d', r + cnt g (8 * ii) (8 * n)) /\
  wrote dst r (outs off (ons g (8 * ii) (8 * n))) d'.
Proof.
  induction n as [|n IH]; intros ii dst r P I R L g C; cbn [for_].
  - exists dst. change (8 * 0)%nat with 0%nat in *. unfold cnt in *. rewrite ons_0 in *. cbn [length map] in *. rewrite Z.add_0_r. split; auto. apply wrote_nil. lia.
  - rewrite rdz_ok by (unfold len in *; lia). cbn [bind]. set (v := Z.land _ 255). replace (8 * S n)%nat with (8 + 8 * n)%nat in * by lia.
    assert (E : map (fun k => 8 * ii + k) (ons (Z.testbit v) 0 8) = ons g (8 * ii) 8). { symmetry. rewrite <- (Z.add_0_r (8 * ii)) at 1. rewrite ons_shift. f_equal. symmetry. apply ons_ext. intros k Hk. unfold v, g. apply mbit_byte; lia. }
    assert (Ec : cnt (Z.testbit v) 0 8 = cnt g (8 * ii) 8) by (unfold cnt; rewrite <- E, map_length; auto).
    rewrite cnt_app in C |- *. change (Z.of_nat 8) with 8 in *. replace (8 * ii + 8) with (8 * (ii + 1)) in * by lia. pose proof (cnt_nonneg g (8 * (ii + 1)) (8 * n)).
    destruct (dense_byte_ok v (off + 8 * ii) dst r R) as (d1&E1&W1). { rewrite Ec. lia. } rewrite E1. cbn [bind]. rewrite Ec in *. pose proof (wrote_len _ _ _ _ W1) as Ld. pose proof (cnt_nonneg g (8 * ii) 8). pose proof (cnt_le g (8 * ii) 8).
    destruct (IH (ii + 1) d1 (r + cnt g (8 * ii) 8)) as (d'&E2&W2); try lia. { rewrite Ld. fold g. lia. } fold g in E2, W2. exists d'. rewrite E2, Z.add_assoc. split; auto.
    rewrite ons_app, map_app. change (Z.of_nat 8) with 8. replace (8 * ii + 8) with (8 * (ii + 1)) by lia. eapply wrote_app2; [| |exact W2].
    + unfold cnt, len. rewrite map_length. reflexivity.
    + rewrite <- E, map_map. replace (map (fun k => tr (off + (8 * ii + k))) (ons (Z.testbit v) 0 8)) with (outs (off + 8 * ii) (ons (Z.testbit v) 0 8)); auto. apply map_ext. intros. f_equal. lia.
Qed.
Lemma where_dense_ok p n off dst r : 0 <= p -> 0 <= n -> 0 <= r -> p + (n + 63) / 64 <= len src -> (forall i, n <= i < 64 * ((n + 63) / 64) -> mbit src (64 * p + i) = false) -> let g i := mbit src (64 * p + i) in
  (r + 8 * ((n + 7) / 8) <= len dst \/ r + cnt g 0 (Z.to_nat n) < len dst) -> exists d',
  where_dense src tr p n off dst r = Ok (d', r + cnt g 0 (Z.to_nat n)) /\ wrote dst r (outs off (ons g 0 (Z.to_nat n))) d'.
Proof.
  intros P N R L T g C. unfold where_dense. assert (E : ons g 0 (8 * Z.to_nat ((n + 7) / 8)) = ons g 0 (Z.to_nat n)) by (apply cut; [lia|]; intros k Hk; apply T; lia).
  assert (Ec : cnt g 0 (8 * Z.to_nat ((n + 7) / 8)) = cnt g 0 (Z.to_nat n)) by (unfold cnt; rewrite E; auto).
  destruct (where_dense_loop p off (Z.to_nat ((n + 7) / 8)) 0 dst r P ltac:(lia) R) as (d'&E1&W); [lia| |]. { change (8 * 0) with 0. fold g. rewrite Ec. lia. }
  change (8 * 0) with 0 in *. fold g in E1, W. exists d'. rewrite E1, Ec. rewrite E in W. auto.
Qed.

(** sparse *)
Lemma sparse_word_ok base r n : forall fuel v dst j, 0 < n <= 64 -> 0 <= v < 2 ^ n -> 0 <= r -> 0 <= j -> cnt (Z.testbit v) 0 (Z.to_nat n) <= Z.of_nat fuel -> r + j + cnt (Z.testbit v) 0 (Z.to_nat n) <= len dst -> exists d',
  sparse_word tr fuel v base dst r j = Ok (d', j + cnt (Z.testbit v) 0 (Z.to_nat n)) /\ wrote dst (r + j) (outs base (ons (Z.testbit v) 0 (Z.to_nat n))) d'.
Proof.
  induction fuel as [|f IH]; intros v dst j Hn V R J F C; cbn [sparse_word]; destruct (Z.eqb_spec v 0) as [->|Nz].
  1,3: assert (E : ons (Z.testbit 0) 0 (Z.to_nat n) = []) by (unfold ons; induction (zseq 0 (Z.to_nat n)); cbn [filter]; rewrite ?Z.bits_0; auto); exists dst; unfold cnt in *; rewrite E in *; cbn [length map] in *; rewrite Z.add_0_r; split; auto; apply wrote_nil; lia.
  - exfalso. destruct (lowest n v Hn V Nz) as (c&_&_&E&_). unfold cnt in F. rewrite E in F. cbn [length] in F. lia.
  - destruct (lowest n v Hn V Nz) as (c&Ec&Hc&E&V'). rewrite Ec. cbn [bind]. unfold cnt in *. rewrite E in *. cbn [length map] in *. destruct (wrote_one dst (r + j) (tr (base + c)) ltac:(lia)) as (d1&E1&W1). rewrite E1. cbn [bind].
    destruct (IH (Z.land v (v - 1)) d1 (j + 1)) as (d'&E2&W2); auto; try lia. { rewrite (wrote_len _ _ _ _ W1). lia. } exists d'. rewrite E2. split; [do 2 f_equal; lia|]. change (tr (base + c) :: ?l) with ([tr (base + c)] ++ l). eapply wrote_app2; [|exact W1|]; [reflexivity|]. unfold len. cbn [length]. replace (r + j + Z.of_nat 1) with (r + (j + 1)) by lia. exact W2.
Qed.
Lemma word_ons p ii : 0 <= p + ii -> ons (fun i => mbit src (64 * p + i)) (64 * ii) 64 = map (fun k => 64 * ii + k) (ons (Z.testbit (word src (p + ii))) 0 64).
Proof. intros H. rewrite <- (Z.add_0_r (64 * ii)) at 1. rewrite ons_shift. f_equal. apply ons_ext. intros k Hk. rewrite <- mbit_word by lia. f_equal. lia. Qed.
Lemma zn64 : Z.of_nat 64 = 64. Proof. reflexivity. Qed.
Lemma nz64 : Z.to_nat 64 = 64%nat. Proof. reflexivity. Qed.
Lemma sparse_step p r ii j dst : 0 <= p -> 0 <= ii -> 0 <= r -> 0 <= j -> let g i := mbit src (64 * p + i) in r + j + cnt g (64 * ii) 64 <= len dst ->
  exists d1, sparse_word tr 64 (word src (p + ii)) (ii * 64) dst r j = Ok (d1, j + cnt g (64 * ii) 64) /\ wrote dst (r + j) (outs 0 (ons g (64 * ii) 64)) d1.
Proof.
  intros P I R J g C. pose proof (word_range src (p + ii) Ws) as Wr. pose proof (word_ons p ii ltac:(lia)) as Wo. fold g in Wo. set (v := word src (p + ii)) in *.
  assert (Ec : cnt (Z.testbit v) 0 64 = cnt g (64 * ii) 64) by (unfold cnt; rewrite Wo, map_length; auto). pose proof (cnt_le (Z.testbit v) 0 64) as Cl.
  destruct (sparse_word_ok (ii * 64) r 64 64 v dst j ltac:(lia) Wr R J) as (d1&E1&W1). { rewrite nz64. exact Cl. } { rewrite nz64, Ec. exact C. }
  rewrite nz64, Ec in *. exists d1. split; [exact E1|]. rewrite Wo, map_map. replace (map (fun x => tr (0 + (64 * ii + x))) (ons (Z.testbit v) 0 64)) with (outs (ii * 64) (ons (Z.testbit v) 0 64)); [exact W1|]. apply map_ext. intros. f_equal. lia.
Qed.
Lemma where_sparse_ok p r N : forall fuel ii j dst s, 0 <= p -> 0 <= ii -> 0 <= r -> 0 <= j -> let g i := mbit src (64 * p + i) in s - j = cnt g (64 * ii) (64 * N) -> p + ii + Z.of_nat N <= len src -> (N < fuel)%nat -> r + s <= len dst ->
  exists d', where_sparse src tr fuel p s dst r ii j = Ok d' /\ wrote dst (r + j) (outs 0 (ons g (64 * ii) (64 * N))) d'.
Proof.
  induction N as [|N IH]; intros fuel ii j dst s P I R J g Sj L F C; (destruct fuel as [|f]; [lia|]); cbn [where_sparse].
  - rewrite Nat.mul_0_r in *. unfold cnt in Sj. rewrite ons_0 in *. cbn [length map] in *. destruct (Z.leb_spec s j); [|lia]. exists dst. split; auto. apply wrote_nil. lia.
  - destruct (Z.leb_spec s j).
    + exists dst. split; auto. pose proof (cnt_nonneg g (64 * ii) (64 * S N)). rewrite ons_none by lia. cbn [map]. apply wrote_nil. lia.
    + rewrite rdz_ok by (unfold len in *; lia). cbn [bind]. pose proof (sparse_step p r ii j dst P I R J) as St. cbv zeta in St. fold g in St. pose proof (cnt_nonneg g (64 * ii) 64) as C0.
      rewrite Nat.mul_succ_r, Nat.add_comm in *. rewrite cnt_app in Sj. rewrite ons_app, map_app. rewrite zn64 in *. replace (64 * ii + 64) with (64 * (ii + 1)) in * by lia.
      pose proof (cnt_nonneg g (64 * (ii + 1)) (64 * N)). destruct St as (d1&E1&W1); [lia|]. rewrite E1. cbn [bind].
      destruct (IH f (ii + 1) (j + cnt g (64 * ii) 64) d1 s P ltac:(lia) R ltac:(lia)) as (d'&E2&W2); [fold g; lia|lia|lia|rewrite (wrote_len _ _ _ _ W1); lia|]. fold g in W2. exists d'. split; [exact E2|].
      eapply wrote_app2; [|exact W1|exact W2]. unfold len. rewrite map_length. unfold cnt. lia.
Qed.
End Src.
