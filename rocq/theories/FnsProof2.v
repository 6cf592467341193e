From Verif Require Import Base BitsModel SqueezeModel SqueezeProof ReuseModel TransSpec RevBitModel RevBitProof FnsModel FnsSpec FnsProof.
From Coq Require Import List.
Open Scope Z_scope.

(** * counting in a word *)
Lemma bw_bit l : forall junk k, 0 <= k -> Z.testbit (bits_word l junk) k = if k <? Z.of_nat (length l) then nth (Z.to_nat k) l false else Z.testbit junk (k - Z.of_nat (length l)).
Proof.
  induction l as [|b l IH]; intros junk k K; cbn [bits_word length].
  - replace (k <? Z.of_nat 0) with false by lia. f_equal. lia.
  - replace (Z.b2z b + 2 * bits_word l junk) with (2 * bits_word l junk + Z.b2z b) by lia. destruct (Z.eq_dec k 0) as [->|NE].
    + rewrite Z.testbit_0_r. reflexivity.
    + replace k with (Z.succ (k - 1)) by lia. rewrite Z.testbit_succ_r by lia. rewrite IH by lia.
      replace (Z.to_nat (Z.succ (k - 1))) with (S (Z.to_nat (k - 1))) by lia. cbn [nth].
      destruct (Z.ltb_spec (k - 1) (Z.of_nat (length l))); destruct (Z.ltb_spec (Z.succ (k - 1)) (Z.of_nat (S (length l)))); try lia; auto. f_equal. lia.
Qed.
Lemma to_u_bit k z j : 0 <= k -> 0 <= j -> Z.testbit (to_u k z) j = (j <? k) && Z.testbit z j.
Proof.
  intros K J. unfold to_u. destruct (Z.ltb_spec j k); cbn [andb]; [apply Z.mod_pow2_bits_low; lia|apply Z.mod_pow2_bits_high; lia].
Qed.
Lemma low_bit y n k : 0 < n <= 64 -> 0 <= k -> Z.testbit (bit_reverse64_low y n) k = (k <? n) && Z.testbit y (n - 1 - k).
Proof.
  intros N K. unfold bit_reverse64_low. rewrite Z.shiftr_spec by lia. destruct (Z.ltb_spec k n); cbn [andb].
  - rewrite bit_reverse_ok by lia. f_equal. lia.
  - pose proof (rev_clean y) as C. unfold clean in C. apply C. lia.
Qed.
Definition masked (c : nat) : bool := negb (Z.of_nat c =? 2).
Lemma mask_ok sh junk : (0 < length sh <= 64)%nat -> count_mask (map Z.of_nat sh) junk = bits_word (rev (map masked sh)) 0.
Proof.
  intros L. unfold count_mask. rewrite map_length. set (n := Z.of_nat (length sh)). cbv zeta.
  assert (M : forall k, 0 <= k -> Z.testbit (bit_reverse64_low (to_u 64 (Z.lnot (to_u 64 (bits_word (map (fun c => c =? 2) (map Z.of_nat sh)) junk)))) n) k = Z.testbit (bits_word (rev (map masked sh)) 0) k).
  { intros k K. rewrite low_bit by lia. rewrite bw_bit by lia. rewrite rev_length, map_length. fold n. destruct (Z.ltb_spec k n) as [Hk|Hk]; cbn [andb]; [|rewrite Z.testbit_0_l; reflexivity].
    rewrite to_u_bit by lia. replace (n - 1 - k <? 64) with true by lia. cbn [andb]. rewrite Z.lnot_spec by lia. rewrite to_u_bit by lia. replace (n - 1 - k <? 64) with true by lia. cbn [andb].
    rewrite bw_bit by lia. rewrite !map_length. fold n. replace (n - 1 - k <? n) with true by lia. rewrite rev_nth by (rewrite map_length; lia). rewrite map_length, map_map.
    rewrite (nth_indep (map masked sh) false (masked 0)) by (rewrite map_length; lia). rewrite (nth_indep _ false ((fun c => Z.of_nat c =? 2) 0%nat)) by (rewrite map_length; lia).
    rewrite (map_nth masked), (map_nth (fun c => Z.of_nat c =? 2)). unfold masked. do 4 f_equal. lia. }
  apply Z.bits_inj'. intros k K. destruct (Z.ltb_spec n 64) as [Hn|Hn]; [|apply M; lia].
  rewrite Z.land_spec, M by lia. rewrite Z.sub_1_r, <- Z.ones_equiv. rewrite bw_bit by lia. rewrite rev_length, map_length. fold n. destruct (Z.ltb_spec k n).
  - rewrite Z.ones_spec_low by lia. apply andb_true_r.
  - rewrite Z.testbit_0_l. reflexivity.
Qed.
Fixpoint bl (ms : list bool) (c : Z) : list Z := match ms with [] => [] | b :: ms => (if b then 0 else c mod 2) :: bl ms (c / 2) end.
Fixpoint dg (ms : list bool) (t : Z) : list Z := match ms with [] => [] | true :: ms => 0 :: dg ms t | false :: ms => t mod 2 :: dg ms (t / 2) end.
Lemma bl_len ms : forall c, length (bl ms c) = length ms. Proof. induction ms; intros; cbn [bl length]; auto. Qed.
Lemma bl_nth ms : forall c k, (k < length ms)%nat -> nth k (bl ms c) 0 = Z.b2z (Z.testbit c (Z.of_nat k) && negb (nth k ms false)).
Proof.
  induction ms as [|b ms IH]; intros c k K; cbn [length] in K; [lia|]. destruct k as [|k]; cbn [bl nth].
  - change (Z.of_nat 0) with 0. destruct b; cbn [negb]; [rewrite andb_false_r; reflexivity|]. rewrite andb_true_r, Z.bit0_mod. reflexivity.
  - rewrite IH by lia. replace (Z.of_nat (S k)) with (Z.succ (Z.of_nat k)) by lia. rewrite Z.div2_bits by lia. reflexivity.
Qed.
Lemma lor2 c b v : Z.lor c (Z.b2z b + 2 * v) = (if b then 1 else c mod 2) + 2 * Z.lor (c / 2) v.
Proof.
  apply Z.bits_inj'. intros k K. rewrite Z.lor_spec. replace (Z.b2z b + 2 * v) with (2 * v + Z.b2z b) by lia.
  assert (E : exists q, (if b then 1 else c mod 2) = Z.b2z q /\ (q = Z.testbit c 0 || b)). 
  { exists (Z.testbit c 0 || b). split; [|reflexivity]. rewrite Z.bit0_eqb. destruct b; [rewrite orb_true_r; reflexivity|]. rewrite orb_false_r. pose proof (Z.mod_pos_bound c 2 ltac:(lia)). destruct (Z.eqb_spec (c mod 2) 1); cbn [Z.b2z]; lia. }
  destruct E as (q & -> & ->). replace (Z.b2z (Z.testbit c 0 || b) + 2 * Z.lor (c / 2) v) with (2 * Z.lor (c / 2) v + Z.b2z (Z.testbit c 0 || b)) by lia.
  destruct (Z.eq_dec k 0) as [->|NE]; [rewrite !Z.testbit_0_r; reflexivity|].
  replace k with (Z.succ (k - 1)) by lia. rewrite !Z.testbit_succ_r by lia. rewrite Z.lor_spec. f_equal. rewrite Z.div2_bits by lia. reflexivity.
Qed.
Lemma bl_or ms : forall c, bl ms (Z.lor c (bits_word ms 0)) = bl ms c.
Proof.
  induction ms as [|b ms IH]; intros c; [reflexivity|]. cbn [bits_word bl]. rewrite lor2. f_equal.
  - destruct b; [reflexivity|]. pose proof (Z.mod_pos_bound c 2 ltac:(lia)). rewrite (Z.mul_comm 2), Z.mod_add by lia. apply Z.mod_small. lia.
  - assert (E : ((if b then 1 else c mod 2) + 2 * Z.lor (c / 2) (bits_word ms 0)) / 2 = Z.lor (c / 2) (bits_word ms 0)).
    { pose proof (Z.mod_pos_bound c 2 ltac:(lia)). rewrite Z.add_comm, (Z.mul_comm 2), Z.div_add_l by lia. rewrite (Z.div_small (if b then 1 else c mod 2)) by (destruct b; lia). lia. }
    rewrite E. apply IH.
Qed.
Lemma bl_inc ms : forall c t, bl ms c = dg ms t -> bl ms (Z.lor c (bits_word ms 0) + 1) = dg ms (t + 1).
Proof.
  induction ms as [|b ms IH]; intros c t E; [reflexivity|]. cbn [bits_word bl] in *. rewrite lor2. set (L := Z.lor (c / 2) (bits_word ms 0)) in *.
  destruct b; cbn [dg] in *.
  - injection E as E. replace (1 + 2 * L + 1) with ((L + 1) * 2) by lia. rewrite Z.div_mul by lia. f_equal. apply IH. exact E.
  - injection E as E0 E. rewrite E0. assert (T : t mod 2 = 0 \/ t mod 2 = 1) by (pose proof (Z.mod_pos_bound t 2 ltac:(lia)); lia). pose proof (Z.div_mod t 2 ltac:(lia)) as D. destruct T as [T|T]; rewrite T in *.
    + replace (0 + 2 * L + 1) with (1 + L * 2) by lia. rewrite Z.mod_add, Z.div_add by lia. replace (t + 1) with (1 + (t / 2) * 2) by lia. rewrite Z.mod_add, Z.div_add by lia. change (1 mod 2) with 1. change (1 / 2) with 0. cbn [Z.add]. f_equal.
      unfold L. rewrite bl_or. exact E.
    + replace (1 + 2 * L + 1) with (0 + (L + 1) * 2) by lia. rewrite Z.mod_add, Z.div_add by lia. replace (t + 1) with (0 + (t / 2 + 1) * 2) by lia. rewrite Z.mod_add, Z.div_add by lia. change (0 mod 2) with 0. change (0 / 2) with 0. cbn [Z.add]. f_equal.
      apply IH. exact E.
Qed.
Lemma bl_mod ms : forall k z, Z.of_nat (length ms) <= k -> bl ms (z mod 2 ^ k) = bl ms z.
Proof.
  induction ms as [|b ms IH]; intros k z K; [reflexivity|]. cbn [length] in K. cbn [bl].
  assert (E : 2 ^ k = 2 * 2 ^ (k - 1)) by (rewrite <- Z.pow_succ_r by lia; f_equal; lia). assert (P : 0 < 2 ^ (k - 1)) by (apply Z.pow_pos_nonneg; lia).
  assert (M : (z mod 2 ^ k) mod 2 = z mod 2). { rewrite E. rewrite Z.rem_mul_r by lia. rewrite (Z.mul_comm 2), Z.mod_add by lia. apply Z.mod_mod. lia. }
  assert (D : (z mod 2 ^ k) / 2 = (z / 2) mod 2 ^ (k - 1)). { rewrite E. rewrite Z.rem_mul_r by lia. rewrite Z.add_comm, (Z.mul_comm 2), Z.div_add_l by lia. rewrite (Z.div_small (z mod 2)) by (apply Z.mod_pos_bound; lia). lia. }
  rewrite M, D, IH by lia. reflexivity.
Qed.
Lemma bl_init ms : bl ms (bits_word ms 0) = dg ms 0.
Proof.
  induction ms as [|b ms IH]; [reflexivity|]. cbn [bits_word bl dg]. rewrite Z.add_comm, (Z.mul_comm 2), Z.div_add_l by lia. replace (Z.b2z b / 2) with 0 by (destruct b; reflexivity). rewrite Z.add_0_r, IH.
  destruct b; [reflexivity|]. change (Z.b2z false) with 0. rewrite Z.add_0_r, Z.mod_mul by lia. reflexivity.
Qed.
Lemma element_ok ms c : (0 < length ms <= 64)%nat -> word_bits (length ms) (bit_reverse64_low (Z.land c (Z.lnot (bits_word ms 0))) (Z.of_nat (length ms))) = rev (bl ms c).
Proof.
  intros L. apply (nth_ext _ _ 0 0); [unfold word_bits; rewrite map_length, seq_length, rev_length, bl_len; reflexivity|].
  intros k K. unfold word_bits in *. rewrite map_length, seq_length in K. set (f := fun k0 => Z.b2z _). rewrite (nth_indep _ 0 (f 0%nat)) by (rewrite map_length, seq_length; lia). rewrite (map_nth f), seq_nth by lia. unfold f. cbn [Nat.add].
  rewrite low_bit by lia. replace (Z.of_nat k <? Z.of_nat (length ms)) with true by lia. cbn [andb]. rewrite rev_nth by (rewrite bl_len; lia). rewrite bl_len, bl_nth by lia.
  replace (Z.of_nat (length ms) - 1 - Z.of_nat k) with (Z.of_nat (length ms - S k)) by lia. rewrite Z.land_spec, Z.lnot_spec, bw_bit by lia.
  replace (Z.of_nat (length ms - S k) <? Z.of_nat (length ms)) with true by lia. rewrite Nat2Z.id. reflexivity.
Qed.
Lemma count_ok ms : (0 < length ms <= 64)%nat -> forall i c t, bl ms c = dg ms (Z.of_nat t) -> count_bits (length ms) (bits_word ms 0) c i = map (fun t => rev (dg ms (Z.of_nat t))) (seq t i).
Proof.
  intros L. induction i as [|i IH]; intros c t E; [reflexivity|]. cbn [count_bits seq map]. rewrite element_ok, E by auto. f_equal. apply IH.
  unfold to_u. rewrite bl_mod by lia. rewrite (bl_inc _ _ _ E). f_equal. lia.
Qed.
Lemma inb_len' sh I : inb sh I -> length I = length sh. Proof. induction 1; cbn [length]; lia. Qed.
Lemma ravel_snoc sh d I i : length I = length sh -> ravel (sh ++ [d]) (I ++ [i]) = (ravel sh I * d + i)%nat.
Proof.
  revert I. induction sh as [|l sh IH]; intros [|j I] H; cbn [length] in H; try lia; [cbn; lia|]. cbn [app ravel]. rewrite IH by lia.
  assert (S : size (sh ++ [d]) = (size sh * d)%nat) by (clear; induction sh as [|l sh IH]; [cbn; lia|]; change (size ((l :: sh) ++ [d])) with (l * size (sh ++ [d]))%nat; rewrite IH; change (size (l :: sh)) with (l * size sh)%nat; lia).
  rewrite S. lia.
Qed.
Lemma dg_ravel sh : forall I, inb sh I -> Forall (fun d => d = 1 \/ d = 2)%nat sh -> dg (rev (map masked sh)) (Z.of_nat (ravel sh I)) = rev (map Z.of_nat I).
Proof.
  induction sh as [|d sh IH] using rev_ind; intros I H F.
  - inversion H; subst. reflexivity.
  - apply Forall2_app_inv_l in H. destruct H as (I1 & I2 & H1 & H2 & ->). inversion H2 as [|? i ? ? Hi H3]; subst. inversion H3; subst. apply Forall_app in F. destruct F as [F F2]. apply Forall_inv in F2.
    rewrite ravel_snoc by (apply inb_len'; exact H1). rewrite !map_app, !rev_app_distr. cbn [map rev app].
    specialize (IH I1 H1 F). destruct F2 as [-> | ->].
    + change (masked 1) with true. cbn [dg]. f_equal; [lia|]. rewrite <- IH. f_equal. lia.
    + change (masked 2) with false. cbn [dg]. replace (Z.of_nat (ravel sh I1 * 2 + i)) with (Z.of_nat i + Z.of_nat (ravel sh I1) * 2) by lia. rewrite Z.mod_add, Z.div_add by lia.
      rewrite (Z.mod_small (Z.of_nat i)), (Z.div_small (Z.of_nat i)) by lia. cbn [Z.add]. f_equal. exact IH.
Qed.

(** * Range of a list *)
Lemma o2s_all_ok l : Forall (fun z => 0 <= z < 2 ^ 32) l -> o2s_all (map VNum l) = Ok l.
Proof. induction 1 as [|z l H F IH]; [reflexivity|]. cbn [map o2s_all]. rewrite o2s_ok by auto. cbn [bind]. rewrite IH. reflexivity. Qed.
Definition zprod (l : list Z) : Z := fold_right Z.mul 1 l.
Lemma zprod_size sh : zprod (map Z.of_nat sh) = Z.of_nat (size sh).
Proof. induction sh as [|l sh IH]; [reflexivity|]. cbn [map]. change (zprod (Z.of_nat l :: map Z.of_nat sh)) with (Z.of_nat l * zprod (map Z.of_nat sh)). rewrite IH. change (size (l :: sh)) with (l * size sh)%nat. lia. Qed.
Lemma scan_ok l : forall bad ria mn mx p, Forall (fun c => 0 <= c) l -> ria = p mod 2 ^ 32 -> 0 <= p -> (bad = false -> p < 2 ^ 32) -> (bad = true -> p = 0 \/ 2 ^ 32 <= p) -> 0 <= mn -> (mn = 0 <-> p = 0) ->
  exists bad' mn' mx', scan_lens l bad ria mn mx = (bad', (p * zprod l) mod 2 ^ 32, mn', mx') /\ (bad' = false -> p * zprod l < 2 ^ 32) /\ (bad' = true -> p * zprod l = 0 \/ 2 ^ 32 <= p * zprod l) /\ (mn' = 0 <-> p * zprod l = 0) /\ mx <= mx' /\ Forall (fun c => c <= mx') l /\ forall B, mx <= B -> Forall (fun c => c <= B) l -> mx' <= B.
Proof.
  induction l as [|c l IH]; intros bad ria mn mx p F ER P0 B0 B1 M0 M1.
  - exists bad, mn, mx. cbn [scan_lens]. change (zprod []) with 1. rewrite Z.mul_1_r. repeat split; auto; try lia. rewrite ER; reflexivity.
  - cbn [scan_lens]. pose proof (Forall_inv F) as C0. pose proof (Forall_inv_tail F) as FT. cbv beta in C0.
    assert (NZ : 0 <= p * c) by (apply Z.mul_nonneg_nonneg; lia).
    destruct (IH (bad || (2 ^ 32 <=? ria * c)) (to_u 32 (ria * c)) (Z.min mn c) (Z.max mx c) (p * c)) as (b' & m' & x' & E & H1 & H2 & H3 & H4 & H5 & H6); auto.
    + unfold to_u. rewrite ER. rewrite Z.mul_mod_idemp_l by lia. reflexivity.
    + intros Hb. apply orb_false_iff in Hb. destruct Hb as [Hb Hr]. rewrite (Z.mod_small p) in ER by (specialize (B0 Hb); lia). subst ria. lia.
    + intros Hb. destruct bad.
      * destruct (B1 eq_refl) as [-> |B]; [left; lia|]. destruct (Z.eq_dec c 0) as [-> |]; [left; lia|right]. assert (2 ^ 32 * 1 <= p * c) by (apply Z.mul_le_mono_nonneg; lia). lia.
      * cbn [orb] in Hb. rewrite (Z.mod_small p) in ER by (specialize (B0 eq_refl); lia). subst ria. right. lia.
    + lia.
    + clear -M1 M0 C0. split; intros H; [|apply Z.eq_mul_0 in H; lia]. destruct (Z.min_spec mn c) as [[? E]|[? E]]; rewrite E in H; [destruct M1 as [M1 _]; rewrite (M1 H); lia|subst c; lia].
    + replace (p * zprod (c :: l)) with (p * c * zprod l) by (cbn [zprod fold_right]; fold (zprod l); lia).
      exists b', m', x'. rewrite E. split; [reflexivity|]. split; [auto|]. split; [auto|]. split; [auto|]. split; [lia|]. split; [constructor; [lia|auto]|].
      intros B HB FB. apply H6; [pose proof (Forall_inv FB); cbv beta in *; lia|apply (Forall_inv_tail FB)].
Qed.
Definition range_fits (sh : list nat) : Prop := (length sh <= 255)%nat /\ Z.of_nat (size sh) < 2 ^ 32 /\ Forall (fun l => Z.of_nat l <= 2 ^ 31) sh.
Lemma size_pos sh : size sh <> 0%nat -> Forall (fun l => 0 < l)%nat sh.
Proof. induction sh as [|l sh IH]; intros H; constructor; change (size (l :: sh)) with (l * size sh)%nat in H; [destruct l; lia|apply IH; lia]. Qed.
Lemma allidx_all sh : all_indices sh (map (map Z.of_nat) (allidx sh)).
Proof. split; [unfold array; rewrite map_length; apply allidx_len|]. intros I H. unfold elt. rewrite nth_error_map, allidx_elt by auto. reflexivity. Qed.
Lemma zeros_in sh : Forall (fun l => 0 < l)%nat sh -> inb sh (repeat 0%nat (length sh)) /\ ravel sh (repeat 0%nat (length sh)) = 0%nat.
Proof. induction 1 as [|l sh H F [IH1 IH2]]; [split; [constructor|reflexivity]|]. cbn [length repeat ravel]. split; [constructor; auto|]. rewrite IH2. lia. Qed.
Lemma range_list_ok pos junk sh : length pos = length sh -> Forall (fun l => Z.of_nat l < 2 ^ 32) sh ->
  match range_list pos junk 1 (map VNum (map Z.of_nat sh)) with
  | Ok (rsh, r, f) => range_fits sh /\ rsh = map Z.of_nat sh /\ all_indices sh r /\ f = repeat 0 (length sh)
  | Err => ~ range_fits sh
  | UB => False
  end.
Proof.
  intros LP F. unfold range_list. cbn [Nat.eqb negb]. rewrite !map_length.
  destruct (Z.ltb_spec 255 (Z.of_nat (length sh))) as [L|L]; [intros (H & _); lia|].
  destruct sh as [|l sh].
  { cbn [map]. split; [split; [cbn; lia|split; [cbn; lia|constructor]]|]. split; [reflexivity|]. split; [|reflexivity]. split; [reflexivity|]. intros I H. inversion H; subst. reflexivity. }
  cbn [map]. pose proof (Forall_inv F) as F0. pose proof (Forall_inv_tail F) as FT. cbv beta in F0. rewrite o2s_ok by lia. cbn [bind].
  rewrite o2s_all_ok by (apply Forall_map; eapply Forall_impl; [|exact FT]; cbv beta; lia). cbn [bind].
  destruct (scan_ok (map Z.of_nat sh) false (Z.of_nat l) (Z.of_nat l) (Z.of_nat l) (Z.of_nat l)) as (bad & mn & mx & E & H1 & H2 & H3 & H4 & H5 & H6); try lia.
  { apply Forall_map. apply Forall_forall. intros; lia. }
  rewrite zprod_size in *. replace (Z.of_nat l * Z.of_nat (size sh)) with (Z.of_nat (size (l :: sh))) in * by (change (size (l :: sh)) with (l * size sh)%nat; lia).
  rewrite E. clear E. set (N := size (l :: sh)) in *.
  destruct ((bad && negb (mn =? 0)) || (1 + 2147483647 <? mx)) eqn:C.
  { intros (_ & S1 & S2). apply orb_true_iff in C. destruct C as [C|C].
    - apply andb_true_iff in C. destruct C as [-> C]. specialize (H2 eq_refl). fold N in S1. assert (mn <> 0) by lia. assert (Z.of_nat N <> 0) by tauto. lia.
    - assert (mx <= 2 ^ 31). { apply H6; [apply (Forall_inv S2)|]. apply Forall_map. apply (Forall_inv_tail S2). } lia. }
  apply orb_false_iff in C. destruct C as [C1 C2].
  assert (NB : Z.of_nat N < 2 ^ 32). { destruct bad; [|apply H1; reflexivity]. cbn [andb] in C1. assert (mn = 0) by lia. assert (Z.of_nat N = 0) by tauto. lia. }
  rewrite Z.mod_small by lia.
  assert (MX : forall v, In v (l :: sh) -> Z.of_nat v <= mx). { intros v [<- |Hv]; [lia|]. rewrite Forall_forall in H5. apply H5. apply in_map. exact Hv. }
  assert (RF : range_fits (l :: sh)). { split; [lia|]. split; [exact NB|]. apply Forall_forall. intros v Hv. specialize (MX v Hv). lia. }
  cbv zeta. destruct (Z.eqb_spec (Z.of_nat N) 0) as [Z0|Z0]; cbn [negb].
  { split; [exact RF|]. split; [reflexivity|]. split; [|reflexivity]. split; [unfold array; fold N; cbn [length]; lia|]. intros I HI. apply ravel_lt' in HI. fold N in HI. lia. }
  assert (POS : Forall (fun l => 0 < l)%nat (l :: sh)) by (apply size_pos; fold N; lia).
  destruct (zeros_in _ POS) as [ZI ZR].
  assert (FIN : forall r, all_indices (l :: sh) r -> match (do f <- rd r 0; Ok (Z.of_nat l :: map Z.of_nat sh, r, f)) with Ok (rsh, r, f) => range_fits (l :: sh) /\ rsh = Z.of_nat l :: map Z.of_nat sh /\ all_indices (l :: sh) r /\ f = repeat 0 (length (l :: sh)) | Err => ~ range_fits (l :: sh) | UB => False end).
  { intros r [R1 R2]. unfold rd. specialize (R2 _ ZI) as R3. unfold elt in R3. rewrite ZR in R3. rewrite R3. cbn [bind]. split; [exact RF|]. split; [reflexivity|]. split; [split; auto|]. clear. induction (length (l :: sh)) as [|n IH]; [reflexivity|]. cbn [repeat map]. rewrite IH. reflexivity. }
  assert (REC : forall k, 0 < k -> mx <= 2 ^ (k - 1) -> (do (_, l0) <- ud_rec k (length (l :: sh)) 0 (length (l :: sh)) pos (Z.of_nat l :: map Z.of_nat sh) []; if (length l0 =? Z.to_nat (Z.of_nat N))%nat then Ok l0 else UB) = Ok (map (map Z.of_nat) (allidx (l :: sh)))).
  { intros k K B. destruct (ud_ok k K (l :: sh) [] pos [] (length (l :: sh))) as (p' & E & _); [discriminate|lia|exact LP|apply Forall_forall; intros v Hv; specialize (MX v Hv); lia|].
    cbn [app length] in E. cbn [map] in E. cbn [length]. rewrite E. cbn [bind app firstn]. rewrite map_length, allidx_len. fold N. replace (N =? Z.to_nat (Z.of_nat N))%nat with true by lia. reflexivity. }
  destruct ((mx =? 2) && (Z.of_nat (length (l :: sh)) <=? 64)) eqn:C3.
  - apply andb_true_iff in C3. destruct C3 as [C3 C4]. change (Z.of_nat l :: map Z.of_nat sh) with (map Z.of_nat (l :: sh)). rewrite mask_ok by (cbn [length] in *; lia).
    set (ms := rev (map masked (l :: sh))). assert (LM : length ms = length (l :: sh)) by (unfold ms; rewrite rev_length, map_length; reflexivity). cbn [bind]. apply FIN.
    rewrite Nat2Z.id, <- LM. rewrite (count_ok ms ltac:(cbn [length] in *; lia) N _ 0 (bl_init ms)). split; [unfold array; rewrite map_length, seq_length; reflexivity|].
    intros I HI. pose proof (ravel_lt' _ _ HI) as RL. fold N in RL. unfold elt. rewrite nth_error_map.
    rewrite (nth_error_nth' _ 0%nat) by (rewrite seq_length; exact RL). rewrite seq_nth by exact RL. cbn [option_map Nat.add]. unfold ms. rewrite dg_ravel; [rewrite rev_involutive; reflexivity|exact HI|].
    apply Forall_forall. intros v Hv. specialize (MX v Hv). rewrite Forall_forall in POS. specialize (POS v Hv). lia.
  - destruct (Z.leb_spec mx (1 + 127)); [rewrite REC by (try lia; change (2 ^ (8 - 1)) with 128; lia); apply FIN, allidx_all|].
    destruct (Z.leb_spec mx (1 + 32767)); [rewrite REC by (try lia; change (2 ^ (16 - 1)) with 32768; lia); apply FIN, allidx_all|].
    rewrite REC by (try lia; change (2 ^ (32 - 1)) with 2147483648; lia). apply FIN, allidx_all.
Qed.
