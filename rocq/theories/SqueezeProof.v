From Verif Require Import Base BitLemmas TagModel TagSpec TagProof NumSpec NumProof ArrSpec SqueezeModel SqueezeSpec.

(** ** Arithmetic of the key and of the OR accumulator *)
Lemma land_even u : 0 <= u < 2^32 -> Z.land u (2^32 - 2) = u - u mod 2.
Proof.
  intros H. replace (2^32-2) with (Z.ldiff (Z.ones 32) (Z.ones 1)) by reflexivity.
  assert (E : Z.land u (Z.ldiff (Z.ones 32) (Z.ones 1)) = Z.ldiff (Z.land u (Z.ones 32)) (Z.ones 1)).
  { apply Z.bits_inj'. intros n Hn. rewrite ?Z.land_spec, ?Z.ldiff_spec, ?Z.land_spec. destruct (Z.testbit u n), (Z.testbit (Z.ones 32) n); reflexivity. }
  rewrite E, Z.land_ones by lia. rewrite Z.mod_small by lia. rewrite Z.ldiff_ones_r by lia. rewrite Z.shiftr_div_pow2, Z.shiftl_mul_pow2 by lia. change (2^1) with 2. lia.
Qed.
Lemma lxor_ones u : 0 <= u < 2^32 -> Z.lxor u (2^32-1) = 2^32 - 1 - u.
Proof.
  intros H. change (2^32-1) with (Z.ones 32).
  assert (T : forall n, 0 <= n -> Z.testbit u n = true -> Z.testbit (Z.ones 32) n = true).
  { intros n Hn Hu. destruct (Z.ltb_spec n 32); [apply Z.ones_spec_low; lia|]. exfalso.
    destruct (Z.eq_dec u 0) as [e|ne]; [rewrite e, Z.bits_0 in Hu; discriminate|]. rewrite Z.bits_above_log2 in Hu; [discriminate|lia|].
    assert (Z.log2 u < 32) by (apply Z.log2_lt_pow2; lia). lia. }
  rewrite Z.sub_nocarry_ldiff.
  - apply Z.bits_inj'. intros n Hn. rewrite Z.lxor_spec, Z.ldiff_spec. specialize (T n Hn). destruct (Z.testbit u n); [rewrite T by auto; reflexivity|destruct (Z.testbit (Z.ones 32) n); reflexivity].
  - apply Z.bits_inj'. intros n Hn. rewrite Z.ldiff_spec, Z.bits_0. specialize (T n Hn). destruct (Z.testbit u n); [rewrite T by auto; reflexivity|reflexivity].
Qed.
Definition i32 (c : Z) : Prop := -2147483648 <= c <= 2147483647.
Lemma key_eq c : i32 c -> key c = if c <? 0 then -1 - c + c mod 2 else c - c mod 2.
Proof.
  unfold i32, key. intros H. destruct (Z.ltb_spec c 0).
  - assert (E : c mod 2^32 = c + 2^32). { replace c with ((c + 2^32) + (-1) * 2^32) at 1 by ring. rewrite Z.mod_add by lia. apply Z.mod_small. lia. }
    rewrite E, land_even by lia. replace ((c / 2^31) mod 2^32) with (2^32-1).
    2:{ assert (c / 2^31 = -1) as -> by (change (2^31) with 2147483648; lia). reflexivity. }
    rewrite lxor_ones by (change (2^32) with 4294967296; lia). change (2^32) with 4294967296. lia.
  - rewrite Z.mod_small by lia. rewrite land_even by lia.
    assert (c / 2^31 = 0) as -> by (change (2^31) with 2147483648; lia). rewrite Z.mod_0_l by lia. rewrite Z.lxor_0_r. reflexivity.
Qed.
Lemma lor_le a b k : 0 <= k -> 0 <= a -> 0 <= b -> (Z.lor a b < 2^k <-> a < 2^k /\ b < 2^k).
Proof.
  intros K A B. assert (P : 0 < 2^k) by (apply Z.pow_pos_nonneg; lia).
  assert (G : forall x, 0 <= x -> (x < 2^k <-> Z.shiftr x k = 0)).
  { intros x X. rewrite Z.shiftr_div_pow2 by lia. split; intros H. - apply Z.div_small; lia.
    - apply Z.div_small_iff in H; lia. }
  rewrite !G by (auto; apply Z.lor_nonneg; auto). rewrite Z.shiftr_lor. apply Z.lor_eq_0_iff.
Qed.
Lemma or_keys_from (f : Z -> Z) l k o : 0 <= k -> 0 <= o -> Forall (fun c => 0 <= f c) l ->
  0 <= fold_left (fun o c => Z.lor o (f c)) l o /\
  (fold_left (fun o c => Z.lor o (f c)) l o < 2^k <-> o < 2^k /\ Forall (fun c => f c < 2^k) l).
Proof.
  intros K. revert o. induction l as [|c l IH]; intros o O F; cbn [fold_left].
  - split; auto. split; [intros H; split; auto|intros [H _]; auto].
  - inversion F as [|? ? F1 F2]; subst. assert (Q : 0 <= Z.lor o (f c)) by (apply Z.lor_nonneg; auto).
    destruct (IH _ Q F2) as [I1 I2]. split; auto. rewrite I2, lor_le by auto. rewrite Forall_cons_iff. tauto.
Qed.

(** ** Denotations *)
Lemma den_num w x : den w = VNum x <-> is_nan w = false /\ fval w = x.
Proof.
  unfold den. destruct (is_nan w).
  - split; [|intros [? _]; discriminate]. destruct (_ <=? _); [discriminate|]. destruct (_ =? _); discriminate.
  - split; [intros H; injection H; auto|intros [_ <-]; reflexivity].
Qed.
Lemma snan_dec w : ieee_signalling_nan w <-> is_nan w = true /\ fraction w < 2^51.
Proof.
  unfold ieee_signalling_nan, ieee_nan, is_nan. rewrite andb_true_iff, negb_true_iff, Z.eqb_eq, Z.eqb_neq. tauto.
Qed.
Lemma den_cases w : word w ->
  (isF64 w = true /\ isC32 w = false /\ is_number (den w)) \/
  (isF64 w = false /\ isC32 w = true /\ den w = VChr (w mod 2^48)) \/
  (isF64 w = false /\ isC32 w = false /\ den w = VOth w).
Proof.
  intros W. assert (I := isF64_iff w W). rewrite snan_dec in I. unfold den.
  destruct (isF64 w) eqn:E.
  - left. split; auto. destruct (number_only w W E) as (_&C&_). split; auto. unfold is_number.
    destruct (is_nan w); [|right; eauto]. destruct (Z.leb_spec (2^51) (fraction w)); [left; auto|]. exfalso. apply I; auto.
  - right. destruct (is_nan w) eqn:N.
    2:{ assert (X : false = true); [|discriminate]. apply I. intros [? _]; discriminate. }
    destruct (Z.leb_spec (2^51) (fraction w)). { assert (X : false = true); [|discriminate]. apply I. lia. }
    unfold isC32, hasTag, shr64, C32_TAG. destruct (w / 2^48 =? 0x7FF1); auto.
Qed.
Lemma den_chr w n : word w -> den w = VChr n -> isC32 w = true /\ isF64 w = false /\ n = w mod 2^48 /\ w = 0x7FF1 * 2^48 + n.
Proof.
  intros W H. destruct (den_cases w W) as [(A&B&[C|[x C]])|[(A&B&C)|(A&B&C)]]; try congruence.
  rewrite C in H. injection H as <-. repeat split; auto. unfold isC32, hasTag, shr64, C32_TAG in B. apply Z.eqb_eq in B. rewrite <- B.
  assert (Q := Z.div_mod w (2^48)). lia.
Qed.
Lemma den_c32 n : 0 <= n < 1114112 -> word (m_c32 n) /\ den (m_c32 n) = VChr n.
Proof.
  intros N. destruct (c32_roundtrip n ltac:(lia)) as (W&C&O&F&V). split; auto.
  destruct (den_cases _ W) as [(A&B&[H|[x H]])|[(A&B&H)|(A&B&H)]]; try congruence.
  rewrite H. f_equal. rewrite c32_add by lia. change (0x7FF1000000000000) with (0x7FF1 * 2^48). rewrite Z.mod_add by lia. apply Z.mod_small. lia.
Qed.
Lemma of_int_den n : Z.abs n < 2^53 -> word (of_int n) /\ den (of_int n) = VNum (n * one) /\ ~ ieee_signalling_nan (of_int n).
Proof.
  intros H. destruct (of_int_val n H) as (W&N&V). split; auto. split; [apply den_num; auto|]. rewrite snan_dec. intros [? _]; congruence.
Qed.
Lemma one_cancel a b : a * one = b * one <-> a = b.
Proof. assert (P := one_pos). split; [intros H; apply Z.mul_reg_r in H; lia|congruence]. Qed.
Lemma VNum_inj a b : VNum a = VNum b <-> a = b. Proof. split; congruence. Qed.
Lemma VChr_inj a b : VChr a = VChr b <-> a = b. Proof. split; congruence. Qed.
Lemma raw_number_word z : raw_ok EF64 z -> raw_ok EB z.
Proof.
  intros [W N]. split; auto. intros n H. exfalso. destruct (den_chr z n W H) as (_&F&_). apply isF64_iff in N; auto. congruence.
Qed.

(** a stored element is valid for its own type *)
Lemma raw_fits t z : raw_ok t z -> fits t (vof t z).
Proof.
  destruct t; cbn [raw_ok fits vof]; intros H; eauto.
  - assert (z = 0 \/ z = 1) as [ -> | -> ] by lia; [left|right]; reflexivity || (f_equal; lia).
  - destruct H as [W N]. apply isF64_iff in N; auto. destruct (den_cases z W) as [(A&B&C)|[(A&B&C)|(A&B&C)]]; try congruence. exact C.
  - exists z. split; auto. lia.
  - exists z. split; auto. lia.
Qed.

(** integer-valued stored elements *)
Definition int_ty t := elt_no t <= 3.
Lemma int_ty_cases t : int_ty t -> t = EBit \/ t = EI8 \/ t = EI16 \/ t = EI32.
Proof. destruct t; cbv; intuition congruence. Qed.
Lemma vof_int t z : int_ty t -> vof t z = VNum (z * one).
Proof. intros H. destruct (int_ty_cases t H) as [ -> | [ -> | [ -> | -> ] ] ]; reflexivity. Qed.
Definition lo t := match t with EBit => 0 | EI8 => -128 | EI16 => -32768 | _ => -2147483648 end.
Definition hi t := match t with EBit => 1 | EI8 => 127 | EI16 => 32767 | _ => 2147483647 end.
Lemma fits_int t x : int_ty t -> (fits t (VNum (x * one)) <-> lo t <= x <= hi t).
Proof.
  intros H. destruct (int_ty_cases t H) as [ -> | [ -> | [ -> | -> ] ] ]; cbn [fits lo hi].
  { rewrite !VNum_inj. assert (A := one_cancel x 0). assert (B := one_cancel x 1). rewrite Z.mul_0_l in A. rewrite Z.mul_1_l in B. rewrite A, B. lia. }
  all: split; [intros (n&N&E); rewrite VNum_inj, one_cancel in E; lia|intros B; exists x; auto].
Qed.
Lemma fits_int_inv t v : int_ty t -> fits t v -> exists x, v = VNum (x * one) /\ lo t <= x <= hi t.
Proof.
  intros H F. assert (G := F). destruct (int_ty_cases t H) as [ -> | [ -> | [ -> | -> ] ] ]; cbn [fits] in F.
  { destruct F as [ -> | -> ]; [exists 0|exists 1]; split; try reflexivity; cbn [lo hi]; lia || (f_equal; ring). }
  all: destruct F as (n&N&->); exists n; auto.
Qed.
Lemma raw_int t z : int_ty t -> (raw_ok t z <-> lo t <= z <= hi t).
Proof. intros H. destruct (int_ty_cases t H) as [ -> | [ -> | [ -> | -> ] ] ]; cbn [raw_ok lo hi]; tauto. Qed.
Lemma to_s_id k z : 0 < k -> -2^(k-1) <= z < 2^(k-1) -> to_s k z = z.
Proof. intros K H. unfold to_s. rewrite Z.mod_small; [lia|]. replace (2^k) with (2 * 2^(k-1)); [lia|]. rewrite <- (Z.pow_succ_r 2 (k-1)) by lia. f_equal. lia. Qed.
Lemma to_u_id k z : 0 <= z < 2^k -> to_u k z = z.
Proof. intros H. apply Z.mod_small; auto. Qed.
Lemma f_to_int a b w x : is_int w x -> a <= x <= b -> f_to a b w = Ok x.
Proof. intros I H. assert (T := is_int_trunc _ _ I). destruct I as [N V]. unfold f_to. rewrite N, T. destruct (Z.leb_spec a x), (Z.leb_spec x b); try lia. reflexivity. Qed.
Lemma o2c_chr w n : word w -> den w = VChr n -> n < 1114112 -> 0 <= n /\ o2cG w = n.
Proof.
  intros W H N. destruct (den_chr w n W H) as (_&_&E&E2). assert (0 <= n) by (rewrite E; apply Z.mod_pos_bound; lia). split; auto. unfold o2cG.
  rewrite E2. replace (32753 * 2^48) with ((32753 * 2^16) * 2^32) by reflexivity. rewrite Z.add_comm, Z.mod_add by lia. apply Z.mod_small. lia.
Qed.

Lemma conv1_ok s t z : raw_ok s z -> fits t (vof s z) -> exists y, conv1 s t z = Ok y /\ vof t y = vof s z /\ raw_ok t y.
Proof.
  intros R F.
  assert (I : int_ty t \/ t = EF64 \/ t = EC8 \/ t = EC16 \/ t = EC32 \/ t = EB) by (destruct t; cbv; intuition congruence).
  assert (J : int_ty s \/ s = EF64 \/ s = EC8 \/ s = EC16 \/ s = EC32 \/ s = EB) by (destruct s; cbv; intuition congruence).
  destruct I as [I|I].
  { destruct (fits_int_inv t _ I F) as (x&E&B). exists x. rewrite (vof_int t) by auto. rewrite E, (raw_int t) by auto.
    assert (K : conv1 s t z = Ok x); [|auto].
    destruct J as [J|J].
    - rewrite vof_int, VNum_inj, one_cancel in E by auto. subst x.
      destruct (int_ty_cases t I) as [ -> | [ -> | [ -> | -> ] ] ]; destruct (int_ty_cases s J) as [ -> | [ -> | [ -> | -> ] ] ]; cbn [conv1 lo hi] in *;
        rewrite ?to_s_id by (cbn; lia); try reflexivity; destruct (Z.eqb_spec z 0); f_equal; lia.
    - assert (D : (s = EF64 \/ s = EB) /\ den z = VNum (x * one)).
      { destruct J as [ -> | [ -> | [ -> | [ -> | -> ] ] ] ]; cbn [vof] in E; auto; discriminate. }
      destruct D as [D1 D2]. apply den_num in D2. assert (D3 : is_int z x) by exact D2.
      assert (D4 : forall a b, a <= x <= b -> f_to a b z = Ok x) by (intros; apply f_to_int; auto).
      destruct (int_ty_cases t I) as [ -> | [ -> | [ -> | -> ] ] ]; cbn [lo hi] in B.
      { assert (G : f_bool z = x). { unfold f_bool. destruct D2 as [-> ->]. cbn [negb andb]. assert (P := one_pos). destruct (Z.eqb_spec (x * one) 0); nia. }
        destruct D1 as [ -> | -> ]; cbn [conv1]; rewrite G; reflexivity. }
      all: destruct D1 as [ -> | -> ]; cbn [conv1]; apply D4; auto. }
  destruct J as [J|J].
  { assert (Q : lo s <= z <= hi s) by (apply raw_int; auto). assert (A : Z.abs z < 2^53) by (destruct (int_ty_cases s J) as [ -> | [ -> | [ -> | -> ] ] ]; cbn [lo hi] in Q; lia).
    destruct (of_int_den z A) as (W&D&N). rewrite vof_int in * by auto.
    destruct I as [ -> | [ -> | [ -> | [ -> | -> ] ] ] ]; cbn [fits] in F; try (exfalso; destruct F as [n F]; (destruct F; discriminate) || discriminate).
    - exists (of_int z). split; [destruct (int_ty_cases s J) as [ -> | [ -> | [ -> | -> ] ] ]; reflexivity|]. cbn [vof raw_ok]. auto.
    - exists (of_int z). split; [destruct (int_ty_cases s J) as [ -> | [ -> | [ -> | -> ] ] ]; reflexivity|]. split; [exact D|]. apply raw_number_word. split; auto. }
  assert (CH : forall n, 0 <= n < 1114112 -> raw_ok EB (m_c32 n)).
  { intros n Hn. destruct (den_c32 n Hn) as [W D]. split; auto. intros m M. rewrite D in M. injection M as <-. lia. }
  assert (CR : forall n, vof s z = VChr n -> 0 <= n < 1114112 /\ (s <> EF64) /\ (s <> EB -> n = z) /\ (s = EB -> o2cG z = n)).
  { intros n V. destruct J as [ -> | [ -> | [ -> | [ -> | -> ] ] ] ]; cbn [vof raw_ok] in *.
    - destruct R as [W N]. exfalso. apply isF64_iff in N; auto. destruct (den_chr z n W V) as (_&?&_). congruence.
    - apply VChr_inj in V. subst n. split; [lia|]. split; [discriminate|]. split; [auto|discriminate].
    - apply VChr_inj in V. subst n. split; [lia|]. split; [discriminate|]. split; [auto|discriminate].
    - apply VChr_inj in V. subst n. split; [lia|]. split; [discriminate|]. split; [auto|discriminate].
    - destruct R as [W N]. assert (Q := N n V). destruct (o2c_chr z n W V Q). split; [lia|]. split; [discriminate|]. split; [congruence|auto]. }
  destruct I as [ -> | [ -> | [ -> | [ -> | -> ] ] ] ]; cbn [fits] in F.
  - (* f64 *) exists z. assert (K : s = EF64 \/ s = EB).
    { destruct J as [ -> | [ -> | [ -> | [ -> | -> ] ] ] ]; auto; exfalso; cbn [vof] in F; destruct F as [F|[x F]]; discriminate. }
    destruct K as [ -> | -> ]; cbn [conv1 vof raw_ok] in *; split; auto; split; auto.
    destruct R as [W N]. split; auto. intros X. apply snan_dec in X as [X1 X2].
    destruct F as [F|[x F]]. + unfold den in F. rewrite X1 in F. destruct (Z.leb_spec (2^51) (fraction z)); [lia|]. destruct (_ =? _); discriminate.
    + apply den_num in F. destruct F; congruence.
  - destruct F as (n&N&V). destruct (CR n V) as (B&S1&S2&S3). exists n. rewrite V. split; [|split; [reflexivity|cbn [raw_ok]; lia]].
    assert (T : to_u 8 n = n) by (apply to_u_id; change (2^8) with 256; lia).
    destruct J as [ -> | [ -> | [ -> | [ -> | -> ] ] ] ]; cbn [conv1]; try congruence; rewrite ?S3, <- ?S2 by congruence; rewrite T; reflexivity.
  - destruct F as (n&N&V). destruct (CR n V) as (B&S1&S2&S3). exists n. rewrite V. split; [|split; [reflexivity|cbn [raw_ok]; lia]].
    assert (T : to_u 16 n = n) by (apply to_u_id; change (2^16) with 65536; lia).
    destruct J as [ -> | [ -> | [ -> | [ -> | -> ] ] ] ]; cbn [conv1]; try congruence; rewrite ?S3, <- ?S2 by congruence; rewrite T; reflexivity.
  - destruct F as (n&V). destruct (CR n V) as (B&S1&S2&S3). exists n. rewrite V. split; [|split; [reflexivity|cbn [raw_ok]; lia]].
    assert (T : to_u 32 n = n) by (apply to_u_id; change (2^32) with 4294967296; lia).
    destruct J as [ -> | [ -> | [ -> | [ -> | -> ] ] ] ]; cbn [conv1]; try congruence; rewrite ?S3, <- ?S2 by congruence; rewrite ?T; reflexivity.
  - destruct J as [ -> | [ -> | [ -> | [ -> | -> ] ] ] ]; cbn [conv1 vof].
    + exists z. split; [reflexivity|]. split; [reflexivity|]. apply (raw_number_word z R).
    + destruct (CR z eq_refl) as [B _]. exists (m_c32 z). destruct (den_c32 z B). auto.
    + destruct (CR z eq_refl) as [B _]. exists (m_c32 z). destruct (den_c32 z B). auto.
    + destruct (CR z eq_refl) as [B _]. exists (m_c32 z). destruct (den_c32 z B). auto.
    + exists z. auto.
Qed.
