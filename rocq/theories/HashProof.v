From Verif Require Import Base BitsModel BitsSpec BitLemmas BitsProof TagModel TagSpec TagProof NumSpec NumProof ArrSpec DataSpec SqueezeModel SqueezeSpec SqueezeProof SqueezeProof2 CompareModel CompareSpec CompareProof MatchModel MatchSpec MatchProof MatchProof2 ListLib HashModel HashSpec.

Section Ind.
Variable P : hobj -> Prop.
Hypothesis HA : forall w, P (HAtom w).
Hypothesis HB : forall f sh ws, P (HBits f sh ws).
Hypothesis HT : forall f sh t l, P (HTyped f sh t l).
Hypothesis HX : forall f sh els, Forall P els -> P (HBox f sh els).
Fixpoint hobj_ind' (o : hobj) : P o :=
  match o with
  | HAtom w => HA w | HBits f sh ws => HB f sh ws | HTyped f sh t l => HT f sh t l
  | HBox f sh els => HX f sh els ((fix all (l : list hobj) : Forall P l := match l with [] => Forall_nil P | x :: t => Forall_cons x (hobj_ind' x) (all t) end) els)
  end.
End Ind.

(** ** Bits *)
Lemma flat_bytes_nth k ws : (0 < k)%nat -> forall i, (i < length ws * k)%nat -> nth i (flat_map (bytes k) ws) 0 = nth (i mod k) (bytes k (nth (i / k) ws 0)) 0.
Proof.
  intros K. induction ws as [|w ws IH]; intros i I; cbn [length] in *; [lia|]. cbn [flat_map].
  destruct (Nat.lt_ge_cases i k).
  - rewrite app_nth1 by (rewrite bytes_length; auto). rewrite Nat.mod_small, Nat.div_small by auto. reflexivity.
  - rewrite app_nth2 by (rewrite bytes_length; auto). rewrite bytes_length. rewrite IH by lia.
    replace i with (i - k + 1 * k)%nat at 3 4 by lia. rewrite Nat.mod_add, Nat.div_add by lia. rewrite Nat.add_1_r. reflexivity.
Qed.
Lemma bytes_nth k : forall z j, (j < k)%nat -> nth j (bytes k z) 0 = (z / 256 ^ Z.of_nat j) mod 256.
Proof.
  induction k as [|k IH]; intros z j J; [lia|]. destruct j; cbn [bytes nth]. { rewrite Z.pow_0_r, Z.div_1_r. auto. }
  rewrite IH by lia. rewrite Z.div_div by lia. rewrite Nat2Z.inj_succ, Z.pow_succ_r by lia. auto.
Qed.
Lemma byte_bit ws i k : words ws -> (i < length ws * 8)%nat -> 0 <= k < 8 ->
  Z.testbit (nth i (flat_map (bytes 8) ws) 0) k = mbit ws (8 * Z.of_nat i + k).
Proof.
  intros W I K. rewrite flat_bytes_nth by lia. assert (M := Nat.mod_upper_bound i 8 ltac:(lia)). rewrite bytes_nth by auto.
  change 256 with (2^8) at 2. rewrite Z.mod_pow2_bits_low by lia. change 256 with (2^8). rewrite <- Z.pow_mul_r by lia. rewrite Z.div_pow2_bits by lia.
  unfold mbit. f_equal; [f_equal|]; rewrite ?Nat2Z.inj_mod, ?Nat2Z.inj_div in *; [|lia].
  apply Nat2Z.inj. rewrite Nat2Z.inj_div, Z2Nat.id by lia. lia.
Qed.
Lemma byte_range ws i : 0 <= nth i (flat_map (bytes 8) ws) 0 < 2^8.
Proof.
  destruct (Nat.lt_ge_cases i (length (flat_map (bytes 8) ws))).
  - assert (I := nth_In _ 0 H). revert I. generalize (nth i (flat_map (bytes 8) ws) 0). intros z I. apply in_flat_map in I as (w&_&I). change (2^8) with 256.
    assert (G : forall k y, In z (bytes k y) -> 0 <= z < 256). { induction k; intros y []; [subst z; apply Z.mod_pos_bound; lia|eauto]. } eauto.
  - rewrite nth_overflow by auto. lia.
Qed.
Lemma bcl_ok ws n : words ws -> 0 <= n <= 64 * Z.of_nat (length ws) -> exists ws', bcl ws n = Ok ws' /\ length ws' = length ws /\ words ws' /\
  forall k, 0 <= k -> k < 64 * ((n + 63) / 64) -> mbit ws' k = mbit ws k && (k <? n).
Proof.
  intros W N. unfold bcl. rewrite land63, shr6. destruct (Z.eqb_spec (n mod 64) 0) as [E|E].
  - exists ws. repeat split; auto. intros k K L. replace (k <? n) with true; [rewrite andb_true_r; auto|]. symmetry. apply Z.ltb_lt. lia.
  - assert (R : 0 <= n / 64 < len ws) by (unfold len; lia). rewrite rdz_ok by auto. cbn [bind]. rewrite wrz_ok by auto.
    eexists; split; [reflexivity|]. split; [apply upd_length|]. rewrite shl1m by lia. split.
    { apply words_upd; auto. apply land_range. apply word_range; auto. }
    intros k K L. rewrite mbit_upd by auto. destruct (Z.eqb_spec (k / 64) (n / 64)) as [Q|Q].
    + rewrite Z.land_spec, tb_ones by lia. rewrite (mbit_split ws k), <- Q. f_equal. destruct (Z.ltb_spec (k mod 64) (n mod 64)), (Z.ltb_spec k n); auto; lia.
    + replace (k <? n) with true; [rewrite andb_true_r; auto|]. symmetry. apply Z.ltb_lt. lia.
Qed.
Lemma nth_firstn_lt {A} (d : A) m : forall l i, (i < m)%nat -> nth i (firstn m l) d = nth i l d.
Proof. induction m; intros [|a l] i I; try lia; auto. destruct i; cbn [firstn nth]; auto. apply IHm. lia. Qed.
Lemma bit_bytes_det ws1 ws2 n : words ws1 -> words ws2 -> 0 <= n -> n <= 64 * Z.of_nat (length ws1) -> n <= 64 * Z.of_nat (length ws2) ->
  (forall k, 0 <= k < n -> mbit ws1 k = mbit ws2 k) -> exists w1 w2, bcl ws1 n = Ok w1 /\ bcl ws2 n = Ok w2 /\
  firstn (Z.to_nat (Z.shiftr (n + 7) 3)) (flat_map (bytes 8) w1) = firstn (Z.to_nat (Z.shiftr (n + 7) 3)) (flat_map (bytes 8) w2).
Proof.
  intros W1 W2 N L1 L2 E. destruct (bcl_ok ws1 n W1 ltac:(lia)) as (w1&B1&Q1&O1&M1). destruct (bcl_ok ws2 n W2 ltac:(lia)) as (w2&B2&Q2&O2&M2).
  exists w1, w2. split; auto. split; auto. rewrite !Z.shiftr_div_pow2 by lia. change (2^3) with 8. set (m := Z.to_nat ((n + 7) / 8)).
  assert (Hm : Z.of_nat m = (n + 7) / 8) by (unfold m; lia).
  assert (F1 := flat_map_bytes_length 8 w1). assert (F2 := flat_map_bytes_length 8 w2).
  apply (list_eq_nth 0). { rewrite !firstn_length. lia. }
  intros i. rewrite firstn_length. intros I.
  assert (G : forall w, nth i (firstn m w) 0 = nth i w 0) by (intros w; apply nth_firstn_lt; lia).
  rewrite !G. clear G. apply Z.bits_inj'. intros k K. destruct (Z.lt_ge_cases k 8).
  - rewrite !byte_bit by (auto; lia). rewrite M1, M2 by lia. destruct (Z.ltb_spec (8 * Z.of_nat i + k) n); [rewrite E by lia; auto|rewrite !andb_false_r; auto].
  - rewrite !(range_bits _ 8 k) by (try apply byte_range; lia). auto.
Qed.

Lemma pack_word_bit f i k : 0 <= k < 64 -> Z.testbit (pack_word f i) k = f (64 * i + Z.to_nat k)%nat.
Proof.
  intros K. unfold pack_word.
  assert (G : forall n s, Z.testbit (fold_right (fun j acc => Z.lor (if f (64 * i + j)%nat then 2 ^ Z.of_nat j else 0) acc) 0 (seq s n)) k = (Z.of_nat s <=? k) && (k <? Z.of_nat (s + n)) && f (64 * i + Z.to_nat k)%nat).
  { induction n; intros s; cbn [seq fold_right].
    - rewrite Z.bits_0. destruct (Z.leb_spec (Z.of_nat s) k), (Z.ltb_spec k (Z.of_nat (s + 0))); auto; lia.
    - rewrite Z.lor_spec, IHn. destruct (Z.eq_dec k (Z.of_nat s)) as [ -> |D].
      + rewrite Nat2Z.id. replace (Z.of_nat (S s) <=? Z.of_nat s) with false by (symmetry; apply Z.leb_gt; lia). rewrite Z.leb_refl. replace (Z.of_nat s <? Z.of_nat (s + S n)) with true by (symmetry; apply Z.ltb_lt; lia).
        cbn [andb]. rewrite orb_false_r. destruct (f (64 * i + s)%nat); [apply Z.pow2_bits_true; lia|apply Z.bits_0].
      + replace (Z.testbit (if f (64 * i + s)%nat then 2 ^ Z.of_nat s else 0) k) with false.
        2:{ destruct (f (64 * i + s)%nat); [rewrite Z.pow2_bits_false; auto|rewrite Z.bits_0; auto]. }
        cbn [orb]. f_equal. destruct (Z.leb_spec (Z.of_nat (S s)) k), (Z.leb_spec (Z.of_nat s) k), (Z.ltb_spec k (Z.of_nat (S s + n))), (Z.ltb_spec k (Z.of_nat (s + S n))); auto; lia. }
  rewrite G. replace (Z.of_nat 0 <=? k) with true by (symmetry; apply Z.leb_le; lia). replace (k <? Z.of_nat (0 + 64)) with true by (symmetry; apply Z.ltb_lt; lia). auto.
Qed.
Lemma pack_word_range f i : 0 <= pack_word f i < 2^64.
Proof.
  unfold pack_word. assert (G : forall l, Forall (fun j => (j < 64)%nat) l -> 0 <= fold_right (fun j acc => Z.lor (if f (64 * i + j)%nat then 2 ^ Z.of_nat j else 0) acc) 0 l < 2^64).
  { induction 1; cbn [fold_right]; [lia|]. apply lor_range; auto. destruct (f _); [|lia]. split; [apply Z.pow_nonneg; lia|]. apply Z.pow_lt_mono_r; lia. }
  apply G. apply Forall_forall. intros j J. apply in_seq in J. lia.
Qed.
Lemma pack_ok junk l : words (pack junk l) /\ Z.of_nat (length l) <= 64 * Z.of_nat (length (pack junk l)) /\
  forall k, (k < length l)%nat -> mbit (pack junk l) (Z.of_nat k) = negb (nth k l 0 =? 0).
Proof.
  unfold pack. rewrite map_length, seq_length. split; [|split].
  - apply Forall_forall. intros w I. apply in_map_iff in I as (i&<-&_). apply pack_word_range.
  - rewrite Nat2Z.inj_div. lia.
  - intros k K. unfold mbit. set (g := fun k => _). set (n := ((length l + 63) / 64)%nat).
    assert (Q : Z.to_nat (Z.of_nat k / 64) = (k / 64)%nat). { apply Nat2Z.inj. rewrite Nat2Z.inj_div, Z2Nat.id by lia. auto. }
    rewrite Q. assert (Hk : (k / 64 < n)%nat). { unfold n. apply Nat2Z.inj_lt. rewrite !Nat2Z.inj_div. lia. }
    rewrite (nth_indep _ 0 (pack_word g 0)) by (rewrite map_length, seq_length; auto). rewrite map_nth, seq_nth by auto.
    rewrite pack_word_bit by lia. replace (64 * (0 + k / 64) + Z.to_nat (Z.of_nat k mod 64))%nat with k.
    2:{ apply Nat2Z.inj. rewrite Nat2Z.inj_add, Z2Nat.id, Nat2Z.inj_mul, Nat2Z.inj_add, Nat2Z.inj_div by lia. lia. }
    unfold g. rewrite (nth_error_nth' l 0 K). auto.
Qed.

(** ** Arrays as squeezing sees them *)
Definition ARRW : Z := ftag ARR_TAG.
Definition vd (d : data) : value := match d with DAtom v => v | DArr _ _ => VOth ARRW end.
Lemma arrw_raw : raw_ok EB ARRW /\ den ARRW = VOth ARRW.
Proof. split; [split; [vm_compute; split; congruence|]|vm_compute; reflexivity]. intros n H. vm_compute in H. discriminate. Qed.
Lemma isAtom_erase o : isAtom (erase o) = match o with HAtom _ => true | _ => false end.
Proof. destruct o; auto. Qed.
Lemma word_of_ok o : ovalid (erase o) -> raw_ok EB (word_of o) /\ den (word_of o) = vd (oden (erase o)).
Proof. destruct o; cbn [word_of erase ovalid oden vd]; auto; intros _; apply arrw_raw. Qed.
Lemma bitzs_ok ws n : n <= 64 * Z.of_nat (length ws) -> bitzs ws n = Ok (map (fun b : bool => if b then 1 else 0) (bits_of ws 0 n)).
Proof.
  intros N. unfold bitzs, bits_of. rewrite map_map. assert (G : forall l, Forall (fun i => Z.of_nat i < 64 * Z.of_nat (length ws)) l ->
    mapM (bitz ws) l = Ok (map (fun i => if mbit ws (64 * 0 + Z.of_nat i) then 1 else 0) l)).
  { induction 1 as [|i l I F IH]; cbn [mapM map]; auto. rewrite bitz_ok, IH by auto. cbn [bind]. reflexivity. }
  apply G. apply Forall_forall. intros i I. apply in_seq in I. lia.
Qed.
Lemma to_arr_ok o : isAtom (erase o) = false -> ovalid (erase o) -> hflags_ok o -> exists a, to_arr o = Ok a /\ arr_ok a /\ flags_ok a /\
  values a = map vd (oels (erase o)) /\ a_et a = o_elt (erase o) /\ Z.of_nat (length (a_els a)) = prod (h_shape o) /\
  (forall f sh ws, o = HBits f sh ws -> a_els a = map (fun b : bool => if b then 1 else 0) (bits_of ws 0 (prod sh))).
Proof.
  unfold h_shape. destruct o as [w|f sh ws|f sh t l|f sh els]; cbn [erase isAtom to_arr hflags_ok o_elt o_shape]; intros A V F; try discriminate.
  - cbn [ovalid] in V. destruct V as (V1&V2&V3). rewrite bitzs_ok by auto. cbn [bind]. eexists; split; [reflexivity|]. cbn [with_fl a_et a_els]. split.
    { apply Forall_forall. intros z I. apply in_map_iff in I as (b&<-&_). cbn. destruct b; lia. }
    split; [exact F|]. split. { unfold values, oels; cbn [with_fl a_et a_els oden]. rewrite !map_map. apply map_ext. intros []; reflexivity. }
    split; auto. split. { rewrite map_length. unfold bits_of. rewrite map_length, seq_length. assert (P := prod_nonneg _ V1). lia. }
    intros f' sh' ws' E. injection E as <- <- <-. auto.
  - cbn [ovalid] in V. destruct V as (V1&V2&V3&V4&V5). eexists; split; [reflexivity|]. split; [exact V5|]. split; [exact F|]. cbn [with_fl a_et a_els values oels].
    split. { unfold values, oels; cbn [with_fl a_et a_els oden]. rewrite !map_map. apply map_ext. reflexivity. } split; auto. split; auto. discriminate.
  - apply ovalid_box in V as (V1&V2&V3). rewrite map_length in V2. eexists; split; [reflexivity|]. destruct F as [F _]. rewrite Forall_forall in V3.
    split. { apply Forall_forall. intros z I. apply in_map_iff in I as (x&<-&I). apply word_of_ok. apply V3. apply in_map. auto. }
    split; [exact F|]. split. { unfold values, oels; cbn [with_fl a_et a_els oden vof]. rewrite !map_map. apply map_ext_in. intros x I. apply word_of_ok. apply V3. apply in_map. auto. }
    split; auto. split; [cbn [with_fl a_els]; rewrite map_length; auto|discriminate].
Qed.

Lemma smallest_unique t u vs : smallest t vs -> smallest u vs -> t = u.
Proof. intros [A B] [C D]. specialize (B _ C). specialize (D _ A). destruct t, u; cbn [elt_no] in *; auto; lia. Qed.
Lemma raw_inj t a b : t <> EF64 -> t <> EB -> vof t a = vof t b -> a = b.
Proof. destruct t; cbn [vof]; intros H1 H2 E; try congruence; rewrite VNum_inj, one_cancel in E; exact E. Qed.
Lemma map_raw_inj t l1 : t <> EF64 -> t <> EB -> forall l2, map (vof t) l1 = map (vof t) l2 -> l1 = l2.
Proof.
  intros A B. induction l1; intros [|b l2] E; cbn [map] in E; try discriminate; auto. injection E as E1 E2. f_equal; auto. eapply raw_inj; eauto.
Qed.

(** ** Numbers *)
Lemma add0_det a b : word a -> word b -> is_nan a = false -> is_nan b = false -> fval a = fval b -> add0 a = add0 b.
Proof.
  intros A B N M E. destruct (fval_inj a b A B E) as [ -> |[Z1 Z2]]; auto. apply low63_0 in Z1, Z2; auto.
  destruct (parts a A) as (Pa&Sa&Ea&Fa). destruct (parts b B) as (Pb&Sb&Eb&Fb). unfold low63 in *. unfold add0.
  destruct (Z.eqb_spec a (2^63)), (Z.eqb_spec b (2^63)); auto; lia.
Qed.
Lemma asNormalized_map nan0 l : Forall (fun v => word v /\ is_nan v = false) l -> asNormalized nan0 l = map add0 l.
Proof.
  assert (G : forall m, Forall (fun v => word v /\ is_nan v = false) m -> map (normalizeFloat nan0) m = map add0 m).
  { induction 1 as [|v m [_ H]]; cbn [map]; auto. unfold normalizeFloat at 1. rewrite H. f_equal; auto. }
  induction 1 as [|v m [W H] F IH]; cbn [asNormalized]; auto. destruct (Z.eqb_spec v (2^63)) as [E|E].
  - cbn [orb]. apply G. constructor; auto.
  - rewrite H. cbn [orb map]. rewrite IH. f_equal. unfold add0. destruct (Z.eqb_spec v (2^63)); congruence.
Qed.
Lemma norm_det nan0 l1 : forall l2, Forall (raw_ok EF64) l1 -> Forall (raw_ok EF64) l2 -> map (vof EF64) l1 = map (vof EF64) l2 -> ~ In VNaN (map (vof EF64) l1) ->
  asNormalized nan0 l1 = asNormalized nan0 l2.
Proof.
  assert (G : forall l, Forall (raw_ok EF64) l -> ~ In VNaN (map (vof EF64) l) -> Forall (fun v => word v /\ is_nan v = false) l).
  { induction 1 as [|v m H F IH]; intros I; constructor; [|apply IH; intros J; apply I; right; auto]. split; [apply H|]. destruct (is_nan v) eqn:E; auto.
    elim I. left. cbn [vof]. rewrite raw_f64_den, E by auto. auto. }
  intros l2 A B E I. rewrite !asNormalized_map; [|apply G; auto; rewrite <- E; auto|apply G; auto].
  assert (GA := G _ A I). rewrite E in I. assert (GB := G _ B I). clear G I. revert l2 B E GB. induction l1 as [|a l1 IH]; intros [|b l2] B E GB; cbn [map] in *; try discriminate; auto.
  injection E as E1 E2. apply Forall_cons_iff in A as [A1 A2], B as [B1 B2], GA as [[W1 N1] GA], GB as [[W2 N2] GB]. f_equal; [|apply IH; auto].
  rewrite (raw_f64_den a), (raw_f64_den b) in E1 by auto. rewrite N1, N2 in E1. apply add0_det; auto. congruence.
Qed.

Section Main.
Variable cast : Z -> Z.
Hypothesis C : cast_ok cast.
Variable wyhash64 : Z -> Z -> Z.
Variable wyhash : list Z -> Z -> list Z -> Z.
Variables s0 s1 s2 s3 nan0 : Z.
Variables j1 j2 : nat -> bool.
Notation H1 := (bqn_hash cast wyhash64 wyhash s0 s1 s2 s3 nan0 j1).
Notation H2 := (bqn_hash cast wyhash64 wyhash s0 s1 s2 s3 nan0 j2).
Definition hgood (w x : hobj) := exists h, H1 w = Ok h /\ H2 x = Ok h.

Lemma hash_atom_ok a b : odata (OAtom a) -> odata (OAtom b) -> den a = den b -> den a <> VNaN -> exists h, hash_atom wyhash64 s0 s1 a = Ok h /\ hash_atom wyhash64 s0 s1 b = Ok h.
Proof.
  intros [[Wa Ra] Pa] [[Wb Rb] Pb] E N. cbn [oden plain] in Pa, Pb. unfold hash_atom. destruct Pa as [[K|[x K]]|[n K]]; [contradiction| |].
  - assert (K2 := K). rewrite E in K2. apply den_num in K as [K1 K3], K2 as [K2 K4]. rewrite K1, K2. cbn [negb]. rewrite (add0_det a b) by congruence. eauto.
  - assert (K2 := K). rewrite E in K2. destruct (den_chr a n Wa K) as (_&_&_&Ea). destruct (den_chr b n Wb K2) as (_&_&_&Eb). replace b with a by congruence.
    assert (Hn : isVal a = false). { apply direct_not_val; auto. destruct (den_chr a n Wa K) as (CC&_). rewrite CC. auto. } rewrite Hn.
    destruct (is_nan a); cbn [negb]; eauto. destruct (_ =? _); eauto.
Qed.
Lemma hash_arr_ok w x hs1 hs2 : isAtom (erase w) = false -> isAtom (erase x) = false -> odata (erase w) -> odata (erase x) -> hflags_ok w -> hflags_ok x ->
  oden (erase w) = oden (erase x) -> nan_free (oden (erase w)) ->
  (o_elt (erase w) = EB -> o_elt (erase x) = EB -> exists l, hs1 = Ok l /\ hs2 = Ok l) ->
  exists h, hash_arr cast wyhash64 wyhash s0 s1 s2 s3 nan0 j1 w hs1 = Ok h /\ hash_arr cast wyhash64 wyhash s0 s1 s2 s3 nan0 j2 x hs2 = Ok h.
Proof.
  intros Aw Ax [Vw Pw] [Vx Px] Fw Fx E N HS. unfold hash_arr. rewrite !oden_els in E by auto. injection E as Esh Eels. rewrite oden_els in N by auto. rewrite nan_free_arr in N.
  unfold h_shape. rewrite <- Esh. set (sh := o_shape (erase w)) in *.
  destruct (Z.eqb_spec (prod sh) 0) as [Z0|Z0]. { eexists; split; reflexivity. }
  destruct (to_arr_ok w Aw Vw Fw) as (a&Ta&Oa&Ga&Va&Ea&La&Ba). destruct (to_arr_ok x Ax Vx Fx) as (b&Tb&Ob&Gb&Vb&Eb&Lb&Bb).
  unfold h_shape in La, Lb. rewrite <- Esh in Lb. fold sh in La, Lb.
  assert (EV : values a = values b) by congruence.
  destruct (squeeze_any_ok cast C a Oa Ga) as (r&Ra&(V1&O1&G1)&S1). destruct (squeeze_any_ok cast C b Ob Gb) as (q&Rb&(V2&O2&G2)&S2).
  assert (NEa : a_els a <> []) by (intros Q; rewrite Q in La; cbn in La; lia). assert (NEb : a_els b <> []) by (intros Q; rewrite Q in Lb; cbn in Lb; lia).
  specialize (S1 NEa). specialize (S2 NEb). rewrite EV in S1. assert (ET := smallest_unique _ _ _ S1 S2). rewrite <- EV in V2.
  rewrite Ta, Tb. cbn [bind]. rewrite Ra, Rb. cbn [bind]. rewrite <- ET.
  assert (LV : length (a_els r) = length (a_els a)). { apply (f_equal (@length value)) in V1. unfold values in V1. rewrite !map_length in V1. auto. }
  assert (V12 : map (vof (a_et r)) (a_els r) = map (vof (a_et r)) (a_els q)). { rewrite ET at 2. change (values r = values q). congruence. }
  unfold arr_ok in O1, O2. rewrite <- ET in O2.
  destruct (a_et r) eqn:ER;
    try (match type of V12 with map (vof ?t) _ = _ => rewrite (map_raw_inj t _ ltac:(discriminate) ltac:(discriminate) _ V12) end; cbn [bind]; eexists; split; reflexivity).
  - (* bits *)
    assert (EL := map_raw_inj EBit _ ltac:(discriminate) ltac:(discriminate) _ V12).
    assert (WG : forall o j (y z : arr), ovalid (erase o) -> o_shape (erase o) = sh -> to_arr o = Ok y -> squeeze_any cast y = Ok z ->
      (forall f sh ws, o = HBits f sh ws -> a_els y = map (fun b : bool => if b then 1 else 0) (bits_of ws 0 (prod sh))) ->
      arr_ok y -> flags_ok y -> a_et z = EBit -> a_els z = a_els r ->
      let ws := match o with HBits _ _ ws => ws | _ => pack j (a_els z) end in
      words ws /\ prod sh <= 64 * Z.of_nat (length ws) /\ forall k, 0 <= k < prod sh -> mbit ws k = negb (nth (Z.to_nat k) (a_els r) 0 =? 0)).
    { intros o j y z Vo So Ty Rz Bo Oy Gy Ez Lz. assert (D : match o with HBits _ _ _ => True | _ => False end \/ (match o with HBits _ _ ws => ws | _ => pack j (a_els z) end) = pack j (a_els z)) by (destruct o; auto).
      destruct D as [D|D].
      - destruct o as [|f sh' ws| |]; try contradiction. cbn [erase ovalid o_shape] in Vo, So. subst sh'. destruct Vo as (_&U1&U2). cbv zeta. split; auto. split; auto.
        intros k K. specialize (Bo _ _ _ eq_refl). destruct (squeeze_any_ok cast C y Oy Gy) as (z'&Rz'&(V'&_)&_). rewrite Rz in Rz'. injection Rz' as <-.
        assert (Y : a_els z = a_els y). { unfold values in V'. cbn [to_arr] in Ty. rewrite bitzs_ok in Ty by auto. cbn [bind] in Ty. injection Ty as <-. cbn [with_fl a_et a_els] in V' |- *. rewrite Ez in V'.
          apply (map_raw_inj EBit); [discriminate|discriminate|exact V']. }
        rewrite <- Lz, Y, Bo.
        assert (MN := map_nth (fun b : bool => if b then 1 else 0) (bits_of ws 0 (prod sh)) false (Z.to_nat k)). cbn beta iota in MN. rewrite MN. clear MN. rewrite bits_of_nth by lia. rewrite Z2Nat.id by lia. destruct (mbit ws k); auto.
      - cbv zeta. rewrite D, Lz. destruct (pack_ok j (a_els r)) as (U1&U2&U3). split; auto. split; [lia|]. intros k K. rewrite <- (Z2Nat.id k) at 1 by lia. apply U3. lia. }
    destruct (WG w j1 a r Vw eq_refl Ta Ra Ba Oa Ga ER eq_refl) as (Ww&Lw&Mw).
    destruct (WG x j2 b q Vx (eq_sym Esh) Tb Rb Bb Ob Gb (eq_sym ET) (eq_sym EL)) as (Wx&Lx&Mx).
    assert (PN : 0 <= prod sh) by lia.
    edestruct (bit_bytes_det _ _ (prod sh) Ww Wx PN Lw Lx) as (w1&w2&B1&B2&BE). { intros k K. rewrite Mw, Mx by auto. auto. }
    rewrite B1, B2. cbn [bind]. rewrite BE. eexists; split; reflexivity.
  - (* f64 *)
    rewrite (norm_det nan0 _ _ O1 O2 V12). 2:{ change (~ In VNaN (map (vof EF64) (a_els r))). intros I. assert (I2 : In VNaN (values r)) by (unfold values; rewrite ER; auto). rewrite V1, Va in I2.
      apply in_map_iff in I2 as (d&D&I2). rewrite Forall_forall in N. specialize (N d I2). destruct d; cbn [vd nan_free] in *; congruence. }
    cbn [bind]. eexists; split; reflexivity.
  - (* boxed *)
    assert (K : forall o y, a_et y = o_elt (erase o) -> arr_ok y -> smallest EB (values y) -> o_elt (erase o) = EB).
    { intros o y Ey Oy [_ Sy]. specialize (Sy (a_et y)). rewrite Ey in Sy. assert (U : Forall (fits (o_elt (erase o))) (values y)).
      { unfold values. rewrite Ey. unfold arr_ok in Oy. rewrite Ey in Oy. apply Forall_forall. intros v I. apply in_map_iff in I as (z&<-&I). apply raw_fits. rewrite Forall_forall in Oy. auto. }
      specialize (Sy U). destruct (o_elt (erase o)); cbn [elt_no] in Sy; auto; lia. }
    rewrite <- EV in S1. rewrite <- ET in S2. destruct HS as (l&H1&H2); [eapply K; eauto; rewrite ?ER in *; auto|eapply K; eauto|].
    rewrite H1, H2. cbn [bind]. eexists; split; reflexivity.
Qed.
Lemma hash_ok w : forall x, odata (erase w) -> odata (erase x) -> hflags_ok w -> hflags_ok x -> oden (erase w) = oden (erase x) -> nan_free (oden (erase w)) -> hgood w x.
Proof.
  induction w as [a|f sh ws|f sh t l|f sh els IH] using hobj_ind'; intros x Dw Dx Fw Fx E N; unfold hgood.
  - destruct x as [b| | |]; try discriminate. cbn [erase oden] in *. injection E as E. apply hash_atom_ok; auto.
  - destruct x as [b|f' sh' ws'|f' sh' t' l'|f' sh' els']; try discriminate; cbn [bqn_hash]; apply hash_arr_ok; auto; cbn [erase o_elt]; discriminate.
  - assert (t <> EB) by (destruct Dw as [Dw _]; cbn [erase ovalid] in Dw; tauto).
    destruct x as [b|f' sh' ws'|f' sh' t' l'|f' sh' els']; try discriminate; cbn [bqn_hash]; apply hash_arr_ok; auto; cbn [erase o_elt]; congruence.
  - destruct x as [b|f' sh' ws'|f' sh' t' l'|f' sh' els']; try discriminate; cbn [bqn_hash]; apply hash_arr_ok; auto; cbn [erase o_elt].
    + discriminate.
    + destruct Dx as [Dx _]; cbn [erase ovalid] in Dx; tauto.
    + intros _ _. cbn [erase oden] in E, N. rewrite nan_free_arr in N. injection E as _ E. destruct Dw as [Vw Pw], Dx as [Vx Px]. cbn [erase oden] in Vw, Vx, Pw, Px.
      rewrite plain_arr in Pw, Px. apply ovalid_box in Vw as (_&_&Vw), Vx as (_&_&Vx). destruct Fw as [_ Fw], Fx as [_ Fx].
      rewrite !map_map in *. clear sh sh' f f'. revert els' E Vx Px Fx. induction IH as [|w els Hw _ IHl]; intros [|x els'] E Vx Px Fx; cbn [map] in *; try discriminate. { exists []. auto. }
      injection E as E1 E2. apply Forall_cons_iff in Vw as [Vw1 Vw], Vx as [Vx1 Vx], Pw as [Pw1 Pw], Px as [Px1 Px], N as [N1 N]. destruct Fw as [Fw1 Fw], Fx as [Fx1 Fx].
      destruct (Hw x) as (h&K1&K2); auto; [split; auto|split; auto|]. destruct (IHl Vw Pw Fw N els' E2 Vx Px Fx) as (l&L1&L2).
      rewrite K1, K2. cbn [bind]. rewrite L1, L2. cbn [bind]. eexists; split; reflexivity.
Qed.
End Main.
