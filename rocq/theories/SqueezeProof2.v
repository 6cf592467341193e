From Verif Require Import Base BitLemmas TagModel TagSpec TagProof NumSpec NumProof ArrSpec SqueezeModel SqueezeSpec SqueezeProof.

Lemma mapM_map {A B D} (f : A -> res B) (g : A -> D) (h : B -> D) (P : B -> Prop) (Q : A -> Prop) l :
  Forall Q l -> (forall x, Q x -> exists y, f x = Ok y /\ h y = g x /\ P y) -> exists r : list B, mapM f l = Ok r /\ map h r = map g l /\ Forall P r.
Proof.
  intros F H. induction F as [|x l X F IH]; cbn [mapM].
  - exists []. auto.
  - destruct (H x X) as (y&E1&E2&E3). destruct IH as (r&R1&R2&R3). rewrite E1. cbn [bind]. rewrite R1. exists (y :: r). cbn. rewrite E2, R2. auto.
Qed.
Lemma cpy_ok t a : arr_ok a -> Forall (fits t) (values a) -> exists l, cpy t a = Ok (mk t l) /\ values (mk t l) = values a /\ arr_ok (mk t l).
Proof.
  intros A F. unfold arr_ok, values in *. rewrite Forall_map in F. unfold cpy.
  destruct (mapM_map (conv1 (a_et a) t) (vof (a_et a)) (vof t) (raw_ok t) (fun z => raw_ok (a_et a) z /\ fits t (vof (a_et a) z)) (a_els a)) as (r&R1&R2&R3).
  - apply Forall_and; auto.
  - intros x [X1 X2]. apply conv1_ok; auto.
  - rewrite R1. exists r. auto.
Qed.

(** fits is monotone along the number chain and the character chain *)
Lemma fits_up s t v : int_ty s -> int_ty t -> elt_no s <= elt_no t -> fits s v -> fits t v.
Proof.
  intros S T L F. destruct (fits_int_inv s v S F) as (x&->&B). apply fits_int; auto.
  destruct (int_ty_cases s S) as [ -> | [ -> | [ -> | -> ] ] ]; destruct (int_ty_cases t T) as [ -> | [ -> | [ -> | -> ] ] ]; cbn [elt_no lo hi] in *; lia.
Qed.
Lemma fits_f64_up s v : int_ty s -> fits s v -> fits EF64 v.
Proof. intros S F. destruct (fits_int_inv s v S F) as (x&->&B). right. eauto. Qed.
Lemma num_not_chr s t v : elt_no s <= 4 -> 5 <= elt_no t <= 7 -> fits s v -> fits t v -> False.
Proof.
  intros S T F G.
  assert (N : is_number v). { destruct (Z.eq_dec (elt_no s) 4). - destruct s; cbn in *; try lia. exact F. - destruct (fits_int_inv s v ltac:(unfold int_ty; lia) F) as (x&->&_). right; eauto. }
  assert (C : is_char v) by (destruct t; cbn in T; try lia; cbn [fits] in G; unfold is_char; [destruct G as (n&_&G)|destruct G as (n&_&G)|destruct G as (n&G)]; eauto).
  destruct C as [n ->]. destruct N as [N|[x N]]; discriminate.
Qed.
Lemma smallest_num t vs : vs <> [] -> elt_no t <= 4 -> Forall (fits t) vs ->
  (forall s, elt_no s = elt_no t - 1 -> ~ Forall (fits s) vs) -> smallest t vs.
Proof.
  intros NE T F H. split; auto. intros t' F'. destruct (Z.le_gt_cases (elt_no t) (elt_no t')) as [L|L]; auto. exfalso.
  assert (exists s, elt_no s = elt_no t - 1 /\ int_ty s) as (s&S1&S2).
  { unfold int_ty. destruct t; cbn in *; try lia; [destruct t'; cbn in L; lia|exists EBit|exists EI8|exists EI16|exists EI32]; cbn; lia. }
  apply (H s S1). eapply Forall_impl; [|exact F']. intros v. apply fits_up; auto; unfold int_ty; lia.
Qed.
Lemma smallest_chr t vs : vs <> [] -> 5 <= elt_no t <= 7 -> Forall (fits t) vs ->
  (forall s, 5 <= elt_no s -> elt_no s = elt_no t - 1 -> ~ Forall (fits s) vs) -> smallest t vs.
Proof.
  intros NE T F H. split; auto. intros t' F'. destruct (Z.le_gt_cases (elt_no t) (elt_no t')) as [L|L]; auto. exfalso.
  destruct (Z.le_gt_cases (elt_no t') 4) as [Q|Q].
  - destruct vs as [|v vs]; [congruence|]. inversion F; inversion F'; subst. apply (num_not_chr t' t v); auto.
  - destruct t; cbn in T, L; try lia; destruct t'; cbn in L, Q; try lia.
    + apply (H EC8); cbn; auto; lia.
    + apply (H EC16); cbn; try lia. eapply Forall_impl; [|exact F']. cbn. intros v (n&N&->). exists n. split; auto. lia.
    + apply (H EC16); cbn; try lia. exact F'.
Qed.
Lemma smallest_B vs v w : In v vs -> In w vs -> ~ is_number v -> ~ is_char w -> smallest EB vs.
Proof.
  intros IV IW V W. split; [apply Forall_forall; cbn; auto|]. intros t F. rewrite Forall_forall in F.
  destruct (Z.le_gt_cases (elt_no t) 4) as [Q|Q].
  - exfalso. apply V. specialize (F v IV). destruct (Z.eq_dec (elt_no t) 4). { destruct t; cbn in *; try lia. exact F. }
    destruct (fits_int_inv t v ltac:(unfold int_ty; lia) F) as (x&->&_). right; eauto.
  - destruct t; cbn in Q; try lia; try (cbn; lia).
    all: exfalso; apply W; specialize (F w IW); cbn in F. + destruct F as (n&_&->). exists n; auto. + destruct F as (n&_&->). exists n; auto. + destruct F as (n&->). exists n; auto.
Qed.
Lemma smallest_0 vs : Forall (fits EBit) vs -> smallest EBit vs.
Proof. intros F. split; auto. intros t _. destruct t; cbn; lia. Qed.

(** what a squeeze function must return *)
Definition good (a r : arr) : Prop := values r = values a /\ arr_ok r /\ flags_ok r.
Definition tight (a r : arr) : Prop := good a r /\ smallest (a_et r) (values a).
Lemma good_set_sq a : arr_ok a -> flags_ok a -> smallest (a_et a) (values a) -> tight a (set_sq a).
Proof.
  intros A (F1&F2&F3) S. split; auto. split; [reflexivity|]. split; auto. split; auto.
Qed.
Lemma r_to_ok t a : arr_ok a -> smallest t (values a) -> exists r, r_to t a = Ok r /\ tight a r.
Proof.
  intros A S. destruct (cpy_ok t a A (proj1 S)) as (l&E&V&O). unfold r_to. rewrite E. cbn [bind]. eexists. split; [reflexivity|].
  assert (V2 : values (set_sq (mk t l)) = values a) by exact V.
  split; [|exact S]. split; auto. split; auto. split; [intros _ _; rewrite V2; exact S|]. split; discriminate.
Qed.
Definition val_nil a : (values a <> [] <-> a_els a <> []).
Proof. unfold values. destruct (a_els a); cbn; split; congruence. Qed.

(** the accumulated key decides which integer types fit *)
Record keyed (o : Z) (vs : list value) : Prop := {
  k_bit : o <= 0 <-> Forall (fits EBit) vs;
  k_i8 : o <= 127 <-> Forall (fits EI8) vs;
  k_i16 : o <= 32767 <-> Forall (fits EI16) vs }.

Lemma mostI8_ok o a : arr_ok a -> values a <> [] -> keyed o (values a) -> Forall (fits EI8) (values a) -> exists r, mostI8 o a = Ok r /\ tight a r.
Proof.
  intros A N K F. unfold mostI8, mostBit. destruct (Z.ltb_spec 0 o); apply r_to_ok; auto.
  - apply smallest_num; auto; [cbn; lia|]. intros s Hs. destruct s; cbn in Hs; try lia. intros Q. apply (k_bit _ _ K) in Q. lia.
  - apply smallest_0. apply (k_bit _ _ K). lia.
Qed.
Lemma mostI16_ok o a : arr_ok a -> values a <> [] -> keyed o (values a) -> Forall (fits EI16) (values a) -> exists r, mostI16 o a = Ok r /\ tight a r.
Proof.
  intros A N K F. unfold mostI16. destruct (Z.ltb_spec 127 o).
  - apply r_to_ok; auto. apply smallest_num; auto; [cbn; lia|]. intros s Hs. destruct s; cbn in Hs; try lia. intros Q. apply (k_i8 _ _ K) in Q. lia.
  - apply mostI8_ok; auto. apply (k_i8 _ _ K). lia.
Qed.
Lemma mostI32_ok o a : arr_ok a -> values a <> [] -> keyed o (values a) -> Forall (fits EI32) (values a) -> exists r, mostI32 o a = Ok r /\ tight a r.
Proof.
  intros A N K F. unfold mostI32. destruct (Z.ltb_spec 32767 o).
  - apply r_to_ok; auto. apply smallest_num; auto; [cbn; lia|]. intros s Hs. destruct s; cbn in Hs; try lia. intros Q. apply (k_i16 _ _ K) in Q. lia.
  - apply mostI16_ok; auto. apply (k_i16 _ _ K). lia.
Qed.
Lemma key_nonneg c : i32 c -> 0 <= key c.
Proof. intros H. rewrite key_eq by auto. destruct (Z.ltb_spec c 0); lia. Qed.
Lemma keyed_list (l : list Z) : Forall i32 l -> keyed (fold_left (fun o c => Z.lor o (key c)) l 0) (map (fun c => VNum (c * one)) l).
Proof.
  intros I. assert (NN : Forall (fun c => 0 <= key c) l) by (eapply Forall_impl; [|exact I]; intros; apply key_nonneg; auto).
  assert (G : forall k t, 0 <= k -> int_ty t -> (forall c, i32 c -> (key c < 2^k <-> lo t <= c <= hi t)) ->
     (fold_left (fun o c => Z.lor o (key c)) l 0 < 2^k <-> Forall (fits t) (map (fun c => VNum (c * one)) l))).
  { intros k t K T H. destruct (or_keys_from key l k 0 K ltac:(lia) NN) as [_ E]. rewrite E. rewrite Forall_map.
    assert (P : 0 < 2^k) by (apply Z.pow_pos_nonneg; lia). split.
    - intros [_ Q]. assert (B := Forall_and I Q). eapply Forall_impl; [|exact B]. cbv beta. intros c [C1 C2]. apply fits_int; auto. apply H; auto.
    - intros Q. split; auto. assert (B := Forall_and I Q). eapply Forall_impl; [|exact B]. cbv beta. intros c [C1 C2]. apply fits_int in C2; auto. apply H; auto. }
  split.
  - rewrite <- (G 0 EBit); [change (2^0) with 1; lia|lia|cbv; congruence|]. intros c C. rewrite key_eq by auto. cbn [lo hi]. change (2^0) with 1. destruct (Z.ltb_spec c 0); lia.
  - rewrite <- (G 7 EI8); [change (2^7) with 128; lia|lia|cbv; congruence|]. intros c C. rewrite key_eq by auto. cbn [lo hi]. change (2^7) with 128. destruct (Z.ltb_spec c 0); lia.
  - rewrite <- (G 15 EI16); [change (2^15) with 32768; lia|lia|cbv; congruence|]. intros c C. rewrite key_eq by auto. cbn [lo hi]. change (2^15) with 32768. destruct (Z.ltb_spec c 0); lia.
Qed.
Lemma int_values a : int_ty (a_et a) -> values a = map (fun c => VNum (c * one)) (a_els a).
Proof. intros T. unfold values. apply map_ext. intros z. apply vof_int; auto. Qed.
Lemma int_raw_i32 a : int_ty (a_et a) -> arr_ok a -> Forall i32 (a_els a).
Proof.
  intros T A. eapply Forall_impl; [|exact A]. cbv beta. intros z R. apply raw_int in R; auto. unfold i32.
  destruct (int_ty_cases _ T) as [ E | [ E | [ E | E ] ] ]; rewrite E in R; cbn [lo hi] in R; lia.
Qed.
Lemma own_fits a : arr_ok a -> Forall (fits (a_et a)) (values a).
Proof. intros A. unfold values. rewrite Forall_map. eapply Forall_impl; [|exact A]. intros z. apply raw_fits. Qed.

Section Cast.
Variable cast : Z -> Z.
Hypothesis CO : cast_ok cast.

Lemma squeeze_i8_ok a : a_et a = EI8 -> arr_ok a -> flags_ok a -> a_els a <> [] -> exists r, squeeze_i8 a = Ok r /\ tight a r.
Proof.
  intros E A F N. apply val_nil in N. unfold squeeze_i8, or_keys.
  assert (NN : Forall (fun c => 0 <= to_u 8 c) (a_els a)) by (apply Forall_forall; intros; apply Z.mod_pos_bound; reflexivity).
  destruct (or_keys_from (to_u 8) (a_els a) 1 0 ltac:(lia) ltac:(lia) NN) as [O1 O2]. change (2^1) with 2 in O2.
  set (o := fold_left _ _ _) in *. rewrite (int_values a) in N by (rewrite E; cbv; congruence).
  assert (B : o <= 1 <-> Forall (fits EBit) (values a)).
  { rewrite int_values by (rewrite E; cbv; congruence). rewrite Forall_map.
    assert (Q : o <= 1 <-> o < 2) by lia. rewrite Q, O2. unfold arr_ok in A. rewrite E in A. cbn [raw_ok] in A. split.
    - intros [_ H]. assert (X := Forall_and A H). eapply Forall_impl; [|exact X]. cbv beta. intros c [C1 C2]. cbn [raw_ok] in C1. apply fits_int; [cbv; congruence|]. unfold to_u in C2. change (2^8) with 256 in C2. cbn [lo hi]. lia.
    - intros H. split; [lia|]. assert (X := Forall_and A H). eapply Forall_impl; [|exact X]. cbv beta. intros c [C1 C2]. cbn [raw_ok] in C1. apply fits_int in C2; [|cbv; congruence]. unfold to_u. change (2^8) with 256. cbn [lo hi] in C2. lia. }
  rewrite <- int_values in N by (rewrite E; cbv; congruence).
  destruct (Z.ltb_spec 1 o).
  - eexists. split; [reflexivity|]. apply good_set_sq; auto. rewrite E. apply smallest_num; auto; [cbn; lia|rewrite <- E; apply own_fits; auto|].
    intros s Hs. destruct s; cbn in Hs; try lia. intros Q. apply B in Q. lia.
  - unfold mostBit. apply r_to_ok; auto. apply smallest_0. apply B. lia.
Qed.
Lemma squeeze_i16_ok a : a_et a = EI16 -> arr_ok a -> flags_ok a -> a_els a <> [] -> exists r, squeeze_i16 a = Ok r /\ tight a r.
Proof.
  intros E A F N. apply val_nil in N. unfold squeeze_i16, or_keys. assert (T : int_ty (a_et a)) by (rewrite E; cbv; congruence).
  assert (K := keyed_list (a_els a) (int_raw_i32 a T A)). rewrite <- int_values in K by auto. set (o := fold_left _ _ _) in *.
  destruct (Z.ltb_spec 127 o).
  - eexists. split; [reflexivity|]. apply good_set_sq; auto. rewrite E. apply smallest_num; auto; [cbn; lia|rewrite <- E; apply own_fits; auto|].
    intros s Hs. destruct s; cbn in Hs; try lia. intros Q. apply (k_i8 _ _ K) in Q. lia.
  - apply mostI8_ok; auto. apply (k_i8 _ _ K). lia.
Qed.
Lemma squeeze_i32_ok a : a_et a = EI32 -> arr_ok a -> flags_ok a -> a_els a <> [] -> exists r, squeeze_i32 a = Ok r /\ tight a r.
Proof.
  intros E A F N. apply val_nil in N. unfold squeeze_i32, or_keys. assert (T : int_ty (a_et a)) by (rewrite E; cbv; congruence).
  assert (K := keyed_list (a_els a) (int_raw_i32 a T A)). rewrite <- int_values in K by auto. set (o := fold_left _ _ _) in *.
  destruct (Z.ltb_spec 32767 o).
  - eexists. split; [reflexivity|]. apply good_set_sq; auto. rewrite E. apply smallest_num; auto; [cbn; lia|rewrite <- E; apply own_fits; auto|].
    intros s Hs. destruct s; cbn in Hs; try lia. intros Q. apply (k_i16 _ _ K) in Q. lia.
  - apply mostI16_ok; auto. apply (k_i16 _ _ K). lia.
Qed.

Lemma q_i32_spec w : word w -> (q_i32 cast w = true <-> exists n, i32 n /\ is_int w n).
Proof.
  intros W. destruct (CO w W) as [C1 C2]. unfold q_i32. rewrite andb_true_iff, negb_true_iff, Z.eqb_eq. split.
  - intros [N V]. exists (cast w). split; [exact C1|split; auto].
  - intros (n&I&J). assert (T := is_int_trunc _ _ J). destruct J as [N V]. split; auto. rewrite C2; auto; rewrite T; auto.
Qed.
Lemma q_i32_cast w n : word w -> i32 n -> is_int w n -> cast w = n.
Proof. intros W I J. destruct (CO w W) as [C1 C2]. assert (T := is_int_trunc _ _ J). destruct J as [N V]. rewrite C2; auto; rewrite T; auto. Qed.
Lemma q_i32_fits w : word w -> (q_i32 cast w = true <-> fits EI32 (den w)).
Proof.
  intros W. rewrite q_i32_spec by auto. cbn [fits]. split; intros (n&I&J); exists n; split; auto; apply den_num; exact J || (apply den_num in J; exact J).
Qed.
Lemma q_i32_den w : word w -> q_i32 cast w = true -> den w = VNum (cast w * one) /\ i32 (cast w).
Proof. intros W Q. destruct (CO w W) as [C1 C2]. split; [|exact C1]. unfold q_i32 in Q. apply andb_true_iff in Q as [Q1 Q2]. apply negb_true_iff in Q1. apply Z.eqb_eq in Q2. apply den_num; auto. Qed.
Lemma ne_q_i32 w : i32_ne_f (cast w) w = negb (q_i32 cast w).
Proof. unfold i32_ne_f, q_i32. destruct (is_nan w); cbn [negb andb orb]; auto. rewrite Z.eqb_sym. reflexivity. Qed.

Lemma f64_loop_spec l o : Forall word l ->
  match f64_loop cast l o with
  | None => ~ Forall (fun w => fits EI32 (den w)) l
  | Some r => r = fold_left (fun o c => Z.lor o (key c)) (map cast l) o /\ map den l = map (fun c => VNum (c * one)) (map cast l) /\ Forall i32 (map cast l)
  end.
Proof.
  intros W. revert o. induction W as [|w l W1 W IH]; intros o; cbn [f64_loop map]; auto.
  cbv zeta. rewrite ne_q_i32. destruct (q_i32 cast w) eqn:Q; cbn [negb].
  - destruct (q_i32_den w W1 Q) as [D I]. specialize (IH (Z.lor o (key (cast w)))). destruct (f64_loop cast l _).
    + destruct IH as (I1&I2&I3). cbn [fold_left map]. split; auto. split; [rewrite D, I2; auto|auto].
    + intros X. inversion X; auto.
  - intros X. inversion X as [|? ? X1 X2]; subst. apply (q_i32_fits w W1) in X1. congruence.
Qed.
Lemma squeeze_f64_ok a : a_et a = EF64 -> arr_ok a -> flags_ok a -> a_els a <> [] -> exists r, squeeze_f64 cast a = Ok r /\ tight a r.
Proof.
  intros E A F N. apply val_nil in N. unfold squeeze_f64.
  assert (W : Forall word (a_els a)). { eapply Forall_impl; [|exact A]. cbv beta. intros z. rewrite E. intros [? _]; auto. }
  assert (S := f64_loop_spec (a_els a) 0 W). assert (V : values a = map den (a_els a)) by (unfold values; rewrite E; reflexivity).
  destruct (f64_loop cast (a_els a) 0) as [o|].
  - destruct S as (S1&S2&S3). subst o. rewrite <- V in S2.
    apply mostI32_ok; auto. + rewrite S2. apply keyed_list; auto.
    + rewrite S2, Forall_map. eapply Forall_impl; [|exact S3]. intros c C. apply fits_int; [cbv; congruence|exact C].
  - eexists. split; [reflexivity|]. apply good_set_sq; auto. rewrite E. apply smallest_num; auto; [cbn; lia|rewrite <- E; apply own_fits; auto|].
    intros s Hs. destruct s; cbn in Hs; try lia. rewrite V, Forall_map. exact S.
Qed.

Lemma squeeze_c16_ok a : a_et a = EC16 -> arr_ok a -> flags_ok a -> a_els a <> [] -> exists r, squeeze_c16 a = Ok r /\ tight a r.
Proof.
  intros E A F N. apply val_nil in N. unfold squeeze_c16. assert (V : values a = map VChr (a_els a)) by (unfold values; rewrite E; reflexivity).
  unfold arr_ok in A. assert (A' := A). rewrite E in A. cbn [raw_ok] in A. rewrite Forall_forall in A.
  destruct (existsb _ _) eqn:X.
  - apply existsb_exists in X as (c&I&C). apply negb_true_iff, Z.eqb_neq in C. eexists. split; [reflexivity|]. apply good_set_sq; auto. rewrite E. apply smallest_chr; auto; [cbn; lia|rewrite <- E; apply own_fits; auto|].
    intros s S1 S2. destruct s; cbn in S1, S2; try lia. rewrite V, Forall_map, Forall_forall. intros Q. specialize (Q c I). destruct Q as (n&Q1&Q2). apply VChr_inj in Q2. specialize (A c I). cbn [raw_ok] in A. unfold to_u in C. change (2^8) with 256 in C. lia.
  - apply r_to_ok; auto. apply smallest_chr; auto; [cbn; lia| |].
    + rewrite V, Forall_map, Forall_forall. intros c I. exists c. split; auto. specialize (A c I). cbn [raw_ok] in A. assert (G : negb (c =? to_u 8 c) = false).
      { destruct (negb (c =? to_u 8 c)) eqn:G; auto. assert (Y : existsb (fun c => negb (c =? to_u 8 c)) (a_els a) = true) by (apply existsb_exists; eauto). congruence. }
      apply negb_false_iff, Z.eqb_eq in G. unfold to_u in G. change (2^8) with 256 in G. lia.
    + intros s S1 S2. destruct s; cbn in S1, S2; lia.
Qed.
Lemma c32_loop_spec l c8 : Forall (raw_ok EC32) l ->
  match c32_loop l c8 with
  | None => ~ Forall (fun c => c <= 65535) l
  | Some b => Forall (fun c => c <= 65535) l /\ (b = true <-> c8 = true /\ Forall (fun c => c <= 255) l)
  end.
Proof.
  intros R. revert c8. induction R as [|c l C R IH]; intros c8; cbn [c32_loop].
  - split; auto. split; [intros; split; auto|intros [? _]; auto].
  - cbn [raw_ok] in C. unfold to_u at 1. change (2^16) with 65536. destruct (Z.eqb_spec c (c mod 65536)); cbn [negb].
    + specialize (IH (if negb (c =? to_u 8 c) then false else c8)). destruct (c32_loop l _) as [b|].
      * destruct IH as [I1 I2]. split; [constructor; auto; lia|]. rewrite I2, Forall_cons_iff. unfold to_u. change (2^8) with 256.
        destruct (Z.eqb_spec c (c mod 256)); cbn [negb]. -- split; intros; intuition lia. -- split; [intros [? _]; discriminate|]. intros (_&?&_). lia.
      * intros X. inversion X; auto.
    + intros X. inversion X; subst. lia.
Qed.
Lemma squeeze_c32_ok a : a_et a = EC32 -> arr_ok a -> flags_ok a -> a_els a <> [] -> exists r, squeeze_c32 a = Ok r /\ tight a r.
Proof.
  intros E A F N. apply val_nil in N. unfold squeeze_c32. assert (V : values a = map VChr (a_els a)) by (unfold values; rewrite E; reflexivity).
  assert (A' := A). unfold arr_ok in A'. rewrite E in A'. assert (S := c32_loop_spec (a_els a) true A').
  assert (G8 : Forall (fun c => c <= 255) (a_els a) <-> Forall (fits EC8) (values a)).
  { rewrite V, Forall_map. split; intros H; (eapply Forall_impl; [|exact H]); cbv beta. - intros c C. exists c; auto. - intros c (n&Q&Q2). apply VChr_inj in Q2. lia. }
  assert (G16 : Forall (fun c => c <= 65535) (a_els a) <-> Forall (fits EC16) (values a)).
  { rewrite V, Forall_map. split; intros H; (eapply Forall_impl; [|exact H]); cbv beta. - intros c C. exists c; auto. - intros c (n&Q&Q2). apply VChr_inj in Q2. lia. }
  destruct (c32_loop (a_els a) true) as [[]|].
  - destruct S as [_ S]. apply r_to_ok; auto. apply smallest_chr; auto; [cbn; lia| |]. + apply G8. apply S; auto. + intros s S1 S2. destruct s; cbn in S1, S2; lia.
  - destruct S as [S0 S]. apply r_to_ok; auto. apply smallest_chr; auto; [cbn; lia| |]. + apply G16; auto. + intros s S1 S2. destruct s; cbn in S1, S2; try lia. rewrite <- G8. intros Q. assert (false = true) by (apply S; auto). discriminate.
  - eexists. split; [reflexivity|]. apply good_set_sq; auto. rewrite E. apply smallest_chr; auto; [cbn; lia|rewrite <- E; apply own_fits; auto|].
    intros s S1 S2. destruct s; cbn in S1, S2; try lia. rewrite <- G16. exact S.
Qed.

Lemma isF64_number w : word w -> (isF64 w = true <-> is_number (den w)).
Proof. intros W. destruct (den_cases w W) as [(A&B&C)|[(A&B&C)|(A&B&C)]]; rewrite A. - tauto. - rewrite C. split; [discriminate|intros [H|[x H]]; discriminate]. - rewrite C. split; [discriminate|intros [H|[x H]]; discriminate]. Qed.
Lemma isC32_char w : word w -> (isC32 w = true <-> is_char (den w)).
Proof. intros W. destruct (den_cases w W) as [(A&B&C)|[(A&B&C)|(A&B&C)]]; rewrite B. - split; [discriminate|]. intros [n N]. destruct C as [C|[x C]]; congruence. - rewrite C. split; auto. intros _. exists (w mod 2^48); auto. - rewrite C. split; [discriminate|intros [x H]; discriminate]. Qed.

Lemma numB_loop_spec l o : Forall word l ->
  match numB_loop cast l o with
  | NB_or r => r = fold_left (fun o c => Z.lor o (key c)) (map cast l) o /\ map den l = map (fun c => VNum (c * one)) (map cast l) /\ Forall i32 (map cast l)
  | NB_f64 => Forall (fun w => is_number (den w)) l /\ ~ Forall (fun w => fits EI32 (den w)) l
  | NB_not_num => ~ Forall (fun w => is_number (den w)) l
  end.
Proof.
  intros W. revert o. induction W as [|w l W1 W IH]; intros o; cbn [numB_loop map]; auto.
  destruct (q_i32 cast w) eqn:Q; cbn [negb].
  - destruct (q_i32_den w W1 Q) as [D I]. specialize (IH (Z.lor o (key (cast w)))). destruct (numB_loop cast l _).
    + destruct IH as (I1&I2&I3). cbn [fold_left map]. split; auto. split; [rewrite D, I2; auto|auto].
    + destruct IH as [I1 I2]. split. * constructor; auto. right; eauto. * intros X. inversion X; auto.
    + intros X. inversion X; auto.
  - assert (WL : Forall word (w :: l)) by auto. destruct (forallb isF64 (w :: l)) eqn:FB.
    + split. * apply Forall_forall. intros x X. rewrite forallb_forall in FB. rewrite Forall_forall in WL. apply isF64_number; auto.
      * intros X. inversion X as [|? ? X1 X2]; subst. apply (q_i32_fits w W1) in X1. congruence.
    + intros X. assert (Y : forallb isF64 (w :: l) = true); [|congruence]. apply forallb_forall. rewrite Forall_forall in X, WL. intros x Hx. apply isF64_number; auto.
Qed.
Lemma EB_words a : a_et a = EB -> arr_ok a -> Forall word (a_els a) /\ values a = map den (a_els a).
Proof. intros E A. split; [eapply Forall_impl; [|exact A]; cbv beta; intros z; rewrite E; intros [? _]; auto|unfold values; rewrite E; reflexivity]. Qed.
Lemma B_num_ok a nc : a_et a = EB -> arr_ok a -> flags_ok a -> a_els a <> [] ->
  (Forall is_number (values a) -> exists r, squeeze_B_num cast a nc = Ok r /\ tight a r) /\
  (~ Forall is_number (values a) -> squeeze_B_num cast a nc = Ok (if nc then set_sq a else a)).
Proof.
  intros E A F N. apply val_nil in N. unfold squeeze_B_num. destruct (EB_words a E A) as [W V].
  assert (S := numB_loop_spec (a_els a) 0 W). destruct (numB_loop cast (a_els a) 0) as [o| |].
  - destruct S as (S1&S2&S3). subst o. rewrite <- V in S2. split.
    + intros _. apply mostI32_ok; auto. * rewrite S2. apply keyed_list; auto.
      * rewrite S2, Forall_map. eapply Forall_impl; [|exact S3]. intros c C. apply fits_int; [cbv; congruence|exact C].
    + intros X. exfalso. apply X. rewrite S2. apply Forall_map. apply Forall_forall. intros x _. right; eauto.
  - destruct S as [S1 S2]. split.
    + intros X. apply r_to_ok; auto. apply smallest_num; auto; [cbn; lia|]. intros s Hs. destruct s; cbn in Hs; try lia. rewrite V, Forall_map. exact S2.
    + intros X. exfalso. apply X. rewrite V, Forall_map. exact S1.
  - split; intros X. + exfalso. apply S. rewrite V, Forall_map in X. exact X. + destruct nc; reflexivity.
Qed.
Lemma chrB_loop_spec l o : Forall word l ->
  match chrB_loop l o with
  | None => ~ Forall (fun w => is_char (den w)) l
  | Some r => r = fold_left (fun o c => Z.lor o (o2cG c)) l o /\ Forall (fun w => is_char (den w)) l
  end.
Proof.
  intros W. revert o. induction W as [|w l W1 W IH]; intros o; cbn [chrB_loop fold_left]; auto.
  destruct (isC32 w) eqn:Q; cbn [negb].
  - specialize (IH (Z.lor o (o2cG w))). destruct (chrB_loop l _). + destruct IH as [I1 I2]. split; auto. constructor; auto. apply isC32_char; auto. + intros X. inversion X; auto.
  - intros X. inversion X as [|? ? X1 X2]; subst. apply isC32_char in X1; auto. congruence.
Qed.
Lemma B_chr_ok a nn : a_et a = EB -> arr_ok a -> flags_ok a -> a_els a <> [] ->
  (Forall is_char (values a) -> exists r, squeeze_B_chr a nn = Ok r /\ tight a r) /\
  (~ Forall is_char (values a) -> squeeze_B_chr a nn = Ok (if nn then set_sq a else a)).
Proof.
  intros E A F N. apply val_nil in N. unfold squeeze_B_chr. destruct (EB_words a E A) as [W V].
  assert (S := chrB_loop_spec (a_els a) 0 W). destruct (chrB_loop (a_els a) 0) as [o|].
  - destruct S as (S1&S2). split.
    2:{ intros X. exfalso. apply X. rewrite V, Forall_map. exact S2. }
    intros X. assert (NN : Forall (fun c => 0 <= o2cG c) (a_els a)) by (apply Forall_forall; intros; apply Z.mod_pos_bound; reflexivity).
    assert (R : Forall (fun c => exists n, den c = VChr n /\ o2cG c = n) (a_els a)).
    { assert (Y := Forall_and A S2). eapply Forall_impl; [|exact Y]. cbv beta. rewrite E. intros c [[C1 C2] [n Hn]]. exists n. split; auto. apply (o2c_chr c n); auto. }
    assert (G : forall k t m, 0 <= k -> m = 2^k -> (forall n, fits t (VChr n) <-> n < m) -> (o < m <-> Forall (fits t) (values a))).
    { intros k t m K M H. subst m. destruct (or_keys_from o2cG (a_els a) k 0 K ltac:(lia) NN) as [_ O]. rewrite <- S1 in O. rewrite O, V, Forall_map.
      assert (P : 0 < 2^k) by (apply Z.pow_pos_nonneg; lia). split.
      - intros [_ Q]. assert (Y := Forall_and R Q). eapply Forall_impl; [|exact Y]. cbv beta. intros c [(n&C1&C2) C3]. rewrite C1. apply H. lia.
      - intros Q. split; auto. assert (Y := Forall_and R Q). eapply Forall_impl; [|exact Y]. cbv beta. intros c [(n&C1&C2) C3]. rewrite C1 in C3. apply H in C3. lia. }
    assert (G8 := G 8 EC8 256 ltac:(lia) eq_refl). assert (G16 := G 16 EC16 65536 ltac:(lia) eq_refl).
    assert (H8 : forall n, fits EC8 (VChr n) <-> n < 256). { intros n. cbn [fits]. split. - intros (m&M1&M2). apply VChr_inj in M2. lia. - intros Q. exists n. split; [lia|auto]. }
    assert (H16 : forall n, fits EC16 (VChr n) <-> n < 65536). { intros n. cbn [fits]. split. - intros (m&M1&M2). apply VChr_inj in M2. lia. - intros Q. exists n. split; [lia|auto]. }
    specialize (G8 H8). specialize (G16 H16).
    destruct (Z.ltb_spec 65535 o); [|destruct (Z.ltb_spec 255 o)]; apply r_to_ok; auto; apply smallest_chr; auto; try (cbn; lia).
    + intros s T1 T2. destruct s; cbn in T1, T2; try lia. rewrite <- G16. lia.
    + apply G16. lia.
    + intros s T1 T2. destruct s; cbn in T1, T2; try lia. rewrite <- G8. lia.
    + apply G8. lia.
  - split; intros X. + exfalso. apply S. rewrite V, Forall_map in X. exact X. + destruct nn; reflexivity.
Qed.
Lemma not_Forall_ex {A} (P : A -> Prop) (f : A -> bool) l : (forall x, In x l -> (f x = true <-> P x)) -> ~ Forall P l -> exists x, In x l /\ ~ P x.
Proof.
  intros D N. destruct (forallb f l) eqn:E.
  - exfalso. apply N. rewrite forallb_forall in E. apply Forall_forall. intros x X. apply D; auto.
  - induction l as [|y l IH]; [discriminate|]. cbn in E. destruct (f y) eqn:Y.
    + destruct IH as (x&X1&X2). * intros x X. apply D. right; auto. * intros Q. apply N. constructor; auto. apply D; [left; auto|auto]. * exact E. * exists x. split; auto. right; auto.
    + exists y. split; [left; auto|]. intros Q. apply D in Q; [congruence|left; auto].
Qed.
Lemma squeeze_B_ok a : a_et a = EB -> arr_ok a -> flags_ok a -> a_els a <> [] -> exists r, squeeze_B cast a = Ok r /\ tight a r.
Proof.
  intros E A F N. destruct (EB_words a E A) as [W V]. unfold squeeze_B. destruct (a_els a) as [|x0 t] eqn:L; [congruence|].
  assert (N' : a_els a <> []) by congruence.
  assert (W0 : word x0) by (inversion W; auto). assert (I0 : In (den x0) (values a)) by (rewrite V; left; auto).
  destruct (isF64 x0) eqn:T1.
  - destruct (B_num_ok a true E A F N') as [P1 P2].
    assert (D : Forall is_number (values a) \/ exists v, In v (values a) /\ ~ is_number v).
    { destruct (forallb isF64 (x0 :: t)) eqn:FB.
      - left. rewrite V, Forall_map. rewrite forallb_forall in FB. apply Forall_forall. intros x X. rewrite Forall_forall in W. apply isF64_number; auto.
      - right. destruct (not_Forall_ex (fun w => is_number (den w)) isF64 (x0 :: t)) as (x&X1&X2).
        + intros x X. rewrite Forall_forall in W. apply isF64_number; auto.
        + intros Q. assert (forallb isF64 (x0 :: t) = true); [|congruence]. apply forallb_forall. rewrite Forall_forall in Q, W. intros; apply isF64_number; auto.
        + exists (den x). split; auto. rewrite V. apply in_map; auto. }
    destruct D as [D|(v&D1&D2)]; auto. rewrite P2. 2:{ rewrite Forall_forall. auto. }
    eexists. split; [reflexivity|]. apply good_set_sq; auto. rewrite E. apply (smallest_B _ v (den x0)); auto.
    intros [n Q]. apply isF64_number in T1; auto. destruct T1 as [T1|[y T1]]; congruence.
  - destruct (isC32 x0) eqn:T2.
    + destruct (B_chr_ok a true E A F N') as [P1 P2].
      assert (D : Forall is_char (values a) \/ exists v, In v (values a) /\ ~ is_char v).
      { destruct (forallb isC32 (x0 :: t)) eqn:FB.
        - left. rewrite V, Forall_map. rewrite forallb_forall in FB. apply Forall_forall. intros x X. rewrite Forall_forall in W. apply isC32_char; auto.
        - right. destruct (not_Forall_ex (fun w => is_char (den w)) isC32 (x0 :: t)) as (x&X1&X2).
          + intros x X. rewrite Forall_forall in W. apply isC32_char; auto.
          + intros Q. assert (forallb isC32 (x0 :: t) = true); [|congruence]. apply forallb_forall. rewrite Forall_forall in Q, W. intros; apply isC32_char; auto.
          + exists (den x). split; auto. rewrite V. apply in_map; auto. }
      destruct D as [D|(v&D1&D2)]; auto. rewrite P2. 2:{ rewrite Forall_forall. auto. }
      eexists. split; [reflexivity|]. apply good_set_sq; auto. rewrite E. apply (smallest_B _ (den x0) v); auto.
      intros Q. apply isF64_number in Q; auto. congruence.
    + eexists. split; [reflexivity|]. apply good_set_sq; auto. rewrite E. apply (smallest_B _ (den x0) (den x0)); auto.
      * intros Q. apply isF64_number in Q; auto. congruence. * intros Q. apply isC32_char in Q; auto. congruence.
Qed.
Lemma smallest_self a : a_et a = EBit \/ a_et a = EC8 -> arr_ok a -> a_els a <> [] -> smallest (a_et a) (values a).
Proof.
  intros H A N. apply val_nil in N. assert (O := own_fits a A). destruct H as [H|H]; rewrite H in *.
  - apply smallest_0; auto.
  - apply smallest_chr; auto; [cbn; lia|]. intros s S1 S2. cbn in S2. lia.
Qed.

(** ** int_squeeze_sorted *)
Lemma land1 i : Z.land i 1 = i mod 2. Proof. change 1 with (Z.ones 1). rewrite Z.land_ones by lia. reflexivity. Qed.
Lemma selfElType_spec i : i32 i -> let t := selfElType_i32 i in int_ty t /\ forall s, int_ty s -> (lo s <= i <= hi s <-> elt_no t <= elt_no s).
Proof.
  unfold i32. intros H. unfold selfElType_i32, to_s. rewrite land1. change (2^(8-1)) with 128. change (2^8) with 256. change (2^(16-1)) with 32768. change (2^16) with 65536.
  assert (G : forall t : elt, int_ty t -> (forall s, int_ty s -> (lo s <= i <= hi s <-> elt_no t <= elt_no s)) -> let t := t in int_ty t /\ forall s, int_ty s -> (lo s <= i <= hi s <-> elt_no t <= elt_no s)) by (intros; split; auto).
  destruct (Z.eqb_spec i ((i + 128) mod 256 - 128)); [destruct (Z.eqb_spec i (i mod 2))|destruct (Z.eqb_spec i ((i + 32768) mod 65536 - 32768))]; apply G; try (cbv; congruence);
    intros s S; destruct (int_ty_cases s S) as [ -> | [ -> | [ -> | -> ] ] ]; cbn [lo hi elt_no]; lia.
Qed.
Lemma sorted_ends (R : Z -> Z -> Prop) l x0 : (forall x, R x x) -> StronglySorted R (x0 :: l) -> forall x, In x (x0 :: l) -> R x0 x /\ R x (last (x0 :: l) x0).
Proof.
  intros RF. assert (G : forall (l : list Z) d, l <> [] -> StronglySorted R l -> forall x, In x l -> R x (last l d)).
  { clear l x0. induction l as [|y l IH]; intros d N S x X; [congruence|]. inversion S as [|? ? S1 S2]; subst. destruct l as [|z l].
    - destruct X as [->|[]]. cbn. auto.
    - change (last (y :: z :: l) d) with (last (z :: l) d). destruct X as [->|X].
      + rewrite Forall_forall in S2. apply S2. assert (NE : z :: l <> []) by discriminate. destruct (exists_last NE) as (q&w&E). rewrite E, last_last. apply in_or_app. right; left; auto.
      + apply IH; auto. discriminate. }
  intros S x X. split. - inversion S as [|? ? S1 S2]; subst. destruct X as [->|X]; auto. rewrite Forall_forall in S2. auto. - apply G; auto. discriminate.
Qed.
Lemma StronglySorted_map {A} (R : A -> A -> Prop) (P : A -> Prop) f l : Forall P l -> (forall x, P x -> f x = x) -> map f l = l.
Proof. intros H E. induction H; cbn; auto. rewrite E, IHForall by auto. reflexivity. Qed.
Lemma values_int_inj s t l l' : int_ty s -> int_ty t -> map (vof s) l = map (vof t) l' -> l = l'.
Proof.
  intros S T. revert l'. induction l as [|x l IH]; intros [|y l'] E; cbn in E; try discriminate; auto.
  injection E as E1 E2. rewrite !vof_int, VNum_inj, one_cancel in E1 by auto. subst. f_equal. auto.
Qed.
Lemma int_squeeze_sorted_ok a : int_ty (a_et a) -> arr_ok a -> flags_ok a -> a_asc a = true \/ a_dsc a = true -> a_els a <> [] ->
  exists r, int_squeeze_sorted a = Ok r /\ tight a r.
Proof.
  intros T A F O N. assert (NV : values a <> []) by (apply val_nil; auto). assert (I := int_raw_i32 a T A).
  destruct (a_els a) as [|x0 l] eqn:L; [congruence|]. unfold int_squeeze_sorted. rewrite L. set (x1 := last (x0 :: l) x0).
  destruct (Z.eqb_spec (elt_no (a_et a)) 0).
  { eexists. split; [reflexivity|]. apply good_set_sq; auto. apply smallest_self; auto; [|congruence]. left. destruct (a_et a); cbn in *; lia || auto. }
  assert (I1 : In x1 (x0 :: l)). { unfold x1. assert (NE : x0 :: l <> []) by discriminate. destruct (exists_last NE) as (q&w&E). rewrite E, last_last. apply in_or_app. right; left; auto. }
  assert (J0 : i32 x0) by (inversion I; auto). assert (J1 : i32 x1) by (rewrite Forall_forall in I; auto).
  assert (B : forall x, In x (x0 :: l) -> Z.min x0 x1 <= x <= Z.max x0 x1).
  { intros x X. destruct F as (_&F2&F3). unfold int_ty in T. destruct O as [O|O].
    - specialize (F2 O T). rewrite L in F2. destruct (sorted_ends Z.le l x0 Z.le_refl F2 x X) as [Q1 Q2]. fold x1 in Q2. lia.
    - specialize (F3 O T). rewrite L in F3. destruct (sorted_ends Z.ge l x0 (fun x => Z.le_ge _ _ (Z.le_refl x)) F3 x X) as [Q1 Q2]. fold x1 in Q2. lia. }
  destruct (selfElType_spec x0 J0) as [T0 S0]. destruct (selfElType_spec x1 J1) as [T1 S1].
  set (re := elt_max (selfElType_i32 x0) (selfElType_i32 x1)).
  assert (RT : int_ty re) by (unfold re, elt_max; destruct (_ <? _); auto).
  assert (RM : forall s, int_ty s -> (elt_no re <= elt_no s <-> lo s <= x0 <= hi s /\ lo s <= x1 <= hi s)).
  { intros s S. rewrite (S0 s S), (S1 s S). unfold re, elt_max. destruct (Z.ltb_spec (elt_no (selfElType_i32 x1)) (elt_no (selfElType_i32 x0))); lia. }
  assert (FT : forall s, int_ty s -> (Forall (fits s) (values a) <-> elt_no re <= elt_no s)).
  { intros s S. rewrite RM by auto. rewrite int_values, L, Forall_map, Forall_forall by auto. split.
    - intros H. split; apply fits_int; auto; apply H; auto. left; auto.
    - intros [H1 H2] x X. apply fits_int; auto. specialize (B x X). lia. }
  assert (SM : smallest re (values a)).
  { apply smallest_num; auto. - unfold int_ty in RT; lia. - apply FT; auto; lia. - intros s S Q. apply FT in Q; [lia|]. unfold int_ty in *; lia. }
  destruct (Z.eqb_spec (elt_no (a_et a)) (elt_no re)).
  { eexists. split; [reflexivity|]. apply good_set_sq; auto. assert (a_et a = re) as -> by (destruct (a_et a), re; cbn in *; congruence). exact SM. }
  assert (LT : elt_no re < elt_no (a_et a)). { assert (Q := proj2 SM (a_et a) (own_fits a A)). lia. }
  destruct (cpy_ok re a A (proj1 SM)) as (l'&E&V&AO).
  assert (EL : l' = a_els a). { apply (values_int_inj re (a_et a)); auto. }
  assert (R : exists r, (do r <- cpy re a; Ok {| a_et := a_et r; a_els := a_els r; a_sq := true; a_asc := a_asc a; a_dsc := a_dsc a |}) = Ok r /\ tight a r).
  { rewrite E. cbn [bind mk a_et a_els]. eexists. split; [reflexivity|]. assert (V2 : values {| a_et := re; a_els := l'; a_sq := true; a_asc := a_asc a; a_dsc := a_dsc a |} = values a) by exact V.
    split; [|exact SM]. split; auto. split; [exact AO|]. destruct F as (F1&F2&F3). unfold int_ty in T. split; [intros _ _; rewrite V2; exact SM|]. cbn [a_asc a_dsc a_els a_et]. rewrite EL. split; auto. }
  unfold int_ty in T. destruct re; try (exact R); cbn in LT; lia.
Qed.

Definition num_ok (a r : arr) : Prop := good a r /\ (Forall is_number (values a) -> a_els a <> [] -> smallest (a_et r) (values a)).
Definition chr_ok (a r : arr) : Prop := good a r /\ (Forall is_char (values a) -> a_els a <> [] -> smallest (a_et r) (values a)).
Lemma good_refl a : arr_ok a -> flags_ok a -> good a a. Proof. split; auto. Qed.

Lemma elt_eq_cases t : t = EBit \/ t = EI8 \/ t = EI16 \/ t = EI32 \/ t = EF64 \/ t = EC8 \/ t = EC16 \/ t = EC32 \/ t = EB. Proof. destruct t; tauto. Qed.
Lemma anyFns_ok a : arr_ok a -> flags_ok a -> a_els a <> [] -> exists r, anyFns cast (a_et a) a = Ok r /\ tight a r.
Proof.
  intros A F N. destruct (elt_eq_cases (a_et a)) as [E|[E|[E|[E|[E|[E|[E|[E|E]]]]]]]]; rewrite E; cbn [anyFns].
  - eexists. split; [reflexivity|]. apply good_set_sq; auto. apply smallest_self; auto.
  - apply squeeze_i8_ok; auto. - apply squeeze_i16_ok; auto. - apply squeeze_i32_ok; auto. - apply squeeze_f64_ok; auto.
  - eexists. split; [reflexivity|]. apply good_set_sq; auto. apply smallest_self; auto.
  - apply squeeze_c16_ok; auto. - apply squeeze_c32_ok; auto. - apply squeeze_B_ok; auto.
Qed.
Lemma tight_num a r : tight a r -> num_ok a r. Proof. intros [G S]; split; auto. Qed.
Lemma tight_chr a r : tight a r -> chr_ok a r. Proof. intros [G S]; split; auto. Qed.
Lemma chr_arr_not_num a : elChr (a_et a) = true -> a_els a <> [] -> ~ Forall is_number (values a).
Proof.
  intros E N. unfold values. destruct (a_els a) as [|x l]; [congruence|]. cbn [map]. intros F. inversion F as [|? ? H _]; subst.
  destruct (a_et a); try discriminate E; cbn [vof] in H; destruct H as [H|[y H]]; discriminate.
Qed.
Lemma num_arr_not_chr a : elNum (a_et a) = true -> arr_ok a -> a_els a <> [] -> ~ Forall is_char (values a).
Proof.
  intros E A N. unfold values, arr_ok in *. destruct (a_els a) as [|x l]; [congruence|]. cbn [map]. intros F. inversion F as [|? ? [n H] _]; subst. inversion A as [|? ? R _]; subst.
  destruct (a_et a); try discriminate E; cbn [vof raw_ok] in *; try discriminate. destruct R as [W Q]. apply isF64_iff in Q; auto. destruct (den_chr _ _ W H) as (_&?&_). congruence.
Qed.
Lemma numFns_ok a : arr_ok a -> flags_ok a -> a_els a <> [] -> exists r, numFns cast (a_et a) a = Ok r /\ num_ok a r.
Proof.
  intros A F N. assert (NP : elChr (a_et a) = true -> num_ok a a).
  { intros C. split; [apply good_refl; auto|]. intros H. exfalso. apply (chr_arr_not_num a); auto. }
  assert (TN : forall f, (exists r, f = Ok r /\ tight a r) -> exists r, f = Ok r /\ num_ok a r) by (intros f (r&R&T); exists r; split; auto; apply tight_num; auto).
  destruct (elt_eq_cases (a_et a)) as [E|[E|[E|[E|[E|[E|[E|[E|E]]]]]]]]; rewrite E; cbn [numFns].
  - apply TN. eexists. split; [reflexivity|]. apply good_set_sq; auto. apply smallest_self; auto.
  - apply TN, squeeze_i8_ok; auto. - apply TN, squeeze_i16_ok; auto. - apply TN, squeeze_i32_ok; auto. - apply TN, squeeze_f64_ok; auto.
  - apply TN. eexists. split; [reflexivity|]. apply good_set_sq; auto. apply smallest_self; auto.
  - exists a. split; auto. apply NP. rewrite E; reflexivity.
  - exists a. split; auto. apply NP. rewrite E; reflexivity.
  - destruct (B_num_ok a false E A F N) as [P1 P2]. destruct (EB_words a E A) as [W V].
    destruct (forallb isF64 (a_els a)) eqn:FB.
    + apply TN, P1. rewrite V, Forall_map. rewrite forallb_forall in FB. apply Forall_forall. intros x X. rewrite Forall_forall in W. apply isF64_number; auto.
    + assert (NN : ~ Forall is_number (values a)).
      { intros Q. rewrite V, Forall_map in Q. assert (forallb isF64 (a_els a) = true); [|congruence]. apply forallb_forall. rewrite Forall_forall in Q, W. intros; apply isF64_number; auto. }
      rewrite P2 by auto. exists a. split; auto. split; [apply good_refl; auto|]. contradiction.
Qed.
Lemma chrFns_ok a : arr_ok a -> flags_ok a -> a_els a <> [] -> exists r, chrFns (a_et a) a = Ok r /\ chr_ok a r.
Proof.
  intros A F N. assert (NP : elNum (a_et a) = true -> chr_ok a a).
  { intros C. split; [apply good_refl; auto|]. intros H. exfalso. apply (num_arr_not_chr a); auto. }
  assert (TN : forall f, (exists r, f = Ok r /\ tight a r) -> exists r, f = Ok r /\ chr_ok a r) by (intros f (r&R&T); exists r; split; auto; apply tight_chr; auto).
  destruct (elt_eq_cases (a_et a)) as [E|[E|[E|[E|[E|[E|[E|[E|E]]]]]]]]; rewrite E; cbn [chrFns].
  - apply TN. eexists. split; [reflexivity|]. apply good_set_sq; auto. apply smallest_self; auto.
  - exists a. split; auto. apply NP. rewrite E; reflexivity.
  - exists a. split; auto. apply NP. rewrite E; reflexivity.
  - exists a. split; auto. apply NP. rewrite E; reflexivity.
  - exists a. split; auto. apply NP. rewrite E; reflexivity.
  - apply TN. eexists. split; [reflexivity|]. apply good_set_sq; auto. apply smallest_self; auto.
  - apply TN, squeeze_c16_ok; auto. - apply TN, squeeze_c32_ok; auto.
  - destruct (B_chr_ok a false E A F N) as [P1 P2]. destruct (EB_words a E A) as [W V].
    destruct (forallb isC32 (a_els a)) eqn:FB.
    + apply TN, P1. rewrite V, Forall_map. rewrite forallb_forall in FB. apply Forall_forall. intros x X. rewrite Forall_forall in W. apply isC32_char; auto.
    + assert (NN : ~ Forall is_char (values a)).
      { intros Q. rewrite V, Forall_map in Q. assert (forallb isC32 (a_els a) = true); [|congruence]. apply forallb_forall. rewrite Forall_forall in Q, W. intros; apply isC32_char; auto. }
      rewrite P2 by auto. exists a. split; auto. split; [apply good_refl; auto|]. contradiction.
Qed.
Lemma sq_fast_ok a r : arr_ok a -> flags_ok a -> a_els a <> [] -> sq_fast_ext a = Some r -> exists x, r = Ok x /\ tight a x.
Proof.
  intros A F N. unfold sq_fast_ext. destruct (a_sq a) eqn:Q.
  - cbn [orb]. intros H. injection H as <-. exists a. split; auto. split; [apply good_refl; auto|]. apply F; auto.
  - cbn [orb]. destruct (a_asc a || a_dsc a) eqn:O; [|discriminate]. destruct (elInt (a_et a)) eqn:I; [|discriminate]. intros H. injection H as <-.
    apply int_squeeze_sorted_ok; auto. + unfold elInt in I. unfold int_ty. lia. + apply orb_true_iff; auto.
Qed.
Lemma is_empty_spec a : if is_empty a then a_els a = [] else a_els a <> [].
Proof. unfold is_empty. destruct (a_els a); congruence. Qed.
Lemma empty_good a t : a_els a = [] -> good a (mk t []).
Proof. intros E. split; [unfold values; rewrite E; reflexivity|]. split; [constructor|]. split; [discriminate|]. split; discriminate. Qed.
Lemma set_sq_empty a : a_els a = [] -> flags_ok a -> good a (set_sq a).
Proof. intros E (F1&F2&F3). split; [reflexivity|]. split; [unfold arr_ok; cbn; rewrite E; constructor|]. split; [cbn; congruence|]. split; auto. Qed.

Theorem squeeze_any_ok a : arr_ok a -> flags_ok a -> exists r, squeeze_any cast a = Ok r /\ good a r /\ (a_els a <> [] -> smallest (a_et r) (values a)).
Proof.
  intros A F. assert (E := is_empty_spec a). unfold squeeze_any. destruct (is_empty a).
  - assert (G : forall r, sq_fast_ext a = Some r -> exists x, r = Ok x /\ good a x).
    { unfold sq_fast_ext. intros r. destruct (a_sq a). - cbn [orb]. intros H; injection H as <-. exists a. split; auto. apply good_refl; auto.
      - cbn [orb]. destruct (_ || _); [|discriminate]. destruct (elInt _); [|discriminate]. intros H; injection H as <-. unfold int_squeeze_sorted. rewrite E. eexists. split; [reflexivity|]. apply set_sq_empty; auto. }
    destruct (sq_fast_ext a) as [r|]. + destruct (G r eq_refl) as (x&->&X). exists x. split; auto. split; auto. congruence.
    + eexists. split; [reflexivity|]. split; [apply set_sq_empty; auto|congruence].
  - destruct (sq_fast_ext a) as [r|] eqn:S. + destruct (sq_fast_ok a r A F E S) as (x&->&[X1 X2]). exists x. auto.
    + destruct (anyFns_ok a A F E) as (r&R&[X1 X2]). exists r. auto.
Qed.
Theorem squeeze_num_ok a : arr_ok a -> flags_ok a ->
  (exists r, squeeze_numNew cast a = Ok r /\ num_ok a r) /\ (exists r, squeeze_numTry cast a = Ok r /\ num_ok a r).
Proof.
  intros A F. assert (E := is_empty_spec a). unfold squeeze_numNew, squeeze_numTry. destruct (is_empty a).
  - assert (G : exists r, (if elt_no (a_et a) =? 0 then Ok a else Ok (mk EBit [])) = Ok r /\ num_ok a r).
    { destruct (_ =? _); eexists; (split; [reflexivity|]); (split; [|congruence]); [apply good_refl; auto|apply empty_good; auto]. }
    auto.
  - split; [apply numFns_ok; auto|]. destruct (sq_fast_ext a) as [r|] eqn:S; [|apply numFns_ok; auto].
    destruct (sq_fast_ok a r A F E S) as (x&->&X). exists x. split; auto. apply tight_num; auto.
Qed.
Theorem squeeze_chr_ok a : arr_ok a -> flags_ok a ->
  (exists r, squeeze_chrNew a = Ok r /\ chr_ok a r) /\ (exists r, squeeze_chrTry a = Ok r /\ chr_ok a r).
Proof.
  intros A F. assert (E := is_empty_spec a). unfold squeeze_chrNew, squeeze_chrTry. destruct (is_empty a).
  - assert (G : exists r, (if elt_no (a_et a) =? 5 then Ok a else Ok (mk EC8 [])) = Ok r /\ chr_ok a r).
    { destruct (_ =? _); eexists; (split; [reflexivity|]); (split; [|congruence]); [apply good_refl; auto|apply empty_good; auto]. }
    split; auto. destruct (a_sq a); auto. exists a. split; auto. split; [apply good_refl; auto|congruence].
  - split; [apply chrFns_ok; auto|]. destruct (a_sq a) eqn:S; [|apply chrFns_ok; auto]. exists a. split; auto. split; [apply good_refl; auto|]. intros _ _. apply F; auto.
Qed.
End Cast.
