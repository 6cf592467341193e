From Verif Require Import Base BitsModel BitsSpec BitLemmas BitsProof TagModel TagSpec TagProof NumSpec NumProof ArrSpec DataSpec SqueezeModel SqueezeSpec SqueezeProof MatchModel MatchSpec.

Section Ind.
Variable P : obj -> Prop.
Hypothesis HA : forall w, P (OAtom w).
Hypothesis HB : forall sh ws, P (OBits sh ws).
Hypothesis HT : forall sh t l, P (OTyped sh t l).
Hypothesis HX : forall sh els, Forall P els -> P (OBox sh els).
Fixpoint obj_ind' (o : obj) : P o :=
  match o with
  | OAtom w => HA w | OBits sh ws => HB sh ws | OTyped sh t l => HT sh t l
  | OBox sh els => HX sh els ((fix all (l : list obj) : Forall P l := match l with [] => Forall_nil P | x :: t => Forall_cons x (obj_ind' x) (all t) end) els)
  end.
End Ind.

Definition veq (refl : bool) (a b : value) : Prop := a = b /\ (refl = true \/ a <> VNaN).

Lemma kloop_ok n : forall i gw gx ne (R : nat -> Prop),
  (forall j, (i <= j < i + n)%nat -> exists a b, gw j = Ok a /\ gx j = Ok b /\ (ne a b = false <-> R j)) ->
  exists r, kloop n i gw gx ne = Ok r /\ (r = true <-> forall j, (i <= j < i + n)%nat -> R j).
Proof.
  induction n as [|n IH]; intros i gw gx ne R H.
  - exists true. split; auto. split; auto. intros; lia.
  - cbn [kloop]. destruct (H i ltac:(lia)) as (a&b&-> & -> &E). cbn [bind]. destruct (ne a b) eqn:N.
    + exists false. split; auto. split; [discriminate|]. intros Q. symmetry. apply E. apply Q. lia.
    + destruct (IH (S i) gw gx ne R) as (r&Er&Q). { intros; apply H; lia. } exists r. split; auto. rewrite Q. split; intros K j J.
      * destruct (Nat.eq_dec j i) as [ -> |]; [apply E; auto|apply K; lia].
      * apply K; lia.
Qed.
Lemma krefl_ok n : forall i gw gx (R : nat -> Prop) r0,
  (forall j, (i <= j < i + n)%nat -> exists a b, gw j = Ok a /\ gx j = Ok b /\ (floatIndistinguishable a b = true <-> R j)) ->
  exists r, krefl n i gw gx r0 = Ok r /\ (r = true <-> r0 = true /\ forall j, (i <= j < i + n)%nat -> R j).
Proof.
  induction n as [|n IH]; intros i gw gx R r0 H.
  - exists r0. split; auto. split; [intros; split; auto; intros; lia|tauto].
  - cbn [krefl]. destruct (H i ltac:(lia)) as (a&b&-> & -> &E). cbn [bind]. fold (floatIndistinguishable a b).
    destruct (IH (S i) gw gx R (r0 && floatIndistinguishable a b)) as (r&Er&Q). { intros; apply H; lia. }
    exists r. split; auto. rewrite Q, andb_true_iff, E. split.
    + intros [[A B] K]. split; auto. intros j J. destruct (Nat.eq_dec j i) as [ -> |]; auto. apply K; lia.
    + intros [A K]. split; [split; auto; apply K; lia|]. intros j J. apply K; lia.
Qed.

Lemma Forall2_nth {A} (R : A -> A -> Prop) (d : A) l1 : forall l2, length l1 = length l2 ->
  (Forall2 R l1 l2 <-> forall i, (i < length l1)%nat -> R (nth i l1 d) (nth i l2 d)).
Proof.
  induction l1 as [|a l1 IH]; intros [|b l2] L; try discriminate; cbn [length] in *.
  - split; [intros; lia|constructor].
  - specialize (IH l2 ltac:(lia)). split.
    + intros H. inversion H; subst. intros [|i] I; cbn; auto. apply IH; auto. lia.
    + intros H. constructor. * apply (H 0%nat). lia. * apply IH. intros i I. apply (H (S i)). lia.
Qed.

(** ** Elements as values *)
Definition flatv (o : obj) : list value :=
  match o with
  | OBits sh ws => map (fun b : bool => VNum (if b then one else 0)) (bits_of ws 0 (prod sh))
  | OTyped _ t l => map (vof t) l
  | _ => []
  end.
Definition flat (o : obj) : Prop := match o with OBits _ _ | OTyped _ _ _ => True | _ => False end.
Lemma oden_flat o : flat o -> oden o = DArr (o_shape o) (map DAtom (flatv o)).
Proof. destruct o; intros []; cbn [oden o_shape flatv]; rewrite map_map; reflexivity. Qed.
Lemma prod_nonneg s : Forall (fun n => 0 <= n) s -> 0 <= prod s.
Proof. induction 1; cbn [prod fold_right]; [lia|]. apply Z.mul_nonneg_nonneg; auto. Qed.
Lemma flat_len o : flat o -> ovalid o -> Z.of_nat (length (flatv o)) = prod (o_shape o) /\ 0 <= prod (o_shape o).
Proof.
  destruct o; intros []; cbn [ovalid flatv o_shape]; rewrite map_length.
  - intros (A&_&_). assert (P := prod_nonneg _ A). unfold bits_of. rewrite map_length, seq_length. lia.
  - intros (A&_&_&L&_). assert (P := prod_nonneg _ A). lia.
Qed.
Lemma rd_nth {A} (l : list A) i d : (i < length l)%nat -> rd l i = Ok (nth i l d).
Proof. intros H. unfold rd. rewrite (nth_error_nth' l d H). reflexivity. Qed.
Lemma bitz_ok ws i : Z.of_nat i < 64 * Z.of_nat (length ws) -> bitz ws i = Ok (if mbit ws (Z.of_nat i) then 1 else 0).
Proof.
  intros H. unfold bitz, bitp_get. rewrite shr6, land63, rdz_ok by (unfold len; lia). cbn [bind]. rewrite mbit_split. reflexivity.
Qed.
Lemma bits_of_nth ws n i : (i < Z.to_nat n)%nat -> nth i (bits_of ws 0 n) false = mbit ws (Z.of_nat i).
Proof.
  intros H. unfold bits_of. rewrite (nth_indep _ false (mbit ws (64 * 0 + Z.of_nat 0))) by (rewrite map_length, seq_length; lia).
  rewrite (map_nth (fun i => mbit ws (64 * 0 + Z.of_nat i)) (seq 0 (Z.to_nat n)) 0%nat i), seq_nth by lia. f_equal.
Qed.

(** the value of one number *)
Definition numt t := t = EI8 \/ t = EI16 \/ t = EI32.
Lemma vz_eq refl a b : veq refl (VNum (a * one)) (VNum (b * one)) <-> a = b.
Proof. unfold veq. rewrite VNum_inj, one_cancel. split; [tauto|]. intros; split; auto. right; discriminate. Qed.
Lemma raw_f64_den z : raw_ok EF64 z -> den z = if is_nan z then VNaN else VNum (fval z).
Proof.
  intros [W S]. unfold den. destruct (is_nan z) eqn:N; auto. destruct (Z.leb_spec (2^51) (fraction z)); auto. elim S. apply snan_dec. auto.
Qed.
Lemma ne_zf_ok refl a b : raw_ok EF64 b -> (ne_zf a b = false <-> veq refl (VNum (a * one)) (den b)).
Proof.
  intros B. rewrite (raw_f64_den b B). unfold ne_zf, veq. destruct (is_nan b); cbn [orb].
  - split; [discriminate|intros [H _]; discriminate].
  - rewrite VNum_inj. destruct (Z.eqb_spec (a * one) (fval b)); cbn [negb]; split; try tauto; try discriminate. intros; split; auto. right; discriminate.
Qed.
Lemma ne_ff_ok a b : raw_ok EF64 a -> raw_ok EF64 b -> (ne_ff a b = false <-> veq false (den a) (den b)).
Proof.
  intros A B. rewrite (raw_f64_den a A), (raw_f64_den b B). unfold ne_ff, feq, veq. destruct (is_nan a), (is_nan b); cbn [negb andb].
  - split; [discriminate|intros [_ [H|H]]; [discriminate|congruence]].
  - split; [discriminate|intros [H _]; discriminate].
  - split; [discriminate|intros [H _]; discriminate].
  - rewrite VNum_inj. destruct (Z.eqb_spec (fval a) (fval b)); cbn [negb]; split; try tauto; try discriminate. intros; split; auto. right; discriminate.
Qed.
Lemma fi_ok a b : raw_ok EF64 a -> raw_ok EF64 b -> (floatIndistinguishable a b = true <-> veq true (den a) (den b)).
Proof.
  intros A B. rewrite (raw_f64_den a A), (raw_f64_den b B). unfold floatIndistinguishable, feq, veq. rewrite !Z.eqb_refl. destruct (is_nan a), (is_nan b); cbn [negb andb orb].
  - tauto.
  - split; [discriminate|intros [H _]; discriminate].
  - split; [discriminate|intros [H _]; discriminate].
  - rewrite VNum_inj, orb_false_r, Z.eqb_eq. split; [intros; split; auto|tauto].
Qed.

(** ** Bytes *)
Lemma bytes_length k z : length (bytes k z) = k. Proof. revert z. induction k; intros; cbn [bytes length]; auto. Qed.
Lemma bytes_inj k : forall a b, bytes k a = bytes k b <-> a mod 256 ^ Z.of_nat k = b mod 256 ^ Z.of_nat k.
Proof.
  induction k as [|k IH]; intros a b.
  - cbn [bytes Z.of_nat Z.pow]. rewrite !Z.mod_1_r. tauto.
  - cbn [bytes]. rewrite Nat2Z.inj_succ, Z.pow_succ_r by lia. assert (0 < 256 ^ Z.of_nat k) by (apply Z.pow_pos_nonneg; lia).
    rewrite !Z.rem_mul_r by lia. split.
    + intros E. injection E as E1 E2. apply (proj1 (IH _ _)) in E2. rewrite E1, E2. reflexivity.
    + intros E. assert (A1 := Z.mod_pos_bound a 256 ltac:(lia)). assert (B1 := Z.mod_pos_bound b 256 ltac:(lia)).
      assert (E1 : a mod 256 = b mod 256) by lia. assert (E2 : (a/256) mod 256 ^ Z.of_nat k = (b/256) mod 256 ^ Z.of_nat k) by lia.
      f_equal; auto. apply IH; auto.
Qed.
Definition bt t := t = EI8 \/ t = EI16 \/ t = EI32 \/ t = EC8 \/ t = EC16 \/ t = EC32.
Lemma bytes_val t a b : bt t -> raw_ok t a -> raw_ok t b -> (bytes (esize t) a = bytes (esize t) b <-> a = b).
Proof.
  intros T A B. rewrite bytes_inj. split; [|intros ->; auto]. destruct T as [->|[->|[->|[->|[->| ->]]]]]; cbn [raw_ok esize Z.of_nat Pos.of_succ_nat Pos.succ] in *;
  change (256 ^ 1) with 256; change (256 ^ 2) with 65536; change (256 ^ 4) with 4294967296; lia.
Qed.
Lemma flat_map_bytes_length k l : length (flat_map (bytes k) l) = (length l * k)%nat.
Proof. induction l as [|a l IH]; cbn [flat_map length]; auto. rewrite app_length, bytes_length, IH. lia. Qed.
Lemma app_inj_len {A} (a b c d : list A) : length a = length b -> a ++ c = b ++ d -> a = b /\ c = d.
Proof. revert b. induction a as [|x a IH]; intros [|y b] L E; try discriminate; cbn in *; auto. injection E as -> E. apply IH in E; [|lia]. destruct E as [-> ->]. auto. Qed.
Lemma flat_bytes t l1 : bt t -> forall l2, length l1 = length l2 -> Forall (raw_ok t) l1 -> Forall (raw_ok t) l2 ->
  (flat_map (bytes (esize t)) l1 = flat_map (bytes (esize t)) l2 <-> l1 = l2).
Proof.
  intros T. induction l1 as [|a l1 IH]; intros [|b l2] L A B; try discriminate; [tauto|]. cbn [flat_map]. inversion A; inversion B; subst.
  split; [|intros E; injection E as -> ->; auto]. intros E.
  assert (E2 : bytes (esize t) a = bytes (esize t) b /\ flat_map (bytes (esize t)) l1 = flat_map (bytes (esize t)) l2).
  { apply app_inj_len in E; auto. rewrite !bytes_length. auto. }
  destruct E2 as [E2 E3]. apply bytes_val in E2; auto. apply IH in E3; auto. congruence.
Qed.
Lemma list_eq_nth {A} (d : A) l1 l2 : length l1 = length l2 -> (l1 = l2 <-> forall i, (i < length l1)%nat -> nth i l1 d = nth i l2 d).
Proof. intros L. split; [intros ->; auto|]. intros H. apply (nth_ext _ _ d d); auto. Qed.
Lemma forall_range0 n (R : nat -> Prop) : (forall j, (0 <= j < 0 + n)%nat -> R j) <-> (forall j, (j < n)%nat -> R j).
Proof. split; intros H j J; apply H; lia. Qed.

(** ** The kernels *)
Lemma shl_0 a b r : 0 <= a < 2^64 -> 0 <= b < 2^64 -> 0 < r < 64 -> ((shl (Z.lxor a b) r =? 0) = true <-> forall i, 0 <= i < 64 - r -> Z.testbit a i = Z.testbit b i).
Proof.
  intros A B R. rewrite Z.eqb_eq. split.
  - intros E i I. assert (T := tb_shl (Z.lxor a b) r (i + r) ltac:(lia)). rewrite E, Z.testbit_0_l in T. replace (i + r - r) with i in T by lia.
    rewrite Z.lxor_spec in T. destruct (Z.ltb_spec (i + r) 64); [|lia]. rewrite andb_true_r in T. destruct (Z.testbit a i), (Z.testbit b i); auto; discriminate.
  - intros H. apply Z.bits_inj'. intros i I. rewrite Z.testbit_0_l, tb_shl by lia. destruct (Z.ltb_spec i 64); [|apply andb_false_r]. rewrite andb_true_r.
    destruct (Z_lt_le_dec i r); [apply Z.testbit_neg_r; lia|]. rewrite Z.lxor_spec, H by lia. apply xorb_nilpotent.
Qed.
Lemma k11_ok ws xs l : words ws -> words xs -> 0 < l -> l <= 64 * Z.of_nat (length ws) -> l <= 64 * Z.of_nat (length xs) ->
  exists r, k_1_1 (MW ws) (MW xs) l = Ok r /\ (r = true <-> forall i, 0 <= i < l -> mbit ws i = mbit xs i).
Proof.
  intros W X L LW LX. cbn [k_1_1].
  destruct (kloop_ok (Z.to_nat (l/64)) 0 (rd ws) (rd xs) nez (fun j => forall b, 0 <= b < 64 -> mbit ws (64 * Z.of_nat j + b) = mbit xs (64 * Z.of_nat j + b))) as (r&E&Q).
  { intros j J. exists (nth j ws 0), (nth j xs 0). split; [apply rd_nth; lia|]. split; [apply rd_nth; lia|].
    assert (WR : forall m, BitsProof.word m (Z.of_nat j) = nth j m 0) by (intros; unfold BitsProof.word; rewrite Nat2Z.id; auto).
    unfold nez. destruct (Z.eqb_spec (nth j ws 0) (nth j xs 0)) as [E|E]; cbn [negb]; split; auto; try discriminate.
    - intros _ b B. rewrite !mbit_word, !WR, E by auto. reflexivity.
    - intros H. elim E. apply Z.bits_inj'. intros i I. assert (A1 := word_range ws (Z.of_nat j) W). assert (A2 := word_range xs (Z.of_nat j) X). rewrite !WR in *.
      destruct (Z_lt_le_dec i 64). + specialize (H i ltac:(lia)). rewrite !mbit_word, !WR in H by lia. exact H.
      + rewrite (range_bits _ 64 i A1), (range_bits _ 64 i A2) by lia. reflexivity. }
  rewrite E. cbn [bind]. rewrite forall_range0 in Q.
  assert (Q' : r = true <-> forall i, 0 <= i < 64 * (l / 64) -> mbit ws i = mbit xs i).
  { rewrite Q. split. - intros H i I. specialize (H (Z.to_nat (i/64)) ltac:(lia) (i mod 64) ltac:(lia)). rewrite Z2Nat.id in H by lia. rewrite <- (Z.div_mod i 64) in H by lia. exact H.
    - intros H j J b B. apply H. lia. }
  destruct r; cbn [negb].
  - destruct (Z.eqb_spec ((-l) mod 64) 0) as [Z0|Z0].
    + exists true. split; auto. split; auto. intros _ i I. apply Q'; auto. lia.
    + rewrite !rdz_ok by (unfold len; lia). cbn [bind]. eexists. split; [reflexivity|]. rewrite shl_0; try apply word_range; auto; [|lia]. split.
      * intros H i I. destruct (Z_lt_le_dec i (64 * (l/64))); [apply Q'; auto; lia|]. replace i with (64 * (l/64) + (i - 64 * (l/64))) by lia. rewrite !mbit_word by lia. apply H. lia.
      * intros H i I. rewrite <- !mbit_word by lia. apply H. lia.
  - exists false. split; auto. split; [discriminate|]. intros H. apply Q'. intros; apply H. lia.
Qed.

Lemma nez_ok refl (a b : Z) : nez a b = false <-> veq refl (VNum (a * one)) (VNum (b * one)).
Proof. rewrite vz_eq. unfold nez. rewrite negb_false_iff, Z.eqb_eq. tauto. Qed.
Lemma nez_chr refl (a b : Z) : nez a b = false <-> veq refl (VChr a) (VChr b).
Proof. unfold veq, nez. rewrite VChr_inj, negb_false_iff, Z.eqb_eq. split; [intros; split; auto; right; discriminate|tauto]. Qed.
Lemma bit_v ws n i : (i < Z.to_nat n)%nat -> nth i (map (fun b : bool => VNum (if b then one else 0)) (bits_of ws 0 n)) VNaN = VNum ((if mbit ws (Z.of_nat i) then 1 else 0) * one).
Proof.
  intros I. set (f := fun b : bool => VNum (if b then one else 0)). rewrite (nth_indep _ VNaN (f false)) by (unfold bits_of; rewrite !map_length, seq_length; auto).
  rewrite map_nth, bits_of_nth by auto. unfold f. destruct (mbit _ _); f_equal; lia.
Qed.
Lemma typ_v t l i : (i < length l)%nat -> nth i (map (vof t) l) VNaN = vof t (nth i l 0).
Proof. intros I. rewrite (nth_indep _ VNaN (vof t 0)) by (rewrite map_length; auto). apply map_nth. Qed.
Lemma Forall_nth_ok {A} (P : A -> Prop) l i d : Forall P l -> (i < length l)%nat -> P (nth i l d).
Proof. intros H I. rewrite Forall_forall in H. apply H, nth_In; auto. Qed.

Definition result (refl : bool) (w x : obj) (r : res bool) : Prop := exists b, r = Ok b /\ (b = true <-> Forall2 (veq refl) (flatv w) (flatv x)).

Lemma veq_sym refl a b : veq refl a b -> veq refl b a. Proof. intros [-> H]; split; auto. Qed.
Lemma result_nth refl w x r : length (flatv w) = length (flatv x) -> (exists b, r = Ok b /\ (b = true <-> forall i, (i < length (flatv w))%nat -> veq refl (nth i (flatv w) VNaN) (nth i (flatv x) VNaN))) -> result refl w x r.
Proof. intros L (b&E&H). exists b. split; auto. rewrite H. symmetry. apply Forall2_nth; auto. Qed.
Lemma result_swap refl w x r : length (flatv w) = length (flatv x) -> (exists b, r = Ok b /\ (b = true <-> forall i, (i < length (flatv w))%nat -> veq refl (nth i (flatv x) VNaN) (nth i (flatv w) VNaN))) -> result refl w x r.
Proof. intros L (b&E&H). apply result_nth; auto. exists b. split; auto. rewrite H. split; intros K i I; apply veq_sym; auto. Qed.

(** a kernel that reads a bit array and a numeric array *)
Lemma k1_ok refl t wsh ws xsh xs : numt t \/ t = EF64 -> ovalid (OBits wsh ws) -> ovalid (OTyped xsh t xs) -> prod wsh = prod xsh ->
  exists b, kloop (Z.to_nat (prod xsh)) 0 (bitz ws) (rd xs) (match t with EF64 => ne_zf | _ => nez end) = Ok b /\
    (b = true <-> forall i, (i < length xs)%nat -> veq refl (nth i (flatv (OBits wsh ws)) VNaN) (nth i (flatv (OTyped xsh t xs)) VNaN)).
Proof.
  cbn [ovalid flatv]. intros T (SW&W&LW) (SX&_&_&LX&X) P. assert (PN := prod_nonneg _ SX).
  destruct (kloop_ok (Z.to_nat (prod xsh)) 0 (bitz ws) (rd xs) (match t with EF64 => ne_zf | _ => nez end)
     (fun i => veq refl (nth i (flatv (OBits wsh ws)) VNaN) (nth i (flatv (OTyped xsh t xs)) VNaN))) as (r&E&Q).
  - intros j J. rewrite bitz_ok, (rd_nth xs j 0) by lia. eexists _, _. split; [reflexivity|]. split; [reflexivity|].
    cbn [flatv]. rewrite bit_v, typ_v by lia. assert (R := Forall_nth_ok _ xs j 0 X ltac:(lia)).
    destruct T as [[ -> |[ -> | -> ]]| -> ]; cbn [vof]; try apply nez_ok. apply ne_zf_ok; auto.
  - exists r. split; auto. rewrite Q, forall_range0. replace (Z.to_nat (prod xsh)) with (length xs) by lia. tauto.
Qed.
(** a kernel that reads two arrays with elements *)
Lemma kST_ok refl s t wsh ws xsh xs (ne : Z -> Z -> bool) : (forall a b, raw_ok s a -> raw_ok t b -> (ne a b = false <-> veq refl (vof s a) (vof t b))) ->
  ovalid (OTyped wsh s ws) -> ovalid (OTyped xsh t xs) -> prod wsh = prod xsh ->
  exists b, kloop (Z.to_nat (prod xsh)) 0 (rd ws) (rd xs) ne = Ok b /\
    (b = true <-> forall i, (i < length xs)%nat -> veq refl (nth i (flatv (OTyped wsh s ws)) VNaN) (nth i (flatv (OTyped xsh t xs)) VNaN)).
Proof.
  cbn [ovalid flatv]. intros T (SW&_&_&LW&W) (SX&_&_&LX&X) P. assert (PN := prod_nonneg _ SX).
  destruct (kloop_ok (Z.to_nat (prod xsh)) 0 (rd ws) (rd xs) ne
     (fun i => veq refl (nth i (flatv (OTyped wsh s ws)) VNaN) (nth i (flatv (OTyped xsh t xs)) VNaN))) as (r&E&Q).
  - intros j J. rewrite (rd_nth ws j 0), (rd_nth xs j 0) by lia. eexists _, _. split; [reflexivity|]. split; [reflexivity|].
    cbn [flatv]. rewrite !typ_v by lia. apply T; apply Forall_nth_ok; auto; lia.
  - exists r. split; auto. rewrite Q, forall_range0. replace (Z.to_nat (prod xsh)) with (length xs) by lia. tauto.
Qed.
Lemma k88_ok refl t d wsh ws xsh xs : bt t -> esize t = Z.to_nat (2 ^ d) -> 0 <= d -> ovalid (OTyped wsh t ws) -> ovalid (OTyped xsh t xs) -> prod wsh = prod xsh ->
  result refl (OTyped wsh t ws) (OTyped xsh t xs) (k_8_8 (MT t ws) (MT t xs) (prod xsh) d).
Proof.
  cbn [ovalid]. intros T SZ D (SW&_&_&LW&W) (SX&_&_&LX&X) P. assert (PN := prod_nonneg _ SX). assert (2^d > 0) by lia. unfold k_8_8. cbn [mem_bytes]. rewrite Z.shiftl_mul_pow2 by lia.
  assert (L : length ws = length xs) by lia.
  assert (EL : Z.to_nat (prod xsh * 2^d) = (length xs * esize t)%nat) by (rewrite SZ; rewrite <- LX; rewrite Z2Nat.inj_mul by lia; rewrite Nat2Z.id; auto). rewrite EL.
  destruct (kloop_ok (length xs * esize t) 0 (rd (flat_map (bytes (esize t)) ws)) (rd (flat_map (bytes (esize t)) xs)) nez
    (fun i => nth i (flat_map (bytes (esize t)) ws) 0 = nth i (flat_map (bytes (esize t)) xs) 0)) as (r&E&Q).
  - intros j J. rewrite !(rd_nth _ j 0) by (rewrite flat_map_bytes_length; lia). eexists _, _. split; [reflexivity|]. split; [reflexivity|].
    unfold nez. rewrite negb_false_iff, Z.eqb_eq. tauto.
  - exists r. split; auto. rewrite Q, forall_range0. replace (length xs * esize t)%nat with (length (flat_map (bytes (esize t)) ws)) by (rewrite flat_map_bytes_length; lia).
    rewrite <- list_eq_nth by (rewrite !flat_map_bytes_length; lia). rewrite (flat_bytes t ws T xs L W X). cbn [flatv].
    assert (V : forall a b, raw_ok t a -> raw_ok t b -> (veq refl (vof t a) (vof t b) <-> a = b)).
    { intros a b _ _. destruct T as [->|[->|[->|[->|[->| ->]]]]]; cbn [vof]; try apply vz_eq; unfold veq; rewrite VChr_inj; (split; [tauto|]; intros; split; auto; right; discriminate). }
    clear - L W X V. revert xs L X. induction ws as [|a ws IH]; intros [|b xs] L X; try discriminate.
    + split; auto. constructor.
    + inversion W; inversion X; subst. cbn [map]. split.
      * intros E. injection E as -> ->. constructor; [apply V; auto|]. apply IH; auto.
      * intros E. inversion E; subst. f_equal; [apply (V a b); auto|apply IH; auto].
Qed.
Lemma notEq_ok refl w x : flatv w <> [] -> (forall a b, In a (flatv w) -> In b (flatv x) -> a <> b) -> result refl w x (Ok false).
Proof.
  intros N H. exists false. split; auto. split; [discriminate|]. intros F. destruct (flatv w) as [|a l]; [congruence|]. inversion F as [|? b ? ? [E _]]; subst.
  exfalso. match goal with Q : b :: _ = flatv x |- _ => apply (H b b); [left; auto|rewrite <- Q; left; auto|auto] end.
Qed.
Lemma num_in w a : flat w -> ovalid w -> elNum (o_elt w) = true -> In a (flatv w) -> is_number a.
Proof.
  destruct w as [|sh ws|sh t l|]; intros []; cbn [o_elt flatv ovalid].
  - intros _ _ I. apply in_map_iff in I as (b&<-&_). right; eauto.
  - intros (_&_&_&_&R) N I. apply in_map_iff in I as (z&<-&I). rewrite Forall_forall in R. specialize (R z I).
    destruct t; try discriminate; cbn [vof]; try (right; eauto; fail). + rewrite raw_f64_den by auto. destruct (is_nan z); [left|right]; eauto.
Qed.
Lemma chr_in w a : flat w -> ovalid w -> elNum (o_elt w) = false -> In a (flatv w) -> is_char a.
Proof.
  destruct w as [|sh ws|sh t l|]; intros []; cbn [o_elt flatv ovalid]; [discriminate|].
  intros (_&_&B&_&_) N I. apply in_map_iff in I as (z&<-&I). destruct t; try discriminate; cbn [vof]; unfold is_char; eauto. congruence.
Qed.
Lemma notEq_kinds refl w x : flat w -> flat x -> ovalid w -> ovalid x -> elNum (o_elt w) <> elNum (o_elt x) -> flatv w <> [] -> result refl w x (Ok false).
Proof.
  intros FW FX W X K N. apply notEq_ok; auto. intros a b A B E. subst b. destruct (elNum (o_elt w)) eqn:EW, (elNum (o_elt x)) eqn:EX; try congruence.
  - apply num_in in A; auto. apply chr_in in B; auto. destruct A as [->|[? ->]], B; discriminate.
  - apply chr_in in A; auto. apply num_in in B; auto. destruct B as [->|[? ->]], A; discriminate.
Qed.

Lemma match_call_ok refl w x : flat w -> flat x -> ovalid w -> ovalid x -> prod (o_shape w) = prod (o_shape x) -> 0 < prod (o_shape x) ->
  result refl w x (match_call refl (o_elt w) (o_elt x) (o_mem w) (o_mem x) (prod (o_shape x))).
Proof.
  intros FW FX W X P PP. destruct (flat_len w FW W) as [LW _]. destruct (flat_len x FX X) as [LX _]. assert (LL : length (flatv w) = length (flatv x)) by lia.
  assert (NE : flatv w <> []) by (intros E; rewrite E in LW; cbn in LW; lia).
  destruct w as [|wsh ws|wsh s ws|]; try destruct FW; destruct x as [|xsh xs|xsh t xs|]; try destruct FX; cbn [o_elt o_mem o_shape] in *.
  - (* 1_1 *) cbn [ovalid] in W, X. destruct W as (A1&A2&A3), X as (B1&B2&B3). change (match_call refl EBit EBit (MW ws) (MW xs) (prod xsh)) with (k_1_1 (MW ws) (MW xs) (prod xsh)).
    destruct (k11_ok ws xs (prod xsh)) as (r&E&Q); auto; [lia|]. apply result_nth; auto. exists r. split; auto. rewrite Q. cbn [flatv] in *. split.
    + intros H i I. rewrite !bit_v by lia. rewrite H by lia. apply vz_eq; auto.
    + intros H i I. specialize (H (Z.to_nat i) ltac:(lia)). rewrite !bit_v in H by lia. apply vz_eq in H. rewrite !Z2Nat.id in H by lia. destruct (mbit ws i), (mbit xs i); auto; lia.
  - (* 1_T *) assert (V := X). cbn [ovalid] in V. destruct V as (V1&V2&V3&V4&V5). assert (LT : length (flatv (OBits wsh ws)) = length xs) by (rewrite LL; cbn [flatv]; apply map_length).
    destruct t; try congruence; try (apply notEq_kinds; auto; try exact I; cbn; discriminate);
    (apply result_nth; auto; rewrite LT; apply k1_ok; auto; unfold numt; tauto).
  - (* T_1 *) assert (V := W). cbn [ovalid] in V. destruct V as (V1&V2&V3&V4&V5). assert (LT : length (flatv (OTyped wsh s ws)) = length ws) by (cbn [flatv]; apply map_length).
    destruct s; try congruence; try (apply notEq_kinds; auto; try exact I; cbn; discriminate);
    (apply result_swap; auto; rewrite LT; rewrite <- P; apply k1_ok; auto; unfold numt; tauto).
  - assert (V := W). cbn [ovalid] in V. destruct V as (V1&V2&V3&V4&V5). assert (V := X). cbn [ovalid] in V. destruct V as (U1&U2&U3&U4&U5).
    assert (LT : length (flatv (OTyped wsh s ws)) = length ws) by (cbn [flatv]; apply map_length). assert (LTX : length ws = length xs) by lia.
    destruct s; try congruence; destruct t; try congruence;
    try (apply notEq_kinds; auto; try exact I; cbn; discriminate);
    try (match goal with |- result _ (OTyped _ ?t _) (OTyped _ ?t _) _ => 
       first [ refine (k88_ok refl t 0 wsh ws xsh xs _ _ _ W X P) | refine (k88_ok refl t 1 wsh ws xsh xs _ _ _ W X P) | refine (k88_ok refl t 2 wsh ws xsh xs _ _ _ W X P) ]; [unfold bt; tauto|reflexivity|lia] end);
    try (apply result_nth; auto; rewrite LT, LTX; apply kST_ok; auto; intros a b A B; cbn [vof]; first [apply nez_ok|apply nez_chr|apply ne_zf_ok; auto]; fail);
    try (apply result_swap; auto; rewrite LT; rewrite <- P; apply kST_ok; auto; intros a b A B; cbn [vof]; first [apply nez_ok|apply nez_chr|apply ne_zf_ok; auto]; fail).
    apply result_nth; auto. rewrite LT, LTX. unfold match_call. destruct refl.
    + change (exists b, krefl (Z.to_nat (prod xsh)) 0 (rd ws) (rd xs) true = Ok b /\ (b = true <-> forall i, (i < length xs)%nat -> veq true (nth i (flatv (OTyped wsh EF64 ws)) VNaN) (nth i (flatv (OTyped xsh EF64 xs)) VNaN))).
      destruct (krefl_ok (Z.to_nat (prod xsh)) 0 (rd ws) (rd xs) (fun i => veq true (nth i (flatv (OTyped wsh EF64 ws)) VNaN) (nth i (flatv (OTyped xsh EF64 xs)) VNaN)) true) as (r&E&Q).
      * intros j J. rewrite (rd_nth ws j 0), (rd_nth xs j 0) by lia. eexists _, _. split; [reflexivity|]. split; [reflexivity|].
        cbn [flatv]. rewrite !typ_v by lia. cbn [vof]. apply fi_ok; apply (Forall_nth_ok (raw_ok EF64)); auto; lia.
      * exists r. split; auto. rewrite Q, forall_range0. replace (Z.to_nat (prod xsh)) with (length xs) by lia. tauto.
    + apply (kST_ok false EF64 EF64 wsh ws xsh xs ne_ff); auto. intros a b A B. cbn [vof]. apply ne_ff_ok; auto.
Qed.
