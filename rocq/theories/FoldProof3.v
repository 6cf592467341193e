From Verif Require Import Base ListLib BitsModel BitsSpec BitsProof BitsProof2 SqueezeModel SqueezeProof SelectModel SelectProof SelectProof2 ArithModel ArithSpec ArithProof ArithProof2 ArithProof3 FoldModel FoldSpec FoldProof FoldProof2.
From Coq Require Import List Lia.
Open Scope Z_scope.

Lemma bits_within l : within 2 (map b2z l).
Proof. apply Forall_forall. intros z H. apply in_map_iff in H. destruct H as (b & <- & _). destruct b; cbn; lia. Qed.
Lemma count_sum l : count_true l = zsum (map b2z l).
Proof. induction l as [|a l IH]; [reflexivity|]. cbn [count_true map zsum]. rewrite IH. destruct a; reflexivity. Qed.
(** one element after another, from the initial value *)
Lemma fold1_unit (f : Z -> Z -> Z) e l : l <> [] -> (forall a, In a l -> f a e = a) -> fold1 f l = Some (fold_right f e l).
Proof. intros N E. destruct (snoc_case l) as [->|(m & a & ->)]; [congruence|]. rewrite fold1_snoc, fold_right_app. cbn [fold_right]. rewrite E; [reflexivity|]. apply in_or_app. right. left. reflexivity. Qed.
Lemma or0 a : is_double a -> prim_op (PO OOr) a 0 = a.
Proof. intros D. cbn [prim_op dbl_op]. rewrite Z.add_0_r, Z.mul_0_r, (rnd_double_id a D). change (rnd 0) with 0. rewrite Z.sub_0_r. apply rnd_double_id, D. Qed.
Lemma add0 a : is_double a -> prim_op (PO OAdd) a 0 = a.
Proof. intros D. cbn [prim_op dbl_op]. rewrite Z.add_0_r. apply rnd_double_id, D. Qed.
Lemma mul1 a : is_double a -> prim_op (PO OMul) a 1 = a.
Proof. intros D. cbn [prim_op dbl_op]. rewrite Z.mul_1_r. apply rnd_double_id, D. Qed.
Definition spare (x : arr) : Prop := match x with AB xp n => n / 64 < len xp | _ => True end.
Lemma len_bits m p n : length (bits_of m p n) = Z.to_nat n. Proof. unfold bits_of. rewrite map_length, seq_length. reflexivity. Qed.
Lemma b2z_xor a b : Z.lxor (b2z a) (b2z b) = b2z (xorb a b). Proof. destruct a, b; reflexivity. Qed.
Lemma odd_nat n : 0 <= n -> b2z (Nat.odd (Z.to_nat n)) = n mod 2.
Proof. intros N. pose proof (odd_mod64 (Z.to_nat n)) as O. rewrite Z2Nat.id in O by lia. rewrite <- O. rewrite Zmod_odd. assert (Z.odd (n mod 64) = Z.odd n) as ->; [|reflexivity]. assert (n = n mod 64 + 2 * (32 * (n / 64))) as E by lia. rewrite E at 2. rewrite Z.odd_add_mul_2. reflexivity. Qed.

Section F.
Variables (cv64 cv32 : Z -> Z).
Hypothesis C64 : conv 64 cv64.
Hypothesis C32 : conv 32 cv32.
Lemma fold_c1_ok p x : arr_ok x -> 0 < a_ia x < 2 ^ 48 -> (p = PLt \/ p = PLe \/ p = PGt \/ p = PGe -> spare x) -> exists r, fold_c1 cv64 p x = Ok r /\ fold1 (prim_op p) (vals x) = Some r.
Proof using C64.
  intros X N SP. change (2 ^ 48) with 281474976710656 in N. pose proof (vals_len x X) as L. pose proof (vals_double x X) as D. assert (NE : vals x <> []) by (intros E; rewrite E in L; cbn in L; lia).
  unfold fold_c1. replace (a_ia x =? 0) with false by lia. rewrite !elems_ok by auto. cbn [bind].
  destruct (a_ia x =? 1) eqn:E1. { destruct (vals x) as [|a [|b l]]; cbn [length] in L; try lia. exists a. split; reflexivity. }
  destruct (a_ia x =? 2) eqn:E2. { destruct (vals x) as [|a [|b [|c l]]]; cbn [length] in L; try lia. exists (prim_op p a b). split; reflexivity. }
  assert (HL : p = PL -> exists r, rd (vals x) 0 = Ok r /\ fold1 (prim_op PL) (vals x) = Some r). { intros _. destruct (vals x) as [|a l]; [congruence|]. exists a. split; auto. cbn [fold1]. destruct (fold1 (prim_op PL) l); reflexivity. }
  assert (HR : p = PR -> exists r, rd (vals x) (Z.to_nat (a_ia x - 1)) = Ok r /\ fold1 (prim_op PR) (vals x) = Some r).
  { intros _. destruct (snoc_case (vals x)) as [E|(m & a & E)]; [congruence|]. exists a. rewrite E in *. rewrite app_length in L. cbn [length] in L. replace (Z.to_nat (a_ia x - 1)) with (length m) by lia. unfold rd. rewrite nth_error_app2, Nat.sub_diag by lia. split; [reflexivity|]. rewrite fold1_snoc. f_equal. clear. induction m as [|b m IH]; [reflexivity|]. cbn [fold_right]. rewrite IH. reflexivity. }
  assert (BASE := base1_ok p x X NE).
  assert (U0 : forall a, In a (vals x) -> is_double a) by (apply Forall_forall; exact D).
  destruct x as [xp n|k xp|xp].
  - cbn [a_ia] in *. rewrite vals_bits in *. destruct X as [W NB]. fold (len xp) in NB. set (l := bits_of xp 0 n) in *. assert (LL : length l = Z.to_nat n) by apply len_bits. assert (NEl : l <> []) by (intros E; apply NE; rewrite E; reflexivity).
    assert (FB := fun A S => fold1_bits p l A S).
    assert (SPR : p = PLt \/ p = PLe \/ p = PGt \/ p = PGe -> forall v, bit_find xp 0 n v = Ok (first_index v l)). { intros H v. apply bit_find_first; auto; try lia. cbn [spare] in SP. apply SP in H. lia. }
    destruct p as [o| | | | | | | |]; [destruct o| | | | | | | |]; auto; try rewrite FB by congruence.
    + rewrite bit_sum_spec by (unfold len in *; lia). fold l. cbn [bind]. eexists. split; [reflexivity|]. rewrite (fold1_unit _ 0); auto; [|intros; apply add0; auto]. rewrite (fold_add_exact 2) by (try apply bits_within; rewrite map_length; change (2 ^ 53) with 9007199254740992; lia). rewrite count_sum, rnd_exact; [reflexivity|]. pose proof (zsum_within 2 _ (bits_within l)) as Z. rewrite map_length in Z. change (2 ^ 53) with 9007199254740992. lia.
    + rewrite bit_diff_ok by (unfold len in *; lia). fold l. cbn [bind]. eexists. split; [reflexivity|]. rewrite (fold1_unit _ 0); auto. 2:{ intros a A. cbn [prim_op dbl_op]. rewrite Z.sub_0_r. apply rnd_double_id; auto. }
      destruct (fold_sub_exact 2 (map b2z l) 0 (bits_within l)) as [-> B]; rewrite map_length in *; [change (2 ^ 53) with 9007199254740992; lia|]. rewrite rnd_exact; [reflexivity|]. change (2 ^ 53) with 9007199254740992. lia.
    + rewrite has_false by (auto; lia). fold l. cbn [bind]. eexists. split; [reflexivity|]. change (bop (PO OMul)) with andb. rewrite fold1_and by auto. destruct (forallb _ l); reflexivity.
    + rewrite has_false by (auto; lia). fold l. cbn [bind]. eexists. split; [reflexivity|]. change (bop (PO OAnd)) with andb. rewrite fold1_and by auto. destruct (forallb _ l); reflexivity.
    + rewrite has_true by (auto; lia). fold l. cbn [bind bres]. eexists. split; [reflexivity|]. change (bop (PO OOr)) with orb. rewrite fold1_or by auto. reflexivity.
    + rewrite has_false by (auto; lia). fold l. cbn [bind]. eexists. split; [reflexivity|]. change (bop (PO OMin)) with andb. rewrite fold1_and by auto. destruct (forallb _ l); reflexivity.
    + rewrite has_true by (auto; lia). fold l. cbn [bind bres]. eexists. split; [reflexivity|]. change (bop (PO OMax)) with orb. rewrite fold1_or by auto. reflexivity.
    + rewrite SPR by auto. cbn [bind]. eexists. split; [reflexivity|]. rewrite fold1_lt by auto. cbn [option_map]. rewrite LL, Z2Nat.id by lia. reflexivity.
    + rewrite SPR by auto. cbn [bind]. eexists. split; [reflexivity|]. rewrite fold1_le by auto. cbn [option_map]. rewrite LL, Z2Nat.id by lia. reflexivity.
    + rewrite SPR by auto. cbn [bind]. eexists. split; [reflexivity|]. apply fold1_gt; auto.
    + rewrite SPR by auto. cbn [bind]. eexists. split; [reflexivity|]. apply fold1_ge; auto.
    + rewrite fold_ne_ok by lia. fold l. cbn [bind]. eexists. split; [reflexivity|]. rewrite fold1_eq by auto. cbn [option_map]. f_equal. rewrite <- b2z_xor, xors_count. f_equal. rewrite LL. assert (b2z (negb (Nat.odd (Z.to_nat n))) = 1 - n mod 2) as -> by (rewrite <- odd_nat by lia; destruct (Nat.odd (Z.to_nat n)); reflexivity). lia.
    + rewrite fold_ne_ok by lia. fold l. cbn [bind]. eexists. split; [reflexivity|]. rewrite fold1_ne by auto. cbn [option_map]. rewrite xors_count. reflexivity.
  - destruct X as [K R]. fold (inr k xp) in R. cbn [vals a_ia] in *.
    assert (MU : exists r, prod_int (length xp) xp 1 = Ok r /\ fold1 (prim_op (PO OMul)) xp = Some r). { rewrite prod_int_ok by lia. rewrite firstn_all. eexists. split; [reflexivity|]. apply fold1_unit; auto. intros; apply mul1; auto. }
    destruct p as [o| | | | | | | |]; [destruct o| | | | | | | |]; auto; try exact MU.
    + destruct (Z.of_nat (length xp) <=? 65536) eqn:S.
      * rewrite small_sum by (auto; lia). cbn [bind]. eexists. split; [reflexivity|]. rewrite (fold1_unit _ 0); auto; [|intros; apply add0; auto]. assert (B : hb k * Z.of_nat (length xp) <= 140737488355328) by (destruct (hb_vals k K) as [(_ & -> & _) | [(_ & -> & _) | (_ & -> & _)]]; lia).
        rewrite (fold_add_exact (hb k)) by (auto; change (2 ^ 53) with 9007199254740992; lia). pose proof (zsum_within (hb k) xp R) as Z. rewrite rnd_exact; [reflexivity|]. change (2 ^ 53) with 9007199254740992. rewrite Z.mul_sub_distr_r in Z. lia.
      * rewrite sum_int_ok by (auto; apply small_double; lia). eexists. split; [reflexivity|]. apply fold1_unit; auto. intros; apply add0; auto.
    + destruct (or_loop_total xp (length xp) (le_n _)) as [o E]. rewrite E. cbn [bind]. pose proof (or_loop_ok xp) as O. specialize (O ltac:(apply Forall_forall; intros z Hz; unfold inr in R; rewrite Forall_forall in R; specialize (R z Hz); destruct (half k K) as [H | [H | H]]; rewrite H in R; lia) (length xp) (le_n _) o E).
      destruct o as [i|]; [|exact BASE]. rewrite firstn_all in O. eexists. split; [reflexivity|]. rewrite <- O. apply fold1_unit; auto. intros; apply or0; auto.
    + apply (minmax_fold_ok false); auto.
    + apply (minmax_fold_ok true); auto.
  - cbn [vals a_ia] in *.
    assert (MU : exists r, prod_dbl (length xp) xp 1 = Ok r /\ fold1 (prim_op (PO OMul)) xp = Some r). { unfold prod_dbl. rewrite prod_comm, down_ok by lia. rewrite firstn_all. eexists. split; [reflexivity|]. apply fold1_unit; auto. intros; apply mul1; auto. }
    destruct p as [o| | | | | | | |]; [destruct o| | | | | | | |]; auto; try exact MU.
    + unfold sum_f64. rewrite sum_comm, down_ok, firstn_all by lia. eexists. split; [reflexivity|]. apply fold1_unit; auto. intros; apply add0; auto.
    + apply (minmax_fold_ok false); auto.
    + apply (minmax_fold_ok true); auto.
Qed.
Lemma cv32_01 w : cv32 w = w -> - 2147483648 <= w < 2147483648.
Proof using C32. intros E. destruct (C32 w) as [R _]. change (2 ^ (32 - 1)) with 2147483648 in R. lia. Qed.
Lemma fold_right_and_op (o : op) : o = OMul \/ o = OAnd \/ o = OMin -> bop (PO o) = andb. Proof using. intros [-> | [-> | ->]]; reflexivity. Qed.
(** the one case in which the sign change of the initial value overflows *)
Definition min_odd (p : prim) (w : Z) (x : arr) : Prop := match x with AB _ n => p = PO OSub /\ w = - 2147483648 /\ n mod 2 = 1 | _ => False end.
Lemma fold_c2_ok p w x : arr_ok x -> is_double w -> 0 <= a_ia x < 2 ^ 48 -> ~ min_odd p w x -> fold_c2 cv64 cv32 p w x = Ok (fold_right (prim_op p) w (vals x)).
Proof using C64 C32.
  intros X DW N MO. change (2 ^ 48) with 281474976710656 in N. pose proof (vals_len x X) as L. pose proof (vals_double x X) as D.
  unfold fold_c2. destruct (a_ia x =? 0) eqn:E0. { destruct (vals x); [reflexivity|cbn [length] in L; lia]. } assert (NE : vals x <> []) by (intros E; rewrite E in L; cbn in L; lia).
  rewrite !elems_ok by auto. cbn [bind].
  assert (HL : p = PL -> rd (vals x) 0 = Ok (fold_right (prim_op PL) w (vals x))). { intros _. destruct (vals x) as [|a l]; [congruence|]. reflexivity. }
  assert (HR : p = PR -> Ok w = Ok (fold_right (prim_op PR) w (vals x))). { intros _. f_equal. clear. induction (vals x) as [|b m IH]; [reflexivity|]. cbn [fold_right]. rewrite <- IH. reflexivity. }
  assert (BASE := base2_ok p w x X).
  destruct x as [xp n|k xp|xp].
  - cbn [a_ia] in *. destruct (negb (cv32 w =? w)) eqn:EW; [destruct p; auto|]. assert (CW : cv32 w = w) by lia. assert (RW := cv32_01 w CW). rewrite CW in *. rewrite vals_bits in *. destruct X as [W NB]. fold (len xp) in NB. set (l := bits_of xp 0 n) in *. assert (LL : length l = Z.to_nat n) by apply len_bits.
    destruct (negb (w =? w mod 2)) eqn:E2.
    + destruct p as [o| | | | | | | |]; [destruct o| | | | | | | |]; auto.
      * rewrite bit_sum_spec by (unfold len in *; lia). fold l. cbn [bind]. rewrite (fold_add_exact 2) by (try apply bits_within; rewrite map_length; change (2 ^ 53) with 9007199254740992; lia). rewrite count_sum, rnd_exact; [reflexivity|]. pose proof (zsum_within 2 _ (bits_within l)) as Z. rewrite map_length in Z. change (2 ^ 53) with 9007199254740992. lia.
      * destruct (fold_sub_exact 2 (map b2z l) w (bits_within l)) as [-> B]; rewrite map_length in *; [change (2 ^ 53) with 9007199254740992; lia|].
        rewrite bit_diff_ok by (unfold len in *; lia). fold l. rewrite (alt_linear _ w) in *. rewrite map_length, LL in *. pose proof (odd_nat n ltac:(lia)) as ON. cbn [min_odd] in MO. destruct (n mod 2 =? 1) eqn:O.
        -- assert (w <> - (2147483648)) by (intros E; apply MO; split; [reflexivity|split; [exact E|lia]]). unfold ck. change (2 ^ (32 - 1)) with 2147483648. replace ((- (2147483648) <=? - w) && (- w <? 2147483648)) with true by lia. cbn [bind]. destruct (Nat.odd (Z.to_nat n)); cbn [b2z] in ON; [|lia]. rewrite rnd_exact; [f_equal; lia|change (2 ^ 53) with 9007199254740992; lia].
        -- cbn [bind]. destruct (Nat.odd (Z.to_nat n)); cbn [b2z] in ON; [lia|]. rewrite rnd_exact; [f_equal; lia|change (2 ^ 53) with 9007199254740992; lia].
    + assert (exists b, w = b2z b) as [b ->]. { destruct (Z.eq_dec w 0) as [->|]; [exists false; reflexivity|]. exists true. cbn. lia. }
      assert (FB := fun A S => fold_bits p b l A S).
      destruct p as [o| | | | | | | |]; [destruct o| | | | | | | |]; auto; try rewrite FB by congruence.
      * rewrite bit_sum_spec by (unfold len in *; lia). fold l. cbn [bind]. rewrite (fold_add_exact 2) by (try apply bits_within; rewrite map_length; change (2 ^ 53) with 9007199254740992; lia). rewrite count_sum, rnd_exact; [reflexivity|]. pose proof (zsum_within 2 _ (bits_within l)) as Z. rewrite map_length in Z. change (2 ^ 53) with 9007199254740992. lia.
      * destruct (fold_sub_exact 2 (map b2z l) (b2z b) (bits_within l)) as [-> B]; rewrite map_length in *; [change (2 ^ 53) with 9007199254740992; lia|].
        rewrite bit_diff_ok by (unfold len in *; lia). fold l. rewrite (alt_linear _ (b2z b)) in *. rewrite map_length, LL in *. pose proof (odd_nat n ltac:(lia)) as ON. destruct (n mod 2 =? 1) eqn:O.
        -- unfold ck. change (2 ^ (32 - 1)) with 2147483648. replace ((- (2147483648) <=? - b2z b) && (- b2z b <? 2147483648)) with true by (destruct b; reflexivity). cbn [bind]. destruct (Nat.odd (Z.to_nat n)); cbn [b2z] in ON; [|lia]. rewrite rnd_exact; [f_equal; lia|change (2 ^ 53) with 9007199254740992; lia].
        -- cbn [bind]. destruct (Nat.odd (Z.to_nat n)); cbn [b2z] in ON; [lia|]. rewrite rnd_exact; [f_equal; lia|change (2 ^ 53) with 9007199254740992; lia].
      * rewrite has_false by (auto; lia). fold l. change (bop (PO OMul)) with andb. rewrite fold_and. cbn [bind]. destruct b, (forallb _ l); reflexivity.
      * rewrite has_false by (auto; lia). fold l. change (bop (PO OAnd)) with andb. rewrite fold_and. cbn [bind]. destruct b, (forallb _ l); reflexivity.
      * rewrite has_true by (auto; lia). fold l. change (bop (PO OOr)) with orb. rewrite fold_or. cbn [bind bres]. destruct b, (existsb _ l); reflexivity.
      * rewrite has_false by (auto; lia). fold l. change (bop (PO OMin)) with andb. rewrite fold_and. cbn [bind]. destruct b, (forallb _ l); reflexivity.
      * rewrite has_true by (auto; lia). fold l. change (bop (PO OMax)) with orb. rewrite fold_or. cbn [bind bres]. destruct b, (existsb _ l); reflexivity.
      * rewrite fold_ne_ok by lia. fold l. cbn [bind]. rewrite fold_eq_bits, LL, <- !b2z_xor, xors_count, odd_nat by lia. rewrite (Z.lxor_comm (b2z b)). reflexivity.
      * rewrite fold_ne_ok by lia. fold l. cbn [bind]. rewrite fold_ne_bits, <- !b2z_xor, xors_count. rewrite (Z.lxor_comm (b2z b)). reflexivity.
  - destruct X as [K R]. fold (inr k xp) in R. cbn [vals a_ia] in *.
    assert (MU : (if cv32 w =? w then prod_int (length xp) xp (cv32 w) else prod_dbl (length xp) xp w) = Ok (fold_right (prim_op (PO OMul)) w xp)). { destruct (Z.eqb_spec (cv32 w) w) as [->|]; [rewrite prod_int_ok by lia|unfold prod_dbl; rewrite prod_comm, down_ok by lia]; rewrite firstn_all; reflexivity. }
    destruct p as [o| | | | | | | |]; [destruct o| | | | | | | |]; auto; try exact MU.
    + apply sum_int_ok; auto.
    + destruct (cv32 w mod 2 =? w) eqn:B; [|exact BASE]. assert (cv32 w = w) as CW. { apply C32. change (2 ^ (32 - 1)) with 2147483648. lia. } rewrite CW in *. destruct (w =? 0) eqn:Z0.
      * assert (w = 0) as -> by lia. destruct (or_loop_total xp (length xp) (le_n _)) as [o E]. rewrite E. cbn [bind]. pose proof (or_loop_ok xp) as O. specialize (O ltac:(apply Forall_forall; intros z Hz; unfold inr in R; rewrite Forall_forall in R; specialize (R z Hz); destruct (half k K) as [H | [H | H]]; rewrite H in R; lia) (length xp) (le_n _) o E).
        destruct o as [i|]; [|exact BASE]. rewrite firstn_all in O. rewrite O. reflexivity.
      * assert (w = 1) as -> by lia. replace (0 <? Z.of_nat (length xp) + 1) with true by lia. cbn [b2z]. f_equal. symmetry. clear - R K. induction R as [|a l A R IH]; [reflexivity|]. cbn [fold_right]. rewrite IH. apply or_one. destruct (half k K) as [H | [H | H]]; rewrite H in A; lia.
    + destruct (minmax_fold_w false w xp NE) as (r & -> & H). cbn [bind]. rewrite H. cbn [mm]. destruct (r <? w) eqn:Hc; f_equal; lia.
    + destruct (minmax_fold_w true w xp NE) as (r & -> & H). cbn [bind]. rewrite H. cbn [mm]. destruct (w <? r) eqn:Hc; f_equal; lia.
  - cbn [vals a_ia] in *.
    assert (MU : prod_dbl (length xp) xp w = Ok (fold_right (prim_op (PO OMul)) w xp)). { unfold prod_dbl. rewrite prod_comm, down_ok by lia. rewrite firstn_all. reflexivity. }
    destruct p as [o| | | | | | | |]; [destruct o| | | | | | | |]; auto; try exact MU.
    + unfold sum_f64. rewrite sum_comm, down_ok, firstn_all by lia. reflexivity.
    + destruct (minmax_fold_w false w xp NE) as (r & -> & H). cbn [bind]. rewrite H. cbn [mm]. destruct (r <? w) eqn:Hc; f_equal; lia.
    + destruct (minmax_fold_w true w xp NE) as (r & -> & H). cbn [bind]. rewrite H. cbn [mm]. destruct (w <? r) eqn:Hc; f_equal; lia.
Qed.
End F.
