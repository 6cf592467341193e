(** Replicate with bits, of single bits. *)
From Verif Require Import Base ListLib BitsModel BitsSpec BitsProof BitsProof2 SqueezeModel SqueezeProof WidenModel SlashModel SlashModel2 SlashModel3 SlashSpec SlashProof SlashBsp SlashWhere SlashWhere2 SlashInd SlashComp SlashComp2.
From Coq Require Import List.

Definition bat (l : list bool) (k : Z) : bool := nth (Z.to_nat k) l false.
Lemma bat_app1 l m k : 0 <= k < Z.of_nat (length l) -> bat (l ++ m) k = bat l k.
Proof. intros H. unfold bat. apply app_nth1. lia. Qed.
Lemma bat_last l b : bat (l ++ [b]) (Z.of_nat (length l)) = b.
Proof. unfold bat. rewrite app_nth2 by lia. replace (Z.to_nat (Z.of_nat (length l)) - length l)%nat with 0%nat by lia. auto. Qed.
Definition J (N : Z) (out : list bool) (o j : Z) (rp : list Z) : Prop :=
  j = Z.of_nat (length out) /\ 0 <= o < 2 ^ 64 /\ (forall t, 0 <= t < 64 -> t < j -> Z.testbit o (63 - t) = bat out (j - 1 - t)) /\ len rp = N /\ (forall k, 0 <= k < 64 * (j / 64) -> mbit rp k = bat out k).
Definition pushw (o x c : Z) : Z := Z.lor (Z.shiftr o 1) (shl (Z.shiftr x c) 63).
Lemma pushw_bits o x c : 0 <= o < 2 ^ 64 -> 0 <= c -> 0 <= pushw o x c < 2 ^ 64 /\ Z.testbit (pushw o x c) 63 = Z.testbit x c /\ forall i, 0 <= i < 63 -> Z.testbit (pushw o x c) i = Z.testbit o (i + 1).
Proof.
  intros R C. assert (B : forall i, 0 <= i -> Z.testbit (pushw o x c) i = Z.testbit o (i + 1) || (Z.testbit (Z.shiftr x c) (i - 63) && (i <? 64))). { intros i I. unfold pushw. rewrite Z.lor_spec, Z.shiftr_spec, tb_shl by lia. auto. }
  split; [|split]. - apply bits_range; [lia|]. intros k K. rewrite B by lia. rewrite (range_bits o 64 (k + 1)) by lia. destruct (Z.ltb_spec k 64); [lia|]. rewrite andb_false_r. reflexivity.
  - rewrite B by lia. rewrite (range_bits o 64 (63 + 1)) by lia. rewrite Z.shiftr_spec by lia. cbn [orb Z.ltb]. rewrite andb_true_r. auto.
  - intros i I. rewrite B by lia. rewrite (Z.testbit_neg_r _ (i - 63)) by lia. apply orb_false_r.
Qed.
Lemma push_ok N out o j rp x c : J N out o j rp -> 0 <= c -> 64 * ((j + 1) / 64) <= 64 * N -> exists rp', (if (j + 1) mod 64 =? 0 then wrz rp ((j + 1) / 64 - 1) (pushw o x c) else Ok rp) = Ok rp' /\ J N (out ++ [Z.testbit x c]) (pushw o x c) (j + 1) rp'.
Proof.
  intros (Ej&Ro&To&Ln&Mb) C Lj. destruct (pushw_bits o x c Ro C) as (R&T63&Tl). set (o' := pushw o x c) in *. clearbody o'. set (b := Z.testbit x c) in *. clearbody b.
  assert (T' : forall t, 0 <= t < 64 -> t < j + 1 -> Z.testbit o' (63 - t) = bat (out ++ [b]) (j + 1 - 1 - t)). { intros t Ht Hj. destruct (Z.eq_dec t 0) as [->|]. - replace (j + 1 - 1 - 0) with j by lia. rewrite Ej, bat_last. auto. - rewrite Tl by lia. replace (63 - t + 1) with (63 - (t - 1)) by lia. rewrite To by lia. rewrite bat_app1 by lia. f_equal. lia. }
  assert (L' : j + 1 = Z.of_nat (length (out ++ [b]))) by (rewrite app_length; cbn [length]; lia).
  destruct (Z.eqb_spec ((j + 1) mod 64) 0) as [E|E].
  - rewrite wrz_ok by lia. eexists. split; [reflexivity|]. split; [auto|]. split; [auto|]. split; [auto|]. split; [rewrite len_upd; auto|]. intros k K. destruct (Z.lt_ge_cases k (64 * (j / 64))) as [L|L].
    + rewrite mbit_upd by lia. destruct (Z.eqb_spec (k / 64) ((j + 1) / 64 - 1)); [lia|]. rewrite Mb by lia. rewrite bat_app1 by lia. auto.
    + rewrite mbit_upd by lia. destruct (Z.eqb_spec (k / 64) ((j + 1) / 64 - 1)); [|lia]. replace (k mod 64) with (63 - (j - k)) by lia. rewrite T' by lia. f_equal. lia.
  - exists rp. split; auto. split; [auto|]. split; [auto|]. split; [auto|]. split; [auto|]. intros k K. rewrite Mb by lia. rewrite bat_app1 by lia. auto.
Qed.
Lemma cbit_ok N x : forall fuel v o j rp out, 0 <= v < 2 ^ 64 -> cnt (Z.testbit v) 0 64 <= Z.of_nat fuel -> J N out o j rp -> j + cnt (Z.testbit v) 0 64 <= 64 * N -> exists o' rp', cbit_word fuel v x o j rp = Ok (o', j + cnt (Z.testbit v) 0 64, rp') /\ J N (out ++ map (Z.testbit x) (ons (Z.testbit v) 0 64)) o' (j + cnt (Z.testbit v) 0 64) rp'.
Proof.
  assert (Z0 : cnt (Z.testbit 0) 0 64 = 0 /\ ons (Z.testbit 0) 0 64 = []). { assert (E : ons (Z.testbit 0) 0 64 = []) by reflexivity. split; [reflexivity|exact E]. }
  destruct Z0 as (C0&O0).
  induction fuel as [|f IH]; intros v o j rp out V Cf HJ Lj; cbn [cbit_word]; (destruct (Z.eqb_spec v 0) as [->|N0]; [rewrite C0, O0, Z.add_0_r; cbn [map]; rewrite app_nil_r; exists o, rp; auto|]).
  - exfalso. destruct (lowest 64 v ltac:(lia) V N0) as (c&_&_&E&_). rewrite nz64 in E. unfold cnt in Cf. rewrite E in Cf. cbn [length] in Cf. lia.
  - destruct (lowest 64 v ltac:(lia) V N0) as (c&Ec&Hc&E&R). rewrite nz64 in E. rewrite Ec. cbn [bind]. fold (pushw o x c). assert (Cn : cnt (Z.testbit v) 0 64 = 1 + cnt (Z.testbit (Z.land v (v - 1))) 0 64) by (unfold cnt; rewrite E; cbn [length]; lia). pose proof (cnt_nonneg (Z.testbit (Z.land v (v - 1))) 0 64) as Np.
    destruct (push_ok N out o j rp x c HJ ltac:(lia) ltac:(lia)) as (rp1&E1&J1). rewrite E1. cbn [bind].
    destruct (IH (Z.land v (v - 1)) (pushw o x c) (j + 1) rp1 _ R ltac:(lia) J1 ltac:(lia)) as (o2&rp2&E2&J2). exists o2, rp2. rewrite Cn, E. rewrite E2. replace (j + (1 + cnt (Z.testbit (Z.land v (v - 1))) 0 64)) with (j + 1 + cnt (Z.testbit (Z.land v (v - 1))) 0 64) by lia. split; auto. cbn [map]. rewrite <- app_assoc in J2. auto.
Qed.
Lemma final_ok N out o j rp : J N out o j rp -> N = BIT_N j -> exists rp', (if (- j) mod 64 =? 0 then Ok rp else wrz rp (j / 64) (Z.shiftr o ((- j) mod 64))) = Ok rp' /\ bits_of rp' 0 j = out.
Proof.
  intros (Ej&Ro&To&Ln&Mb) EN. unfold BIT_N in EN.
  assert (Fin : forall rp', (forall k, 0 <= k < j -> mbit rp' k = bat out k) -> bits_of rp' 0 j = out). { intros rp' H. apply nth_error_ext. intros k. rewrite nth_bits_of. destruct (Z.ltb_spec (Z.of_nat k) j). - rewrite H by lia. unfold bat. rewrite Z.mul_0_r, Z.add_0_l, Nat2Z.id. symmetry. apply nth_error_nth'. lia. - symmetry. apply nth_error_None. lia. }
  destruct (Z.eqb_spec ((- j) mod 64) 0) as [E|E].
  - exists rp. split; auto. apply Fin. intros k K. apply Mb. lia.
  - assert (Q : (- j) mod 64 = 64 - j mod 64) by lia. rewrite Q. rewrite Z.shiftr_div_pow2 in * by lia. assert (R : 0 <= o / 2 ^ (64 - j mod 64) < 2 ^ 64). { assert (0 < 2 ^ (64 - j mod 64)) by (apply Z.pow_pos_nonneg; lia). split; [apply Z.div_pos; lia|]. apply Z.le_lt_trans with o; [|lia]. apply Z.div_le_upper_bound; [lia|]. nia. }
    rewrite wrz_ok by (rewrite Ln, EN; change (2 ^ 6) with 64 in *; rewrite ?Z.shiftr_div_pow2 by lia; lia). eexists. split; [reflexivity|]. apply Fin. intros k K. rewrite mbit_upd by (rewrite ?Ln, ?EN; lia). destruct (Z.eqb_spec (k / 64) (j / 64)).
    + rewrite Z.div_pow2_bits by lia. replace (k mod 64 + (64 - j mod 64)) with (63 - (j mod 64 - 1 - k mod 64)) by lia. rewrite To by lia. f_equal. lia.
    + apply Mb. lia.
Qed.
Lemma shr6' x : Z.shiftr x 6 = x / 64. Proof. rewrite Z.shiftr_div_pow2 by lia. reflexivity. Qed.
Lemma cbits_step N wp xp i out o j rp : words wp -> 0 <= i < len wp -> i < len xp -> J N out o j rp -> j + cnt (fun k => mbit wp k) (64 * i) 64 <= 64 * N ->
  exists o' rp', (do v <- rdz wp i; do x <- rdz xp i; cbit_word 64 v x o j rp) = Ok (o', j + cnt (fun k => mbit wp k) (64 * i) 64, rp') /\ J N (out ++ map (fun k => mbit xp k) (ons (fun k => mbit wp k) (64 * i) 64)) o' (j + cnt (fun k => mbit wp k) (64 * i) 64) rp'.
Proof.
  intros Ww I X HJ L. rewrite !rdz_ok by lia. cbn [bind].
  assert (On : ons (fun k => mbit wp k) (64 * i) 64 = map (fun k => 64 * i + k) (ons (Z.testbit (word wp i)) 0 64)). { rewrite <- (Z.add_0_r (64 * i)) at 1. rewrite ons_shift. f_equal. apply ons_ext. intros k Hk. rewrite mbit_word by lia. auto. }
  assert (Cn : cnt (fun k => mbit wp k) (64 * i) 64 = cnt (Z.testbit (word wp i)) 0 64) by (unfold cnt; rewrite On, map_length; auto).
  rewrite Cn in *. pose proof (cnt_le (Z.testbit (word wp i)) 0 64) as Cl.
  destruct (cbit_ok N (word xp i) 64 (word wp i) o j rp out (word_range wp i Ww) Cl HJ L) as (o'&rp'&E&J'). exists o', rp'. split; [exact E|]. rewrite On, map_map.
  rewrite (map_ext_in _ (Z.testbit (word xp i))); auto. intros k K. apply ons_in in K. rewrite zn64 in K. rewrite mbit_word by lia. auto.
Qed.
Lemma cnt_cut g a n m : (n <= m)%nat -> (forall k, a + Z.of_nat n <= k < a + Z.of_nat m -> g k = false) -> cnt g a m = cnt g a n.
Proof. intros L H. unfold cnt. rewrite (cut g a n m); auto. Qed.
Definition bstep (wp xp : list Z) (i : Z) (st : Z * Z * list Z) : res (Z * Z * list Z) := let '(o, j, rp) := st in do v <- rdz wp i; do x <- rdz xp i; cbit_word 64 v x o j rp.
Lemma cbits_loop N wp xp m : words wp -> m <= len wp -> m <= len xp -> let g k := mbit wp k in cnt g 0 (Z.to_nat (64 * m)) <= 64 * N ->
  forall n i o rp, 0 <= i -> i + Z.of_nat n = m -> J N (map (fun k => mbit xp k) (ons g 0 (Z.to_nat (64 * i)))) o (cnt g 0 (Z.to_nat (64 * i))) rp ->
  exists o' rp', for_ n i (bstep wp xp) (o, cnt g 0 (Z.to_nat (64 * i)), rp) = Ok (o', cnt g 0 (Z.to_nat (64 * m)), rp') /\ J N (map (fun k => mbit xp k) (ons g 0 (Z.to_nat (64 * m)))) o' (cnt g 0 (Z.to_nat (64 * m))) rp'.
Proof.
  intros Ww Lw Lx g Cm. induction n as [|n IH]; intros i o rp I E HJ. - replace m with i by lia. cbn [for_]. exists o, rp. auto.
  - assert (Sp : Z.to_nat (64 * (i + 1)) = (Z.to_nat (64 * i) + 64)%nat) by lia. assert (Os : ons g 0 (Z.to_nat (64 * (i + 1))) = ons g 0 (Z.to_nat (64 * i)) ++ ons g (64 * i) 64). { rewrite Sp, ons_app. do 2 f_equal. lia. }
    assert (Cs : cnt g 0 (Z.to_nat (64 * (i + 1))) = cnt g 0 (Z.to_nat (64 * i)) + cnt g (64 * i) 64) by (unfold cnt; rewrite Os, app_length; lia).
    assert (Cle : cnt g 0 (Z.to_nat (64 * (i + 1))) <= 64 * N). { replace (Z.to_nat (64 * m)) with (Z.to_nat (64 * (i + 1)) + Z.to_nat (64 * (m - i - 1)))%nat in Cm by lia. rewrite cnt_app in Cm. pose proof (cnt_nonneg g (0 + Z.of_nat (Z.to_nat (64 * (i + 1)))) (Z.to_nat (64 * (m - i - 1)))). lia. }
    destruct (cbits_step N wp xp i _ o _ rp Ww ltac:(lia) ltac:(lia) HJ ltac:(fold g; lia)) as (o1&rp1&E1&J1). fold g in E1, J1. rewrite <- map_app, <- Os, <- Cs in J1. rewrite <- Cs in E1. cbn [for_]. unfold bstep at 1. rewrite E1. cbn [bind]. apply IH; auto; lia.
Qed.
Lemma picks_map xp n l : (forall k, In k l -> 0 <= k < n) -> picks (bits_of xp 0 n) l = map (fun k => mbit xp k) l.
Proof.
  induction l as [|k l IH]; intros H; auto. cbn [picks flat_map map]. fold (picks (bits_of xp 0 n) l). rewrite IH by (intros; apply H; right; auto). unfold pick. rewrite nth_bits_of. assert (K : 0 <= k < n) by (apply H; left; auto). rewrite Z2Nat.id by lia. destruct (Z.ltb_spec k n); [|lia]. rewrite Z.mul_0_r, Z.add_0_l. auto.
Qed.
Lemma compress_bits_ok junk w xp n : words w -> 0 <= n <= 64 * len w -> n <= 64 * len xp -> exists r m, compress_bits junk w n xp = Ok (r, m) /\ 0 <= m <= 64 * len r /\ bits_of r 0 m = replicate (map b2z (bits_of w 0 n)) (bits_of xp 0 n).
Proof.
  intros Ww N Nx. assert (Lb0 : Z.of_nat (length (bits_of xp 0 n)) = n) by (unfold bits_of; rewrite map_length, seq_length; lia). destruct (start_ok w n Ww N) as (st&E&S). unfold compress_bits. rewrite E. cbn [bind]. pose proof (picks_bits (bits_of xp 0 n) w n Lb0) as Pb. destruct st as [| |wp wia wsum]; cbn [started] in S.
  - exists [], 0. split; auto. split; [unfold len; cbn [length]; lia|]. rewrite <- Pb. cbn [bits_of]. rewrite (P_ext _ _ (fun _ => false) n n); [|lia|exact S|intros; lia]. rewrite ons_none; [reflexivity|]. unfold cnt. destruct (ons (fun _ => false) 0 (Z.to_nat n)) as [|k l] eqn:E2; auto. assert (I : In k (ons (fun _ => false) 0 (Z.to_nat n))) by (rewrite E2; left; auto). apply ons_in in I. destruct I as [_ I]. discriminate.
  - exists xp, n. split; auto. split; [lia|]. rewrite <- Pb. rewrite run_all; [|lia|intros; apply S; lia|lia]. cbn [Z.to_nat skipn]. replace (Z.to_nat n) with (length (bits_of xp 0 n)) by lia. symmetry. apply firstn_all.
  - destruct S as (Wp&Lp&Wi&T0&Lb&Sm&Ag&Rz). assert (Bn : BIT_N wia = (wia + 63) / 64) by (unfold BIT_N; apply shr6'). assert (Wl : (wia + 63) / 64 <= len wp) by (unfold len in *; lia). set (m := (wia + 63) / 64) in *. rewrite Bn.
    assert (Cm : cnt (fun k => mbit wp k) 0 (Z.to_nat (64 * m)) = wsum). { rewrite Sm. apply cnt_cut; [unfold m; lia|]. intros k K. apply T0. fold m. lia. }
    assert (Om : ons (fun k => mbit wp k) 0 (Z.to_nat (64 * m)) = ons (fun k => mbit wp k) 0 (Z.to_nat wia)). { apply cut; [unfold m; lia|]. intros k K. apply T0. fold m. lia. }
    assert (Ws : 0 <= wsum) by (rewrite Sm; apply cnt_nonneg). assert (Bs : BIT_N wsum = (wsum + 63) / 64) by (unfold BIT_N; apply shr6').
    fold (bstep wp xp). change (fun (i : Z) (st : Z * Z * list Z) => let '(o, j, rp) := st in do v <- rdz wp i; do x <- rdz xp i; cbit_word 64 v x o j rp) with (bstep wp xp).
    assert (C0 : cnt (fun k => mbit wp k) 0 (Z.to_nat (64 * 0)) = 0) by (rewrite Z.mul_0_r; apply cnt_z).
    destruct (cbits_loop (BIT_N wsum) wp xp m Wp ltac:(lia) ltac:(unfold m; lia) ltac:(cbv beta; rewrite Cm, Bs; lia) (Z.to_nat m) 0 0 (mem junk (BIT_N wsum)) ltac:(lia) ltac:(unfold m; lia)) as (o'&rp'&El&Jl).
    { rewrite C0. rewrite Z.mul_0_r. change (Z.to_nat 0) with 0%nat. rewrite ons_0. cbn [map]. split; [reflexivity|]. split; [lia|]. split; [intros; lia|]. split; [apply len_mem; lia|]. intros k K. change (0 / 64) with 0 in K. lia. }
    rewrite C0, Cm in El. rewrite El. cbn [bind]. rewrite Cm, Om in Jl. destruct (final_ok (BIT_N wsum) _ o' wsum rp' Jl eq_refl) as (r&Er&Hr). rewrite Er. cbn [bind]. exists r, wsum. split; auto.
    assert (Lr : len r = BIT_N wsum). { destruct Jl as (_&_&_&Ln&_). destruct ((- wsum) mod 64 =? 0); [injection Er as <-; auto|]. unfold wrz in Er. destruct (_ <? 0); [discriminate|]. revert Er. unfold wr. destruct (_ <? _)%nat; [|discriminate]. intros Er. injection Er as <-. rewrite len_upd. auto. }
    split; [rewrite Lr, Bs; lia|]. rewrite Hr, <- Pb. rewrite <- (P_ext _ (fun i => mbit wp i) (fun i => mbit w i) n wia) by (auto; lia). rewrite picks_map; auto. intros k K. apply ons_in in K. lia.
Qed.
