(** C22: Replicate of single bits, with counts. *)
From Verif Require Import Base ListLib BitsModel BitsSpec BitsProof BitsProof2 SqueezeModel SqueezeProof WidenModel SlashModel SlashModel2 SlashModel3 SlashModel4 SlashModel5 SlashSpec SlashProof SlashBsp SlashWhere SlashWhere2 SlashInd SlashComp SlashComp2 SlashComp3 SlashThm SlashRep SlashBits.
From Coq Require Import List.

Section R.
Variables (junk umax amax ub : Z) (sq : cnts -> cnts) (xp : list Z) (n : Z).
Hypothesis Hj : 0 <= junk < 2 ^ 64.
Hypothesis Hu : 0 < umax <= 2 ^ 48.
Hypothesis Hk : keeps sq.
Hypothesis Wx : words xp.
Hypothesis Hn : 0 < n < umax.
Hypothesis Hx : n <= 64 * len xp.
Lemma bits_len : Z.of_nat (length (bits_of xp 0 n)) = n. Proof using Hn. unfold bits_of. rewrite map_length, seq_length. lia. Qed.
Lemma rep_arr_bits_ok c : cnts_ok c -> c_ia c = n ->
  (naturals (counts c) /\ total (nats_of (counts c)) < umax -> total (nats_of (counts c)) < Z.min amax (2 ^ 64) -> rep_arr_bits junk umax amax sq c xp n = Ok (replicate (nats_of (counts c)) (bits_of xp 0 n))) /\
  (~ (naturals (counts c) /\ total (nats_of (counts c)) < umax) -> rep_arr_bits junk umax amax sq c xp n = Err).
Proof.
  intros Hc Ia. unfold rep_arr_bits. rewrite Ia. destruct (Z.eqb_spec n 0); [lia|]. rewrite Z.eqb_refl. cbn [negb]. rewrite <- nat_iff.
  assert (Cb : forall w m, cnts_ok (CB w m) -> m = n -> (do (rp, s) <- compress_bits junk w n xp; Ok (bits_of rp 0 s)) = Ok (replicate (nats_of (counts (CB w m))) (bits_of xp 0 n))). { intros w m (W1&W2) ->. destruct (compress_bits_ok junk w xp n W1 W2 Hx) as (r&m&E&_&Eb). rewrite E. cbn [bind]. rewrite Eb, bits_nats. auto. }
  pose proof (usum_ok c Hc ltac:(lia)) as Us. unfold usum_spec in Us.
  assert (Bc : forall w m, cnts_ok (CB w m) -> m = n -> forallb natb (counts (CB w m)) = true /\ total (nats_of (counts (CB w m))) < umax). { intros w m W E. cbn [counts]. destruct (bits_total (bits_of w 0 m)) as (E1&E2&E3). rewrite E1, E2. split; auto. pose proof (count_le (bits_of w 0 m)) as C. assert (Lb : Z.of_nat (length (bits_of w 0 m)) = m) by (unfold bits_of; rewrite map_length, seq_length; lia). lia. }
  destruct c as [w m|k l|l].
  - cbn [c_ia] in Ia. split; intros H. + intros _. apply Cb; auto. + exfalso. apply H. apply Bc; auto.
  - set (c := CI k l) in *. assert (We : welts c = counts c) by reflexivity. clearbody c. rewrite Us. destruct (forallb natb (counts c)) eqn:N; cbn [andb bind]; [|split; [intros (?&?); discriminate|auto]]. pose proof (total_nonneg _ N) as T0. set (s := total (nats_of (counts c))) in *.
    destruct (Z.ltb_spec s (2 ^ 64)); cbn [bind]; [|split; [lia|auto]]. destruct (Z.leb_spec umax s); [split; [lia|auto]|]. split; [|intros H'; exfalso; apply H'; auto]. intros _ Sc.
    destruct (Z.eqb_spec s 0) as [E|E]; [rewrite total0; auto; apply nonneg_nats; auto|]. set (c' := if s <=? n then sq c else c). assert (Y : cnts_ok c' /\ counts c' = counts c) by (subst c'; destruct (s <=? n); auto). destruct Y as (Hy&Cy). assert (Iy : c_ia c' = n) by (rewrite <- counts_len in * by auto; rewrite Cy; auto).
    assert (Ln : Z.of_nat (length (nats_of (counts c))) = n) by (unfold nats_of; rewrite map_length, counts_len by auto; auto).
    assert (Rest : welts c' = counts c' -> rbits s (if s / 1024 <=? n then rep_xor_scan junk (rdz (map (fun e => match e with Some z => z | None => 0 end) (welts c'))) xp n s else rep_over junk (rdz (map (fun e => match e with Some z => z | None => 0 end) (welts c'))) xp n s) = Ok (replicate (nats_of (counts c)) (bits_of xp 0 n))).
    { intros Wc. rewrite Wc. fold (nats_of (counts c')). rewrite Cy. set (cs := nats_of (counts c)) in *. pose proof (nonneg_nats _ N) as Nn. fold cs in Nn.
      assert (Hw : forall j, 0 <= j < Z.of_nat (length cs) -> rdz cs j = Ok (nth (Z.to_nat j) cs 0)) by (intros j J; rewrite rdz_ok by (unfold len; lia); reflexivity).
      unfold rbits. destruct (s / 1024 <=? n).
      - destruct (xor_scan_ok cs xp (rdz cs) Nn Hw Wx ltac:(rewrite Ln; auto) ltac:(lia) junk Hj ltac:(fold s; lia)) as (rp&R1&R2). fold s in R1, R2. rewrite Ln in R1, R2. rewrite R1. cbn [bind]. rewrite R2. auto.
      - destruct (over_ok cs xp (rdz cs) Nn Hw ltac:(rewrite Ln; auto) ltac:(lia) junk) as (rp&R1&R2). fold s in R1, R2. rewrite Ln in R1, R2. rewrite R1. cbn [bind]. rewrite R2. auto. }
    clearbody c'. destruct c' as [w m|k' l'|l']; [|apply Rest; reflexivity|apply Rest; reflexivity]. cbn [c_ia] in Iy. rewrite (Cb w m Hy Iy), Cy. auto.
  - set (c := CF l) in *. assert (Nb : match c with CB _ _ => False | _ => True end) by exact I. clearbody c. rewrite Us. destruct (forallb natb (counts c)) eqn:N; cbn [andb bind]; [|split; [intros (?&?); discriminate|auto]].
    assert (Ib : c_ia c = Z.of_nat (length (bits_of xp 0 n))) by (rewrite bits_len; auto). destruct (base_ok umax amax 1 (bits_of xp 0 n) ltac:(lia) c Nb Hc Ib N) as (B1&B2). pose proof (total_nonneg _ N) as T0. set (s := total (nats_of (counts c))) in *.
    destruct (Z.ltb_spec s (2 ^ 64)); cbn [bind]; [|split; [lia|auto]]. split; intros H'. + intros Sc. apply B1; lia. + apply B2. destruct (Z.lt_ge_cases s umax); [exfalso; apply H'; auto|lia].
Qed.
Lemma total_repeat wv m : total (repeat wv m) = Z.of_nat m * wv. Proof using. induction m as [|m IH]; auto. cbn [repeat total fold_right]. fold (total (repeat wv m)). rewrite IH. lia. Qed.
Lemma nonneg_repeat wv m : 0 <= wv -> nonneg (repeat wv m) = true. Proof using. intros W. induction m as [|m IH]; auto. cbn [repeat nonneg forallb]. fold (nonneg (repeat wv m)). rewrite IH. destruct (Z.leb_spec 0 wv); auto; lia. Qed.
Lemma rep_atom_bits_ok wv : 0 <= wv -> n * wv < 2 ^ ub -> rep_atom_bits junk ub wv xp n = Ok (replicate (repeat wv (Z.to_nat n)) (bits_of xp 0 n)).
Proof using Hj Wx Hn Hx.
  intros W S. unfold rep_atom_bits. destruct (Z.ltb_spec wv 0); [lia|]. assert (Bl : Z.to_nat n = length (bits_of xp 0 n)) by (pose proof bits_len; lia). destruct (Z.eqb_spec n 0); [lia|].
  destruct (Z.leb_spec wv 1).
  - rewrite Bl, rep_const. destruct (Z.eqb_spec wv 1) as [->|]; cbn [orb].
    + f_equal. clear. induction (bits_of xp 0 n) as [|y ys IH]; auto. cbn [flat_map]. rewrite <- IH. auto.
    + replace wv with 0 by lia. f_equal. clear. induction (bits_of xp 0 n) as [|y ys IH]; auto.
  - destruct (Z.leb_spec (2 ^ ub) (n * wv)); [lia|]. set (cs := repeat wv (Z.to_nat n)). assert (Lc : Z.of_nat (length cs) = n) by (unfold cs; rewrite repeat_length; lia). assert (Tc : total cs = n * wv) by (unfold cs; rewrite total_repeat; lia). assert (Nc : nonneg cs = true) by (apply nonneg_repeat; lia).
    assert (Hw : forall j, 0 <= j < Z.of_nat (length cs) -> nth (Z.to_nat j) cs 0 = wv) by (intros j J; unfold cs; rewrite (nth_indep _ 0 wv) by (fold cs; lia); apply nth_repeat).
    unfold rbits. destruct (Z.leb_spec wv 64).
    + destruct (xor_scan_ok cs xp (fun _ => Ok wv) Nc ltac:(intros j J; rewrite Hw by auto; auto) Wx ltac:(lia) ltac:(lia) junk Hj ltac:(nia)) as (rp&R1&R2). rewrite Lc, Tc in R1, R2. rewrite R1. cbn [bind]. rewrite R2. auto.
    + destruct (const_ok cs xp (fun _ => Ok wv) Nc ltac:(intros j J; rewrite Hw by auto; auto) ltac:(lia) ltac:(lia) junk wv ltac:(lia) Hw) as (rp&R1&R2). rewrite Lc, Tc in R1, R2. rewrite R1. cbn [bind]. rewrite R2. auto.
Qed.
End R.

(** C22, Replicate of a list of bits (or of an array whose cells are single bits) with a list of counts, stored in any way: every bit as often as its count. An error exactly if a count is not a natural number, the lengths differ, or the result is too long. [junk] is what new memory holds. *)
Theorem C22_replicate_bits_list : forall junk umax amax ub sq c xp n, 0 <= junk < 2 ^ 64 -> (umax = 2 ^ 48 \/ umax = 2 ^ 32 - 1) -> keeps sq -> words xp -> 0 <= n <= 64 * Z.of_nat (length xp) -> n < umax -> cnts_ok c -> 0 < c_ia c ->
  let good := c_ia c = n /\ naturals (counts c) /\ total (nats_of (counts c)) < umax in
  (good -> total (nats_of (counts c)) < amax -> slash_c2_bits junk umax amax ub sq (WArr c) xp n = Ok (replicate (nats_of (counts c)) (bits_of xp 0 n))) /\
  (~ good -> slash_c2_bits junk umax amax ub sq (WArr c) xp n = Err).
Proof.
  intros junk umax amax ub sq c xp n Hj U K W N Nu Hc P good. cbn [slash_c2_bits]. destruct (Z.eq_dec (c_ia c) n) as [E|E].
  - destruct (rep_arr_bits_ok junk umax amax sq xp n Hj ltac:(lia) K W ltac:(lia) ltac:(unfold len; lia) c Hc E) as (R1&R2). unfold good. split; [intros (_&H) H2; apply R1; auto; destruct H; lia|intros H; apply R2; intros H2; apply H; auto].
  - split; [intros (H&_); contradiction|]. intros _. unfold rep_arr_bits. destruct (Z.eqb_spec (c_ia c) 0); [lia|]. destruct (Z.eqb_spec (c_ia c) n); [contradiction|auto].
Qed.
Print Assumptions C22_replicate_bits_list.
(** no counts: 𝕩 *)
Theorem C22_replicate_bits_empty : forall junk umax amax ub sq c xp n, c_ia c = 0 -> slash_c2_bits junk umax amax ub sq (WArr c) xp n = Ok (bits_of xp 0 n).
Proof. intros junk umax amax ub sq c xp n E. cbn [slash_c2_bits]. unfold rep_arr_bits. rewrite E. auto. Qed.
Print Assumptions C22_replicate_bits_empty.
(** one count: every bit that many times; an error if it is negative or the length does not fit the size type of [ub] bits *)
Theorem C22_replicate_bits_constant : forall junk umax amax ub sq wv xp n, 0 <= junk < 2 ^ 64 -> words xp -> 0 <= n <= 64 * Z.of_nat (length xp) -> n < 2 ^ 48 ->
  (0 <= wv -> n * wv < 2 ^ ub -> slash_c2_bits junk umax amax ub sq (WAtom wv) xp n = Ok (replicate (repeat wv (Z.to_nat n)) (bits_of xp 0 n))) /\
  (wv < 0 \/ (1 < wv /\ 0 < n /\ 2 ^ ub <= n * wv) -> slash_c2_bits junk umax amax ub sq (WAtom wv) xp n = Err).
Proof.
  intros junk umax amax ub sq wv xp n Hj W N Nu. cbn [slash_c2_bits]. split.
  - intros Wp S. destruct (Z.eq_dec n 0) as [->|Nz].
    + unfold rep_atom_bits. destruct (Z.ltb_spec wv 0); [lia|]. change (0 =? 0) with true. rewrite orb_true_r. destruct (wv <=? 1); reflexivity.
    + apply (rep_atom_bits_ok junk (2 ^ 48) ub xp n Hj W); [lia|unfold len; lia|auto|auto].
  - intros H. unfold rep_atom_bits. destruct (Z.ltb_spec wv 0); [auto|]. destruct (Z.leb_spec wv 1); [lia|]. destruct (Z.eqb_spec n 0); [lia|]. destruct (Z.leb_spec (2 ^ ub) (n * wv)); [auto|lia].
Qed.
Print Assumptions C22_replicate_bits_constant.

(** C22, cells without elements: the result has as many cells as the counts ask for (there is nothing else to it), with the same errors. *)
Lemma cnt_const (b : bool) n : forall a, cnt (fun _ => b) a n = if b then Z.of_nat n else 0.
Proof. induction n as [|n IH]; intros a; [destruct b; reflexivity|]. rewrite cnt_S, IH. destruct b; lia. Qed.
Lemma slow_counts_ok umax l : forall out, total (nats_of l) <= umax -> forallb natb l = true -> exists r, slow_counts umax l out = Ok r.
Proof.
  induction l as [|[c|] l IH]; intros out T N; cbn [slow_counts]; [eexists; reflexivity| |discriminate N]. cbn [forallb natb] in N. apply andb_true_iff in N. destruct N as [N1 N2]. apply Z.leb_le in N1. pose proof (total_nonneg l N2). cbn [nats_of map] in T. fold (nats_of l) in T. change (total (c :: nats_of l)) with (c + total (nats_of l)) in T.
  unfold o2s. destruct (Z.ltb_spec c 0); [lia|]. destruct (Z.ltb_spec umax c); [lia|]. cbn [orb bind]. apply IH; auto. lia.
Qed.
Theorem C22_replicate_no_elements : forall umax amax ub c xlen, (umax = 2 ^ 48 \/ umax = 2 ^ 32 - 1) -> 0 < amax -> 0 <= xlen < umax -> cnts_ok c -> 0 < c_ia c ->
  let good := c_ia c = xlen /\ naturals (counts c) /\ total (nats_of (counts c)) < umax in
  (good -> slash_c2_empty umax amax ub (WArr c) xlen = Ok (total (nats_of (counts c)))) /\ (~ good -> slash_c2_empty umax amax ub (WArr c) xlen = Err).
Proof.
  intros umax amax ub c xlen U Am N Hc P good. cbn [slash_c2_empty]. unfold rep_arr_empty. destruct (Z.eqb_spec (c_ia c) 0); [lia|]. unfold good. clear good. destruct (Z.eqb_spec (c_ia c) xlen) as [E|E]; cbn [negb]; [|split; [intros (H&_); contradiction|auto]].
  pose proof (usum_ok c Hc ltac:(lia)) as Us. unfold usum_spec in Us. rewrite <- nat_iff.
  assert (Gen : forall l, welts c = l -> l = counts c -> (forallb natb (counts c) = true /\ total (nats_of (counts c)) < umax -> (do s <- usum c; if umax <=? s then Err else if amax <=? 0 then Err else do _ <- slow_counts umax l 0; Ok s) = Ok (total (nats_of (counts c)))) /\
    (~ (forallb natb (counts c) = true /\ total (nats_of (counts c)) < umax) -> (do s <- usum c; if umax <=? s then Err else if amax <=? 0 then Err else do _ <- slow_counts umax l 0; Ok s) = Err)).
  { intros l _ ->. rewrite Us. destruct (forallb natb (counts c)) eqn:F; cbn [andb bind]; [|split; [intros (?&?); discriminate|auto]]. pose proof (total_nonneg _ F) as T0. set (s := total (nats_of (counts c))) in *. destruct (Z.ltb_spec s (2 ^ 64)); cbn [bind]; [|split; [lia|auto]]. destruct (Z.leb_spec umax s); [split; [lia|auto]|]. destruct (Z.leb_spec amax 0); [lia|]. split; [|intros H'; exfalso; apply H'; auto]. intros _. destruct (slow_counts_ok umax (counts c) 0 ltac:(fold s; lia) F) as (r&R). rewrite R. auto. }
  destruct c as [w m|k l|l].
  - clear Gen. cbn [c_ia] in *. subst m. destruct Hc as (W1&W2). cbn [counts]. destruct (bits_total (bits_of w 0 xlen)) as (E1&E2&E3). rewrite E1, E2. pose proof (count_le (bits_of w 0 xlen)) as C. assert (Lb : Z.of_nat (length (bits_of w 0 xlen)) = xlen) by (unfold bits_of; rewrite map_length, seq_length; lia).
    split; [intros _|intros H; exfalso; apply H; split; [auto|split; [auto|lia]]].
    unfold compress_empty. destruct (start_ok w xlen W1 ltac:(unfold len; lia)) as (st&Es&S). rewrite Es. cbn [bind]. rewrite count_cnt. rewrite (cnt_ext _ (fun i => mbit w i)) by (intros; f_equal; lia).
    destruct st as [| |wp wia wsum]; cbn [started] in S.
    + f_equal. symmetry. rewrite (cnt_ext _ (fun _ => false)) by (intros; apply S; lia). apply cnt_const.
    + f_equal. symmetry. rewrite (cnt_ext _ (fun _ => true)) by (intros; apply S; lia). rewrite cnt_const. lia.
    + destruct S as (Wp&Lp&Wi&T0&Lb2&Sm&Ag&Rz). f_equal. rewrite Sm. replace (Z.to_nat xlen) with (Z.to_nat wia + Z.to_nat (xlen - wia))%nat by lia. rewrite cnt_app. rewrite (cnt_ext (fun i => mbit wp i) (fun i => mbit w i)) by (intros; apply Ag; lia). rewrite (cnt_ext (fun i => mbit w i) (fun _ => false) (0 + Z.of_nat (Z.to_nat wia))) by (intros; apply Rz; lia). rewrite (cnt_const false). lia.
  - destruct (Gen (welts (CI k l)) eq_refl eq_refl) as (G1&G2). split; [intros (_&H); apply G1; auto|intros H; apply G2; intros H2; apply H; auto].
  - destruct (Gen (welts (CF l)) eq_refl eq_refl) as (G1&G2). split; [intros (_&H); apply G1; auto|intros H; apply G2; intros H2; apply H; auto].
Qed.
Print Assumptions C22_replicate_no_elements.
Theorem C22_replicate_no_elements_constant : forall umax amax ub wv xlen, 0 <= xlen ->
  (0 <= wv -> xlen * wv < 2 ^ ub -> slash_c2_empty umax amax ub (WAtom wv) xlen = Ok (xlen * wv)) /\ (wv < 0 -> slash_c2_empty umax amax ub (WAtom wv) xlen = Err).
Proof.
  intros umax amax ub wv xlen N. cbn [slash_c2_empty]. unfold rep_atom_empty. split; intros W; [|destruct (Z.ltb_spec wv 0); [auto|lia]]. intros S. destruct (Z.ltb_spec wv 0); [lia|]. destruct (Z.leb_spec wv 1).
  - destruct (Z.eqb_spec wv 1) as [->|]; cbn [orb]; [f_equal; lia|]. destruct (Z.eqb_spec xlen 0) as [->|]; f_equal; lia.
  - destruct (Z.eqb_spec xlen 0) as [->|]; [f_equal; lia|]. destruct (Z.leb_spec (2 ^ ub) (xlen * wv)); [lia|auto].
Qed.
Print Assumptions C22_replicate_no_elements_constant.
Example C22_none_ex : slash_c2_empty (2 ^ 48) (2 ^ 48) 64 (WArr (CB [5] 4)) 4 = Ok 2 /\ slash_c2_empty (2 ^ 48) (2 ^ 48) 64 (WArr (CI 8 [3; 0; 4])) 3 = Ok 7 /\ slash_c2_empty (2 ^ 48) (2 ^ 48) 64 (WArr (CI 8 [3; -1; 4])) 3 = Err. Proof. vm_compute. auto. Qed.

(* few ones per word, and across a word *)
Example C22_bits_scan : slash_c2_bits 77 (2 ^ 48) (2 ^ 48) 64 no_sq (WArr (CI 8 [3; 0; 2; 70; 1])) [1 + 8 + 16] 5 = Ok (repeat true 3 ++ repeat false 2 ++ repeat true 71). Proof. vm_compute. reflexivity. Qed.
Example C22_bits_over : slash_c2_bits 77 (2 ^ 48) (2 ^ 48) 64 no_sq (WArr (CI 16 [5; 0; 2500; 0; 1000])) [1 + 2 + 4 + 16] 5 = Ok (repeat true 5 ++ repeat true 2500 ++ repeat true 1000) /\ 3505 / 1024 <=? 5 = true. Proof. vm_compute. auto. Qed.
Example C22_bits_over2 : rbits 3505 (rep_over 77 (rdz [5; 0; 2500; 0; 1000]) [1 + 8 + 16] 5 3505) = Ok (repeat true 5 ++ repeat false 2500 ++ repeat true 1000). Proof. vm_compute. reflexivity. Qed.
Example C22_bits_const : slash_c2_bits 77 (2 ^ 48) (2 ^ 48) 64 no_sq (WAtom 67) [5] 3 = Ok (repeat true 67 ++ repeat false 67 ++ repeat true 67). Proof. vm_compute. reflexivity. Qed.
Example C22_bits_const2 : slash_c2_bits 77 (2 ^ 48) (2 ^ 48) 64 no_sq (WAtom 3) [5] 3 = Ok (repeat true 3 ++ repeat false 3 ++ repeat true 3). Proof. vm_compute. reflexivity. Qed.
