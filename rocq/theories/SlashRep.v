(** Replicate: proofs for cells that are not single bits. *)
From Verif Require Import Base ListLib BitsModel BitsSpec BitsProof BitsProof2 SqueezeModel SqueezeProof WidenModel SlashModel SlashModel2 SlashModel3 SlashModel4 SlashSpec SlashProof SlashBsp SlashWhere SlashWhere2 SlashInd SlashComp SlashComp2 SlashThm.
From Coq Require Import List.

Lemma repeat_snoc {A} (v : A) n : v :: repeat v n = repeat v n ++ [v]. Proof. induction n as [|n IH]; auto. cbn [repeat app]. f_equal. exact IH. Qed.
Lemma put_cells_ok {A} (v : A) n : forall cap out, Z.of_nat (length out) + Z.of_nat n <= cap -> put_cells n v cap out = Ok (out ++ repeat v n).
Proof. induction n as [|n IH]; intros cap out L; cbn [put_cells repeat]. - rewrite app_nil_r. auto. - rewrite emit_ok by (cbn [length]; lia). cbn [bind]. rewrite IH by (rewrite app_length; cbn [length]; lia). rewrite <- app_assoc. auto. Qed.
Lemma copy_cells_ok {A} csz (v : A) n : forall cap out, 0 <= csz -> (Z.of_nat (length out) + Z.of_nat n) * csz <= cap -> copy_cells csz n v cap out = Ok (out ++ repeat v n).
Proof. induction n as [|n IH]; intros cap out C L; cbn [copy_cells repeat]. - rewrite app_nil_r. auto. - unfold copy_cell. destruct (Z.leb_spec ((Z.of_nat (length out) + 1) * csz) cap); [|nia]. cbn [bind]. rewrite IH by (rewrite ?app_length; cbn [length]; lia || nia). rewrite <- app_assoc. auto. Qed.
Lemma xat_skip {A} (xs : list A) i : 0 <= i < Z.of_nat (length xs) -> exists v, xat xs i = Ok v /\ skipn (Z.to_nat i) xs = v :: skipn (Z.to_nat (i + 1)) xs.
Proof. intros H. unfold xat. destruct (Z.ltb_spec i 0); [lia|]. destruct (nth_error xs (Z.to_nat i)) as [v|] eqn:E; [|apply nth_error_None in E; lia]. exists v. split; auto. rewrite (skipn_at _ _ _ E). do 2 f_equal. lia. Qed.
Lemma rep_nil {A} (xs : list A) : replicate [] xs = []. Proof. reflexivity. Qed.
Lemma dense_rep_ok {A} (xs : list A) cap cs : forall i out, nonneg cs = true -> 0 <= i -> i + Z.of_nat (length cs) <= Z.of_nat (length xs) -> Z.of_nat (length out) + total cs <= cap -> dense_rep cs xs i cap out = Ok (out ++ replicate cs (skipn (Z.to_nat i) xs)).
Proof.
  induction cs as [|c cs IH]; intros i out N I L C; cbn [dense_rep]. - rewrite rep_nil, app_nil_r. auto.
  - cbn [nonneg forallb] in N. apply andb_true_iff in N. destruct N as [N1 N2]. apply Z.leb_le in N1. cbn [length] in L. cbn [total fold_right] in C. fold (total cs) in C. pose proof (nonneg_total cs N2). destruct (xat_skip xs i ltac:(lia)) as (v&Ev&Es). rewrite Ev. cbn [bind]. rewrite put_cells_ok by lia. cbn [bind]. rewrite IH by (auto; rewrite ?app_length, ?repeat_length; lia). rewrite Es, replicate_cons, <- app_assoc. auto.
Qed.
Lemma slow_rep_ok {A} umax csz (xs : list A) cap l : 0 <= csz -> total (nats_of l) <= umax -> forall i out, forallb natb l = true -> 0 <= i -> i + Z.of_nat (length l) <= Z.of_nat (length xs) -> (Z.of_nat (length out) + total (nats_of l)) * csz <= cap -> slow_rep umax csz l xs i cap out = Ok (out ++ replicate (nats_of l) (skipn (Z.to_nat i) xs)).
Proof.
  intros Cz. induction l as [|[c|] l IH]; intros T i out N I L C; cbn [slow_rep]. - unfold nats_of. cbn [map]. rewrite rep_nil, app_nil_r. auto.
  - cbn [forallb natb] in N. apply andb_true_iff in N. destruct N as [N1 N2]. apply Z.leb_le in N1. cbn [length] in L. pose proof (total_nonneg l N2). cbn [nats_of map total fold_right] in C, T. fold (nats_of l) in C, T. fold (total (nats_of l)) in C, T. unfold o2s. destruct (Z.ltb_spec c 0); [lia|]. destruct (Z.ltb_spec umax c); [lia|]. cbn [orb bind].
    destruct (xat_skip xs i ltac:(lia)) as (v&Ev&Es). cbn [nats_of map]. fold (nats_of l). rewrite Es, replicate_cons. destruct (Z.eqb_spec c 0) as [->|].
    + cbn [bind]. rewrite IH by (auto; lia). change (Z.to_nat 0) with 0%nat. cbn [repeat app]. auto.
    + rewrite Ev. cbn [bind]. rewrite copy_cells_ok by (auto; nia). cbn [bind]. rewrite IH; auto; try lia; [rewrite <- app_assoc; auto|rewrite app_length, repeat_length; nia].
  - discriminate N.
Qed.
Lemma replicate_trim {A} cs : forall (xs : list A), replicate (trim cs) xs = replicate cs xs.
Proof.
  intros xs. destruct (trim_split cs) as (k&E). rewrite E at 2. clear E. generalize (trim cs). intros t. revert xs. induction t as [|c t IH]; intros xs; cbn [app].
  - rewrite rep_nil. revert xs. induction k as [|k IHk]; intros xs; auto. destruct xs as [|x xs]; auto. cbn [repeat]. rewrite replicate_cons, <- IHk. auto.
  - destruct xs as [|x xs]; auto. rewrite !replicate_cons, IH. auto.
Qed.
Lemma nonneg_nats l : forallb natb l = true -> nonneg (nats_of l) = true.
Proof. unfold nonneg, nats_of. induction l as [|[z|] l IH]; auto; cbn [forallb natb map] in *; [|discriminate]. intros N. apply andb_true_iff in N. destruct N as [-> N]. cbn [andb]. auto. Qed.
Lemma total0 {A} cs : nonneg cs = true -> total cs = 0 -> forall (xs : list A), replicate cs xs = [].
Proof. induction cs as [|c cs IH]; intros N T xs; auto. cbn [nonneg forallb total fold_right] in N, T. apply andb_true_iff in N. destruct N as [N1 N2]. apply Z.leb_le in N1. fold (total cs) in T. pose proof (nonneg_total cs N2). destruct xs as [|x xs]; auto. rewrite replicate_cons, (IH N2) by lia. replace (Z.to_nat c) with 0%nat by lia. auto. Qed.
Lemma welts_counts c : match c with CB _ _ => True | _ => welts c = counts c end. Proof. destruct c; cbn; auto. Qed.
(** a double that is a count is at most 2^53 in the code; larger ones here too end in an error, since they are at least umax *)
Section R.
Context {A : Type} (junk umax amax ub csz : Z) (sq : cnts -> cnts) (xs : list A).
Hypothesis Hu : 0 < umax <= 2 ^ 48.
Hypothesis Hk : keeps sq.
Hypothesis Hc : 1 <= csz.
Let n := Z.of_nat (length xs).
Hypothesis Hn : n < umax.
Lemma base_ok c : match c with CB _ _ => False | _ => True end -> cnts_ok c -> c_ia c = n -> forallb natb (counts c) = true -> let s := total (nats_of (counts c)) in
  (s < umax -> s * csz < amax -> s * csz < 2 ^ 64 -> arrW_base umax amax csz s c xs = Ok (replicate (nats_of (counts c)) xs)) /\ (umax <= s -> arrW_base umax amax csz s c xs = Err).
Proof.
  intros Nb Hx Ia N s. pose proof (total_nonneg _ N) as T0. fold s in T0. unfold arrW_base. split.
  - intros S1 S2 S3. destruct (Z.leb_spec umax s); [lia|]. rewrite to_u_id by nia. destruct (Z.leb_spec amax (s * csz)); [lia|]. assert (We : welts c = counts c) by (destruct c; [contradiction|auto|auto]). rewrite We. assert (Le : 0 + Z.of_nat (length (counts c)) <= Z.of_nat (length xs)) by (rewrite counts_len, Ia by auto; unfold n; lia). rewrite slow_rep_ok; auto; cbn [length]; try (unfold s in *; lia).
  - intros S1. destruct (Z.leb_spec umax s); [auto|lia].
Qed.
Lemma bits_nats w m : nats_of (counts (CB w m)) = map b2z (bits_of w 0 m).
Proof. cbn [counts]. destruct (bits_total (bits_of w 0 m)) as (E&_). rewrite E. auto. Qed.
Lemma rep_arr_ok cl c : cnts_ok c -> c_ia c = n -> 0 < n ->
  (naturals (counts c) /\ total (nats_of (counts c)) < umax -> total (nats_of (counts c)) * csz < Z.min amax (2 ^ 64) -> rep_arr junk umax amax sq csz cl c xs = Ok (replicate (nats_of (counts c)) xs)) /\
  (~ (naturals (counts c) /\ total (nats_of (counts c)) < umax) -> rep_arr junk umax amax sq csz cl c xs = Err).
Proof.
  intros Hx Ia N0. unfold rep_arr. rewrite Ia. destruct (Z.eqb_spec n 0); [lia|]. fold n. rewrite Z.eqb_refl. cbn [negb]. rewrite <- nat_iff.
  assert (Cb : forall w m, cnts_ok (CB w m) -> m = n -> compress junk cl w n xs = Ok (replicate (map b2z (bits_of w 0 m)) xs)). { intros w m (W1&W2) ->. apply compress_ok; auto. unfold len. fold n. lia. }
  pose proof (usum_ok c Hx ltac:(lia)) as Us. unfold usum_spec in Us.
  assert (Bc : forall w m, cnts_ok (CB w m) -> m = n -> forallb natb (counts (CB w m)) = true /\ total (nats_of (counts (CB w m))) < umax). { intros w m W E. cbn [counts]. destruct (bits_total (bits_of w 0 m)) as (E1&E2&E3). rewrite E1, E2. split; auto. pose proof (count_le (bits_of w 0 m)) as C. assert (Lb : Z.of_nat (length (bits_of w 0 m)) = m) by (unfold bits_of; rewrite map_length, seq_length; lia). lia. }
  destruct c as [w m|k l|l].
  - cbn [c_ia] in Ia. split; intros H. + intros _. rewrite bits_nats. apply Cb; auto. + exfalso. apply H. apply Bc; auto.
  - set (c := CI k l) in *. assert (We : welts c = counts c) by reflexivity. assert (Nb : match c with CB _ _ => False | _ => True end) by exact I. clearbody c. rewrite Us. destruct (forallb natb (counts c)) eqn:N; cbn [andb bind]; [|split; [intros (?&?); discriminate|auto]]. pose proof (total_nonneg _ N) as T0. set (s := total (nats_of (counts c))) in *.
    destruct (Z.ltb_spec s (2 ^ 64)); cbn [bind]; [|split; [lia|auto]]. destruct (Z.leb_spec umax s); [split; [lia|auto]|]. split; [|intros H'; exfalso; apply H'; auto]. intros _ Sc.
    assert (Bs : forall c', match c' with CB _ _ => False | _ => True end -> cnts_ok c' -> counts c' = counts c -> arrW_base umax amax csz s c' xs = Ok (replicate (nats_of (counts c)) xs)). { intros c' Nb' Hx' Ec. assert (Ia' : c_ia c' = n) by (rewrite <- counts_len in * by auto; rewrite Ec; auto). assert (N' : forallb natb (counts c') = true) by (rewrite Ec; auto). destruct (base_ok c' Nb' Hx' Ia' N') as (B1&_). rewrite Ec in B1. apply B1; fold s; lia. }
    assert (Rest : (if s =? 0 then Ok [] else match (if s <=? n then sq c else c) with CB w _ => compress junk cl w n xs | _ => match cl with CObj _ => arrW_base umax amax csz s (if s <=? n then sq c else c) xs | _ => dense_rep (trim (map (fun e => match e with Some z => z | None => 0 end) (welts (if s <=? n then sq c else c)))) xs 0 s [] end end) = Ok (replicate (nats_of (counts c)) xs)).
    { destruct (Z.eqb_spec s 0) as [E|E]; [rewrite total0; auto; apply nonneg_nats; auto|]. set (c' := if s <=? n then sq c else c). assert (Y : cnts_ok c' /\ counts c' = counts c) by (subst c'; destruct (s <=? n); auto). destruct Y as (Hy&Cy). assert (Iy : c_ia c' = n) by (rewrite <- counts_len in * by auto; rewrite Cy; auto).
      assert (Dn : welts c' = counts c' -> dense_rep (trim (map (fun e => match e with Some z => z | None => 0 end) (welts c'))) xs 0 s [] = Ok (replicate (nats_of (counts c)) xs)). { intros Wc. rewrite Wc. fold (nats_of (counts c')). rewrite Cy. destruct (trim_split (nats_of (counts c))) as (q&Q). pose proof (nonneg_nats _ N) as Nn. assert (Nt : nonneg (trim (nats_of (counts c))) = true /\ total (trim (nats_of (counts c))) = s). { rewrite Q, nonneg_app in Nn. apply andb_true_iff in Nn. destruct Nn as [Na _]. split; auto. unfold s. rewrite Q at 2. rewrite total_app. assert (Tz : forall q, total (repeat 0 q) = 0) by (induction q0 as [|q0 IH]; cbn [repeat total fold_right] in *; unfold total in *; lia). rewrite Tz. lia. } destruct Nt as (Nt&Tt).
        assert (Lt : (length (trim (nats_of (counts c))) <= length xs)%nat). { assert (length (nats_of (counts c)) = length xs) by (unfold nats_of; rewrite map_length; apply Nat2Z.inj; rewrite counts_len by auto; rewrite Ia; auto). rewrite Q, app_length in H1. lia. }
        rewrite dense_rep_ok; auto; [|lia|lia|cbn [length]; lia]. cbn [Z.to_nat skipn app]. rewrite replicate_trim. auto. }
      clearbody c'. destruct c' as [w m|k' l'|l'].
      - cbn [c_ia] in Iy. rewrite (Cb w m Hy Iy). rewrite <- bits_nats, Cy. auto.
      - destruct cl; [apply Dn; reflexivity|apply Dn; reflexivity|apply Bs; auto; exact I|apply Dn; reflexivity].
      - destruct cl; [apply Dn; reflexivity|apply Dn; reflexivity|apply Bs; auto; exact I|apply Dn; reflexivity]. }
    destruct cl; [exact Rest|exact Rest|exact Rest|apply Bs; auto].
  - set (c := CF l) in *. assert (Nb : match c with CB _ _ => False | _ => True end) by exact I. clearbody c. rewrite Us. destruct (forallb natb (counts c)) eqn:N; cbn [andb bind]; [|split; [intros (?&?); discriminate|auto]]. destruct (base_ok c Nb Hx Ia N) as (B1&B2). pose proof (total_nonneg _ N) as T0. set (s := total (nats_of (counts c))) in *.
    destruct (Z.ltb_spec s (2 ^ 64)); cbn [bind]; [|split; [lia|auto]]. split; intros H'. + intros Sc. apply B1; lia. + apply B2. destruct (Z.lt_ge_cases s umax); [exfalso; apply H'; auto|lia].
Qed.
Lemma rep_const wv (ys : list A) : replicate (repeat wv (length ys)) ys = flat_map (fun v => repeat v (Z.to_nat wv)) ys.
Proof using. induction ys as [|y ys IH]; auto. cbn [length repeat flat_map]. rewrite replicate_cons, IH. auto. Qed.
Lemma rep_atom_ok cl wv : (wv < 0 -> rep_atom amax ub csz cl wv xs = Err) /\ (0 <= wv -> n * wv * csz < Z.min amax (2 ^ ub) -> rep_atom amax ub csz cl wv xs = Ok (replicate (repeat wv (length xs)) xs)).
Proof using Hc.
  clear Hu Hn Hk. unfold rep_atom. fold n. split; intros W; [destruct (Z.ltb_spec wv 0); [auto|lia]|]. intros S. destruct (Z.ltb_spec wv 0); [lia|]. assert (N0 : 0 <= n) by (unfold n; lia).
  assert (One : replicate (repeat 1 (length xs)) xs = xs). { rewrite rep_const. clear. induction xs as [|y ys IH]; auto. cbn [flat_map]. rewrite IH. auto. }
  assert (Nil : n = 0 -> xs = []). { intros E. destruct xs; auto. unfold n in E. cbn [length] in E. lia. }
  destruct (Z.leb_spec wv 1).
  - destruct (Z.eqb_spec wv 1) as [->|]; cbn [orb]; [rewrite One; auto|]. destruct (Z.eqb_spec n 0) as [E|E]; [rewrite (Nil E); auto|]. replace wv with 0 by lia. rewrite rep_const. f_equal. clear. induction xs as [|y ys IH]; auto.
  - destruct (Z.eqb_spec n 0) as [E|E]; [rewrite (Nil E); auto|]. assert (Sn : n * wv <= n * wv * csz) by nia. destruct (Z.leb_spec (2 ^ ub) (n * wv)); [lia|].
    assert (Tr : forall m, total (repeat wv m) = Z.of_nat m * wv) by (induction m as [|m IH]; auto; cbn [repeat total fold_right]; fold (total (repeat wv m)); rewrite IH; lia).
    assert (Nr : forall m, nonneg (repeat wv m) = true) by (induction m as [|m IH]; auto; cbn [repeat nonneg forallb]; fold (nonneg (repeat wv m)); rewrite IH; destruct (Z.leb_spec 0 wv); auto; lia).
    assert (D : dense_rep (repeat wv (length xs)) xs 0 (n * wv) [] = Ok (replicate (repeat wv (length xs)) xs)). { rewrite dense_rep_ok; [|apply Nr|lia|rewrite repeat_length; lia|rewrite Tr; cbn [length]; unfold n; lia]. cbn [Z.to_nat skipn app]. auto. }
    assert (C : (let cap := to_u ub (n * csz * wv) in if amax <=? cap then Err else for_ (Z.to_nat n) 0 (fun i out => do v <- xat xs i; copy_cells csz (Z.to_nat wv) v cap out) []) = Ok (replicate (repeat wv (length xs)) xs)).
    { cbv zeta. replace (n * csz * wv) with (n * wv * csz) by lia. rewrite to_u_id by nia. destruct (Z.leb_spec amax (n * wv * csz)); [lia|]. rewrite rep_const.
      assert (G : forall k i out, 0 <= i -> i + Z.of_nat k = n -> Z.of_nat (length out) = i * wv -> for_ k i (fun i out => do v <- xat xs i; copy_cells csz (Z.to_nat wv) v (n * wv * csz) out) out = Ok (out ++ flat_map (fun v => repeat v (Z.to_nat wv)) (skipn (Z.to_nat i) xs))).
      { induction k as [|k IH]; intros i out I Ik Lo; cbn [for_]. - replace (Z.to_nat i) with (length xs) by (unfold n in Ik; lia). rewrite skipn_all. cbn [flat_map]. rewrite app_nil_r. auto.
        - destruct (xat_skip xs i ltac:(fold n; lia)) as (v&Ev&Es). rewrite Ev. cbn [bind]. assert (M1 : i * wv + wv <= n * wv) by nia. rewrite copy_cells_ok; [|lia|rewrite Lo, Z2Nat.id by lia; apply Z.mul_le_mono_nonneg_r; lia]. cbn [bind]. rewrite IH; [|lia|lia|rewrite app_length, repeat_length; nia]. rewrite Es. cbn [flat_map]. rewrite <- app_assoc. auto. }
      rewrite G; [|lia|lia|cbn [length]; lia]. cbn [Z.to_nat skipn app]. auto. }
    destruct cl; [exact D|exact D|exact C|exact C].
Qed.
End R.
