(** Mark firsts, occurrence count, classify and deduplicate: the result of every path. *)
From Verif Require Import Base ListLib BitsModel BitsSpec BitsProof BitsProof2 BitsThm TagModel TagSpec TagProof NumSpec NumProof ArrSpec DataSpec SqueezeModel SqueezeSpec SqueezeProof MatchModel MatchSpec MatchProof MatchProof2 CompareModel CompareSpec CompareThm HashModel HashSpec HashProof HtabModel HtabThm HtabMap SearchModel SearchSpec SearchProof SearchFlat SearchTab SearchMany SearchMany2 SearchThm SelfModel SelfSpec SelfProof SelfRadix SelfHash SelfPaths.
From Coq Require Import List Sorting.Sorted.

Definition firsts (xl : list hobj) : list bool := map (fun c => (c =? 0)%nat) (gocc EQH [] xl).

Lemma data_elems x xl : isAtom (erase x) = false -> okh x -> elems x = Ok xl -> map dat xl = els (oden (erase x)).
Proof. intros A O E. destruct (elems_ok x A O) as (l&E'&M&_). rewrite E in E'. apply Ok_inj in E'. subst l. rewrite <- oels_els by auto. exact M. Qed.
Lemma elems_first x x0 q : elems x = Ok (x0 :: q) -> getH x 0 = Ok x0.
Proof. intros E. unfold elems in E. apply mapM_inv in E. destruct E as [L E]. rewrite seq_length in L. cbn [length] in L. destruct (Z.to_nat (h_ia x)) as [|n]; [discriminate|]. destruct (E 0%nat 0%nat eq_refl) as (b&E1&E2). cbn in E2. injection E2 as <-. exact E1. Qed.

Lemma use_sorted_flat x : use_sorted x = true -> h_elt x <> EB /\ h_elt x <> EBit /\ (h_asc (hflg x) = true \/ h_dsc (hflg x) = true) /\ (width_log (h_elt x) =? 6 = true -> h_elt x = EF64).
Proof.
  unfold use_sorted. intros H. apply andb_prop in H. destruct H as [H1 H2]. apply orb_prop in H1. split; [|split; [|split; auto]]; intros H; try (rewrite H in H2; discriminate). destruct (h_elt x); try discriminate; auto.
Qed.
Lemma sorted_list x xl : isAtom (erase x) = false -> okh x -> sorted_flags x -> (h_asc (hflg x) = true \/ h_dsc (hflg x) = true) -> elems x = Ok xl -> sortedl xl.
Proof. intros A O [F1 F2] H E. unfold sortedl. rewrite (data_elems x xl) by auto. destruct H as [H|H]; [left|right]; auto. Qed.
Lemma shift_ne_ok x x0 q r0 : isAtom (erase x) = false -> sval x -> use_sorted x = true -> elems x = Ok (x0 :: q) -> shift_ne x r0 = Ok (r0 :: nes x0 q).
Proof.
  intros A S1 U E. destruct (use_sorted_flat x U) as (T1&T2&_&W6). assert (Fl : isflat x) by (apply isflat_iff; auto).
  destruct (els_flat x (conj S1 Fl)) as (E1&R&_&Er). rewrite E in E1. apply Ok_inj in E1. unfold shift_ne. rewrite Er. cbn [bind]. cbv zeta.
  destruct (fraws x) as [|z0 zt]; [discriminate|]. cbn [map] in E1. injection E1 as -> ->. do 2 f_equal.
  assert (NE : forall a b, raw_ok (h_elt x) a -> raw_ok (h_elt x) b -> negb (if width_log (h_elt x) =? 6 then feq a b else a =? b) = negb (EQH (fl (h_elt x) a) (fl (h_elt x) b))).
  { intros a b Ra Rb. f_equal. destruct (width_log (h_elt x) =? 6) eqn:W.
    - specialize (W6 eq_refl). rewrite W6 in *. apply bool_eq_iff. unfold fl. rewrite EQH_flat by (auto; discriminate). cbn [vof]. unfold feq. rewrite (raw_f64_den a Ra), (raw_f64_den b Rb).
      destruct (is_nan a), (is_nan b); cbn [negb andb]; split; try discriminate; try (intros [? ?]; congruence).
      + intros Q. apply Z.eqb_eq in Q. rewrite Q. split; [auto|discriminate]. + intros [Q _]. apply VNum_inj in Q. apply Z.eqb_eq; auto.
    - symmetry. apply (flat_eqb (h_elt x) [a; b] (fun z => z)); cbn; auto. intros Q. rewrite Q in W. discriminate. }
  change (HAtom (cv (h_elt x) z0)) with (fl (h_elt x) z0). change (fun z => HAtom (cv (h_elt x) z)) with (fl (h_elt x)).
  clear Er E U. revert z0 R. induction zt as [|z1 zt IH]; intros z0 R; cbn [combine map nes fst snd]; auto. inversion R as [|? ? R0 R1]; subst. inversion R1; subst. rewrite NE by auto. f_equal. apply IH; auto.
Qed.
Lemma fast_ok x xl : isAtom (erase x) = false -> sval x -> sorted_flags x -> elems x = Ok xl -> xl <> [] ->
  exists s, fast_sameness x = Ok s /\ (s = 0 \/ s = 1 /\ firsts xl = only (Z.of_nat (length xl)) [0] \/ s = 2 /\ firsts xl = repeat true (length xl)).
Proof.
  intros A S1 F E Ne. unfold fast_sameness. destruct (h_asc (hflg x)) eqn:As, (h_dsc (hflg x)) eqn:Ds; cbn [andb]; eauto.
  destruct xl as [|x0 q]; [congruence|]. rewrite (elems_first x x0 q E). cbn [bind]. destruct (elems_len x _ A (sval_okh x S1) E) as [_ O]. assert (O0 : okh x0) by (inversion O; auto).
  destruct (EQH_ok x0 x0 O0 O0) as [Eq Es]. rewrite Eq. cbn [bind]. destruct F as [F1 F2]. rewrite <- (data_elems x (x0 :: q)) in F1, F2 by (auto; apply sval_okh; auto).
  pose proof (both_sorted (x0 :: q) (F1 As) (F2 Ds)) as Bs. assert (Same : forall a, In a (x0 :: q) -> dat a = dat x0) by (intros a Ha; apply In_nth_error in Ha; destruct Ha as (i&Ni); apply (Bs i 0%nat); auto).
  rewrite Forall_forall in O. destruct (EQH x0 x0) eqn:Q; eexists; (split; [reflexivity|]); right; [left|right]; (split; [reflexivity|]); unfold firsts.
  - symmetry. apply (only_zero (fun _ => true) q x0); [apply Forall_forall; auto|]. apply Forall_forall. intros c Hc. apply (proj2 (EQH_ok c x0 (O c Hc) O0)). destruct (proj1 Es eq_refl) as [_ Nf]. pose proof (Same c Hc) as Sc. unfold dat in Sc. split; auto. rewrite Sc; auto.
  - apply nth_error_ext. intros j. rewrite nth_error_map, gocc_nth. destruct (nth_error (x0 :: q) j) as [c|] eqn:N.
    + rewrite nth_error_repeat' by (eapply nth_error_Some_lt; eauto). cbn [option_map app]. f_equal. apply Nat.eqb_eq. apply cnt_zero_iff. intros a Ha. apply not_true_is_false. intros Y. assert (Ia : In a (x0 :: q)) by (rewrite <- (firstn_skipn j (x0 :: q)); apply in_or_app; auto). assert (Ic : In c (x0 :: q)) by (eapply nth_error_In; eauto).
      apply (proj2 (EQH_ok a c (O a Ia) (O c Ic))) in Y. destruct Y as [_ Y]. fold (dat a) in Y. rewrite (Same a Ia) in Y. assert (EQH x0 x0 = true); [|congruence]. apply (proj2 (EQH_ok x0 x0 O0 O0)). split; auto.
    + symmetry. apply nth_error_None. rewrite repeat_length. apply nth_error_None; auto.
Qed.
(** what compare64 gives *)
Lemma compare64_ok x xl l : isAtom (erase x) = false -> sval x -> elems x = Ok xl -> compare64 x = Some l ->
  length l = length xl /\ gocc Z.eqb [] l = gocc EQH [] xl /\ gcls Z.eqb [] l = gcls EQH [] xl /\ exists xl', elems (with_raws x l) = Ok xl' /\ Forall okh xl' /\ length xl' = length xl /\ gocc EQH [] xl' = gocc EQH [] xl /\ gcls EQH [] xl' = gcls EQH [] xl.
Proof.
  intros A S1 E C. destruct x as [u|f sh ws|f sh t raws|f sh els0]; try discriminate C. destruct t; try discriminate C. cbn [compare64] in C. apply norm64_ok in C. destruct C as [El Nn]. set (x := HTyped f sh EF64 raws) in *.
  assert (Fl : flatv x) by (split; auto; exact I). destruct (els_flat x Fl) as (E1&R&_&_). rewrite E in E1. apply Ok_inj in E1. cbn [fraws h_elt erase o_elt] in E1, R. change (h_elt x) with EF64 in *. change (fraws x) with raws in *.
  change (fun z => HAtom (cv EF64 z)) with (fl EF64) in E1. assert (Ra : forall z, In z raws -> raw_ok EF64 z /\ is_nan z = false) by (rewrite Forall_forall in R, Nn; auto).
  assert (Oc : gocc Z.eqb [] l = gocc EQH [] xl) by (subst l xl; rewrite !gocc_map0; apply gocc_ext; intros a b Ha Hb; symmetry; apply add0_eq; apply Ra; auto).
  assert (Cl : gcls Z.eqb [] l = gcls EQH [] xl) by (subst l xl; rewrite !gcls_map0; apply gcls_ext; intros a b Ha Hb; symmetry; apply add0_eq; apply Ra; auto).
  assert (Ll : length l = length xl) by (subst; rewrite !map_length; auto). split; [exact Ll|]. split; [exact Oc|]. split; [exact Cl|].
  assert (Sv : sval (with_raws x l)).
  { destruct S1 as ((V&Pl)&_&_). cbn [erase x ovalid] in V. destruct V as (V1&_&_&V2&V3). unfold with_raws. cbn [h_shape x erase o_shape]. split; [split|split; [|exact I]].
    - cbn [erase ovalid]. split; [exact V1|]. split; [discriminate|]. split; [discriminate|]. split; [subst l; rewrite map_length; exact V2|]. subst l. apply Forall_forall. intros z Hz. apply in_map_iff in Hz. destruct Hz as (y&<-&Hy). apply add0_raw. rewrite Forall_forall in V3. auto.
    - cbn [erase oden]. replace (map (fun z => DAtom (vof EF64 z)) l) with (map (fun z => DAtom (vof EF64 z)) raws); [exact Pl|]. subst l. rewrite map_map. apply map_ext_in. intros z Hz. f_equal. symmetry. apply add0_raw. apply Ra; auto.
    - cbn [hflags_ok]. split; [|split]; cbn; discriminate. }
  assert (Fl' : flatv (with_raws x l)) by (split; auto; exact I). destruct (els_flat _ Fl') as (E2&R2&_&_). exists (map (fl EF64) l). split; [exact E2|].
  change (fraws (with_raws x l)) with l in R2. change (h_elt (with_raws x l)) with EF64 in R2.
  assert (Ox : Forall okh (map (fl EF64) l)) by (destruct (elems_len (with_raws x l) _ (flat_nonatom _ (proj2 Fl')) (sval_okh _ Sv) E2); auto).
  split; [exact Ox|]. split; [rewrite map_length; auto|].
  assert (Q : forall a b, In a raws -> In b raws -> EQH (fl EF64 (add0 a)) (fl EF64 (add0 b)) = EQH (fl EF64 a) (fl EF64 b)).
  { intros a b Ha Hb. destruct (Ra a Ha) as [Ra1 _], (Ra b Hb) as [Rb1 _]. destruct (add0_raw a Ra1), (add0_raw b Rb1). apply bool_eq_iff. unfold fl. rewrite !EQH_flat by (auto; discriminate). rewrite H0, H2. tauto. }
  subst l xl. rewrite !map_map, !gocc_map0, !gcls_map0. split; [apply gocc_ext|apply gcls_ext]; intros a b Ha Hb; apply Q; auto.
Qed.

Section H.
Context (cast : Z -> Z) (wyhash64 : Z -> Z -> Z) (wyhash : list Z -> Z -> list Z -> Z) (s0 s1 s2 s3 nan0 : Z) (junk : nat -> bool) (M : Z).
Hypothesis cast_good : cast_ok cast.
Hypothesis mix : mixers wyhash64 wyhash s3.
Notation memberOf_c1 := (memberOf_c1 cast wyhash64 wyhash s0 s1 s2 s3 nan0 junk M).
Notation count_c1 := (count_c1 cast wyhash64 wyhash s0 s1 s2 s3 nan0 junk M).
Notation indexOf_c1 := (indexOf_c1 cast wyhash64 wyhash s0 s1 s2 s3 nan0 junk).
Notation find_c1 := (find_c1 cast wyhash64 wyhash s0 s1 s2 s3 nan0 junk M).

Lemma bits_case x xl : isAtom (erase x) = false -> sval x -> elems x = Ok xl -> h_elt x = EBit -> xl <> [] -> exists f sh ws b0 l, x = HBits f sh ws /\ xl = map bitv (b0 :: l) /\ bits_of ws 0 (h_ia x) = b0 :: l /\ bitz ws 0 = Ok (b2z b0) /\
  (forall v, bit_find ws 0 (h_ia x) v = Ok (first_index v (b0 :: l))) /\ bitzs ws (h_ia x) = Ok (map (fun b : bool => if b then 1 else 0) (b0 :: l)) /\ h_ia x = Z.of_nat (length (b0 :: l)).
Proof.
  intros A S1 E T Ne. destruct x as [u|f sh ws|f sh t raws|f sh els0]; try discriminate A; try discriminate T.
  2: { destruct S1 as ((V&_)&_). cbn [erase ovalid] in V. destruct V as (_&V&_). cbn in T. congruence. }
  destruct (bit_elems _ ws f sh eq_refl S1) as (E1&Hw&P0&P1&P2). rewrite E in E1. apply Ok_inj in E1. change (h_ia (HBits f sh ws)) with (prod sh). destruct (bits_of ws 0 (prod sh)) as [|b0 l] eqn:Eb; [subst xl; cbn in Ne; congruence|].
  assert (Ln : prod sh = Z.of_nat (length (b0 :: l))) by (rewrite <- Eb; unfold bits_of; rewrite map_length, seq_length; lia).
  exists f, sh, ws, b0, l. split; [auto|]. split; [auto|]. split; [auto|]. split; [|split; [|split; auto]].
  - rewrite bitz_ok by (cbn [length] in Ln; lia). f_equal. unfold bits_of in Eb. destruct (Z.to_nat (prod sh)) eqn:En; [discriminate|]. cbn [seq map] in Eb. injection Eb as <- _. change (64 * 0 + Z.of_nat 0) with 0. change (Z.of_nat 0) with 0. destruct (mbit ws 0); reflexivity.
  - intros v. rewrite <- Eb. apply C13_find_first; auto; lia.
  - rewrite bitzs_ok by auto. rewrite Eb. reflexivity.
Qed.

Lemma flat_urs x xl k : isAtom (erase x) = false -> sval x -> elems x = Ok xl -> (width_log (h_elt x) = 3 /\ k = 8 \/ width_log (h_elt x) = 4 /\ k = 16 \/ width_log (h_elt x) = 5 /\ k = 32) ->
  exists l, uraws k x = Ok l /\ length l = length xl /\ Forall (fun z => 0 <= z < 2 ^ k) l /\ gocc Z.eqb [] l = gocc EQH [] xl /\ gcls Z.eqb [] l = gcls EQH [] xl.
Proof.
  intros A S1 E W. assert (T : h_elt x <> EB /\ h_elt x <> EF64) by (destruct W as [[W _]|[[W _]|[W _]]]; split; intros Q; rewrite Q in W; discriminate). destruct T as [T1 T2].
  assert (Fl : isflat x) by (apply isflat_iff; auto). destruct (els_flat x (conj S1 Fl)) as (E1&R&_&Er). rewrite E in E1. apply Ok_inj in E1.
  exists (map (fun z => z mod 2 ^ k) (fraws x)). split; [unfold uraws; rewrite Er; reflexivity|]. split; [subst xl; rewrite !map_length; auto|]. split; [apply mods_ok; lia|].
  pose proof (width_inj (h_elt x) k W) as Wi. subst xl. change (fun z => HAtom (cv (h_elt x) z)) with (fl (h_elt x)). split; symmetry; [apply gocc_flat|apply gcls_flat]; auto.
Qed.

Theorem memberOf_c1_ok x xl : isAtom (erase x) = false -> sval x -> sorted_flags x -> elems x = Ok xl -> 0 < M -> h_ia x < M -> memberOf_c1 x = Ok (firsts xl).
Proof.
  intros A S1 F E M0 LM. destruct (elems_len x xl A (sval_okh x S1) E) as [Ln O]. unfold SelfModel.memberOf_c1. cbv zeta.
  destruct (Z.leb_spec (h_ia x) 1). { f_equal. rewrite <- Ln, Nat2Z.id. destruct xl as [|a [|b xl]]; [reflexivity|reflexivity|cbn [length] in Ln; lia]. }
  assert (Ne : xl <> []) by (intros ->; cbn in Ln; lia).
  destruct (Z.eqb_spec (width_log (h_elt x)) 0) as [W0|W0].
  { assert (T : h_elt x = EBit) by (destruct (h_elt x); auto; discriminate). destruct (bits_case x xl A S1 E T Ne) as (f&sh&ws&b0&l&Ex&Exl&Eb&Ez&Ef&_&Eln). rewrite Ex at 1. rewrite Ez. cbn [bind]. replace (b2z b0 =? 0) with (negb b0) by (destruct b0; reflexivity). rewrite Ef. cbn [bind]. f_equal.
    rewrite Eln. rewrite (mark_bits b0 l (b0 :: l) eq_refl). unfold firsts. rewrite Exl, gocc_bits. reflexivity. }
  destruct (fast_ok x xl A S1 F E Ne) as (s&Es&Hs). rewrite Es. cbn [bind]. rewrite <- Ln.
  destruct (Z.eqb_spec s 1) as [->|S2]. { destruct Hs as [Hs|[[_ Hs]|[Hs _]]]; try discriminate. rewrite Hs. reflexivity. }
  destruct (Z.eqb_spec s 2) as [->|S3]. { destruct Hs as [Hs|[[Hs _]|[_ Hs]]]; try discriminate. rewrite Hs, Nat2Z.id. reflexivity. }
  clear Hs Es. destruct (use_sorted x) eqn:U.
  { destruct xl as [|x0 q]; [congruence|]. rewrite (shift_ne_ok x x0 q true A S1 U E). f_equal. unfold firsts. cbn [gocc map app]. f_equal. symmetry. change [x0] with ([] ++ [x0]). apply (sorted_marks q [] x0); [|exact O]. apply (sorted_list x _ A (sval_okh x S1) F (proj1 (proj2 (proj2 (use_sorted_flat x U)))) E). }
  assert (B : forall l, gocc Z.eqb [] l = gocc EQH [] xl -> Z.of_nat (length l) <= 31 -> brute_mark l = Ok (firsts xl)) by (intros l Q L; rewrite brute_mark_ok by auto; rewrite Q; reflexivity).
  assert (Bm : forall r, map (fun z => negb (z =? 0)) (map (it (fun _ => 0) 1) r) = map (fun c => (c =? 0)%nat) r) by (intros r; rewrite map_map; apply map_ext; intros c; apply it_mark).
  destruct (Z.eqb_spec (width_log (h_elt x)) 3) as [W3|W3].
  { destruct (flat_urs x xl 8 A S1 E ltac:(auto)) as (l&El&Ll&Rl&Ol&_). rewrite El. cbn [bind]. destruct (Z.ltb_spec (Z.of_nat (length xl)) 8); [apply B; auto; lia|]. rewrite lookup_ok by (auto; lia). cbn [bind]. rewrite Bm, Ol. reflexivity. }
  destruct (Z.eqb_spec (width_log (h_elt x)) 4) as [W4|W4].
  { destruct (flat_urs x xl 16 A S1 E ltac:(auto)) as (l&El&Ll&Rl&Ol&_). rewrite El. cbn [bind]. destruct (Z.ltb_spec (Z.of_nat (length xl)) 8); [apply B; auto; lia|]. rewrite lookup_ok by (auto; lia). cbn [bind]. rewrite Bm, Ol. reflexivity. }
  destruct (Z.eqb_spec (width_log (h_elt x)) 5) as [W5|W5].
  { destruct (flat_urs x xl 32 A S1 E ltac:(auto)) as (l&El&Ll&Rl&Ol&_). rewrite El. cbn [bind]. destruct (Z.ltb_spec (Z.of_nat (length xl)) 12); [apply B; auto; lia|].
    assert (Nl : l <> []) by (intros ->; destruct xl; [congruence|discriminate]). rewrite radix_lookup_ok by (auto; lia). cbn [bind]. rewrite Bm, Ol. reflexivity. }
  destruct (compare64 x) as [l|] eqn:C.
  - destruct (compare64_ok x xl l A S1 E C) as (Ll&Ol&_&xl'&E'&O'&Ll'&Ol'&_). destruct (Z.ltb_spec (Z.of_nat (length xl)) 20); [apply B; auto; lia|]. rewrite E'. cbn [bind]. assert (Ne' : xl' <> []) by (intros ->; destruct xl; [congruence|discriminate]). rewrite mark_gen_ok by auto. rewrite Ol'. reflexivity.
  - rewrite E. cbn [bind]. apply mark_gen_ok; auto.
Qed.

Theorem count_c1_ok x xl : isAtom (erase x) = false -> sval x -> sorted_flags x -> elems x = Ok xl -> 0 < M -> h_ia x < M -> h_ia x <= 2 ^ 31 -> count_c1 x = Ok (map Z.of_nat (gocc EQH [] xl)).
Proof.
  intros A S1 F E M0 LM LB. destruct (elems_len x xl A (sval_okh x S1) E) as [Ln O]. unfold SelfModel.count_c1. cbv zeta.
  destruct (Z.leb_spec (h_ia x) 1). { f_equal. rewrite <- Ln, Nat2Z.id. destruct xl as [|a [|b xl]]; [reflexivity|reflexivity|cbn [length] in Ln; lia]. }
  assert (Ne : xl <> []) by (intros ->; cbn in Ln; lia). destruct (Z.ltb_spec (2 ^ 31) (h_ia x)); [lia|].
  destruct (Z.eqb_spec (width_log (h_elt x)) 0) as [W0|W0].
  { assert (T : h_elt x = EBit) by (destruct (h_elt x); auto; discriminate). destruct (bits_case x xl A S1 E T Ne) as (f&sh&ws&b0&l&Ex&Exl&Eb&Ez&Ef&Eb2&Eln). rewrite Ex at 1. rewrite Eb2. cbn [bind]. f_equal.
    rewrite Exl, gocc_bits. apply (count_bool_ok _ (h_ia x)); [repeat destruct (_ <=? _); lia| |reflexivity|reflexivity|rewrite Eln; reflexivity].
    destruct (Z.leb_spec (h_ia x) 128); [assumption|]. destruct (Z.leb_spec (h_ia x) (2 ^ 15)); [assumption|]. exact LB. }
  rewrite <- Ln. destruct (use_sorted x && _ && _) eqn:U.
  { apply andb_prop in U. destruct U as [U _]. apply andb_prop in U. destruct U as [U _]. destruct xl as [|x0 q]; [congruence|]. rewrite (shift_ne_ok x x0 q true A S1 U E). cbn [bind]. f_equal. rewrite Nat2Z.id. cbn [length seq map combine max_scan fst snd b2z gocc app].
    change (Z.of_nat 0) with 0. change (Z.max (- 2 ^ 31) (1 * 0)) with 0. cbv zeta. cbn [combine map fst snd gocc app]. f_equal.
    change [x0] with ([] ++ [x0]). assert (So : sortedl (x0 :: q)) by (apply (sorted_list x _ A (sval_okh x S1) F (proj1 (proj2 (proj2 (use_sorted_flat x U)))) E)). rewrite (sorted_counts q [] x0 So O).
    assert (Ls : length (nes x0 q) = length q) by (clear; revert x0; induction q; intros; cbn [nes length]; auto).
    pose proof (runs_scan (nes x0 q) 0 0 0 eq_refl ltac:(lia)) as R. rewrite Ls in R. change (Z.to_nat (0 + 1)) with 1%nat in R. rewrite R. reflexivity. }
  assert (Ic : forall l, gocc Z.eqb [] l = gocc EQH [] xl -> length l = length xl -> map (it (fun v => to_s 32 (v + 1)) 0) (gocc Z.eqb [] l) = map Z.of_nat (gocc EQH [] xl)).
  { intros l Q L. pose proof (cnts_lt Z.eqb l) as Cl. rewrite <- Q. apply map_ext_in. rewrite Forall_forall in Cl. intros c Hc. apply it_inc. specialize (Cl c Hc). lia. }
  assert (Bc : forall l, gocc Z.eqb [] l = gocc EQH [] xl -> Z.of_nat (length l) <= 127 -> Ok (brute_count l) = Ok (map Z.of_nat (gocc EQH [] xl))) by (intros l Q L; rewrite brute_count_ok by auto; rewrite Q; reflexivity).
  destruct (Z.eqb_spec (width_log (h_elt x)) 3) as [W3|W3].
  { destruct (flat_urs x xl 8 A S1 E ltac:(auto)) as (l&El&Ll&Rl&Ol&_). rewrite El. cbn [bind]. destruct (Z.ltb_spec (Z.of_nat (length xl)) 12); [apply Bc; auto; lia|]. rewrite lookup_ok by (auto; lia). f_equal. apply Ic; auto. }
  destruct (Z.eqb_spec (width_log (h_elt x)) 4) as [W4|W4].
  { destruct (flat_urs x xl 16 A S1 E ltac:(auto)) as (l&El&Ll&Rl&Ol&_). rewrite El. cbn [bind]. destruct (Z.ltb_spec (Z.of_nat (length xl)) 12); [apply Bc; auto; lia|]. rewrite lookup_ok by (auto; lia). f_equal. apply Ic; auto. }
  destruct (Z.eqb_spec (width_log (h_elt x)) 5) as [W5|W5].
  { destruct (flat_urs x xl 32 A S1 E ltac:(auto)) as (l&El&Ll&Rl&Ol&_). rewrite El. cbn [bind]. destruct (Z.ltb_spec (Z.of_nat (length xl)) 20); [apply Bc; auto; lia|].
    assert (Nl : l <> []) by (intros ->; destruct xl; [congruence|discriminate]). rewrite radix_lookup_ok by (auto; lia). cbn [bind]. f_equal. rewrite map_map, <- Ol. pose proof (cnts_lt Z.eqb l) as Cl. apply map_ext_in. rewrite Forall_forall in Cl. intros c Hc. apply it_incu. specialize (Cl c Hc). lia. }
  destruct (compare64 x) as [l|] eqn:C.
  - destruct (compare64_ok x xl l A S1 E C) as (Ll&Ol&_&xl'&E'&O'&Ll'&Ol'&_). destruct (Z.ltb_spec (Z.of_nat (length xl)) 20); [apply Bc; auto; lia|]. rewrite E'. cbn [bind]. rewrite count_self_gen_ok by (auto; lia). rewrite Ol'. reflexivity.
  - rewrite E. cbn [bind]. apply count_self_gen_ok; auto. lia.
Qed.

Theorem indexOf_c1_ok x xl : isAtom (erase x) = false -> sval x -> sorted_flags x -> elems x = Ok xl -> h_ia x < 2 ^ 31 -> indexOf_c1 x = Ok (gcls EQH [] xl).
Proof.
  intros A S1 F E LB. destruct (elems_len x xl A (sval_okh x S1) E) as [Ln O]. unfold SelfModel.indexOf_c1. cbv zeta.
  destruct (Z.leb_spec (h_ia x) 1). { f_equal. rewrite <- Ln, Nat2Z.id. destruct xl as [|a [|b xl]]; [reflexivity|reflexivity|cbn [length] in Ln; lia]. }
  assert (Ne : xl <> []) by (intros ->; cbn in Ln; lia). destruct (Z.ltb_spec (2 ^ 31) (h_ia x)); [lia|].
  destruct (Z.eqb_spec (width_log (h_elt x)) 0) as [W0|W0].
  { assert (T : h_elt x = EBit) by (destruct (h_elt x); auto; discriminate). destruct (bits_case x xl A S1 E T Ne) as (f&sh&ws&b0&l&Ex&Exl&Eb&Ez&Ef&Eb2&Eln). rewrite Ex at 1. rewrite Ez, Eb2. cbn [bind]. f_equal.
    rewrite Exl, gcls_bits. change (gcls Bool.eqb [] (b0 :: l)) with (0 :: gcls Bool.eqb [b0] l). rewrite (class_bits b0) by auto. cbn [map]. destruct b0; cbn [b2z Z.eqb negb]; [cbn [map]; rewrite map_map; f_equal; apply map_ext; intros []; reflexivity|f_equal; apply map_ext; intros []; reflexivity]. }
  rewrite <- Ln. destruct (use_sorted x && _) eqn:U.
  { apply andb_prop in U. destruct U as [U _]. destruct xl as [|x0 q]; [congruence|]. rewrite (shift_ne_ok x x0 q false A S1 U E). cbn [bind]. f_equal. cbn [sum_scan b2z]. change (gcls EQH [] (x0 :: q)) with (0 :: gcls EQH ([] ++ [x0]) q). f_equal.
    rewrite (sorted_class q [] x0 [] x0); auto; [|intros a []]. apply (sorted_list x _ A (sval_okh x S1) F (proj1 (proj2 (proj2 (use_sorted_flat x U)))) E). }
  assert (Bc : forall l, gcls Z.eqb [] l = gcls EQH [] xl -> Z.of_nat (length l) <= 127 -> Ok (brute_class l) = Ok (gcls EQH [] xl)) by (intros l Q L; rewrite brute_class_ok by auto; rewrite Q; reflexivity).
  destruct (Z.eqb_spec (width_log (h_elt x)) 3) as [W3|W3].
  { destruct (flat_urs x xl 8 A S1 E ltac:(auto)) as (l&El&Ll&Rl&_&Ol). rewrite El. cbn [bind]. destruct (Z.ltb_spec (Z.of_nat (length xl)) 12); [apply Bc; auto; lia|]. rewrite class_lookup_ok by (auto; lia). f_equal. auto. }
  destruct (Z.eqb_spec (width_log (h_elt x)) 4) as [W4|W4].
  { destruct (flat_urs x xl 16 A S1 E ltac:(auto)) as (l&El&Ll&Rl&_&Ol). rewrite El. cbn [bind]. destruct (Z.ltb_spec (Z.of_nat (length xl)) 12); [apply Bc; auto; lia|]. rewrite class_lookup_ok by (auto; lia). f_equal. auto. }
  destruct (Z.eqb_spec (width_log (h_elt x)) 5) as [W5|W5].
  { assert (T : h_elt x <> EB /\ h_elt x <> EF64) by (split; intros Q; rewrite Q in W5; discriminate). destruct T as [T1 T2].
    assert (Fl : isflat x) by (apply isflat_iff; auto). destruct (els_flat x (conj S1 Fl)) as (E1&R&_&Er). rewrite E in E1. apply Ok_inj in E1. rewrite Er. cbn [bind].
    assert (Q : gcls Z.eqb [] (map (to_s 32) (fraws x)) = gcls EQH [] xl).
    { rewrite E1. symmetry. apply gcls_flat; auto. destruct (h_elt x); try discriminate W5; cbn [raw_ok]; intros a b Ha Hb; [rewrite !to_s_id by (change (2 ^ (32 - 1)) with 2147483648; lia); auto|]. apply to_s_inj; change (2 ^ 32) with 4294967296; lia. }
    assert (Lq : length (map (to_s 32) (fraws x)) = length xl) by (subst xl; rewrite !map_length; auto).
    destruct (Z.ltb_spec (Z.of_nat (length xl)) 12); [apply Bc; auto; lia|]. pose proof (class_range_ok (map (to_s 32) (fraws x)) ltac:(lia)) as Cr. destruct (class_range _) as [r|]; [rewrite Cr, Q; reflexivity|]. rewrite E. cbn [bind]. apply class_gen_ok; auto. lia. }
  destruct (compare64 x) as [l|] eqn:C.
  - destruct (compare64_ok x xl l A S1 E C) as (Ll&_&Ol&xl'&E'&O'&Ll'&_&Ol'). destruct (Z.ltb_spec (Z.of_nat (length xl)) 16); [apply Bc; auto; lia|]. rewrite E'. cbn [bind]. rewrite class_gen_ok by (auto; lia). rewrite Ol'. reflexivity.
  - rewrite E. cbn [bind]. apply class_gen_ok; auto. lia.
Qed.

Lemma compress_all {A} (l : list A) : compress (repeat true (length l)) l = l. Proof. induction l; cbn [length repeat compress]; auto. f_equal; auto. Qed.
Lemma only_compress {A} (a : A) l : compress (only (Z.of_nat (length (a :: l))) [0]) (a :: l) = [a].
Proof.
  unfold only. rewrite Nat2Z.id. cbn [length seq map existsb]. change (Z.of_nat 0 =? 0) with true. cbn [orb compress]. f_equal.
  assert (G : forall n s, compress (map (fun k => (Z.of_nat k =? 0) || false) (seq (S s) n)) l = []). { induction l as [|b l IH]; intros [|n] s; cbn [seq map compress]; auto. destruct (Z.eqb_spec (Z.of_nat (S s)) 0); [lia|]. apply IH. } apply G.
Qed.
Theorem find_c1_ok x xl : isAtom (erase x) = false -> sval x -> sorted_flags x -> elems x = Ok xl -> 0 < M -> h_ia x < M -> find_c1 x = Ok (compress (firsts xl) xl).
Proof.
  intros A S1 F E M0 LM. destruct (elems_len x xl A (sval_okh x S1) E) as [Ln O]. unfold SelfModel.find_c1. cbv zeta. rewrite E. cbn [bind].
  destruct (Z.leb_spec (h_ia x) 1). { f_equal. destruct xl as [|a [|b xl]]; [reflexivity|reflexivity|cbn [length] in Ln; lia]. }
  assert (Ne : xl <> []) by (intros ->; cbn in Ln; lia).
  destruct (fast_ok x xl A S1 F E Ne) as (s&Es&Hs). rewrite Es. cbn [bind].
  destruct (Z.eqb_spec s 1) as [->|S2]. { destruct Hs as [Hs|[[_ Hs]|[Hs _]]]; try discriminate. rewrite Hs. destruct xl as [|a l]; [congruence|]. rewrite only_compress. reflexivity. }
  destruct (Z.eqb_spec s 2) as [->|S3]. { destruct Hs as [Hs|[[Hs _]|[_ Hs]]]; try discriminate. rewrite Hs, compress_all. reflexivity. }
  destruct (Z.eqb_spec (elt_no (h_elt x)) 0) as [T|T].
  - apply no_e0 in T. destruct (bits_case x xl A S1 E T Ne) as (f&sh&ws&b0&l&Ex&Exl&Eb&Ez&Ef&_&Eln). rewrite Ex at 1. rewrite Ez. cbn [bind]. replace (b2z b0 =? 0) with (negb b0) by (destruct b0; reflexivity). rewrite Ef. cbn [bind].
    unfold firsts. rewrite Exl, gocc_bits, <- (mark_bits b0 l (b0 :: l) eq_refl). rewrite Eln. set (i := first_index (negb b0) (b0 :: l)). 
    pose proof (first_index_scan (negb b0) (b0 :: l)) as Fs. fold i in Fs. symmetry in Fs. assert (I0 : 0 < i) by (unfold i; cbn [first_index]; replace (Bool.eqb b0 (negb b0)) with false by (destruct b0; reflexivity); pose proof (scan_range (fun b => Bool.eqb b (negb b0)) l); rewrite first_index_scan; lia).
    pose proof (proj1 (scan_spec _ _ _) Fs) as [_ Sp]. clear Fs. clearbody i.
    assert (Cv : forall b, conv1 EBit EB (b2z b) = Ok (of_int (b2z b))) by (intros []; reflexivity).
    destruct (Z.ltb_spec i (Z.of_nat (length (b0 :: l)))) as [Li|Li].
    + destruct Sp as [Sp|(k&a&Ek&Nk&Ha)]; [lia|]. apply eqb_prop in Ha. subst a. destruct k as [|k]; [lia|]. cbn [nth_error] in Nk.
      assert (Cm : compress (only (Z.of_nat (length (b0 :: l))) [0; i]) (map bitv (b0 :: l)) = [bitv b0; bitv (negb b0)]).
      { unfold only. rewrite Nat2Z.id. cbn [length seq map existsb]. change (Z.of_nat 0 =? 0) with true. cbn [orb compress]. f_equal.
        assert (G : forall k l s, nth_error l k = Some (negb b0) -> compress (map (fun j => (Z.of_nat j =? 0) || ((Z.of_nat j =? Z.of_nat (S s + k)) || false)) (seq (S s) (length l))) (map bitv l) = [bitv (negb b0)]).
        { clear. assert (Z0 : forall (l : list bool) s e, (e <= s)%nat -> compress (map (fun j => (Z.of_nat j =? 0) || ((Z.of_nat j =? Z.of_nat e) || false)) (seq (S s) (length l))) (map bitv l) = []).
          { induction l as [|b l IH]; intros s e Hs; cbn [length seq map compress]; auto. destruct (Z.eqb_spec (Z.of_nat (S s)) 0); [lia|]. destruct (Z.eqb_spec (Z.of_nat (S s)) (Z.of_nat e)); [lia|]. cbn [orb]. apply IH. lia. }
          induction k as [|k IH]; intros [|b l] s N; try discriminate; cbn [length seq map compress nth_error] in *.
          - injection N as ->. rewrite Nat.add_0_r, Z.eqb_refl, orb_true_r. cbn [orb]. f_equal. apply Z0. lia.
          - destruct (Z.eqb_spec (Z.of_nat (S s)) 0); [lia|]. destruct (Z.eqb_spec (Z.of_nat (S s)) (Z.of_nat (S s + S k))); [lia|]. cbn [orb]. replace (S s + S k)%nat with (S (S s) + k)%nat by lia. apply IH; auto. }
        rewrite Ek. apply (G k l 0%nat Nk). }
      rewrite Cm. cbn [mapM]. destruct b0; cbn [b2z]; rewrite !Cv || idtac; vm_compute; reflexivity.
    + cbn [mapM]. replace (only (Z.of_nat (length (b0 :: l))) [0]) with (only (Z.of_nat (length (bitv b0 :: map bitv l))) [0]) by (cbn [length]; rewrite map_length; reflexivity). cbn [map]. rewrite only_compress. destruct b0; vm_compute; reflexivity.
  - rewrite (memberOf_c1_ok x xl) by auto. reflexivity.
Qed.
End H.
