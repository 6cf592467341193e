(** The parser on texts: which texts it takes, and that their value is rounded correctly. *)
From Verif Require Import Base SqueezeModel SqueezeProof RyuTable RyuModel RyuCert RyuExact RyuSpec RyuRound.
Open Scope Z_scope.

Definition numfrom (m : Z) (ds : list Z) : Z := fold_left (fun a c => 10 * a + (c - 48)) ds m.
Lemma numfrom_app m a b : numfrom m (a ++ b) = numfrom (numfrom m a) b.
Proof. apply fold_left_app. Qed.
Lemma numfrom_ge ds : forall m, 0 <= m -> Forall digit ds -> m <= numfrom m ds.
Proof.
  induction ds as [|c t IH]; intros m Hm HF; [cbn [numfrom fold_left]; lia|].
  inversion HF as [|? ? Hc Ht]; subst. unfold digit in Hc.
  change (numfrom m (c :: t)) with (numfrom (10 * m + (c - 48)) t).
  eapply Z.le_trans; [|apply IH; [lia|exact Ht]]. lia.
Qed.

(** ** Mantissa *)
(** [m10digits] is the number of digits of [m10] *)
Definition dinv (m dig : Z) : Prop := (m = 0 /\ dig = 0) \/ (1 <= dig <= 18 /\ 10 ^ (dig - 1) <= m < 10 ^ dig).
Definition step (s : Z * Z * Z) (c : Z) : Z * Z * Z :=
  let '(m, dig, ofs) := s in
  if dig <? 18 then
    let m := to_u 64 (10 * m + (c - 48)) in (m, (if m =? 0 then dig else dig + 1), ofs)
  else (m, dig, ofs + 1).
Definition run (ds : list Z) (s : Z * Z * Z) : Z * Z * Z := fold_left step ds s.

Lemma dinv_bound m dig : dinv m dig -> 0 <= m < 10 ^ 18.
Proof.
  intros [[-> ->]|[Hd Hm]]; [lia|]. assert (0 < 10 ^ (dig - 1)) by (apply Z.pow_pos_nonneg; lia).
  assert (10 ^ dig <= 10 ^ 18) by (apply Z.pow_le_mono_r; lia). lia.
Qed.
Lemma dinv_lt m dig : dinv m dig -> m < 10 ^ 17 -> dig < 18.
Proof.
  intros [[-> ->]|[Hd Hm]] Hlt; [lia|]. destruct (Z.eq_dec dig 18) as [->|]; [|lia]. change (18 - 1) with 17 in Hm. lia.
Qed.
Lemma step_small m dig ofs c : dinv m dig -> digit c -> dig < 18 ->
  exists dig', step (m, dig, ofs) c = (10 * m + (c - 48), dig', ofs) /\ dinv (10 * m + (c - 48)) dig'.
Proof.
  intros HI Hc Hd. unfold digit in Hc. pose proof (dinv_bound m dig HI) as HB. unfold step.
  destruct (Z.ltb_spec dig 18); [|lia]. cbv zeta. unfold to_u. rewrite Z.mod_small by lia.
  eexists. split; [reflexivity|].
  destruct (Z.eqb_spec (10 * m + (c - 48)) 0) as [E|E].
  - left. destruct HI as [[-> ->]|[Hd1 Hm]]; [lia|].
    assert (0 < 10 ^ (dig - 1)) by (apply Z.pow_pos_nonneg; lia). lia.
  - right. destruct HI as [[-> ->]|[Hd1 Hm]].
    + split; [lia|]. change (10 ^ (0 + 1 - 1)) with 1. change (10 ^ (0 + 1)) with 10. lia.
    + split; [lia|]. replace (dig + 1 - 1) with (1 + (dig - 1)) by lia. rewrite Z.pow_add_r by lia.
      rewrite (Z.pow_add_r 10 dig 1) by lia. change (10 ^ 1) with 10. lia.
Qed.
Lemma step_inv m dig ofs c : dinv m dig -> digit c ->
  exists m' dig' ofs', step (m, dig, ofs) c = (m', dig', ofs') /\ dinv m' dig' /\ ofs <= ofs' <= ofs + 1.
Proof.
  intros HI Hc. destruct (Z.lt_ge_cases dig 18).
  - destruct (step_small m dig ofs c HI Hc H) as (d' & -> & H'). do 3 eexists. split; [reflexivity|]. split; [exact H'|lia].
  - unfold step. destruct (Z.ltb_spec dig 18); [lia|]. do 3 eexists. split; [reflexivity|]. split; [exact HI|lia].
Qed.
Lemma run_inv ds : forall m dig ofs, dinv m dig -> Forall digit ds ->
  exists m' dig' ofs', run ds (m, dig, ofs) = (m', dig', ofs') /\ dinv m' dig' /\ ofs <= ofs' <= ofs + Z.of_nat (length ds).
Proof.
  induction ds as [|c t IH]; intros m dig ofs HI HF; cbn [run fold_left length].
  - do 3 eexists. split; [reflexivity|]. split; [exact HI|lia].
  - inversion HF as [|? ? Hc Ht]; subst.
    destruct (step_inv m dig ofs c HI Hc) as (m1 & d1 & o1 & -> & I1 & O1).
    destruct (IH m1 d1 o1 I1 Ht) as (m2 & d2 & o2 & E & I2 & O2). unfold run in E. rewrite E.
    do 3 eexists. split; [reflexivity|]. split; [exact I2|lia].
Qed.
Lemma run_small ds : forall m dig ofs, dinv m dig -> Forall digit ds -> numfrom m ds < 10 ^ 18 ->
  exists dig', run ds (m, dig, ofs) = (numfrom m ds, dig', ofs) /\ dinv (numfrom m ds) dig'.
Proof.
  induction ds as [|c t IH]; intros m dig ofs HI HF HN; cbn [run fold_left numfrom] in *.
  - eexists. split; [reflexivity|exact HI].
  - inversion HF as [|? ? Hc Ht]; subst. pose proof (dinv_bound m dig HI). unfold digit in Hc.
    pose proof (numfrom_ge t (10 * m + (c - 48)) ltac:(lia) Ht) as HG. unfold numfrom in HG.
    assert (Hd : dig < 18) by (apply (dinv_lt m dig HI); lia).
    destruct (step_small m dig ofs c HI Hc Hd) as (d1 & -> & I1).
    destruct (IH (10 * m + (c - 48)) d1 ofs I1 Ht HN) as (d2 & E & I2). unfold run, numfrom in E, I2. rewrite E.
    eexists. split; [reflexivity|exact I2].
Qed.

Lemma mant_digits len ds rest : forall i dot m dig ofs, Forall digit ds ->
  mant_loop len (ds ++ rest) i dot m dig ofs =
  let '(m', dig', ofs') := run ds (m, dig, ofs) in mant_loop len rest (i + Z.of_nat (length ds)) dot m' dig' ofs'.
Proof.
  induction ds as [|c t IH]; intros i dot m dig ofs HF.
  - cbn [run fold_left app length]. f_equal. lia.
  - inversion HF as [|? ? Hc Ht]; subst. unfold digit in Hc. cbn [app mant_loop run fold_left length].
    destruct (Z.eqb_spec c 46); [lia|]. destruct (Z.ltb_spec c 48); [lia|]. destruct (Z.ltb_spec 57 c); [lia|]. cbn [orb].
    unfold step at 2. replace (i + Z.of_nat (S (length t))) with (i + 1 + Z.of_nat (length t)) by lia.
    destruct (dig <? 18); cbv zeta; rewrite IH by exact Ht; reflexivity.
Qed.
Definition stops (rest : list Z) : Prop := match rest with [] => True | c :: _ => c <> 46 /\ ~ digit c end.
Lemma mant_stop len rest i dot m dig ofs : stops rest -> mant_loop len rest i dot m dig ofs = Some (rest, i, dot, m, dig, ofs).
Proof.
  destruct rest as [|c t]; cbn [mant_loop stops]; [reflexivity|]. unfold digit. intros [H1 H2].
  destruct (Z.eqb_spec c 46); [lia|]. destruct (Z.ltb_spec c 48); [reflexivity|]. destruct (Z.ltb_spec 57 c); [reflexivity|lia].
Qed.
Lemma exp_stops te x : exponent_text te x -> stops te.
Proof. intros H. destruct H as [|c ds Hc|c ds Hc|c ds Hc]; cbn; [exact I|unfold digit; lia..]. Qed.

(** ** Exponent *)
Lemma exp_digits_ok ds : forall e, 0 <= e < 2 ^ 29 -> Forall digit ds ->
  exists e', exp_loop ds e = Ok (Some e') /\ 0 <= e' < 2 ^ 29 /\
    (e' = numfrom e ds \/ (2 ^ 25 <= e' /\ 2 ^ 25 <= numfrom e ds)).
Proof.
  induction ds as [|c t IH]; intros e He HF; cbn [exp_loop numfrom fold_left].
  - exists e. auto.
  - inversion HF as [|? ? Hc Ht]; subst. unfold digit in Hc.
    destruct (Z.ltb_spec c 48); [lia|]. destruct (Z.ltb_spec 57 c); [lia|]. cbn [orb].
    destruct (Z.ltb_spec e (2 ^ 25)).
    + unfold i32. destruct (Z.leb_spec (- 2 ^ 31) (10 * e + (c - 48))); [|lia].
      destruct (Z.ltb_spec (10 * e + (c - 48)) (2 ^ 31)); [|lia]. cbn [andb bind].
      destruct (IH (10 * e + (c - 48)) ltac:(lia) Ht) as (e' & G1 & G2 & G3). exists e'. auto.
    + destruct (IH e He Ht) as (e' & G1 & G2 & G3). exists e'. split; [exact G1|]. split; [exact G2|].
      right. assert (HG : 10 * e + (c - 48) <= numfrom (10 * e + (c - 48)) t) by (apply numfrom_ge; [lia|exact Ht]).
      unfold numfrom in HG. split; [|lia].
      destruct G3 as [->|]; [|lia]. assert (e <= numfrom e t) by (apply numfrom_ge; [lia|exact Ht]). lia.
Qed.
Lemma exp_ok len te x i : exponent_text te x -> i = len - Z.of_nat (length te) ->
  exists sg e' eI, exp_part len te i = Ok (Some (sg, e', eI)) /\ eI = i /\ 0 <= e' < 2 ^ 29 /\
    (x = (if sg : bool then - e' else e') \/ (2 ^ 25 <= e' /\ 2 ^ 25 <= (if sg then - x else x))).
Proof.
  intros HT Hi. destruct HT as [|c ds Hc Hne HF|c ds Hc Hne HF|c ds Hc Hne HF]; cbn [exp_part].
  - cbn in Hi. exists false, 0, len. split; [reflexivity|]. lia.
  - assert (Ec : (c =? 101) || (c =? 69) = true) by lia. rewrite Ec.
    destruct ds as [|d t]; [congruence|]. pose proof HF as HF'. inversion HF as [|? ? Hd Ht]; subst. unfold digit in Hd.
    destruct (Z.eqb_spec d 45); [lia|]. destruct (Z.eqb_spec d 43); [lia|]. cbn [orb].
    destruct (exp_digits_ok (d :: t) 0 ltac:(lia) HF') as (e' & H1 & H2 & H3). rewrite H1. cbn [bind].
    do 3 eexists. split; [reflexivity|]. split; [reflexivity|]. split; [lia|]. cbn match. change (number (d :: t)) with (numfrom 0 (d :: t)). destruct H3 as [->|]; auto.
  - assert (Ec : (c =? 101) || (c =? 69) = true) by lia. rewrite Ec. change (43 =? 45) with false. change (43 =? 43) with true. cbn [orb].
    destruct ds as [|d t]; [congruence|].
    destruct (exp_digits_ok (d :: t) 0 ltac:(lia) HF) as (e' & H1 & H2 & H3). rewrite H1. cbn [bind].
    do 3 eexists. split; [reflexivity|]. split; [reflexivity|]. split; [lia|]. cbn match. change (number (d :: t)) with (numfrom 0 (d :: t)). destruct H3 as [->|]; auto.
  - assert (Ec : (c =? 101) || (c =? 69) = true) by lia. rewrite Ec. change (45 =? 45) with true. cbn [orb].
    destruct ds as [|d t]; [congruence|].
    destruct (exp_digits_ok (d :: t) 0 ltac:(lia) HF) as (e' & H1 & H2 & H3). rewrite H1. cbn [bind].
    do 3 eexists. split; [reflexivity|]. split; [reflexivity|]. split; [lia|]. cbn match.
    rewrite Z.opp_involutive. destruct H3 as [->|]; [left; reflexivity|right; assumption].
Qed.

(** ** What the whole parser does on a numeral *)
Lemma numeral_parse t neg m e : numeral t neg m e -> Z.of_nat (length t) < 2 ^ 20 ->
  exists m10 dig e10, dinv m10 dig /\ - 2 ^ 30 <= e10 < 2 ^ 30 /\
    s2d_n t = (do r <- convert neg m10 dig e10; Ok (Some r)) /\
    (m < 10 ^ 18 -> m10 = m /\ (e10 = e \/ (310 <= e10 /\ 310 <= e) \/ (e10 <= -500 /\ e <= -500))).
Proof.
  intros (tm & te & ds & f & x & Et & HM & HE & Em & Ee) HL.
  assert (HM1 : exists c0 tl, tm = c0 :: tl /\ c0 <> 45 /\ Z.of_nat (length tm) >= 1).
  { destruct HM as [ds Hne HF|a b Hne Ha Hb].
    - destruct ds as [|c tl]; [congruence|]. inversion HF as [|? ? Hc ?]; subst. unfold digit in Hc.
      exists c, tl. cbn [length]. repeat split; lia.
    - destruct a as [|c tl].
      + exists 46, b. cbn [app length]. repeat split; lia.
      + inversion Ha as [|? ? Hc ?]; subst. unfold digit in Hc. exists c, (tl ++ 46 :: b). cbn [app length]. repeat split; lia. }
  destruct HM1 as (c0 & tl & Etm & Hc0 & Hlen).
  set (len := Z.of_nat (length t)) in *. set (i1 := if neg then 1 else 0 : Z).
  assert (ES : s2d_n t =
    match mant_loop len (tm ++ te) i1 len 0 0 0 with
    | None => Ok None
    | Some (rest, i, dot, m10, dig, ofs) =>
      if (i - i1 <=? 1) && ((i =? i1) || (i1 =? dot)) then Ok None
      else
        do ex <- exp_part len rest i;
        match ex with
        | None => Ok None
        | Some (signedE, e, eIndex) =>
          do e10 <- i32 ((if signedE then - e else e) + ofs);
          do e10 <- i32 (e10 - (if dot <? eIndex then eIndex - dot - 1 else 0));
          do r <- convert neg m10 dig e10; Ok (Some r)
        end
    end).
  { unfold len, i1. rewrite Et. destruct neg.
    - cbn [app s2d_n]. change (45 =? 45) with true. cbn match. reflexivity.
    - cbn [app]. rewrite Etm. cbn [app s2d_n]. destruct (Z.eqb_spec c0 45); [lia|]. reflexivity. }
  rewrite ES. clear ES.
  assert (Hlt : len = i1 + Z.of_nat (length tm) + Z.of_nat (length te)).
  { unfold len, i1. rewrite Et, !app_length. destruct neg; cbn [length]; lia. }
  assert (Hi1 : 0 <= i1) by (unfold i1; destruct neg; lia).
  pose proof (exp_stops te x HE) as Hst.
  assert (D0 : dinv 0 0) by (left; auto).
  (* mantissa *)
  assert (MM : exists m10 dig ofs dot, dinv m10 dig /\ 0 <= ofs <= Z.of_nat (length tm) /\
     mant_loop len (tm ++ te) i1 len 0 0 0 = Some (te, i1 + Z.of_nat (length tm), dot, m10, dig, ofs) /\
     (if dot <? i1 + Z.of_nat (length tm) then i1 + Z.of_nat (length tm) - dot - 1 else 0) = f /\ 0 <= f <= Z.of_nat (length tm) /\
     (Z.of_nat (length tm) <= 1 -> dot = len) /\ (m < 10 ^ 18 -> m10 = m /\ ofs = 0)).
  { destruct HM as [ds Hne HF|a b Hne Ha Hb].
    - destruct (run_inv ds 0 0 0 D0 HF) as (m1 & d1 & o1 & ER & I1 & O1).
      exists m1, d1, o1, len. split; [exact I1|]. split; [lia|]. split.
      { rewrite mant_digits by exact HF. rewrite ER. rewrite mant_stop by exact Hst. reflexivity. }
      split; [destruct (Z.ltb_spec len (i1 + Z.of_nat (length ds))); lia|]. split; [lia|]. split; [reflexivity|].
      intros Hm. destruct (run_small ds 0 0 0 D0 HF) as (d2 & ER2 & I2); [unfold numfrom; unfold number in Em; lia|].
      rewrite ER in ER2. injection ER2 as -> _ ->. split; [symmetry; exact Em|reflexivity].
    - destruct (run_inv a 0 0 0 D0 Ha) as (m1 & d1 & o1 & ER & I1 & O1).
      destruct (run_inv b m1 d1 o1 I1 Hb) as (m2 & d2 & o2 & ER2 & I2 & O2).
      rewrite app_length in *. cbn [length] in *.
      exists m2, d2, o2, (i1 + Z.of_nat (length a)). split; [exact I2|]. split; [lia|]. split.
      { rewrite <- app_assoc. cbn [app]. rewrite mant_digits by exact Ha. rewrite ER. cbn [mant_loop].
        change (46 =? 46) with true. cbn match. rewrite Z.eqb_refl. cbn [negb].
        rewrite mant_digits by exact Hb. rewrite ER2. rewrite mant_stop by exact Hst.
        do 6 f_equal. lia. }
      split; [destruct (Z.ltb_spec (i1 + Z.of_nat (length a)) (i1 + Z.of_nat (length a + S (length b)))); lia|].
      split; [lia|]. split.
      { intros Hc. destruct a, b; cbn [length app] in *; try lia; congruence. }
      intros Hm. rewrite Em in Hm. unfold number in Hm. change (numfrom 0 (a ++ b) < 10 ^ 18) in Hm.
      pose proof Hm as Hm'. rewrite numfrom_app in Hm.
      assert (Ha18 : numfrom 0 a < 10 ^ 18).
      { eapply Z.le_lt_trans; [|exact Hm]. apply numfrom_ge; [|exact Hb]. apply (numfrom_ge a 0 ltac:(lia) Ha). }
      destruct (run_small a 0 0 0 D0 Ha Ha18) as (d3 & ER3 & I3). rewrite ER in ER3. injection ER3 as -> -> ->.
      destruct (run_small b (numfrom 0 a) d3 0 I3 Hb Hm) as (d4 & ER4 & I4). rewrite ER2 in ER4. injection ER4 as -> -> ->.
      split; [|reflexivity]. rewrite <- numfrom_app. symmetry. exact Em. }
  destruct MM as (m10 & dig & ofs & dot & I1 & O1 & EM & EF & HF & HD & HS). rewrite EM.
  set (i := i1 + Z.of_nat (length tm)) in *.
  assert (C : (i - i1 <=? 1) && ((i =? i1) || (i1 =? dot)) = false).
  { destruct (Z.leb_spec (i - i1) 1); [|reflexivity]. cbn [andb].
    destruct (Z.eqb_spec i i1); [unfold i in *; lia|]. cbn [orb].
    destruct (Z.eqb_spec i1 dot); [|reflexivity]. rewrite HD in * by (unfold i in *; lia). lia. }
  rewrite C. clear C.
  destruct (exp_ok len te x i HE ltac:(unfold i; lia)) as (sg & e' & eI & EX & -> & He' & Hx). rewrite EX. cbn [bind].
  assert (Hlen20 : Z.of_nat (length tm) < 2 ^ 20) by lia.
  unfold i32 at 1. set (se := if sg then - e' else e') in *.
  assert (Hse : - 2 ^ 29 < se < 2 ^ 29) by (unfold se; destruct sg; lia).
  destruct (Z.leb_spec (- 2 ^ 31) (se + ofs)); [|lia]. destruct (Z.ltb_spec (se + ofs) (2 ^ 31)); [|lia]. cbn [andb bind].
  rewrite EF. unfold i32. destruct (Z.leb_spec (- 2 ^ 31) (se + ofs - f)); [|lia].
  destruct (Z.ltb_spec (se + ofs - f) (2 ^ 31)); [|lia]. cbn [andb bind].
  exists m10, dig, (se + ofs - f). split; [exact I1|]. split; [lia|]. split; [reflexivity|].
  intros Hm. destruct (HS Hm) as [-> ->]. split; [reflexivity|].
  destruct Hx as [->|[Hx1 Hx2]]; [left; lia|]. right. unfold se in *. destruct sg; [right|left]; lia.
Qed.

(** ** Safety of the conversion for all digits kept by the parser *)
Lemma assemble_safe s m2 e2 tz : 2 ^ 53 <= m2 < 2 ^ 55 -> -1133 <= e2 <= 2000 ->
  exists w, assemble s m2 e2 tz = Ok (with_sign s w) /\ 0 <= w <= inf_bits.
Proof.
  intros Hm He. destruct tz.
  - assert (T : true = true <-> m2 mod 1 = 0) by (rewrite Z.mod_1_r; tauto).
    destruct (assemble_ok s m2 1 m2 e2 true ltac:(lia) ltac:(lia) (eq_sym (Z.div_1_r m2)) T Hm He) as (w & Hw & HR).
    exists w. split; [exact Hw|]. apply (HR (e2 + 1074 + 2000) 2000); lia.
  - assert (T : false = true <-> (2 * m2 + 1) mod 2 = 0) by (split; [discriminate|lia]).
    destruct (assemble_ok s (2 * m2 + 1) 2 m2 e2 false ltac:(lia) ltac:(lia) ltac:(lia) T Hm He) as (w & Hw & HR).
    exists w. split; [exact Hw|]. apply (HR (e2 + 1074 + 2000) 2000); lia.
Qed.

Lemma wide_prod m b T : 0 <= b <= 59 -> 2 ^ b <= m < 2 ^ (b + 1) -> 2 ^ 124 <= T <= 2 ^ 125 ->
  2 ^ 53 <= m * T / 2 ^ (b + 71) < 2 ^ 55.
Proof.
  intros Hb Hm HT. assert (0 < 2 ^ (b + 71)) by (apply Z.pow_pos_nonneg; lia).
  assert (0 < 2 ^ b) by (apply Z.pow_pos_nonneg; lia).
  split; [apply Z.div_le_lower_bound; [lia|]|apply Z.div_lt_upper_bound; [lia|]].
  - apply Z.le_trans with (2 ^ b * 2 ^ 124); [|apply Z.mul_le_mono_nonneg; lia].
    rewrite <- !Z.pow_add_r by lia. apply Z.pow_le_mono_r; lia.
  - apply Z.le_lt_trans with (m * 2 ^ 125); [apply Z.mul_le_mono_nonneg_l; lia|].
    apply Z.lt_le_trans with (2 ^ (b + 1) * 2 ^ 125); [apply Z.mul_lt_mono_pos_r; lia|].
    rewrite <- !Z.pow_add_r by lia. apply Z.pow_le_mono_r; lia.
Qed.

Definition chk_tab (z : Z) (e : Z) (mul : Z * Z) : bool :=
  (e <? z) || (wordsb mul && (2 ^ 124 <=? tab mul) && (tab mul <=? 2 ^ 125)).
Lemma all_tab_pos : allfrom (chk_tab 0) 0 pow5_split = true.
Proof. vm_cast_no_check (eq_refl true). Qed.
Lemma all_tab_inv : allfrom (chk_tab 1) 0 pow5_inv_split = true.
Proof. vm_cast_no_check (eq_refl true). Qed.
Lemma allfrom_nth {A} (f : Z -> A -> bool) l : forall i, allfrom f i l = true ->
  forall k c, nth_error l k = Some c -> f (i + Z.of_nat k) c = true.
Proof.
  induction l as [|a t IH]; intros i H k c Hk; [destruct k; discriminate|].
  cbn [allfrom] in H. apply andb_prop in H as [H1 H2]. destruct k as [|k].
  - injection Hk as <-. rewrite Z.add_0_r. exact H1.
  - replace (i + Z.of_nat (S k)) with (i + 1 + Z.of_nat k) by lia. apply (IH (i + 1) H2 k c Hk).
Qed.
Lemma entry_facts z t e mul : allfrom (chk_tab z) 0 t = true -> entry t e = Ok mul -> z <= e ->
  wordsb mul = true /\ 2 ^ 124 <= tab mul <= 2 ^ 125.
Proof.
  intros HA H Hz. unfold entry in H. destruct (Z.ltb_spec e 0); [discriminate|]. unfold rd in H.
  destruct (nth_error t (Z.to_nat e)) as [p|] eqn:E; [|discriminate]. injection H as ->.
  pose proof (allfrom_nth _ _ _ HA _ _ E) as HC. unfold chk_tab in HC.
  destruct (Z.ltb_spec (0 + Z.of_nat (Z.to_nat e)) z); [lia|]. cbn [orb] in HC.
  rewrite !andb_true_iff, !Z.leb_le in HC. tauto.
Qed.

Theorem convert_safe s m dig e : dinv m dig ->
  exists w, convert s m dig e = Ok (with_sign s w) /\ 0 <= w <= inf_bits.
Proof.
  intros HI. unfold convert.
  destruct (Z.eqb_spec m 0) as [|Hm0]; [exists 0; split; [reflexivity|unfold inf_bits; lia]|].
  destruct (Z.leb_spec (dig + e) (-324)) as [|Hlo]; [exists 0; split; [reflexivity|unfold inf_bits; lia]|].
  destruct (Z.leb_spec 310 (dig + e)) as [|Hhi]; [exists inf_bits; split; [reflexivity|unfold inf_bits; lia]|].
  destruct HI as [[-> ->]|[Hd Hdm]]; [lia|].
  assert (0 < 10 ^ (dig - 1)) by (apply Z.pow_pos_nonneg; lia).
  assert (Hm60 : m < 2 ^ 60).
  { assert (10 ^ dig <= 10 ^ 18) by (apply Z.pow_le_mono_r; lia). assert (10 ^ 18 < 2 ^ 60) by (vm_compute; reflexivity). lia. }
  pose proof (Z.log2_spec m ltac:(lia)) as Hlog. rewrite <- Z.add_1_r in Hlog.
  assert (Hb : 0 <= Z.log2 m <= 59).
  { split; [apply Z.log2_nonneg|]. assert (Z.log2 m < 60) by (apply Z.log2_lt_pow2; lia). lia. }
  unfold floor_log2. destruct (Z.eqb_spec m 0) as [|_]; [lia|].
  set (b := Z.log2 m) in *. clearbody b. cbn [bind].
  destruct (Z.leb_spec 0 e) as [He|He].
  - destruct (ppos_exact e ltac:(lia)) as (mul & Hmul & HL & HP & _).
    destruct (entry_facts _ _ _ _ all_tab_pos Hmul ltac:(lia)) as [HW HT]. rewrite Hmul.
    set (L := log2pow5 e) in *. unfold ceil_log2pow5. fold L. clearbody L.
    rewrite to_s32_small by lia. set (e2 := b + e + L - 53).
    replace (e2 - e - (L + 1) + 125) with (b + 71) by (unfold e2; lia). cbn [bind].
    pose proof (wide_prod m b (tab mul) Hb Hlog HT) as HM.
    rewrite mulShift64_ok; [|exact HW|lia|lia|lia]. cbn [bind].
    assert (T : exists tz, (if e2 <? e then Ok true else if e2 - e <? 64 then multipleOfPowerOf2 m (e2 - e) else Ok false) = Ok tz).
    { destruct (Z.ltb_spec e2 e); [eauto|]. destruct (Z.ltb_spec (e2 - e) 64); [|eauto].
      destruct (mult2_ok m (e2 - e) ltac:(lia)) as (z & Hz1 & _). eauto. }
    destruct T as [tz ->]. cbn [bind]. apply assemble_safe; [exact HM|unfold e2; lia].
  - remember (- e) as n eqn:En. assert (e = - n) by lia. subst e. clear En.
    destruct (pneg_exact n ltac:(lia)) as (mul & Hmul & HL & HP & _).
    destruct (entry_facts _ _ _ _ all_tab_inv Hmul ltac:(lia)) as [HW HT]. rewrite Hmul.
    set (L := log2pow5 n) in *. unfold ceil_log2pow5. fold L. clearbody L.
    rewrite to_s32_small by lia. set (e2 := b + - n - (L + 1) - 53).
    replace (e2 - - n + (L + 1) - 1 + 125) with (b + 71) by (unfold e2; lia). cbn [bind].
    pose proof (wide_prod m b (tab mul) Hb Hlog HT) as HM.
    rewrite mulShift64_ok; [|exact HW|lia|lia|lia]. cbn [bind].
    destruct (mult5_ok m n ltac:(lia) ltac:(lia)) as (tz & HZ & _). rewrite HZ. cbn [bind].
    apply assemble_safe; [exact HM|]. split; [|unfold e2; lia].
    destruct (Z.le_gt_cases (-1133) e2) as [|Hc]; [assumption|exfalso].
    assert (X1 : 2 ^ (b + 1080) <= 10 ^ n).
    { change 10 with (2 * 5). rewrite Z.pow_mul_l.
      apply Z.le_trans with (2 ^ n * 2 ^ L); [|apply Z.mul_le_mono_nonneg_l; [apply Z.pow_nonneg|]; lia].
      rewrite <- Z.pow_add_r by lia. apply Z.pow_le_mono_r; [lia|]. unfold e2 in Hc. lia. }
    assert (X2 : 10 ^ n <= m * 10 ^ 324).
    { apply Z.le_trans with (10 ^ (dig - 1) * 10 ^ 324).
      - rewrite <- Z.pow_add_r by lia. apply Z.pow_le_mono_r; lia.
      - apply Z.mul_le_mono_nonneg_r; [apply Z.pow_nonneg; lia|apply Hdm]. }
    assert (X3 : 10 ^ 324 < 2 ^ 1079) by (vm_compute; reflexivity).
    set (P := 10 ^ 324) in *. set (Q := 2 ^ 1079) in *.
    assert (0 <= P) by (apply Z.pow_nonneg; lia).
    assert (X4 : m * P < 2 ^ (b + 1) * Q).
    { apply Z.le_lt_trans with (m * Q); [apply Z.mul_le_mono_nonneg_l; [lia|apply Z.lt_le_incl; exact X3]|].
      apply Z.mul_lt_mono_pos_r; [|apply Hlog]. eapply Z.le_lt_trans; [|exact X3]. assumption. }
    unfold Q in X4. rewrite <- Z.pow_add_r in X4; [|lia|lia]. replace (b + 1 + 1079) with (b + 1080) in X4 by lia. lia.
Qed.

(** ** Which texts are taken *)
Lemma mant_inv len : forall l i m dig ofs rest i' dot' m' dig' ofs',
  len = i + Z.of_nat (length l) ->
  mant_loop len l i len m dig ofs = Some (rest, i', dot', m', dig', ofs') ->
  exists a, Forall digit a /\
    ((l = a ++ rest /\ i' = i + Z.of_nat (length a) /\ dot' = len) \/
     exists b, Forall digit b /\ l = a ++ 46 :: b ++ rest /\ i' = i + Z.of_nat (length a) + 1 + Z.of_nat (length b) /\
               dot' = i + Z.of_nat (length a)).
Proof.
  assert (N : forall l i dot m dig ofs rest i' dot' m' dig' ofs', dot <> len ->
    mant_loop len l i dot m dig ofs = Some (rest, i', dot', m', dig', ofs') ->
    exists b, Forall digit b /\ l = b ++ rest /\ i' = i + Z.of_nat (length b) /\ dot' = dot).
  { induction l as [|c t IH]; intros i dot m dig ofs rest i' dot' m' dig' ofs' Hd H; cbn [mant_loop] in H.
    - injection H as <- <- <- _ _ _. exists []. cbn. repeat split; auto; lia.
    - destruct (Z.eqb_spec c 46).
      + destruct (Z.eqb_spec dot len); [congruence|]. discriminate.
      + destruct (Z.ltb_spec c 48); cbn [orb] in H; [injection H as <- <- <- _ _ _; exists []; cbn; repeat split; auto; lia|].
        destruct (Z.ltb_spec 57 c); [injection H as <- <- <- _ _ _; exists []; cbn; repeat split; auto; lia|].
        assert (HH : exists m1 d1 o1, mant_loop len t (i + 1) dot m1 d1 o1 = Some (rest, i', dot', m', dig', ofs')).
        { destruct (dig <? 18); eauto. }
        destruct HH as (m1 & d1 & o1 & HH). destruct (IH _ _ _ _ _ _ _ _ _ _ _ Hd HH) as (b & Hb & -> & -> & ->).
        exists (c :: b). cbn [app length]. split; [constructor; [unfold digit; lia|exact Hb]|]. split; [reflexivity|]. split; [lia|reflexivity]. }
  induction l as [|c t IH]; intros i m dig ofs rest i' dot' m' dig' ofs' HL H; cbn [mant_loop] in H; cbn [length] in HL.
  - injection H as <- <- <- _ _ _. exists []. split; [constructor|]. left. cbn. repeat split; lia.
  - destruct (Z.eqb_spec c 46).
    + rewrite Z.eqb_refl in H. cbn [negb] in H.
      assert (Hne : i <> len) by lia.
      destruct (N _ _ _ _ _ _ _ _ _ _ _ _ Hne H) as (b & Hb & -> & -> & ->).
      exists []. split; [constructor|]. right. exists b. subst c. cbn [app length]. repeat split; auto; lia.
    + destruct (Z.ltb_spec c 48); cbn [orb] in H.
      { injection H as <- <- <- _ _ _. exists []. split; [constructor|]. left. cbn [length app]. repeat split; lia. }
      destruct (Z.ltb_spec 57 c).
      { injection H as <- <- <- _ _ _. exists []. split; [constructor|]. left. cbn [length app]. repeat split; lia. }
      assert (HH : exists m1 d1 o1, mant_loop len t (i + 1) len m1 d1 o1 = Some (rest, i', dot', m', dig', ofs')).
      { destruct (dig <? 18); eauto. }
      destruct HH as (m1 & d1 & o1 & HH).
      assert (HL' : len = i + 1 + Z.of_nat (length t)) by lia.
      destruct (IH _ _ _ _ _ _ _ _ _ _ HL' HH) as (a & Ha & HC).
      exists (c :: a). split; [constructor; [unfold digit; lia|exact Ha]|].
      destruct HC as [(-> & -> & ->)|(b & Hb & -> & -> & ->)]; [left|right; exists b]; cbn [app length]; repeat split; auto; lia.
Qed.
Lemma exp_loop_inv l : forall e r, exp_loop l e = Ok (Some r) -> Forall digit l.
Proof.
  induction l as [|c t IH]; intros e r H; cbn [exp_loop] in H; [constructor|].
  destruct (Z.ltb_spec c 48); cbn [orb] in H; [discriminate|]. destruct (Z.ltb_spec 57 c); [discriminate|].
  constructor; [unfold digit; lia|]. destruct (e <? 2 ^ 25); [|eauto].
  destruct (i32 (10 * e + (c - 48))) as [e1| |]; cbn [bind] in H; try discriminate. eauto.
Qed.
Lemma exp_part_inv len l i r : exp_part len l i = Ok (Some r) -> exists x, exponent_text l x.
Proof.
  destruct l as [|c t]; cbn [exp_part]; [intros _; eexists; constructor|].
  destruct ((c =? 101) || (c =? 69)) eqn:Ec; [|discriminate].
  assert (Hc : c = 101 \/ c = 69) by lia.
  destruct t as [|d t]; [discriminate|].
  destruct ((d =? 45) || (d =? 43)) eqn:Ed.
  - destruct t as [|d2 t]; [discriminate|]. intros H.
    destruct (exp_loop (d2 :: t) 0) as [[e|]| |] eqn:EL; cbn [bind] in H; try discriminate.
    apply exp_loop_inv in EL. destruct (Z.eqb_spec d 45) as [->|].
    + eexists. apply exp_minus; [exact Hc|discriminate|exact EL].
    + assert (d = 43) by lia. subst d. eexists. apply exp_plus; [exact Hc|discriminate|exact EL].
  - intros H. destruct (exp_loop (d :: t) 0) as [[e|]| |] eqn:EL; cbn [bind] in H; try discriminate.
    apply exp_loop_inv in EL. eexists. apply exp_plain; [exact Hc|discriminate|exact EL].
Qed.
Lemma parse_numeral t w : s2d_n t = Ok (Some w) -> exists neg m e, numeral t neg m e.
Proof.
  unfold s2d_n. destruct t as [|c0 t0]; [discriminate|]. set (t := c0 :: t0).
  set (neg := c0 =? 45). set (body := if neg then t0 else t).
  assert (Et : t = (if neg then [45] else []) ++ body).
  { unfold body, neg, t. destruct (Z.eqb_spec c0 45) as [->|]; reflexivity. }
  set (i1 := if neg then 1 else 0 : Z). set (len := Z.of_nat (length t)).
  assert (HL : len = i1 + Z.of_nat (length body)).
  { unfold len, i1. rewrite Et. destruct neg; cbn [app length]; lia. }
  clearbody body i1 len. clearbody t.
  destruct (mant_loop len body i1 len 0 0 0) as [[[[[[rest i] dot] m10] dig] ofs]|] eqn:EM; [|discriminate].
  destruct ((i - i1 <=? 1) && ((i =? i1) || (i1 =? dot))) eqn:EC; [discriminate|].
  intros H. destruct (exp_part len rest i) as [[[[sg e] eI]|]| |] eqn:EX; cbn [bind] in H; try discriminate.
  apply exp_part_inv in EX as [x HX].
  destruct (mant_inv len _ _ _ _ _ _ _ _ _ _ _ HL EM) as (a & Ha & [(Eb & Ei & Edot)|(b & Hb & Eb & Ei & Edot)]).
  - exists neg. do 2 eexists. exists a, rest, a, 0, x. split; [rewrite Et, Eb; reflexivity|].
    split; [|split; [exact HX|split; reflexivity]]. constructor; [|exact Ha]. intros ->. cbn [length] in Ei. lia.
  - exists neg. do 2 eexists. exists (a ++ 46 :: b), rest, (a ++ b), (Z.of_nat (length b)), x.
    split; [rewrite Et, Eb, <- app_assoc; reflexivity|].
    split; [|split; [exact HX|split; reflexivity]]. constructor; [|exact Ha|exact Hb].
    intros E. apply app_eq_nil in E as [-> ->]. cbn [length] in *. lia.
Qed.
(** ** The parser never runs into undefined behaviour *)
Lemma mant_dinv len l : forall i dot m dig ofs rest i' dot' m' dig' ofs', dinv m dig -> 0 <= i -> 0 <= dot ->
  mant_loop len l i dot m dig ofs = Some (rest, i', dot', m', dig', ofs') ->
  dinv m' dig' /\ ofs <= ofs' <= ofs + Z.of_nat (length l) /\ i <= i' <= i + Z.of_nat (length l) /\ 0 <= dot'.
Proof.
  induction l as [|c t IH]; intros i dot m dig ofs rest i' dot' m' dig' ofs' HI Hi Hdot H; cbn [mant_loop] in H; cbn [length].
  - injection H as <- <- <- <- <- <-. split; [exact HI|lia].
  - destruct (Z.eqb_spec c 46).
    + destruct (negb (dot =? len)); [discriminate|]. assert (Hi1 : 0 <= i + 1) by lia.
      destruct (IH _ _ _ _ _ _ _ _ _ _ _ HI Hi1 Hi H). split; [assumption|lia].
    + destruct (Z.ltb_spec c 48); cbn [orb] in H; [injection H as <- <- <- <- <- <-; split; [exact HI|lia]|].
      destruct (Z.ltb_spec 57 c); [injection H as <- <- <- <- <- <-; split; [exact HI|lia]|].
      destruct (step_inv m dig ofs c HI ltac:(unfold digit; lia)) as (m1 & d1 & o1 & ES & I1 & O1). unfold step in ES.
      destruct (dig <? 18); cbv zeta in ES; injection ES as <- <- <-;
        (assert (Hi1 : 0 <= i + 1) by lia; destruct (IH _ _ _ _ _ _ _ _ _ _ _ I1 Hi1 Hdot H); split; [assumption|lia]).
Qed.
Lemma exp_safe l : forall e, 0 <= e < 2 ^ 29 -> exp_loop l e = Ok None \/ exists e', exp_loop l e = Ok (Some e') /\ 0 <= e' < 2 ^ 29.
Proof.
  induction l as [|c t IH]; intros e He; cbn [exp_loop]; [eauto|].
  destruct (Z.ltb_spec c 48); cbn [orb]; [auto|]. destruct (Z.ltb_spec 57 c); [auto|].
  destruct (Z.ltb_spec e (2 ^ 25)); [|apply IH; exact He].
  unfold i32. destruct (Z.leb_spec (- 2 ^ 31) (10 * e + (c - 48))); [|lia].
  destruct (Z.ltb_spec (10 * e + (c - 48)) (2 ^ 31)); [|lia]. cbn [andb bind]. apply IH. lia.
Qed.
Lemma exp_part_safe len l i : 0 <= i <= len -> exp_part len l i = Ok None \/
  exists sg e eI, exp_part len l i = Ok (Some (sg, e, eI)) /\ 0 <= e < 2 ^ 29 /\ 0 <= eI <= len.
Proof.
  intros Hi. destruct l as [|c t]; cbn [exp_part]; [right; do 3 eexists; split; [reflexivity|lia]|].
  destruct ((c =? 101) || (c =? 69)); [|auto].
  destruct (match t with d :: t' => if (d =? 45) || (d =? 43) then (d =? 45, t') else (false, t) | [] => (false, t) end) as [sg t2].
  destruct t2 as [|d t2]; [auto|].
  destruct (exp_safe (d :: t2) 0 ltac:(lia)) as [->|(e & -> & He)]; cbn [bind]; [auto|].
  right. do 3 eexists. split; [reflexivity|]. lia.
Qed.
Lemma s2d_safe t : t <> [] -> Z.of_nat (length t) < 2 ^ 20 -> exists r, s2d_n t = Ok r.
Proof.
  intros Hne Hlen. unfold s2d_n. destruct t as [|c0 t0]; [congruence|].
  set (t := c0 :: t0) in *. set (neg := c0 =? 45). set (body := if neg then t0 else t).
  assert (Hb : (length body <= length t)%nat) by (unfold body, t; destruct neg; cbn [length]; lia).
  set (i1 := if neg then 1 else 0 : Z). set (len := Z.of_nat (length t)) in *.
  assert (HL : len = i1 + Z.of_nat (length body)) by (unfold len, i1, body, t; destruct neg; cbn [length]; lia).
  assert (Hi1 : 0 <= i1 <= 1) by (unfold i1; destruct neg; lia).
  clearbody body i1 t.
  destruct (mant_loop len body i1 len 0 0 0) as [[[[[[rest i] dot] m10] dig] ofs]|] eqn:EM; [|eauto].
  assert (D0 : dinv 0 0) by (left; auto). assert (Hl0 : 0 <= len) by lia.
  destruct (mant_dinv len body _ _ _ _ _ _ _ _ _ _ _ D0 (proj1 Hi1) Hl0 EM) as (HI & HO & Hi & Hdot).
  destruct ((i - i1 <=? 1) && ((i =? i1) || (i1 =? dot))); [eauto|].
  destruct (exp_part_safe len rest i ltac:(lia)) as [->|(sg & e & eI & -> & He & HeI)]; cbn [bind]; [eauto|].
  set (se := if sg then - e else e). assert (Hse : - 2 ^ 29 < se < 2 ^ 29) by (unfold se; destruct sg; lia).
  set (fr := if dot <? eI then eI - dot - 1 else 0).
  assert (Hfr : 0 <= fr < 2 ^ 20) by (unfold fr; destruct (Z.ltb_spec dot eI); lia).
  unfold i32 at 1. destruct (Z.leb_spec (- 2 ^ 31) (se + ofs)); [|lia]. destruct (Z.ltb_spec (se + ofs) (2 ^ 31)); [|lia]. cbn [andb bind].
  unfold i32. destruct (Z.leb_spec (- 2 ^ 31) (se + ofs - fr)); [|lia]. destruct (Z.ltb_spec (se + ofs - fr) (2 ^ 31)); [|lia]. cbn [andb bind].
  destruct (convert_safe neg m10 dig (se + ofs - fr) HI) as (w & -> & _). cbn [bind]. eauto.
Qed.
