From Verif Require Import Base BitLemmas BitsModel BitsSpec BitsProof SqueezeModel WidenModel BitopModel BitopSpec BitopProof BitopProof2 BitopProof3.

Lemma sh_eq_iff a : forall b, sh_eq a b = true <-> a = b.
Proof.
  induction a as [|x a IH]; intros [|y b]; cbn [sh_eq]; split; intros H; try reflexivity; try discriminate.
  - apply andb_prop in H. destruct H as [H1 H2]. apply Z.eqb_eq in H1. apply IH in H2. congruence.
  - injection H as -> E. rewrite Z.eqb_refl. apply IH in E. rewrite E. reflexivity.
Qed.
Lemma rowbits_model w sh : (if Z.of_nat (length sh) =? 0 then w else w * last sh 0) = rowbits w sh.
Proof. destruct sh; reflexivity. Qed.
Lemma rowbits_last w sh : sh <> [] -> rowbits w sh = last sh 0 * w.
Proof. destruct sh; [congruence|]. intros _. unfold rowbits. lia. Qed.
Lemma single_len ow w a : pow2 ow -> wf w a -> single ow w (b_sh a) -> 0 < len (b_mem a).
Proof.
  intros P [_ [_ [_ [_ Ht]]]] [L E]. pose proof (pow2_pos _ P) as Ho. unfold total, len in *. assert (size (b_sh a) * w = ow); [|lia].
  destruct (b_sh a) as [|e [|e2 sh]]; cbn [length] in L; [| |lia]; unfold rowbits, size in *; cbn [fold_right last] in *; lia.
Qed.
Lemma alike_total ww xw wsh xsh : length wsh = length xsh -> xsh <> [] -> rowbits ww wsh = rowbits xw xsh -> removelast wsh = removelast xsh -> size wsh * ww = size xsh * xw.
Proof.
  intros L N E R. assert (N2 : wsh <> []) by (intros ->; destruct xsh; [congruence|discriminate]). rewrite (size_split wsh N2), (size_split xsh N), R. rewrite !rowbits_last in E by auto. rewrite <- !Z.mul_assoc. f_equal. exact E.
Qed.

Lemma opw_eq op m ow b : (b = true <-> m = Each) -> (opw op m ow <-> opw_run op b ow).
Proof.
  intros H. unfold opw, opw_run. destruct op, m, b; cbn [num_op is_bitwise]; intuition (try congruence).
Qed.
Lemma prod_fits_comm W a b : prod_fits W a b -> prod_fits W b a.
Proof. unfold prod_fits. rewrite Z.mul_comm. auto. Qed.

Lemma bitop2_ok op f ow rw xw ww junk w x m : given 4 f [ow; rw; xw; ww] -> wf ww w -> wf xw x -> moded m ow ww xw (b_sh w) (b_sh x) ->
  let y := base m w x in let yw := base m ww xw in total yw y < 2^32 ->
  (fitting ow rw yw (b_sh y) -> width (other m ww xw) -> opw op m ow -> products_fit op m ow (total yw y) (b_mem w) (b_mem x) ->
   exists r, bitop2 op f junk w x = Ok r /\ sound rw r /\ b_sh r = reshaped (b_sh y) yw rw /\ combined op m ow (total yw y) (b_mem w) (b_mem x) (b_mem r)) /\
  (~ (fitting ow rw yw (b_sh y) /\ width (other m ww xw) /\ opw op m ow) -> bitop2 op f junk w x = Err).
Proof.
  intros G Hw Hx Hm y yw Ht. unfold bitop2. rewrite (widths_given _ _ _ G). cbn [bind nth]. rewrite !rowbits_model.
  pose proof (given_pow2 _ _ _ 0%nat G ltac:(lia)) as Po. pose proof (given_pow2 _ _ _ 1%nat G ltac:(lia)) as Pr. pose proof (given_pow2 _ _ _ 2%nat G ltac:(lia)) as Px. pose proof (given_pow2 _ _ _ 3%nat G ltac:(lia)) as Pw. cbn [nth] in Po, Pr, Px, Pw.
  destruct (wf_size _ _ Hw) as [_ [_ [Wmw [Lw _]]]]. destruct (wf_size _ _ Hx) as [_ [_ [Wmx [Lx _]]]].
  set (wr := Z.of_nat (length (b_sh w))). set (xr := Z.of_nat (length (b_sh x))).
  assert (NE : forall sh : list Z, sh <> [] -> Z.of_nat (length sh) <> 0) by (intros [|]; cbn [length]; [congruence|lia]).
  assert (NE0 : forall sh : list Z, ~ sh <> [] -> Z.of_nat (length sh) = 0) by (intros [|] HH; cbn [length]; [lia|exfalso; apply HH; congruence]).
  assert (AL : alike ww xw (b_sh w) (b_sh x) \/ ~ alike ww xw (b_sh w) (b_sh x)).
  { unfold alike. destruct (Nat.eq_dec (length (b_sh w)) (length (b_sh x))), (Z.eq_dec (rowbits ww (b_sh w)) (rowbits xw (b_sh x))); tauto. }
  assert (ALm : (wr =? xr) && (rowbits ww (b_sh w) =? rowbits xw (b_sh x)) = true <-> alike ww xw (b_sh w) (b_sh x)).
  { unfold alike. rewrite andb_true_iff, !Z.eqb_eq. unfold wr, xr. intuition lia. }
  destruct m; cbn [moded base other] in *; subst y yw.
  - destruct Hm as [A [Nx R]]. rewrite (proj2 ALm A). destruct A as [A1 A2]. pose proof (NE _ Nx) as N1. fold xr in N1.
    destruct (Z.eqb_spec xr 0); [contradiction|]. rewrite andb_false_r. rewrite (proj2 (sh_eq_iff _ _)) by (symmetry; exact R). rewrite (rowbits_last xw _ Nx).
    destruct (run_ok op true false ow rw xw ww junk w x Po Pr Px Hx Ht Nx Wmw) as [R1 R2]; try discriminate.
    { intros _. unfold total. rewrite <- (alike_total ww xw _ _ A1 Nx A2 R). exact Lw. }
    rewrite <- (opw_eq op Each ow true) in R1, R2 by tauto. split; [|exact R2]. intros F1 F2 F3 F4. destruct (R1 F1 F2 F3) as [r [E1 [E2 [E3 E4]]]]; [exact F4|].
    exists r. split; [exact E1|]. split; [exact E2|]. split; [exact E3|]. unfold binary, wval in E4. unfold combined, wbit, xbit, wpos, xpos.
    destruct op; cbn [is_bitwise bop aop bool_op num_op] in *; (split; intros g Eg; [try discriminate Eg|try discriminate Eg]; injection Eg as <-; exact E4).
  - destruct Hm as [A [[S1 S2] Nx]]. pose proof (NE _ Nx) as N1. fold xr in N1. destruct ((wr =? xr) && _) eqn:EA; [exfalso; apply A, ALm; reflexivity|].
    destruct (Z.eqb_spec xr 0); [contradiction|]. rewrite andb_false_r, orb_false_r. destruct (Z.ltb_spec 1 wr); [unfold wr in *; lia|]. rewrite S2, Z.eqb_refl. cbn [negb orb]. rewrite (rowbits_last xw _ Nx).
    destruct (run_ok op false false ow rw xw ww junk w x Po Pr Px Hx Ht Nx Wmw) as [R1 R2]; try discriminate.
    { intros _. apply (single_len ow ww w Po Hw). split; auto. }
    rewrite <- (opw_eq op ExtW ow false) in R1, R2 by (split; discriminate). split; [|exact R2]. intros F1 F2 F3 F4. destruct (R1 F1 F2 F3) as [r [E1 [E2 [E3 E4]]]]; [exact F4|].
    exists r. split; [exact E1|]. split; [exact E2|]. split; [exact E3|]. unfold binary, wval in E4. unfold combined, wbit, xbit, wpos, xpos.
    destruct op; cbn [is_bitwise bop aop bool_op num_op] in *; (split; intros g Eg; [try discriminate Eg|try discriminate Eg]; injection Eg as <-; exact E4).
  - destruct Hm as [A [B [[S1 S2] Nw]]]. pose proof (NE _ Nw) as N1. fold wr in N1. destruct ((wr =? xr) && (rowbits _ _ =? _)) eqn:EA; [exfalso; apply A, ALm; reflexivity|].
    assert (E0 : (wr =? xr) && (xr =? 0) = false). { destruct (Z.eqb_spec wr xr), (Z.eqb_spec xr 0); try reflexivity. lia. } rewrite E0.
    assert (E1 : (1 <? wr) || negb (rowbits ww (b_sh w) =? ow) || (xr =? 0) = true).
    { destruct (Z.ltb_spec 1 wr) as [|L1]; [reflexivity|]. destruct (Z.eqb_spec (rowbits ww (b_sh w)) ow) as [Q|]; [|reflexivity]. destruct (Z.eqb_spec xr 0) as [|Q2]; [reflexivity|].
      exfalso. apply B. split; [split; [unfold wr in L1; lia|exact Q]|]. intros E. apply Q2. unfold xr. rewrite E. reflexivity. }
    rewrite E1. destruct (Z.ltb_spec 1 xr); [unfold xr in *; lia|]. rewrite S2, Z.eqb_refl. destruct (Z.eqb_spec wr 0); [contradiction|]. cbn [negb orb].
    rewrite (rowbits_last ww _ Nw). set (neg := match op with Sub_ => true | _ => false end). set (op' := if neg then Add_ else op).
    destruct (run_ok op' false neg ow rw ww xw junk x w Po Pr Pw Hw Ht Nw Wmx) as [R1 R2]; try discriminate.
    { intros _. apply (single_len ow xw x Po Hx). split; auto. } { unfold op', neg. destruct op; discriminate || reflexivity. }
    assert (EO : opw_run op' false ow <-> opw op ExtX ow). { rewrite (opw_eq op ExtX ow false) by (split; discriminate). unfold op', neg. destruct op; cbn [is_bitwise opw_run]; tauto. }
    rewrite EO in R1, R2. split; [|exact R2]. intros F1 F2 F3 F4. destruct (R1 F1 F2 F3) as [r [G1 [G2 [G3 G4]]]].
    { intros EM L i Hi. unfold op', neg in *. destruct op; try discriminate. apply prod_fits_comm. exact (F4 eq_refl L i Hi). }
    exists r. split; [exact G1|]. split; [exact G2|]. split; [exact G3|]. unfold binary, wval in G4. unfold combined, wbit, xbit, wpos, xpos. unfold op', neg in G4.
    pose proof (pow2_pos _ Po) as Ho.
    destruct op; cbn [is_bitwise bop aop bool_op num_op] in *; (split; intros g Eg; [try discriminate Eg|try discriminate Eg]; injection Eg as <-).
    + intros p Hp. rewrite G4 by exact Hp. apply andb_comm.
    + intros p Hp. rewrite G4 by exact Hp. apply orb_comm.
    + intros p Hp. rewrite G4 by exact Hp. apply xorb_comm.
    + intros i Hi. rewrite G4 by exact Hi. f_equal. lia.
    + intros i Hi. rewrite G4 by exact Hi. rewrite Zplus_mod_idemp_l. f_equal. lia.
    + intros i Hi. rewrite G4 by exact Hi. f_equal. lia.
Qed.

Lemma bitop2_err op f ow rw xw ww junk w x : given 4 f [ow; rw; xw; ww] -> (forall m, ~ moded m ow ww xw (b_sh w) (b_sh x)) -> bitop2 op f junk w x = Err.
Proof.
  intros G Hm. unfold bitop2. rewrite (widths_given _ _ _ G). cbn [bind nth]. rewrite !rowbits_model.
  set (wr := Z.of_nat (length (b_sh w))). set (xr := Z.of_nat (length (b_sh x))).
  assert (NN : forall sh : list Z, Z.of_nat (length sh) <> 0 -> sh <> []) by (intros [|]; cbn [length]; [lia|congruence]).
  destruct ((wr =? xr) && (xr =? 0)) eqn:E0; [reflexivity|].
  destruct ((wr =? xr) && (rowbits ww (b_sh w) =? rowbits xw (b_sh x))) eqn:E1.
  - apply andb_prop in E1. destruct E1 as [E1 E2]. apply Z.eqb_eq in E1, E2. rewrite E1, Z.eqb_refl in E0. cbn [andb] in E0. apply Z.eqb_neq in E0.
    destruct (sh_eq _ _) eqn:ES; [|reflexivity]. apply sh_eq_iff in ES. exfalso. apply (Hm Each). split; [split; [unfold wr, xr in E1; lia|exact E2]|]. split; [apply NN; exact E0|symmetry; exact ES].
  - assert (NA : ~ alike ww xw (b_sh w) (b_sh x)).
    { intros [A B]. apply andb_false_iff in E1. rewrite !Z.eqb_neq in E1. unfold wr, xr in E1. destruct E1 as [E1|E1]; [rewrite A in E1; lia|contradiction]. }
    destruct ((1 <? wr) || _ || _) eqn:E2.
    + destruct ((1 <? xr) || _ || _) eqn:E3; [reflexivity|]. exfalso. apply orb_false_iff in E3. destruct E3 as [E3 E5]. apply orb_false_iff in E3. destruct E3 as [E3 E4].
      apply Z.ltb_ge in E3. apply negb_false_iff, Z.eqb_eq in E4. apply Z.eqb_neq in E5.
      apply (Hm ExtX). split; [exact NA|]. split; [|split; [split; [unfold xr in E3; lia|exact E4]|apply NN; exact E5]].
      intros [[Q1 Q2] Q3]. apply orb_prop in E2. rewrite Q2, Z.eqb_refl in E2. cbn [negb] in E2. destruct E2 as [E2|E2].
      * rewrite orb_false_r in E2. apply Z.ltb_lt in E2. unfold wr in E2. lia.
      * apply Z.eqb_eq in E2. unfold xr in E2. destruct (b_sh x); [congruence|cbn [length] in E2; lia].
    + exfalso. apply orb_false_iff in E2. destruct E2 as [E3 E5]. apply orb_false_iff in E3. destruct E3 as [E3 E4].
      apply Z.ltb_ge in E3. apply negb_false_iff, Z.eqb_eq in E4. apply Z.eqb_neq in E5. apply (Hm ExtW). split; [exact NA|]. split; [split; [unfold wr in E3; lia|exact E4]|apply NN; exact E5].
Qed.
