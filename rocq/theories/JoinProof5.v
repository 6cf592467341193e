From Verif Require Import Base SqueezeModel TransSpec JoinModel JoinSpec JoinProof JoinProof2.
Open Scope Z_scope.
(** ** Pick *)
Section pw_induction.
Variable P : pw -> Prop.
Hypothesis H1 : forall z, P (PNum z).
Hypothesis H2 : P PAtm.
Hypothesis H3 : forall e sh ws, Forall P ws -> P (PArr e sh ws).
Fixpoint pw_ind2 (w : pw) : P w :=
  match w with
  | PNum z => H1 z
  | PAtm => H2
  | PArr e sh ws => H3 e sh ws ((fix go ws : Forall P ws := match ws with [] => Forall_nil P | w :: ws => Forall_cons w (pw_ind2 w) (go ws) end) ws)
  end.
End pw_induction.

Section J.
Context {A : Type}.
Notation arr := (list nat * list A)%type.

Lemma selects_dec z n : (exists i, selects n z i) \/ (forall i, ~ selects n z i).
Proof.
  destruct (Z.ltb_spec z 0) as [L|L].
  - destruct (Z_lt_dec (z + Z.of_nat n) 0) as [G|G].
    + right. intros i [E B]. rewrite (proj2 (Z.ltb_lt z 0)) in E by lia. lia.
    + left. exists (Z.to_nat (z + Z.of_nat n)). split; [|lia]. rewrite (proj2 (Z.ltb_lt z 0)) by lia. lia.
  - destruct (Z_lt_dec z (Z.of_nat n)) as [G|G].
    + left. exists (Z.to_nat z). split; [|lia]. rewrite (proj2 (Z.ltb_ge z 0)) by lia. lia.
    + right. intros i [E B]. rewrite (proj2 (Z.ltb_ge z 0)) in E by lia. lia.
Qed.
Lemma wrap_ok z n i : Z.of_nat n < 2 ^ 32 -> selects n z i -> - 2 ^ 63 <= z < 2 ^ 63 /\ wrap z n = Ok (Z.of_nat i).
Proof.
  intros N [E B]. assert (R : - 2 ^ 63 <= z < 2 ^ 63) by (destruct (Z.ltb_spec z 0); lia). split; [exact R|].
  unfold wrap, to_u. destruct (Z.ltb_spec z 0) as [L|L].
  - rewrite (proj2 (Z.leb_le (Z.of_nat n) (z mod 2 ^ 64))) by (replace (z mod 2 ^ 64) with (z + 2 ^ 64) by (apply Zmod_unique with (-1); lia); lia).
    replace ((z + Z.of_nat n) mod 2 ^ 64) with (Z.of_nat i) by (rewrite Z.mod_small; lia).
    rewrite (proj2 (Z.leb_gt (Z.of_nat n) (Z.of_nat i))) by lia. rewrite Z.mod_small by lia. reflexivity.
  - rewrite (Z.mod_small z) by lia. rewrite (proj2 (Z.leb_gt (Z.of_nat n) z)) by lia. rewrite Z.mod_small by lia. congruence.
Qed.
Lemma wrap_err z n : Z.of_nat n < 2 ^ 32 -> - 2 ^ 63 <= z < 2 ^ 63 -> (forall i, ~ selects n z i) -> wrap z n = Err.
Proof.
  intros N R S. unfold wrap, to_u. destruct (Z.ltb_spec z 0) as [L|L].
  - replace (z mod 2 ^ 64) with (z + 2 ^ 64) by (apply Zmod_unique with (-1); lia). rewrite (proj2 (Z.leb_le (Z.of_nat n) (z + 2 ^ 64))) by lia.
    destruct (Z_lt_dec (z + Z.of_nat n) 0) as [G|G].
    + replace ((z + Z.of_nat n) mod 2 ^ 64) with (z + Z.of_nat n + 2 ^ 64) by (apply Zmod_unique with (-1); lia).
      rewrite (proj2 (Z.leb_le _ _)) by lia. reflexivity.
    + destruct (S (Z.to_nat (z + Z.of_nat n))). split; [|lia]. rewrite (proj2 (Z.ltb_lt z 0)) by lia. lia.
  - destruct (Z_lt_dec z (Z.of_nat n)) as [G|G].
    + destruct (S (Z.to_nat z)). split; [|lia]. rewrite (proj2 (Z.ltb_ge z 0)) by lia. lia.
    + rewrite (Z.mod_small z) by lia. rewrite (proj2 (Z.leb_le (Z.of_nat n) z)) by lia.
      rewrite Z.mod_small by lia. rewrite (proj2 (Z.leb_le _ _)) by lia. reflexivity.
Qed.
Definition fit32 (sh : list nat) : Prop := Forall (fun l => Z.of_nat l < 2 ^ 32) sh.
Lemma idx_cases : forall sh ws c0, fit32 sh -> length ws = length sh ->
  (exists zs I, ws = map (fun z => PNum (Some z)) zs /\ selects_all sh zs I /\ pick_idx sh ws (to_u 32 c0) = Ok (to_u 32 (c0 * Z.of_nat (size sh) + Z.of_nat (ravel sh I)))) \/
  ((forall zs I, ws = map (fun z => PNum (Some z)) zs -> ~ selects_all sh zs I) /\ pick_idx sh ws (to_u 32 c0) = Err).
Proof.
  induction sh as [|n sh IH]; intros [|w ws] c0 F L; cbn [length] in L; try lia; cbn [pick_idx].
  - left. exists [], []. split; [reflexivity|]. split; [constructor|]. change (size []) with 1%nat. cbn [ravel]. do 2 f_equal. lia.
  - inversion F as [|? ? F1 F2]; subst. destruct w as [[z|]| |]; cbn [o2i64 bind];
      [|right; split; [intros [|z zs] I E S; cbn [map] in E; congruence|reflexivity]..].
    destruct (selects_dec z n) as [[i Si]|NS].
    + destruct (wrap_ok z n i F1 Si) as [R W]. destruct ((- 2 ^ 63 <=? z) && (z <? 2 ^ 63)) eqn:T; [|lia]. cbn [bind]. rewrite W. cbn [bind].
      assert (E0 : to_u 32 (to_u 32 c0 * Z.of_nat n + Z.of_nat i) = to_u 32 (c0 * Z.of_nat n + Z.of_nat i)).
      { unfold to_u. rewrite <- Z.add_mod_idemp_l by lia. rewrite Z.mul_mod_idemp_l by lia. rewrite Z.add_mod_idemp_l by lia. reflexivity. }
      rewrite E0. destruct (IH ws (c0 * Z.of_nat n + Z.of_nat i) F2 ltac:(lia)) as [(zs & I & E & S & P)|[NS P]].
      * left. exists (z :: zs), (i :: I). split; [cbn [map]; congruence|]. split; [constructor; assumption|]. rewrite P. do 2 f_equal.
        cbn [size fold_right ravel]. fold (size sh). lia.
      * right. split; [|exact P]. intros zs I E S. destruct zs as [|z' zs]; [discriminate|]. cbn [map] in E. inversion S as [|? ? ? ? ? ? SA SB]; subst. injection E as _ E. exact (NS _ _ E SB).
    + right. split.
      * intros zs I E S. destruct zs as [|z' zs]; [discriminate|]. cbn [map] in E. inversion S as [|? ? ? ? ? ? SA SB]; subst. injection E as E _. subst z'. exact (NS _ SA).
      * destruct ((- 2 ^ 63 <=? z) && (z <? 2 ^ 63)) eqn:T; [|reflexivity]. cbn [bind]. rewrite wrap_err by (assumption || lia). reflexivity.
Qed.
Lemma selects_inb sh zs I : selects_all sh zs I -> inb sh I.
Proof. induction 1 as [|n z i sh zs I [_ H] _ IH]; constructor; assumption. Qed.
Lemma selects_len sh zs I : selects_all sh zs I -> length zs = length sh.
Proof. induction 1; cbn [length]; lia. Qed.
Lemma selects_fun sh zs I I' : selects_all sh zs I -> selects_all sh zs I' -> I = I'.
Proof.
  intros H. revert I'. induction H as [|n z i sh zs I [H1 H2] _ IH]; intros I' H'; inversion H' as [|? ? i' ? ? I2 [H3 H4] H5]; subst; [reflexivity|].
  f_equal; [lia|apply IH; exact H5].
Qed.
Lemma map_num_inj zs zs' : map (fun z => PNum (Some z)) zs = map (fun z => PNum (Some z)) zs' -> zs = zs'.
Proof. revert zs'. induction zs as [|z zs IH]; intros [|z' zs'] E; cbn [map] in E; try discriminate; [reflexivity|]. injection E as E1 E2. f_equal; auto. Qed.

Variable x : arr.
Hypothesis Vx : valid_arr x.
Hypothesis Fx : fit32 (fst x).
Hypothesis Sx : Z.of_nat (length (snd x)) < 2 ^ 32.

Definition idx_res (ws : list pw) (r : pr A) : Prop :=
  exists zs I a, ws = map (fun z => PNum (Some z)) zs /\ selects_all (fst x) zs I /\ elt (fst x) (snd x) I = Some a /\ r = RElt a.
Lemma list_cases n ws : length ws = n ->
  (exists r, idx_res ws r /\ pick_list x [n] ws = Ok r) \/ ((forall r, ~ idx_res ws r) /\ pick_list x [n] ws = Err).
Proof.
  intros LW. unfold pick_list. cbn [length Nat.eqb negb]. destruct (Nat.eqb_spec (length ws) (length (fst x))) as [E|E]; cbn [negb].
  - destruct (idx_cases (fst x) ws 0 Fx E) as [(zs & I & E1 & S & P)|[NS P]]; change (to_u 32 0) with 0 in P; rewrite P; cbn [bind].
    + pose proof (ravel_lt _ _ (selects_inb _ _ _ S)) as B. unfold valid_arr, array in Vx.
      replace (to_u 32 (0 * Z.of_nat (size (fst x)) + Z.of_nat (ravel (fst x) I))) with (Z.of_nat (ravel (fst x) I)) by (unfold to_u; rewrite Z.mod_small; lia).
      rewrite Nat2Z.id. destruct (nth_error (snd x) (ravel (fst x) I)) as [a|] eqn:N; [|apply nth_error_None in N; lia].
      rewrite (rd_nth _ _ _ N). cbn [bind]. left. exists (RElt a). split; [|reflexivity]. exists zs, I, a. auto.
    + right. split; [|reflexivity]. intros r (zs & I & a & E1 & S & _). exact (NS _ _ E1 S).
  - right. split; [|reflexivity]. intros r (zs & I & a & E1 & S & _). apply selects_len in S. subst ws. rewrite map_length in E. congruence.
Qed.
Lemma picks_list e n ws r : ws = [] \/ (exists w, In w ws /\ isNum w = true) -> length ws = n -> picks x (PArr e [n] ws) r <-> idx_res ws r.
Proof.
  intros NA LW. split.
  - intros H. inversion H as [|? zs I a S E|? ? ? rs NE AR PE]; subst.
    + exists zs, I, a. auto.
    + exfalso. destruct NA as [->|(w & Iw & Nw)]; [congruence|]. rewrite Forall_forall in AR. specialize (AR w Iw). destruct w; [exact AR|discriminate|discriminate].
  - intros (zs & I & a & -> & S & E & ->). rewrite map_length in LW. subst n. apply (picks_idx x e zs I a S E).
Qed.
Lemma not_idx_rank e sh ws r : length sh <> 1%nat -> (exists w, In w ws /\ isNum w = true) -> ~ picks x (PArr e sh ws) r.
Proof.
  intros N (w & Iw & Nw) H. inversion H as [|? zs I a S E|? ? ? rs NE AR PE]; subst; [cbn [length] in N; lia|].
  rewrite Forall_forall in AR. specialize (AR w Iw). destruct w; [exact AR|discriminate|discriminate].
Qed.
Lemma sh_one (sh : list nat) (ws : list pw) : length sh = 1%nat -> length ws = size sh -> sh = [length ws].
Proof. destruct sh as [|n [|]]; cbn [length]; try lia. intros _ L. cbn [size fold_right] in L. f_equal. lia. Qed.

Definition outcome (w : pw) (r : res (pr A)) : Prop := match r with Ok v => forall v', picks x w v' <-> v' = v | Err => forall v, ~ picks x w v | UB => False end.
Lemma idx_fun ws r r' : idx_res ws r -> idx_res ws r' -> r = r'.
Proof.
  intros (zs & I & a & E & S & N & ->) (zs' & I' & a' & E' & S' & N' & ->). assert (zs = zs') by (apply map_num_inj; congruence). subst zs'.
  assert (I = I') by (eapply selects_fun; eauto). subst. congruence.
Qed.
Lemma list_outcome e sh ws : length ws = size sh -> ws = [] \/ (exists w, In w ws /\ isNum w = true) -> (ws = [] -> sh = [0%nat]) -> outcome (PArr e sh ws) (pick_list x sh ws).
Proof.
  intros LW NA EM. destruct (Nat.eq_dec (length sh) 1) as [E|E].
  - pose proof (sh_one sh ws E LW) as ES. rewrite ES.
    destruct (list_cases (length ws) ws eq_refl) as [(r & I & P)|[NI P]]; rewrite P; cbn [outcome].
    + intros v'. rewrite picks_list by auto. split; [intros H; eapply idx_fun; eauto|intros ->; exact I].
    + intros v H. apply picks_list in H; auto. exact (NI v H).
  - assert (NE : ws <> []) by (intros Q; rewrite (EM Q) in E; cbn [length] in E; lia).
    unfold pick_list. destruct (Nat.eqb_spec (length sh) 1); [lia|]. cbn [negb outcome]. intros v. apply not_idx_rank; [exact E|]. destruct NA; [congruence|assumption].
Qed.
Lemma each_fun ws : forall rs, Forall (fun w => forall r r', picks x w r -> picks x w r' -> r = r') ws -> picks_each x ws rs -> forall rs', picks_each x ws rs' -> rs = rs'.
Proof.
  induction ws as [|w ws IH]; intros rs F H rs' H'; inversion H; inversion H'; subst; [reflexivity|]. inversion F; subst. f_equal; [eauto|eapply IH; eauto].
Qed.

Lemma rec_pick_ok : forall w, wf_pw w -> is_array w -> outcome w (rec_pick x w).
Proof.
  induction w as [z| |e sh ws IH] using pw_ind2; intros W AR; [destruct AR|destruct AR|].
  inversion W as [| |? ? ? WF LW TN EM]; subst. cbn [rec_pick]. destruct e.
  - apply list_outcome; auto. specialize (TN eq_refl). destruct ws as [|w ws]; [left; reflexivity|right]. exists w. split; [left; reflexivity|]. inversion TN; assumption.
  - destruct ws as [|w0 ws'] eqn:EW.
    + specialize (EM eq_refl). subst sh.
      pose proof (list_outcome TGen [0%nat] [] LW (or_introl eq_refl) (fun _ => eq_refl)) as O. unfold pick_list in O. cbn [length Nat.eqb negb] in O.
      destruct (length (fst x)) as [|k] eqn:EL; cbn [Nat.eqb negb] in *.
      * assert (EX : fst x = []) by (destruct (fst x); [reflexivity|discriminate]). rewrite EX in O. cbn [pick_idx bind] in O. exact O.
      * exact O.
    + destruct (isNum w0) eqn:N0.
      * apply list_outcome; auto. right. exists w0. split; [left; reflexivity|exact N0].
      * match goal with |- context [bind (?g ws') _] => set (go := g) end.
        change (outcome (PArr TGen sh (w0 :: ws')) (bind (go (w0 :: ws')) (fun rs => Ok (RArr sh rs)))).
        assert (NW : w0 :: ws' <> []) by discriminate.
        assert (N1 : forall z l, w0 :: ws' <> PNum z :: l) by (intros z l Q; injection Q as Q _; subst w0; discriminate).
        rewrite <- EW in *. clear EW TN EM.
        assert (G : match go ws with
                    | Ok rs => Forall is_array ws /\ forall rs', picks_each x ws rs' <-> rs' = rs
                    | Err => ~ Forall is_array ws \/ forall rs, ~ picks_each x ws rs
                    | UB => False end).
        { clear LW W AR N0 NW N1 w0 ws'. induction ws as [|c ws IHw]; cbn [go].
          - split; [constructor|]. intros rs'. split; [intros H; inversion H; reflexivity|intros ->; constructor].
          - inversion IH as [|? ? IH1 IH2]; subst. inversion WF as [|? ? WF1 WF2]; subst. specialize (IHw IH2 WF2).
            destruct c as [z| |e' sh' ws']; cbn [bind]; [left; intros F; inversion F as [|? ? F1 _]; destruct F1..|].
            specialize (IH1 WF1 I). destruct (rec_pick x (PArr e' sh' ws')) as [r| |]; cbn [bind outcome] in *; [| |destruct IH1].
            + destruct (go ws) as [rs| |]; cbn [bind]; [| |destruct IHw].
              * destruct IHw as [F P]. split; [constructor; [exact I|exact F]|]. intros rs'. split.
                -- intros H. inversion H as [|? ? ? ? H1 H2]; subst. apply IH1 in H1. apply P in H2. congruence.
                -- intros ->. constructor; [apply IH1; reflexivity|apply P; reflexivity].
              * destruct IHw as [F|P]; [left; intros Q; inversion Q; auto|right]. intros rs H. inversion H; subst. eapply P; eauto.
            + right. intros rs H. inversion H; subst. eapply IH1; eauto. }
        destruct (go ws) as [rs| |]; cbn [bind outcome]; [| |destruct G].
        -- destruct G as [F P]. intros v'. split.
           ++ intros H. inversion H as [|? zs I0 a S E|? ? ? rs' NE AR' PE]; subst.
              ** exfalso. destruct zs; [cbn [map] in NW; congruence|]. inversion F as [|? ? F1 _]. destruct F1.
              ** f_equal. apply P. exact PE.
           ++ intros ->. apply picks_arr; auto. apply P. reflexivity.
        -- intros v H. inversion H as [|? zs I0 a S E|? ? ? rs' NE AR' PE]; subst.
           ++ destruct zs; [cbn [map] in NW; congruence|]. cbn [map] in N1. exact (N1 _ _ eq_refl).
           ++ destruct G as [G|G]; [exact (G AR')|exact (G _ PE)].
Qed.
Theorem pick_ok w : wf_pw w -> match pick w x with Ok v => forall v', picks x w v' <-> v' = v | Err => forall v, ~ picks x w v | UB => False end.
Proof.
  intros W. destruct w as [z| |e sh ws]; cbn [pick].
  - destruct (Nat.eqb_spec (length (fst x)) 1) as [E|E]; cbn [negb].
    + destruct (fst x) as [|n [|]] eqn:EX; cbn [length] in E; try lia.
      assert (LN : length (snd x) = n). { unfold valid_arr, array in Vx. rewrite EX in Vx. cbn [size fold_right] in Vx. lia. }
      destruct z as [z|]; cbn [o2i64 bind]; [|intros v H; inversion H].
      destruct (selects_dec z n) as [[i Si]|NS].
      * destruct (wrap_ok z n i ltac:(lia) Si) as [R Wr]. destruct ((- 2 ^ 63 <=? z) && (z <? 2 ^ 63)) eqn:T; [|lia]. cbn [bind]. rewrite LN, Wr. cbn [bind].
        rewrite Nat2Z.id. destruct Si as [Si1 Si2]. destruct (nth_error (snd x) i) as [a|] eqn:N; [|apply nth_error_None in N; lia].
        rewrite (rd_nth _ _ _ N). cbn [bind]. intros v'. split.
        -- intros H. inversion H as [? i' a' S E2| |]; subst. rewrite EX in *. inversion S as [|? ? ? ? ? ? [S1 S2] _]; subst.
           assert (i' = i) by lia. subst i'. unfold elt in E2. cbn [ravel size fold_right] in E2. rewrite Nat.mul_1_r, Nat.add_0_r, N in E2. congruence.
        -- intros ->. apply (picks_num x z i a); rewrite EX.
           ++ constructor; [split; assumption|constructor].
           ++ unfold elt. cbn [ravel size fold_right]. rewrite Nat.mul_1_r, Nat.add_0_r. exact N.
      * assert (NP : forall v, ~ picks x (PNum (Some z)) v).
        { intros v H. inversion H as [? i' a' S E2| |]; subst. rewrite EX in S. inversion S; subst. eapply NS; eauto. }
        destruct ((- 2 ^ 63 <=? z) && (z <? 2 ^ 63)) eqn:T; [|exact NP]. cbn [bind]. rewrite LN, wrap_err by (assumption || lia). exact NP.
    + intros v H. inversion H as [? i' a' S E2| |]; subst. apply selects_len in S. cbn [length] in S. lia.
  - intros v H. inversion H.
  - apply rec_pick_ok; [exact W|exact I].
Qed.
End J.
