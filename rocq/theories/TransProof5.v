From Verif Require Import Base ListLib TransModel TransSpec TransProof TransProof2 TransProof3 TransProof4.
From Coq Require Import List Arith Lia.
Open Scope nat_scope.
(** * multi-indices *)
Lemma size_eq sh : size sh = shProd sh. Proof. reflexivity. Qed.
Lemma inb_pos sh I : inb sh I -> 0 < shProd sh. Proof. induction 1 as [|l i sh I H F IH]; [cbn; lia|]. rewrite shProd_cons. nia. Qed.
Lemma inb_len sh I : inb sh I -> length I = length sh. Proof. induction 1; cbn [length]; lia. Qed.
Lemma ravel_lt sh I : inb sh I -> ravel sh I < shProd sh.
Proof. induction 1 as [|l i sh I H F IH]; [cbn; lia|]. cbn [ravel]. rewrite shProd_cons. change (size sh) with (shProd sh). nia. Qed.
Lemma ravel_app sh1 sh2 I1 I2 : length I1 = length sh1 -> ravel (sh1 ++ sh2) (I1 ++ I2) = ravel sh1 I1 * shProd sh2 + ravel sh2 I2.
Proof. revert I1. induction sh1 as [|l sh1 IH]; intros [|i I1] H; cbn [length] in H; try lia; auto. cbn [app ravel]. rewrite IH by lia. change (size (sh1 ++ sh2)) with (shProd (sh1 ++ sh2)). rewrite shProd_app. change (size sh1) with (shProd sh1). ring. Qed.
Lemma ravel_surj sh : forall n, n < shProd sh -> exists I, inb sh I /\ ravel sh I = n.
Proof.
  induction sh as [|l sh IH]; intros n NB; [exists []; split; [constructor|cbn in *; lia]|]. rewrite shProd_cons in NB. assert (0 < shProd sh) by (destruct (shProd sh); lia). destruct (IH (n mod shProd sh)) as (I & B & E); [apply Nat.mod_upper_bound; lia|]. exists (n / shProd sh :: I). split; [constructor; auto; apply Nat.div_lt_upper_bound; lia|]. cbn [ravel]. change (size sh) with (shProd sh). rewrite E. pose proof (Nat.div_mod n (shProd sh) ltac:(lia)). lia.
Qed.
Fixpoint dot (u st : list nat) : nat := match u, st with i :: u, s :: st => i * s + dot u st | _, _ => 0 end.
Lemma pos_combine sh st : Forall (fun l => 0 < l) sh -> pos (combine sh st).
Proof. intros H. revert st. induction H; intros [|s st]; constructor; auto. apply IHForall. Qed.
Lemma inb_Fpos sh I : inb sh I -> Forall (fun l => 0 < l) sh. Proof. induction 1; constructor; auto; lia. Qed.
Lemma P_combine sh st : length st = length sh -> P (combine sh st) = shProd sh.
Proof. revert st. induction sh as [|l sh IH]; intros [|s st] H; cbn [length] in H; try lia; auto. cbn [combine]. rewrite P_cons, IH by lia. reflexivity. Qed.
Lemma offi_dot sh I : inb sh I -> forall st, length st = length sh -> offi (combine sh st) (ravel sh I) = dot I st.
Proof.
  induction 1 as [|l i sh I H F IH]; intros [|s st] L; cbn [length] in L; try lia; auto. cbn [combine ravel dot]. change (size sh) with (shProd sh). pose proof (ravel_lt _ _ F) as RB. pose proof (inb_pos _ _ F) as SP. rewrite offi_cons. - rewrite P_combine by lia. destruct (divmod_digit (shProd sh) i (ravel sh I) SP RB) as [-> ->]. rewrite IH by lia. reflexivity. - apply pos_combine. eapply inb_Fpos; eauto. - rewrite P_combine by lia. nia. - lia.
Qed.
(** * strides *)
Fixpoint stride (j : nat) (ax : list (nat * nat)) (c : nat) : nat := match ax with [] => 0 | (j', l) :: ax => (if j' =? j then c else 0) + stride j ax (c * l) end.
Fixpoint ravr (I : list nat) (ax : list (nat * nat)) (c : nat) : nat := match ax with [] => 0 | (j, l) :: ax => nth j I 0 * c + ravr I ax (c * l) end.
Lemma strides_ok ax : forall c st, Forall (fun a => fst a < length st) ax -> exists st', strides ax c st = Ok st' /\ length st' = length st /\ forall j, j < length st -> nth j st' 0 = nth j st 0 + stride j ax c.
Proof.
  induction ax as [|[j l] ax IH]; intros c st H; cbn [strides stride]; [exists st; repeat split; auto|]. pose proof (Forall_inv H) as J. cbn [fst] in J. unfold rd. rewrite (nth_error_nth' st 0 J). cbn [bind]. unfold wr. replace (j <? length st) with true by (symmetry; apply Nat.ltb_lt; auto). cbn [bind]. destruct (IH (c * l) (upd st j (nth j st 0 + c))) as (st' & -> & L & V); [rewrite upd_length; apply (Forall_inv_tail H)|]. rewrite upd_length in L, V. exists st'. split; auto. split; auto. intros k KB. rewrite V by auto. assert (E : nth k (upd st j (nth j st 0 + c)) 0 = if j =? k then nth j st 0 + c else nth k st 0). { apply nth_error_nth. rewrite nth_error_upd. replace (j <? length st) with true by (symmetry; apply Nat.ltb_lt; auto). destruct (j =? k); auto. apply nth_error_nth'. auto. } rewrite E. destruct (Nat.eqb_spec j k); [subst|]; lia.
Qed.
Lemma dot_add I : forall (a b : nat -> nat) s, dot I (map (fun j => a j + b j) (seq s (length I))) = dot I (map a (seq s (length I))) + dot I (map b (seq s (length I))).
Proof. induction I as [|i I IH]; intros a b s; auto. cbn [length seq map dot]. rewrite IH. ring. Qed.
Lemma dot_zero I : forall s (f : nat -> nat), (forall j, s <= j < s + length I -> f j = 0) -> dot I (map f (seq s (length I))) = 0.
Proof. induction I as [|i I IH]; intros s f H; auto. cbn [length seq map dot]. rewrite (H s) by (cbn [length]; lia). rewrite IH; [lia|]. intros j B. apply H. cbn [length]. lia. Qed.
Lemma dot_one I : forall j c s, s <= j < s + length I -> dot I (map (fun k => if j =? k then c else 0) (seq s (length I))) = nth (j - s) I 0 * c.
Proof.
  induction I as [|i I IH]; intros j c s H; cbn [length] in H; [lia|]. cbn [length seq map dot]. destruct (Nat.eqb_spec j s) as [->|NE].
  - rewrite Nat.sub_diag. cbn [nth]. rewrite dot_zero; [lia|]. intros k B. replace (s =? k) with false by (symmetry; apply Nat.eqb_neq; lia). reflexivity.
  - rewrite IH by lia. replace (j - s) with (S (j - S s)) by lia. cbn [nth]. lia.
Qed.
Lemma dot_stride I ax : forall c, Forall (fun a => fst a < length I) ax -> dot I (map (fun j => stride j ax c) (seq 0 (length I))) = ravr I ax c.
Proof.
  induction ax as [|[j l] ax IH]; intros c H; cbn [stride ravr]; [apply dot_zero; auto|]. rewrite dot_add, IH by (apply (Forall_inv_tail H)). pose proof (Forall_inv H) as J. cbn [fst] in J. rewrite dot_one by lia. rewrite Nat.sub_0_r. reflexivity.
Qed.
Lemma ravr_ravel I (L : list (nat * nat)) : forall c, ravel (map snd L) (map (fun a => nth a I 0) (map fst L)) * c = ravr I (rev L) c.
Proof.
  induction L as [|[j l] L IH] using rev_ind; intros c; auto. rewrite !map_app, rev_app_distr, ravel_app by (rewrite !map_length; auto). cbn [map rev app ravr fst snd]. rewrite <- IH. unfold shProd. cbn [fold_right ravel size]. ring.
Qed.
(** * strides are whole cells after simplification *)
Definition dvd (c : nat) (a : nat * nat) : Prop := exists q, snd a = q * c.
Lemma stride_dvd j ax : forall c, exists q, stride j ax c = q * c.
Proof. induction ax as [|[j' l] ax IH]; intros c; cbn [stride]; [exists 0; auto|]. destruct (IH (c * l)) as (q & ->). destruct (j' =? j); [exists (1 + q * l)|exists (q * l)]; ring. Qed.
Lemma stride_in j l ax : forall c, 0 < c -> Forall (fun a => 0 < snd a) ax -> In (j, l) ax -> 0 < stride j ax c.
Proof. induction ax as [|[j' l'] ax IH]; intros c C PS HI; [contradiction|destruct HI as [E|I]]; cbn [stride]. - injection E as -> ->. rewrite Nat.eqb_refl. lia. - pose proof (Forall_inv PS) as L. cbn [snd] in L. assert (0 < c * l') by nia. specialize (IH (c * l') H (Forall_inv_tail PS) I). lia. Qed.
Section D.
Variables (R S : nat -> nat).
Lemma simplify_keep ax : forall csz sz acc c' ax', Forall (dvd csz) acc -> acc <> [] -> Forall (fun a => fst a <> 1 -> dvd csz a) ax -> simplify ax csz sz acc = (c', ax') -> c' = csz /\ Forall (dvd csz) ax'.
Proof.
  induction ax as [|[l s] ax IH]; intros csz sz acc c' ax' FA NE FX E; cbn [simplify] in E; [injection E as <- <-; auto|]. pose proof (Forall_inv FX) as X. cbn [fst] in X. pose proof (Forall_inv_tail FX) as FX'. destruct (Nat.eqb_spec l 1); [eapply IH; eauto|]. destruct (s =? sz).
  - destruct acc as [|[l' s'] acc]; [contradiction|]. refine (IH _ _ _ _ _ _ _ FX' E); [|discriminate]. constructor; [|apply (Forall_inv_tail FA)]. pose proof (Forall_inv FA) as (q & Q). exists q. exact Q.
  - refine (IH _ _ _ _ _ _ _ FX' E); [|discriminate]. constructor; auto.
Qed.
(** the first stride equal to the cell size is that of the innermost axis left *)
Lemma advance j : forall todo c, 0 < c -> R j <> 1 -> Forall (fun a => 0 < snd a /\ 0 < R (fst a) <= snd a) todo -> In (j, R j) todo -> stride j todo c = c ->
  exists todo', Forall (fun a => 0 < snd a /\ 0 < R (fst a) <= snd a) todo' /\ forall j', j' <> j -> R j' <> 1 -> In (j', R j') todo -> stride j' todo c = stride j' todo' (c * R j) /\ In (j', R j') todo'.
Proof.
  induction todo as [|[j0 l0] todo IH]; intros c C RJ OK IN E; [contradiction|]. pose proof (Forall_inv OK) as (L0 & R0 & R1). cbn [fst snd] in *. pose proof (Forall_inv_tail OK) as OK'. cbn [stride] in E. assert (PS : Forall (fun a : nat * nat => 0 < snd a) todo) by (eapply Forall_impl; [|exact OK']; cbn; tauto). destruct (Nat.eqb_spec j0 j) as [->|NE].
  - assert (Z : stride j todo (c * l0) = 0) by lia. assert (RL : R j = l0). { destruct IN as [IN|IN]; [congruence|]. exfalso. pose proof (stride_in j (R j) todo (c * l0) ltac:(nia) PS IN). lia. } rewrite RL. exists todo. split; auto. intros j' NJ RJ' [IN'|IN']; [congruence|]. cbn [stride]. replace (j =? j') with false by (symmetry; apply Nat.eqb_neq; auto). auto.
  - destruct IN as [IN|IN]; [congruence|]. destruct (stride_dvd j todo (c * l0)) as (q & Q). assert (L1 : l0 = 1). { rewrite Q in E. cbn [Nat.add] in E. assert (q * l0 = 1) by (apply (Nat.mul_cancel_r _ _ c); lia). apply Nat.eq_mul_1 in H. tauto. } subst l0. rewrite Nat.mul_1_r in *. destruct (IH c C RJ OK' IN E) as (todo' & OK2 & H). exists todo'. split; auto. intros j' NJ RJ' [IN'|IN'].
    + exfalso. injection IN' as -> E1. lia.
    + cbn [stride]. assert (j0 <> j') by (intros ->; lia). replace (j0 =? j') with false by (symmetry; apply Nat.eqb_neq; auto). rewrite Nat.mul_1_r. apply H; auto.
Qed.
Lemma simplify_dv js : NoDup js -> forall csz todo c' ax', 0 < csz -> Forall (fun a => 0 < snd a /\ 0 < R (fst a) <= snd a) todo -> (forall j, In j js -> R j <> 1 -> S j = stride j todo csz /\ In (j, R j) todo) ->
  simplify (map (fun j => (R j, S j)) js) csz csz [] = (c', ax') -> Forall (dvd c') ax'.
Proof.
  induction 1 as [|j js NI ND IH]; intros csz todo c' ax' C OK H E; cbn [map simplify] in E; [injection E as <- <-; constructor|]. destruct (Nat.eqb_spec (R j) 1) as [R1|R1]; [eapply IH; [exact C|exact OK| |exact E]; intros; apply H; auto; right; auto|]. destruct (H j (or_introl eq_refl) R1) as [SJ IJ]. destruct (Nat.eqb_spec (S j) csz) as [SE|SE].
  - destruct (advance j todo csz C R1 OK IJ) as (todo' & OK' & ADV); [congruence|]. assert (RP : 0 < R j) by (rewrite Forall_forall in OK; specialize (OK _ IJ); cbn [fst snd] in OK; lia). eapply (IH (csz * R j) todo'); [nia|exact OK'| |exact E]. intros j' IN RJ'. destruct (H j' (or_intror IN) RJ') as [SJ' IJ']. destruct (ADV j') as [A1 A2]; auto; [intros ->; contradiction|]. split; auto. congruence.
  - destruct (simplify_keep (map (fun j => (R j, S j)) js) csz (R j * S j) [(R j, S j)] c' ax') as [-> FD]; auto; [constructor; auto; rewrite SJ; apply stride_dvd|discriminate|]. apply Forall_map. apply Forall_forall. intros j' IN RJ'. cbn [fst] in RJ'. destruct (H j' (or_intror IN) RJ') as [SJ' _]. unfold dvd. cbn [snd]. rewrite SJ'. apply stride_dvd.
Qed.
End D.
