From Verif Require Import Base BitLemmas HashMapModel HashMapSpec.

Definition at_ (a : list Z) (p : nat) : Z := nth p a EMPTY.
Definition hi (u : Z) : Z := u / 2 ^ 32.
Definition lo (u : Z) : Z := u mod 2 ^ 32.
Definition home (sh u : Z) : Z := u / 2 ^ sh.

Lemma rd_at a p : (p < length a)%nat -> rd a p = Ok (at_ a p).
Proof. intros H. unfold rd, at_. rewrite (nth_error_nth' a EMPTY H). reflexivity. Qed.
Lemma at_high a p : (length a <= p)%nat -> at_ a p = EMPTY.
Proof. intros H. unfold at_. apply nth_overflow. exact H. Qed.
Lemma wr_ok {A} (a : list A) p v : (p < length a)%nat -> wr a p v = Ok (upd a p v).
Proof. intros H. unfold wr. destruct (Nat.ltb_spec p (length a)); [reflexivity|lia]. Qed.
Lemma at_upd a p q v : (p < length a)%nat -> at_ (upd a p v) q = if (p =? q)%nat then v else at_ a q.
Proof.
  intros H. unfold at_. destruct (Nat.eqb_spec p q) as [->|N].
  - apply nth_error_nth with (d := EMPTY). apply upd_same. exact H.
  - destruct (Nat.lt_ge_cases q (length a)) as [L|L].
    + apply nth_error_nth. rewrite upd_other by exact N. apply nth_error_nth'. exact L.
    + rewrite !nth_overflow; [reflexivity|exact L|rewrite upd_length; exact L].
Qed.

(** Word arithmetic *)
Lemma lor_hmask v : 0 <= v -> v mod 2^32 = 0 -> Z.lor v HMASK = v + HMASK.
Proof.
  intros H M. replace v with (v / 2^32 * 2^32) by (rewrite (Z.div_mod v (2^32)) at 2; [lia|discriminate]).
  apply lor_disjoint'; [lia|]. unfold HMASK. lia.
Qed.
Lemma lor_idx v i : 0 <= v -> v mod 2^32 = 0 -> 0 <= i < 2^32 -> Z.lor v i = v + i.
Proof.
  intros H M Hi. replace v with (v / 2^32 * 2^32) by (rewrite (Z.div_mod v (2^32)) at 2; [lia|discriminate]).
  apply lor_disjoint'; lia.
Qed.
Lemma land_hmask u : Z.land u HMASK = lo u.
Proof. unfold HMASK, lo. rewrite Z.land_comm. apply land_ones_mod. lia. Qed.
Lemma ldiff_hmask u : Z.ldiff u HMASK = hi u * 2^32.
Proof.
  unfold HMASK, hi. replace (2^32-1) with (Z.ones 32) by reflexivity. rewrite Z.ldiff_ones_r by lia.
  rewrite Z.shiftl_mul_pow2, Z.shiftr_div_pow2 by lia. reflexivity.
Qed.
Lemma shiftr_home u sh : 0 <= sh -> Z.shiftr u sh = home sh u.
Proof. intros H. unfold home. apply Z.shiftr_div_pow2. exact H. Qed.

Lemma hi_lo u : u = hi u * 2^32 + lo u.
Proof. unfold hi, lo. rewrite (Z.div_mod u (2^32)) at 1 by discriminate. lia. Qed.
Lemma lo_range u : 0 <= lo u < 2^32.
Proof. unfold lo. apply Z.mod_pos_bound. lia. Qed.
Lemma hi_mk h i : 0 <= i < 2^32 -> hi (h * 2^32 + i) = h.
Proof. intros H. unfold hi. rewrite Z.div_add_l by lia. rewrite Z.div_small by lia. lia. Qed.
Lemma lo_mk h i : 0 <= i < 2^32 -> lo (h * 2^32 + i) = i.
Proof. intros H. unfold lo. rewrite Z.add_comm, Z.mod_add by lia. apply Z.mod_small. lia. Qed.

Lemma home_hi sh u : 32 <= sh -> home sh u = hi u / 2 ^ (sh - 32).
Proof.
  intros H. unfold home, hi. rewrite Z.div_div by (try apply Z.pow_pos_nonneg; lia).
  rewrite <- Z.pow_add_r by lia. do 2 f_equal. lia.
Qed.
Lemma home_mono sh u w : 32 <= sh -> hi u <= hi w -> home sh u <= home sh w.
Proof. intros H L. rewrite !home_hi by lia. apply Z.div_le_mono; [apply Z.pow_pos_nonneg; lia|exact L]. Qed.
Lemma home_same sh u w : 32 <= sh -> hi u = hi w -> home sh u = home sh w.
Proof. intros H E. rewrite !home_hi, E by lia. reflexivity. Qed.
Lemma home_bound sh u : 0 <= sh <= 64 -> 0 <= u < 2^64 -> 0 <= home sh u < 2 ^ (64 - sh).
Proof.
  intros H Hu. unfold home. assert (0 < 2^sh) by (apply Z.pow_pos_nonneg; lia). split.
  - apply Z.div_pos; lia.
  - apply Z.div_lt_upper_bound; [lia|]. rewrite <- Z.pow_add_r by lia. replace (sh + (64 - sh)) with 64 by lia. lia.
Qed.
Lemma home_pred sh u : 1 <= sh -> 2 * home sh u <= home (sh-1) u <= 2 * home sh u + 1.
Proof.
  intros H. unfold home. replace sh with (sh - 1 + 1) at 1 4 by lia. rewrite Z.pow_add_r by lia. change (2^1) with 2.
  rewrite <- Z.div_div by (try apply Z.pow_nonzero; lia). set (x := u / 2^(sh-1)). lia.
Qed.

(** Layout invariant of a table, as a function from position to word. *)
Record Lay (f : nat -> Z) (sh : Z) : Prop := {
  L_range : forall p, 0 <= f p <= EMPTY;
  L_home : forall p, f p <> EMPTY -> home sh (f p) <= Z.of_nat p;
  L_probe : forall p q, f p <> EMPTY -> home sh (f p) <= Z.of_nat q -> (q < p)%nat -> f q <> EMPTY;
  L_sort : forall p q, (p < q)%nat -> f p <> EMPTY -> f q <> EMPTY -> hi (f p) <= hi (f q);
  L_inj : forall p q, f p = f q -> f p <> EMPTY -> p = q
}.
Definition ent (f : nat -> Z) (u : Z) : Prop := u <> EMPTY /\ exists p, f p = u.

Lemma Lay_ext f g sh : (forall p, f p = g p) -> Lay f sh -> Lay g sh.
Proof.
  intros E [R H P So I]. constructor; intros; rewrite <- ?E in *; eauto.
Qed.

Lemma Lay_empty sh : Lay (fun _ => EMPTY) sh.
Proof. constructor; intros; try congruence. unfold EMPTY. lia. Qed.

Section InsertDelete.
Variable f : nat -> Z.
Variable sh : Z.
Hypothesis Hsh : 32 <= sh.
Hypothesis HL : Lay f sh.

Definition ins_fn (j je : nat) (e : Z) (q : nat) : Z :=
  if (q <? j)%nat then f q else if (q =? j)%nat then e else if (q <=? je)%nat then f (q-1)%nat else f q.

Lemma ins_ent j je e : (j <= je)%nat -> f je = EMPTY -> e <> EMPTY ->
  forall u, ent (ins_fn j je e) u <-> (u = e \/ ent f u).
Proof.
  intros Hj Hje He u. unfold ent, ins_fn. split.
  - intros [Hu [p Hp]]. destruct (Nat.ltb_spec p j); [right; split; eauto|].
    destruct (Nat.eqb_spec p j); [left; congruence|]. destruct (Nat.leb_spec p je); right; split; eauto.
  - intros [->|[Hu [p Hp]]].
    + split; [exact He|]. exists j. rewrite Nat.ltb_irrefl, Nat.eqb_refl. reflexivity.
    + split; [exact Hu|]. destruct (Nat.lt_ge_cases p j) as [L|L].
      * exists p. destruct (Nat.ltb_spec p j); [exact Hp|lia].
      * destruct (Nat.lt_ge_cases p je) as [L2|L2].
        -- exists (S p). destruct (Nat.ltb_spec (S p) j); [lia|]. destruct (Nat.eqb_spec (S p) j); [lia|].
           destruct (Nat.leb_spec (S p) je); [|lia]. replace (S p - 1)%nat with p by lia. exact Hp.
        -- assert (p <> je) by (intros ->; congruence). exists p.
           destruct (Nat.ltb_spec p j); [lia|]. destruct (Nat.eqb_spec p j); [lia|]. destruct (Nat.leb_spec p je); [lia|exact Hp].
Qed.

Lemma ins_lay j je e : (j <= je)%nat -> f je = EMPTY -> (forall q, (j <= q < je)%nat -> f q <> EMPTY) ->
  0 <= e < EMPTY -> ~ ent f e -> home sh e <= Z.of_nat j ->
  (forall q, home sh e <= Z.of_nat q -> (q < j)%nat -> f q <> EMPTY) ->
  (forall q, (q < j)%nat -> f q <> EMPTY -> hi (f q) <= hi e) ->
  (forall q, (j <= q)%nat -> f q <> EMPTY -> hi e <= hi (f q)) ->
  Lay (ins_fn j je e) sh.
Proof.
  intros Hj Hje Hrun He Hne Hho Hpr Hlo Hhi. destruct HL as [R H P So I].
  assert (Sel : forall q, (q < j /\ ins_fn j je e q = f q)%nat \/ (q = j /\ ins_fn j je e q = e) \/
                         ((j < q <= je)%nat /\ ins_fn j je e q = f (q-1)%nat) \/ ((je < q)%nat /\ ins_fn j je e q = f q)).
  { intros q. unfold ins_fn. destruct (Nat.ltb_spec q j); [left; auto|]. destruct (Nat.eqb_spec q j); [right; left; auto|].
    destruct (Nat.leb_spec q je); [right; right; left|right; right; right]; split; auto; lia. }
  assert (NE : forall q, (j <= q <= je)%nat -> ins_fn j je e q <> EMPTY).
  { intros q Hq. destruct (Sel q) as [[? ->]|[[? ->]|[[? ->]|[? ->]]]]; try lia. apply Hrun; lia. }
  constructor.
  - intros p. destruct (Sel p) as [[? ->]|[[? ->]|[[? ->]|[? ->]]]]; auto; lia.
  - intros p. destruct (Sel p) as [[? ->]|[[-> ->]|[[? ->]|[? ->]]]]; intros N; auto.
    specialize (H _ N). lia.
  - intros p q Hp Hq Lpq.
    destruct (Sel p) as [[Ap Ep]|[[Ap Ep]|[[Ap Ep]|[Ap Ep]]]]; rewrite Ep in *.
    + destruct (Sel q) as [[? ->]|[[? ->]|[[? ->]|[? ->]]]]; try lia. eapply P; eauto.
    + subst p. destruct (Sel q) as [[? ->]|[[? ->]|[[? ->]|[? ->]]]]; try lia. apply Hpr; auto.
    + destruct (Nat.lt_ge_cases q j).
      * destruct (Sel q) as [[? ->]|[[? ->]|[[? ->]|[? ->]]]]; try lia. apply (P (p-1)%nat q); auto. lia.
      * apply NE. lia.
    + destruct (Nat.lt_ge_cases je (Z.to_nat (home sh (f p)))).
      * destruct (Sel q) as [[? ->]|[[? ->]|[[? ->]|[? ->]]]]; try lia. eapply P; eauto.
      * exfalso. apply (P p je Hp); [|lia|exact Hje]. lia.
  - intros p q Lpq. 
    destruct (Sel p) as [[Ap Ep]|[[Ap Ep]|[[Ap Ep]|[Ap Ep]]]]; destruct (Sel q) as [[Aq Eq]|[[Aq Eq]|[[Aq Eq]|[Aq Eq]]]];
      rewrite Ep, Eq; intros Np Nq; try lia; auto.
    all: try (apply So; auto; lia).
    all: try (apply Hhi; auto; lia).
    all: try (apply Hlo; auto; lia).
  - intros p q Epq Np.
    assert (Ne : forall r, f r <> e) by (intros r Er; apply Hne; split; [lia|eauto]).
    destruct (Sel p) as [[Ap Ep]|[[Ap Ep]|[[Ap Ep]|[Ap Ep]]]]; destruct (Sel q) as [[Aq Eq]|[[Aq Eq]|[[Aq Eq]|[Aq Eq]]]];
      rewrite Ep in Epq, Np; rewrite Eq in Epq; try (exfalso; eapply Ne; eauto; fail); try lia;
      try (assert (X := I _ _ Epq Np); lia).
    all: exfalso; eapply Ne; symmetry; eassumption.
Qed.

Definition del_fn (j e : nat) (q : nat) : Z :=
  if (q <? j)%nat then f q else if (S q <? e)%nat then f (S q) else if (q <? e)%nat then EMPTY else f q.

(** [e]: the first position after [j] that is empty or whose entry is at home. *)
Lemma del_ent j e : (j < e)%nat -> f j <> EMPTY ->
  forall u, ent (del_fn j e) u <-> (u <> f j /\ ent f u).
Proof.
  intros Hj Hne u. unfold ent, del_fn. split.
  - intros [Hu [p Hp]]. destruct (Nat.ltb_spec p j).
    + repeat split; eauto. intros ->. apply (L_inj _ _ HL) in Hp; [lia|]. congruence.
    + destruct (Nat.ltb_spec (S p) e).
      * repeat split; eauto. intros ->. apply (L_inj _ _ HL) in Hp; [lia|]. congruence.
      * destruct (Nat.ltb_spec p e); [congruence|]. repeat split; eauto. intros ->. apply (L_inj _ _ HL) in Hp; [lia|]. congruence.
  - intros [Hn [Hu [p Hp]]]. split; [exact Hu|].
    assert (p <> j) by (intros ->; congruence).
    destruct (Nat.lt_ge_cases p j).
    + exists p. destruct (Nat.ltb_spec p j); [exact Hp|lia].
    + destruct (Nat.lt_ge_cases p e).
      * exists (p-1)%nat. destruct (Nat.ltb_spec (p-1) j); [lia|]. replace (S (p-1)) with p by lia.
        destruct (Nat.ltb_spec p e); [exact Hp|lia].
      * exists p. destruct (Nat.ltb_spec p j); [lia|]. destruct (Nat.ltb_spec (S p) e); [lia|]. destruct (Nat.ltb_spec p e); [lia|exact Hp].
Qed.

Lemma del_lay j e : (j < e)%nat -> f j <> EMPTY ->
  (forall q, (j < q < e)%nat -> f q <> EMPTY /\ home sh (f q) <> Z.of_nat q) ->
  (f e = EMPTY \/ home sh (f e) = Z.of_nat e) ->
  Lay (del_fn j e) sh.
Proof.
  intros Hj Hne Hrun Hstop. destruct HL as [R H P So I].
  assert (Sel : forall q, (q < j /\ del_fn j e q = f q)%nat \/ ((j <= q /\ S q < e)%nat /\ del_fn j e q = f (S q)) \/
                         ((S q = e)%nat /\ del_fn j e q = EMPTY) \/ ((e <= q)%nat /\ del_fn j e q = f q)).
  { intros q. unfold del_fn. destruct (Nat.ltb_spec q j); [left; auto|]. destruct (Nat.ltb_spec (S q) e); [right; left; auto|].
    destruct (Nat.ltb_spec q e); [right; right; left|right; right; right]; split; auto; lia. }
  constructor.
  - intros p. destruct (Sel p) as [[? ->]|[[? ->]|[[? ->]|[? ->]]]]; auto. unfold EMPTY; lia.
  - intros p. destruct (Sel p) as [[? ->]|[[? ->]|[[? ->]|[? ->]]]]; intros N; auto; [|congruence].
    assert (X := H _ N). destruct (Hrun (S p)) as [_ Y]; [lia|]. lia.
  - intros p q Hp Hq Lpq.
    destruct (Sel p) as [[Ap Ep]|[[Ap Ep]|[[Ap Ep]|[Ap Ep]]]]; rewrite Ep in *.
    + destruct (Sel q) as [[? ->]|[[? ->]|[[? ->]|[? ->]]]]; try lia. eapply P; eauto.
    + destruct (Sel q) as [[? ->]|[[? ->]|[[? ->]|[? ->]]]]; try lia.
      * apply (P (S p) q); auto. 
      * apply Hrun. lia.
    + congruence.
    + assert (Hge : (e <= q)%nat).
      { destruct (Nat.eq_dec p e) as [->|Hpe].
        - destruct Hstop as [Z|Z]; [congruence|]. lia.
        - destruct Hstop as [Z|Z].
          + destruct (Nat.lt_ge_cases q e); [|lia]. exfalso. apply (P p e Hp); [lia|lia|exact Z].
          + destruct (Nat.lt_ge_cases q e); [|lia]. exfalso.
            assert (f e <> EMPTY) as Ne by (apply (P p e Hp); lia).
            assert (hi (f e) <= hi (f p)) by (apply So; auto; lia).
            assert (home sh (f e) <= home sh (f p)) by (apply home_mono; auto). lia. }
      destruct (Sel q) as [[? ->]|[[? ->]|[[? ->]|[? ->]]]]; try lia. eapply P; eauto.
  - intros p q Lpq.
    destruct (Sel p) as [[Ap Ep]|[[Ap Ep]|[[Ap Ep]|[Ap Ep]]]]; destruct (Sel q) as [[Aq Eq]|[[Aq Eq]|[[Aq Eq]|[Aq Eq]]]];
      rewrite Ep, Eq; intros Np Nq; try congruence; try lia; apply So; auto; lia.
  - intros p q Epq Np.
    destruct (Sel p) as [[Ap Ep]|[[Ap Ep]|[[Ap Ep]|[Ap Ep]]]]; destruct (Sel q) as [[Aq Eq]|[[Aq Eq]|[[Aq Eq]|[Aq Eq]]]];
      rewrite Ep in Epq, Np; rewrite Eq in Epq; try congruence; assert (X := I _ _ Epq Np); lia.
Qed.
End InsertDelete.

(** Loops *)
Lemma find1_spec a v : forall fuel j e, (j <= e < length a)%nat -> v <= at_ a e -> (e < fuel + j)%nat ->
  exists j', find1 fuel a v j = Ok (j', at_ a j') /\ (j <= j' <= e)%nat /\ v <= at_ a j' /\ (forall q, (j <= q < j')%nat -> at_ a q < v).
Proof.
  induction fuel as [|fuel IH]; intros j e Hj He Hf; [lia|]. cbn [find1]. rewrite rd_at by lia. cbn [bind].
  destruct (Z.ltb_spec (at_ a j) v) as [L|L].
  - assert (j <> e) by (intros ->; lia).
    destruct (IH (S j) e) as [j' [E [B [G N]]]]; [lia|exact He|lia|].
    exists j'. rewrite E. repeat split; auto; try lia. intros q Hq. destruct (Nat.eq_dec q j) as [->|]; [exact L|]. apply N. lia.
  - exists j. repeat split; auto; try lia. 
Qed.

Lemma shift_spec : forall fuel a j u e, u = at_ a j -> (j <= e < length a)%nat -> at_ a e = EMPTY ->
  (forall q, (j <= q < e)%nat -> at_ a q <> EMPTY) -> (e < fuel + j)%nat ->
  exists a', shift fuel a j u = Ok (e, a') /\ length a' = length a /\
    forall q, at_ a' q = if (j <? q)%nat && (q <=? e)%nat then at_ a (q-1) else at_ a q.
Proof.
  (* generalised: the word at j may already have been overwritten, only u matters *)
  assert (G : forall fuel a j u e, (j <= e < length a)%nat ->
     (j = e /\ u = EMPTY \/ (j < e)%nat /\ u <> EMPTY /\ at_ a e = EMPTY /\ (forall q, (j < q < e)%nat -> at_ a q <> EMPTY)) -> (e < fuel + j)%nat ->
     exists a', shift fuel a j u = Ok (e, a') /\ length a' = length a /\
       forall q, at_ a' q = if (S j =? q)%nat && (q <=? e)%nat then u else if (S j <? q)%nat && (q <=? e)%nat then at_ a (q-1) else at_ a q).
  { induction fuel as [|fuel IH]; intros a j u e Hj Hc Hf; [lia|]. cbn [shift].
    destruct Hc as [[-> ->]|[L [Nu [Ee Hrun]]]].
    - rewrite Z.eqb_refl. exists a. split; [reflexivity|]. split; [reflexivity|]. intros q.
      destruct (Nat.eqb_spec (S e) q), (Nat.leb_spec q e), (Nat.ltb_spec (S e) q); cbn; try lia; reflexivity.
    - destruct (Z.eqb_spec u EMPTY); [contradiction|]. rewrite rd_at by lia. cbn [bind]. rewrite wr_ok by lia. cbn [bind].
      destruct (IH (upd a (S j) u) (S j) (at_ a (S j)) e) as [a' [E [Len P]]].
      + rewrite upd_length. lia.
      + destruct (Nat.eq_dec (S j) e) as [->|Hne]; [left; auto|]. right. split; [lia|]. split; [apply Hrun; lia|].
        rewrite at_upd by lia. destruct (Nat.eqb_spec (S j) e); [lia|]. split; [exact Ee|].
        intros q Hq. rewrite at_upd by lia. destruct (Nat.eqb_spec (S j) q); [lia|]. apply Hrun. lia.
      + lia.
      + exists a'. rewrite upd_length in Len. split; [exact E|]. split; [exact Len|]. intros q. rewrite P.
        rewrite !at_upd by lia.
        destruct (Nat.eqb_spec (S (S j)) q), (Nat.leb_spec q e), (Nat.ltb_spec (S (S j)) q), (Nat.eqb_spec (S j) q), (Nat.ltb_spec (S j) q), (Nat.eqb_spec (S j) (q-1)); cbn; try lia; try reflexivity; subst; replace (S (S j) - 1)%nat with (S j) by lia; reflexivity. }
  intros fuel a j u e Hu Hj He Hrun Hf. destruct (G fuel a j u e Hj) as [a' [E [Len P]]]; [|exact Hf|].
  - destruct (Nat.eq_dec j e) as [->|]; [left; split; congruence|]. right. split; [lia|]. split; [subst u; apply Hrun; lia|]. split; [exact He|]. intros q Hq. apply Hrun; lia.
  - exists a'. split; [exact E|]. split; [exact Len|]. intros q. rewrite P. subst u.
    destruct (Nat.eqb_spec (S j) q), (Nat.leb_spec q e), (Nat.ltb_spec (S j) q), (Nat.ltb_spec j q); cbn; try lia; try reflexivity. subst q. f_equal. lia.
Qed.

Lemma backshift_spec sh : 0 <= sh -> forall fuel a j e, (j < e < length a)%nat ->
  (forall q, (j < q < e)%nat -> at_ a q <> EMPTY /\ home sh (at_ a q) <> Z.of_nat q) ->
  (at_ a e = EMPTY \/ home sh (at_ a e) = Z.of_nat e) -> (e < fuel + S j)%nat ->
  exists a', backshift fuel a sh j = Ok a' /\ length a' = length a /\ forall q, at_ a' q = del_fn (at_ a) j e q.
Proof.
  intros Hsh. induction fuel as [|fuel IH]; intros a j e Hj Hrun Hstop Hf; [lia|]. cbn [backshift].
  rewrite rd_at by lia. cbn [bind]. rewrite shiftr_home by lia.
  destruct (Nat.eq_dec (S j) e) as [Ee|Ne].
  - assert (E : (if home sh (at_ a (S j)) =? Z.of_nat (S j) then EMPTY else at_ a (S j)) = EMPTY).
    { rewrite Ee. destruct (Z.eqb_spec (home sh (at_ a e)) (Z.of_nat e)); [reflexivity|]. destruct Hstop; [assumption|contradiction]. }
    rewrite E. rewrite wr_ok by lia. cbn [bind]. rewrite Z.eqb_refl. eexists. split; [reflexivity|]. rewrite upd_length. split; [reflexivity|].
    intros q. rewrite at_upd by lia. unfold del_fn. destruct (Nat.eqb_spec j q), (Nat.ltb_spec q j), (Nat.ltb_spec (S q) e), (Nat.ltb_spec q e); try lia; reflexivity.
  - destruct (Hrun (S j)) as [N1 N2]; [lia|]. destruct (Z.eqb_spec (home sh (at_ a (S j))) (Z.of_nat (S j))); [contradiction|].
    rewrite wr_ok by lia. cbn [bind]. destruct (Z.eqb_spec (at_ a (S j)) EMPTY); [contradiction|].
    assert (U : forall q, (j < q)%nat -> at_ (upd a j (at_ a (S j))) q = at_ a q).
    { intros q Hq. rewrite at_upd by lia. destruct (Nat.eqb_spec j q); [lia|reflexivity]. }
    destruct (IH (upd a j (at_ a (S j))) (S j) e) as [a' [E [Len P]]].
    + rewrite upd_length. lia.
    + intros q Hq. rewrite U by lia. apply Hrun. lia.
    + rewrite U by lia. exact Hstop.
    + lia.
    + exists a'. rewrite upd_length in Len. split; [exact E|]. split; [exact Len|]. intros q. rewrite P. unfold del_fn.
      rewrite !at_upd by lia.
      destruct (Nat.ltb_spec q (S j)), (Nat.ltb_spec (S q) e), (Nat.ltb_spec q e), (Nat.ltb_spec q j), (Nat.eqb_spec j q), (Nat.eqb_spec j (S q)); try lia; try reflexivity. subst q. reflexivity.
Qed.

(** Growing the table *)
Definition fits (sh : Z) (a : list Z) := Z.of_nat (length a) = hmsize sh.

Lemma at_repeat n p : at_ (repeat EMPTY n) p = EMPTY.
Proof. unfold at_. apply nth_repeat. Qed.

Lemma resize_loop_spec full sh : 33 <= sh <= 63 -> fits sh full -> Lay (at_ full) sh ->
  forall old done a j, full = done ++ old -> fits (sh-1) a -> Lay (at_ a) (sh-1) ->
  (-1 <= j < hmsize (sh-1)) -> j <= 2^(64-sh) + Z.of_nat (length done) - 1 ->
  (forall q, j < Z.of_nat q -> at_ a q = EMPTY) -> (0 <= j -> at_ a (Z.to_nat j) <> EMPTY) ->
  (forall u, ent (at_ a) u <-> (u <> EMPTY /\ exists p, (p < length done)%nat /\ at_ full p = u)) ->
  exists a', resize_loop old (sh-1) j a = Ok a' /\ fits (sh-1) a' /\ Lay (at_ a') (sh-1) /\
    (forall u, ent (at_ a') u <-> ent (at_ full) u).
Proof.
  intros Hsh Hfit HL. induction old as [|h old IH]; intros done a j Hfull Ha HLa Hj Hjb Hemp Hlast Hent; cbn [resize_loop].
  - exists a. split; [reflexivity|]. split; [exact Ha|]. split; [exact HLa|]. intros u. rewrite Hent. unfold ent.
    rewrite app_nil_r in Hfull. subst done. split.
    + intros [N [p [_ E]]]. eauto.
    + intros [N [p E]]. split; [exact N|]. exists p. split; [|exact E]. destruct (Nat.lt_ge_cases p (length full)); [assumption|].
      rewrite at_high in E by lia. congruence.
  - assert (Hh : at_ full (length done) = h).
    { subst full. unfold at_. rewrite app_nth2, Nat.sub_diag by lia. reflexivity. }
    assert (Hlen : (length done < length full)%nat) by (subst full; rewrite app_length; cbn; lia).
    destruct (Z.eqb_spec h EMPTY) as [->|Nh].
    + apply (IH (done ++ [EMPTY])); auto.
      * subst full. rewrite <- app_assoc. reflexivity.
      * rewrite app_length. cbn [length]. lia.
      * intros u. rewrite Hent. rewrite app_length. cbn [length]. split; intros [N [p [L E]]]; split; auto; exists p; split; auto; try lia.
        destruct (Nat.eq_dec p (length done)); [congruence|lia].
    + rewrite shiftr_home by lia. set (jh := home (sh-1) h).
      set (j2 := if j + 1 <? jh then jh else j + 1).
      assert (Hr : 0 <= h < 2^64) by (assert (X := L_range _ _ HL (length done)); rewrite Hh in X; unfold EMPTY in X; lia).
      assert (Hjh : 0 <= jh < 2 ^ (64 - (sh-1))) by (apply home_bound; lia).
      assert (Hp2 : 2 ^ (64 - (sh-1)) = 2 * 2 ^ (64-sh)) by (replace (64-(sh-1)) with (1 + (64-sh)) by lia; rewrite Z.pow_add_r by lia; reflexivity).
      assert (Hbig : jh <= 2^(64-sh) + Z.of_nat (length done)).
      { assert (X := home_pred sh h ltac:(lia)). assert (Y := home_bound sh h ltac:(lia) Hr).
        assert (W := L_home _ _ HL (length done)). rewrite Hh in W. specialize (W Nh). unfold jh. lia. }
      assert (Hlf : Z.of_nat (length full) = 2^(64-sh) + 32) by exact Hfit.
      assert (Hj2 : j < j2 /\ jh <= j2 /\ j2 <= 2^(64-sh) + Z.of_nat (length done) /\ 0 <= j2 < hmsize (sh-1) /\ (j2 = jh \/ j2 = j + 1)).
      { unfold j2, hmsize in *. destruct (Z.ltb_spec (j+1) jh); lia. }
      destruct Hj2 as [J1 [J2 [J3 [J4 J5]]]]. clearbody j2.
      assert (Hin : (Z.to_nat j2 < length a)%nat) by (unfold fits in Ha; lia).
      rewrite wr_ok by exact Hin. cbn [bind].
      assert (Hnew : ~ ent (at_ a) h).
      { rewrite Hent. intros [_ [p [L E]]]. rewrite <- Hh in E. apply (L_inj _ _ HL) in E; [lia|]. rewrite E, Hh. exact Nh. }
      assert (Hprev : forall q, at_ a q <> EMPTY -> hi (at_ a q) <= hi h).
      { intros q Nq. assert (ent (at_ a) (at_ a q)) as X by (split; eauto). apply Hent in X. destruct X as [_ [p [L E]]].
        rewrite <- E. rewrite <- Hh. apply (L_sort _ _ HL); [exact L|congruence|congruence]. }
      assert (Hpt : forall q, at_ (upd a (Z.to_nat j2) h) q = ins_fn (at_ a) (Z.to_nat j2) (Z.to_nat j2) h q).
      { intros q. rewrite at_upd by exact Hin. unfold ins_fn.
        destruct (Nat.eqb_spec (Z.to_nat j2) q), (Nat.ltb_spec q (Z.to_nat j2)), (Nat.eqb_spec q (Z.to_nat j2)), (Nat.leb_spec q (Z.to_nat j2)); try lia; reflexivity. }
      assert (He : at_ a (Z.to_nat j2) = EMPTY) by (apply Hemp; lia).
      apply (IH (done ++ [h])).
      * subst full. rewrite <- app_assoc. reflexivity.
      * unfold fits. rewrite upd_length. exact Ha.
      * eapply Lay_ext; [intros p; symmetry; apply Hpt|].
        apply ins_lay; auto; try lia.
        -- unfold EMPTY in *. lia.
        -- intros q Hq1 Hq2. fold jh in Hq1. destruct J5 as [->| ->]; [lia|].
           assert (0 <= j) by lia. destruct (Z.eq_dec (Z.of_nat q) j) as [Eq|].
           { replace q with (Z.to_nat j) by lia. apply Hlast. lia. }
           assert (Nj := Hlast ltac:(lia)). apply (L_probe _ _ HLa (Z.to_nat j) q Nj); [|lia].
           assert (X := Hprev _ Nj). apply (home_mono (sh-1)) in X; [|lia]. fold jh in X. lia.
      * lia.
      * rewrite app_length. cbn [length]. lia.
      * intros q Hq. rewrite at_upd by exact Hin. destruct (Nat.eqb_spec (Z.to_nat j2) q); [lia|]. apply Hemp. lia.
      * intros _. rewrite at_upd by exact Hin. rewrite Nat.eqb_refl. exact Nh.
      * intros u. unfold ent. split.
        -- intros Hu. assert (X : ent (ins_fn (at_ a) (Z.to_nat j2) (Z.to_nat j2) h) u) by (destruct Hu as [N [p E]]; split; [exact N|]; exists p; rewrite <- Hpt; exact E).
           apply ins_ent in X; auto. rewrite app_length. cbn [length]. destruct X as [->|X].
           ++ split; [exact Nh|]. exists (length done). split; [lia|exact Hh].
           ++ apply Hent in X. destruct X as [N [p [L E]]]. split; [exact N|]. exists p. split; [lia|exact E].
        -- rewrite app_length. cbn [length]. intros [N [p [L E]]].
           assert (X : ent (ins_fn (at_ a) (Z.to_nat j2) (Z.to_nat j2) h) u).
           { apply ins_ent; auto. destruct (Nat.eq_dec p (length done)) as [->|]; [left; congruence|]. right. apply Hent. split; [exact N|]. exists p. split; [lia|exact E]. }
           destruct X as [_ [q Eq]]. split; [exact N|]. exists q. rewrite Hpt. exact Eq.
Qed.

(** A table at the largest size, with the same entries, whose last slot is taken: the only way growth gives up. *)
Definition crowd (f : nat -> Z) : Prop :=
  exists a, fits 32 a /\ Lay (at_ a) 32 /\ at_ a (length a - 1) <> EMPTY /\ (forall u, ent (at_ a) u <-> ent f u).

Lemma resize_spec : forall fuel m, 32 <= shf m <= 63 -> (Z.to_nat (shf m - 31) <= fuel)%nat -> fits (shf m) (hp m) -> Lay (at_ (hp m)) (shf m) -> (shf m = 32 -> at_ (hp m) (length (hp m) - 1) <> EMPTY) ->
  match resize fuel m with
  | Ok m' => 32 <= shf m' <= 63 /\ pop m' = pop m /\ fits (shf m') (hp m') /\ Lay (at_ (hp m')) (shf m') /\
             at_ (hp m') (length (hp m') - 1) = EMPTY /\ (forall u, ent (at_ (hp m')) u <-> ent (at_ (hp m)) u)
  | Err => crowd (at_ (hp m))
  | UB => False
  end.
Proof.
  induction fuel as [|fuel IH]; intros m Hsh Hf Hfit HL Hcr; [lia|]. cbn [resize].
  destruct (Z.ltb_spec (shf m - 1) 32) as [Hlt|Hlt].
  { assert (E32 : shf m = 32) by lia. exists (hp m). rewrite E32 in *. split; [exact Hfit|]. split; [exact HL|]. split; [auto|]. reflexivity. }
  assert (Hp : 0 < 2 ^ (64 - (shf m - 1))) by (apply Z.pow_pos_nonneg; lia).
  destruct (resize_loop_spec (hp m) (shf m)) with (old := hp m) (done := @nil Z) (a := hp (hm_alloc (pop m) (shf m - 1))) (j := -1) as [a [E [Fa [La Ea]]]].
  - lia.
  - exact Hfit.
  - exact HL.
  - reflexivity.
  - unfold fits, hm_alloc. cbn [hp]. rewrite repeat_length. unfold hmsize in *. lia.
  - eapply Lay_ext; [|apply Lay_empty]. intros p. unfold hm_alloc; cbn [hp]. symmetry. apply at_repeat.
  - unfold hmsize. lia.
  - cbn [length]. assert (0 < 2 ^ (64 - shf m)) by (apply Z.pow_pos_nonneg; lia). lia.
  - intros q _. apply at_repeat.
  - lia.
  - intros u. split.
    + intros [N [p Ep]]. unfold hm_alloc in Ep; cbn [hp] in Ep. rewrite at_repeat in Ep. congruence.
    + intros [_ [p [L _]]]. cbn in L. lia.
  - rewrite E. cbn [bind]. assert (Hlen : (Z.to_nat (hmsize (shf m - 1) - 1) < length a)%nat) by (unfold fits, hmsize in *; lia).
    rewrite rd_at by exact Hlen. cbn [bind].
    assert (Hl2 : Z.to_nat (hmsize (shf m - 1) - 1) = (length a - 1)%nat) by (unfold fits, hmsize in *; lia).
    destruct (Z.eqb_spec (at_ a (Z.to_nat (hmsize (shf m - 1) - 1))) EMPTY) as [El|Nl].
    + cbn [shf pop hp]. rewrite Hl2 in El. split; [lia|]. split; [reflexivity|]. split; [exact Fa|]. split; [exact La|]. split; [exact El|exact Ea].
    + specialize (IH (HM (pop m) (shf m - 1) a)). cbn [shf pop hp] in IH.
      destruct (resize fuel _) as [m'| |].
      * destruct IH as [I1 [I2 [I3 [I4 [I5 I6]]]]]; [lia|lia|exact Fa|exact La|intros _; rewrite <- Hl2; exact Nl|].
        split; [exact I1|]. split; [exact I2|]. split; [exact I3|]. split; [exact I4|]. split; [exact I5|]. intros u. rewrite I6. apply Ea.
      * destruct IH as [a1 [C1 [C2 [C3 C4]]]]; [lia|lia|exact Fa|exact La|intros _; rewrite <- Hl2; exact Nl|].
        exists a1. split; [exact C1|]. split; [exact C2|]. split; [exact C3|]. intros u. rewrite C4. apply Ea.
      * apply IH; auto; try lia. intros _; rewrite <- Hl2; exact Nl.
Qed.
