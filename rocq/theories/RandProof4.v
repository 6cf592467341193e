From Verif Require Import Base BitsModel BitsSpec BitsProof WidenModel RandModel RandSpec RandProof RandProof2 RandProof3.
From Coq Require Import Permutation Sorting.Sorted.

Lemma sl_shift m m' a a' n : (forall k, 0 <= k < n -> word m' (a' + k) = word m (a + k)) -> sl m' a' n = sl m a n.
Proof. intros H. unfold sl, zr. rewrite !map_map. apply map_ext_in. intros k K. apply in_seq in K. apply H. lia. Qed.
Lemma word_cons v l k : 0 <= k -> word (v :: l) (k + 1) = word l k.
Proof. intros K. unfold word. replace (Z.to_nat (k + 1)) with (S (Z.to_nat k)) by lia. reflexivity. Qed.
Lemma sorted_filter f : forall l, (forall p q, 0 <= p < q -> q < len l -> f (word l p) = true -> f (word l q) = true -> word l p < word l q) -> StronglySorted Z.lt (filter f l).
Proof.
  induction l as [|v l IH]; intros H; [constructor|]. cbn [filter]. assert (Ll : len (v :: l) = len l + 1) by (unfold len; cbn [length]; lia).
  assert (S : StronglySorted Z.lt (filter f l)). { apply IH. intros p q P Q Fp Fq. specialize (H (p + 1) (q + 1) ltac:(lia) ltac:(lia)). rewrite !word_cons in H by lia. auto. }
  destruct (f v) eqn:Fv; [|exact S]. constructor; [exact S|]. apply Forall_forall. intros w Hw. apply filter_In in Hw. destruct Hw as (Hin&Fw). apply (In_nth _ _ 0) in Hin. destruct Hin as (k&K&Ek).
  assert (Ew : word (v :: l) (Z.of_nat k + 1) = w) by (rewrite word_cons by lia; unfold word; rewrite Nat2Z.id; exact Ek). specialize (H 0 (Z.of_nat k + 1) ltac:(lia) ltac:(unfold len in *; lia)). rewrite Ew in H. apply H; auto.
Qed.
Lemma first_at (m : list Z) v p : forall n : nat, (forall q, p <= q < p + Z.of_nat n -> word m q <> v) \/ exists r, p <= r < p + Z.of_nat n /\ word m r = v /\ forall q, p <= q < r -> word m q <> v.
Proof.
  induction n as [|n [IH|(r&R&E&B)]]; [left; intros; lia| |].
  - destruct (Z.eq_dec (word m (p + Z.of_nat n)) v) as [E|N]. + right. exists (p + Z.of_nat n). split; [lia|]. split; [exact E|]. intros q Q. apply IH. lia. + left. intros q Q. destruct (Z.eq_dec q (p + Z.of_nat n)) as [->|]; [exact N|]. apply IH. lia.
  - right. exists r. split; [lia|auto].
Qed.

Section sorted.
Context (wi xi sh : Z) (W : 1 <= wi < xi) (SH : 0 <= sh).
Definition hm (j : Z) : Z := Z.shiftr j sh.
Lemma hm_le a b : a <= b -> hm a <= hm b. Proof. intros. unfold hm. rewrite !Z.shiftr_div_pow2 by ql. apply Z.div_le_mono; auto. apply Z.pow_pos_nonneg; ql. Qed.
Lemma hm_lt a b : hm a < hm b -> a < b. Proof. intros H. destruct (Z.lt_ge_cases a b) as [|G]; [auto|]. pose proof (hm_le b a G). ql. Qed.
Lemma hm_pos a : 0 <= a -> 0 <= hm a. Proof. intros. unfold hm. apply Z.shiftr_nonneg. auto. Qed.
Context (sz : Z) (SZ : sz = hm (xi - 1) + 1 + wi).
Definition cnt (m : list Z) : Z := Z.of_nat (length (filter (fun h => negb (h =? xi)) m)).
Lemma cnt_app a b : cnt (a ++ b) = cnt a + cnt b. Proof. unfold cnt. rewrite filter_app, app_length. ql. Qed.
Lemma cnt_all m : Forall (fun h => h <> xi) m -> cnt m = len m.
Proof. unfold cnt, len. induction 1 as [|h m N F IH]; [reflexivity|]. cbn [filter length]. destruct (Z.eqb_spec h xi); [ql|]. cbn [negb length]. ql. Qed.
Lemma cnt_pos m : 0 <= cnt m. Proof. unfold cnt. ql. Qed.
Lemma run_cnt m a b : 0 <= a <= b -> b <= len m -> (forall q, a <= q < b -> word m q <> xi) -> b - a <= cnt m.
Proof.
  intros A B H. rewrite <- (sl_all m). rewrite (sl_split m 0 (len m) a), (sl_split m (0 + a) (len m - a) (b - a)) by ql. rewrite !cnt_app. rewrite (cnt_all (sl m (0 + a) (b - a))).
  - rewrite sl_len by ql. pose proof (cnt_pos (sl m 0 a)). pose proof (cnt_pos (sl m (0 + a + (b - a)) (len m - a - (b - a)))). ql.
  - apply Forall_forall. intros v V. unfold sl in V. apply in_map_iff in V. destruct V as (q&<-&Q). apply zr_in in Q. apply H. ql.
Qed.
Lemma shift_ok : forall fuel m p h r, 0 <= p < r -> r < len m -> r - p <= Z.of_nat fuel -> word m r = xi -> (forall q, p + 1 <= q < r -> word m q <> xi) -> h <> xi ->
  exists m', shift_run fuel m xi p h = Ok m' /\ len m' = len m /\ forall q, 0 <= q -> word m' q = if q =? p + 1 then h else if (p + 1 <? q) && (q <=? r) then word m (q - 1) else word m q.
Proof.
  induction fuel as [|fuel IH]; intros m p h r P R F Hr Hq Hh; [ql|]. cbn [shift_run]. destruct (Z.eqb_spec h xi); [ql|]. rewrite rdz_ok by ql. cbn [bind]. rewrite wrz_ok by ql. cbn [bind].
  destruct (Z.eq_dec (p + 1) r) as [E|N].
  - rewrite E, Hr. destruct fuel; cbn [shift_run]; rewrite Z.eqb_refl; (eexists; split; [reflexivity|]; split; [apply len_upd|]; intros q Q; rewrite word_upd by ql; destruct (Z.eqb_spec q r); [reflexivity|]; destruct (Z.ltb_spec r q), (Z.leb_spec q r); try ql; reflexivity).
  - destruct (IH (upd m (Z.to_nat (p + 1)) h) (p + 1) (word m (p + 1)) r) as (m'&E&L&H); try (rewrite ?len_upd; ql).
    + rewrite word_upd by ql. destruct (Z.eqb_spec r (p + 1)); [ql|exact Hr].
    + intros q Q. rewrite word_upd by ql. destruct (Z.eqb_spec q (p + 1)); [ql|]. apply Hq. ql.
    + apply Hq. ql.
    + exists m'. split; [exact E|]. split; [rewrite L; apply len_upd|]. intros q Q. rewrite H by ql. rewrite (word_upd m (p + 1) q) by ql.
      destruct (Z.eqb_spec q (p + 1 + 1)) as [->|]. { destruct (Z.eqb_spec (p + 1 + 1) (p + 1)); [ql|]. destruct (Z.ltb_spec (p + 1) (p + 1 + 1)), (Z.leb_spec (p + 1 + 1) r); try ql. cbn [andb]. f_equal. ql. }
      destruct (Z.ltb_spec (p + 1 + 1) q), (Z.leb_spec q r), (Z.eqb_spec q (p + 1)), (Z.ltb_spec (p + 1) q); try ql; cbn [andb]; try reflexivity. rewrite word_upd by ql. destruct (Z.eqb_spec (q - 1) (p + 1)); [ql|reflexivity].
Qed.
Definition Tb (m : list Z) (b c : Z) : Prop := len m = sz /\ cnt m = c /\
  (forall p, 0 <= p < sz -> word m p <> xi -> 0 <= word m p < b /\ hm (word m p) <= p /\ forall q, hm (word m p) <= q <= p -> word m q <> xi) /\
  (forall p q, 0 <= p < q -> q < sz -> word m p <> xi -> word m q <> xi -> word m p < word m q).
Lemma insert_here m i c j p : Tb m i c -> c < wi -> 0 <= i < xi -> 0 <= j <= i -> hm j <= p -> (forall q, hm j <= q < p -> word m q <> xi /\ word m q < j) -> p < sz -> j < word m p ->
  exists m', (do hash <- wrz m p j; shift_run (length hash) hash xi p (word m p)) = Ok m' /\ Tb m' (i + 1) (c + 1).
Proof.
  intros (L&C&H1&H2) Cw I J P0 Hl P1 Hj. pose proof (hm_pos j ltac:(ql)) as Hp. pose proof (hm_le j (xi - 1) ltac:(ql)) as Hx. rewrite wrz_ok by ql. cbn [bind].
  destruct (first_at m xi p (Z.to_nat (sz - p))) as [A|(r&R&Er&Br)].
  { exfalso. assert (Q : sz - hm j <= cnt m). { apply run_cnt; try ql. intros q Q. destruct (Z.lt_ge_cases q p); [apply Hl; ql|apply A; ql]. } ql. }
  assert (Rs : exists m', shift_run (length (upd m (Z.to_nat p) j)) (upd m (Z.to_nat p) j) xi p (word m p) = Ok m' /\ len m' = sz /\ forall q, 0 <= q -> word m' q = if q =? p then j else if (p <? q) && (q <=? r) then word m (q - 1) else word m q).
  { destruct (Z.eq_dec (word m p) xi) as [Ex|Nx].
    - assert (r = p) by (destruct (Z.eq_dec r p); [auto|]; exfalso; apply (Br p); auto; ql). subst r. destruct (length (upd m (Z.to_nat p) j)); cbn [shift_run]; rewrite Ex, Z.eqb_refl; (eexists; split; [reflexivity|]; split; [rewrite len_upd; exact L|]; intros q Q; rewrite word_upd by ql; destruct (Z.eqb_spec q p); [reflexivity|]; destruct (Z.ltb_spec p q), (Z.leb_spec q p); try ql; reflexivity).
    - assert (r <> p) by congruence. destruct (shift_ok (length (upd m (Z.to_nat p) j)) (upd m (Z.to_nat p) j) p (word m p) r) as (m'&E&Lm&Hm); try (rewrite ?len_upd; ql).
      + rewrite upd_length. unfold len in L. ql.
      + rewrite word_upd by ql. destruct (Z.eqb_spec r p); [ql|exact Er].
      + intros q Q. rewrite word_upd by ql. destruct (Z.eqb_spec q p); [ql|]. apply Br. ql.
      + exists m'. split; [exact E|]. split; [rewrite Lm, len_upd; exact L|]. intros q Q. rewrite Hm by ql. rewrite (word_upd m p q) by ql.
        destruct (Z.eqb_spec q (p + 1)) as [->|]. { destruct (Z.eqb_spec (p + 1) p); [ql|]. destruct (Z.ltb_spec p (p + 1)), (Z.leb_spec (p + 1) r); try ql. cbn [andb]. f_equal. ql. }
        destruct (Z.ltb_spec (p + 1) q), (Z.leb_spec q r), (Z.eqb_spec q p), (Z.ltb_spec p q); try ql; cbn [andb]; try reflexivity. rewrite word_upd by ql. destruct (Z.eqb_spec (q - 1) p); [ql|reflexivity]. }
  destruct Rs as (m'&Es&Lm&Hm). exists m'. split; [exact Es|]. clear Es.
  assert (Bef : forall q, 0 <= q < p -> word m q <> xi -> word m q < j). { intros q Q N. destruct (Z.lt_ge_cases q (hm j)); [|apply Hl; ql]. destruct (H1 q ltac:(ql) N) as (_&A&_). apply hm_lt. ql. }
  assert (Aft : forall q, p <= q < sz -> word m q <> xi -> j < word m q). { intros q Q N. destruct (Z.eq_dec q p) as [->|]; [exact Hj|]. destruct (Z.eq_dec (word m p) xi) as [Ex|Nx].
    - destruct (H1 q ltac:(ql) N) as (_&A&B). apply hm_lt. destruct (Z.lt_ge_cases p (hm (word m q))); [ql|]. exfalso. apply (B p); auto. ql.
    - pose proof (H2 p q ltac:(ql) ltac:(ql) Nx N). ql. }
  assert (Cl : forall q, 0 <= q < sz -> word m' q <> xi -> q = p /\ word m' q = j \/ exists o, 0 <= o < sz /\ word m' q = word m o /\ word m o <> xi /\ (q = o /\ (o < p \/ r < o) \/ q = o + 1 /\ p <= o < r)).
  { intros q Q. rewrite Hm by ql. destruct (Z.eqb_spec q p); [auto|]. destruct (Z.ltb_spec p q), (Z.leb_spec q r); cbn [andb]; intros N; right.
    - exists (q - 1). repeat split; auto; try ql. - exists q. repeat split; auto; try ql. - exists q. repeat split; auto; ql. - exists q. repeat split; auto; ql. }
  assert (Fl : forall q, 0 <= q < sz -> p <= q <= r \/ word m q <> xi -> word m' q <> xi).
  { intros q Q D. rewrite Hm by ql. destruct (Z.eqb_spec q p); [ql|]. destruct (Z.ltb_spec p q), (Z.leb_spec q r); cbn [andb]; try (destruct D; [ql|assumption]). apply Br. ql. }
  split; [exact Lm|]. split; [|split].
  - rewrite <- (sl_all m), L, (sl_split m 0 sz p), (sl_split m (0 + p) (sz - p) (r - p)), (sl_cons m (0 + p + (r - p))) in C by ql. rewrite <- (sl_all m'), Lm, (sl_split m' 0 sz p), (sl_cons m' (0 + p)), (sl_split m' (0 + p + 1) (sz - p - 1) (r - p)) by ql. cbn [Z.add] in *.
    rewrite (sl_ext m m' 0 p) by (intros k K; rewrite Hm by ql; destruct (Z.eqb_spec k p); [ql|]; destruct (Z.ltb_spec p k); [ql|reflexivity]).
    rewrite (sl_shift m m' p (p + 1) (r - p)) by (intros k K; rewrite Hm by ql; destruct (Z.eqb_spec (p + 1 + k) p); [ql|]; destruct (Z.ltb_spec p (p + 1 + k)), (Z.leb_spec (p + 1 + k) r); try ql; cbn [andb]; f_equal; ql).
    rewrite (sl_shift m m' (p + (r - p) + 1) (p + 1 + (r - p)) (sz - p - 1 - (r - p))) by (intros k K; rewrite Hm by ql; destruct (Z.eqb_spec (p + 1 + (r - p) + k) p); [ql|]; destruct (Z.leb_spec (p + 1 + (r - p) + k) r); [ql|]; rewrite andb_false_r; f_equal; ql).
    replace (word m' p) with j by (rewrite Hm by ql; rewrite Z.eqb_refl; reflexivity). replace (word m (p + (r - p))) with xi in C by (replace (p + (r - p)) with r by ql; auto). replace (sz - p - (r - p) - 1) with (sz - p - 1 - (r - p)) in C by ql.
    rewrite !cnt_app in *. change (?a :: ?b) with ([a] ++ b) in *. rewrite !cnt_app in *. unfold cnt at 2. cbn [filter]. destruct (Z.eqb_spec j xi); [ql|]. cbn [negb length]. unfold cnt at 3 in C. cbn [filter] in C. rewrite Z.eqb_refl in C. cbn [negb length] in C. change (Z.of_nat 1) with 1. change (Z.of_nat 0) with 0 in C. ql.
  - intros q Q N. destruct (Cl q Q N) as [(->&E)|(o&O&Eo&No&D)].
    + rewrite E. split; [ql|]. split; [ql|]. intros k K. apply Fl; [ql|]. destruct (Z.eq_dec k p); [left; ql|]. right. apply Hl. ql.
    + rewrite Eo. destruct (H1 o O No) as (A&B&G). split; [ql|]. split; [ql|]. pose proof (hm_pos (word m o) ltac:(ql)). intros k K. apply Fl; [ql|]. destruct (Z.le_gt_cases k o); [right; apply G; ql|left; ql].
  - intros q1 q2 Q1 Q2 N1 N2. destruct (Cl q1 ltac:(ql) N1) as [(->&E1)|(o1&O1&Eo1&No1&D1)], (Cl q2 ltac:(ql) N2) as [(->&E2)|(o2&O2&Eo2&No2&D2)].
    + ql. + rewrite E1, Eo2. apply Aft; auto. ql. + rewrite Eo1, E2. apply Bef; auto. ql. + rewrite Eo1, Eo2. apply H2; auto; ql.
Qed.
Lemma insert_ok m i c : Tb m i c -> 0 <= c < wi -> 0 <= i < xi -> forall fuel j p, 0 <= j <= i -> hm j <= p -> (forall q, hm j <= q < p -> word m q <> xi /\ word m q < j) -> p < sz -> hm j + c - p + (if j =? i then 0 else c + 1) < Z.of_nat fuel ->
  exists m', insert_at fuel m xi sh i j p = Ok m' /\ Tb m' (i + 1) (c + 1).
Proof.
  intros T Cw I. pose proof T as (L&C&H1&H2). induction fuel as [|fuel IH]; intros j p J P0 Hl P1 F.
  - exfalso. pose proof (hm_pos j ltac:(ql)). assert (Q : p - hm j <= cnt m) by (apply run_cnt; try ql; intros q Q; apply Hl; ql). destruct (j =? i); ql.
  - cbn [insert_at]. pose proof (hm_pos j ltac:(ql)) as Hp. rewrite rdz_ok by ql. cbn [bind]. destruct (Z.ltb_spec j (word m p)) as [Lt|Ge]; [apply (insert_here m i c j p); auto; ql|].
    assert (N : word m p <> xi) by ql. destruct (Z.eqb_spec (word m p) j) as [E|Ne].
    + destruct (H1 p ltac:(ql) N) as (B&_). destruct (Z.eqb_spec j i) as [->|Nj]; [ql|]. pose proof (hm_pos i ltac:(ql)). pose proof (hm_le i (xi - 1) ltac:(ql)). change (Z.shiftr i sh) with (hm i).
      assert (Q : p + 1 - hm j <= cnt m) by (apply run_cnt; try ql; intros q Q; destruct (Z.eq_dec q p) as [->|]; [exact N|apply Hl; ql]).
      apply IH; try ql. rewrite Z.eqb_refl. ql.
    + assert (Q : p + 1 - hm j <= cnt m) by (apply run_cnt; try ql; intros q Q; destruct (Z.eq_dec q p) as [->|]; [exact N|apply Hl; ql]). pose proof (hm_le j (xi - 1) ltac:(ql)).
      apply IH; try ql. intros q Q'. destruct (Z.eq_dec q p) as [->|]; [split; [exact N|ql]|apply Hl; ql].
Qed.
End sorted.

Lemma halvings_ok wi : 1 <= wi -> forall fuel xt s, 0 <= s -> 0 <= xt < 2^Z.of_nat fuel -> exists s', halvings fuel xt wi s = Ok s' /\ 0 <= s'.
Proof.
  intros W. induction fuel as [|f IH]; intros xt s Sp X; cbn [halvings]; destruct (Z.leb_spec wi xt).
  - change (2^Z.of_nat 0) with 1 in X. ql. - exists s; auto.
  - apply IH; [ql|]. rewrite Z.shiftr_div_pow2 by ql. change (2^1) with 2. replace (2^Z.of_nat (S f)) with (2 * 2^Z.of_nat f) in X by (rewrite Nat2Z.inj_succ, Z.pow_succ_r by ql; reflexivity). split; [apply Z.div_pos; ql|]. apply Z.div_lt_upper_bound; ql.
  - exists s; auto.
Qed.
Lemma sorted_ok wi xi seed : 1 <= wi < xi -> xi < 2^31 -> state seed -> exists l seed', sorted_subset wi xi seed = Ok (l, seed') /\ state seed' /\ subset_of wi xi l.
Proof.
  intros W X S. unfold sorted_subset. destruct (halvings_ok wi ltac:(ql) 32 (xi / 4) 0 ltac:(ql)) as (sh&Eh&SH). { change (2^Z.of_nat 32) with 4294967296. split; [apply Z.div_pos; ql|]. apply Z.div_lt_upper_bound; ql. }
  rewrite Eh. cbn [bind]. cbv zeta. change (Z.shiftr (xi - 1) sh) with (hm sh (xi - 1)). pose proof (hm_pos sh (xi - 1) ltac:(ql)) as Hx. remember (hm sh (xi - 1) + 1 + wi) as sz eqn:SZ.
  match goal with |- context [for_ _ _ ?f _] => destruct (for_keep f (fun i st => let '(m, sd) := st in state sd /\ Tb xi sh sz m i (i - (xi - wi))) (Z.to_nat wi) (xi - wi) (repeat xi (Z.to_nat sz), seed)) as ([m sd]&E&Sd&T) end.
  - intros i [m s] I (Sd&T). draw Sd. pose proof (wy2u0k_ok rnd (i + 1) Hr ltac:(ql)) as J. set (j := wy2u0k rnd (i + 1)) in *. pose proof (hm_le sh SH j (xi - 1) ltac:(ql)) as Hj.
    pose proof T as (L&_). destruct (insert_ok wi xi sh W SH sz SZ m i (i - (xi - wi)) T ltac:(ql) ltac:(ql) (2 * length m + 2) j (Z.shiftr j sh)) as (m'&E&T'); try (unfold hm in *; ql). { unfold hm, len in *. destruct (j =? i); ql. }
    rewrite E. cbn [bind]. eexists. split; [reflexivity|]. split; [exact Hs|]. replace (i + 1 - (xi - wi)) with (i - (xi - wi) + 1) by ql. exact T'.
  - split; [exact S|]. assert (K0 : forall k, 0 <= k < sz -> word (repeat xi (Z.to_nat sz)) k = xi) by (intros k K; apply repeat_word; ql). split; [apply repeat_len; ql|]. split; [|split].
    + rewrite Z.sub_diag. unfold cnt. generalize (Z.to_nat sz). induction n as [|n IH]; [reflexivity|]. cbn [repeat filter]. rewrite Z.eqb_refl. exact IH.
    + intros p P N. rewrite K0 in N by ql. congruence.
    + intros p q P Q N. rewrite K0 in N by ql. congruence.
  - rewrite E. cbn [bind]. replace (xi - wi + Z.of_nat (Z.to_nat wi)) with xi in T by ql. destruct T as (L&C&H1&H2). eexists _, sd. split; [reflexivity|]. split; [exact Sd|]. split; [unfold len; unfold cnt in C; ql|]. split.
    + apply sorted_filter. intros p q P Q Fp Fq. destruct (Z.eqb_spec (word m p) xi); [discriminate|]. destruct (Z.eqb_spec (word m q) xi); [discriminate|]. apply H2; auto; ql.
    + unfold below. apply Forall_forall. intros v V. apply filter_In in V. destruct V as (V&N). apply (In_nth _ _ 0) in V. destruct V as (k&K&<-). assert (Ek : nth k m 0 = word m (Z.of_nat k)) by (unfold word; rewrite Nat2Z.id; reflexivity). rewrite Ek in *. destruct (Z.eqb_spec (word m (Z.of_nat k)) xi); [discriminate|]. unfold len in L. destruct (H1 (Z.of_nat k) ltac:(ql) ltac:(assumption)) as (A&_). exact A.
Qed.
Lemma subset_ok wi xi seed : 0 <= wi <= xi -> xi < 2^31 -> state seed -> exists l seed', subset_c2 wi xi seed = Ok (l, seed') /\ state seed' /\ subset_of wi xi l.
Proof.
  intros W X S. unfold subset_c2. destruct (Z.ltb_spec wi 0); [ql|]. destruct (Z.ltb_spec xi 0); [ql|]. destruct (Z.ltb_spec xi wi); [ql|].
  destruct (Z.eqb_spec wi 0) as [->|]. { exists [], seed. split; [reflexivity|]. split; [exact S|]. split; [reflexivity|]. split; constructor. }
  destruct (Z.eqb_spec wi xi) as [->|]. { exists (iota xi), seed. split; [reflexivity|]. split; [exact S|]. split; [apply iota_len; ql|]. split.
    - unfold ascending. pose proof (sorted_filter (fun _ => true) (iota xi)) as G. assert (Ft : forall l : list Z, filter (fun _ => true) l = l) by (induction l as [|v l IH]; [reflexivity|]; cbn [filter]; rewrite IH; reflexivity). rewrite Ft in G. apply G. intros p q P Q _ _. rewrite iota_len in Q by ql. rewrite !iota_word by ql. ql.
    - unfold below. apply Forall_forall. intros v V. rewrite iota_zr in V. apply zr_in in V. ql. }
  destruct (Z.ltb_spec (xi / 8) wi); [apply byte_ok; auto; ql|apply sorted_ok; auto; ql].
Qed.
