(** Proofs for the radix passes of SortModel: they are distributions into buckets, each stable. *)
From Verif Require Import Base BitsModel TimsortModel TimsortSpec TimsortProof SortModel.

(** ** distribution into buckets *)
Section Bucket.
Context {A : Type} (K : A -> nat).
Definition bucket (N : nat) (l : list A) : list A := concat (map (fun j => filter (fun x => (K x =? j)%nat) l) (seq 0 N)).
Definition cnt (j : nat) (l : list A) : nat := length (filter (fun x => (K x =? j)%nat) l).
Definition off (j : nat) (l : list A) : nat := length (filter (fun x => (K x <? j)%nat) l).

Lemma bucket_S N l : bucket (S N) l = bucket N l ++ filter (fun x => (K x =? N)%nat) l.
Proof. unfold bucket. rewrite seq_S, map_app, concat_app. cbn [map concat Nat.add]. now rewrite app_nil_r. Qed.
Lemma bucket_perm_lt N l : Permutation (filter (fun x => (K x <? N)%nat) l) (bucket N l).
Proof.
  induction N as [|N IH].
  - cbn. induction l as [|x l IH]; [constructor|exact IH].
  - rewrite bucket_S. apply Permutation_trans with (filter (fun x => (K x <? N)%nat) l ++ filter (fun x => (K x =? N)%nat) l).
    2: apply Permutation_app_tail, IH.
    clear IH. induction l as [|x l IH]; cbn [filter]; [constructor|].
    destruct (Nat.ltb_spec (K x) (S N)), (Nat.ltb_spec (K x) N), (Nat.eqb_spec (K x) N); try lia.
    + cbn [app]. now apply perm_skip.
    + apply Permutation_cons_app. exact IH.
    + exact IH.
Qed.
Lemma filter_true_all (P : A -> bool) l : (forall x, In x l -> P x = true) -> filter P l = l.
Proof. induction l as [|x l IH]; intros H; cbn [filter]; [reflexivity|]. rewrite (H x (or_introl eq_refl)), IH; auto. intros y Hy. apply H. now right. Qed.
Lemma bucket_perm N l : (forall x, In x l -> (K x < N)%nat) -> Permutation l (bucket N l).
Proof.
  intros H. rewrite <- (filter_true_all (fun x => (K x <? N)%nat) l) at 1; [apply bucket_perm_lt|]. intros x Hx. specialize (H x Hx). lia.
Qed.
Lemma bucket_in N l x : In x (bucket N l) -> In x l /\ (K x < N)%nat.
Proof.
  intros H. apply (Permutation_in x (Permutation_sym (bucket_perm_lt N l))) in H. apply filter_In in H. destruct H. split; [assumption|lia].
Qed.
Lemma bucket_length j l : length (bucket j l) = off j l.
Proof. symmetry. apply Permutation_length, bucket_perm_lt. Qed.
Lemma off_lt j j' l : (j < j')%nat -> (off j l + cnt j l <= off j' l)%nat.
Proof.
  intros H. unfold off, cnt. induction l as [|x l IH]; cbn [filter length]; [lia|].
  destruct (Nat.ltb_spec (K x) j), (Nat.eqb_spec (K x) j), (Nat.ltb_spec (K x) j'); cbn [length]; lia.
Qed.
Lemma off_n j l : (off j l + cnt j l <= length l)%nat.
Proof.
  unfold off, cnt. induction l as [|x l IH]; cbn [filter length]; [lia|].
  destruct (Nat.ltb_spec (K x) j), (Nat.eqb_spec (K x) j); cbn [length]; lia.
Qed.
Lemma bucket_le j N l : (j <= N)%nat -> exists t, bucket N l = bucket j l ++ t.
Proof.
  intros H. exists (concat (map (fun j => filter (fun x => (K x =? j)%nat) l) (seq j (N - j)))).
  unfold bucket. rewrite <- concat_app, <- map_app, <- seq_app. do 3 f_equal. lia.
Qed.
Lemma bucket_nth N l j i : (j < N)%nat -> (i < cnt j l)%nat -> nth_error (bucket N l) (off j l + i) = nth_error (filter (fun x => (K x =? j)%nat) l) i.
Proof.
  intros Hj Hi. destruct (bucket_le (S j) N l) as [t E]; [lia|]. rewrite E, bucket_S, <- app_assoc. apply nth_error_mid; [symmetry; apply bucket_length|exact Hi].
Qed.
Lemma bucket_cover N l t : (t < length (bucket N l))%nat -> exists j i, (j < N)%nat /\ (i < cnt j l)%nat /\ t = (off j l + i)%nat.
Proof.
  induction N as [|N IH]; intros H; [cbn in H; lia|]. rewrite bucket_S, app_length in H.
  destruct (Nat.lt_ge_cases t (length (bucket N l))) as [L|L].
  - destruct (IH L) as (j&i&H1&H2&H3). exists j, i. auto.
  - rewrite bucket_length in *. exists N, (t - off N l)%nat. unfold cnt. repeat split; lia.
Qed.
Lemma filter_filter (P Q : A -> bool) l : filter P (filter Q l) = filter (fun x => P x && Q x) l.
Proof.
  induction l as [|x l IH]; [reflexivity|]. cbn [filter]. destruct (Q x); cbn [filter]; rewrite IH; destruct (P x); reflexivity.
Qed.
Lemma filter_none (P : A -> bool) l : (forall x, In x l -> P x = false) -> filter P l = [].
Proof. induction l as [|x l IH]; intros H; cbn [filter]; [reflexivity|]. rewrite (H x (or_introl eq_refl)). apply IH. intros y Hy. apply H. now right. Qed.
Lemma filter_same (P Q : A -> bool) l : (forall x, In x l -> P x = Q x) -> filter P l = filter Q l.
Proof. induction l as [|x l IH]; intros H; cbn [filter]; [reflexivity|]. rewrite (H x (or_introl eq_refl)), IH; auto. intros y Hy. apply H. now right. Qed.
(** values that share their key keep their order *)
Lemma bucket_class (P : A -> bool) N l : (forall x y, In x l -> In y l -> P x = true -> P y = true -> K x = K y) -> (forall x, In x l -> (K x < N)%nat) ->
  filter P (bucket N l) = filter P l.
Proof.
  intros H HN.
  assert (G : filter P (bucket N l) = filter (fun x => P x && (K x <? N)%nat) l).
  { clear HN. induction N as [|N IH].
    - cbn. symmetry. apply filter_none. intros x _. now rewrite andb_false_r.
    - rewrite bucket_S, filter_app, IH, filter_filter.
      destruct (existsb (fun x => P x && (K x =? N)%nat) l) eqn:E.
      + apply existsb_exists in E. destruct E as (y&Hy&Ey). apply andb_true_iff in Ey. destruct Ey as [Py Ky]. apply Nat.eqb_eq in Ky.
        rewrite (filter_none (fun x => P x && (K x <? N)%nat)); cbn [app].
        * apply filter_same. intros x Hx. destruct (P x) eqn:Px; [|reflexivity]. specialize (H x y Hx Hy Px Py). cbn [andb]; lia.
        * intros x Hx. destruct (P x) eqn:Px; [|reflexivity]. specialize (H x y Hx Hy Px Py). cbn [andb]; lia.
      + assert (NE : forall x, In x l -> P x && (K x =? N)%nat = false).
        { intros x Hx. destruct (P x && (K x =? N)%nat) eqn:Q; [|reflexivity]. assert (existsb (fun x => P x && (K x =? N)%nat) l = true) by (apply existsb_exists; eauto). congruence. }
        rewrite (filter_none (fun x => P x && (K x =? N)%nat)) by assumption. rewrite app_nil_r.
        apply filter_same. intros x Hx. specialize (NE x Hx). destruct (P x); [|reflexivity]. cbn [andb] in *; lia. }
  rewrite G. apply filter_same. intros x Hx. specialize (HN x Hx). destruct (P x); [|reflexivity]. cbn [andb]; lia.
Qed.
Lemma ssorted_filter (R : A -> A -> Prop) (P : A -> bool) l : StronglySorted R l -> StronglySorted R (filter P l).
Proof.
  induction 1 as [|x l S IH F]; cbn [filter]; [constructor|]. destruct (P x); [|assumption]. constructor; [assumption|].
  rewrite Forall_forall in *. intros y Hy. apply F. apply filter_In in Hy. apply Hy.
Qed.
Lemma ssorted_app (R : A -> A -> Prop) a b : StronglySorted R a -> StronglySorted R b -> (forall x y, In x a -> In y b -> R x y) -> StronglySorted R (a ++ b).
Proof.
  induction 1 as [|x a S IH F]; intros Sb H; cbn [app]; [assumption|]. constructor.
  - apply IH; auto. intros u v Hu Hv. apply H; cbn; auto.
  - rewrite Forall_forall in *. intros y Hy. apply in_app_or in Hy. destruct Hy as [Hy|Hy]; [auto|apply H; cbn; auto].
Qed.
Lemma ssorted_weak (R R' : A -> A -> Prop) l : (forall x y, In x l -> In y l -> R x y -> R' x y) -> StronglySorted R l -> StronglySorted R' l.
Proof.
  intros H S. induction S as [|x l S IH F]; constructor.
  - apply IH. intros u v Hu Hv. apply H; cbn; auto.
  - rewrite Forall_forall in *. intros y Hy. apply H; cbn; auto.
Qed.
Lemma bucket_sorted (R : A -> A -> Prop) N l : StronglySorted R l -> StronglySorted (fun a b => (K a < K b)%nat \/ K a = K b /\ R a b) (bucket N l).
Proof.
  intros S. induction N as [|N IH]; [constructor|]. rewrite bucket_S. apply ssorted_app; [assumption| |].
  - apply ssorted_weak with R; [|now apply ssorted_filter]. intros x y Hx Hy HR. apply filter_In in Hx, Hy. right. split; [lia|assumption].
  - intros x y Hx Hy. apply bucket_in in Hx. apply filter_In in Hy. left. lia.
Qed.
Lemma off_S j l : off (S j) l = (off j l + cnt j l)%nat.
Proof.
  unfold off, cnt. induction l as [|x l IH]; cbn [filter length]; [lia|].
  destruct (Nat.ltb_spec (K x) j), (Nat.eqb_spec (K x) j), (Nat.ltb_spec (K x) (S j)); cbn [length]; lia.
Qed.
End Bucket.

Lemma off_perm {A} (K : A -> nat) j l l' : Permutation l l' -> off K j l = off K j l'.
Proof.
  intros P. unfold off. apply Permutation_length. induction P as [|x l l' P IH|x y l|l1 l2 l3 P1 IH1 P2 IH2].
  - constructor.
  - cbn [filter]. destruct (_ <? _)%nat; [now constructor|assumption].
  - cbn [filter]. destruct (K x <? j)%nat, (K y <? j)%nat; try apply Permutation_refl. constructor.
  - now apply Permutation_trans with (filter (fun x => (K x <? j)%nat) l2).
Qed.
Lemma filter_length_ext {A} (P Q : A -> bool) l : (forall x, In x l -> P x = Q x) -> length (filter P l) = length (filter Q l).
Proof. intros H. f_equal. now apply filter_same. Qed.

Lemma wr_ok {T} (l : list T) i v : (i < length l)%nat -> wr l i v = Ok (upd l i v).
Proof. intros H. unfold wr. destruct (Nat.ltb_spec i (length l)); [reflexivity|lia]. Qed.

(** ** one distribution pass *)
Section Dist.
Context {A : Type} (N : nat) (M : Z) (k : A -> nat) (sg : nat -> nat).
Hypothesis sg_inj : forall i j, (i < N)%nat -> (j < N)%nat -> sg i = sg j -> i = j.
Let K (v : A) : nat := sg (k v).

Lemma dist_loop b l : forall q p c r, l = p ++ q -> (forall v, In v l -> (k v < N)%nat) -> Z.of_nat (length l) <= M ->
  length r = length l -> (b + N <= length c)%nat ->
  (forall i, (i < N)%nat -> nth_error c (b + i) = Some (Z.of_nat (off K (sg i) l + cnt K (sg i) p) mod M)) ->
  (forall j i, (i < cnt K j p)%nat -> nth_error r (off K j l + i) = nth_error (filter (fun x => (K x =? j)%nat) p) i) ->
  exists c' r', dist M c b k q r = Ok (c', r') /\ length c' = length c /\ (forall x, (x < b \/ b + N <= x)%nat -> nth_error c' x = nth_error c x) /\
    length r' = length l /\ (forall j i, (i < cnt K j l)%nat -> nth_error r' (off K j l + i) = nth_error (filter (fun x => (K x =? j)%nat) l) i).
Proof.
  induction q as [|v q IH]; intros p c r El Hk HM Hr Hc Tc Tr; cbn [dist].
  - rewrite app_nil_r in El. subst p. exists c, r. auto.
  - assert (Hv : (k v < N)%nat) by (apply Hk; rewrite El; apply in_or_app; cbn; auto).
    rewrite (rd_nth_error _ _ _ (Tc (k v) Hv)). cbn [bind].
    assert (Cn : forall j, cnt K j (p ++ [v]) = (cnt K j p + (if (K v =? j)%nat then 1 else 0))%nat).
    { intros j. unfold cnt. rewrite filter_app, app_length. cbn [filter]. destruct (K v =? j)%nat; reflexivity. }
    assert (Cl : forall j, (cnt K j (p ++ [v]) <= cnt K j l)%nat).
    { intros j. rewrite El. unfold cnt. replace (p ++ v :: q) with ((p ++ [v]) ++ q) by (rewrite <- app_assoc; reflexivity). rewrite (filter_app _ (p ++ [v]) q), app_length. lia. }
    pose proof (Cl (K v)) as Clv. rewrite (Cn (K v)), Nat.eqb_refl in Clv. pose proof (off_n K (K v) l) as On.
    change (sg (k v)) with (K v) in *.
    set (ps := (off K (K v) l + cnt K (K v) p)%nat) in *.
    assert (E : Z.of_nat ps mod M = Z.of_nat ps) by (apply Z.mod_small; lia). rewrite E.
    rewrite wr_ok by lia. cbn [bind]. rewrite Nat2Z.id, wr_ok by lia. cbn [bind].
    destruct (IH (p ++ [v]) (upd c (b + k v) ((Z.of_nat ps + 1) mod M)) (upd r ps v)) as (c'&r'&E1&E2&E3&E4&E5).
    + rewrite El, <- app_assoc. reflexivity.
    + exact Hk.
    + exact HM.
    + rewrite upd_length. exact Hr.
    + rewrite upd_length. exact Hc.
    + intros i Hi. rewrite nth_error_upd. destruct (Nat.eqb_spec (b + k v) (b + i)) as [Q|Q].
      * assert (i = k v) by lia. subst i. destruct (Nat.ltb_spec (b + k v) (length c)); [|lia]. do 2 f_equal. fold (K v). rewrite Cn, Nat.eqb_refl. lia.
      * rewrite Tc by assumption. rewrite Cn. destruct (Nat.eqb_spec (K v) (sg i)) as [W|W]; [apply sg_inj in W; auto; lia|]. rewrite Nat.add_0_r. reflexivity.
    + intros j i Hi. rewrite Cn in Hi. rewrite filter_app. cbn [filter].
      destruct (Nat.eqb_spec (K v) j) as [Q|Q].
      * subst j. fold (cnt K (K v) p) in *. destruct (Nat.eq_dec i (cnt K (K v) p)) as [->|Ni].
        -- fold ps. rewrite upd_same by lia. unfold cnt. rewrite nth_error_app2, Nat.sub_diag by lia. reflexivity.
        -- rewrite nth_error_app1 by (change (i < cnt K (K v) p)%nat; lia). rewrite upd_other by lia. apply Tr. lia.
      * rewrite app_nil_r. rewrite upd_other; [apply Tr; lia|]. pose proof (Cl j) as Cj. rewrite Cn in Cj.
        destruct (Nat.lt_trichotomy j (K v)) as [T|[T|T]]; [|congruence|].
        -- pose proof (off_lt K j (K v) l T). lia.
        -- pose proof (off_lt K (K v) j l T). lia.
    + exists c', r'. split; [exact E1|]. split; [rewrite E2; apply upd_length|]. split; [|auto]. intros x Hx. rewrite E3 by assumption. apply upd_other. lia.
Qed.

Lemma dist_ok b l c r : (forall v, In v l -> (k v < N)%nat) -> (forall i, (i < N)%nat -> (sg i < N)%nat) -> Z.of_nat (length l) <= M ->
  length r = length l -> (b + N <= length c)%nat ->
  (forall i, (i < N)%nat -> nth_error c (b + i) = Some (Z.of_nat (off K (sg i) l) mod M)) ->
  exists c', dist M c b k l r = Ok (c', bucket K N l) /\ length c' = length c /\ (forall x, (x < b \/ b + N <= x)%nat -> nth_error c' x = nth_error c x).
Proof.
  intros Hk Hs HM Hr Hc T. destruct (dist_loop b l l [] c r) as (c'&r'&E1&E2&E3&E4&E5); auto.
  - intros i Hi. rewrite T by assumption. unfold cnt. cbn. now rewrite Nat.add_0_r.
  - intros j i Hi. cbn in Hi. lia.
  - exists c'. split; [|auto]. rewrite E1. do 2 f_equal.
    assert (P : Permutation l (bucket K N l)) by (apply bucket_perm; intros x Hx; apply Hs, Hk, Hx).
    apply nth_error_ext. intros t. destruct (Nat.lt_ge_cases t (length (bucket K N l))) as [L|L].
    + destruct (bucket_cover K N l t L) as (j&i&H1&H2&->). rewrite E5, bucket_nth by assumption. reflexivity.
    + rewrite (proj2 (nth_error_None _ _) L). apply nth_error_None. rewrite E4, (Permutation_length P). exact L.
Qed.
End Dist.

(** ** the tables *)
Section Tab.
Context {A : Type} (up : bool) (M : Z) (M0 : 0 < M).
Notation ROFF := (ROFF up).

Fixpoint hits (b : nat) (ks : list (A -> nat)) (p : nat) (v : A) : nat :=
  match ks with [] => 0 | k :: ks => ((if (b + k v + ROFF =? p)%nat then 1 else 0) + hits (b + 256) ks p v)%nat end.
Definition delta (z : Z) (h : nat) : Z := if up then z + Z.of_nat h else z - Z.of_nat h.

Lemma inc_digits_ok ks : forall c b v, Forall (fun k : A -> nat => (k v < 256)%nat) ks -> length c = (b + 256 * length ks + ROFF)%nat ->
  exists c', inc_digits up M c b ks v = Ok c' /\ length c' = length c /\
  forall p z, nth_error c p = Some (z mod M) -> nth_error c' p = Some (delta z (hits b ks p v) mod M).
Proof.
  induction ks as [|k ks IH]; intros c b v F L; cbn [inc_digits].
  - exists c. repeat split; auto. intros p z H. rewrite H. unfold delta. cbn. destruct up; do 2 f_equal; lia.
  - pose proof (Forall_inv F) as Fk. pose proof (Forall_inv_tail F) as Ft. cbn in Fk. cbn [length] in L.
    destruct (nth_error_ex c (b + k v + ROFF)) as [o Eo]; [unfold SortModel.ROFF in *; destruct up; lia|].
    rewrite (rd_nth_error _ _ _ Eo). cbn [bind]. rewrite wr_ok by (apply nth_error_Some_lt in Eo; exact Eo). cbn [bind].
    set (c1 := upd c (b + k v + ROFF) _).
    destruct (IH c1 (b + 256)%nat v Ft) as (c'&E&Lc&H); [unfold c1; rewrite upd_length; lia|].
    exists c'. split; [exact E|]. split; [unfold c1 in Lc; rewrite upd_length in Lc; exact Lc|].
    intros p z Hp. cbn [hits]. destruct (Nat.eqb_spec (b + k v + ROFF) p) as [Q|Q].
    + subst p. rewrite Hp in Eo. injection Eo as Eo.
      rewrite (H _ (if up then z + 1 else z - 1)).
      * unfold delta. destruct up; do 2 f_equal; lia.
      * unfold c1. rewrite upd_same by (apply nth_error_Some_lt in Hp; exact Hp). rewrite <- Eo. destruct up; [now rewrite Zplus_mod_idemp_l|now rewrite Zminus_mod_idemp_l].
    + rewrite (H _ z); [reflexivity|]. unfold c1. rewrite upd_other by assumption. exact Hp.
Qed.
Definition tot (f : A -> nat) (xs : list A) : nat := fold_right (fun v s => (f v + s)%nat) 0%nat xs.
Lemma inc_all_ok ks xs : forall c, (forall v, In v xs -> Forall (fun k : A -> nat => (k v < 256)%nat) ks) -> length c = (256 * length ks + ROFF)%nat ->
  exists c', inc_all up M c ks xs = Ok c' /\ length c' = length c /\
  forall p z, nth_error c p = Some (z mod M) -> nth_error c' p = Some (delta z (tot (hits 0 ks p) xs) mod M).
Proof.
  induction xs as [|v xs IH]; intros c F L; cbn [inc_all].
  - exists c. repeat split; auto. intros p z H. rewrite H. unfold delta. cbn. destruct up; do 2 f_equal; lia.
  - destruct (inc_digits_ok ks c 0 v) as (c1&E1&L1&H1); [apply F; cbn; auto|lia|]. rewrite E1. cbn [bind].
    destruct (IH c1) as (c'&E&Lc&H); [intros u Hu; apply F; cbn; auto|lia|]. exists c'. split; [exact E|]. split; [lia|].
    intros p z Hp. rewrite (H p (delta z (hits 0 ks p v))) by (apply H1, Hp). cbn [tot fold_right]. unfold delta. destruct up; do 2 f_equal; unfold tot; lia.
Qed.
Lemma hits_pos ks : forall b i j v k, Forall (fun k : A -> nat => (k v < 256)%nat) ks -> nth_error ks i = Some k -> (ROFF <= j < 256)%nat ->
  hits b ks (b + 256 * i + j) v = (if (k v + ROFF =? j)%nat then 1 else 0)%nat.
Proof.
  assert (Z : forall ks b p v, (p < b + ROFF)%nat -> hits b ks p v = 0%nat).
  { intros l0. induction l0 as [|k l0 IH]; intros b p v H; cbn [hits]; [reflexivity|]. rewrite IH by lia. destruct (Nat.eqb_spec (b + k v + ROFF) p); lia. }
  induction ks as [|k0 ks IH]; intros b i j v k F Hk Hj; [destruct i; discriminate|].
  pose proof (Forall_inv F) as Fk. pose proof (Forall_inv_tail F) as Ft. cbn in Fk. cbn [hits]. destruct i as [|i].
  - cbn in Hk. injection Hk as ->. rewrite Z by lia.
    destruct (Nat.eqb_spec (b + k v + ROFF) (b + 256 * 0 + j)), (Nat.eqb_spec (k v + ROFF) j); lia.
  - cbn [nth_error] in Hk. replace (b + 256 * S i + j)%nat with ((b + 256) + 256 * i + j)%nat by lia. rewrite (IH (b + 256)%nat i j v k Ft Hk Hj).
    unfold SortModel.ROFF in *. destruct up; destruct (Nat.eqb_spec (b + k0 v + 1) (b + 256 + 256 * i + j)), (Nat.eqb_spec (b + k0 v + 0) (b + 256 + 256 * i + j)); lia.
Qed.
Lemma tot_filter (f : A -> nat) (P : A -> bool) xs : (forall v, In v xs -> f v = (if P v then 1 else 0)%nat) -> tot f xs = length (filter P xs).
Proof.
  induction xs as [|v xs IH]; intros H; [reflexivity|]. cbn [tot fold_right filter]. fold (tot f xs). rewrite IH by (intros u Hu; apply H; cbn; auto).
  rewrite (H v (or_introl eq_refl)). destruct (P v); reflexivity.
Qed.

Lemma set_starts_ok (ks : list (A -> nat)) : forall c b v, (b + 256 * length ks <= length c)%nat ->
  exists c', set_starts c b ks v = Ok c' /\ length c' = length c /\
   (forall i, (i < length ks)%nat -> nth_error c' (b + 256 * i) = Some v) /\ (forall p, (forall i, (i < length ks)%nat -> p <> (b + 256 * i)%nat) -> nth_error c' p = nth_error c p).
Proof.
  induction ks as [|k ks IH]; intros c b v L; cbn [set_starts].
  - exists c. repeat split; auto. intros i Hi. cbn in Hi. lia.
  - cbn [length] in *. rewrite wr_ok by lia. cbn [bind]. destruct (IH (upd c b v) (b + 256)%nat v) as (c'&E&Lc&H1&H2); [rewrite upd_length; lia|].
    exists c'. split; [exact E|]. split; [rewrite Lc; apply upd_length|]. split.
    + intros i Hi. destruct i as [|i].
      * replace (b + 256 * 0)%nat with b by lia. rewrite H2 by lia. apply upd_same. lia.
      * replace (b + 256 * S i)%nat with (b + 256 + 256 * i)%nat by lia. apply H1. lia.
    + intros p Hp. rewrite H2. * apply upd_other. specialize (Hp 0%nat ltac:(lia)). lia. * intros i Hi. specialize (Hp (S i) ltac:(lia)). lia.
Qed.

Definition fsum (z : nat -> Z) (n : nat) : Z := fold_right (fun i s => z i + s) 0 (seq 0 n).
Lemma fsum_S z n : fsum z (S n) = fsum z n + z n.
Proof. unfold fsum. rewrite seq_S, fold_right_app. cbn [fold_right Nat.add]. generalize (seq 0 n) as l. intros l. induction l as [|a l IH]; cbn [fold_right]; lia. Qed.
Lemma fsum_first z n : fsum z (S n) = z 0%nat + fsum (fun i => z (S i)) n.
Proof. unfold fsum. cbn [seq fold_right]. f_equal. rewrite <- seq_shift. generalize (seq 0 n) as l. intros l. induction l as [|a l IH]; cbn [fold_right map]; lia. Qed.
Lemma psum_ok n : forall c p s (z : nat -> Z), (p + n <= length c)%nat -> (forall i, (i < n)%nat -> nth_error c (p + i) = Some (z i mod M)) ->
  exists c', psum M n c p (s mod M) = Ok c' /\ length c' = length c /\ (forall x, (x < p \/ p + n <= x)%nat -> nth_error c' x = nth_error c x) /\
   forall i, (i < n)%nat -> nth_error c' (p + i) = Some ((s + fsum z (S i)) mod M).
Proof.
  induction n as [|n IH]; intros c p s z L H; cbn [psum].
  - exists c. repeat split; auto. lia.
  - assert (H0 : nth_error c p = Some (z 0%nat mod M)) by (rewrite <- (H 0%nat); [f_equal; lia|lia]).
    rewrite (rd_nth_error _ _ _ H0). cbn [bind]. rewrite wr_ok by lia. cbn [bind].
    rewrite <- (Zplus_mod (z 0%nat) s M).
    destruct (IH (upd c p ((z 0%nat + s) mod M)) (S p) (z 0%nat + s) (fun i => z (S i))) as (c'&E&Lc&H1&H2).
    + rewrite upd_length. lia.
    + intros i Hi. rewrite upd_other by lia. rewrite <- (H (S i)) by lia. f_equal. lia.
    + exists c'. split; [exact E|]. split; [rewrite Lc; apply upd_length|]. split.
      * intros x Hx. rewrite H1 by lia. apply upd_other. lia.
      * intros i Hi. destruct i as [|i].
        -- replace (p + 0)%nat with p by lia. rewrite H1 by lia. rewrite upd_same by lia. do 2 f_equal. rewrite fsum_first. unfold fsum. cbn [seq fold_right]. lia.
        -- replace (p + S i)%nat with (S p + i)%nat by lia. rewrite H2 by lia. do 2 f_equal. rewrite (fsum_first z). lia.
Qed.
Lemma sum_all_ok (ks : list (A -> nat)) : forall c b (z : nat -> nat -> Z), (b + 256 * length ks <= length c)%nat ->
  (forall i j, (i < length ks)%nat -> (j < 256)%nat -> nth_error c (b + 256 * i + j) = Some (z i j mod M)) ->
  exists c', sum_all M c b ks = Ok c' /\ length c' = length c /\ (forall x, (x < b)%nat -> nth_error c' x = nth_error c x) /\
   forall i j, (i < length ks)%nat -> (j < 256)%nat -> nth_error c' (b + 256 * i + j) = Some (fsum (z i) (S j) mod M).
Proof.
  induction ks as [|k ks IH]; intros c b z L H; cbn [sum_all].
  - exists c. repeat split; auto. intros i j Hi. cbn in Hi. lia.
  - cbn [length] in *. destruct (psum_ok 256 c b 0 (z 0%nat)) as (c1&E1&L1&H1&H2).
    + lia.
    + intros i Hi. rewrite <- (H 0%nat i) by lia. f_equal. lia.
    + rewrite Z.mod_0_l in E1 by lia. rewrite E1. cbn [bind]. destruct (IH c1 (b + 256)%nat (fun i => z (S i))) as (c'&E&Lc&H3&H4).
      * lia.
      * intros i j Hi Hj. rewrite H1 by lia. rewrite <- (H (S i) j) by lia. f_equal. lia.
      * exists c'. split; [exact E|]. split; [lia|]. split.
        -- intros x Hx. rewrite H3 by lia. apply H1. lia.
        -- intros i j Hi Hj. destruct i as [|i].
           ++ rewrite H3 by lia. replace (b + 256 * 0 + j)%nat with (b + j)%nat by lia. rewrite H2 by assumption. reflexivity.
           ++ replace (b + 256 * S i + j)%nat with (b + 256 + 256 * i + j)%nat by lia. apply H4; lia.
Qed.

(** the order of the buckets: ascending or descending *)
Definition sg (i : nat) : nat := if up then i else (255 - i)%nat.
Definition bpass (l : list A) (k : A -> nat) : list A := bucket (fun v => sg (k v)) 256 l.
Lemma sg_inj i j : (i < 256)%nat -> (j < 256)%nat -> sg i = sg j -> i = j.
Proof. unfold sg. destruct up; lia. Qed.
Lemma sg_lt i : (i < 256)%nat -> (sg i < 256)%nat.
Proof. unfold sg. destruct up; lia. Qed.

(* number of values in the slots up to and including j *)
Lemma fsum_count (k : A -> nat) xs j : fsum (fun t => Z.of_nat (length (filter (fun v => (k v =? t)%nat) xs))) j = Z.of_nat (length (filter (fun v => (k v <? j)%nat) xs)).
Proof.
  induction j as [|j IH]; [cbn; rewrite filter_none; [reflexivity|intros; reflexivity]|]. rewrite fsum_S, IH. clear IH.
  induction xs as [|x xs IH]; [reflexivity|]. cbn [filter].
  destruct (Nat.ltb_spec (k x) j), (Nat.eqb_spec (k x) j), (Nat.ltb_spec (k x) (S j)); cbn [length]; lia.
Qed.
Lemma fsum_ext z z' n : (forall i, (i < n)%nat -> z i = z' i) -> fsum z n = fsum z' n.
Proof. induction n as [|n IH]; intros H; [reflexivity|]. rewrite !fsum_S, IH, H; auto. Qed.
Lemma fsum_opp z n : fsum (fun i => - z i) n = - fsum z n.
Proof. induction n as [|n IH]; [reflexivity|]. rewrite !fsum_S, IH. lia. Qed.
Lemma filter_neg {T} (P : T -> bool) l : length (filter P l) = (length l - length (filter (fun x => negb (P x)) l))%nat /\ (length (filter (fun x => negb (P x)) l) <= length l)%nat.
Proof. induction l as [|x l [IH1 IH2]]; [split; reflexivity|]. cbn [filter]. destruct (P x); cbn [negb length]; lia. Qed.

Definition good_tables (ks : list (A -> nat)) (b : nat) (c : list Z) (l : list A) : Prop :=
  forall i k j, nth_error ks i = Some k -> (j < 256)%nat -> nth_error c (b + 256 * i + j) = Some (Z.of_nat (off (fun v => sg (k v)) (sg j) l) mod M).

Lemma passes_ok ks : forall c b l junk, (forall v k, In v l -> In k ks -> (k v < 256)%nat) -> Z.of_nat (length l) <= M -> length junk = length l ->
  (b + 256 * length ks <= length c)%nat -> good_tables ks b c l -> passes M c b ks l junk = Ok (fold_left bpass ks l).
Proof.
  induction ks as [|k ks IH]; intros c b l junk Hk HM Hj Lc G; cbn [passes fold_left]; [reflexivity|]. cbn [length] in Lc.
  assert (Hkl : forall v, In v l -> (k v < 256)%nat) by (intros v Hv; apply Hk; cbn; auto).
  destruct (dist_ok 256 M k sg sg_inj b l c junk Hkl sg_lt HM Hj) as (c'&E&L&H); [lia| |].
  - intros i Hi. rewrite <- (G 0%nat k i eq_refl Hi). f_equal. lia.
  - rewrite E. cbn [bind]. fold (bpass l k).
    assert (P : Permutation l (bpass l k)) by (apply bucket_perm; intros x Hx; apply sg_lt, Hkl, Hx).
    apply IH.
    + intros v k' Hv Hk'. apply Hk; cbn; auto. apply (Permutation_in v (Permutation_sym P) Hv).
    + rewrite <- (Permutation_length P). exact HM.
    + rewrite <- (Permutation_length P). exact Hj.
    + lia.
    + intros i k' j Hi Hj'. replace (b + 256 + 256 * i + j)%nat with (b + 256 * S i + j)%nat by lia. rewrite H by lia.
      rewrite (G (S i) k' j Hi Hj'). do 3 f_equal. now apply off_perm.
Qed.

Lemma nth_repeat_some {T} (x : T) n i : (i < n)%nat -> nth_error (repeat x n) i = Some x.
Proof. revert i; induction n as [|n IH]; intros [|i] H; cbn; [lia|lia|reflexivity|apply IH; lia]. Qed.

Theorem radix_ok ks xs cjunk junk : (forall v k, In v xs -> In k ks -> (k v < 256)%nat) -> Z.of_nat (length xs) <= M -> length junk = length xs -> ks <> [] ->
  radix up M ks xs cjunk junk = Ok (fold_left bpass ks xs).
Proof.
  intros Hk HM Hj N. unfold radix. set (n := Z.of_nat (length xs)) in *.
  assert (Q : exists k0 t, ks = k0 :: t) by (destruct ks as [|k0 t]; [congruence|eauto]). destruct Q as (k0&t&Eks).
  assert (Hks : (length ks = S (length t))%nat) by (rewrite Eks; reflexivity).
  assert (Fk : forall v, In v xs -> Forall (fun k : A -> nat => (k v < 256)%nat) ks) by (intros v Hv; apply Forall_forall; intros k Hkk; auto).
  set (D := repeat 0 (256 * length ks) ++ (if up then [cjunk] else [])).
  assert (LD : length D = (256 * length ks + ROFF)%nat) by (unfold D, SortModel.ROFF; rewrite app_length, repeat_length; destruct up; reflexivity).
  assert (D0 : forall p, (p < 256 * length ks)%nat -> nth_error D p = Some 0).
  { intros p Hp. unfold D. rewrite nth_error_app1 by (rewrite repeat_length; lia). now apply nth_repeat_some. }
  (* the tables *)
  assert (T : exists c, tables up M n ks cjunk = Ok c /\ length c = length D /\ forall i j, (i < length ks)%nat -> (ROFF <= j < 256)%nat -> nth_error c (256 * i + j) = Some ((if up then 0 else if (j =? 0)%nat then n else 0) mod M)).
  { unfold tables. fold D. unfold SortModel.ROFF in *. destruct up.
    - cbn [bind]. destruct (set_starts_ok t D 256 (- n mod M)) as (c&E&L&H1&H2); [lia|]. exists c. split; [rewrite Eks; exact E|]. split; [exact L|].
      intros i j Hi Hjj. rewrite H2 by (intros i' Hi'; lia). rewrite D0 by lia. rewrite Z.mod_0_l by lia. reflexivity.
    - rewrite wr_ok by lia. cbn [bind]. destruct (set_starts_ok t (upd D 0 (n mod M)) 256 (n mod M)) as (c&E&L&H1&H2); [rewrite upd_length; lia|].
      exists c. split; [rewrite Eks; exact E|]. split; [rewrite L; apply upd_length|]. intros i j Hi Hjj. destruct (Nat.eqb_spec j 0) as [->|Nj].
      + destruct i as [|i].
        * replace (256 * 0 + 0)%nat with 0%nat by lia. rewrite H2 by (intros; lia). apply upd_same. lia.
        * replace (256 * S i + 0)%nat with (256 + 256 * i)%nat by lia. apply H1. lia.
      + rewrite H2 by (intros; lia). rewrite upd_other by lia. rewrite D0 by lia. rewrite Z.mod_0_l by lia. reflexivity. }
  destruct T as (c1&E1&L1&T1). rewrite E1. cbn [bind].
  destruct (inc_all_ok ks xs c1 Fk) as (c2&E2&L2&T2); [lia|]. rewrite E2. cbn [bind].
  (* counts *)
  set (z := fun i j : nat => match nth_error ks i with Some k => if up then (if (j =? 0)%nat then 0 else Z.of_nat (length (filter (fun v => (k v =? j - 1)%nat) xs)))
                                                     else (if (j =? 0)%nat then n else 0) - Z.of_nat (length (filter (fun v => (k v =? j)%nat) xs)) | None => 0 end).
  assert (C : forall i j, (i < length ks)%nat -> (ROFF <= j < 256)%nat -> nth_error c2 (256 * i + j) = Some (z i j mod M)).
  { intros i j Hi Hjj. rewrite (T2 _ _ (T1 i j Hi Hjj)). unfold z. destruct (nth_error_ex ks i Hi) as [k Ek]. rewrite Ek. unfold delta.
    rewrite (tot_filter _ (fun v => (k v + ROFF =? j)%nat)) by (intros v Hv; rewrite <- (hits_pos ks 0 i j v k (Fk v Hv) Ek Hjj); reflexivity).
    unfold SortModel.ROFF in *. destruct up.
    - destruct (Nat.eqb_spec j 0); [lia|]. rewrite Z.add_0_l. do 3 f_equal. apply filter_length_ext. intros v _. destruct (Nat.eqb_spec (k v + 1) j), (Nat.eqb_spec (k v) (j - 1)); lia.
    - do 5 f_equal. apply filter_same. intros v _. now rewrite Nat.add_0_r. }
  assert (S0 : exists c3, (if up then match ks with [] => Ok c2 | _ :: t => set_starts c2 256 t 0 end else Ok c2) = Ok c3 /\ length c3 = length c2 /\
     forall i j, (i < length ks)%nat -> (j < 256)%nat -> nth_error c3 (256 * i + j) = Some (z i j mod M)).
  { unfold SortModel.ROFF in *. destruct up eqn:Eup.
    - destruct (set_starts_ok t c2 256 0) as (c3&E&L&H1&H2); [lia|]. exists c3. split; [rewrite Eks; exact E|]. split; [exact L|].
      intros i j Hi Hjj. destruct (Nat.eq_dec j 0) as [->|Nj].
      + unfold z. destruct (nth_error_ex ks i Hi) as [k Ek]. rewrite Ek, Nat.eqb_refl. rewrite Z.mod_0_l by lia. destruct i as [|i].
        * rewrite H2 by (intros; lia). replace (256 * 0 + 0)%nat with 0%nat by lia.
          assert (Q : nth_error c1 0 = Some (0 mod M)).
          { unfold tables in E1. fold D in E1. cbn [bind] in E1. rewrite Eks in E1. destruct (set_starts_ok t D 256 (- n mod M)) as (c&E'&L'&H1'&H2'); [lia|].
            rewrite E' in E1. injection E1 as <-. rewrite H2' by (intros; lia). rewrite D0 by lia. rewrite Z.mod_0_l by lia. reflexivity. }
          rewrite (T2 0%nat 0 Q). unfold delta. rewrite (tot_filter _ (fun _ => false)).
          -- rewrite filter_none by reflexivity. cbn [length]. f_equal. rewrite Eup. apply Z.mod_0_l; lia.
          -- intros v _. clear -Eup. assert (G : forall l0 b, hits b l0 0 v = 0%nat); [|apply G]. induction l0 as [|k l0 IH]; intros b; cbn [hits]; [reflexivity|]. rewrite IH. unfold SortModel.ROFF. rewrite Eup. destruct (Nat.eqb_spec (b + k v + 1) 0); lia.
        * replace (256 * S i + 0)%nat with (256 + 256 * i)%nat by lia. rewrite H1 by lia. reflexivity.
      + rewrite H2 by (intros; lia). apply C; lia.
    - exists c2. split; [reflexivity|]. split; [reflexivity|]. intros. apply C; lia. }
  destruct S0 as (c3&E3&L3&T3). rewrite E3. cbn [bind].
  destruct (sum_all_ok ks c3 0 z) as (c4&E4&L4&_&T4); [lia|exact T3|]. rewrite E4. cbn [bind].
  apply passes_ok; auto; [lia|]. intros i k j Hi Hjj. rewrite (T4 i j) by (try assumption; apply nth_error_Some_lt in Hi; exact Hi). do 2 f_equal.
  unfold off, sg, z. assert (Hk' : forall v, In v xs -> (k v < 256)%nat) by (intros v Hv; apply (Hk v k Hv), (nth_error_In _ _ Hi)). clear -Hi Hjj Hk'. rename Hk' into Hk. subst n. destruct up.
  - rewrite fsum_first. rewrite Hi. cbn [Nat.eqb]. rewrite <- fsum_count. rewrite Z.add_0_l. apply fsum_ext. intros t _. destruct (Nat.eqb_spec (S t) 0); [lia|]. replace (S t - 1)%nat with t by lia. reflexivity.
  - rewrite Hi. assert (Q : fsum (fun j => (if (j =? 0)%nat then Z.of_nat (length xs) else 0) - Z.of_nat (length (filter (fun v => (k v =? j)%nat) xs))) (S j) = Z.of_nat (length xs) - Z.of_nat (length (filter (fun v => (k v <? S j)%nat) xs))).
    { rewrite <- fsum_count. generalize (Z.of_nat (length xs)) as m. intros m. induction j as [|j IH]; [rewrite !fsum_S; unfold fsum; cbn [seq fold_right Nat.eqb]; lia|]. rewrite fsum_S, IH by lia. rewrite (fsum_S _ (S j)). destruct (Nat.eqb_spec (S j) 0); lia. }
    rewrite Q. pose proof (filter_neg (fun v => (k v <? S j)%nat) xs) as [Q1 Q2].
    assert (Q3 : filter (fun x => negb (k x <? S j)%nat) xs = filter (fun x => (255 - k x <? 255 - j)%nat) xs).
    { apply filter_same. intros v Hv. specialize (Hk v Hv). destruct (Nat.ltb_spec (k v) (S j)), (Nat.ltb_spec (255 - k v) (255 - j)); cbn; lia. }
    rewrite Q3 in *. lia.
Qed.
End Tab.
