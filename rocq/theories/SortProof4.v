(** Proofs about grading 32-bit values and generic values. *)
From Verif Require Import Base BitLemmas BitsModel BitsSpec BitsProof BitsProof2 TimsortModel TimsortSpec TimsortProof TimsortProof2 SortModel SortSpec RadixProof SortProof SortProof2 SortProof3.

(** ** grading by a stable sort of pairs *)
Section StablePairs.
Context {T : Type} (cmp : T -> T -> Z) (ok : T -> Prop) (Cc : comparison cmp ok).
Let pc (p q : T * Z) : Z := cmp (fst p) (fst q).
Let pok (p : T * Z) : Prop := ok (fst p).
Lemma pc_comparison : comparison pc pok.
Proof. destruct Cc as [C1 C2]. split; unfold pc, pok; [intros; now apply C1|]. intros a b c Ha Hb Hc. now apply C2. Qed.
Lemma class_sorted (R : T * Z -> T * Z -> Prop) r : Forall pok r -> StronglySorted (fun a b => pc a b <= 0) r -> (forall k, pok k -> StronglySorted R (class pc k r)) ->
  StronglySorted (fun a b => pc a b < 0 \/ pc a b = 0 /\ R a b) r.
Proof.
  induction r as [|x r IH]; intros F S K; [constructor|]. apply StronglySorted_inv in S. destruct S as [S Fx]. pose proof (Forall_inv F) as Ox. apply Forall_inv_tail in F.
  constructor.
  - apply IH; auto. intros k Hk. specialize (K k Hk). unfold class in *. cbn [filter] in K. destruct (_ =? 0); [|exact K]. apply StronglySorted_inv in K. apply K.
  - rewrite Forall_forall in *. intros y Hy. specialize (Fx y Hy). destruct (Z.eq_dec (pc x y) 0) as [E|E]; [|left; lia]. right. split; [exact E|].
    specialize (K x Ox). unfold class in K. cbn [filter] in K.
    assert (X : pc x x = 0) by (pose proof (lt_gt pc pok pc_comparison x x Ox Ox); lia). rewrite X in K. cbn [Z.eqb] in K. apply StronglySorted_inv in K. destruct K as [_ K]. rewrite Forall_forall in K. apply K. apply filter_In. split; [exact Hy|]. now rewrite E.
Qed.
Lemma tim_grade xs : Forall ok xs -> Z.of_nat (length xs) < 2 ^ 63 ->
  exists r, tim_sort pc (withidx xs) = Ok r /\ grading cmp xs (map snd r).
Proof.
  intros F B. assert (Fp : Forall pok (withidx xs)).
  { rewrite Forall_forall in *. intros [v j] Hp. apply withidx_in in Hp. destruct Hp as [_ Hp]. apply F. apply nth_error_In in Hp. exact Hp. }
  destruct (tim_sort_ok pc pok pc_comparison (withidx xs) Fp) as (r&E&P&S&K); [rewrite withidx_length; exact B|].
  exists r. split; [exact E|]. apply pairs_grading; [exact P|]. apply (class_sorted (fun a b => snd a < snd b)).
  - apply (Permutation_Forall P Fp).
  - exact S.
  - intros k Hk. rewrite (K k Hk). apply ssorted_filter, withidx_sorted.
Qed.
End StablePairs.
Lemma grading_ext {T} (c c' : T -> T -> Z) xs g : (forall a b, In a xs -> In b xs -> (c a b < 0 -> c' a b < 0) /\ (c a b = 0 -> c' a b = 0)) -> grading c xs g -> grading c' xs g.
Proof.
  intros H [P S]. split; [exact P|]. apply ssorted_weak with (2 := S). intros i j _ _ Q a b Ha Hb. specialize (Q a b Ha Hb).
  apply nth_error_In in Ha, Hb. destruct (H a b Ha Hb). destruct Q as [Q|[Q1 Q2]]; [left; auto|right; auto].
Qed.
Lemma grading_map {A B} (f : A -> B) (cb : B -> B -> Z) xs g : grading (fun a b => cb (f a) (f b)) xs g -> grading cb (map f xs) g.
Proof.
  intros [P S]. split; [rewrite map_length; exact P|]. apply ssorted_weak with (2 := S). intros i j _ _ Q a b Ha Hb. rewrite nth_error_map in Ha, Hb.
  destruct (nth_error xs (Z.to_nat i)) eqn:E1; [|discriminate]. destruct (nth_error xs (Z.to_nat j)) eqn:E2; [|discriminate]. cbn in Ha, Hb. injection Ha as <-. injection Hb as <-. apply Q; reflexivity.
Qed.

(** ** 32-bit values *)
Lemma minmax_ok xs : forall mn mx s a b c, minmax xs mn mx s = (a, b, c) -> a <= mn /\ mx <= b /\ (forall v, In v xs -> a <= v <= b) /\ (a = mn \/ In a xs) /\ (b = mx \/ In b xs).
Proof.
  induction xs as [|v xs IH]; intros mn mx s a b c E; cbn [minmax] in E.
  - injection E as <- <- _. split; [lia|]. split; [lia|]. split; [intros v []|]. auto.
  - apply IH in E. destruct E as (H1&H2&H3&H4&H5).
    assert (Q : a <= mn /\ a <= v /\ mx <= b /\ v <= b) by (revert H1 H2; destruct (Z.ltb_spec v mn), (Z.ltb_spec mx v); lia).
    split; [lia|]. split; [lia|]. split; [intros u [<- |Hu]; [lia|auto]|]. cbn [In]. split.
    + revert H4. destruct (Z.ltb_spec v mn); intros [-> |H4]; auto.
    + revert H5. destruct (Z.ltb_spec mx v); intros [-> |H5]; auto.
Qed.

(* inverting a permutation *)
Lemma inv_loop_ok (up : bool) mn mx xs : forall i rp (Q : nat -> Z -> Prop), 0 <= i -> (forall v, In v xs -> mn <= v <= mx) -> mx - mn < Z.of_nat (length rp) ->
  (forall s z, nth_error rp s = Some z -> Q s z) -> (forall j v, nth_error xs j = Some v -> Q (Z.to_nat (if up then v - mn else mx - v)) (i + Z.of_nat j)) ->
  exists r, inv_loop up mn mx xs i rp = Ok r /\ length r = length rp /\ forall s z, nth_error r s = Some z -> Q s z.
Proof.
  induction xs as [|v xs IH]; intros i rp Q Hi Hv L H0 H1; cbn [inv_loop].
  - exists rp. auto.
  - pose proof (Hv v (or_introl eq_refl)) as Bv. set (s0 := if up then v - mn else mx - v) in *. assert (S0 : 0 <= s0 < Z.of_nat (length rp)) by (unfold s0; destruct up; lia).
    rewrite wrz_ok by exact S0. cbn [bind].
    destruct (IH (i + 1) (upd rp (Z.to_nat s0) i) Q) as (r&E&Lr&Hr).
    + lia.
    + intros u Hu. apply Hv. cbn. auto.
    + rewrite upd_length. exact L.
    + intros s z Hs. rewrite nth_error_upd in Hs. destruct (Nat.eqb_spec (Z.to_nat s0) s) as [<- |N].
      * destruct (_ <? _)%nat; [|discriminate]. injection Hs as <-. specialize (H1 0%nat v eq_refl). fold s0 in H1. replace (i + Z.of_nat 0) with i in H1 by lia. exact H1.
      * apply H0. exact Hs.
    + intros j u Hj. replace (i + 1 + Z.of_nat j) with (i + Z.of_nat (S j)) by lia. apply H1. exact Hj.
    + exists r. split; [exact E|]. split; [rewrite Lr; apply upd_length|exact Hr].
Qed.
Lemma nodup_perm (l : list Z) n : length l = n -> NoDup l -> (forall z, In z l -> 0 <= z < Z.of_nat n) -> Permutation (idx n) l.
Proof.
  intros L N H. apply Permutation_sym. apply NoDup_Permutation_bis; [exact N|rewrite idx_length; lia|]. intros z Hz. specialize (H z Hz). unfold idx. apply in_map_iff. exists (Z.to_nat z). split; [lia|apply in_seq; lia].
Qed.
Lemma ssorted_nth {A} (R : A -> A -> Prop) l : (forall i j a b, (i < j)%nat -> nth_error l i = Some a -> nth_error l j = Some b -> R a b) -> StronglySorted R l.
Proof.
  induction l as [|x l IH]; intros H; constructor.
  - apply IH. intros i j a b Hij Ha Hb. apply (H (S i) (S j)); [lia|exact Ha|exact Hb].
  - rewrite Forall_forall. intros y Hy. apply In_nth_error in Hy. destruct Hy as [i Hi]. apply (H 0%nat (S i)); [lia|reflexivity|exact Hi].
Qed.
Lemma inv_ok (up : bool) mn mx xs rp : (forall v, In v xs -> mn <= v <= mx) -> mx - mn + 1 = Z.of_nat (length xs) -> length rp = length xs -> Forall (eq (Z.of_nat (length xs))) rp ->
  exists r, inv_loop up mn mx xs 0 rp = Ok r /\ length r = length xs /\ (forallb (fun v => negb (v =? Z.of_nat (length xs))) r = true -> grading (icmp up) xs r).
Proof.
  intros Hv Hr L F. set (n := length xs) in *.
  set (Q := fun (s : nat) (z : Z) => z = Z.of_nat n \/ exists j v, z = Z.of_nat j /\ nth_error xs j = Some v /\ s = Z.to_nat (if up then v - mn else mx - v)).
  destruct (inv_loop_ok up mn mx xs 0 rp Q) as (r&E&Lr&Hq).
  - lia.
  - exact Hv.
  - lia.
  - intros s z Hs. left. rewrite Forall_forall in F. symmetry. apply F. apply nth_error_In in Hs. exact Hs.
  - intros j v Hj. right. exists j, v. split; [lia|]. auto.
  - exists r. split; [exact E|]. split; [lia|]. intros Fb. rewrite forallb_forall in Fb.
    assert (Hq' : forall s z, nth_error r s = Some z -> exists j v, z = Z.of_nat j /\ nth_error xs j = Some v /\ Z.of_nat s = (if up then v - mn else mx - v)).
    { intros s z Hs. destruct (Hq s z Hs) as [B|(j&v&B1&B2&B3)].
      - exfalso. apply nth_error_In in Hs. specialize (Fb z Hs). rewrite B, Z.eqb_refl in Fb. discriminate.
      - exists j, v. repeat split; auto. pose proof (Hv v (nth_error_In _ _ B2)). destruct up; lia. }
    split.
    + apply nodup_perm; [lia| |].
      * apply NoDup_nth_error. intros i j Hi Ej. destruct (nth_error_ex r i Hi) as [z Ez]. rewrite Ez in Ej. symmetry in Ej.
        destruct (Hq' i z Ez) as (a&v&A1&A2&A3). destruct (Hq' j z Ej) as (b&u&B1&B2&B3). assert (a = b) by lia. subst b. rewrite A2 in B2. injection B2 as <-. lia.
      * intros z Hz. apply In_nth_error in Hz. destruct Hz as [i Hi]. destruct (Hq' i z Hi) as (a&v&A1&A2&A3). apply nth_error_Some_lt in A2. fold n. lia.
    + apply ssorted_nth. intros i j a b Hij Ha Hb x y Hx Hy. left.
      destruct (Hq' i a Ha) as (a'&v&A1&A2&A3). destruct (Hq' j b Hb) as (b'&u&B1&B2&B3). subst a b. rewrite Nat2Z.id in Hx, Hy. rewrite A2 in Hx. rewrite B2 in Hy. injection Hx as <-. injection Hy as <-. unfold icmp. destruct up; lia.
Qed.

(* buckets *)
Section BG.
Context (up : bool) (mn range : Z) (xs : list Z) (Hv : forall v, In v xs -> 0 <= v - mn < range) (Nx : Z.of_nat (length xs) < 2 ^ 32).
Let N := Z.to_nat range.
Let sgm (i : nat) : nat := if up then i else (N - 1 - i)%nat.
Let k (v : Z) : nat := Z.to_nat (v - mn).
Let KK (v : Z) : nat := sgm (k v).
Lemma k_lt v : In v xs -> (k v < N)%nat.
Proof. intros H. specialize (Hv v H). unfold k, N. lia. Qed.
Lemma sgm_inv i : (i < N)%nat -> sgm (sgm i) = i /\ (sgm i < N)%nat.
Proof. unfold sgm. destruct up; lia. Qed.
Lemma bcount_ok : forall q p c, xs = p ++ q -> length c = N -> (forall s, (s < N)%nat -> nth_error c s = Some (Z.of_nat (cnt k s p))) ->
  exists c', bcount mn c q = Ok c' /\ length c' = N /\ forall s, (s < N)%nat -> nth_error c' s = Some (Z.of_nat (cnt k s xs)).
Proof.
  induction q as [|v q IH]; intros p c Ex Lc H; cbn [bcount].
  - rewrite app_nil_r in Ex. subst p. exists c. auto.
  - assert (Iv : In v xs) by (rewrite Ex; apply in_or_app; cbn; auto). pose proof (k_lt v Iv) as Kv. pose proof (Hv v Iv) as Bv.
    rewrite rdz_ok by (unfold len, N in *; lia). cbn [bind]. change (Z.to_nat (v - mn)) with (k v).
    assert (W : word c (v - mn) = Z.of_nat (cnt k (k v) p)).
    { unfold word. apply nth_error_nth. rewrite <- (H (k v) Kv). reflexivity. }
    rewrite W. rewrite wrz_ok by (unfold len, N in *; lia). cbn [bind]. change (Z.to_nat (v - mn)) with (k v).
    assert (Cn : forall s, cnt k s (p ++ [v]) = (cnt k s p + (if (k v =? s)%nat then 1 else 0))%nat).
    { intros s. unfold cnt. rewrite filter_app, app_length. cbn [filter]. destruct (k v =? s)%nat; reflexivity. }
    assert (Lp : (cnt k (k v) p < length xs)%nat) by (pose proof (off_n k (k v) p); rewrite Ex, app_length; cbn [length]; lia).
    unfold U32. rewrite Z.mod_small by lia. apply (IH (p ++ [v])).
    + rewrite Ex, <- app_assoc. reflexivity.
    + rewrite upd_length. exact Lc.
    + intros s Hs. rewrite nth_error_upd, Cn. destruct (Nat.eqb_spec (k v) s) as [<- |Ns].
      * destruct (Nat.ltb_spec (k v) (length c)); [|lia]. f_equal. lia.
      * rewrite (H s Hs). f_equal. lia.
Qed.
Lemma cnt_sgm t : (t < N)%nat -> cnt k (sgm t) xs = cnt KK t xs.
Proof.
  intros Ht. unfold cnt. apply filter_length_ext. intros x Hx. unfold KK. pose proof (k_lt x Hx) as Hk. destruct (sgm_inv t Ht), (sgm_inv (k x) Hk).
  destruct (Nat.eqb_spec (k x) (sgm t)), (Nat.eqb_spec (sgm (k x)) t); congruence.
Qed.
Lemma boffs_ok c0 : length c0 = N -> (forall s, (s < N)%nat -> nth_error c0 s = Some (Z.of_nat (cnt k s xs))) ->
  forall m t c, (t + m = N)%nat -> length c = N -> (forall s, (s < N)%nat -> nth_error c (sgm s) = if (s <? t)%nat then Some (Z.of_nat (off KK s xs)) else nth_error c0 (sgm s)) ->
  exists c', boffs (map sgm (seq t m)) c (Z.of_nat (off KK t xs)) = Ok c' /\ length c' = N /\ forall s, (s < N)%nat -> nth_error c' (sgm s) = Some (Z.of_nat (off KK s xs)).
Proof.
  intros L0 H0. induction m as [|m IH]; intros t c Ht Lc H; cbn [seq map boffs].
  - exists c. split; [reflexivity|]. split; [exact Lc|]. intros s Hs. rewrite H by exact Hs. destruct (Nat.ltb_spec s t); [reflexivity|lia].
  - assert (Tt : (t < N)%nat) by lia. destruct (sgm_inv t Tt) as [I1 I2].
    assert (R : nth_error c (sgm t) = Some (Z.of_nat (cnt KK t xs))).
    { rewrite H by exact Tt. destruct (Nat.ltb_spec t t); [lia|]. rewrite H0 by exact I2. rewrite cnt_sgm by exact Tt. reflexivity. }
    rewrite (rd_nth_error _ _ _ R). cbn [bind]. rewrite wr_ok by lia. cbn [bind].
    pose proof (off_n KK t xs) as On. unfold U32. rewrite Z.mod_small by lia. replace (Z.of_nat (off KK t xs) + Z.of_nat (cnt KK t xs)) with (Z.of_nat (off KK (S t) xs)) by (rewrite off_S; lia).
    apply IH; [lia|rewrite upd_length; exact Lc|]. intros s Hs. rewrite nth_error_upd. destruct (sgm_inv s Hs) as [J1 J2].
    destruct (Nat.eqb_spec (sgm t) (sgm s)) as [Q|Q].
    + assert (s = t) by congruence. subst s. destruct (Nat.ltb_spec t (S t)); [|lia]. destruct (Nat.ltb_spec (sgm t) (length c)); [|lia]. reflexivity.
    + rewrite H by exact Hs. destruct (Nat.ltb_spec s t), (Nat.ltb_spec s (S t)); try reflexivity; [lia|]. exfalso. apply Q. f_equal. lia.
Qed.
Lemma bdist_sim : forall q i c rp dst c' d, (forall v, In v q -> 0 <= v - mn) -> Forall (fun z => 0 <= z) c -> rp = map snd dst ->
  dist U32 c 0 (fun p => Z.to_nat (fst p - mn)) (pairs_from i q) dst = Ok (c', d) -> bdist mn c q i rp = Ok (map snd d).
Proof.
  induction q as [|v q IH]; intros i c rp dst c' d Hq F -> D; cbn [bdist].
  - cbn in D. injection D as _ <-. reflexivity.
  - rewrite pairs_from_cons in D. cbn [dist fst] in D. rewrite Nat.add_0_l in D. pose proof (Hq v (or_introl eq_refl)) as Bv.
    unfold rdz, wrz. destruct (Z.ltb_spec (v - mn) 0); [lia|].
    destruct (rd c (Z.to_nat (v - mn))) as [o| |] eqn:R; cbn [bind] in *; try discriminate.
    destruct (wr c (Z.to_nat (v - mn)) ((o + 1) mod U32)) as [c1| |] eqn:W; cbn [bind] in *; try discriminate.
    destruct (wr dst (Z.to_nat o) (v, i)) as [dst1| |] eqn:W2; cbn [bind] in *; try discriminate.
    assert (O : 0 <= o). { unfold rd in R. destruct (nth_error c (Z.to_nat (v - mn))) eqn:E; [|discriminate]. injection R as <-. rewrite Forall_forall in F. apply F. apply nth_error_In in E. exact E. }
    destruct (Z.ltb_spec o 0); [lia|].
    assert (Wz : wr (map snd dst) (Z.to_nat o) i = Ok (map snd dst1)).
    { clear -W2. unfold wr in *. rewrite map_length. destruct (_ <? _)%nat; [|discriminate]. injection W2 as <-. rewrite map_upd. reflexivity. }
    rewrite Wz. cbn [bind]. apply (IH (i + 1) c1 _ dst1 c' d); auto; [intros u Hu; apply Hq; cbn; auto|].
    unfold wr in W. destruct (_ <? _)%nat; [|discriminate]. injection W as <-. rewrite Forall_forall in *. intros z Hz. apply In_nth_error in Hz. destruct Hz as [s Hs].
    rewrite nth_error_upd in Hs. destruct (_ =? s)%nat; [destruct (_ <? _)%nat; [|discriminate]; injection Hs as <-; apply Z.mod_pos_bound; reflexivity|]. apply F. apply nth_error_In in Hs. exact Hs.
Qed.
Lemma bucket_grade_ok rp : length rp = length xs -> exists g, bucket_grade up mn range xs rp = Ok g /\ grading (icmp up) xs g.
Proof.
  intros Lr. unfold bucket_grade. fold N.
  destruct (bcount_ok xs [] (repeat 0 N)) as (c0&E0&L0&H0); [reflexivity|apply repeat_length|intros s Hs; rewrite nth_repeat_some by exact Hs; reflexivity|]. rewrite E0. cbn [bind].
  destruct (boffs_ok c0 L0 H0 N 0 c0) as (c1&E1&L1&H1); [lia|exact L0|intros s Hs; destruct (Nat.ltb_spec s 0); [lia|reflexivity]|].
  assert (Z0 : Z.of_nat (off KK 0 xs) = 0) by (unfold off; rewrite filter_none by reflexivity; reflexivity). rewrite Z0 in E1.
  replace (if up then seq 0 N else rev (seq 0 N)) with (map sgm (seq 0 N)) by (unfold sgm; destruct up; [apply map_id|symmetry; apply rev_seq_map]).
  rewrite E1. cbn [bind].
  set (kp := fun p : Z * Z => Z.to_nat (fst p - mn)).
  assert (Kp : forall p, In p (withidx xs) -> (kp p < N)%nat) by (intros [v j] Hp; apply withidx_in in Hp; destruct Hp as [_ Hp]; apply nth_error_In in Hp; apply (k_lt v Hp)).
  assert (Of : forall t, off (fun p => sgm (kp p)) t (withidx xs) = off KK t xs).
  { intros t. unfold off. rewrite <- (fst_withidx xs) at 2. generalize (withidx xs) as l. induction l as [|p l IH]; [reflexivity|]. cbn [map filter]. change (KK (fst p)) with (sgm (kp p)). destruct (_ <? t)%nat; cbn [length]; lia. }
  destruct (dist_ok N U32 kp sgm) with (b := 0%nat) (l := withidx xs) (c := c1) (r := combine rp rp) as (c'&E&_&_).
  - intros i j Hi Hj Eq. destruct (sgm_inv i Hi), (sgm_inv j Hj). congruence.
  - exact Kp.
  - intros i Hi. apply sgm_inv, Hi.
  - rewrite withidx_length. unfold U32. lia.
  - rewrite withidx_length, combine_length. lia.
  - lia.
  - intros i Hi. destruct (sgm_inv i Hi) as [I1 I2]. rewrite Nat.add_0_l. rewrite <- I1 at 1. rewrite (H1 _ I2). f_equal. rewrite Of. pose proof (off_n KK (sgm i) xs). unfold U32. rewrite Z.mod_small; lia.
  - erewrite bdist_sim; [| | | |rewrite pairs_from_0; exact E].
    + eexists. split; [reflexivity|]. apply pairs_grading; [apply bucket_perm; intros x Hx; apply sgm_inv, Kp, Hx|].
      apply ssorted_weak with (2 := bucket_sorted (fun p => sgm (kp p)) _ N _ (withidx_sorted xs)). intros p q Hp Hq H. apply bucket_in in Hp, Hq. destruct Hp as [Hp _], Hq as [Hq _].
      pose proof (Kp p Hp) as K1. pose proof (Kp q Hq) as K2. destruct p as [v i], q as [u j]. apply withidx_in in Hp, Hq. destruct Hp as [_ Hp], Hq as [_ Hq]. apply nth_error_In in Hp, Hq.
      pose proof (Hv v Hp). pose proof (Hv u Hq). unfold sgm, kp, icmp in *. cbn [fst snd] in *. destruct up; lia.
    + intros v Hvv. apply Hv, Hvv.
    + rewrite Forall_forall. intros z Hz. apply In_nth_error in Hz. destruct Hz as [s Hs]. assert (Ls : (s < N)%nat) by (apply nth_error_Some_lt in Hs; lia). destruct (sgm_inv s Ls) as [I1 I2].
      rewrite <- I1, (H1 _ I2) in Hs. injection Hs as <-. lia.
    + now rewrite combine_self_snd.
Qed.
End BG.

Lemma icmp_comparison up : comparison (icmp up) (fun _ => True).
Proof. unfold comparison, icmp. split; intros; destruct up; lia. Qed.
Lemma ip_cmp_icmp up : forall a b, ip_cmp up a b = icmp up (fst a) (fst b).
Proof. intros a b. unfold ip_cmp, icmp. destruct up; lia. Qed.
Lemma tim_grade_ext {T} (cmp : T -> T -> Z) ok (pc : T * Z -> T * Z -> Z) xs : comparison cmp ok -> (forall a b, pc a b = cmp (fst a) (fst b)) -> Forall ok xs -> Z.of_nat (length xs) < 2 ^ 63 ->
  exists r, tim_sort pc (withidx xs) = Ok r /\ grading cmp xs (map snd r).
Proof.
  intros C E F B. assert (Fp : Forall (fun p : T * Z => ok (fst p)) (withidx xs)).
  { rewrite Forall_forall in *. intros [v j] Hp. apply withidx_in in Hp. destruct Hp as [_ Hp]. apply F. apply nth_error_In in Hp. exact Hp. }
  assert (Cp : comparison pc (fun p => ok (fst p))).
  { destruct C as [C1 C2]. split; [intros a b Ha Hb; rewrite !E; now apply C1|intros a b c Ha Hb Hc; rewrite !E; now apply C2]. }
  destruct (tim_sort_ok pc _ Cp (withidx xs) Fp) as (r&Er&P&S&K); [rewrite withidx_length; exact B|].
  exists r. split; [exact Er|]. apply pairs_grading; [exact P|].
  assert (S' : StronglySorted (fun a b => cmp (fst a) (fst b) <= 0) r) by (apply ssorted_weak with (2 := S); intros x y _ _; rewrite E; auto).
  apply (class_sorted cmp ok C (fun a b => snd a < snd b)); [apply (Permutation_Forall P Fp)|exact S'|].
  intros k Hk. assert (Ck : class (fun p q => cmp (fst p) (fst q)) k r = class pc k r) by (unfold class; apply filter_same; intros x _; now rewrite E).
  rewrite Ck, (K k Hk). apply ssorted_filter, withidx_sorted.
Qed.
Lemma grade_32_ok up xs rp cj junk : xs <> [] -> Forall (int_ok 32) xs -> Z.of_nat (length xs) < 2 ^ 31 -> length rp = length xs -> length junk = length xs ->
  exists g, grade_32 up xs rp cj junk = Ok g /\ grading (icmp up) xs g.
Proof.
  intros Ne F B Lr Lj. unfold grade_32. destruct (minmax xs (2 ^ 31 - 1) (- 2 ^ 31) 0) as [[mn mx] sum] eqn:M. apply minmax_ok in M. destruct M as (_&_&Hb&_&_).
  change (2 ^ 31) with 2147483648 in *.
  assert (R : forall rp0, length rp0 = length xs -> exists g, grade_32_rest up mn (mx - mn + 1) xs rp0 cj junk = Ok g /\ grading (icmp up) xs g).
  { intros rp0 L0. unfold grade_32_rest. destruct (_ <? _).
    - apply bucket_grade_ok; [intros v Hv; specialize (Hb v Hv); lia|change (2 ^ 32) with 4294967296; lia|exact L0].
    - destruct (40 <? _).
      + apply radix_grade_ok; auto; [unfold width; auto|unfold U32; change (2 ^ 32) with 4294967296; lia|reflexivity].
      + change (combine xs (map Z.of_nat (seq 0 (length xs)))) with (withidx xs).
        destruct (tim_grade_ext (icmp up) (fun _ => True) (ip_cmp up) xs (icmp_comparison up) (ip_cmp_icmp up)) as (r&E&G); [apply Forall_forall; auto|change (2 ^ 63) with 9223372036854775808; lia|].
        rewrite E. cbn [bind]. eexists. split; [reflexivity|exact G]. }
  destruct (_ && _) eqn:C; [|apply R; exact Lr]. apply andb_true_iff in C. destruct C as [C _]. apply andb_true_iff in C. destruct C as [_ C]. apply Z.eqb_eq in C.
  destruct (inv_ok up mn mx xs (repeat (Z.of_nat (length xs)) (length xs)) Hb) as (r&E&L&G); [lia|apply repeat_length|apply Forall_forall; intros z Hz; apply repeat_spec in Hz; auto|].
  rewrite E. cbn [bind]. destruct (forallb _ r) eqn:Fb; [|apply R; exact L]. eexists. split; [reflexivity|]. apply G. reflexivity.
Qed.
