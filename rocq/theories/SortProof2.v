(** Proofs about radix and counting sort. *)
From Verif Require Import Base BitLemmas BitsModel BitsSpec TimsortModel TimsortSpec TimsortProof SortModel SortSpec RadixProof SortProof.

Lemma radix_sort_ok up w M xs cj junk : width w -> Forall (int_ok w) xs -> Z.of_nat (length xs) <= M -> 0 < M -> length junk = length xs ->
  exists r, radix_sort up w M xs cj junk = Ok r /\ sorting up xs r.
Proof.
  intros W F HM M0 L. rewrite Forall_forall in F.
  assert (K : forall v k, In v xs -> In k (digits w) -> (k v < 256)%nat) by (intros v k Hv Hk; apply (digits_lt w); auto).
  unfold radix_sort. rewrite radix_ok; auto using digits_nonempty. eexists. split; [reflexivity|].
  assert (P : Permutation xs (fold_left (bpass up) (digits w) xs)) by (apply bpass_perm; exact K). split; [exact P|].
  apply ssorted_weak with (fold_left (lexR up) (digits w) (fun _ _ => True)).
  - intros x y Hx Hy H. apply digits_order in H; auto.
    + unfold before. unfold icmp in H. destruct up; lia.
    + apply F. apply (Permutation_in _ (Permutation_sym P) Hx).
    + apply F. apply (Permutation_in _ (Permutation_sym P) Hy).
  - apply bpass_sorted. clear. induction xs; constructor; auto. apply Forall_forall. auto.
Qed.

(** pairs of values and indices *)
Definition idx (n : nat) : list Z := map Z.of_nat (seq 0 n).
Definition withidx {T} (xs : list T) : list (T * Z) := combine xs (idx (length xs)).
Lemma idx_length n : length (idx n) = n. Proof. unfold idx. now rewrite map_length, seq_length. Qed.
Lemma nth_error_idx n i : (i < n)%nat -> nth_error (idx n) i = Some (Z.of_nat i).
Proof. intros H. unfold idx. rewrite nth_error_map. rewrite (nth_error_nth' _ 0%nat) by (rewrite seq_length; exact H). rewrite seq_nth by exact H. reflexivity. Qed.
Lemma nth_error_combine {A B} (a : list A) (b : list B) i : nth_error (combine a b) i = match nth_error a i, nth_error b i with Some x, Some y => Some (x, y) | _, _ => None end.
Proof. revert b i; induction a as [|x a IH]; intros b i; [destruct i; reflexivity|]. destruct b as [|y b]; [destruct i; cbn; [reflexivity|destruct (nth_error a i); reflexivity]|]. destruct i; cbn; [reflexivity|apply IH]. Qed.
Lemma withidx_length {T} (xs : list T) : length (withidx xs) = length xs.
Proof. unfold withidx. rewrite combine_length, idx_length. lia. Qed.
Lemma withidx_nth {T} (xs : list T) i v : nth_error xs i = Some v -> nth_error (withidx xs) i = Some (v, Z.of_nat i).
Proof. intros H. unfold withidx. rewrite nth_error_combine, H, nth_error_idx; [reflexivity|]. apply nth_error_Some_lt in H. exact H. Qed.
Lemma withidx_in {T} (xs : list T) v j : In (v, j) (withidx xs) -> 0 <= j /\ nth_error xs (Z.to_nat j) = Some v.
Proof.
  intros H. apply In_nth_error in H. destruct H as [i H]. unfold withidx in H. rewrite nth_error_combine in H.
  destruct (nth_error xs i) eqn:E; [|discriminate]. rewrite nth_error_idx in H by (apply nth_error_Some_lt in E; exact E). injection H as -> <-. rewrite Nat2Z.id. split; [lia|exact E].
Qed.
Lemma snd_withidx {T} (xs : list T) : map snd (withidx xs) = idx (length xs).
Proof. unfold withidx. apply nth_error_ext. intros i. rewrite nth_error_map, nth_error_combine.
  destruct (nth_error xs i) eqn:E.
  - rewrite nth_error_idx by (apply nth_error_Some_lt in E; exact E). reflexivity.
  - symmetry. apply nth_error_None in E. apply nth_error_None. rewrite idx_length. exact E. Qed.
Lemma fst_withidx {T} (xs : list T) : map fst (withidx xs) = xs.
Proof. apply nth_error_ext. intros i. rewrite nth_error_map. destruct (nth_error xs i) eqn:E.
  - rewrite (withidx_nth _ _ _ E). reflexivity.
  - apply nth_error_None in E. rewrite (proj2 (nth_error_None _ _)) by (rewrite withidx_length; exact E). reflexivity. Qed.
Lemma ssorted_map {A B} (f : A -> B) (R : B -> B -> Prop) l : StronglySorted (fun a b => R (f a) (f b)) l -> StronglySorted R (map f l).
Proof. induction 1 as [|a l S IH F]; cbn [map]; constructor; [assumption|]. rewrite Forall_forall in *. intros y Hy. apply in_map_iff in Hy. destruct Hy as (z & <- & Hz). auto. Qed.
Lemma ssorted_seq s n : StronglySorted (fun a b => a < b) (map Z.of_nat (seq s n)).
Proof. revert s; induction n as [|n IH]; intros s; cbn [seq map]; constructor; [apply IH|]. rewrite Forall_forall. intros y Hy. apply in_map_iff in Hy. destruct Hy as (z & <- & Hz). apply in_seq in Hz. lia. Qed.
Lemma withidx_sorted {T} (xs : list T) : StronglySorted (fun a b => snd a < snd b) (withidx xs).
Proof.
  assert (G : forall l : list (T * Z), StronglySorted (fun a b => a < b) (map snd l) -> StronglySorted (fun a b => snd a < snd b) l).
  { induction l as [|a l IH]; intros S; [constructor|]. cbn [map] in S. apply StronglySorted_inv in S. destruct S as [S F]. constructor; [auto|]. rewrite Forall_forall in *. intros y Hy. apply F. apply in_map_iff. eauto. }
  apply G. rewrite snd_withidx. apply ssorted_seq.
Qed.
(** an ordering of the pairs gives a grading *)
Lemma pairs_grading {T} (cmp : T -> T -> Z) (xs : list T) r : Permutation (withidx xs) r ->
  StronglySorted (fun p q => cmp (fst p) (fst q) < 0 \/ cmp (fst p) (fst q) = 0 /\ snd p < snd q) r -> grading cmp xs (map snd r).
Proof.
  intros P S. split.
  - change (map Z.of_nat (seq 0 (length xs))) with (idx (length xs)). rewrite <- snd_withidx. now apply Permutation_map.
  - apply ssorted_map. apply ssorted_weak with (2 := S). intros [v i] [u j] Hx Hy H a b Ha Hb. cbn [fst snd] in *.
    apply (Permutation_in _ (Permutation_sym P)) in Hx, Hy. apply withidx_in in Hx, Hy. destruct Hx as [_ Hx]. destruct Hy as [_ Hy].
    rewrite Hx in Ha. rewrite Hy in Hb. injection Ha as <-. injection Hb as <-. exact H.
Qed.

Lemma lexR_fst up ks : forall (R : Z * Z -> Z * Z -> Prop) (R' : Z -> Z -> Prop) (p q : Z * Z),
  (R p q -> R' (fst p) (fst q)) -> fold_left (lexR up) (map (fun k (p : Z * Z) => k (fst p)) ks) R p q -> fold_left (lexR up) ks R' (fst p) (fst q).
Proof.
  induction ks as [|k ks IH]; intros R R' p q H F; cbn [fold_left map] in *; [auto|]. refine (IH _ _ p q _ F). unfold lexR. cbn. tauto.
Qed.
Lemma lexR_mono {A} up ks : forall (R R' : A -> A -> Prop) p q, (R p q -> R' p q) -> fold_left (lexR up) ks R p q -> fold_left (lexR up) ks R' p q.
Proof. induction ks as [|k ks IH]; intros R R' p q H F; cbn [fold_left] in *; [auto|]. refine (IH _ _ p q _ F). unfold lexR. tauto. Qed.

Lemma radix_grade_ok up w M xs cj junk : width w -> Forall (int_ok w) xs -> Z.of_nat (length xs) <= M -> 0 < M -> length junk = length xs ->
  exists g, radix_grade up w M xs cj junk = Ok g /\ grading (icmp up) xs g.
Proof.
  intros W F HM M0 L. rewrite Forall_forall in F. unfold radix_grade. change (combine xs (map Z.of_nat (seq 0 (length xs)))) with (withidx xs).
  set (ks := map _ _).
  assert (Fx : forall p, In p (withidx xs) -> int_ok w (fst p)).
  { intros [v j] Hp. apply withidx_in in Hp. apply F. apply nth_error_In with (Z.to_nat j). apply Hp. }
  assert (K : forall v k, In v (withidx xs) -> In k ks -> (k v < 256)%nat).
  { intros v k Hv Hk. unfold ks in Hk. apply in_map_iff in Hk. destruct Hk as (k0 & <- & Hk). apply (digits_lt w); auto. }
  rewrite radix_ok; auto.
  - cbn [bind]. eexists. split; [reflexivity|].
    assert (P : Permutation (withidx xs) (fold_left (bpass up) ks (withidx xs))) by (apply bpass_perm; exact K).
    apply pairs_grading; [exact P|].
    apply ssorted_weak with (fold_left (lexR up) ks (fun a b => snd a < snd b)); [|apply bpass_sorted, withidx_sorted].
    intros p q Hp Hq H. apply (Permutation_in _ (Permutation_sym P)) in Hp, Hq.
    pose proof (lexR_fst up (digits w) _ (fun _ _ => snd p < snd q) p q (fun x => x) H) as H'. apply digits_order in H'; auto. unfold icmp in *. destruct up; lia.
  - rewrite withidx_length. exact HM.
  - rewrite withidx_length. exact L.
  - unfold ks. intros E. apply map_eq_nil in E. exact (digits_nonempty w E).
Qed.

(** ** counting sort *)
Lemma ssorted_true {A} (l : list A) : StronglySorted (fun _ _ => True) l.
Proof. induction l; constructor; auto. apply Forall_forall. auto. Qed.
Lemma rev_seq_map k : rev (seq 0 k) = map (fun t => (k - 1 - t)%nat) (seq 0 k).
Proof.
  induction k as [|k IH]; [reflexivity|]. rewrite seq_S at 1. rewrite rev_app_distr. cbn [rev app Nat.add]. rewrite IH. cbn [seq map]. f_equal; [lia|].
  rewrite <- seq_shift, map_map. apply map_ext_in. intros a Ha. apply in_seq in Ha. lia.
Qed.
Lemma cnt_le {A} (k : A -> nat) j l : (cnt k j l <= length l)%nat.
Proof. pose proof (off_n k j l). lia. Qed.
Section Counting.
Context (up : bool) (w : Z) (Hw : w = 8 \/ w = 16).
Let h := 2 ^ (w - 1).
Lemma h_pos : 128 <= h /\ 2 ^ w = 2 * h.
Proof. unfold h. destruct Hw as [->| ->]; [change (2 ^ (8 - 1)) with 128; change (2 ^ 8) with 256|change (2 ^ (16 - 1)) with 32768; change (2 ^ 16) with 65536]; lia. Qed.
Lemma C_h : Z.of_nat (C w) = 2 * h.
Proof. pose proof h_pos. unfold C. rewrite Z2Nat.id by lia. lia. Qed.
Definition val (t : nat) : Z := if up then Z.of_nat t - h else h - 1 - Z.of_nat t.
Definition K (v : Z) : nat := if up then cslot w v else (C w - 1 - cslot w v)%nat.
Definition okv (v : Z) : Prop := - h <= v < h.
Lemma cslot_val v : okv v -> Z.of_nat (cslot w v) = v + h.
Proof. unfold okv, cslot. fold h. lia. Qed.
Lemma K_lt v : okv v -> (K v < C w)%nat.
Proof. intros H. pose proof (cslot_val v H). pose proof C_h. unfold K, okv in *. destruct up; lia. Qed.
Lemma K_val v t : okv v -> (t < C w)%nat -> (K v = t <-> v = val t).
Proof. intros H Ht. pose proof (cslot_val v H). pose proof C_h. unfold K, val, okv in *. destruct up; lia. Qed.
Lemma val_ok t : (t < C w)%nat -> okv (val t).
Proof. intros Ht. pose proof C_h. unfold val, okv. destruct up; lia. Qed.
Lemma cslot_of_val t : (t < C w)%nat -> cslot w (val t) = (if up then t else C w - 1 - t)%nat.
Proof. intros Ht. pose proof C_h. pose proof (cslot_val _ (val_ok t Ht)). unfold val in *. destruct up; lia. Qed.
Lemma sgn_ok v : okv v -> sgn w v = v.
Proof. intros H. apply sgn_small; [lia|exact H]. Qed.
Lemma cstep_val t : (S t < C w)%nat -> cstep up w (val t) = val (S t).
Proof. intros Ht. unfold cstep. replace (if up then val t + 1 else val t - 1) with (val (S t)) by (unfold val; destruct up; lia). apply sgn_ok, val_ok, Ht. Qed.

Lemma sgn_mod a : sgn w a mod 2 ^ w = a mod 2 ^ w.
Proof. unfold sgn. fold h. pose proof h_pos. rewrite Zminus_mod_idemp_l. f_equal. lia. Qed.
Lemma sgn_eq a b : a mod 2 ^ w = b mod 2 ^ w -> sgn w a = sgn w b.
Proof. intros E. unfold sgn. fold h. rewrite <- (Zplus_mod_idemp_l a), E, Zplus_mod_idemp_l. reflexivity. Qed.
Lemma sgn_add a b : sgn w (sgn w a + b) = sgn w (a + b).
Proof. apply sgn_eq. rewrite <- (Zplus_mod_idemp_l (sgn w a)), sgn_mod, Zplus_mod_idemp_l. reflexivity. Qed.
Lemma sgn_add_r a b : sgn w (a + sgn w b) = sgn w (a + b).
Proof. rewrite Z.add_comm, sgn_add, Z.add_comm. reflexivity. Qed.

Lemma count_loop_ok xs : forall c m, Forall okv xs -> length c = C w -> Z.of_nat (length xs) < 2 ^ 32 - Z.of_nat m -> 
  (forall p, (p < C w)%nat -> exists z, nth_error c p = Some (Z.of_nat z) /\ (z <= m)%nat) ->
  exists c', count_loop w c xs = Ok c' /\ length c' = C w /\ forall p z, (p < C w)%nat -> nth_error c p = Some (Z.of_nat z) -> nth_error c' p = Some (Z.of_nat (z + cnt (cslot w) p xs)).
Proof.
  induction xs as [|v xs IH]; intros c m F L B H; cbn [count_loop].
  - exists c. split; [reflexivity|]. split; [exact L|]. intros p z Hp E. unfold cnt. cbn. rewrite Nat.add_0_r. exact E.
  - pose proof (Forall_inv F) as Fv. apply Forall_inv_tail in F. pose proof (cslot_val v Fv) as Sv. pose proof C_h as Ch. unfold okv in Fv.
    assert (Lv : (cslot w v < C w)%nat) by lia. destruct (H _ Lv) as (z0&E0&Z0). rewrite (rd_nth_error _ _ _ E0). cbn [bind]. rewrite wr_ok by lia. cbn [bind].
    cbn [length] in B. unfold U32. rewrite Z.mod_small by lia. replace (Z.of_nat z0 + 1) with (Z.of_nat (S z0)) by lia.
    destruct (IH (upd c (cslot w v) (Z.of_nat (S z0))) (S m) F) as (c'&E&L'&R).
    + rewrite upd_length. exact L.
    + lia.
    + intros p Hp. rewrite nth_error_upd. destruct (Nat.eqb_spec (cslot w v) p) as [Q|Q].
      * subst p. destruct (Nat.ltb_spec (cslot w v) (length c)); [|lia]. exists (S z0). split; [reflexivity|lia].
      * destruct (H p Hp) as (z&E&Zm). exists z. split; [exact E|lia].
    + exists c'. split; [exact E|]. split; [exact L'|]. intros p z Hp Ez.
      assert (Cn : cnt (cslot w) p (v :: xs) = ((if (cslot w v =? p)%nat then 1 else 0) + cnt (cslot w) p xs)%nat) by (unfold cnt; cbn [filter]; destruct (cslot w v =? p)%nat; reflexivity).
      rewrite Cn. destruct (Nat.eqb_spec (cslot w v) p) as [Q|Q].
      * subst p. rewrite E0 in Ez. injection Ez as Ez. apply Nat2Z.inj in Ez. subst z0. rewrite (R _ (S z)); [f_equal; lia|exact Hp|apply upd_same; lia].
      * rewrite (R _ z); [f_equal; lia|exact Hp|]. rewrite upd_other by assumption. exact Ez.
Qed.

Section Xs.
Context (xs : list Z) (Fx : Forall okv xs) (Nx : Z.of_nat (length xs) < 2 ^ 32).
Let m (t : nat) : nat := cnt K t xs.
Let n : nat := length xs.
Lemma filter_repeat t : (t < C w)%nat -> filter (fun x => (K x =? t)%nat) xs = repeat (val t) (m t).
Proof.
  intros Ht. unfold m, cnt. rewrite Forall_forall in Fx. revert Fx. generalize xs as l. intros l F. induction l as [|x l IH]; [reflexivity|]. cbn [filter].
  assert (Fx' : okv x) by (apply F; cbn; auto). pose proof (K_val x t Fx' Ht) as KV. destruct (Nat.eqb_spec (K x) t); cbn [length repeat]; [|apply IH; intros; apply F; cbn; auto].
  f_equal; [tauto|]. apply IH; intros; apply F; cbn; auto.
Qed.
Definition out (t : nat) : list Z := concat (map (fun t => repeat (val t) (m t)) (seq 0 t)).
Lemma out_bucket t : (t <= C w)%nat -> out t = bucket K t xs.
Proof. intros H. unfold out, bucket. f_equal. apply map_ext_in. intros a Ha. apply in_seq in Ha. rewrite filter_repeat by lia. reflexivity. Qed.
Lemma out_S t : out (S t) = out t ++ repeat (val t) (m t).
Proof. unfold out. rewrite seq_S, map_app, concat_app. cbn [map concat Nat.add]. rewrite app_nil_r. reflexivity. Qed.
Lemma out_length t : length (out (S t)) = (length (out t) + m t)%nat.
Proof. rewrite out_S, app_length, repeat_length. reflexivity. Qed.
Lemma out_perm : Permutation xs (out (C w)).
Proof. rewrite out_bucket by lia. apply bucket_perm. intros x Hx. apply K_lt. rewrite Forall_forall in Fx. auto. Qed.
Lemma out_full t : (t <= C w)%nat -> length (out t) = n -> out t = out (C w).
Proof.
  intros Ht L. pose proof (Permutation_length out_perm) as P. rewrite (out_bucket t), (out_bucket (C w)) in * by lia. destruct (bucket_le K t (C w) xs Ht) as [r E].
  rewrite E in *. rewrite app_length in P. destruct r; [now rewrite app_nil_r|]. cbn [length] in P. fold n in P. lia.
Qed.
Lemma out_le t : (t <= C w)%nat -> (length (out t) <= n)%nat.
Proof. intros Ht. pose proof (Permutation_length out_perm) as P. rewrite (out_bucket t), (out_bucket (C w)) in * by lia. destruct (bucket_le K t (C w) xs Ht) as [r E]. rewrite E, app_length in P. fold n in P. lia. Qed.
Lemma out_sorting : sorting up xs (out (C w)).
Proof.
  split; [apply out_perm|]. pose proof out_perm as P. rewrite out_bucket in * by lia. apply ssorted_weak with (2 := bucket_sorted K (fun _ _ => True) (C w) xs (ssorted_true xs)).
  intros x y Hx Hy H. apply (Permutation_in _ (Permutation_sym P)) in Hx, Hy. rewrite Forall_forall in Fx. pose proof (K_lt x (Fx x Hx)). pose proof (K_lt y (Fx y Hy)).
  pose proof (cslot_val x (Fx x Hx)). pose proof (cslot_val y (Fx y Hy)). pose proof C_h. cbn beta in H. clear P. pose proof (Fx x Hx) as Ox. pose proof (Fx y Hy) as Oy. unfold okv in Ox, Oy. unfold K, before in *. destruct up; lia.
Qed.

(* the counters *)
Context (c : list Z) (Lc : length c = C w) (Hc : forall p, (p < C w)%nat -> nth_error c p = Some (Z.of_nat (cnt (cslot w) p xs))).
Lemma c_at t : (t < C w)%nat -> rd c (cslot w (val t)) = Ok (Z.of_nat (m t)).
Proof.
  intros Ht. rewrite cslot_of_val by assumption. assert (Hp : ((if up then t else C w - 1 - t) < C w)%nat) by (destruct up; lia). rewrite (rd_nth_error _ _ _ (Hc _ Hp)). do 2 f_equal. unfold m, cnt, K.
  apply filter_length_ext. intros x Hx. rewrite Forall_forall in Fx. pose proof (cslot_val x (Fx x Hx)) as Q. pose proof (Fx x Hx) as Q'. pose proof C_h. unfold okv in Q'. destruct up; [reflexivity|]. destruct (Nat.eqb_spec (cslot w x) (C w - 1 - t)), (Nat.eqb_spec (C w - 1 - cslot w x) t); lia.
Qed.

(** dense *)
Lemma emit_ok k : forall d rest v, (k <= length rest)%nat -> emit k (d ++ rest) (length d) v = Ok ((d ++ repeat v k) ++ skipn k rest, length (d ++ repeat v k)).
Proof.
  induction k as [|k IH]; intros d rest v H; cbn [emit repeat].
  - rewrite app_nil_r. reflexivity.
  - destruct rest as [|a rest]; [cbn in H; lia|]. rewrite wr_at by reflexivity. cbn [bind].
    replace (d ++ v :: rest) with ((d ++ [v]) ++ rest) by (rewrite <- app_assoc; reflexivity).
    replace (S (length d)) with (length (d ++ [v])) by (rewrite app_length; cbn; lia). cbn in H.
    rewrite IH by lia. cbn [skipn]. replace ((d ++ [v]) ++ repeat v k) with (d ++ v :: repeat v k) by (rewrite <- app_assoc; reflexivity). reflexivity.
Qed.
Lemma dense_ok k : forall t rest, (t + k = C w)%nat -> (length (out t) + length rest = n)%nat ->
  dense_loop w (map (fun t => if up then t else (C w - 1 - t)%nat) (seq t k)) c (out t ++ rest) (length (out t)) = Ok (out (C w)).
Proof.
  induction k as [|k IH]; intros t rest Ht L; cbn [seq map dense_loop].
  - assert (t = C w) by lia. subst t. assert (length (out (C w)) = n) by (symmetry; apply Permutation_length, out_perm). destruct rest; [now rewrite app_nil_r|cbn in L; lia].
  - rewrite <- cslot_of_val by lia. rewrite c_at by lia. cbn [bind]. rewrite Nat2Z.id.
    pose proof (out_le (S t) ltac:(lia)) as Lo. rewrite out_length in Lo. rewrite emit_ok by lia. cbn [bind].
    pose proof (cslot_val _ (val_ok t ltac:(lia))) as Q. replace (Z.of_nat (cslot w (val t)) - 2 ^ (w - 1)) with (val t) by (fold h; lia). rewrite <- out_S.
    apply IH; [lia|]. rewrite out_length, skipn_length. lia.
Qed.

(** sparse *)
Lemma app_eq_len {A} (a a' b b' : list A) : length a = length a' -> a ++ b = a' ++ b' -> a = a' /\ b = b'.
Proof. clear. revert a'; induction a as [|x a IH]; intros [|y a'] L E; try discriminate; [auto|]. cbn in L, E. injection L as L. injection E as -> E. destruct (IH a' L E) as [-> ->]. auto. Qed.
Lemma scan_app a : forall b js, scan_loop w (a ++ b) js = scan_loop w a js ++ scan_loop w b (last (scan_loop w a js) js).
Proof.
  induction a as [|x a IH]; intros b js; cbn [app scan_loop]; [reflexivity|]. rewrite IH. cbn [app]. do 2 f_equal. clear.
  f_equal. destruct (scan_loop w a (sgn w (x + js))) eqn:E; [reflexivity|]. cbn [last]. clear E. revert z. induction l as [|y l IHl]; intros z; [reflexivity|]. apply IHl.
Qed.
Lemma scan_length a : forall js, length (scan_loop w a js) = length a.
Proof. induction a as [|x a IH]; intros js; cbn [scan_loop length]; [reflexivity|]. now rewrite IH. Qed.
Lemma scan_shift b : forall v e, scan_loop w b v = repeat v (length b) -> scan_loop w b (sgn w (v + e)) = repeat (sgn w (v + e)) (length b).
Proof.
  induction b as [|x b IH]; intros v e H; cbn [scan_loop length repeat] in *; [reflexivity|]. injection H as H1 H2. rewrite H1 in H2.
  assert (Q : sgn w (x + sgn w (v + e)) = sgn w (v + e)) by (rewrite sgn_add_r, Z.add_assoc, <- sgn_add, H1; reflexivity).
  rewrite Q. f_equal. apply IH. exact H2.
Qed.
Lemma scan_upd a d b js L v e : scan_loop w (a ++ d :: b) js = L ++ repeat v (S (length b)) -> length L = length a ->
  scan_loop w (a ++ sgn w (d + e) :: b) js = L ++ repeat (sgn w (v + e)) (S (length b)).
Proof.
  intros H HL. rewrite scan_app in *. assert (Q : scan_loop w a js = L /\ scan_loop w (d :: b) (last (scan_loop w a js) js) = repeat v (S (length b))).
  { apply app_eq_len; [rewrite scan_length; lia|exact H]. }
  destruct Q as [Q1 Q2]. rewrite Q1 in *. f_equal. set (z := last L js) in *. cbn [scan_loop repeat] in *. injection Q2 as Q2 Q3. rewrite Q2 in Q3.
  assert (W : sgn w (sgn w (d + e) + z) = sgn w (v + e)). { rewrite sgn_add. replace (d + e + z) with ((d + z) + e) by lia. rewrite <- sgn_add, Q2. reflexivity. }
  rewrite W. f_equal. apply scan_shift. exact Q3.
Qed.
Lemma sparse_ok k : forall t rp v0, (t < C w)%nat -> (C w - t <= k)%nat -> length rp = n ->
  scan_loop w rp v0 = out (S t) ++ repeat (val t) (n - length (out (S t))) ->
  exists r, sparse_loop up w k c rp (Z.of_nat n) (Z.of_nat (length (out (S t)))) (val t) = Ok r /\ scan_loop w r v0 = out (C w).
Proof.
  induction k as [|k IH]; intros t rp v0 Ht Hk Lr Sc; [lia|]. cbn [sparse_loop].
  pose proof (out_le (S t) Ht) as Lo. destruct (Z.ltb_spec (Z.of_nat (length (out (S t)))) (Z.of_nat n)) as [L|L].
  - assert (Ht' : (S t < C w)%nat). { destruct (Nat.eq_dec (S t) (C w)) as [E|E]; [|lia]. rewrite E in L. pose proof (Permutation_length out_perm). fold n in H. lia. }
    set (ij := length (out (S t))) in *. rewrite Nat2Z.id. destruct (split_at rp ij) as (a&b0&Erp&La); [lia|]. destruct b0 as [|d b]; [rewrite Erp, app_nil_r in Lr; lia|].
    rewrite Erp, rd_at by (symmetry; exact La). cbn [bind]. rewrite wr_at by (symmetry; exact La). cbn [bind].
    rewrite cstep_val by assumption. rewrite c_at by assumption. cbn [bind]. replace (Z.of_nat ij + Z.of_nat (m (S t))) with (Z.of_nat (length (out (S (S t))))) by (rewrite (out_length (S t)); unfold ij; lia).
    assert (Lb : (n - ij = S (length b))%nat) by (rewrite Erp, app_length in Lr; cbn [length] in Lr; lia).
    apply IH; [exact Ht'|lia| |].
    + rewrite Erp, app_length in Lr. rewrite app_length. exact Lr.
    + rewrite Erp, Lb in Sc. replace (if up then d + 1 else d - 1) with (d + (if up then 1 else -1)) by (destruct up; lia).
      rewrite (scan_upd _ _ _ _ _ _ _ Sc) by (symmetry; exact La). rewrite (out_S (S t)). rewrite <- app_assoc. f_equal.
      replace (sgn w (val t + (if up then 1 else -1))) with (val (S t)).
      * rewrite <- repeat_app. f_equal. rewrite app_length, repeat_length. fold ij. pose proof (out_le (S (S t)) Ht') as Lo'. rewrite out_length in Lo'. fold ij in Lo'. lia.
      * replace (val t + (if up then 1 else -1)) with (val (S t)) by (unfold val; destruct up; lia). symmetry. apply sgn_ok, val_ok, Ht'.
  - exists rp. split; [reflexivity|]. rewrite Sc. replace (n - length (out (S t)))%nat with 0%nat by lia. cbn [repeat]. rewrite app_nil_r. apply out_full; [exact Ht|]. lia.
Qed.
Lemma skip_ok k : forall t, (C w - t <= k)%nat -> out t = [] -> xs <> [] -> 
  exists t', (t' < C w)%nat /\ skip_loop up w k c (val t) = Ok (Z.of_nat (m t'), val t') /\ out t' = [].
Proof.
  assert (G : forall t, out t = [] -> xs <> [] -> (t <= C w)%nat -> (t < C w)%nat).
  { intros t O N Ht. destruct (Nat.eq_dec t (C w)) as [E|E]; [|lia]. rewrite E in O. pose proof out_perm as P. rewrite O in P. apply Permutation_sym, Permutation_nil in P. contradiction. }
  induction k as [|k IH]; intros t Hk O N.
  - exfalso. assert (Q : (C w <= t)%nat) by lia. pose proof out_perm as P. rewrite out_bucket in P by lia.
    assert (O' : bucket K (C w) xs = []). { unfold out in O. destruct (bucket K (C w) xs) eqn:E; [reflexivity|]. exfalso. assert (I : In z (out t)).
      { unfold out. apply in_concat. rewrite <- out_bucket in E by lia. assert (I : In z (out (C w))) by (rewrite E; cbn; auto). unfold out in I. apply in_concat in I. destruct I as (l0&I1&I2). exists l0. split; [|exact I2].
        apply in_map_iff in I1. destruct I1 as (u&I1&I3). apply in_map_iff. exists u. split; [exact I1|]. apply in_seq in I3. apply in_seq. lia. }
      unfold out in I. rewrite O in I. exact I. }
    rewrite O' in P. apply Permutation_sym, Permutation_nil in P. contradiction.
  - cbn [skip_loop]. destruct (Nat.lt_ge_cases t (C w)) as [Ht|Ht].
    + rewrite c_at by assumption. cbn [bind]. destruct (Z.eqb_spec (Z.of_nat (m t)) 0) as [E|E].
      * assert (O' : out (S t) = []) by (rewrite out_S, O; replace (m t) with 0%nat by lia; reflexivity).
        assert (Ht' : (S t < C w)%nat) by (apply G; auto). rewrite cstep_val by assumption. apply IH; auto. lia.
      * exists t. auto.
    + exfalso. pose proof (out_full) as _. assert (Q : (C w <= t)%nat) by lia. destruct (IH t ltac:(lia) O N) as (t'&H1&_&H3).
      apply (G (C w)) in N; [lia| |lia]. destruct (out (C w)) eqn:E; [reflexivity|]. exfalso. assert (I : In z (out t)).
      { assert (I : In z (out (C w))) by (rewrite E; cbn; auto). unfold out in *. apply in_concat in I. destruct I as (l0&I1&I2). apply in_concat. exists l0. split; [|exact I2]. apply in_map_iff in I1. destruct I1 as (u&I1&I3). apply in_map_iff. exists u. split; [exact I1|]. apply in_seq in I3. apply in_seq. lia. }
      rewrite O in I. exact I.
Qed.
Lemma scan_zeros k v : okv v -> scan_loop w (repeat 0 k) v = repeat v k.
Proof. intros H. induction k as [|k IH]; cbn [repeat scan_loop]; [reflexivity|]. rewrite Z.add_0_l, sgn_ok by assumption. now rewrite IH. Qed.
End Xs.

Lemma counting_sort_ok xs rp : Forall okv xs -> xs <> [] -> Z.of_nat (length xs) < 2 ^ 32 -> length rp = length xs ->
  exists r, counting_sort up w xs rp = Ok r /\ sorting up xs r.
Proof.
  intros F N B L. unfold counting_sort.
  destruct (count_loop_ok xs (repeat 0 (C w)) 0 F) as (c&E&Lc&Hc0).
  - apply repeat_length.
  - lia.
  - intros p Hp. exists 0%nat. split; [apply nth_repeat_some; exact Hp|lia].
  - rewrite E. cbn [bind].
    assert (Hc : forall p, (p < C w)%nat -> nth_error c p = Some (Z.of_nat (cnt (cslot w) p xs))) by (intros p Hp; apply (Hc0 p 0%nat Hp); apply nth_repeat_some; exact Hp).
    pose proof C_h as Ch. pose proof h_pos as Hh. destruct (_ <=? _).
    + destruct (skip_ok xs F c Lc Hc (C w) 0) as (t&Ht&Es&O); auto; [lia|].
      replace (if up then - 2 ^ (w - 1) else 2 ^ (w - 1) - 1) with (val 0) by (unfold val; fold h; destruct up; lia).
      rewrite Es. cbn [bind].
      assert (O1 : out xs (S t) = repeat (val t) (cnt K t xs)) by (rewrite out_S, O; reflexivity).
      destruct (sparse_ok xs F c Lc Hc (S (C w)) t (repeat 0 (length xs)) (val t)) as (r&Er&Sr).
      * exact Ht.
      * lia.
      * apply repeat_length.
      * rewrite scan_zeros by (apply val_ok, Ht). pose proof (out_le xs F (S t) Ht) as Lo. rewrite O1 in *. rewrite repeat_length in *. rewrite <- repeat_app. f_equal. lia.
      * rewrite O1, repeat_length in Er. rewrite Er. cbn [bind]. eexists. split; [reflexivity|]. rewrite Sr. apply out_sorting. exact F.
    + exists (out xs (C w)). split; [|apply out_sorting; exact F].
      replace (if up then seq 0 (C w) else rev (seq 0 (C w))) with (map (fun t => if up then t else (C w - 1 - t)%nat) (seq 0 (C w))) by (destruct up; [apply map_id|symmetry; apply rev_seq_map]).
      apply (dense_ok xs F c Lc Hc (C w) 0 rp); [lia|]. cbn. lia.
Qed.
End Counting.
