(** The radix-assisted lookup counts earlier occurrences. *)
From Verif Require Import Base ListLib BitsModel SqueezeModel SqueezeProof SortModel RadixProof SearchModel SearchProof SelfModel SelfProof.
From Coq Require Import List Sorting.Sorted.

Lemma foldM_cons {A S} (f : S -> A -> res S) a l s : foldM f (a :: l) s = do s' <- f s a; foldM f l s'.
Proof. unfold foldM. cbn [fold_left bind]. destruct (f s a); cbn [bind]; auto; induction l; cbn [fold_left bind]; auto. Qed.
Lemma gocc_drop {A} (E : A -> A -> bool) p l : (forall a b, In a p -> In b l -> E a b = false) -> gocc E p l = gocc E [] l.
Proof.
  intros H. apply nth_error_ext. intros j. rewrite !gocc_nth. destruct (nth_error l j) as [x|] eqn:N; auto. cbn [option_map app]. f_equal. rewrite cnt_eq_app, (proj2 (cnt_zero_iff E p x)); auto.
  intros a Ha. apply H; auto. eapply nth_error_In; eauto.
Qed.
Lemma gocc_split {A} (E : A -> A -> bool) s q : (forall a b, In a s -> In b q -> E a b = false) -> gocc E [] (s ++ q) = gocc E [] s ++ gocc E [] q.
Proof. intros H. rewrite gocc_app. cbn [app]. f_equal. apply gocc_drop; auto. Qed.

Definition w32 (v : Z) : Prop := 0 <= v < 2 ^ 32.
Notation b2 := (ubyte 16).
Notation b3 := (ubyte 24).
Lemma b2_eq v : w32 v -> Z.of_nat (b2 v) = v / 65536 mod 256. Proof. intros H. unfold ubyte. rewrite Z2Nat.id by (apply Z.mod_pos_bound; lia). rewrite Z.shiftr_div_pow2 by lia. reflexivity. Qed.
Lemma b3_eq v : w32 v -> Z.of_nat (b3 v) = v / 16777216 mod 256. Proof. intros H. unfold ubyte. rewrite Z2Nat.id by (apply Z.mod_pos_bound; lia). rewrite Z.shiftr_div_pow2 by lia. reflexivity. Qed.
Lemma ubyte_lt s v : (ubyte s v < 256)%nat. Proof. unfold ubyte. pose proof (Z.mod_pos_bound (Z.shiftr v s) 256 ltac:(lia)). lia. Qed.
Lemma hi_eq v : w32 v -> v / 65536 = Z.of_nat (b3 v) * 256 + Z.of_nat (b2 v).
Proof. intros H. rewrite b2_eq, b3_eq by auto. unfold w32 in H. change (2 ^ 32) with 4294967296 in H. assert (Q : v / 16777216 = v / 65536 / 256) by (rewrite Z.div_div by lia; reflexivity). rewrite Q. clear Q. assert (0 <= v / 65536 < 65536) by lia. generalize dependent (v / 65536). intros h Hh. lia. Qed.
Lemma low_lt v : (low16 v < tn16)%nat. Proof. unfold low16, tn16. pose proof (Z.mod_pos_bound v 65536 ltac:(lia)). lia. Qed.
Lemma low_inj a b : w32 a -> w32 b -> a / 65536 = b / 65536 -> low16 a = low16 b -> a = b.
Proof. intros A B H1 H2. unfold low16 in H2. pose proof (Z.mod_pos_bound a 65536 ltac:(lia)). pose proof (Z.mod_pos_bound b 65536 ltac:(lia)). pose proof (Z.div_mod a 65536 ltac:(lia)). pose proof (Z.div_mod b 65536 ltac:(lia)). lia. Qed.

Section R.
Variables (M init tim : Z) (set : Z -> Z).
Hypothesis M0 : 0 < M.

Lemma offsets_ok v0 : v0 <> [] -> Z.of_nat (length v0) < M ->
  exists c bytes, offsets M v0 = Ok (c, bytes) /\ length c = 513%nat /\
   (bytes = 0 /\ (forall u v, In u v0 -> In v v0 -> b2 u = b2 v /\ b3 u = b3 v) \/
    bytes = 1 /\ (forall u v, In u v0 -> In v v0 -> b3 u = b3 v) /\ (forall j, (j < 256)%nat -> nth_error c j = Some (Z.of_nat (off b2 j v0))) \/
    bytes = 2 /\ (forall j, (j < 256)%nat -> nth_error c j = Some (Z.of_nat (off b2 j v0))) /\ (forall j, (j < 256)%nat -> nth_error c (256 + j) = Some (Z.of_nat (off b3 j v0)))).
Proof.
  intros Ne L. unfold offsets. cbv zeta.
  assert (Fk : forall v, In v v0 -> Forall (fun k : Z -> nat => (k v < 256)%nat) [b2; b3]) by (intros v _; constructor; [apply ubyte_lt|constructor; [apply ubyte_lt|constructor]]).
  assert (L1 : length (repeat 0 (2 * 256 + 1)) = (256 * length [b2; b3] + SortModel.ROFF true)%nat) by (rewrite repeat_length; reflexivity).
  destruct (inc_all_ok true M M0 [b2; b3] v0 (repeat 0 (2 * 256 + 1)) Fk L1) as (c1&E1&Lc&T1). rewrite E1. cbn [bind].
  assert (Lc1 : length c1 = 513%nat) by (rewrite Lc, repeat_length; reflexivity). clear L1 E1 Lc.
  assert (Cl : forall k j, (cnt k j v0 <= length v0)%nat) by (intros k j; pose proof (off_n k j v0); lia).
  assert (Z0 : forall p, (p < 513)%nat -> nth_error (repeat 0 (2 * 256 + 1)) p = Some (0 mod M)) by (intros p Hp; rewrite nth_repeat_some by (change (2 * 256 + 1)%nat with 513%nat; auto); rewrite Z.mod_0_l by lia; reflexivity).
  assert (N2 : forall a, (a < 256)%nat -> nth_error c1 (1 + a) = Some (Z.of_nat (cnt b2 a v0))).
  { intros a Ha. rewrite (T1 (1 + a)%nat 0 (Z0 (1 + a)%nat ltac:(lia))). unfold delta. rewrite (tot_filter _ (fun v => (b2 v =? a)%nat)).
    - fold (cnt b2 a v0). rewrite Z.add_0_l, Z.mod_small; [reflexivity|]. pose proof (Cl b2 a). lia.
    - intros v _. cbn [hits]. unfold SortModel.ROFF. pose proof (ubyte_lt 24 v). destruct (Nat.eqb_spec (0 + b2 v + 1) (1 + a)), (Nat.eqb_spec (b2 v) a), (Nat.eqb_spec (0 + 256 + b3 v + 1) (1 + a)); lia. }
  assert (N3 : forall a, (a < 256)%nat -> nth_error c1 (256 + 1 + a) = Some (Z.of_nat (cnt b3 a v0))).
  { intros a Ha. rewrite (T1 (256 + 1 + a)%nat 0 (Z0 (256 + 1 + a)%nat ltac:(lia))). unfold delta. rewrite (tot_filter _ (fun v => (b3 v =? a)%nat)).
    - fold (cnt b3 a v0). rewrite Z.add_0_l, Z.mod_small; [reflexivity|]. pose proof (Cl b3 a). lia.
    - intros v _. cbn [hits]. unfold SortModel.ROFF. pose proof (ubyte_lt 16 v). destruct (Nat.eqb_spec (0 + b2 v + 1) (256 + 1 + a)), (Nat.eqb_spec (b3 v) a), (Nat.eqb_spec (0 + 256 + b3 v + 1) (256 + 1 + a)); lia. }
  assert (N0 : nth_error c1 0 = Some 0).
  { rewrite (T1 0%nat 0 (Z0 0%nat ltac:(lia))). unfold delta. rewrite (tot_filter _ (fun v => false)).
    - rewrite filter_none by auto. cbn [length]. rewrite Z.mod_0_l by lia. reflexivity.
    - intros v _. cbn [hits]. unfold SortModel.ROFF. destruct (Nat.eqb_spec (0 + b2 v + 1) 0), (Nat.eqb_spec (0 + 256 + b3 v + 1) 0); lia. }
  clear T1 Z0 Fk. destruct v0 as [|v0h v0t] eqn:Ev; [congruence|]. rewrite <- Ev in *. replace (rd v0 0) with (Ok v0h) by (rewrite Ev; reflexivity). cbn [bind].
  rewrite (rd_ok' _ _ _ (N3 (b3 v0h) (ubyte_lt _ _))). cbn [bind].
  assert (All : forall k, (cnt k (k v0h) v0 <? length v0)%nat = false -> forall u v, In u v0 -> In v v0 -> k u = k v).
  { intros k H. assert (F : forall u, In u v0 -> k u = k v0h).
    { apply Nat.ltb_ge in H. unfold cnt in H. clear -H. induction v0 as [|a l IH]; intros u Hu; [destruct Hu|]. cbn [filter length] in H.
      assert (LL : (length (filter (fun x => (k x =? k v0h)%nat) l) <= length l)%nat) by (clear; induction l as [|a l IH]; cbn [filter length]; [lia|]; destruct (_ =? _)%nat; cbn [length]; lia).
      destruct (Nat.eqb_spec (k a) (k v0h)); cbn [length] in H; [|lia]. destruct Hu as [<-|Hu]; auto. apply IH; auto. lia. }
    intros u v Hu Hv. rewrite (F u Hu), (F v Hv). reflexivity. }
  assert (Sum : forall k c p, (forall a, (a < 255)%nat -> nth_error c (p + (1 + a)) = Some (Z.of_nat (cnt k a v0))) -> nth_error c (p + 0) = Some 0 -> (p + 256 <= length c)%nat -> (forall v, In v v0 -> (k v < 256)%nat) ->
    exists c', psum M 256 c p 0 = Ok c' /\ length c' = length c /\ (forall x, (x < p \/ p + 256 <= x)%nat -> nth_error c' x = nth_error c x) /\ forall j, (j < 256)%nat -> nth_error c' (p + j) = Some (Z.of_nat (off k j v0))).
  { intros k c p Hc H0 Lp Hk. destruct (psum_ok M M0 256 c p 0 (fun i => if (i =? 0)%nat then 0 else Z.of_nat (cnt k (i - 1) v0)) Lp) as (c'&E&L'&O&T).
    - intros i Hi. destruct i as [|i].
      + cbn [Nat.eqb]. rewrite H0. rewrite Z.mod_0_l by lia. reflexivity.
      + change (S i =? 0)%nat with false. cbn iota. replace (S i) with (1 + i)%nat by lia. rewrite Hc by lia. replace (1 + i - 1)%nat with i by lia. pose proof (Cl k i). rewrite Z.mod_small by lia. reflexivity.
    - exists c'. rewrite Z.mod_0_l in E by lia. split; [exact E|]. split; [exact L'|]. split; [exact O|]. intros j Hj. rewrite T by auto. rewrite Z.add_0_l, fsum_first. cbn [Nat.eqb].
      rewrite (fsum_ext _ (fun t => Z.of_nat (length (filter (fun v => (k v =? t)%nat) v0)))) by (intros i _; replace (S i - 1)%nat with i by lia; reflexivity). rewrite Z.add_0_l, fsum_count. fold (off k j v0). pose proof (off_n k j v0). rewrite Z.mod_small by lia. reflexivity. }
  assert (Zb : (Z.of_nat (cnt b3 (b3 v0h) v0) <? Z.of_nat (length v0)) = (cnt b3 (b3 v0h) v0 <? length v0)%nat) by lia. rewrite Zb. clear Zb.
  destruct (cnt b3 (b3 v0h) v0 <? length v0)%nat eqn:T3.
  - destruct (nth_error_ex c1 256 ltac:(lia)) as [o Eo]. rewrite (rd_ok' _ _ _ Eo). cbn [bind]. rewrite wr_ok by lia. cbn [bind]. rewrite wr_ok by (rewrite upd_length; lia). cbn [bind].
    set (c2 := upd (upd c1 256 ((o - Z.of_nat (length v0)) mod M)) 256 0). assert (L2 : length c2 = 513%nat) by (unfold c2; rewrite !upd_length; auto).
    assert (O2 : forall x, x <> 256%nat -> nth_error c2 x = nth_error c1 x) by (intros x Hx; unfold c2; rewrite !upd_other by auto; reflexivity).
    destruct (Sum b2 c2 0%nat) as (c3&E3&L3&O3&T2); [intros a Ha; rewrite O2 by lia; apply N2; lia|rewrite O2 by lia; exact N0|lia|intros; apply ubyte_lt|]. rewrite E3. cbn [bind].
    destruct (Sum b3 c3 256%nat) as (c4&E4&L4&O4&T4); [intros a Ha; rewrite O3, O2 by lia; rewrite Nat.add_assoc; apply N3; lia| |lia|intros; apply ubyte_lt|].
    { rewrite O3 by lia. unfold c2. apply upd_same. rewrite upd_length. lia. }
    rewrite E4. cbn [bind]. exists c4, 2. split; [reflexivity|]. split; [lia|]. right. right. split; [reflexivity|]. split; [|exact T4]. intros j Hj. rewrite O4 by lia. apply T2; auto.
  - rewrite (rd_ok' _ _ _ (N2 (b2 v0h) (ubyte_lt _ _))). cbn [bind].
    assert (Zb : (Z.of_nat (cnt b2 (b2 v0h) v0) <? Z.of_nat (length v0)) = (cnt b2 (b2 v0h) v0 <? length v0)%nat) by lia. rewrite Zb. clear Zb.
    destruct (cnt b2 (b2 v0h) v0 <? length v0)%nat eqn:T2.
    + destruct (Sum b2 c1 0%nat) as (c3&E3&L3&O3&T4); [intros a Ha; apply N2; lia|exact N0|lia|intros; apply ubyte_lt|]. rewrite E3. cbn [bind].
      exists c3, 1. split; [reflexivity|]. split; [lia|]. right. left. split; [reflexivity|]. split; [exact (All b3 T3)|exact T4].
    + exists c1, 0. split; [reflexivity|]. split; [auto|]. left. split; [reflexivity|]. intros u v Hu Hv. split; [apply (All b2 T2)|apply (All b3 T3)]; auto.
Qed.

(** positions in the distributed list *)
Lemma bucket_at (K : Z -> nat) N l p v q : l = p ++ v :: q -> (K v < N)%nat ->
  nth_error (bucket K N l) (off K (K v) l + cnt K (K v) p) = Some v /\ cnt_eq Z.eqb (firstn (off K (K v) l + cnt K (K v) p) (bucket K N l)) v = cnt_eq Z.eqb p v.
Proof.
  intros El Kv. destruct (bucket_le K (S (K v)) N l ltac:(lia)) as [t E]. rewrite (bucket_S K (K v) l) in E.
  assert (F : filter (fun x => (K x =? K v)%nat) l = filter (fun x => (K x =? K v)%nat) p ++ v :: filter (fun x => (K x =? K v)%nat) q) by (rewrite El, filter_app; cbn [filter]; rewrite Nat.eqb_refl; reflexivity).
  rewrite F in E. set (A := bucket K (K v) l ++ filter (fun x => (K x =? K v)%nat) p).
  assert (E' : bucket K N l = A ++ v :: (filter (fun x => (K x =? K v)%nat) q ++ t)) by (rewrite E; unfold A; rewrite <- !app_assoc; reflexivity).
  assert (LA : length A = (off K (K v) l + cnt K (K v) p)%nat) by (unfold A; rewrite app_length, bucket_length; reflexivity).
  rewrite E', <- LA. split.
  - rewrite nth_error_app2, Nat.sub_diag by lia. reflexivity.
  - rewrite firstn_app, Nat.sub_diag, firstn_all. cbn [firstn]. rewrite app_nil_r. unfold A. rewrite cnt_eq_app. rewrite (proj2 (cnt_zero_iff Z.eqb _ v)).
    + cbn [Nat.add]. unfold cnt_eq. rewrite filter_filter. f_equal. apply filter_same. intros x _. destruct (Z.eqb_spec x v) as [->|]; [rewrite Nat.eqb_refl; reflexivity|reflexivity].
    + intros a Ha. apply bucket_in in Ha. destruct Ha as [_ Ha]. apply Z.eqb_neq. intros ->. lia.
Qed.
Lemma unmove_ok (K : Z -> nat) l c (g : nat -> Z) : (forall v, (K v < 256)%nat) -> Z.of_nat (length l) < M -> (forall j, (j < 256)%nat -> nth_error c j = Some (Z.of_nat (off K j l))) ->
  unmove M c (map K l) (map g (gocc Z.eqb [] (bucket K 256 l))) = Ok (map g (gocc Z.eqb [] l)).
Proof.
  intros Kl Lm C. unfold unmove. set (r1 := map g (gocc Z.eqb [] (bucket K 256 l))).
  assert (G : forall q p c r, l = p ++ q -> (forall j, (j < 256)%nat -> nth_error c j = Some (Z.of_nat (off K j l + cnt K j p))) ->
    exists c', foldM (fun (st : list Z * list Z) k => let '(c, r) := st in do o <- rd c k; do c <- wr c k ((o + 1) mod M); do v <- rd r1 (Z.to_nat o); Ok (c, r ++ [v])) (map K q) (c, r) = Ok (c', r ++ map g (gocc Z.eqb p q))).
  { clear c C. induction q as [|v q IH]; intros p c r El C; cbn [map gocc]. { exists c. rewrite app_nil_r. reflexivity. }
    rewrite foldM_cons. cbn [bind]. rewrite (rd_ok' _ _ _ (C (K v) (Kl v))). cbn [bind]. rewrite wr_ok by (eapply nth_error_Some_lt; apply C; auto). cbn [bind]. rewrite Nat2Z.id.
    destruct (bucket_at K 256 l p v q El (Kl v)) as [B1 B2].
    assert (R : rd r1 (off K (K v) l + cnt K (K v) p) = Ok (g (cnt_eq Z.eqb p v))) by (apply rd_ok'; unfold r1; rewrite nth_error_map, gocc_nth, B1; cbn [option_map app]; rewrite B2; reflexivity).
    rewrite R. cbn [bind].
    assert (Cn : forall j, cnt K j (p ++ [v]) = (cnt K j p + (if (K v =? j)%nat then 1 else 0))%nat) by (intros j; unfold cnt; rewrite filter_app, app_length; cbn [filter]; destruct (K v =? j)%nat; reflexivity).
    destruct (IH (p ++ [v]) (upd c (K v) ((Z.of_nat (off K (K v) l + cnt K (K v) p) + 1) mod M)) (r ++ [g (cnt_eq Z.eqb p v)])) as (c'&E).
    - rewrite <- app_assoc. exact El.
    - intros j Hj. rewrite Cn. destruct (Nat.eqb_spec (K v) j) as [<-|Nj].
      + rewrite upd_same by (eapply nth_error_Some_lt; apply C; auto). f_equal. rewrite Z.mod_small; [lia|].
        pose proof (off_n K (K v) l) as On. assert (Cl : (cnt K (K v) p + 1 <= cnt K (K v) l)%nat) by (rewrite El; unfold cnt; rewrite filter_app, app_length; cbn [filter]; rewrite Nat.eqb_refl; cbn [length]; lia). lia.
      + rewrite upd_other by auto. rewrite C by auto. do 2 f_equal. lia.
    - exists c'. rewrite E, <- app_assoc. reflexivity. }
  destruct (G l [] c [] eq_refl) as (c'&E). { intros j Hj. rewrite C by auto. do 2 f_equal. unfold cnt. cbn. lia. }
  rewrite E. reflexivity.
Qed.
Lemma dist_ctr (k : Z -> nat) b : forall q c r c' r', dist M c b k q r = Ok (c', r') -> forall i z, nth_error c (b + i) = Some (z mod M) -> nth_error c' (b + i) = Some ((z + Z.of_nat (cnt k i q)) mod M).
Proof.
  induction q as [|v q IH]; intros c r c' r' D i z N; cbn [dist] in D.
  - apply Ok_inj in D. injection D as <- <-. unfold cnt. cbn [filter length]. rewrite Z.add_0_r. exact N.
  - destruct (rd c (b + k v)) as [o| |] eqn:R; cbn [bind] in D; try discriminate. destruct (wr c (b + k v) ((o + 1) mod M)) as [c1| |] eqn:W; cbn [bind] in D; try discriminate.
    destruct (wr r (Z.to_nat o) v) as [r1| |] eqn:W2; cbn [bind] in D; try discriminate.
    assert (Lb : (b + k v < length c)%nat) by (unfold rd in R; destruct (nth_error c (b + k v)) eqn:Q; [eapply nth_error_Some_lt; eauto|discriminate]).
    rewrite wr_ok in W by auto. apply Ok_inj in W. subst c1. unfold cnt. cbn [filter]. destruct (Nat.eqb_spec (k v) i) as [<-|Ni].
    + rewrite (rd_ok' _ _ _ N) in R. apply Ok_inj in R. subst o. rewrite (IH _ _ _ _ D (k v) (z + 1)).
      * fold (cnt k (k v) q). cbn [length]. do 2 f_equal. unfold cnt. lia.
      * rewrite upd_same by auto. rewrite Z.add_mod_idemp_l by lia. reflexivity.
    + rewrite (IH _ _ _ _ D i z); [reflexivity|]. rewrite upd_other by lia. exact N.
Qed.

Lemma slice_app (p s q : list Z) : slice (p ++ s ++ q) (length p) (length p + length s) = Ok s.
Proof.
  unfold slice. replace (length p + length s - length p)%nat with (length s) by lia. revert p. induction s as [|a s IH]; intros p; cbn [length seq mapM]; auto.
  unfold rd at 1. rewrite nth_error_app2, Nat.sub_diag by lia. cbn [app nth_error bind]. replace (p ++ a :: s ++ q) with ((p ++ [a]) ++ s ++ q) by (rewrite <- app_assoc; reflexivity).
  replace (S (length p)) with (length (p ++ [a])) by (rewrite app_length; cbn; lia). rewrite IH. reflexivity.
Qed.
Lemma seg_ok s tab : Forall w32 s -> (forall a b, In a s -> In b s -> a / 65536 = b / 65536) -> ready set init [] tab (map low16 s) -> exists tab', tab_loop set tab (map low16 s) = Ok (tab', map (it set init) (gocc Z.eqb [] s)) /\ length tab' = length tab.
Proof.
  intros F H R. unfold tab_loop. destruct (tab_loop_ok set init (map low16 s) [] tab [] R) as (t&E&L). exists t. split; auto. rewrite E. cbn [app]. rewrite gocc_keys; auto. rewrite Forall_forall in F. intros a b Ha Hb. apply low_inj; auto.
Qed.
Lemma init_ok tab s (b : bool) : length tab = tn16 -> exists tab', (if b then set_keys init tab (map low16 s) else set_keys init tab (seq 0 tn16)) = Ok tab' /\ length tab' = tn16 /\ ready set init [] tab' (map low16 s).
Proof.
  intros L. destruct b.
  - destruct (set_keys_ready set init tab (map low16 s) (map low16 s)) as (t&E&L'&R); auto. { intros k Hk. apply in_map_iff in Hk. destruct Hk as (v&<-&_). rewrite L. apply low_lt. } exists t. split; auto. split; [congruence|auto].
  - destruct (set_keys_ready set init tab (map low16 s) (seq 0 tn16)) as (t&E&L'&R). { intros k Hk. apply seq_in in Hk. rewrite L. auto. } { intros k Hk. apply in_map_iff in Hk. destruct Hk as (v&<-&_). apply seq_in, low_lt. } exists t. split; auto. split; [congruence|auto].
Qed.

Lemma segs1_ok v0 c : Forall w32 v0 -> (forall u v, In u v0 -> In v v0 -> b3 u = b3 v) -> (forall j, (j < 256)%nat -> nth_error c j = Some (Z.of_nat (off b2 (S j) v0))) ->
  forall m j fuel tab r, (j + m = 256)%nat -> length tab = tn16 -> (length v0 - off b2 j v0 <= fuel)%nat ->
  segs1 init tim set fuel c (bucket b2 256 v0) (length v0) (off b2 j v0) tab r = Ok (r ++ map (it set init) (gocc Z.eqb [] (concat (map (fun j => filter (fun x => (b2 x =? j)%nat) v0) (seq j m))))).
Proof.
  intros F B3 C. rewrite Forall_forall in F.
  assert (Full : off b2 256 v0 = length v0) by (unfold off; rewrite filter_true_all; auto; intros x _; apply Nat.ltb_lt, ubyte_lt).
  induction m as [|m IH]; intros j fuel tab r Ej Lt Fu.
  - replace j with 256%nat by lia. rewrite Full. cbn [seq map concat gocc]. rewrite app_nil_r. destruct fuel; cbn [segs1]; rewrite Nat.leb_refl; reflexivity.
  - cbn [seq map concat]. pose proof (off_S b2 j v0) as OS. set (s := filter (fun x => (b2 x =? j)%nat) v0) in *. assert (Ls : length s = cnt b2 j v0) by reflexivity. destruct s as [|h s'] eqn:Es.
    + cbn [app length] in *. replace (off b2 j v0) with (off b2 (S j) v0) by lia. apply IH; [lia|auto|lia].
    + rewrite <- Es in *. assert (Lp : (0 < cnt b2 j v0)%nat) by (rewrite <- Ls, Es; cbn; lia). pose proof (off_n b2 j v0) as On.
      destruct fuel as [|fuel]; [lia|]. cbn [segs1]. destruct (Nat.leb_spec (length v0) (off b2 j v0)); [lia|].
      destruct (bucket_le b2 (S j) 256 v0 ltac:(lia)) as [t Eb]. rewrite (bucket_S b2 j v0) in Eb. fold s in Eb.
      assert (Eb' : bucket b2 256 v0 = bucket b2 j v0 ++ s ++ t) by (rewrite Eb, <- app_assoc; reflexivity).
      assert (R1 : rd (bucket b2 256 v0) (off b2 j v0) = Ok h) by (apply rd_ok'; rewrite Eb', <- bucket_length, nth_error_app2, Nat.sub_diag, Es by lia; reflexivity).
      assert (Hin : forall x, In x s -> In x v0 /\ b2 x = j) by (intros x Hx; unfold s in Hx; apply filter_In in Hx; destruct Hx as [I1 I2]; apply Nat.eqb_eq in I2; auto).
      assert (Bh : b2 h = j) by (apply Hin; rewrite Es; left; auto). rewrite R1. cbn [bind]. rewrite Bh. rewrite (rd_ok' _ _ _ (C j ltac:(lia))). cbn [bind]. rewrite Nat2Z.id.
      assert (Sl : slice (bucket b2 256 v0) (off b2 j v0) (off b2 (S j) v0) = Ok s) by (rewrite OS, <- Ls, Eb', <- bucket_length; apply slice_app). rewrite Sl. cbn [bind].
      destruct (init_ok tab s (Z.of_nat (off b2 (S j) v0 - off b2 j v0) <? tim) Lt) as (t1&Et1&Lt1&Rd). rewrite Et1. cbn [bind].
      destruct (seg_ok s t1) as (t2&Et2&Lt2); auto. { apply Forall_forall. intros x Hx. apply F, Hin; auto. }
      { intros a b Ha Hb. destruct (Hin a Ha), (Hin b Hb). rewrite !hi_eq by auto. rewrite (B3 a b) by auto. congruence. }
      rewrite Et2. cbn [bind]. rewrite IH; [|lia|congruence|lia]. f_equal. rewrite <- app_assoc. f_equal. rewrite <- map_app. f_equal. symmetry. apply gocc_split.
      intros a b Ha Hb. apply Z.eqb_neq. intros <-. apply in_concat in Hb. destruct Hb as (x&Hx&Hb). apply in_map_iff in Hx. destruct Hx as (j'&<-&Hj). apply in_seq in Hj. apply filter_In in Hb. destruct Hb as [_ Hb]. apply Nat.eqb_eq in Hb. destruct (Hin a Ha). lia.
Qed.

Lemma init_run_ok s : forall p y rest fuel tv tab, (length s < fuel)%nat -> Forall (fun v => v / 65536 = tv) s -> y / 65536 <> tv -> length tab = tn16 ->
  init_run init fuel (p ++ s ++ y :: rest) (length p) tv tab = do tab <- set_keys init tab (map low16 s); Ok ((length p + length s)%nat, y / 65536, tab).
Proof.
  induction s as [|v s IH]; intros p y rest fuel tv tab Fu F Hy Lt; (destruct fuel as [|fuel]; [cbn in Fu; lia|]); cbn [init_run app map length]; unfold rd; rewrite nth_error_app2, Nat.sub_diag by lia; cbn [nth_error bind].
  - destruct (Z.eqb_spec (y / 65536) tv); [congruence|]. cbn [negb]. unfold set_keys, foldM. cbn [fold_left bind]. rewrite Nat.add_0_r. reflexivity.
  - apply Forall_cons_iff in F. destruct F as [Ev F]. rewrite Ev, Z.eqb_refl. cbn [negb]. unfold set_keys. rewrite foldM_cons. rewrite wr_ok by (rewrite Lt; apply low_lt). cbn [bind].
    replace (p ++ v :: s ++ y :: rest) with ((p ++ [v]) ++ s ++ y :: rest) by (rewrite <- app_assoc; reflexivity). replace (S (length p)) with (length (p ++ [v])) by (rewrite app_length; cbn; lia).
    rewrite IH; [|cbn in Fu; lia|auto|auto|rewrite upd_length; auto]. unfold set_keys. replace (length (p ++ [v]) + length s)%nat with (length p + S (length s))%nat by (rewrite app_length; cbn; lia). reflexivity.
Qed.
Lemma run_split (tv : Z) q : exists s q', q = s ++ q' /\ Forall (fun v => v / 65536 = tv) s /\ (q' = [] \/ exists y q'', q' = y :: q'' /\ y / 65536 <> tv).
Proof.
  induction q as [|v q (s&q'&E&F&H)]; [exists [], []; auto|]. destruct (Z.eq_dec (v / 65536) tv) as [Q|Q].
  - exists (v :: s), q'. subst q. auto.
  - exists [], (v :: q). split; auto. split; auto. right. eauto.
Qed.
Lemma segs2_ok v2 z : Forall w32 v2 -> StronglySorted (fun a b => a / 65536 <= b / 65536) v2 ->
  forall n q p fuel tv tab r, (length q <= n)%nat -> v2 = p ++ q -> (length q <= fuel)%nat -> (forall h t, q = h :: t -> tv = h / 65536) -> length tab = tn16 -> (exists p', v2 = p' ++ [z]) ->
  segs2 init set fuel (v2 ++ [2 ^ 32 - 1 - z]) (length v2) (length p) tv tab r = Ok (r ++ map (it set init) (gocc Z.eqb [] q)).
Proof.
  intros F So. rewrite Forall_forall in F. induction n as [|n IH]; intros q p fuel tv tab r Ln E Fu Ht Lt (p'&Ez).
  - destruct q; [|cbn in Ln; lia]. cbn [gocc map]. rewrite !app_nil_r in *. subst v2. destruct fuel; cbn [segs2]; rewrite Nat.leb_refl; reflexivity.
  - destruct q as [|h t]. { cbn [gocc map]. rewrite !app_nil_r in *. subst v2. destruct fuel; cbn [segs2]; rewrite Nat.leb_refl; reflexivity. }
    pose proof (Ht h t eq_refl) as Etv. destruct (run_split tv (h :: t)) as (s&q'&Eq&Fs&Hq).
    destruct s as [|h' s']. { cbn [app] in Eq. destruct Hq as [Hq|(y&q''&Hq&Hy)]; [subst q'; discriminate|]. rewrite Hq in Eq. injection Eq as <- _. congruence. }
    set (s := h' :: s') in *. assert (Ls : (0 < length s)%nat) by (unfold s; cbn; lia). rewrite Eq in *. clear h t Eq Ht Etv. rewrite app_length in *.
    destruct fuel as [|fuel]; [lia|]. cbn [segs2]. assert (Lv : length v2 = (length p + (length s + length q'))%nat) by (rewrite E, !app_length; auto). destruct (Nat.leb_spec (length v2) (length p)); [lia|].
    set (vs := v2 ++ [2 ^ 32 - 1 - z]).
    assert (Y : exists y rest, vs = p ++ s ++ y :: rest /\ y / 65536 <> tv /\ (forall h t, q' = h :: t -> h = y)).
    { destruct Hq as [Hq|(y&q''&Hq&Hy)].
      - subst q'. rewrite app_nil_r in E. exists (2 ^ 32 - 1 - z), []. split; [unfold vs; rewrite E, <- app_assoc; reflexivity|]. split; [|intros; discriminate].
        assert (Wz : w32 z) by (apply F; rewrite Ez; apply in_or_app; right; left; auto). assert (Zs : In z s).
        { assert (In z (rev s)); [|apply in_rev; auto]. rewrite Ez in E. apply (f_equal (@rev Z)) in E. rewrite !rev_app_distr in E. cbn [rev app] in E. destruct (rev s) as [|a l] eqn:R; [apply (f_equal (@length Z)) in R; rewrite rev_length in R; cbn in R; lia|]. cbn [app] in E. injection E as <- _. left; auto. }
        rewrite Forall_forall in Fs. rewrite <- (Fs z Zs). unfold w32 in Wz. change (2 ^ 32) with 4294967296 in *. intros Q. lia.
      - subst q'. exists y, (q'' ++ [2 ^ 32 - 1 - z]). split; [unfold vs; rewrite E, <- !app_assoc; reflexivity|]. split; auto. intros a b Q. injection Q as <- _. auto. }
    destruct Y as (y&rest&Ev&Hy&Hyq). rewrite Ev. rewrite init_run_ok by (auto; rewrite ?app_length; cbn [length]; lia).
    destruct (init_ok tab s true Lt) as (t1&Et1&Lt1&Rd). rewrite Et1. cbn [bind]. rewrite slice_app. cbn [bind].
    assert (Hin : forall x, In x s -> In x v2) by (intros x Hx; rewrite E; apply in_or_app; right; apply in_or_app; auto).
    destruct (seg_ok s t1) as (t2&Et2&Lt2); auto. { apply Forall_forall; auto. } { rewrite Forall_forall in Fs. intros a b Ha Hb. rewrite (Fs a Ha), (Fs b Hb). reflexivity. }
    rewrite Et2. cbn [bind]. rewrite <- Ev. unfold vs. replace (length p + length s)%nat with (length (p ++ s)) by (rewrite app_length; auto).
    rewrite (IH q' (p ++ s)); [|lia|rewrite E, <- app_assoc; auto|lia|intros h t Q; rewrite (Hyq h t Q); auto|congruence|eauto].
    f_equal. rewrite <- app_assoc. f_equal. rewrite <- map_app. f_equal. symmetry. apply gocc_split.
    intros a b Ha Hb. apply Z.eqb_neq. intros <-. rewrite Forall_forall in Fs. pose proof (Fs a Ha) as Ea. destruct Hq as [Hq|(y'&q''&Hq&Hy')]; [subst q'; destruct Hb|]. subst q'. rewrite E in So.
    assert (Sq : StronglySorted (fun a b => a / 65536 <= b / 65536) (s ++ y' :: q'')) by (clear -So; induction p as [|u p IHp]; auto; apply IHp; inversion So; auto).
    assert (L1 : a / 65536 <= y' / 65536).
    { clear -Sq Ha. induction s as [|u s IHs]; [destruct Ha|]. cbn [app] in Sq. inversion Sq as [|u' l S1 S2]; subst. destruct Ha as [<-|Ha]; [|auto]. rewrite Forall_forall in S2. apply S2. apply in_or_app. right. left. auto. }
    assert (L2 : y' / 65536 <= a / 65536).
    { assert (Sy : StronglySorted (fun a b => a / 65536 <= b / 65536) (y' :: q'')) by (clear -Sq; induction s as [|u s IHs]; auto; apply IHs; inversion Sq; auto).
      inversion Sy as [|u l S1 S2]; subst. destruct Hb as [<-|Hb]; [lia|]. rewrite Forall_forall in S2. auto. }
    lia.
Qed.

Theorem radix_lookup_ok v0 : v0 <> [] -> Forall w32 v0 -> Z.of_nat (length v0) < M -> radix_lookup M init tim set v0 = Ok (map (it set init) (gocc Z.eqb [] v0)).
Proof.
  intros Ne F L. unfold radix_lookup. cbv zeta. destruct (offsets_ok v0 Ne L) as (c&bytes&E&Lc&H). rewrite E. cbn [bind].
  assert (Lr : length (repeat (@None Z) tn16) = tn16) by apply repeat_length.
  destruct H as [(->&H)|H].
  - change (0 =? 0) with true. cbn iota. destruct (init_ok (repeat None tn16) v0 (Z.of_nat (length v0) <? tim) Lr) as (t1&Et1&Lt1&Rd). rewrite Et1. cbn [bind]. destruct (seg_ok v0 t1) as (t2&Et2&_); auto.
    { rewrite Forall_forall in F. intros a b Ha Hb. rewrite !hi_eq by auto. destruct (H a b Ha Hb) as [-> ->]. reflexivity. } rewrite Et2. reflexivity.
  - assert (T2 : forall j, (j < 256)%nat -> nth_error c j = Some (Z.of_nat (off b2 j v0))) by (destruct H as [(_&_&H)|(_&H&_)]; exact H).
    assert (Nb : (bytes =? 0) = false) by (destruct H as [(->&_)|(->&_)]; reflexivity). rewrite Nb.
    assert (Sm : forall (k : Z -> nat) j (l : list Z), (length l = length v0)%nat -> Z.of_nat (off k j l) mod M = Z.of_nat (off k j l)) by (intros k j l Ll; apply Z.mod_small; pose proof (off_n k j l); lia).
    assert (D1 : exists c1, dist M c 0 b2 v0 (repeat 0 (length v0)) = Ok (c1, bucket b2 256 v0) /\ length c1 = length c /\ (forall x, (x < 0 \/ 0 + 256 <= x)%nat -> nth_error c1 x = nth_error c x)).
    { apply (dist_ok 256 M b2 (fun i => i)); auto; [intros; apply ubyte_lt|lia|apply repeat_length|lia|]. intros i Hi. cbn [Nat.add]. rewrite Sm by auto. apply T2; auto. }
    destruct D1 as (c1&D1&Lc1&O1). rewrite D1. cbn [bind].
    assert (C1 : forall j, (j < 256)%nat -> nth_error c1 j = Some (Z.of_nat (off b2 (S j) v0))).
    { intros j Hj. pose proof (dist_ctr b2 0 _ _ _ _ _ D1 j (Z.of_nat (off b2 j v0))) as Q. cbn [Nat.add] in Q. rewrite Q by (rewrite Sm by auto; apply T2; auto). rewrite <- Nat2Z.inj_add, <- off_S, Sm by auto. reflexivity. }
    set (v1 := bucket b2 256 v0) in *. assert (P1 : Permutation.Permutation v0 v1) by (apply bucket_perm; intros; apply ubyte_lt). assert (L1 : length v1 = length v0) by (symmetry; apply Permutation.Permutation_length; auto).
    assert (Last : forall cc, (forall j, (j < 255)%nat -> nth_error cc j = nth_error c1 j) -> unmove M (0 :: cc) (map b2 v0) (map (it set init) (gocc Z.eqb [] v1)) = Ok (map (it set init) (gocc Z.eqb [] v0))).
    { intros cc Hc. apply unmove_ok; auto; [intros; apply ubyte_lt|]. intros [|j] Hj; cbn [nth_error]; [unfold off; rewrite filter_none by auto; reflexivity|]. rewrite Hc by lia. apply C1. lia. }
    destruct H as [(->&B3&_)|(->&_&T3)].
    + change (1 =? 1) with true. cbn iota. pose proof (segs1_ok v0 c1 F B3 C1 256 0 (length v0) (repeat None tn16) [] eq_refl Lr ltac:(lia)) as S1. assert (O0 : off b2 0 v0 = 0%nat) by (unfold off; rewrite filter_none by auto; reflexivity). rewrite O0 in S1. fold v1 in S1. rewrite S1. cbn [bind app].
      fold (bucket b2 256 v0). fold v1. apply Last. auto.
    + change (2 =? 1) with false. cbn iota.
      assert (D2 : exists c2, dist M c1 256 b3 v1 (repeat 0 (length v0)) = Ok (c2, bucket b3 256 v1) /\ length c2 = length c1 /\ (forall x, (x < 256 \/ 256 + 256 <= x)%nat -> nth_error c2 x = nth_error c1 x)).
      { apply (dist_ok 256 M b3 (fun i => i)); auto; [intros; apply ubyte_lt|lia|rewrite repeat_length; auto|lia|]. intros i Hi. rewrite Sm by auto. rewrite O1 by lia. rewrite T3 by auto. rewrite (off_perm b3 i v0 v1 P1). reflexivity. }
      destruct D2 as (c2&D2&Lc2&O2). rewrite D2. cbn [bind].
      assert (C2 : forall j, (j < 256)%nat -> nth_error c2 (256 + j) = Some (Z.of_nat (off b3 (S j) v1))).
      { intros j Hj. pose proof (dist_ctr b3 256 _ _ _ _ _ D2 j (Z.of_nat (off b3 j v1))) as Q. rewrite Q by (rewrite Sm by auto; rewrite O1 by lia; rewrite T3 by auto; rewrite (off_perm b3 j v0 v1 P1); reflexivity). rewrite <- Nat2Z.inj_add, <- off_S, Sm by auto. reflexivity. }
      set (v2 := bucket b3 256 v1) in *. assert (P2 : Permutation.Permutation v1 v2) by (apply bucket_perm; intros; apply ubyte_lt). assert (L2 : length v2 = length v0) by (rewrite <- L1; symmetry; apply Permutation.Permutation_length; auto).
      assert (F1 : Forall w32 v1) by (rewrite Forall_forall in *; intros x Hx; apply F; eapply Permutation.Permutation_in; [apply Permutation.Permutation_sym; exact P1|exact Hx]).
      assert (F2 : Forall w32 v2) by (rewrite Forall_forall in *; intros x Hx; apply F1; eapply Permutation.Permutation_in; [apply Permutation.Permutation_sym; exact P2|exact Hx]).
      assert (So : StronglySorted (fun a b => a / 65536 <= b / 65536) v2).
      { assert (S1 : StronglySorted (fun a b => (b2 a < b2 b)%nat \/ b2 a = b2 b /\ True) v1) by (apply bucket_sorted; clear; induction v0; constructor; auto; apply Forall_forall; auto).
        assert (S2 : StronglySorted (fun a b => (b3 a < b3 b)%nat \/ b3 a = b3 b /\ ((b2 a < b2 b)%nat \/ b2 a = b2 b /\ True)) v2) by (apply bucket_sorted; exact S1).
        eapply ssorted_weak; [|exact S2]. rewrite Forall_forall in F2. intros x y Hx Hy Q. rewrite !hi_eq by auto. pose proof (ubyte_lt 16 x). pose proof (ubyte_lt 16 y). lia. }
      destruct v2 as [|h t] eqn:Ev2; [cbn in L2; destruct v0; [congruence|discriminate]|]. rewrite <- Ev2 in *. assert (R0 : rd v2 0 = Ok h) by (rewrite Ev2; reflexivity). rewrite R0. cbn [bind].
      assert (Lst : exists p z, v2 = p ++ [z]) by (exists (removelast v2), (List.last v2 0); apply app_removelast_last; rewrite Ev2; discriminate). destruct Lst as (p&z&Ez).
      assert (Rz : rd v2 (length v0 - 1) = Ok z) by (apply rd_ok'; rewrite <- L2, Ez, app_length; cbn [length]; rewrite nth_error_app2 by lia; replace (length p + 1 - 1 - length p)%nat with 0%nat by lia; reflexivity). rewrite Rz. cbn [bind].
      pose proof (segs2_ok v2 z F2 So (length v2) v2 [] (length v0) (h / 65536) (repeat None tn16) [] (le_n _) eq_refl ltac:(lia)) as S2. rewrite L2 in S2. cbn [length] in S2. rewrite S2; [|intros h' t' Q; rewrite Ev2 in Q; injection Q as <- _; auto|auto|eauto]. cbn [bind app].
      rewrite wr_ok by lia. cbn [bind].
      assert (U : unmove M (skipn 255 (upd c2 255 0)) (map b3 v1) (map (it set init) (gocc Z.eqb [] v2)) = Ok (map (it set init) (gocc Z.eqb [] v1))).
      { apply unmove_ok; [intros; apply ubyte_lt|rewrite L1; auto|]. intros j Hj. rewrite nth_error_skipn'. destruct j as [|j].
        - cbn [Nat.add]. rewrite upd_same by lia. unfold off. rewrite filter_none by auto. reflexivity.
        - rewrite upd_other by lia. replace (255 + S j)%nat with (256 + j)%nat by lia. rewrite C2 by lia. reflexivity. }
      rewrite U. cbn [bind]. apply Last. intros j Hj. rewrite upd_other by lia. apply O2. lia.
Qed.
End R.
