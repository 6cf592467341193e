From Verif Require Import Base BitLemmas BuddyModel BuddySpec BuddyProof.
From Coq Require Import Permutation.

Section Q.
Variable MUL : Z.
Hypothesis HM : MUL = 1 \/ MUL = 3.
Notation BSZ := (BSZ MUL).
Notation Inv := (Inv MUL).
Notation Fr := (Fr MUL).
Notation mb := (mb MUL).

(** * sizes *)
Definition bk (req : Z) : nat := LOG2 ((req + MUL - 1) / MUL).
Lemma LOG2_spec n : 1 <= n -> n <= 2 ^ Z.of_nat (LOG2 n) /\ (forall j, 0 <= j -> n <= 2 ^ j -> Z.of_nat (LOG2 n) <= j).
Proof.
  intros H. unfold LOG2. destruct (Z.eqb_spec n 1) as [->|N].
  - split; [cbn; lia|]. intros; lia.
  - assert (L := Z.log2_nonneg (n - 1)). assert (S := Z.log2_spec (n - 1) ltac:(lia)). rewrite Z2Nat.id by lia. split.
    + unfold Z.succ in S. lia.
    + intros j Hj Hn. destruct (Z_le_gt_dec (Z.log2 (n - 1) + 1) j); [assumption|]. exfalso. assert (2 ^ j <= 2 ^ Z.log2 (n - 1)) by (apply Z.pow_le_mono_r; lia). lia.
Qed.
Lemma ceil_spec req x : 0 < req -> ((req + MUL - 1) / MUL <= x <-> req <= MUL * x).
Proof. intros H. destruct HM as [-> | ->]; lia. Qed.
Definition okreq (req : Z) : Prop := 16 <= req <= MUL * 2 ^ 62.
Lemma bk_spec req : okreq req -> mb <= Z.of_nat (bk req) <= 62 /\ req <= BSZ (bk req) /\ is_block_size MUL req (BSZ (bk req)).
Proof.
  intros [H1 H2]. unfold bk, BuddyModel.BSZ. set (n := (req + MUL - 1) / MUL). assert (Hn : 1 <= n) by (unfold n; destruct HM as [-> | ->]; lia).
  destruct (LOG2_spec n Hn) as [A B]. assert (A' : req <= MUL * 2 ^ Z.of_nat (LOG2 n)) by (apply ceil_spec; [lia|exact A]).
  assert (B' : forall j, 0 <= j -> req <= MUL * 2 ^ j -> Z.of_nat (LOG2 n) <= j) by (intros j Hj Hr; apply B; [exact Hj|]; apply ceil_spec; [lia|exact Hr]).
  split; [split|].
  - destruct (Z_le_gt_dec mb (Z.of_nat (LOG2 n))) as [|G]; [assumption|]. exfalso. unfold BuddyProof.mb in G. destruct HM as [E|E]; rewrite E in *; cbn [Z.eqb Pos.eqb] in G.
    + assert (2 ^ Z.of_nat (LOG2 n) <= 2 ^ 3) by (apply Z.pow_le_mono_r; lia). change (2 ^ 3) with 8 in *. lia.
    + assert (2 ^ Z.of_nat (LOG2 n) <= 2 ^ 2) by (apply Z.pow_le_mono_r; lia). change (2 ^ 2) with 4 in *. lia.
  - apply B'; lia.
  - split; [exact A'|]. exists (Z.of_nat (LOG2 n)). split; [lia|]. split; [reflexivity|]. split; [exact A'|exact B'].
Qed.

(** * memory only matters at block addresses *)
Lemma Inv_mem h h' bs : Inv h bs -> chunks h' = chunks h -> heapAlloc h' = heapAlloc h -> bkts h' = bkts h -> ctrs h' = ctrs h ->
  Forall (hdr_ok (mem h')) bs -> (forall a b, In (a, b, Free) bs -> mem h' a = mem h a) -> Inv h' bs.
Proof.
  intros I E1 E2 E3 E4 Hh Hf. constructor; rewrite ?E1, ?E2, ?E3, ?E4; try apply I; [exact Hh|].
  intros b Hb. destruct (I_free _ _ _ I b Hb) as [l [Hc Hp]]. exists l. split; [|exact Hp]. eapply chain_ext; [|exact Hc]. intros a Ha. apply (Permutation_in _ Hp) in Ha. apply in_frees in Ha. eapply Hf. exact Ha.
Qed.
Lemma Inv_same h h' bs : Inv h bs -> chunks h' = chunks h -> heapAlloc h' = heapAlloc h -> bkts h' = bkts h -> ctrs h' = ctrs h -> mem h' = mem h -> Inv h' bs.
Proof. intros I E1 E2 E3 E4 E5. apply (Inv_mem h h' bs I E1 E2 E3 E4); rewrite E5; [apply I|reflexivity]. Qed.

(** * the invariant of histories *)
Definition lb (x : Z * Z) : Z * nat := (fst x, bk (snd x)).
Record Out (P : blk -> Prop) (h : heap) (bs : list blk) : Prop := mkOut {
  O_inv : Inv h bs;
  O_st : Forall P bs;
  O_live : Permutation (map lb (live h)) (useds bs);
  O_req : Forall (fun x => okreq (snd x)) (live h);
  O_max : heapAlloc h <= heapMax h }.

Lemma in_live_spec l a : in_live l a = true -> In (a, live_size l a) l /\ Permutation l ((a, live_size l a) :: del_live l a).
Proof.
  induction l as [|[x n] l IH]; cbn [in_live live_size del_live]; [discriminate|]. destruct (Z.eqb_spec x a) as [->|N]; cbn [orb].
  - intros _. split; [left; reflexivity|apply Permutation_refl].
  - intros H. destruct (IH H) as [A B]. split; [right; exact A|]. eapply Permutation_trans; [apply perm_skip; exact B|]. apply perm_swap.
Qed.
Lemma used_split h bs P a : Out P h bs -> in_live (live h) a = true -> let b := bk (live_size (live h) a) in
  exists F1 F2, bs = F1 ++ (a, b, Used) :: F2 /\ Permutation (map lb (del_live (live h) a)) (useds (F1 ++ F2)).
Proof.
  intros O Hl b. destruct (in_live_spec _ _ Hl) as [A B].
  assert (Hin : In (a, b) (useds bs)) by (apply (Permutation_in _ (O_live _ _ _ O)); apply in_map_iff; exists (a, live_size (live h) a); split; [reflexivity|exact A]).
  apply in_useds in Hin. destruct (in_split _ _ Hin) as [F1 [F2 E]]. exists F1, F2. split; [exact E|].
  assert (X := O_live _ _ _ O). rewrite E in X. apply (Permutation_map lb) in B. cbn [map] in B.
  assert (Y : Permutation (lb (a, live_size (live h) a) :: map lb (del_live (live h) a)) (useds F1 ++ (a, b) :: useds F2)).
  { eapply Permutation_trans; [symmetry; exact B|]. eapply Permutation_trans; [exact X|]. rewrite useds_app. apply Permutation_refl. }
  rewrite useds_app. eapply Permutation_cons_app_inv. exact Y.
Qed.
Lemma Forall_del (Q : Z * Z -> Prop) l a : Forall Q l -> Forall Q (del_live l a).
Proof. induction 1 as [|[x n] l Hx Hl IH]; cbn [del_live]; [constructor|]. destruct (x =? a); [exact Hl|constructor; assumption]. Qed.
Lemma incl_del l a : incl (del_live l a) l.
Proof. induction l as [|[x n] l IH]; cbn [del_live]; [apply incl_refl|]. destruct (x =? a); [apply incl_tl, incl_refl|]. apply incl_cons; [left; reflexivity|apply incl_tl; exact IH]. Qed.

(** what stays the same in everything but a successful allocation or a write *)
Definition kept (h h' : heap) : Prop := chunks h' = chunks h /\ heapAlloc h' = heapAlloc h /\ heapMax h' = heapMax h /\ incl (live h') (live h) /\
  (forall a n, In (a, n) (live h') -> forall x, a <= x < a + n -> mem h' x = mem h x).
Lemma kept_refl h : kept h h.
Proof. unfold kept. repeat (split; [try reflexivity|]); [apply incl_refl|auto]. Qed.
Lemma kept_trans h1 h2 h3 : kept h1 h2 -> kept h2 h3 -> kept h1 h3.
Proof.
  intros [A1 [A2 [A3 [A4 A5]]]] [B1 [B2 [B3 [B4 B5]]]]. split; [congruence|]. split; [congruence|]. split; [congruence|]. split; [eapply incl_tran; eassumption|].
  intros a n Hin x Hx. rewrite (B5 _ _ Hin _ Hx). apply (A5 a n); [apply B4; exact Hin|exact Hx].
Qed.
Lemma live_in_useds P h bs a n : Out P h bs -> In (a, n) (live h) -> In (a, bk n) (useds bs) /\ okreq n.
Proof.
  intros O Hin. split.
  - apply (Permutation_in _ (O_live _ _ _ O)). apply in_map_iff. exists (a, n). auto.
  - assert (X := O_req _ _ _ O). rewrite Forall_forall in X. apply (X _ Hin).
Qed.
Lemma Fr_kept P h bs U m' : Out P h bs -> incl (useds bs) U -> Fr U (mem h) m' -> forall a n, In (a, n) (live h) -> forall x, a <= x < a + n -> m' x = mem h x.
Proof.
  intros O HU HF a n Hin x Hx. destruct (live_in_useds _ _ _ _ _ O Hin) as [A B]. destruct (bk_spec n B) as [_ [C _]]. apply (HF a (bk n)); [apply HU; exact A|lia].
Qed.

Lemma free_spec (P : blk -> Prop) h bs a : (forall x, P x -> True) -> (forall a b, P (a, b, Free)) -> Out P h bs -> in_live (live h) a = true ->
  exists h' bs', free h a = Ok h' /\ Out P (setlive h' (del_live (live h) a)) bs' /\ kept h (setlive h' (del_live (live h) a)) /\ live h' = live h.
Proof.
  intros _ HP O Hl. destruct (used_split _ _ _ _ O Hl) as [F1 [F2 [E HPm]]]. set (b := bk (live_size (live h) a)) in *. subst bs.
  assert (I := O_inv _ _ _ O). assert (Hh := mid_hdr _ _ _ _ _ I). unfold hdr_ok in Hh. cbn [stat addr bkt snd fst] in Hh. destruct Hh as [Hb _].
  assert (Hbb := mid_bkt _ _ _ _ _ I). cbn [bkt fst snd] in Hbb.
  unfold free, freeLink. rewrite Hb. rewrite rd_nth by (rewrite (I_lenc _ _ _ I); unfold NB; lia). cbn [bind].
  assert (I1 : Inv (setc h b (nth b (ctrs h) 0 - 1)) (F1 ++ (a, b, Limbo) :: F2)).
  { eapply (release_spec MUL HM h F1 a b Used F2 _ Limbo); [exact I|auto|apply rd_nth; rewrite (I_lenc _ _ _ I); unfold NB; lia|auto|reflexivity|reflexivity|reflexivity|reflexivity|reflexivity|discriminate]. }
  destruct (push_spec MUL HM _ _ _ _ _ I1) as [h2 [E2 [I2 [R2 [C2 M2]]]]]. rewrite E2. destruct R2 as [S1 [S2 [S3 [S4 S5]]]]. cbn [setc chunks heapAlloc heapMax recur live] in S1, S2, S3, S4, S5.
  exists h2, (F1 ++ (a, b, Free) :: F2). split; [reflexivity|].
  assert (Hinc : incl (live (setlive h2 (del_live (live h) a))) (live h)) by (cbn [setlive live]; apply incl_del).
  split; [constructor|split; [|exact S5]].
  - apply (Inv_same h2); try reflexivity. exact I2.
  - assert (X := O_st _ _ _ O). rewrite Forall_app in *. destruct X as [X1 X2]. split; [exact X1|]. inversion X2; subst. constructor; [apply HP|assumption].
  - cbn [setlive live]. rewrite useds_skip by discriminate. exact HPm.
  - cbn [setlive live]. apply Forall_del. apply (O_req _ _ _ O).
  - cbn [setlive heapAlloc heapMax]. rewrite S2, S3. apply (O_max _ _ _ O).
  - unfold kept. split; [exact S1|]. split; [exact S2|]. split; [exact S3|]. split; [exact Hinc|].
    intros a' n Hin x Hx. cbn [setlive mem live] in *. assert (HF := Fr_one MUL HM _ _ _ _ _ _ _ I1 ltac:(discriminate) M2). rewrite useds_skip in HF by discriminate. cbn [setc mem] in HF.
    assert (Hu : In (a', bk n) (useds (F1 ++ F2))) by (apply (Permutation_in _ HPm); apply in_map_iff; exists (a', n); auto).
    destruct (live_in_useds _ _ _ a' n O) as [_ Ho]; [apply incl_del with (a := a); exact Hin|]. destruct (bk_spec n Ho) as [_ [Hs _]]. apply (HF a' (bk n) Hu). lia.
Qed.
Lemma dead_out h bs a : Out collectable h bs -> in_live (live h) a = true ->
  let h' := setlive (setm h a (mkHdr KFreed (h_bkt (mem h a)) (h_next (mem h a)))) (del_live (live h) a) in exists bs', Out collectable h' bs' /\ kept h h'.
Proof.
  intros O Hl h'. destruct (used_split _ _ _ _ O Hl) as [F1 [F2 [E HPm]]]. set (b := bk (live_size (live h) a)) in *. subst bs. assert (I := O_inv _ _ _ O).
  assert (I1 := dead_spec MUL HM _ _ _ _ _ I). exists (F1 ++ (a, b, Dead) :: F2). split; [constructor|].
  - eapply Inv_same; [exact I1|reflexivity..].
  - assert (X := O_st _ _ _ O). rewrite Forall_app in *. destruct X as [X1 X2]. split; [exact X1|]. inversion X2; subst. constructor; [right; right; reflexivity|assumption].
  - unfold h'. cbn [setlive live]. rewrite useds_skip by discriminate. exact HPm.
  - unfold h'. cbn [setlive live]. apply Forall_del. apply (O_req _ _ _ O).
  - apply (O_max _ _ _ O).
  - unfold kept, h'. cbn [setlive setm chunks heapAlloc heapMax live mem]. do 3 (split; [reflexivity|]). split; [apply incl_del|].
    intros a' n Hin x Hx. destruct (Z.eqb_spec x a) as [->|]; [|reflexivity]. exfalso.
    assert (Hu : In (a', bk n) (useds (F1 ++ F2))) by (apply (Permutation_in _ HPm); apply in_map_iff; exists (a', n); auto). apply in_useds in Hu.
    destruct (live_in_useds _ _ _ a' n O) as [_ Ho]; [apply incl_del with (a := a); exact Hin|]. destruct (bk_spec n Ho) as [_ [Hs _]].
    destruct (apart_in MUL HM _ _ (a', bk n, Used) (a, b, Dead) I1) as [E|A]; [apply in_app_iff; apply in_app_iff in Hu; cbn [In]; tauto|apply in_app_iff; right; left; reflexivity|discriminate|].
    unfold apart, rng in A. cbn [addr bkt fst snd] in A. assert (P := BSZ_pos MUL HM b). lia.
Qed.
Lemma gc_frees_spec : forall l h bs, Out collectable h bs -> gc_frees h l = Ok None \/ exists h' bs', gc_frees h l = Ok (Some h') /\ Out collectable h' bs' /\ kept h h' /\ recur h' = recur h.
Proof.
  induction l as [|[a now] l IH]; intros h bs O; cbn [gc_frees].
  - right. exists h, bs. split; [reflexivity|]. split; [exact O|]. split; [apply kept_refl|reflexivity].
  - destruct (in_live (live h) a) eqn:Hl; [|left; reflexivity]. destruct now.
    + destruct (free_spec collectable h bs a ltac:(auto) ltac:(left; reflexivity) O Hl) as [h1 [b1 [E1 [O1 [K1 L1]]]]]. rewrite E1. cbn [bind]. rewrite L1.
      assert (Er : recur h1 = recur h). { unfold free, freeLink, push in E1. destruct (rd (ctrs h) (h_bkt (mem h a))); try discriminate. cbn [bind] in E1. destruct (rd _ _) in E1; try discriminate. cbn [bind] in E1. injection E1 as <-. reflexivity. }
      destruct (IH _ _ O1) as [E|[h2 [b2 [E2 [O2 [K2 R2]]]]]]; [left; exact E|right]. exists h2, b2. split; [exact E2|]. split; [exact O2|]. split; [eapply kept_trans; eassumption|]. rewrite R2. exact Er.
    + cbn [bind]. destruct (dead_out h bs a O Hl) as [b1 [O1 K1]]. cbn [setm live]. destruct (IH _ _ O1) as [E|[h2 [b2 [E2 [O2 [K2 R2]]]]]]; [left; exact E|right]. exists h2, b2. split; [exact E2|]. split; [exact O2|]. split; [eapply kept_trans; eassumption|exact R2].
Qed.
Lemma settled_collectable x : settled x -> collectable x.
Proof. intros [H|H]; [left|right; left]; exact H. Qed.
Lemma gc_run_spec l h bs : Out settled h bs -> gc_run MUL h l = Ok None \/ exists h' bs', gc_run MUL h l = Ok (Some h') /\ Out settled h' bs' /\ kept h h' /\ recur h' = recur h.
Proof.
  intros O. unfold gc_run. assert (O' : Out collectable h bs) by (destruct O; constructor; auto; eapply Forall_impl; [apply settled_collectable|assumption]).
  destruct (gc_frees_spec l _ _ O') as [E|[h1 [b1 [E1 [O1 [K1 R1]]]]]]; rewrite ?E, ?E1; cbn [bind]; [left; reflexivity|right].
  destruct (ffm_spec MUL HM _ _ (O_inv _ _ _ O1) (O_st _ _ _ O1)) as [h2 [b2 [E2 [I2 [F2 [U2 [S2 Fr2]]]]]]]. rewrite E2. cbn [bind]. destruct S2 as [A1 [A2 [A3 [A4 A5]]]].
  exists h2, b2. split; [reflexivity|]. split; [constructor|split].
  - exact I2.
  - exact F2.
  - rewrite A5, U2. apply (O_live _ _ _ O1).
  - rewrite A5. apply (O_req _ _ _ O1).
  - rewrite A2, A3. apply (O_max _ _ _ O1).
  - eapply kept_trans; [exact K1|]. unfold kept. rewrite A5. split; [exact A1|]. split; [exact A2|]. split; [exact A3|]. split; [apply incl_refl|]. eapply Fr_kept; [exact O1|apply incl_refl|exact Fr2].
  - congruence.
Qed.

(** * ranges that are apart and inside of an interval have a bounded total size *)
Lemma total_app l1 l2 : total (l1 ++ l2) = total l1 + total l2.
Proof. unfold total. induction l1 as [|x l1 IH]; cbn [app fold_right]; lia. Qed.
Lemma total_filter f l : total l = total (filter f l) + total (filter (fun x => negb (f x)) l).
Proof. unfold total. induction l as [|x l IH]; cbn [filter fold_right]; [lia|]. destruct (f x); cbn [negb fold_right]; lia. Qed.
Lemma FOP_filter {A} (R : A -> A -> Prop) f l : ForallOrdPairs R l -> ForallOrdPairs R (filter f l).
Proof.
  induction 1 as [|a l Ha Hl IH]; cbn [filter]; [constructor|]. destruct (f a); [|exact IH]. constructor; [|exact IH]. rewrite Forall_forall in *. intros x Hx. apply filter_In in Hx. apply Ha. tauto.
Qed.
Lemma filter_len {A} (f : A -> bool) l : (length (filter f l) <= length l)%nat.
Proof. induction l as [|x l IH]; cbn [filter length]; [lia|]. destruct (f x); cbn [length]; lia. Qed.
Lemma total_bound : forall n l lo hi, (length l <= n)%nat -> lo <= hi -> all_apart l -> Forall (fun c => lo <= fst c /\ 0 < snd c /\ fst c + snd c <= hi) l -> total l <= hi - lo.
Proof.
  induction n as [|n IH]; intros l lo hi Hn Hlh Ha Hf; destruct l as [|[p k] l]; cbn [length] in Hn; try lia; try (cbn; lia).
  inversion Ha as [|? ? Ha1 Ha2]; subst. inversion Hf as [|? ? Hf1 Hf2]; subst. cbn [fst snd] in Hf1.
  set (f := fun c : Z * Z => fst c + snd c <=? p). assert (L1 := filter_len f l). assert (L2 := filter_len (fun x => negb (f x)) l).
  assert (A := IH (filter f l) lo p). assert (B := IH (filter (fun x => negb (f x)) l) (p + k) hi).
  assert (T := total_filter f l). unfold total in *. cbn [fold_right snd].
  assert (A' : fold_right (fun x s => snd x + s) 0 (filter f l) <= p - lo).
  { apply A; [lia|lia|apply FOP_filter; exact Ha2|]. rewrite Forall_forall in *. intros c Hc. apply filter_In in Hc. destruct Hc as [Hc Hl]. specialize (Hf2 _ Hc). unfold f in Hl. lia. }
  assert (B' : fold_right (fun x s => snd x + s) 0 (filter (fun x => negb (f x)) l) <= hi - (p + k)).
  { apply B; [lia|lia|apply FOP_filter; exact Ha2|]. rewrite Forall_forall in *. intros c Hc. apply filter_In in Hc. destruct Hc as [Hc Hl]. specialize (Hf2 _ Hc). specialize (Ha1 _ Hc). unfold apart in Ha1. cbn [fst snd] in Ha1. unfold f in Hl. lia. }
  lia.
Qed.
Lemma alloc_bound h bs : Inv h bs -> heapAlloc h <= 2 ^ 48 + PAD.
Proof.
  intros I. rewrite (I_al _ _ _ I). assert (X := total_bound (length (chunks h)) (chunks h) 0 (2 ^ 48 + PAD)). rewrite Z.sub_0_r in X. apply X; [lia|unfold PAD; lia|apply I|].
  eapply Forall_impl; [|apply (I_pos _ _ _ I)]. cbn beta. intros; lia.
Qed.
Lemma total_pos l : Forall (fun c : Z * Z => 0 < fst c /\ 0 < snd c /\ fst c + snd c <= 2 ^ 48 + PAD) l -> 0 <= total l.
Proof. unfold total. induction 1 as [|x l Hx _ IH]; cbn [fold_right]; lia. Qed.

(** * a chunk is added *)
Lemma chunk_spec h bs p from : Inv h bs -> mb <= Z.of_nat from < 64 -> 0 < p -> p + BSZ from <= 2 ^ 48 + PAD -> existsb (overlaps p (BSZ from)) (chunks h) = false ->
  let h1 := mkHeap (mem h) (bkts h) (ctrs h) (chunks h ++ [(p, BSZ from)]) (heapAlloc h + BSZ from) (heapMax h) (recur h) (live h) in
  let h2 := setm h1 p (mkHdr KEmpty from 0) in
  Inv h2 (bs ++ [(p, from, Limbo)]) /\ Fr (useds bs) (mem h) (mem h2).
Proof.
  intros I Hf Hp Hs Hov h1 h2. assert (P := BSZ_pos MUL HM from).
  assert (Hap : forall c, In c (chunks h) -> apart c (p, BSZ from)).
  { intros [q k] Hc. assert (E : overlaps p (BSZ from) (q, k) = false).
    { destruct (overlaps p (BSZ from) (q, k)) eqn:E; [|reflexivity]. rewrite <- Hov. symmetry. apply existsb_exists. exists (q, k). auto. }
    unfold overlaps in E. assert (Q := I_pos _ _ _ I). rewrite Forall_forall in Q. specialize (Q _ Hc). cbn [fst snd] in Q. unfold apart. cbn [fst snd]. lia. }
  assert (Hout : forall x y, In x bs -> addr x <= y < addr x + BSZ (bkt x) -> y <> p).
  { intros x y Hx Hy ->. destruct (Tiled_in MUL HM _ _ _ (I_til _ _ _ I) Hx) as [c [Hc Hi]]. specialize (Hap _ Hc). unfold apart, inside, rng in *. cbn [fst snd] in *. assert (Px := BSZ_pos MUL HM (bkt x)). lia. }
  assert (Hm : forall x, In x bs -> mem h2 (addr x) = mem h (addr x)).
  { intros x Hx. cbn [h2 h1 setm mem]. destruct (Z.eqb_spec (addr x) p) as [E|]; [|reflexivity]. exfalso. apply (Hout x (addr x) Hx); [|exact E]. assert (Px := BSZ_pos MUL HM (bkt x)). lia. }
  split; [constructor; cbn [h2 h1 setm chunks heapAlloc bkts ctrs]|].
  - apply Tiled_app; [apply I|]. cbn [Tiled]. exists [(p, from, Limbo)], []. cbn [tiles app addr bkt fst snd]. auto.
  - apply FOP_app; [apply I|repeat constructor|]. intros x y Hx [<-|[]]. apply Hap. exact Hx.
  - apply Forall_app. split; [apply I|]. constructor; [|constructor]. cbn [fst snd]. lia.
  - apply Forall_app. split; [apply I|]. constructor; [|constructor]. cbn [bkt fst snd]. exact Hf.
  - apply Forall_app. split; [|constructor; [exact Logic.I|constructor]]. assert (X := I_hdr _ _ _ I). rewrite Forall_forall in *. intros x Hx. eapply hdr_ok_ext; [apply Hm; exact Hx|apply X; exact Hx].
  - apply I.
  - intros b Hb. destruct (I_free _ _ _ I b Hb) as [l [Hc Hq]]. exists l. rewrite frees_app. cbn [frees filter isF stat snd map]. rewrite app_nil_r. split; [|exact Hq].
    eapply chain_ext; [|exact Hc]. intros a Ha. apply (Permutation_in _ Hq) in Ha. apply in_frees in Ha. apply (Hm _ Ha).
  - apply I.
  - intros b Hb. rewrite (I_ctr _ _ _ I b Hb), cnt_app. cbn [cnt filter isU stat snd length]. unfold cnt. cbn. lia.
  - rewrite total_app, <- (I_al _ _ _ I). unfold total. cbn [fold_right snd]. lia.
  - intros a b Hin x Hx. apply in_useds in Hin. cbn [h2 h1 setm mem]. destruct (Z.eqb_spec x p) as [E|]; [|reflexivity]. exfalso. apply (Hout _ x Hin); [cbn [addr bkt fst snd]; exact Hx|exact E].
Qed.

(** * serving a request *)
Definition served (h : heap) (req : Z) (h' : heap) (a : Z) : Prop := exists l', live h' = (a, req) :: l' /\ incl l' (live h) /\ heapMax h' = heapMax h /\
  (forall a n, In (a, n) l' -> forall x, a <= x < a + n -> mem h' x = mem h x).
Lemma served_kept h h1 req h' a : kept h h1 -> served h1 req h' a -> served h req h' a.
Proof.
  intros [K1 [K2 [K3 [K4 K5]]]] [l' [L [Hi [Hm Hf]]]]. exists l'. split; [exact L|]. split; [eapply incl_tran; eassumption|]. split; [congruence|].
  intros a0 n Hin x Hx. rewrite (Hf _ _ Hin _ Hx). apply (K5 a0 n); [apply Hi; exact Hin|exact Hx].
Qed.
Lemma take_out h bs req : Out settled h bs -> okreq req -> nth (bk req) (bkts h) 0 <> 0 ->
  exists h' a, take h (bk req) = Ok (h', a) /\ (exists bs', Out settled (setlive h' ((a, req) :: live h')) bs') /\ served h req (setlive h' ((a, req) :: live h')) a /\ chunks h' = chunks h /\ heapAlloc h' = heapAlloc h /\ recur h' = recur h.
Proof.
  intros O Hr Hb. destruct (bk_spec req Hr) as [B1 [B2 _]].
  destruct (take_spec MUL HM h bs (bk req) (O_inv _ _ _ O) ltac:(unfold NB; lia) Hb) as [h' [a [F1 [F2 [E [Eb [I' [[S1 [S2 [S3 [S4 S5]]]] HF]]]]]]]].
  exists h', a. split; [exact E|]. split; [|split; [|auto]].
  - exists (F1 ++ (a, bk req, Used) :: F2). constructor; cbn [setlive live heapAlloc heapMax].
    + eapply Inv_same; [exact I'|reflexivity..].
    + assert (X := O_st _ _ _ O). rewrite Eb in X. rewrite Forall_app in *. destruct X as [X1 X2]. split; [exact X1|]. inversion X2; subst. constructor; [right; reflexivity|assumption].
    + rewrite S5. cbn [map]. assert (X := O_live _ _ _ O). rewrite Eb in X. rewrite useds_skip in X by discriminate. rewrite useds_app in X. rewrite useds_app. unfold useds at 2. cbn [filter]. change (isUsed (a, bk req, Used)) with true. cbn [map]. apply Permutation_cons_app. exact X.
    + rewrite S5. constructor; [exact Hr|apply (O_req _ _ _ O)].
    + rewrite S2, S3. apply (O_max _ _ _ O).
  - exists (live h). cbn [setlive live heapMax mem]. rewrite S5. split; [reflexivity|]. split; [apply incl_refl|]. split; [exact S3|]. eapply Fr_kept; [exact O|apply incl_refl|exact HF].
Qed.
Lemma settled_free l : Forall (fun x : blk => stat x = Free) l -> Forall settled l.
Proof. apply Forall_impl. intros x H. left. exact H. Qed.
(** from a detached block *)
Lemma split_take_out h0 h F1 c from F2 req : Inv h (F1 ++ (c, from, Limbo) :: F2) -> limbo_kind h c -> okreq req -> (bk req <= from)%nat -> Forall settled (F1 ++ F2) ->
  Permutation (map lb (live h0)) (useds (F1 ++ F2)) -> Forall (fun x => okreq (snd x)) (live h0) -> heapAlloc h <= heapMax h -> live h = live h0 -> heapMax h = heapMax h0 -> Fr (useds (F1 ++ F2)) (mem h0) (mem h) ->
  exists h1 h' a, splitTo MUL h c from (bk req) = Ok h1 /\ take h1 (bk req) = Ok (h', a) /\ (exists bs', Out settled (setlive h' ((a, req) :: live h')) bs') /\ served h0 req (setlive h' ((a, req) :: live h')) a /\
    chunks h' = chunks h /\ heapAlloc h' = heapAlloc h /\ recur h' = recur h.
Proof.
  intros I K Hr Hle Hst Hp Hok Hmax Hl Hmx HF. destruct (bk_spec req Hr) as [B1 [B2 _]].
  destruct (splitTo_spec MUL HM h F1 c from (bk req) F2 I K Hle) as [h1 [L [E1 [I1 [[S1 [S2 [S3 [S4 S5]]]] [C1 [FL FR]]]]]]]; [lia|].
  assert (O1 : Out settled h1 (F1 ++ (c, bk req, Free) :: L ++ F2)).
  { constructor.
    - exact I1.
    - rewrite Forall_app in *. destruct Hst. split; [assumption|]. constructor; [left; reflexivity|]. apply Forall_app. split; [apply settled_free; exact FL|assumption].
    - rewrite S5, Hl. rewrite useds_skip by discriminate. rewrite !useds_app in *. rewrite (useds_none L); [exact Hp|]. intros x Hx. rewrite Forall_forall in FL. rewrite (FL _ Hx). discriminate.
    - rewrite S5, Hl. exact Hok.
    - rewrite S2, S3. exact Hmax. }
  destruct (take_out h1 _ req O1 Hr) as [h' [a [E2 [O2 [SV [G1 [G2 G3]]]]]]].
  { eapply (nth_after_push MUL h1 F1 c (bk req) (L ++ F2) h1); [exact I1|unfold NB; lia|reflexivity]. }
  exists h1, h', a. split; [exact E1|]. split; [exact E2|]. split; [exact O2|]. split; [|split; [congruence|split; congruence]].
  destruct SV as [l' [L1 [L2 [L3 L4]]]]. exists l'. split; [exact L1|]. split; [rewrite S5, Hl in L2; exact L2|]. split; [congruence|].
  intros a0 n Hin x Hx. rewrite (L4 _ _ Hin _ Hx).
  assert (Hin0 : In (a0, n) (live h0)) by (rewrite <- Hl, <- S5; apply L2; exact Hin).
  assert (Hu : In (a0, bk n) (useds (F1 ++ F2))) by (apply (Permutation_in _ Hp); apply in_map_iff; exists (a0, n); auto).
  assert (Ho : okreq n) by (rewrite Forall_forall in Hok; apply (Hok _ Hin0)). destruct (bk_spec n Ho) as [_ [Hs _]].
  rewrite (FR a0 (bk n) Hu x) by lia. apply (HF a0 (bk n) Hu). lia.
Qed.
Lemma find_from_spec : forall n h from, (from + n = 64)%nat -> length (bkts h) = NB ->
  (find_from n h from = Ok None /\ forall b, (from <= b < NB)%nat -> nth b (bkts h) 0 = 0) \/ (exists f, find_from n h from = Ok (Some f) /\ (from <= f < NB)%nat /\ nth f (bkts h) 0 <> 0).
Proof.
  induction n as [|n IH]; intros h from Hn Hl; cbn [find_from].
  - left. split; [reflexivity|]. unfold NB. intros; lia.
  - rewrite rd_nth by (rewrite Hl; unfold NB; lia). cbn [bind]. destruct (Z.eqb_spec (nth from (bkts h) 0) 0) as [E|N].
    + destruct (IH h (S from) ltac:(lia) Hl) as [[A B]|[f [A [B C]]]]; [left|right].
      * split; [exact A|]. intros b Hb. destruct (Nat.eq_dec b from) as [->|]; [exact E|apply B; lia].
      * exists f. split; [exact A|]. split; [lia|exact C].
    + right. exists from. split; [reflexivity|]. unfold NB. split; [lia|exact N].
Qed.
Definition chunk_for (req : Z) : Z := BSZ (Nat.max ALSZ (bk req)).
Definition denied (envs : list env) : Prop := exists e, In e envs /\ e_mmap e = None.
Definition result (envs : list env) (h : heap) (req : Z) (h' : heap) (o : outcome) : Prop :=
  (exists bs', Out settled h' bs') /\
  match o with
  | Got a => served h req h' a /\ (chunks h' = chunks h \/ exists p, chunks h' = chunks h ++ [(p, chunk_for req)])
  | OOM => kept h h' /\ (forall b, (bk req <= b < NB)%nat -> nth b (bkts h') 0 = 0) /\ (heapMax h < heapAlloc h + chunk_for req \/ denied envs)
  | _ => kept h h'
  end.
Lemma Out_setrec P h bs r : Out P h bs -> Out P (setrec h r) bs.
Proof. intros O. constructor; try apply O. eapply Inv_same; [apply O|reflexivity..]. Qed.
Lemma result_kept envs e h h1 req h' o : kept h h1 -> result envs h1 req h' o -> result (e :: envs) h req h' o.
Proof.
  intros K [O R]. split; [exact O|]. assert (K' := K). destruct K' as [K1 [K2 [K3 [K4 K5]]]]. destruct o; try (eapply kept_trans; eassumption).
  - destruct R as [R1 R2]. rewrite K1 in R2. split; [eapply served_kept; eassumption|exact R2].
  - destruct R as [R1 [R2 R3]]. rewrite K2, K3 in R3. split; [eapply kept_trans; eassumption|]. split; [exact R2|]. destruct R3 as [R3|[e' [A B]]]; [left; exact R3|right; exists e'; split; [right; exact A|exact B]].
Qed.
Lemma result_setrec envs h req h' o r : result envs h req h' o -> result envs h req (setrec h' r) o.
Proof. intros [[bs O] R]. split; [exists bs; apply Out_setrec; exact O|]. destruct o; exact R. Qed.
Lemma result_setrec' envs h req h' o r : result envs (setrec h r) req h' o -> result envs h req h' o.
Proof. intros [[bs O] R]. split; [exists bs; exact O|]. destruct o; exact R. Qed.
Lemma fast envs h bs req : Out settled h bs -> okreq req -> nth (bk req) (bkts h) 0 <> 0 ->
  exists h' a, take h (bk req) = Ok (h', a) /\ result envs h req (setlive h' ((a, req) :: live h')) (Got a).
Proof.
  intros O Hr Hb; destruct (take_out h bs req O Hr Hb) as [h' [a [E [Ob [SV [G1 [G2 G3]]]]]]]; exists h', a; split; [exact E|]; split; [exact Ob|]; split; [exact SV|]; left; exact G1.
Qed.
Lemma slow envs h bs req f : Out settled h bs -> okreq req -> (S (bk req) <= f < NB)%nat -> nth f (bkts h) 0 <> 0 ->
  exists h1 h' a, splitTo MUL (setb h f (h_next (mem h (nth f (bkts h) 0)))) (nth f (bkts h) 0) f (bk req) = Ok h1 /\ take h1 (bk req) = Ok (h', a) /\ result envs h req (setlive h' ((a, req) :: live h')) (Got a).
Proof.
  intros O Hr Hf Hb. assert (I := O_inv _ _ _ O). destruct (pop_spec MUL HM h bs f I ltac:(lia) Hb) as [F1 [F2 [Eb [I1 K1]]]]; cbv zeta in *; set (c := nth f (bkts h) 0) in *;
    assert (Hst := O_st _ _ _ O); assert (Hlv := O_live _ _ _ O); rewrite Eb in Hst, Hlv; rewrite useds_skip in Hlv by discriminate;
    destruct (split_take_out h _ F1 c f F2 req I1) as [h1 [h' [a [E1 [E2 [Ob [SV [G1 [G2 G3]]]]]]]]];
    [exact K1|exact Hr|lia|rewrite Forall_app in *; destruct Hst as [X1 X2]; inversion X2; auto|exact Hlv|apply (O_req _ _ _ O)|apply (O_max _ _ _ O)|reflexivity|reflexivity|apply Fr_refl|];
    exists h1, h', a; split; [exact E1|]; split; [exact E2|]; split; [exact Ob|]; split; [exact SV|]; left; exact G1.
Qed.
Lemma allocL_spec : forall envs h bs req, Out settled h bs -> okreq req -> exists h' o, allocL MUL envs h (bk req) req = Ok (h', o) /\ result envs h req h' o.
Proof.
  induction envs as [|e envs IH]; intros h bs req O Hr; destruct (bk_spec req Hr) as [B1 [B2 _]]; assert (I := O_inv _ _ _ O).
  all: cbn [allocL]; rewrite rd_nth by (rewrite (I_lenb _ _ _ I); unfold NB; lia); cbn [bind]; destruct (Z.eqb_spec (nth (bk req) (bkts h) 0) 0) as [E0|N0]; cbn [negb];
    [|edestruct fast as [h' [a [E R]]]; [exact O|exact Hr|exact N0|]; rewrite E; cbn [bind]; eexists _, _; split; [reflexivity|exact R]].
  all: destruct (find_from_spec (63 - bk req) h (S (bk req)) ltac:(lia) (I_lenb _ _ _ I)) as [[Ef Hnone]|[f [Ef [Hf Hne]]]]; rewrite Ef; cbn [bind];
    [|rewrite rd_nth by (rewrite (I_lenb _ _ _ I); lia); cbn [bind]; edestruct slow as [h1 [h' [a [E1 [E2 R]]]]]; [exact O|exact Hr|exact Hf|exact Hne|]; rewrite E1; cbn [bind]; rewrite E2; cbn [bind]; eexists _, _; split; [reflexivity|exact R]].
  - exists h, Invalid. split; [reflexivity|]. split; [exists bs; exact O|apply kept_refl].
  - assert (Hnone' : forall b, (bk req <= b < NB)%nat -> nth b (bkts h) 0 = 0) by (intros b Hb; destruct (Nat.eq_dec b (bk req)) as [->|]; [exact E0|apply Hnone; lia]).
    cbv zeta. destruct (e_intr e); [exists h, Interrupted; split; [reflexivity|]; split; [exists bs; exact O|apply kept_refl]|].
    destruct (e_maybe e) as [fs|].
    + destruct (gc_run_spec fs h bs O) as [E|[h1 [b1 [E1 [O1 [K1 R1]]]]]]; rewrite ?E, ?E1; cbn [bind].
      * exists h, Invalid. split; [reflexivity|]. split; [exists bs; exact O|apply kept_refl].
      * destruct (IH h1 b1 req O1 Hr) as [h2 [o [E2 R2]]]. rewrite E2. cbn [bind]. eexists _, o. split; [reflexivity|]. apply result_kept with (e := e) (h := h) in R2; [|exact K1]. destruct o; try exact R2. apply result_setrec. exact R2.
    + assert (AB := alloc_bound _ _ I). assert (Hnn : 0 <= heapAlloc h) by (rewrite (I_al _ _ _ I); apply total_pos; apply I).
      assert (Hcs : 0 < BSZ (Nat.max ALSZ (bk req)) <= 3 * 2 ^ 62).
      { split; [apply BSZ_pos; exact HM|]. unfold BuddyModel.BSZ. assert (2 ^ Z.of_nat (Nat.max ALSZ (bk req)) <= 2 ^ 62) by (apply Z.pow_le_mono_r; [lia|unfold ALSZ; lia]). destruct HM as [-> | ->]; lia. }
      rewrite Z.mod_small by (unfold PAD in AB; change (2 ^ 48) with 281474976710656 in AB; change (2 ^ 62) with 4611686018427387904 in Hcs; change (2 ^ 64) with 18446744073709551616; lia).
      destruct (Z.ltb_spec (heapMax h) (heapAlloc h + BSZ (Nat.max ALSZ (bk req)))) as [Hlim|Hlim].
      * destruct (recur h).
        -- exists (setrec h false), OOM. split; [reflexivity|]. split; [exists bs; apply Out_setrec; exact O|]. split; [apply (kept_refl h)|]. split; [exact Hnone'|]. left. exact Hlim.
        -- destruct (gc_run_spec (e_force e) h bs O) as [E|[h1 [b1 [E1 [O1 [K1 R1]]]]]]; rewrite ?E, ?E1; cbn [bind].
           ++ exists h, Invalid. split; [reflexivity|]. split; [exists bs; exact O|apply kept_refl].
           ++ destruct (IH (setrec h1 true) b1 req (Out_setrec _ _ _ _ O1) Hr) as [h2 [o [E2 R2]]]. rewrite E2. cbn [bind]. eexists _, o. split; [reflexivity|]. apply result_setrec' in R2. apply result_kept with (e := e) (h := h) in R2; [|exact K1]. destruct o; try exact R2. apply result_setrec. exact R2.
      * destruct (e_mmap e) as [p|] eqn:Em.
        -- destruct (Z.ltb_spec (2 ^ 48 + PAD) (p + BSZ (Nat.max ALSZ (bk req)))) as [Hfat|Hfat]; [exists h, Fatal; split; [reflexivity|]; split; [exists bs; exact O|apply kept_refl]|].
           destruct (Z.leb_spec p 0) as [Hp|Hp]; cbn [orb]; [exists h, Invalid; split; [reflexivity|]; split; [exists bs; exact O|apply kept_refl]|].
           destruct (existsb (overlaps p (BSZ (Nat.max ALSZ (bk req)))) (chunks h)) eqn:Eov; [exists h, Invalid; split; [reflexivity|]; split; [exists bs; exact O|apply kept_refl]|].
           assert (Hfr : mb <= Z.of_nat (Nat.max ALSZ (bk req)) < 64) by (unfold ALSZ; lia).
           destruct (chunk_spec h bs p (Nat.max ALSZ (bk req)) I Hfr Hp Hfat Eov) as [I2 Fr2]. cbv zeta in I2, Fr2.
           set (h2 := setm _ p _) in *.
           destruct (split_take_out h h2 bs p (Nat.max ALSZ (bk req)) [] req I2) as [h3 [h4 [a [E3 [E4 [Ob [SV [G1 [G2 G3]]]]]]]]].
           ++ unfold limbo_kind, h2. cbn. rewrite Z.eqb_refl. reflexivity.
           ++ exact Hr.
           ++ lia.
           ++ rewrite app_nil_r. apply (O_st _ _ _ O).
           ++ rewrite app_nil_r. apply (O_live _ _ _ O).
           ++ apply (O_req _ _ _ O).
           ++ exact Hlim.
           ++ reflexivity.
           ++ reflexivity.
           ++ rewrite app_nil_r. exact Fr2.
           ++ rewrite E3. cbn [bind]. rewrite E4. cbn [bind]. eexists _, _. split; [reflexivity|]. split; [exact Ob|]. split; [exact SV|]. right. exists p. exact G1.
        -- exists h, OOM. split; [reflexivity|]. split; [exists bs; exact O|]. split; [apply kept_refl|]. split; [exact Hnone'|]. right. exists e. split; [left; reflexivity|exact Em].
Qed.

(** * histories *)
Definition stepped (h : heap) (o : op) (h' : heap) (r : outcome) : Prop :=
  match o with
  | OAlloc sz envs => (okreq sz /\ result envs h sz h' r) \/ (h' = h /\ r = Invalid)
  | OFree _ | OGc _ => kept h h'
  | OWrite a x v => live h' = live h /\ chunks h' = chunks h /\ heapAlloc h' = heapAlloc h /\ heapMax h' = heapMax h /\ (forall y, mem h' y = mem h y \/ (r <> Invalid /\ y = x))
  end.
Lemma write_out h bs a x v : Out settled h bs -> in_live (live h) a = true -> a <= x < a + live_size (live h) a ->
  Out settled (setm h x (if x =? a then mkHdr KLive (h_bkt (mem h a)) (h_next v) else v)) bs.
Proof.
  intros O Hl Hx. assert (I := O_inv _ _ _ O). destruct (in_live_spec _ _ Hl) as [Hin _]. destruct (live_in_useds _ _ _ _ _ O Hin) as [Hu Hr]. apply in_useds in Hu. destruct (bk_spec _ Hr) as [_ [Hs _]].
  set (b := bk (live_size (live h) a)) in *.
  assert (Hot : forall y, In y bs -> y = (a, b, Used) \/ addr y <> x).
  { intros y Hy. destruct (apart_in MUL HM _ _ y (a, b, Used) I Hy Hu) as [E|A]; [left; exact E|right]. unfold apart, rng in A. cbn [addr bkt fst snd] in A. assert (P := BSZ_pos MUL HM (bkt y)). lia. }
  constructor; try apply O. apply (Inv_mem h); try reflexivity; [exact I| |].
  - assert (X := I_hdr _ _ _ I). rewrite Forall_forall in *. intros y Hy. destruct (Hot y Hy) as [->|N].
    + assert (Y := X _ Hu). unfold hdr_ok in *. cbn [stat addr bkt fst snd setm mem] in *. rewrite (Z.eqb_sym a x). destruct (Z.eqb_spec x a); [|exact Y]. cbn [h_bkt h_kind]. split; [apply Y|reflexivity].
    + eapply hdr_ok_ext; [|apply X; exact Hy]. cbn [setm mem]. destruct (Z.eqb_spec (addr y) x); [congruence|reflexivity].
  - intros a' b' Hf. cbn [setm mem]. destruct (Hot _ Hf) as [E|N]; [discriminate|]. cbn [addr fst] in N. destruct (Z.eqb_spec a' x); [congruence|reflexivity].
Qed.
Lemma step_spec h bs o : Out settled h bs -> exists h' r, step MUL h o = Ok (h', r) /\ (exists bs', Out settled h' bs') /\ stepped h o h' r.
Proof.
  intros O. destruct o as [sz envs|a|l|a x v]; cbn [step].
  - destruct (Z.ltb_spec sz 16) as [H1|H1]; cbn [orb]; [exists h, Invalid; split; [reflexivity|]; split; [exists bs; exact O|right; auto]|].
    destruct (Z.ltb_spec (MUL * 2 ^ 62) sz) as [H2|H2]; cbn [orb]; [exists h, Invalid; split; [reflexivity|]; split; [exists bs; exact O|right; auto]|].
    assert (Hr : okreq sz) by (split; lia). destruct (allocL_spec envs h bs sz O Hr) as [h' [r [E R]]]. exists h', r. split; [exact E|]. split; [apply R|]. left. auto.
  - destruct (in_live (live h) a) eqn:Hl; [|exists h, Invalid; split; [reflexivity|]; split; [exists bs; exact O|apply kept_refl]].
    destruct (free_spec settled h bs a ltac:(auto) ltac:(left; reflexivity) O Hl) as [h1 [b1 [E1 [O1 [K1 L1]]]]]. rewrite E1. cbn [bind]. rewrite L1. eexists _, _. split; [reflexivity|]. split; [exists b1; exact O1|exact K1].
  - destruct (gc_run_spec l h bs O) as [E|[h1 [b1 [E1 [O1 [K1 R1]]]]]]; rewrite ?E, ?E1; cbn [bind]; eexists _, _; (split; [reflexivity|]).
    + split; [exists bs; exact O|apply kept_refl].
    + split; [exists b1; exact O1|exact K1].
  - destruct (in_live (live h) a) eqn:Hl; cbn [andb]; [|exists h, Invalid; split; [reflexivity|]; split; [exists bs; exact O|cbn; auto 6]].
    destruct (Z.leb_spec a x) as [H1|H1]; cbn [andb]; [|exists h, Invalid; split; [reflexivity|]; split; [exists bs; exact O|cbn; auto 6]].
    destruct (Z.ltb_spec x (a + live_size (live h) a)) as [H2|H2]; [|exists h, Invalid; split; [reflexivity|]; split; [exists bs; exact O|cbn; auto 6]].
    eexists _, _. split; [reflexivity|]. split; [exists bs; apply write_out; auto|]. cbn [stepped setm live chunks heapAlloc heapMax mem]. repeat (split; [reflexivity|]). intros y. destruct (Z.eqb_spec y x); [right; split; [discriminate|assumption]|left; reflexivity].
Qed.
Lemma run_spec : forall ops h bs, Out settled h bs -> exists h' rs, run MUL h ops = Ok (h', rs) /\ (exists bs', Out settled h' bs') /\ heapMax h' = heapMax h.
Proof.
  induction ops as [|o ops IH]; intros h bs O; cbn [run]; [exists h, []; split; [reflexivity|]; split; [exists bs; exact O|reflexivity]|].
  destruct (step_spec h bs o O) as [h1 [r [E1 [[b1 O1] S1]]]]. rewrite E1. cbn [bind]. destruct (IH h1 b1 O1) as [h2 [rs [E2 [O2 M2]]]]. rewrite E2. cbn [bind]. eexists _, _. split; [reflexivity|]. split; [exact O2|].
  rewrite M2. destruct o; cbn [stepped] in S1; try apply S1. destruct S1 as [[_ [_ R]]|[-> _]]; [|reflexivity]. destruct r; cbn in R; try apply R. destruct R as [[l' R] _]. apply R.
Qed.
Lemma init_out max : 0 <= max -> Out settled (init max) [].
Proof.
  intros H. constructor; [constructor|..]; cbn [init chunks mem bkts ctrs heapAlloc live heapMax]; try constructor; try exact H; try reflexivity.
  - intros b Hb. exists []. split; [|constructor]. cbn [chain]. apply nth_repeat.
  - intros b Hb. apply (nth_repeat 0 64 b).
Qed.

(** * totals *)
Definition blkrange (x : Z * nat) : Z * Z := (fst x, BSZ (snd x)).
Lemma used_loop_app : forall l1 l2 i, used_loop MUL (l1 ++ l2) i = used_loop MUL l1 i + used_loop MUL l2 (i + length l1).
Proof.
  induction l1 as [|c l1 IH]; intros l2 i; cbn [app used_loop length]; [rewrite Nat.add_0_r; lia|]. rewrite IH. rewrite <- plus_n_Sm. cbn [Nat.add]. lia.
Qed.
Lemma used_loop_add : forall l b i v, (b < length l)%nat -> used_loop MUL (upd l b v) i = used_loop MUL l i + (v - nth b l 0) * BSZ (i + b).
Proof.
  induction l as [|c l IH]; intros b i v H; cbn [length] in H; [lia|]. destruct b as [|b]; cbn [upd used_loop nth]; [rewrite Nat.add_0_r; lia|]. rewrite IH by lia. rewrite <- plus_n_Sm. cbn [Nat.add]. lia.
Qed.
Lemma used_loop_zero : forall l i, Forall (fun x => x = 0) l -> used_loop MUL l i = 0.
Proof. intros l i H. revert i. induction H as [|x l Hx _ IH]; intros i; cbn [used_loop]; [reflexivity|]. rewrite IH. lia. Qed.
Lemma used_sum : forall bs l, length l = NB -> Forall (fun x => (bkt x < NB)%nat /\ stat x <> Dead) bs -> (forall b, (b < NB)%nat -> nth b l 0 = cnt b bs) -> used_loop MUL l 0 = total (map blkrange (useds bs)).
Proof.
  induction bs as [|[[a b] s] bs IH]; intros l Hl Hb Hc.
  - cbn [useds filter map total fold_right]. apply used_loop_zero. apply Forall_forall. intros x Hx. destruct (In_nth l x 0 Hx) as [n [Hn <-]]. rewrite Hc by (rewrite <- Hl; exact Hn). reflexivity.
  - inversion Hb as [|? ? [H1 H2] H3]; subst. cbn [bkt stat fst snd] in H1, H2.
    destruct (match s with Used => true | _ => false end) eqn:Es.
    + destruct s; try discriminate. assert (E : l = upd (upd l b (nth b l 0 - 1)) b (nth b l 0)).
      { apply nth_error_ext. intros i. rewrite !nth_error_upd, !upd_length. destruct (Nat.eqb_spec b i) as [<-|]; [|reflexivity]. destruct (Nat.ltb_spec b (length l)); [|rewrite Hl in *; lia]. apply nth_error_nth'. assumption. }
      rewrite E. rewrite used_loop_add by (rewrite upd_length, Hl; exact H1). rewrite nth_upd by (rewrite Hl; exact H1). rewrite Nat.eqb_refl.
      rewrite (IH (upd l b (nth b l 0 - 1))); [|rewrite upd_length; exact Hl|exact H3|].
      * unfold useds. cbn [filter]. change (isUsed (a, b, Used)) with true. cbn [map total fold_right blkrange fst snd]. unfold total. cbn [Nat.add]. lia.
      * intros b' Hb'. rewrite nth_upd by (rewrite Hl; exact H1). destruct (Nat.eqb_spec b b') as [<-|N]; rewrite Hc by assumption; unfold cnt; cbn [filter]; unfold isU at 1; cbn [stat bkt snd fst]; [rewrite Nat.eqb_refl; cbn [length]; lia|]. destruct (Nat.eqb_spec b b'); [congruence|reflexivity].
    + rewrite (IH l Hl H3); [unfold useds; cbn [filter]; unfold isUsed at 2; cbn [stat snd]; destruct s; try discriminate; reflexivity|].
      intros b' Hb'. rewrite Hc by assumption. unfold cnt. cbn [filter]. unfold isU at 1. cbn [stat snd]. destruct s; try discriminate; try congruence; reflexivity.
Qed.
Lemma total_perm l l' : Permutation l l' -> total l = total l'.
Proof. unfold total. induction 1; cbn [fold_right]; lia. Qed.
Definition liverange (x : Z * Z) : Z * Z := (fst x, BSZ (bk (snd x))).
Lemma heapUsed_spec h bs : Out settled h bs -> heapUsed MUL h = total (map liverange (live h)).
Proof.
  intros O. assert (I := O_inv _ _ _ O). unfold heapUsed. rewrite (used_sum bs (ctrs h)); [| apply I| |apply I].
  - symmetry. rewrite <- (total_perm _ _ (Permutation_map blkrange (O_live _ _ _ O))). rewrite map_map. reflexivity.
  - assert (X := I_bkt _ _ _ I). assert (Y := O_st _ _ _ O). rewrite Forall_forall in *. intros x Hx. split; [specialize (X _ Hx); unfold NB; lia|]. destruct (Y _ Hx) as [E|E]; rewrite E; discriminate.
Qed.
Definition isFree (x : blk) : bool := match stat x with Free => true | _ => false end.
Definition freebs (l : list blk) : list (Z * nat) := map fst (filter isFree l).
Lemma settled_split bs : Forall settled bs -> Permutation (map fst bs) (freebs bs ++ useds bs).
Proof.
  induction 1 as [|x bs Hx _ IH]; [constructor|]. unfold freebs, useds in *. cbn [filter map]. unfold isFree at 1, isUsed at 1. destruct Hx as [E|E]; rewrite E; cbn [map app].
  - apply perm_skip. exact IH.
  - apply Permutation_cons_app. exact IH.
Qed.
Lemma freebs_bucket b bs : frees b bs = map fst (filter (fun x => (snd x =? b)%nat) (freebs bs)).
Proof.
  unfold frees, freebs. induction bs as [|[[a c] s] bs IH]; [reflexivity|]. cbn [filter]. unfold isF at 1, isFree at 1. cbn [stat snd]. destruct s; try exact IH. cbn [bkt fst snd map filter]. destruct (Nat.eqb c b); cbn [map addr fst]; [f_equal|]; exact IH.
Qed.
Lemma all_apart_perm l l' : Permutation l l' -> all_apart l -> all_apart l'.
Proof.
  unfold all_apart. induction 1 as [|x l l' HP IH|x y l|l1 l2 l3 H1 IH1 H2 IH2]; intros H.
  - exact H.
  - inversion H; subst. constructor; [|apply IH; assumption]. rewrite Forall_forall in *. intros z Hz. apply H2. eapply Permutation_in; [symmetry; exact HP|exact Hz].
  - inversion H as [|? ? A B]; subst. inversion B as [|? ? C D]; subst. inversion A as [|? ? A1 A2]; subst. constructor; [constructor; [destruct A1; [right|left]; assumption|exact C]|constructor; assumption].
  - auto.
Qed.
Lemma whole_spec h bs : Out settled h bs -> exists fl,
  (forall b, (b < NB)%nat -> exists l, chain (mem h) (nth b (bkts h) 0) l /\ Permutation l (map fst (filter (fun x => (snd x =? b)%nat) fl))) /\
  Forall (fun x => (snd x < NB)%nat) fl /\
  all_apart (map blkrange fl ++ map liverange (live h)) /\ Forall (fun r => exists c, In c (chunks h) /\ inside r c) (map blkrange fl ++ map liverange (live h)) /\
  total (map blkrange fl ++ map liverange (live h)) = total (chunks h).
Proof.
  intros O. assert (I := O_inv _ _ _ O). exists (freebs bs).
  assert (P1 : Permutation (map (rng MUL) bs) (map blkrange (freebs bs) ++ map liverange (live h))).
  { replace (map (rng MUL) bs) with (map blkrange (map fst bs)) by (rewrite map_map; reflexivity). eapply Permutation_trans; [apply Permutation_map; apply settled_split; apply O|].
    rewrite map_app. apply Permutation_app_head. replace (map liverange (live h)) with (map blkrange (map lb (live h))) by (rewrite map_map; reflexivity). apply Permutation_map. symmetry. apply O. }
  split; [intros b Hb; destruct (I_free _ _ _ I b Hb) as [l [A B]]; exists l; rewrite <- freebs_bucket; auto|].
  split; [|split; [|split]].
  - apply Forall_forall. intros [a b] Hin. unfold freebs in Hin. apply in_map_iff in Hin. destruct Hin as [[[a' b'] s] [E Hf]]. cbn in E. injection E as -> ->. apply filter_In in Hf. destruct Hf as [Hf _]. assert (X := I_bkt _ _ _ I). rewrite Forall_forall in X. specialize (X _ Hf). cbn [bkt fst snd] in *. unfold NB. lia.
  - eapply all_apart_perm; [exact P1|]. eapply Tiled_apart; [exact HM|apply I|apply I].
  - eapply Permutation_Forall; [exact P1|]. apply Forall_map. apply Forall_forall. intros x Hx. eapply Tiled_in; [exact HM|apply I|exact Hx].
  - rewrite <- (total_perm _ _ P1). symmetry. eapply Tiled_sum. apply I.
Qed.
End Q.
