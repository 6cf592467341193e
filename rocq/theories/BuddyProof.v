From Verif Require Import Base BitLemmas BuddyModel BuddySpec.
From Coq Require Import Permutation.

Inductive st : Type := Free | Used | Dead | Limbo | Stale.
Definition blk : Type := Z * nat * st.
Definition addr (x : blk) : Z := fst (fst x).
Definition bkt (x : blk) : nat := snd (fst x).
Definition stat (x : blk) : st := snd x.
Definition isF (b : nat) (x : blk) : bool := match stat x with Free => (bkt x =? b)%nat | _ => false end.
Definition isU (b : nat) (x : blk) : bool := match stat x with Used | Dead => (bkt x =? b)%nat | _ => false end.
Definition frees (b : nat) (l : list blk) : list Z := map addr (filter (isF b) l).
Definition cnt (b : nat) (l : list blk) : Z := Z.of_nat (length (filter (isU b) l)).
Definition isUsed (x : blk) : bool := match stat x with Used => true | _ => false end.
Definition useds (l : list blk) : list (Z * nat) := map fst (filter isUsed l).

Section P.
Variable MUL : Z.
Hypothesis HM : MUL = 1 \/ MUL = 3.
Notation BSZ := (BSZ MUL).
Definition mb : Z := if MUL =? 1 then 4 else 3.
Lemma BSZ_pos b : 0 < BSZ b.
Proof. unfold BuddyModel.BSZ. assert (0 < 2 ^ Z.of_nat b) by (apply Z.pow_pos_nonneg; lia). destruct HM as [-> | ->]; lia. Qed.
Lemma BSZ_S b : BSZ (S b) = BSZ b + BSZ b.
Proof. unfold BuddyModel.BSZ. rewrite Nat2Z.inj_succ, Z.pow_succ_r by lia. lia. Qed.
Lemma BSZ_16 b : mb <= Z.of_nat b -> 16 <= BSZ b.
Proof.
  intros H. unfold mb, BuddyModel.BSZ in *. destruct HM as [-> | ->]; cbn [Z.eqb Pos.eqb] in H.
  - assert (2^4 <= 2^Z.of_nat b) by (apply Z.pow_le_mono_r; lia). change (2^4) with 16 in *. lia.
  - assert (2^3 <= 2^Z.of_nat b) by (apply Z.pow_le_mono_r; lia). change (2^3) with 8 in *. lia.
Qed.

(** * tilings *)
Fixpoint tiles (p e : Z) (l : list blk) : Prop :=
  match l with [] => p = e | x :: l => addr x = p /\ tiles (p + BSZ (bkt x)) e l end.
Fixpoint Tiled (cs : list (Z * Z)) (l : list blk) : Prop :=
  match cs with
  | [] => l = []
  | (p, n) :: cs => exists l1 l2, l = l1 ++ l2 /\ tiles p (p + n) l1 /\ Tiled cs l2
  end.
Lemma tiles_app : forall l1 l2 p e, tiles p e (l1 ++ l2) <-> exists m, tiles p m l1 /\ tiles m e l2.
Proof.
  induction l1 as [|x l1 IH]; intros l2 p e; cbn [tiles app].
  - split; [intros H; exists p; auto|intros [m [-> H]]; exact H].
  - rewrite IH. split; [intros [A [m [B C]]]; exists m; auto|intros [m [[A B] C]]; split; [exact A|exists m; auto]].
Qed.
Lemma tiles_le : forall l p e, tiles p e l -> p <= e.
Proof. induction l as [|x l IH]; intros p e H; cbn in H; [lia|]. destruct H as [_ H]. apply IH in H. assert (X := BSZ_pos (bkt x)). lia. Qed.
Lemma tiles_lt l p e : tiles p e l -> l <> [] -> p < e.
Proof. destruct l as [|x l]; intros H N; [congruence|]. cbn [tiles] in H. destruct H as [_ H]. apply tiles_le in H. assert (X := BSZ_pos (bkt x)). lia. Qed.
Lemma tiles_in : forall l p e x, tiles p e l -> In x l -> p <= addr x /\ addr x + BSZ (bkt x) <= e.
Proof.
  induction l as [|y l IH]; intros p e x H Hin; [destruct Hin|]. destruct Hin as [->|Hin]; cbn [tiles] in H; destruct H as [A H].
  - apply tiles_le in H. lia.
  - apply IH with (x := x) in H; [|exact Hin]. assert (X := BSZ_pos (bkt y)). lia.
Qed.
Definition rng (x : blk) : Z * Z := (addr x, BSZ (bkt x)).
Lemma tiles_apart : forall l p e, tiles p e l -> all_apart (map rng l).
Proof.
  induction l as [|x l IH]; intros p e H; [constructor|]. cbn [map]. cbn in H. destruct H as [A H]. constructor; [|eapply IH; exact H].
  apply Forall_map. apply Forall_forall. intros y Hy. apply (tiles_in _ _ _ _ H) in Hy. left. unfold rng. cbn [fst snd]. lia.
Qed.
Lemma tiles_sum : forall l p e, tiles p e l -> e - p = total (map rng l).
Proof. induction l as [|x l IH]; intros p e H; cbn [tiles map total fold_right] in *; [lia|]. destruct H as [_ H]. apply IH in H. unfold total in H. unfold rng at 1. cbn [snd]. lia. Qed.

Lemma FOP_app {A} (R : A -> A -> Prop) l1 l2 : ForallOrdPairs R l1 -> ForallOrdPairs R l2 -> (forall x y, In x l1 -> In y l2 -> R x y) -> ForallOrdPairs R (l1 ++ l2).
Proof.
  intros H1 H2 H. induction H1 as [|a l Ha Hl IH]; [exact H2|]. cbn. constructor.
  - apply Forall_app. split; [exact Ha|]. apply Forall_forall. intros y Hy. apply H; [left; reflexivity|exact Hy].
  - apply IH. intros x y Hx Hy. apply H; [right; exact Hx|exact Hy].
Qed.
Lemma FOP_app_inv {A} (R : A -> A -> Prop) l1 l2 : ForallOrdPairs R (l1 ++ l2) -> ForallOrdPairs R l1 /\ ForallOrdPairs R l2 /\ (forall x y, In x l1 -> In y l2 -> R x y).
Proof.
  induction l1 as [|a l1 IH]; cbn; intros H; [split; [constructor|split; [exact H|intros x y []]]|].
  inversion H as [|? ? Ha Hl]; subst. apply Forall_app in Ha. destruct Ha as [Ha1 Ha2]. destruct (IH Hl) as [I1 [I2 I3]].
  split; [constructor; assumption|]. split; [exact I2|]. intros x y [->|Hx] Hy; [rewrite Forall_forall in Ha2; apply Ha2; exact Hy|apply I3; assumption].
Qed.

Lemma Tiled_in : forall cs l x, Tiled cs l -> In x l -> exists c, In c cs /\ inside (rng x) c.
Proof.
  induction cs as [|[p n] cs IH]; intros l x H Hin; cbn in H; [subst; destruct Hin|]. destruct H as [l1 [l2 [-> [H1 H2]]]]. apply in_app_iff in Hin. destruct Hin as [Hin|Hin].
  - exists (p, n). split; [left; reflexivity|]. apply (tiles_in _ _ _ _ H1) in Hin. unfold inside, rng. cbn [fst snd]. lia.
  - destruct (IH _ _ H2 Hin) as [c [Hc Hi]]. exists c. split; [right; exact Hc|exact Hi].
Qed.
Lemma Tiled_apart : forall cs l, Tiled cs l -> all_apart cs -> all_apart (map rng l).
Proof.
  induction cs as [|[p n] cs IH]; intros l H Ha; cbn in H; [subst; constructor|]. destruct H as [l1 [l2 [-> [H1 H2]]]]. inversion Ha as [|? ? Ha1 Ha2]; subst.
  rewrite map_app. apply FOP_app; [eapply tiles_apart; exact H1|apply IH; assumption|]. intros x y Hx Hy. apply in_map_iff in Hx, Hy.
  destruct Hx as [x' [<- Hx]]. destruct Hy as [y' [<- Hy]]. apply (tiles_in _ _ _ _ H1) in Hx. destruct (Tiled_in _ _ _ H2 Hy) as [c [Hc Hi]].
  rewrite Forall_forall in Ha1. specialize (Ha1 _ Hc). unfold apart, inside, rng in *. cbn [fst snd] in *. lia.
Qed.
Lemma Tiled_sum : forall cs l, Tiled cs l -> total cs = total (map rng l).
Proof.
  induction cs as [|[p n] cs IH]; intros l H; cbn in H; [subst; reflexivity|]. destruct H as [l1 [l2 [-> [H1 H2]]]]. apply tiles_sum in H1. apply IH in H2.
  rewrite map_app. unfold total in *. rewrite fold_right_app. cbn [fold_right snd].
  assert (E : forall (l : list (Z * Z)) s, fold_right (fun x s => snd x + s) s l = fold_right (fun x s => snd x + s) 0 l + s) by (induction l as [|y l IHl]; intros s; cbn [fold_right]; [lia|rewrite IHl; lia]).
  rewrite (E (map rng l1)). lia.
Qed.
Lemma apart_nodup l : all_apart (map rng l) -> NoDup (map addr l).
Proof.
  induction l as [|x l IH]; cbn [map]; intros H; [constructor|]. inversion H as [|? ? Ha Hl]; subst. constructor; [|apply IH; exact Hl].
  intros Hin. apply in_map_iff in Hin. destruct Hin as [y [Ey Hy]]. rewrite Forall_forall in Ha. specialize (Ha (rng y)).
  assert (X : apart (rng x) (rng y)) by (apply Ha; apply in_map; exact Hy). unfold apart, rng in X. cbn [fst snd] in X. assert (P1 := BSZ_pos (bkt x)). assert (P2 := BSZ_pos (bkt y)). lia.
Qed.

(** replacing a block by a tiling of the same range *)
Lemma split_mid {A} : forall (l1 l2 F1 F2 : list A) x, l1 ++ l2 = F1 ++ x :: F2 ->
  (exists F2', l1 = F1 ++ x :: F2' /\ F2 = F2' ++ l2) \/ (exists F1', F1 = l1 ++ F1' /\ l2 = F1' ++ x :: F2).
Proof.
  induction l1 as [|a l1 IH]; intros l2 F1 F2 x E; cbn in E.
  - right. exists F1. auto.
  - destruct F1 as [|b F1]; cbn in E.
    + injection E as -> E. left. exists l1. auto.
    + injection E as -> E. destruct (IH _ _ _ _ E) as [[F2' [-> ->]]|[F1' [-> ->]]]; [left; exists F2'|right; exists F1']; auto.
Qed.
Lemma Tiled_replace : forall cs F1 x L F2, tiles (addr x) (addr x + BSZ (bkt x)) L -> Tiled cs (F1 ++ x :: F2) -> Tiled cs (F1 ++ L ++ F2).
Proof.
  induction cs as [|[q n] cs IH]; intros F1 x L F2 HL H; cbn [Tiled] in *.
  - destruct F1; discriminate.
  - destruct H as [l1 [l2 [E [H1 H2]]]]. symmetry in E. destruct (split_mid _ _ _ _ _ E) as [[F2' [-> ->]]|[F1' [-> ->]]].
    + exists (F1 ++ L ++ F2'), l2. split; [rewrite !app_assoc; reflexivity|]. split; [|exact H2].
      apply tiles_app in H1. destruct H1 as [m [A B]]. cbn [tiles] in B. destruct B as [B C]. apply tiles_app. exists m. split; [exact A|]. apply tiles_app. exists (m + BSZ (bkt x)). rewrite B in HL. auto.
    + exists l1, (F1' ++ L ++ F2). split; [rewrite <- !app_assoc; reflexivity|]. split; [exact H1|]. eapply IH; eassumption.
Qed.
Lemma Tiled_app : forall c1 c2 l1 l2, Tiled c1 l1 -> Tiled c2 l2 -> Tiled (c1 ++ c2) (l1 ++ l2).
Proof.
  induction c1 as [|[p n] c1 IH]; intros c2 l1 l2 H1 H2; cbn [Tiled app] in *; [subst; exact H2|].
  destruct H1 as [a [b [-> [A B]]]]. exists a, (b ++ l2). split; [rewrite app_assoc; reflexivity|]. split; [exact A|]. apply IH; assumption.
Qed.

(** * headers, chains, counters *)
Definition hdr_ok (m : Z -> hdr) (x : blk) : Prop :=
  match stat x with
  | Limbo => True
  | Free | Stale => h_bkt (m (addr x)) = bkt x /\ h_kind (m (addr x)) = KEmpty
  | Used => h_bkt (m (addr x)) = bkt x /\ h_kind (m (addr x)) = KLive
  | Dead => h_bkt (m (addr x)) = bkt x /\ h_kind (m (addr x)) = KFreed
  end.
Record Inv (h : heap) (bs : list blk) : Prop := mkInv {
  I_til : Tiled (chunks h) bs;
  I_apart : all_apart (chunks h);
  I_pos : Forall (fun c => 0 < fst c /\ 0 < snd c /\ fst c + snd c <= 2 ^ 48 + PAD) (chunks h);
  I_bkt : Forall (fun x => mb <= Z.of_nat (bkt x) < 64) bs;
  I_hdr : Forall (hdr_ok (mem h)) bs;
  I_lenb : length (bkts h) = NB;
  I_free : forall b, (b < NB)%nat -> exists l, chain (mem h) (nth b (bkts h) 0) l /\ Permutation l (frees b bs);
  I_lenc : length (ctrs h) = NB;
  I_ctr : forall b, (b < NB)%nat -> nth b (ctrs h) 0 = cnt b bs;
  I_al : heapAlloc h = total (chunks h) }.

Lemma frees_app b l1 l2 : frees b (l1 ++ l2) = frees b l1 ++ frees b l2.
Proof. unfold frees. rewrite filter_app, map_app. reflexivity. Qed.
Lemma cnt_app b l1 l2 : cnt b (l1 ++ l2) = cnt b l1 + cnt b l2.
Proof. unfold cnt. rewrite filter_app, app_length. lia. Qed.
Lemma useds_app l1 l2 : useds (l1 ++ l2) = useds l1 ++ useds l2.
Proof. unfold useds. rewrite filter_app, map_app. reflexivity. Qed.
Lemma Inv_nodup h bs : Inv h bs -> NoDup (map addr bs).
Proof. intros I. apply apart_nodup. eapply Tiled_apart; [apply (I_til _ _ I)|apply (I_apart _ _ I)]. Qed.
Lemma Inv_addr_pos h bs x : Inv h bs -> In x bs -> 0 < addr x.
Proof.
  intros I Hx. destruct (Tiled_in _ _ _ (I_til _ _ I) Hx) as [c [Hc Hi]]. assert (P := I_pos _ _ I). rewrite Forall_forall in P. specialize (P _ Hc).
  unfold inside, rng in Hi. cbn [fst snd] in Hi. lia.
Qed.
Lemma nodup_mid (F1 F2 : list blk) x y : NoDup (map addr (F1 ++ x :: F2)) -> In y (F1 ++ F2) -> addr y <> addr x.
Proof.
  rewrite map_app. cbn [map]. intros H Hy E. apply NoDup_remove_2 in H. apply H. rewrite <- E, <- map_app. apply in_map. exact Hy.
Qed.
Lemma hdr_ok_upd h a v x : addr x <> a -> hdr_ok (mem h) x -> hdr_ok (mem (setm h a v)) x.
Proof. unfold hdr_ok. cbn [mem setm]. intros N. destruct (Z.eqb_spec (addr x) a); [congruence|]. auto. Qed.
Lemma chain_upd m a v : forall l hd, ~ In a l -> chain m hd l -> chain (fun x => if x =? a then v else m x) hd l.
Proof.
  induction l as [|y l IH]; intros hd Hn H; cbn [chain] in *; [exact H|]. destruct H as [A [B C]]. split; [exact A|]. split; [exact B|].
  destruct (Z.eqb_spec y a) as [->|N]; [exfalso; apply Hn; left; reflexivity|]. apply IH; [intros X; apply Hn; right; exact X|exact C].
Qed.
Lemma in_frees b l a : In a (frees b l) <-> In (a, b, Free) l.
Proof.
  unfold frees. rewrite in_map_iff. split.
  - intros [[[a' b'] s] [E Hf]]. apply filter_In in Hf. destruct Hf as [Hin Hf]. unfold isF, stat, bkt in Hf. cbn in Hf, E. destruct s; try discriminate. apply Nat.eqb_eq in Hf. unfold addr in E. cbn in E. subst. exact Hin.
  - intros H. exists (a, b, Free). split; [reflexivity|]. apply filter_In. split; [exact H|]. unfold isF, stat, bkt. cbn. apply Nat.eqb_refl.
Qed.
Lemma nodup_same (l : list blk) x y : NoDup (map addr l) -> In x l -> In y l -> addr x = addr y -> x = y.
Proof.
  induction l as [|z l IH]; intros Hn Hx Hy E; [destruct Hx|]. cbn [map] in Hn. inversion Hn as [|? ? Hz Hl]; subst.
  destruct Hx as [->|Hx], Hy as [->|Hy]; auto.
  - exfalso. apply Hz. rewrite E. apply in_map. exact Hy.
  - exfalso. apply Hz. rewrite <- E. apply in_map. exact Hx.
Qed.

(** fields of a heap other than memory, buckets and counters *)
Definition same_rest (h h' : heap) : Prop := chunks h' = chunks h /\ heapAlloc h' = heapAlloc h /\ heapMax h' = heapMax h /\ recur h' = recur h /\ live h' = live h.
Lemma same_rest_refl h : same_rest h h.
Proof. unfold same_rest. auto. Qed.
Lemma same_rest_trans a b c : same_rest a b -> same_rest b c -> same_rest a c.
Proof. unfold same_rest. intros [A1 [A2 [A3 [A4 A5]]]] [B1 [B2 [B3 [B4 B5]]]]. repeat split; congruence. Qed.

Lemma nth_upd {A} (l : list A) i j v d : (i < length l)%nat -> nth j (upd l i v) d = if (i =? j)%nat then v else nth j l d.
Proof.
  intros H. destruct (Nat.eqb_spec i j) as [->|N].
  - apply nth_error_nth. apply upd_same. exact H.
  - destruct (nth_error l j) eqn:E.
    + rewrite (nth_error_nth _ _ d E). apply nth_error_nth. rewrite upd_other by lia. exact E.
    + apply nth_error_None in E. rewrite !nth_overflow; try rewrite upd_length; auto.
Qed.
Lemma rd_nth l i : (i < length l)%nat -> rd l i = Ok (nth i l 0).
Proof. intros H. unfold rd. rewrite (nth_error_nth' l 0) by lia. reflexivity. Qed.

(** a detached block is put on its free list *)
Lemma push_spec h F1 a b F2 : Inv h (F1 ++ (a, b, Limbo) :: F2) ->
  exists h', push h KEmpty a b = Ok h' /\ Inv h' (F1 ++ (a, b, Free) :: F2) /\ same_rest h h' /\ ctrs h' = ctrs h /\ (forall x, x <> a -> mem h' x = mem h x).
Proof.
  intros I. assert (ND := Inv_nodup _ _ I). set (x := (a, b, Limbo) : blk) in *.
  assert (Hb : mb <= Z.of_nat b < 64). { assert (X := I_bkt _ _ I). rewrite Forall_forall in X. apply (X x). apply in_app_iff. right. left. reflexivity. }
  assert (Hb' : (b < NB)%nat) by (unfold NB; lia).
  assert (Ha : 0 < a) by (apply (Inv_addr_pos _ _ x I); apply in_app_iff; right; left; reflexivity).
  unfold push. rewrite rd_nth by (rewrite (I_lenb _ _ I); exact Hb'). cbn [bind]. eexists. split; [reflexivity|]. split.
  - constructor; cbn [setm setb mem bkts ctrs chunks heapAlloc heapMax recur live].
    + apply (Tiled_replace (chunks h) F1 x [(a, b, Free)] F2); [cbn; auto|apply (I_til _ _ I)].
    + apply (I_apart _ _ I).
    + apply (I_pos _ _ I).
    + assert (X := I_bkt _ _ I). apply Forall_app in X. destruct X as [X1 X2]. inversion X2; subst. apply Forall_app. split; [exact X1|constructor; assumption].
    + assert (X := I_hdr _ _ I). apply Forall_app in X. destruct X as [X1 X2]. inversion X2 as [|? ? X3 X4]; subst.
      assert (K : forall l, Forall (hdr_ok (mem h)) l -> (forall y, In y l -> In y (F1 ++ F2)) -> Forall (hdr_ok (mem (setm h a (mkHdr KEmpty b (nth b (bkts h) 0))))) l).
      { intros l Hl Hs. rewrite Forall_forall in *. intros y Hy. apply hdr_ok_upd; [apply (nodup_mid F1 F2 x y ND); apply Hs; exact Hy|apply Hl; exact Hy]. }
      apply Forall_app. split; [apply K; [exact X1|intros; apply in_app_iff; auto]|]. constructor; [|apply K; [exact X4|intros; apply in_app_iff; auto]].
      unfold hdr_ok, stat, addr, bkt. cbn. rewrite Z.eqb_refl. auto.
    + rewrite upd_length. apply (I_lenb _ _ I).
    + intros b' Hb2. destruct (I_free _ _ I b' Hb2) as [l [Hc Hp]]. rewrite nth_upd by (rewrite (I_lenb _ _ I); exact Hb').
      assert (Hnot : ~ In a l).
      { intros Hin. apply (Permutation_in _ Hp) in Hin. apply in_frees in Hin. assert (E : (a, b', Free) = x); [|discriminate E].
        eapply nodup_same; [exact ND|exact Hin|apply in_app_iff; right; left; reflexivity|reflexivity]. }
      rewrite frees_app in *. unfold frees at 2 in Hp. unfold frees at 2. cbn [filter] in *. unfold isF at 1 in Hp. unfold isF at 1. cbn [stat bkt snd fst x] in *. destruct (Nat.eqb_spec b b') as [->|N].
      * exists (a :: l). split; [cbn [chain]; split; [reflexivity|]; split; [lia|]; rewrite Z.eqb_refl; cbn [h_next]; apply chain_upd; assumption|].
        cbn [map addr fst]. apply Permutation_cons_app. exact Hp.
      * exists l. split; [apply chain_upd; assumption|exact Hp].
    + apply (I_lenc _ _ I).
    + intros b' Hb2. rewrite (I_ctr _ _ I b' Hb2). rewrite !cnt_app. reflexivity.
    + apply (I_al _ _ I).
  - split; [unfold same_rest; cbn; auto|]. split; [reflexivity|]. intros y Hy. cbn. destruct (Z.eqb_spec y a); [congruence|reflexivity].
Qed.

(** memory inside of blocks in use is left alone *)
Definition Fr (U : list (Z * nat)) (m m' : Z -> hdr) : Prop := forall a b, In (a, b) U -> forall x, a <= x < a + BSZ b -> m' x = m x.
Lemma Fr_refl U m : Fr U m m.
Proof. intros a b _ x _. reflexivity. Qed.
Lemma Fr_trans U m1 m2 m3 : Fr U m1 m2 -> Fr U m2 m3 -> Fr U m1 m3.
Proof. intros A B a b Hin x Hx. rewrite (B _ _ Hin _ Hx). apply (A _ _ Hin _ Hx). Qed.
Lemma Fr_incl U U' m m' : incl U' U -> Fr U m m' -> Fr U' m m'.
Proof. intros Hi H a b Hin. apply H. apply Hi. exact Hin. Qed.
Lemma in_useds a b l : In (a, b) (useds l) <-> In (a, b, Used) l.
Proof.
  unfold useds. rewrite in_map_iff. split.
  - intros [[[a' b'] s] [E Hf]]. apply filter_In in Hf. destruct Hf as [Hin Hf]. unfold isUsed, stat in Hf. cbn in Hf, E. destruct s; try discriminate. injection E as -> ->. exact Hin.
  - intros H. exists (a, b, Used). split; [reflexivity|]. apply filter_In. split; [exact H|reflexivity].
Qed.
Lemma apart_in h bs x y : Inv h bs -> In x bs -> In y bs -> x = y \/ apart (rng x) (rng y).
Proof.
  intros I Hx Hy. assert (A := Tiled_apart _ _ (I_til _ _ I) (I_apart _ _ I)). clear I. induction bs as [|z bs IH]; [destruct Hx|]. cbn [map] in A. inversion A as [|? ? A1 A2]; subst. rewrite Forall_map, Forall_forall in A1.
  destruct Hx as [<-|Hx], Hy as [<-|Hy]; [left; reflexivity|right; apply A1; exact Hy|right; destruct (A1 _ Hx); [right|left]; assumption|apply IH; assumption].
Qed.
Lemma Fr_one h F1 a b s F2 m' : Inv h (F1 ++ (a, b, s) :: F2) -> s <> Used -> (forall x, x <> a -> m' x = mem h x) -> Fr (useds (F1 ++ (a, b, s) :: F2)) (mem h) m'.
Proof.
  intros I Hs Hm a' b' Hin x Hx. apply Hm. intros ->. apply in_useds in Hin.
  destruct (apart_in _ _ (a', b', Used) (a, b, s) I Hin) as [E|A]; [apply in_app_iff; right; left; reflexivity|congruence|].
  unfold apart, rng in A. cbn [addr bkt fst snd] in A. assert (P := BSZ_pos b). lia.
Qed.
Lemma useds_skip F1 a b s F2 : s <> Used -> useds (F1 ++ (a, b, s) :: F2) = useds (F1 ++ F2).
Proof. intros H. rewrite !useds_app. unfold useds at 2. cbn [filter]. unfold isUsed at 1. cbn [stat snd]. destruct s; try reflexivity. congruence. Qed.

(** general form: the block x becomes the blocks L, which are on no free list; memory keeps the headers of all other blocks *)
Definition cntL (b : nat) (l : list blk) : Z := cnt b l.
Lemma hdr_ok_ext m m' x : m' (addr x) = m (addr x) -> hdr_ok m x -> hdr_ok m' x.
Proof. unfold hdr_ok. intros ->. auto. Qed.
Lemma chain_ext m m' : forall l hd, (forall a, In a l -> m' a = m a) -> chain m hd l -> chain m' hd l.
Proof.
  induction l as [|y l IH]; intros hd Hm H; cbn [chain] in *; [exact H|]. destruct H as [A [B C]]. split; [exact A|]. split; [exact B|].
  rewrite (Hm y (or_introl eq_refl)). apply IH; [intros a Ha; apply Hm; right; exact Ha|exact C].
Qed.
Lemma frees_none b l : (forall x, In x l -> stat x <> Free) -> frees b l = [].
Proof.
  unfold frees. induction l as [|x l IH]; intros H; [reflexivity|]. cbn [filter]. assert (X := H x (or_introl eq_refl)). unfold isF at 1. destruct (stat x); try congruence; apply IH; intros y Hy; apply H; right; exact Hy.
Qed.
Lemma cnt_none b l : (forall x, In x l -> stat x <> Used /\ stat x <> Dead) -> cnt b l = 0.
Proof.
  unfold cnt. induction l as [|x l IH]; intros H; [reflexivity|]. cbn [filter]. assert (X := H x (or_introl eq_refl)). unfold isU at 1. destruct (stat x); try tauto; apply IH; intros y Hy; apply H; right; exact Hy.
Qed.
Lemma Inv_change h h' F1 S L F2 : Inv h (F1 ++ S ++ F2) -> chunks h' = chunks h -> heapAlloc h' = heapAlloc h ->
  Tiled (chunks h) (F1 ++ L ++ F2) -> Forall (fun x => mb <= Z.of_nat (bkt x) < 64) L -> Forall (hdr_ok (mem h')) L ->
  (forall y, In y (F1 ++ F2) -> mem h' (addr y) = mem h (addr y)) ->
  (forall x, In x S -> stat x <> Free) -> (forall x, In x L -> stat x <> Free) -> bkts h' = bkts h -> length (ctrs h') = NB ->
  (forall b, (b < NB)%nat -> nth b (ctrs h') 0 = nth b (ctrs h) 0 - cnt b S + cnt b L) -> Inv h' (F1 ++ L ++ F2).
Proof.
  intros I E1 E2 HT HLb HLh Hm HSf HLf Hbk Hlc Hct. constructor.
  - rewrite E1. exact HT.
  - rewrite E1. apply (I_apart _ _ I).
  - rewrite E1. apply (I_pos _ _ I).
  - assert (X := I_bkt _ _ I). rewrite !Forall_app in *. tauto.
  - assert (X := I_hdr _ _ I). rewrite !Forall_app in *. destruct X as [X1 [_ X3]].
    split; [|split; [exact HLh|]]; (eapply Forall_impl; [|eapply Forall_and; [eassumption|apply Forall_forall; intros y Hy; exact Hy]]); cbn beta; intros y [Hy Hin]; (eapply hdr_ok_ext; [apply Hm; apply in_app_iff; auto|exact Hy]).
  - rewrite Hbk. apply (I_lenb _ _ I).
  - intros b Hb. destruct (I_free _ _ I b Hb) as [l [Hc Hp]]. rewrite !frees_app in Hp. rewrite (frees_none b S HSf) in Hp. cbn [app] in Hp.
    exists l. split.
    + rewrite Hbk. eapply chain_ext; [|exact Hc]. intros a Ha. apply (Permutation_in _ Hp) in Ha. rewrite <- frees_app in Ha. apply in_frees in Ha. change a with (addr (a, b, Free)). apply Hm. exact Ha.
    + rewrite !frees_app, (frees_none b L HLf). exact Hp.
  - exact Hlc.
  - intros b Hb. rewrite (Hct b Hb), (I_ctr _ _ I b Hb), !cnt_app. lia.
  - rewrite E1, E2. apply (I_al _ _ I).
Qed.

Lemma mid_bkt h F1 x F2 : Inv h (F1 ++ x :: F2) -> mb <= Z.of_nat (bkt x) < 64.
Proof. intros I. assert (X := I_bkt _ _ I). rewrite Forall_forall in X. apply (X x). apply in_app_iff. right. left. reflexivity. Qed.
Lemma mid_hdr h F1 x F2 : Inv h (F1 ++ x :: F2) -> hdr_ok (mem h) x.
Proof. intros I. assert (X := I_hdr _ _ I). rewrite Forall_forall in X. apply (X x). apply in_app_iff. right. left. reflexivity. Qed.
Lemma mid_tiled h F1 x F2 s : Inv h (F1 ++ x :: F2) -> Tiled (chunks h) (F1 ++ [(addr x, bkt x, s)] ++ F2).
Proof. intros I. apply (Tiled_replace _ F1 x [(addr x, bkt x, s)] F2); [cbn; auto|apply (I_til _ _ I)]. Qed.

(** a detached block is cut in two *)
Lemma split_spec h F1 a b F2 : Inv h (F1 ++ (a, S b, Limbo) :: F2) -> mb <= Z.of_nat b -> Inv h (F1 ++ (a, b, Limbo) :: (a + BSZ b, b, Limbo) :: F2).
Proof.
  intros I Hb. assert (Hb2 := mid_bkt _ _ _ _ I). cbn [bkt fst snd] in Hb2.
  apply (Inv_change h h F1 [(a, S b, Limbo)] [(a, b, Limbo); (a + BSZ b, b, Limbo)] F2); auto.
  - apply (Tiled_replace _ F1 (a, S b, Limbo)); [|apply (I_til _ _ I)]. cbn [tiles addr bkt fst snd]. rewrite BSZ_S. split; [reflexivity|]. split; [reflexivity|]. lia.
  - constructor; [cbn [bkt fst snd]; lia|]. constructor; [cbn [bkt fst snd]; lia|constructor].
  - constructor; [exact Logic.I|]. constructor; [exact Logic.I|constructor].
  - intros x [<-|[]]. discriminate.
  - intros x [<-|[<-|[]]]; discriminate.
  - apply (I_lenc _ _ I).
  - intros b' Hb'. unfold cnt. cbn. lia.
Qed.
(** a detached block is handed out *)
Lemma use_spec h F1 a b F2 n c : Inv h (F1 ++ (a, b, Limbo) :: F2) -> rd (ctrs h) b = Ok c ->
  Inv (setm (setc h b (c + 1)) a (mkHdr KLive b n)) (F1 ++ (a, b, Used) :: F2).
Proof.
  intros I Hc. assert (Hb := mid_bkt _ _ _ _ I). cbn [bkt fst snd] in Hb. assert (ND := Inv_nodup _ _ I).
  assert (Hbl : (b < length (ctrs h))%nat) by (rewrite (I_lenc _ _ I); unfold NB; lia). rewrite rd_nth in Hc by exact Hbl. injection Hc as <-.
  apply (Inv_change h _ F1 [(a, b, Limbo)] [(a, b, Used)] F2); auto.
  - apply (mid_tiled h F1 (a, b, Limbo) F2 Used I).
  - constructor; [|constructor]. unfold hdr_ok. cbn. rewrite Z.eqb_refl. auto.
  - intros y Hy. cbn. destruct (Z.eqb_spec (addr y) a) as [E|]; [|reflexivity]. exfalso. apply (nodup_mid F1 F2 (a, b, Limbo) y ND Hy). exact E.
  - intros x [<-|[]]. discriminate.
  - intros x [<-|[]]. discriminate.
  - cbn. rewrite upd_length. apply (I_lenc _ _ I).
  - intros b' Hb'. cbn [ctrs setc setm]. rewrite nth_upd by exact Hbl. unfold cnt. cbn [filter isU stat snd bkt fst length]. destruct (Nat.eqb_spec b b') as [->|]; cbn [length]; lia.
Qed.
(** an object is released: its counter goes down and it is detached or stale *)
Lemma release_spec h F1 a b s F2 c s' h' : Inv h (F1 ++ (a, b, s) :: F2) -> s = Used \/ s = Dead -> rd (ctrs h) b = Ok c -> s' = Limbo \/ s' = Stale ->
  chunks h' = chunks h -> heapAlloc h' = heapAlloc h -> bkts h' = bkts h -> ctrs h' = upd (ctrs h) b (c - 1) -> (forall y, y <> a -> mem h' y = mem h y) ->
  (s' = Stale -> mem h' a = mkHdr KEmpty b (h_next (mem h a))) -> Inv h' (F1 ++ (a, b, s') :: F2).
Proof.
  intros I Hs Hc Hs' E1 E2 E3 E4 Em Ea. assert (Hb := mid_bkt _ _ _ _ I). cbn [bkt fst snd] in Hb. assert (ND := Inv_nodup _ _ I).
  assert (Hbl : (b < length (ctrs h))%nat) by (rewrite (I_lenc _ _ I); unfold NB; lia). rewrite rd_nth in Hc by exact Hbl. injection Hc as <-.
  apply (Inv_change h _ F1 [(a, b, s)] [(a, b, s')] F2); auto.
  - apply (mid_tiled h F1 (a, b, s) F2 s' I).
  - constructor; [|constructor]. unfold hdr_ok. cbn. destruct Hs' as [->| ->]; [exact Logic.I|]. rewrite Ea by reflexivity. cbn. auto.
  - intros y Hy. apply Em. apply (nodup_mid F1 F2 (a, b, s) y ND Hy).
  - intros x [<-|[]]. cbn. destruct Hs as [->| ->]; discriminate.
  - intros x [<-|[]]. cbn. destruct Hs' as [->| ->]; discriminate.
  - rewrite E4, upd_length. apply (I_lenc _ _ I).
  - intros b' Hb'. rewrite E4, nth_upd by exact Hbl. unfold cnt.
    destruct Hs as [->| ->], Hs' as [->| ->]; cbn [filter isU stat snd bkt fst length]; destruct (Nat.eqb_spec b b') as [->|]; cbn [length]; lia.
Qed.
(** an object is marked as released *)
Lemma dead_spec h F1 a b F2 : Inv h (F1 ++ (a, b, Used) :: F2) -> Inv (setm h a (mkHdr KFreed (h_bkt (mem h a)) (h_next (mem h a)))) (F1 ++ (a, b, Dead) :: F2).
Proof.
  intros I. assert (Hb := mid_bkt _ _ _ _ I). cbn [bkt fst snd] in Hb. assert (ND := Inv_nodup _ _ I). assert (Hh := mid_hdr _ _ _ _ I). cbn in Hh.
  apply (Inv_change h _ F1 [(a, b, Used)] [(a, b, Dead)] F2); auto.
  - apply (mid_tiled h F1 (a, b, Used) F2 Dead I).
  - constructor; [|constructor]. unfold hdr_ok. cbn. rewrite Z.eqb_refl. cbn. tauto.
  - intros y Hy. cbn. destruct (Z.eqb_spec (addr y) a) as [E|]; [|reflexivity]. exfalso. apply (nodup_mid F1 F2 (a, b, Used) y ND Hy). exact E.
  - intros x [<-|[]]. discriminate.
  - intros x [<-|[]]. discriminate.
  - apply (I_lenc _ _ I).
  - intros b' Hb'. unfold cnt. cbn [filter isU stat snd bkt fst length ctrs setm]. destruct (Nat.eqb b b'); cbn [length]; lia.
Qed.
(** the head of a free list is detached *)
Lemma pop_spec h bs b : Inv h bs -> (b < NB)%nat -> nth b (bkts h) 0 <> 0 ->
  exists F1 F2, let x := nth b (bkts h) 0 in bs = F1 ++ (x, b, Free) :: F2 /\ Inv (setb h b (h_next (mem h x))) (F1 ++ (x, b, Limbo) :: F2) /\ h_kind (mem h x) = KEmpty.
Proof.
  intros I Hb Hx. set (x := nth b (bkts h) 0) in *. destruct (I_free _ _ I b Hb) as [l [Hc Hp]]. fold x in Hc.
  destruct l as [|y l]; cbn [chain] in Hc; [congruence|]. destruct Hc as [Ey [_ Hc]]. subst y.
  assert (Hin : In (x, b, Free) bs) by (apply in_frees; apply (Permutation_in _ Hp); left; reflexivity).
  destruct (in_split _ _ Hin) as [F1 [F2 E]]. exists F1, F2. cbv zeta. split; [exact E|]. subst bs. assert (ND := Inv_nodup _ _ I).
  assert (Hh := mid_hdr _ _ _ _ I). cbn in Hh. split; [|tauto].
  assert (Hp' : Permutation l (frees b F1 ++ frees b F2)).
  { rewrite frees_app in Hp. unfold frees at 2 in Hp. cbn [filter] in Hp. unfold isF at 1 in Hp. cbn [stat snd bkt fst] in Hp. rewrite Nat.eqb_refl in Hp. cbn [map addr fst] in Hp. eapply Permutation_cons_app_inv. exact Hp. }
  constructor; cbn [setb mem bkts ctrs chunks heapAlloc].
  - apply (mid_tiled h F1 (x, b, Free) F2 Limbo I).
  - apply (I_apart _ _ I).
  - apply (I_pos _ _ I).
  - assert (X := I_bkt _ _ I). rewrite Forall_app in *. destruct X as [X1 X2]. split; [exact X1|]. inversion X2; subst. constructor; assumption.
  - assert (X := I_hdr _ _ I). rewrite Forall_app in *. destruct X as [X1 X2]. split; [exact X1|]. inversion X2; subst. constructor; [exact Logic.I|assumption].
  - rewrite upd_length. apply (I_lenb _ _ I).
  - intros b' Hb'. rewrite nth_upd by (rewrite (I_lenb _ _ I); exact Hb). rewrite frees_app. unfold frees at 2. cbn [filter]. unfold isF at 1. cbn [stat snd].
    destruct (Nat.eqb_spec b b') as [<-|N].
    + exists l. split; [exact Hc|exact Hp'].
    + destruct (I_free _ _ I b' Hb') as [l' [Hc' Hq]]. exists l'. split; [exact Hc'|]. rewrite frees_app in Hq. unfold frees at 2 in Hq. cbn [filter] in Hq. unfold isF at 1 in Hq. cbn [stat snd bkt fst] in Hq.
      destruct (Nat.eqb_spec b b'); [congruence|exact Hq].
  - apply (I_lenc _ _ I).
  - intros b' Hb'. rewrite (I_ctr _ _ I b' Hb'), !cnt_app. reflexivity.
  - apply (I_al _ _ I).
Qed.

(** * splitTo *)
Definition limbo_kind (h : heap) (a : Z) : Prop := h_kind (mem h a) = KEmpty.
Lemma split_loop_spec : forall n h F1 a from F2, Inv h (F1 ++ (a, from, Limbo) :: F2) -> limbo_kind h a -> (n <= from)%nat -> mb <= Z.of_nat (from - n) ->
  exists h' L, split_loop MUL n h a from = Ok h' /\ Inv h' (F1 ++ (a, (from - n)%nat, Limbo) :: L ++ F2) /\ limbo_kind h' a /\ same_rest h h' /\ ctrs h' = ctrs h /\
    Forall (fun x => stat x = Free) L /\ Fr (useds (F1 ++ F2)) (mem h) (mem h').
Proof.
  induction n as [|n IH]; intros h F1 a from F2 I Hk Hn Hm; cbn [split_loop].
  - exists h, []. rewrite Nat.sub_0_r. split; [reflexivity|]. split; [exact I|]. split; [exact Hk|]. split; [apply same_rest_refl|]. split; [reflexivity|]. split; [constructor|apply Fr_refl].
  - destruct from as [|from]; [lia|]. replace (S from - 1)%nat with from by lia. cbn [Nat.sub] in Hm.
    assert (I2 := split_spec _ _ _ _ _ I ltac:(lia)).
    assert (I2' : Inv h ((F1 ++ [(a, from, Limbo)]) ++ (a + BSZ from, from, Limbo) :: F2)) by (rewrite <- app_assoc; exact I2).
    destruct (push_spec _ _ _ _ _ I2') as [h1 [E1 [I1 [R1 [C1 M1]]]]]. rewrite Z.add_comm. rewrite E1. cbn [bind]. rewrite <- app_assoc in I1. cbn [app] in I1.
    destruct (IH h1 F1 a from ((a + BSZ from, from, Free) :: F2) I1) as [h2 [L [E2 [I3 [K3 [R3 [C3 [F3 Fr3]]]]]]]]; [|lia|lia|].
    + unfold limbo_kind. rewrite M1; [exact Hk|]. assert (X := BSZ_pos from). lia.
    + exists h2, (L ++ [(a + BSZ from, from, Free)]). split; [exact E2|]. cbn [Nat.sub]. split; [rewrite <- app_assoc; exact I3|]. split; [exact K3|].
      split; [eapply same_rest_trans; eassumption|]. split; [congruence|]. split; [apply Forall_app; split; [exact F3|]; constructor; [reflexivity|constructor]|].
      rewrite useds_skip in Fr3 by discriminate. eapply Fr_trans; [|exact Fr3]. assert (X := Fr_one _ _ _ _ _ _ _ I2' ltac:(discriminate) M1). rewrite useds_skip, <- app_assoc in X by discriminate. cbn [app] in X. rewrite useds_skip in X by discriminate. exact X.
Qed.
Lemma splitTo_spec h F1 a from to F2 : Inv h (F1 ++ (a, from, Limbo) :: F2) -> limbo_kind h a -> (to <= from)%nat -> mb <= Z.of_nat to ->
  exists h' L, splitTo MUL h a from to = Ok h' /\ Inv h' (F1 ++ (a, to, Free) :: L ++ F2) /\ same_rest h h' /\ ctrs h' = ctrs h /\ Forall (fun x => stat x = Free) L /\ Fr (useds (F1 ++ F2)) (mem h) (mem h').
Proof.
  intros I Hk Hle Hm. unfold splitTo. destruct (split_loop_spec (from - to) h F1 a from F2 I Hk) as [h1 [L [E1 [I1 [K1 [R1 [C1 [HL Fr1]]]]]]]]; [lia|replace (from - (from - to))%nat with to by lia; exact Hm|].
  rewrite E1. cbn [bind]. replace (from - (from - to))%nat with to in I1 by lia. unfold limbo_kind in K1. rewrite K1.
  destruct (push_spec _ _ _ _ _ I1) as [h2 [E2 [I2 [R2 [C2 M2]]]]]. exists h2, L. split; [exact E2|]. split; [exact I2|]. split; [eapply same_rest_trans; eassumption|]. split; [congruence|]. split; [exact HL|].
  eapply Fr_trans; [exact Fr1|]. eapply Fr_incl; [|exact (Fr_one _ _ _ _ _ _ _ I1 ltac:(discriminate) M2)]. rewrite useds_skip by discriminate. rewrite !useds_app. intros z Hz. rewrite !in_app_iff in *. tauto.
Qed.
Lemma nth_after_push h F1 a b F2 h' : Inv h (F1 ++ (a, b, Free) :: F2) -> (b < NB)%nat -> h' = h -> nth b (bkts h) 0 <> 0.
Proof.
  intros I Hb _ E. destruct (I_free _ _ I b Hb) as [l [Hc Hp]]. rewrite E in Hc. destruct l as [|y l]; [|cbn in Hc; destruct Hc as [A [B _]]; congruence].
  apply Permutation_nil in Hp. assert (X : In a (frees b (F1 ++ (a, b, Free) :: F2))) by (apply in_frees; apply in_app_iff; right; left; reflexivity). rewrite Hp in X. destruct X.
Qed.
Lemma take_spec h bs b : Inv h bs -> (b < NB)%nat -> nth b (bkts h) 0 <> 0 ->
  exists h' a F1 F2, take h b = Ok (h', a) /\ bs = F1 ++ (a, b, Free) :: F2 /\ Inv h' (F1 ++ (a, b, Used) :: F2) /\ same_rest h h' /\ Fr (useds bs) (mem h) (mem h').
Proof.
  intros I Hb Hx. unfold take. rewrite rd_nth by (rewrite (I_lenb _ _ I); exact Hb). cbn [bind]. destruct (pop_spec _ _ _ I Hb Hx) as [F1 [F2 [E [I1 K1]]]].
  destruct (Z.eqb_spec (nth b (bkts h) 0) 0); [congruence|]. set (x := nth b (bkts h) 0) in *. cbn [setb ctrs mem]. rewrite rd_nth by (rewrite (I_lenc _ _ I); exact Hb). cbn [bind].
  eexists _, x, F1, F2. split; [reflexivity|]. split; [exact E|]. split; [|split; [unfold same_rest; cbn; auto|]].
  - apply use_spec; [exact I1|]. cbn. apply rd_nth. rewrite (I_lenc _ _ I). exact Hb.
  - rewrite E in I |- *. apply (Fr_one _ _ _ _ _ _ _ I); [discriminate|]. intros y Hy. cbn. destruct (Z.eqb_spec y x); [congruence|reflexivity].
Qed.

(** * binary decomposition of a range *)
Lemma odd_dec p : exists k q, 0 <= k /\ 0 <= q /\ Z.pos p = 2 ^ k * (2 * q + 1).
Proof.
  induction p as [p IH|p IH|].
  - exists 0, (Z.pos p). split; [lia|]. split; [lia|]. rewrite Z.pow_0_r. lia.
  - destruct IH as [k [q [Hk [Hq E]]]]. exists (k + 1), q. split; [lia|]. split; [lia|]. rewrite Pos2Z.inj_xO, E, Z.pow_add_r by lia. change (2^1) with 2. ring.
  - exists 0, 0. split; [lia|]. split; [lia|]. reflexivity.
Qed.
Lemma tb_hi k a r i : 0 <= k -> 0 <= r < 2 ^ k -> 0 <= i -> Z.testbit (2 ^ k * a + r) i = if i <? k then Z.testbit r i else Z.testbit a (i - k).
Proof.
  intros Hk Hr Hi. assert (0 < 2 ^ k) by lia. destruct (Z.ltb_spec i k).
  - rewrite <- (Z.mod_pow2_bits_low _ k) by lia. rewrite Z.add_comm, Z.mul_comm, Z.mod_add by lia. rewrite Z.mod_small by lia. reflexivity.
  - replace i with ((i - k) + k) at 1 by lia. rewrite <- Z.div_pow2_bits by lia. rewrite Z.mul_comm, Z.div_add_l by lia. rewrite Z.div_small by lia. rewrite Z.add_0_r. reflexivity.
Qed.
Lemma low_bit size : 0 < size -> exists k q, 0 <= k /\ 0 <= q /\ size = 2 ^ k * (2 * q + 1) /\ Z.land size (size - 1) = 2 ^ (k + 1) * q /\ Z.lxor size (2 ^ (k + 1) * q) = 2 ^ k.
Proof.
  intros H. destruct size as [|p|p]; try lia. destruct (odd_dec p) as [k [q [Hk [Hq E]]]]. exists k, q. rewrite E. split; [exact Hk|]. split; [exact Hq|]. split; [reflexivity|].
  assert (0 < 2 ^ k) by (apply Z.pow_pos_nonneg; lia). assert (E2 : 2 ^ (k + 1) * q = 2 ^ k * (2 * q) + 0) by (rewrite Z.pow_add_r by lia; change (2^1) with 2; ring).
  rewrite E2. replace (2 ^ k * (2 * q + 1)) with (2 ^ k * (2 * q + 1) + 0) by lia. split; apply Z.bits_inj'; intros i Hi.
  - rewrite Z.land_spec. replace (2 ^ k * (2 * q + 1) + 0 - 1) with (2 ^ k * (2 * q) + (2 ^ k - 1)) by ring. rewrite !tb_hi by lia.
    destruct (i <? k); [rewrite Z.testbit_0_l; reflexivity|]. destruct (Z.eq_dec (i - k) 0) as [->|N]; [rewrite Z.testbit_odd_0, Z.testbit_even_0; reflexivity|].
    replace (i - k) with (Z.succ (Z.pred (i - k))) by lia. destruct (Z_le_gt_dec 0 (Z.pred (i - k))); [rewrite Z.testbit_odd_succ, Z.testbit_even_succ by lia; apply andb_diag|rewrite !Z.testbit_neg_r with (n := Z.succ _) by lia; reflexivity].
  - rewrite Z.lxor_spec, !tb_hi by lia. replace (2 ^ k) with (2 ^ k * 1 + 0) by lia. rewrite tb_hi by lia.
    destruct (i <? k); [rewrite Z.testbit_0_l; reflexivity|]. destruct (Z.eq_dec (i - k) 0) as [->|N]; [rewrite Z.testbit_odd_0, Z.testbit_even_0; reflexivity|].
    replace (i - k) with (Z.succ (Z.pred (i - k))) by lia. destruct (Z_le_gt_dec 0 (Z.pred (i - k))); [|rewrite !Z.testbit_neg_r with (n := Z.succ _) by lia; reflexivity].
    rewrite Z.testbit_odd_succ, Z.testbit_even_succ by lia. rewrite xorb_nilpotent. change 1 with (2 * 0 + 1). rewrite Z.testbit_odd_succ by lia. symmetry. apply Z.testbit_0_l.
Qed.
Fixpoint lows (n : nat) (start size : Z) : list blk :=
  if size =? 0 then [] else
  match n with
  | O => []
  | S n => let left := Z.land size (size - 1) in let curr := Z.lxor size left in (start, Z.to_nat (63 - CLZ64 curr), Limbo) :: lows n (start + curr * MUL) left
  end.
Lemma lows_spec : forall n start size, (n <= 64)%nat -> 0 <= size < 2 ^ 64 -> (2 ^ (64 - Z.of_nat n) | size) -> (2 ^ mb | size) ->
  tiles start (start + size * MUL) (lows n start size) /\ Forall (fun x => mb <= Z.of_nat (bkt x) < 64) (lows n start size) /\ Forall (fun x => stat x = Limbo) (lows n start size).
Proof.
  assert (Hmb : 0 <= mb) by (unfold mb; destruct (MUL =? 1); lia).
  induction n as [|n IH]; intros start size Hn Hs D1 D2; cbn [lows]; destruct (Z.eqb_spec size 0) as [->|N].
  - cbn [tiles]. split; [lia|]. split; constructor.
  - exfalso. cbn [Z.of_nat] in D1. rewrite Z.sub_0_r in D1. destruct D1 as [q Eq]. nia.
  - cbn [tiles]. split; [lia|]. split; constructor.
  - destruct (low_bit size) as [k [q [Hk [Hq [E [E1 E2]]]]]]; [lia|]. cbv zeta. rewrite E1, E2. assert (P : 0 < 2 ^ k) by (apply Z.pow_pos_nonneg; lia).
    assert (K : forall j, 0 <= j -> (2 ^ j | size) -> j <= k).
    { intros j Hj [r Er]. destruct (Z_le_gt_dec j k) as [|G]; [assumption|]. exfalso. replace j with (k + 1 + (j - k - 1)) in Er by lia. rewrite !Z.pow_add_r in Er by lia. change (2^1) with 2 in Er.
      rewrite E in Er. assert (X : 2 * q + 1 = r * (2 * 2 ^ (j - k - 1))) by (apply (Z.mul_cancel_l _ _ (2 ^ k)); [lia|]; rewrite Er; ring). lia. }
    assert (K1 := K (64 - Z.of_nat (S n)) ltac:(lia) D1). assert (K2 := K _ Hmb D2).
    assert (Kl : k < 64). { destruct (Z_lt_ge_dec k 64); [assumption|]. exfalso. assert (2 ^ 64 <= 2 ^ k) by (apply Z.pow_le_mono_r; lia). nia. }
    assert (EL : Z.to_nat (63 - CLZ64 (2 ^ k)) = Z.to_nat k) by (unfold CLZ64; rewrite Z.log2_pow2 by lia; f_equal; lia). rewrite EL.
    assert (E3 : size = 2 ^ k + 2 ^ (k + 1) * q) by (rewrite E, Z.pow_add_r by lia; change (2^1) with 2; ring).
    assert (0 <= 2 ^ (k + 1) * q) by (assert (0 < 2 ^ (k + 1)) by (apply Z.pow_pos_nonneg; lia); nia).
    assert (DD : forall j, 0 <= j <= k + 1 -> (2 ^ j | 2 ^ (k + 1) * q)).
    { intros j Hj. exists (2 ^ (k + 1 - j) * q). replace (k + 1) with (j + (k + 1 - j)) at 1 by lia. rewrite Z.pow_add_r by lia. ring. }
    destruct (IH (start + 2 ^ k * MUL) (2 ^ (k + 1) * q)) as [A [B C]]; [lia|lia|apply DD; lia|apply DD; lia|].
    split; [|split].
    + cbn [tiles addr bkt fst snd]. split; [reflexivity|]. unfold BuddyModel.BSZ. rewrite Z2Nat.id by lia. replace (start + MUL * 2 ^ k) with (start + 2 ^ k * MUL) by ring. replace (start + size * MUL) with (start + 2 ^ k * MUL + 2 ^ (k + 1) * q * MUL) by (rewrite E3; ring). exact A.
    + constructor; [cbn [bkt fst snd]; lia|exact B].
    + constructor; [reflexivity|exact C].
Qed.
Definition toF (x : blk) : blk := (addr x, bkt x, Free).
Lemma tiles_map f l : (forall x, addr (f x) = addr x /\ bkt (f x) = bkt x) -> forall p e, tiles p e l -> tiles p e (map f l).
Proof.
  intros Hf. induction l as [|x l IH]; intros p e H; [exact H|]. cbn [map tiles] in *. destruct (Hf x) as [-> ->]. destruct H as [A B]. split; [exact A|]. apply IH. exact B.
Qed.
Lemma cut_loop_spec : forall n h F1 F2 start size, (n <= 64)%nat -> 0 <= size < 2 ^ 64 -> (2 ^ (64 - Z.of_nat n) | size) ->
  Inv h (F1 ++ lows n start size ++ F2) ->
  exists h', cut_loop MUL n h start size = Ok h' /\ Inv h' (F1 ++ map toF (lows n start size) ++ F2) /\ same_rest h h' /\ (forall y, In y (F1 ++ F2) -> mem h' (addr y) = mem h (addr y)) /\ Fr (useds (F1 ++ F2)) (mem h) (mem h').
Proof.
  induction n as [|n IH]; intros h F1 F2 start size Hn Hs D1 I; cbn [lows cut_loop] in *; destruct (Z.eqb_spec size 0) as [->|N].
  - exists h. split; [reflexivity|]. split; [exact I|]. split; [apply same_rest_refl|]. split; [auto|apply Fr_refl].
  - exfalso. cbn [Z.of_nat] in D1. rewrite Z.sub_0_r in D1. destruct D1 as [q Eq]. nia.
  - exists h. split; [reflexivity|]. split; [exact I|]. split; [apply same_rest_refl|]. split; [auto|apply Fr_refl].
  - cbv zeta in *. set (left := Z.land size (size - 1)) in *. set (curr := Z.lxor size left) in *. set (b := Z.to_nat (63 - CLZ64 curr)) in *. cbn [app] in I. assert (ND := Inv_nodup _ _ I).
    destruct (push_spec _ _ _ _ _ I) as [h1 [E1 [I1 [R1 [C1 M1]]]]]. rewrite E1. cbn [bind].
    assert (I1' : Inv h1 ((F1 ++ [(start, b, Free)]) ++ lows n (start + curr * MUL) left ++ F2)) by (rewrite <- app_assoc; exact I1).
    assert (G2 : 0 <= left < 2 ^ 64).
    { destruct (low_bit size) as [k [q [Hk [Hq [E [Ea Eb]]]]]]; [lia|]. unfold left. rewrite Ea.
      assert (0 < 2 ^ (k + 1)) by (apply Z.pow_pos_nonneg; lia). assert (0 < 2 ^ k) by (apply Z.pow_pos_nonneg; lia). rewrite Z.pow_add_r in * by lia. change (2^1) with 2 in *. nia. }
    assert (G3 : (2 ^ (64 - Z.of_nat n) | left)).
    { destruct (low_bit size) as [k [q [Hk [Hq [E [Ea Eb]]]]]]; [lia|]. unfold left. rewrite Ea. assert (P : 0 < 2 ^ k) by (apply Z.pow_pos_nonneg; lia).
      assert (64 - Z.of_nat (S n) <= k).
      { destruct D1 as [r Er]. destruct (Z_le_gt_dec (64 - Z.of_nat (S n)) k) as [|G]; [assumption|]. exfalso. set (j := 64 - Z.of_nat (S n)) in *. replace j with (k + 1 + (j - k - 1)) in Er by lia. rewrite !Z.pow_add_r in Er by lia. change (2^1) with 2 in Er.
        rewrite E in Er. assert (X : 2 * q + 1 = r * (2 * 2 ^ (j - k - 1))) by (apply (Z.mul_cancel_l _ _ (2 ^ k)); [lia|]; rewrite Er; ring). lia. }
      exists (2 ^ (k + 1 - (64 - Z.of_nat n)) * q). replace (k + 1) with ((64 - Z.of_nat n) + (k + 1 - (64 - Z.of_nat n))) at 1 by lia. rewrite Z.pow_add_r by lia. ring. }
    destruct (IH h1 _ F2 _ _ ltac:(lia) G2 G3 I1') as [h2 [E2 [I2 [R2 [M2 Fr2]]]]].
    exists h2. split; [exact E2|]. split; [cbn [map app]; rewrite <- app_assoc in I2; exact I2|]. split; [eapply same_rest_trans; eassumption|].
      split. { intros y Hy. rewrite M2 by (apply in_app_iff in Hy; rewrite !in_app_iff; tauto). apply M1. apply (nodup_mid F1 (lows n (start + curr * MUL) left ++ F2) (start, b, Limbo) y ND). apply in_app_iff in Hy. rewrite !in_app_iff. tauto. }
      assert (Fr1 := Fr_one _ _ _ _ _ _ _ I ltac:(discriminate) M1). eapply Fr_trans; [eapply Fr_incl; [|exact Fr1]|eapply Fr_incl; [|exact Fr2]]; rewrite !useds_app; intros z Hz; rewrite !in_app_iff in *; [|tauto].
      destruct Hz as [Hz|Hz]; [left; exact Hz|right]. unfold useds in *. cbn [filter]. change (isUsed (start, b, Limbo)) with false. rewrite filter_app, map_app, in_app_iff. auto.
Qed.
Definition esz (l : list blk) : Z := fold_right (fun x s => 2 ^ Z.of_nat (bkt x) + s) 0 l.
Lemma esz_app l1 l2 : esz (l1 ++ l2) = esz l1 + esz l2.
Proof. unfold esz. induction l1 as [|x l1 IH]; cbn [fold_right app]; lia. Qed.
Lemma esz_tiles : forall l s e, tiles s e l -> e - s = MUL * esz l.
Proof. induction l as [|x l IH]; intros s e H; cbn [tiles esz fold_right] in *; [lia|]. destruct H as [_ H]. apply IH in H. unfold BuddyModel.BSZ, esz in H. lia. Qed.
Lemma esz_div l : Forall (fun x => mb <= Z.of_nat (bkt x) < 64) l -> (2 ^ mb | esz l).
Proof.
  assert (Hmb : 0 <= mb) by (unfold mb; destruct (MUL =? 1); lia).
  induction 1 as [|x l Hx _ IH]; [exists 0; reflexivity|]. cbn [esz fold_right]. apply Z.divide_add_r; [|exact IH].
  exists (2 ^ (Z.of_nat (bkt x) - mb)). rewrite <- Z.pow_add_r by lia. f_equal. lia.
Qed.
Lemma esz_pos l : 0 <= esz l.
Proof. induction l as [|x l IH]; cbn [esz fold_right]; [lia|]. unfold esz in IH. assert (0 < 2 ^ Z.of_nat (bkt x)) by (apply Z.pow_pos_nonneg; lia). lia. Qed.
Lemma esz_pos' l : l <> [] -> 0 < esz l.
Proof. destruct l as [|x l]; [congruence|]. intros _. assert (X := esz_pos l). cbn [esz fold_right]. unfold esz in X. assert (0 < 2 ^ Z.of_nat (bkt x)) by (apply Z.pow_pos_nonneg; lia). lia. Qed.
Lemma tiles_small h bs F1 S' F2 s c : Inv h bs -> bs = F1 ++ S' ++ F2 -> tiles s c S' -> S' <> [] -> (exists ci, In ci (chunks h) /\ fst ci <= s /\ c <= fst ci + snd ci) -> c - s < 2 ^ 49.
Proof.
  intros I _ _ _ [ci [Hci [A B]]]. assert (P := I_pos _ _ I). rewrite Forall_forall in P. specialize (P _ Hci). unfold PAD in P. change (2^48) with 281474976710656 in P. change (2^49) with 562949953421312. lia.
Qed.

Lemma cut_spec h F1 S' F2 s c : Inv h (F1 ++ S' ++ F2) -> Forall (fun x => stat x = Stale) S' -> tiles s c S' -> c - s < 2 ^ 49 ->
  (forall L, tiles s c L -> Tiled (chunks h) (F1 ++ L ++ F2)) ->
  exists h' L, cut MUL h c (esz S') = Ok h' /\ Inv h' (F1 ++ L ++ F2) /\ tiles s c L /\ Forall (fun x => stat x = Free) L /\ same_rest h h' /\
    (forall y, In y (F1 ++ F2) -> mem h' (addr y) = mem h (addr y)) /\ Fr (useds (F1 ++ F2)) (mem h) (mem h').
Proof.
  intros I HS Ht Hc HT. assert (Es := esz_tiles _ _ _ Ht). assert (P := esz_pos S').
  assert (Hb : Forall (fun x => mb <= Z.of_nat (bkt x) < 64) S') by (assert (X := I_bkt _ _ I); rewrite !Forall_app in X; tauto).
  assert (Hsz : 0 <= esz S' < 2 ^ 64) by (change (2^49) with 562949953421312 in Hc; change (2^64) with 18446744073709551616; destruct HM as [-> | ->]; lia).
  destruct (lows_spec 64 s (esz S')) as [A [B C]]; [lia|exact Hsz|exists (esz S'); change (64 - Z.of_nat 64) with 0; rewrite Z.pow_0_r; lia|apply esz_div; exact Hb|].
  replace (s + esz S' * MUL) with c in A by lia. set (L := lows 64 s (esz S')) in *.
  assert (I1 : Inv h (F1 ++ L ++ F2)).
  { apply (Inv_change h h F1 S' L F2); auto.
    - eapply Forall_impl; [|exact C]. cbn beta. intros x Hx. unfold hdr_ok. rewrite Hx. exact Logic.I.
    - intros x Hx. rewrite Forall_forall in HS. rewrite (HS _ Hx). discriminate.
    - intros x Hx. rewrite Forall_forall in C. rewrite (C _ Hx). discriminate.
    - apply (I_lenc _ _ I).
    - intros b Hb'. rewrite !cnt_none; [lia| |]; intros x Hx; rewrite Forall_forall in HS, C; [rewrite (C _ Hx)|rewrite (HS _ Hx)]; split; discriminate. }
  unfold cut. replace (c - esz S' * MUL) with s by lia.
  destruct (cut_loop_spec 64 h F1 F2 s (esz S')) as [h' [E [I' [R M]]]]; [lia|exact Hsz|exists (esz S'); change (64 - Z.of_nat 64) with 0; rewrite Z.pow_0_r; lia|exact I1|].
  exists h', (map toF L). split; [exact E|]. split; [exact I'|]. split; [apply tiles_map; [intros; split; reflexivity|exact A]|]. split; [apply Forall_map; apply Forall_forall; intros; reflexivity|]. auto.
Qed.

(** * merging *)
Ltac inc := let za := fresh in let zb := fresh in let Hz := fresh in intros [za zb] Hz; rewrite !in_useds in *; rewrite !in_app_iff in *; cbn [In] in *; rewrite ?in_app_iff in *; cbn [In] in *; intuition congruence.
Definition mergeable (x : blk) : Prop := stat x = Stale \/ stat x = Used \/ stat x = Dead.
Definition settled (x : blk) : Prop := stat x = Free \/ stat x = Used.
Lemma useds_none l : (forall x, In x l -> stat x <> Used) -> useds l = [].
Proof.
  unfold useds. induction l as [|x l IH]; intros H; [reflexivity|]. cbn [filter]. assert (X := H x (or_introl eq_refl)). unfold isUsed at 1. destruct (stat x); try congruence; apply IH; intros y Hy; apply H; right; exact Hy.
Qed.
Lemma tiles_length l : Forall (fun x => mb <= Z.of_nat (bkt x) < 64) l -> forall s e, tiles s e l -> 16 * Z.of_nat (length l) <= e - s.
Proof.
  induction 1 as [|x l Hx _ IH]; intros s e H; cbn [tiles length] in *; [lia|]. destruct H as [_ H]. apply IH in H. assert (X := BSZ_16 (bkt x)). lia.
Qed.
Lemma cut_stale_spec h F1 S' F2 s c : Inv h (F1 ++ S' ++ F2) -> Forall (fun x => stat x = Stale) S' -> tiles s c S' -> c - s < 2 ^ 49 ->
  (forall L, tiles s c L -> Tiled (chunks h) (F1 ++ L ++ F2)) ->
  exists h' L, (if 0 <? esz S' then do h <- cut MUL h c (esz S'); Ok (h, 0) else Ok (h, esz S')) = Ok (h', 0) /\ Inv h' (F1 ++ L ++ F2) /\ tiles s c L /\ Forall (fun x => stat x = Free) L /\ same_rest h h' /\
    (forall y, In y (F1 ++ F2) -> mem h' (addr y) = mem h (addr y)) /\ Fr (useds (F1 ++ F2)) (mem h) (mem h').
Proof.
  intros I HS Ht Hc HT. destruct (Z.ltb_spec 0 (esz S')) as [H|H].
  - destruct (cut_spec _ _ _ _ _ _ I HS Ht Hc HT) as [h' [L [E R]]]. exists h', L. rewrite E. split; [reflexivity|exact R].
  - destruct S' as [|x S']; [|exfalso; assert (X := esz_pos' (x :: S') ltac:(discriminate)); lia]. exists h, []. split; [reflexivity|]. split; [exact I|]. split; [exact Ht|]. split; [constructor|]. split; [apply same_rest_refl|]. split; [auto|apply Fr_refl].
Qed.
Lemma merge_loop_spec : forall n h F1 S' R F2 s c e, (length R <= n)%nat -> R <> [] -> Inv h (F1 ++ S' ++ R ++ F2) -> Forall (fun x => stat x = Stale) S' -> Forall mergeable R ->
  tiles s c S' -> tiles c e R -> e - s < 2 ^ 49 -> (forall L, tiles s e L -> Tiled (chunks h) (F1 ++ L ++ F2)) ->
  exists h' R', merge_loop MUL n h c e (esz S') = Ok h' /\ Inv h' (F1 ++ R' ++ F2) /\ tiles s e R' /\ Forall settled R' /\ useds R' = useds R /\ same_rest h h' /\ Fr (useds (F1 ++ R ++ F2)) (mem h) (mem h').
Proof.
  induction n as [|n IH]; intros h F1 S' R F2 s c e Hn HR I HS HRm Hts Htr Hsz HT; destruct R as [|[[a b] stx] R]; try congruence; [cbn in Hn; lia|].
  cbn [length] in Hn. cbn [tiles] in Htr. destruct Htr as [Ea Htr]. cbn [addr bkt fst snd] in Ea, Htr. subst a. inversion HRm as [|? ? Hx HRm']; subst.
  assert (Hsc := tiles_le _ _ _ Hts). assert (Hce := tiles_le _ _ _ Htr). assert (Hbp := BSZ_pos b).
  cbn [merge_loop].
  assert (Case1 : exists h1 st1, (match h_kind (mem h c) with KFreed => freeLink h c false | _ => Ok h end) = Ok h1 /\ Inv h1 (F1 ++ S' ++ ((c, b, st1) :: R) ++ F2) /\ same_rest h h1 /\ Fr (useds (F1 ++ S' ++ (c, b, stx) :: R ++ F2)) (mem h) (mem h1) /\
     ((st1 = Stale /\ stx <> Used) \/ (st1 = Used /\ stx = Used))).
  { assert (I0 : Inv h ((F1 ++ S') ++ (c, b, stx) :: R ++ F2)) by (rewrite <- app_assoc; exact I). assert (Hh := mid_hdr _ _ _ _ I0). unfold hdr_ok in Hh. cbn [stat addr bkt snd fst] in Hh.
    destruct Hx as [Hx|[Hx|Hx]]; cbn [stat snd] in Hx; subst stx; destruct Hh as [Hb Hk]; rewrite Hk.
    - exists h, Stale. split; [reflexivity|]. split; [exact I|]. split; [apply same_rest_refl|]. split; [apply Fr_refl|]. left. split; [reflexivity|discriminate].
    - exists h, Used. split; [reflexivity|]. split; [exact I|]. split; [apply same_rest_refl|]. split; [apply Fr_refl|]. auto.
    - assert (Hbb := mid_bkt _ _ _ _ I0). cbn [bkt fst snd] in Hbb. unfold freeLink. rewrite Hb. rewrite rd_nth by (rewrite (I_lenc _ _ I); unfold NB; lia). cbn [bind].
      eexists _, Stale. split; [reflexivity|]. split; [|split; [unfold same_rest; cbn; auto|split; [|left; split; [reflexivity|discriminate]]]].
      assert (G : Inv (setm (setc h b (nth b (ctrs h) 0 - 1)) c (mkHdr KEmpty b (h_next (mem h c)))) ((F1 ++ S') ++ (c, b, Stale) :: R ++ F2)).
      { eapply (release_spec h (F1 ++ S') c b Dead (R ++ F2) _ Stale); [exact I0|auto|apply rd_nth; rewrite (I_lenc _ _ I); unfold NB; lia|auto|reflexivity|reflexivity|reflexivity|reflexivity| |].
        - intros y Hy. cbn. destruct (Z.eqb_spec y c); [congruence|reflexivity].
        - intros _. cbn. rewrite Z.eqb_refl. reflexivity. }
      { rewrite <- app_assoc in G. exact G. }
      rewrite app_assoc. apply (Fr_one _ _ _ _ _ _ _ I0); [discriminate|]. intros y Hy. cbn. destruct (Z.eqb_spec y c); [congruence|reflexivity]. }
  destruct Case1 as [h1 [st1 [E1 [I1 [R1 [Fr1 Hst]]]]]]. rewrite E1. cbn [bind].
  assert (I1' : Inv h1 ((F1 ++ S') ++ (c, b, st1) :: R ++ F2)) by (rewrite <- app_assoc; exact I1). assert (Hh := mid_hdr _ _ _ _ I1'). unfold hdr_ok in Hh. cbn [stat addr bkt snd fst] in Hh.
  assert (Ech : chunks h1 = chunks h) by (apply R1).
  destruct Hst as [[-> Hnu]|[-> ->]]; destruct Hh as [Hb Hk]; rewrite Hb, Hk.
  - (* empty: the run grows *)
    cbn [bind]. rewrite (Z.add_comm (BSZ b) c).
    assert (Hes : esz S' + 2 ^ Z.of_nat b = esz (S' ++ [(c, b, Stale)])) by (rewrite esz_app; cbn [esz fold_right bkt fst snd]; lia). rewrite Hes.
    assert (Ht2 : tiles s (c + BSZ b) (S' ++ [(c, b, Stale)])) by (apply tiles_app; exists c; split; [exact Hts|]; cbn; auto).
    assert (HS2 : Forall (fun x => stat x = Stale) (S' ++ [(c, b, Stale)])) by (apply Forall_app; split; [exact HS|]; constructor; [reflexivity|constructor]).
    assert (I2 : Inv h1 (F1 ++ (S' ++ [(c, b, Stale)]) ++ R ++ F2)) by (rewrite <- !app_assoc; exact I1).
    assert (Eu : useds (@cons blk (c, b, stx) R) = useds R) by (unfold useds; cbn [filter]; unfold isUsed at 1; cbn [stat snd]; destruct stx; try reflexivity; congruence). rewrite Eu.
    destruct (Z.eqb_spec (c + BSZ b) e) as [Ee|Ne].
    + destruct R as [|y R]; [|exfalso; apply tiles_lt in Htr; [lia|discriminate]].
      destruct (Z.eqb_spec (esz (S' ++ [(c, b, Stale)])) 0) as [E0|_]; [exfalso; assert (X := esz_pos' (S' ++ [(c, b, Stale)]) ltac:(destruct S'; discriminate)); lia|].
      cbn [app] in I2. rewrite Ee in *. destruct (cut_spec h1 F1 (S' ++ [(c, b, Stale)]) F2 s e I2 HS2 Ht2 Hsz) as [h2 [L [E2 [I3 [T3 [F3 [R3 [_ Fr3]]]]]]]]; [intros L HL; rewrite Ech; apply HT; exact HL|].
      exists h2, L. split; [exact E2|]. split; [exact I3|]. split; [exact T3|]. split; [eapply Forall_impl; [|exact F3]; intros y Hy; left; exact Hy|].
      split; [apply useds_none; intros y Hy; rewrite Forall_forall in F3; rewrite (F3 _ Hy); discriminate|]. split; [eapply same_rest_trans; eassumption|].
      eapply Fr_trans; (eapply Fr_incl; [|eassumption]); inc.
    + destruct (IH h1 F1 (S' ++ [(c, b, Stale)]) R F2 s (c + BSZ b) e) as [h2 [R2 [E2 [I3 [T3 [F3 [U3 [R3 Fr3]]]]]]]]; try assumption; try lia.
      * intros ->. cbn in Htr. congruence.
      * rewrite Ech. exact HT.
      * exists h2, R2. split; [exact E2|]. split; [exact I3|]. split; [exact T3|]. split; [exact F3|]. split; [exact U3|]. split; [eapply same_rest_trans; eassumption|]. eapply Fr_trans; (eapply Fr_incl; [|eassumption]); inc.
  - (* in use: the run before it is cut *)
    destruct (cut_stale_spec h1 F1 S' ((c, b, Used) :: R ++ F2) s c I1 HS Hts) as [h2 [L [E2 [I2 [T2 [F2' [R2 [M2 Fr2]]]]]]]]; [lia| |].
    { intros L HL. rewrite Ech. change ((c, b, Used) :: R ++ F2) with (((c, b, Used) :: R) ++ F2). rewrite (app_assoc L). apply HT. apply tiles_app. exists c. split; [exact HL|]. cbn [tiles addr bkt fst snd]. auto. }
    rewrite E2. cbn [bind]. rewrite (Z.add_comm (BSZ b) c). assert (Ech2 : chunks h2 = chunks h) by (destruct R2 as [-> _]; exact Ech).
    destruct (Z.eqb_spec (c + BSZ b) e) as [Ee|Ne].
    + destruct R as [|y R]; [|exfalso; apply tiles_lt in Htr; [lia|discriminate]]. rewrite Z.eqb_refl.
      exists h2, (L ++ [(c, b, Used)]). split; [reflexivity|]. split; [rewrite <- app_assoc; exact I2|]. split; [apply tiles_app; exists c; split; [exact T2|]; cbn; auto|].
      split; [apply Forall_app; split; [eapply Forall_impl; [|exact F2']; intros y Hy; left; exact Hy|constructor; [right; reflexivity|constructor]]|].
      split; [rewrite useds_app, (useds_none L); [reflexivity|intros y Hy; rewrite Forall_forall in F2'; rewrite (F2' _ Hy); discriminate]|]. split; [eapply same_rest_trans; eassumption|].
      eapply Fr_trans; (eapply Fr_incl; [|eassumption]); inc.
    + change 0 with (esz []). destruct (IH h2 (F1 ++ L ++ [(c, b, Used)]) [] R F2 (c + BSZ b) (c + BSZ b) e) as [h3 [R3 [E3 [I3 [T3 [F3 [U3 [S3 Fr3]]]]]]]].
      * lia.
      * intros ->. cbn in Htr. congruence.
      * rewrite <- !app_assoc. exact I2.
      * constructor.
      * exact HRm'.
      * reflexivity.
      * exact Htr.
      * lia.
      * intros L' HL'. rewrite Ech2. replace ((F1 ++ L ++ [(c, b, Used)]) ++ L' ++ F2) with (F1 ++ (L ++ (c, b, Used) :: L') ++ F2) by (rewrite <- !app_assoc; reflexivity).
        apply HT. apply tiles_app. exists c. split; [exact T2|]. cbn [tiles addr bkt fst snd]. auto.
      * exists h3, (L ++ (c, b, Used) :: R3). split; [exact E3|]. split; [rewrite <- !app_assoc in *; exact I3|]. split; [apply tiles_app; exists c; split; [exact T2|]; cbn [tiles addr bkt fst snd]; auto|].
        split; [apply Forall_app; split; [eapply Forall_impl; [|exact F2']; intros y Hy; left; exact Hy|constructor; [right; reflexivity|exact F3]]|].
        split; [|split; [eapply same_rest_trans; [exact R1|]; eapply same_rest_trans; eassumption|]].
        2: { eapply Fr_trans; [|eapply Fr_trans]; (eapply Fr_incl; [|eassumption]); inc. }
        rewrite useds_app, (useds_none L); [|intros y Hy; rewrite Forall_forall in F2'; rewrite (F2' _ Hy); discriminate]. unfold useds in *. cbn [filter app]. change (isUsed (c, b, Used)) with true. cbn [map]. f_equal. exact U3.
Qed.

Lemma merge_chunks_spec : forall cs h bs1 bs2 c1, chunks h = c1 ++ cs -> Inv h (bs1 ++ bs2) -> Tiled c1 bs1 -> Tiled cs bs2 -> Forall mergeable bs2 ->
  exists h' bs2', merge_chunks MUL h cs = Ok h' /\ Inv h' (bs1 ++ bs2') /\ Forall settled bs2' /\ useds bs2' = useds bs2 /\ same_rest h h' /\ Fr (useds (bs1 ++ bs2)) (mem h) (mem h').
Proof.
  induction cs as [|[p n] cs IH]; intros h bs1 bs2 c1 Hc I T1 T2 Hm; cbn [merge_chunks].
  - cbn [Tiled] in T2. subst bs2. exists h, []. split; [reflexivity|]. split; [exact I|]. split; [constructor|]. split; [reflexivity|]. split; [apply same_rest_refl|apply Fr_refl].
  - cbn [Tiled] in T2. destruct T2 as [l1 [l2 [-> [T3 T4]]]]. apply Forall_app in Hm. destruct Hm as [Hm1 Hm2]. unfold merge_chunk.
    assert (P := I_pos _ _ I). rewrite Forall_forall in P. specialize (P (p, n)). cbn [fst snd] in P. assert (P' := P ltac:(rewrite Hc; apply in_app_iff; right; left; reflexivity)). clear P. rename P' into P.
    assert (Hl : 16 * Z.of_nat (length l1) <= n). { assert (X := I_bkt _ _ I). rewrite !Forall_app in X. destruct X as [_ [X _]]. assert (Y := tiles_length _ X _ _ T3). lia. }
    assert (Hne : l1 <> []) by (intros ->; cbn in T3; lia).
    rewrite (Z.add_comm n p). change 0 with (esz []).
    destruct (merge_loop_spec (S (Z.to_nat (n / 16))) h bs1 [] l1 l2 p p (p + n)) as [h1 [R1 [E1 [I1 [Tr [Fr0 [Ur [Sr Fr1]]]]]]]].
    + lia.
    + exact Hne.
    + exact I.
    + constructor.
    + exact Hm1.
    + reflexivity.
    + exact T3.
    + unfold PAD in P. change (2^48) with 281474976710656 in P. change (2^49) with 562949953421312. lia.
    + intros L HL. rewrite Hc. apply Tiled_app; [exact T1|]. cbn [Tiled]. exists L, l2. auto.
    + rewrite E1. cbn [bind]. destruct (IH h1 (bs1 ++ R1) l2 (c1 ++ [(p, n)])) as [h2 [b2 [E2 [I2 [F2 [U2 [S2 Fr2]]]]]]].
      * destruct Sr as [-> _]. rewrite Hc, <- app_assoc. reflexivity.
      * rewrite <- app_assoc. exact I1.
      * apply Tiled_app; [exact T1|]. cbn [Tiled]. exists R1, []. rewrite app_nil_r. auto.
      * exact T4.
      * exact Hm2.
      * exists h2, (R1 ++ b2). split; [exact E2|]. split; [rewrite <- app_assoc in I2; exact I2|]. split; [apply Forall_app; auto|]. split; [rewrite !useds_app; congruence|]. split; [eapply same_rest_trans; eassumption|].
        eapply Fr_trans; [exact Fr1|]. eapply Fr_incl; [|exact Fr2]. rewrite !useds_app, Ur. intros z Hz. rewrite !in_app_iff in *. tauto.
Qed.
Definition stale1 (x : blk) : blk := match stat x with Free => (addr x, bkt x, Stale) | _ => x end.
Lemma stale1_same x : addr (stale1 x) = addr x /\ bkt (stale1 x) = bkt x.
Proof. unfold stale1. destruct (stat x); auto. Qed.
Lemma Tiled_map f : (forall x, addr (f x) = addr x /\ bkt (f x) = bkt x) -> forall cs l, Tiled cs l -> Tiled cs (map f l).
Proof.
  intros Hf. induction cs as [|[p n] cs IH]; intros l H; cbn [Tiled] in *; [subst; reflexivity|]. destruct H as [l1 [l2 [-> [A B]]]]. exists (map f l1), (map f l2). rewrite map_app. split; [reflexivity|]. split; [apply tiles_map; assumption|apply IH; exact B].
Qed.
Definition collectable (x : blk) : Prop := stat x = Free \/ stat x = Used \/ stat x = Dead.
Lemma clear_spec h bs : Inv h bs -> Forall collectable bs -> Inv (clear_buckets h) (map stale1 bs).
Proof.
  intros I Hc. constructor; cbn [clear_buckets mem bkts ctrs chunks heapAlloc].
  - apply Tiled_map; [apply stale1_same|apply (I_til _ _ I)].
  - apply (I_apart _ _ I).
  - apply (I_pos _ _ I).
  - apply Forall_map. eapply Forall_impl; [|apply (I_bkt _ _ I)]. cbn beta. intros x Hx. destruct (stale1_same x) as [_ ->]. exact Hx.
  - apply Forall_map. eapply Forall_impl; [|apply (I_hdr _ _ I)]. intros x. unfold hdr_ok. destruct (stale1_same x) as [-> ->]. unfold stale1. destruct (stat x) eqn:E; cbn [stat snd]; try rewrite E; auto.
  - rewrite map_length. apply (I_lenb _ _ I).
  - intros b Hb. exists []. rewrite frees_none; [|intros x Hx; apply in_map_iff in Hx; destruct Hx as [y [<- _]]; unfold stale1; destruct (stat y) eqn:E; cbn [stat snd]; congruence].
    split; [|constructor]. cbn [chain]. change 0 with ((fun _ : Z => 0) 0) at 2. rewrite map_nth. reflexivity.
  - apply (I_lenc _ _ I).
  - intros b Hb. rewrite (I_ctr _ _ I b Hb). unfold cnt. f_equal. clear. induction bs as [|x bs IH]; [reflexivity|]. cbn [map filter].
    assert (E : isU b (stale1 x) = isU b x) by (unfold isU, stale1; destruct (stat x) eqn:E; cbn [stat snd]; try rewrite E; reflexivity). rewrite E.
    destruct (isU b x); cbn [length]; congruence.
  - apply (I_al _ _ I).
Qed.
Lemma useds_stale l : useds (map stale1 l) = useds l.
Proof.
  unfold useds. induction l as [|x l IH]; [reflexivity|]. cbn [map filter]. assert (E : isUsed (stale1 x) = isUsed x) by (unfold isUsed, stale1; destruct (stat x) eqn:E; cbn [stat snd]; try rewrite E; reflexivity). rewrite E.
  destruct (isUsed x) eqn:Eu; [|exact IH]. cbn [map]. rewrite IH. f_equal. unfold stale1. unfold isUsed in Eu. destruct (stat x); try discriminate. reflexivity.
Qed.
Lemma ffm_spec h bs : Inv h bs -> Forall collectable bs -> exists h' bs', freeFreedAndMerge MUL h = Ok h' /\ Inv h' bs' /\ Forall settled bs' /\ useds bs' = useds bs /\ same_rest h h' /\ Fr (useds bs) (mem h) (mem h').
Proof.
  intros I Hc. assert (I1 := clear_spec _ _ I Hc). unfold freeFreedAndMerge. cbn [chunks clear_buckets].
  destruct (merge_chunks_spec (chunks h) (clear_buckets h) [] (map stale1 bs) []) as [h' [b' [E [I' [F' [U' [S' Fr']]]]]]].
  - reflexivity.
  - exact I1.
  - reflexivity.
  - apply (I_til _ _ I1).
  - apply Forall_map. eapply Forall_impl; [|exact Hc]. intros x Hx. unfold mergeable, stale1. destruct Hx as [Hx|[Hx|Hx]]; rewrite Hx; cbn [stat snd]; auto.
  - exists h', b'. split; [exact E|]. split; [exact I'|]. split; [exact F'|]. split; [rewrite U'; apply useds_stale|]. split; [exact S'|]. cbn [app] in Fr'. rewrite useds_stale in Fr'. exact Fr'.
Qed.
End P.
