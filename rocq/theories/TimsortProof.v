(** Proofs for TimsortModel. *)
From Verif Require Import Base TimsortModel TimsortSpec.

Lemma rd_at {A} (p t : list A) x i : i = length p -> rd (p ++ x :: t) i = Ok x.
Proof. intros ->. unfold rd. rewrite nth_error_app2, Nat.sub_diag by lia. reflexivity. Qed.
Lemma upd_at {A} (p t : list A) x v : upd (p ++ x :: t) (length p) v = p ++ v :: t.
Proof. induction p as [|a p IH]; cbn; [reflexivity|now rewrite IH]. Qed.
Lemma wr_at {A} (p t : list A) x v i : i = length p -> wr (p ++ x :: t) i v = Ok (p ++ v :: t).
Proof.
  intros ->. unfold wr. rewrite app_length. cbn [length]. destruct (Nat.ltb_spec (length p) (length p + S (length t))); [|lia].
  now rewrite upd_at.
Qed.
Lemma rd_nth_error {A} (l : list A) i v : nth_error l i = Some v -> rd l i = Ok v.
Proof. unfold rd. intros ->. reflexivity. Qed.
Lemma nth_error_mid {A} (p s t : list A) i b : b = length p -> (i < length s)%nat -> nth_error (p ++ s ++ t) (b + i) = nth_error s i.
Proof. intros -> H. rewrite nth_error_app2 by lia. replace (length p + i - length p)%nat with i by lia. now apply nth_error_app1. Qed.
Lemma list_snoc {A} (l : list A) : l <> [] -> exists q y, l = q ++ [y].
Proof. intros H. destruct (exists_last H) as [q [y E]]. eauto. Qed.
Lemma nth_error_ex {A} (l : list A) i : (i < length l)%nat -> exists v, nth_error l i = Some v.
Proof. intros H. destruct (nth_error l i) eqn:E; [eauto|]. apply nth_error_None in E. lia. Qed.
Lemma split_at {A} (l : list A) n : (n <= length l)%nat -> exists a b, l = a ++ b /\ length a = n.
Proof. intros H. exists (firstn n l), (skipn n l). split; [now rewrite firstn_skipn|]. apply firstn_length_le. lia. Qed.

Section P.
Context {A : Type} (cmp : A -> A -> Z) (ok : A -> Prop).
Hypothesis CMP : comparison cmp ok.

Lemma lt_gt a b : ok a -> ok b -> (cmp a b < 0 <-> 0 < cmp b a).
Proof. apply (proj1 CMP). Qed.
Lemma le_trans a b c : ok a -> ok b -> ok c -> cmp a b <= 0 -> cmp b c <= 0 -> cmp a c <= 0.
Proof. apply (proj2 CMP). Qed.
Lemma nle_ge a b : ok a -> ok b -> 0 < cmp a b -> cmp b a <= 0.
Proof. intros Ha Hb H. pose proof (lt_gt b a Hb Ha). lia. Qed.
Lemma ge_le a b : ok a -> ok b -> 0 <= cmp a b -> cmp b a <= 0.
Proof. intros Ha Hb H. pose proof (lt_gt a b Ha Hb). lia. Qed.

Notation sorted := (sorted cmp).
Notation class := (class cmp).
Definition SP (l r : list A) : Prop := Permutation l r /\ forall k, ok k -> class k r = class k l.

Lemma SP_refl l : SP l l.
Proof. split; [apply Permutation_refl|reflexivity]. Qed.
Lemma SP_trans a b c : SP a b -> SP b c -> SP a c.
Proof. intros [P1 C1] [P2 C2]. split; [now apply Permutation_trans with b|]. intros k Hk. now rewrite (C2 k Hk), (C1 k Hk). Qed.
Lemma class_app k a b : class k (a ++ b) = class k a ++ class k b.
Proof. apply filter_app. Qed.
Lemma SP_app a b c d : SP a b -> SP c d -> SP (a ++ c) (b ++ d).
Proof.
  intros [P1 C1] [P2 C2]. split; [now apply Permutation_app|]. intros k Hk. now rewrite !class_app, (C1 k Hk), (C2 k Hk).
Qed.
Lemma SP_cons x a b : SP a b -> SP (x :: a) (x :: b).
Proof. intros H. apply (SP_app [x] [x] a b (SP_refl _) H). Qed.
Lemma SP_len a b : SP a b -> length a = length b.
Proof. intros [P _]. now apply Permutation_length. Qed.
Lemma SP_ok a b : SP a b -> Forall ok a -> Forall ok b.
Proof. intros [P _] H. apply Permutation_Forall with a; assumption. Qed.
Lemma class_nil k q : (forall y, In y q -> cmp k y <> 0) -> class k q = [].
Proof.
  induction q as [|y q IH]; intros H; [reflexivity|]. unfold TimsortSpec.class in *. cbn [filter].
  destruct (Z.eqb_spec (cmp k y) 0) as [E|E]; [destruct (H y (or_introl eq_refl) E)|]. apply IH. intros z Hz. apply H. now right.
Qed.
Lemma neq_class x y k : ok x -> ok y -> ok k -> 0 < cmp y x \/ 0 < cmp x y -> cmp k x = 0 -> cmp k y <> 0.
Proof.
  intros Hx Hy Hk D E1 E2.
  pose proof (lt_gt k x Hk Hx). pose proof (lt_gt x k Hx Hk). pose proof (lt_gt k y Hk Hy). pose proof (lt_gt y k Hy Hk).
  destruct D as [D|D].
  - assert (cmp y x <= 0) by (apply (le_trans y k x); auto; lia). lia.
  - assert (cmp x y <= 0) by (apply (le_trans x k y); auto; lia). lia.
Qed.
(** moving one value across values that compare different from it *)
Lemma SP_move x q : ok x -> Forall ok q -> (forall y, In y q -> 0 < cmp y x \/ 0 < cmp x y) -> SP (q ++ [x]) (x :: q).
Proof.
  intros Hx Hq D. split; [apply Permutation_sym, Permutation_cons_append|]. intros k Hk. rewrite class_app. unfold TimsortSpec.class at 1 3. cbn [filter].
  destruct (Z.eqb_spec (cmp k x) 0) as [E|E].
  - fold (class k q). rewrite (class_nil k q); [reflexivity|]. intros y Hy. rewrite Forall_forall in Hq. apply (neq_class x y k); auto.
  - now rewrite app_nil_r.
Qed.
Lemma SP_sym a b : SP a b -> SP b a.
Proof. intros [P C]. split; [now apply Permutation_sym|]. intros k Hk. symmetry. auto. Qed.

Lemma sorted_cons_iff x l : sorted (x :: l) <-> (forall y, In y l -> cmp x y <= 0) /\ sorted l.
Proof.
  unfold TimsortSpec.sorted. split.
  - intros H. inversion H; subst. rewrite Forall_forall in *. auto.
  - intros [H1 H2]. constructor; [assumption|]. now rewrite Forall_forall.
Qed.
Lemma sorted_app a b : sorted (a ++ b) <-> sorted a /\ sorted b /\ (forall x y, In x a -> In y b -> cmp x y <= 0).
Proof.
  induction a as [|x a IH]; cbn [app].
  - split; [intros H; repeat split; [constructor|assumption|intros ? ? []]|intros (_&H&_); assumption].
  - rewrite !sorted_cons_iff, IH. split.
    + intros (H1&H2&H3&H4). split; [split|split].
      * intros y Hy. apply H1, in_or_app. auto.
      * assumption.
      * assumption.
      * intros u v [<-|Hu] Hv; [apply H1, in_or_app; auto|auto].
    + intros ((H1&H2)&H3&H4). split; [|split; [assumption|split; [assumption|]]].
      * intros y Hy. apply in_app_or in Hy. destruct Hy; [auto|apply H4; cbn; auto].
      * intros u v Hu Hv. apply H4; cbn; auto.
Qed.
Lemma sorted_nth l i j a b : sorted l -> nth_error l i = Some a -> nth_error l j = Some b -> (i < j)%nat -> cmp a b <= 0.
Proof.
  revert i j; induction l as [|x l IH]; intros i j S Ha Hb L; [destruct i; discriminate|].
  apply sorted_cons_iff in S. destruct S as [S1 S2]. destruct i as [|i], j as [|j]; cbn [nth_error] in *; try lia.
  - injection Ha as <-. apply S1. apply nth_error_In in Hb. assumption.
  - apply (IH i j); auto. lia.
Qed.
Lemma ok_nth l i a : Forall ok l -> nth_error l i = Some a -> ok a.
Proof. intros F H. rewrite Forall_forall in F. apply F. now apply nth_error_In in H. Qed.
Lemma ok_in l a : Forall ok l -> In a l -> ok a.
Proof. intros F H. rewrite Forall_forall in F. auto. Qed.

(** ** binary insertion *)
Lemma find_loop_ok (p s t : list A) b x fuel l r c :
  b = length p -> sorted s -> Forall ok s -> ok x -> (l <= c < r)%nat -> (r < length s)%nat -> c = (l + (r - l) / 2)%nat -> (r - l <= fuel)%nat ->
  (forall v, nth_error s l = Some v -> 0 <= cmp x v) -> (forall v, nth_error s r = Some v -> cmp x v < 0) ->
  exists loc, find_loop cmp fuel (p ++ s ++ t) b x l r c = Ok loc /\ (loc <= length s)%nat /\
    (forall j v, (j < loc)%nat -> nth_error s j = Some v -> 0 <= cmp x v) /\ (forall j v, (loc <= j)%nat -> nth_error s j = Some v -> cmp x v < 0).
Proof.
  intros Hb S F Hx. revert l r c; induction fuel as [|fuel IH]; intros l r c Hc Hr Ec Hf Hl Hh; [lia|].
  cbn [find_loop]. destruct (nth_error_ex s c ltac:(lia)) as [cx Ecx].
  rewrite (rd_nth_error _ _ cx) by (rewrite nth_error_mid; auto; lia). cbn [bind].
  assert (DN : forall m v j w, nth_error s m = Some v -> 0 <= cmp x v -> (j <= m)%nat -> nth_error s j = Some w -> 0 <= cmp x w).
  { intros m v j w Hm Hv Hj Hw. destruct (Nat.eq_dec j m) as [->|N]; [congruence|].
    pose proof (ok_nth s m v F Hm). pose proof (ok_nth s j w F Hw).
    assert (cmp w v <= 0) by (apply (sorted_nth s j m); auto; lia). assert (cmp v x <= 0) by (apply ge_le; auto).
    assert (cmp w x <= 0) by (apply (le_trans w v x); auto). pose proof (lt_gt x w). intuition lia. }
  assert (UP : forall m v j w, nth_error s m = Some v -> cmp x v < 0 -> (m <= j)%nat -> nth_error s j = Some w -> cmp x w < 0).
  { intros m v j w Hm Hv Hj Hw. destruct (Nat.eq_dec j m) as [->|N]; [congruence|].
    pose proof (ok_nth s m v F Hm) as Ov. pose proof (ok_nth s j w F Hw) as Ow.
    assert (cmp v w <= 0) by (apply (sorted_nth s m j); auto; lia).
    destruct (Z_lt_le_dec (cmp x w) 0) as [|G]; [assumption|]. assert (cmp w x <= 0) by (apply ge_le; auto).
    assert (cmp v x <= 0) by (apply (le_trans v w x); auto). pose proof (proj1 (lt_gt x v Hx Ov) Hv). lia. }
  destruct (Z.ltb_spec (cmp x cx) 0) as [L|L].
  - assert (l < c)%nat. { destruct (Nat.eq_dec l c) as [->|]; [|lia]. specialize (Hl cx Ecx). lia. }
    destruct (Nat.leb_spec (c - l) 1) as [Q|Q].
    + exists c. split; [reflexivity|]. split; [lia|]. split.
      * intros j v Hj Hv. destruct (nth_error_ex s l ltac:(lia)) as [lv El]. apply (DN l lv j v); auto. lia.
      * intros j v Hj Hv. apply (UP c cx j v); auto.
    + apply IH; auto; try lia; intros v Hv; congruence.
  - destruct (Nat.leb_spec (r - c) 1) as [Q|Q].
    + exists (c + 1)%nat. split; [reflexivity|]. split; [lia|]. split.
      * intros j v Hj Hv. apply (DN c cx j v); auto. lia.
      * intros j v Hj Hv. destruct (nth_error_ex s r ltac:(lia)) as [rv Er]. apply (UP r rv j v); auto. lia.
    + assert (l < c)%nat. { destruct (Nat.eq_dec l c) as [E|]; [|lia]. exfalso. rewrite <- E in *. assert ((r - l) / 2 = 0)%nat by lia.
        assert (r - l < 2)%nat; [|lia]. destruct (Nat.lt_ge_cases (r - l) 2); [assumption|]. assert (1 <= (r - l) / 2)%nat by (apply Nat.div_le_lower_bound; lia). lia. }
      apply IH; auto; try lia; intros v Hv; congruence.
Qed.

Lemma find_ok (p s t : list A) b x :
  b = length p -> sorted s -> Forall ok s -> ok x -> s <> [] -> (forall v, nth_error s (length s - 1) = Some v -> cmp x v < 0) ->
  exists loc, binary_insertion_find cmp (p ++ s ++ t) b x (length s) = Ok loc /\ (loc <= length s)%nat /\
    (forall j v, (j < loc)%nat -> nth_error s j = Some v -> 0 <= cmp x v) /\ (forall j v, (loc <= j)%nat -> nth_error s j = Some v -> cmp x v < 0).
Proof.
  intros Hb S F Hx N Hlast. unfold binary_insertion_find.
  assert (L1 : (1 <= length s)%nat) by (destruct s; [congruence|cbn; lia]).
  destruct (nth_error_ex s 0 ltac:(lia)) as [d0 E0].
  rewrite (rd_nth_error _ b d0). 2: { replace b with (b + 0)%nat by lia. rewrite nth_error_mid; auto. }
  cbn [bind]. destruct (Z.ltb_spec (cmp x d0) 0) as [L|L].
  - exists 0%nat. split; [reflexivity|]. split; [lia|]. split; [lia|]. intros j v _ Hv.
    destruct (Nat.eq_dec j 0) as [->|Nj]; [congruence|].
    pose proof (ok_nth s 0 d0 F E0) as O0. pose proof (ok_nth s j v F Hv) as Ov.
    assert (cmp d0 v <= 0) by (apply (sorted_nth s 0 j); auto; lia).
    destruct (Z_lt_le_dec (cmp x v) 0) as [|G]; [assumption|]. assert (cmp v x <= 0) by (apply ge_le; auto).
    assert (cmp d0 x <= 0) by (apply (le_trans d0 v x); auto). pose proof (proj1 (lt_gt x d0 Hx O0) L). lia.
  - destruct (nth_error_ex s (length s - 1) ltac:(lia)) as [dr Er]. rewrite (rd_nth_error _ _ dr) by (rewrite nth_error_mid; auto; lia). cbn [bind].
    specialize (Hlast dr Er). destruct (Z.ltb_spec 0 (cmp x dr)) as [G|G]; [lia|].
    assert (length s - 1 <> 0)%nat. { intros E. rewrite E in Er. rewrite E0 in Er. injection Er as ->. lia. }
    apply find_loop_ok; auto; try lia; intros v Hv; congruence.
Qed.

(* after the shift the values of q stand one further and the first place holds something *)
Lemma shift_loop_ok (q p pre t : list A) y b loc fuel : b = length pre -> loc = length p -> q <> [] -> (length p + length q < fuel)%nat ->
  exists h, shift_loop fuel (pre ++ p ++ q ++ y :: t) b loc (length p + length q - 1) = Ok (pre ++ p ++ h :: q ++ t).
Proof.
  revert y t fuel; induction q as [|z q IH] using rev_ind; intros y t fuel Hb Hl N Hf; [congruence|].
  destruct fuel as [|fuel]; [lia|]. rewrite app_length in *. cbn [length] in *. cbn [shift_loop].
  replace (length p + (length q + 1) - 1)%nat with (length p + length q)%nat by lia.
  destruct (Nat.ltb_spec (length p + length q) loc); [lia|].
  replace (pre ++ p ++ (q ++ [z]) ++ y :: t) with ((pre ++ p ++ q) ++ z :: y :: t) by (rewrite <- !app_assoc; reflexivity).
  rewrite rd_at by (rewrite !app_length; lia). cbn [bind].
  replace ((pre ++ p ++ q) ++ z :: y :: t) with ((pre ++ p ++ q ++ [z]) ++ y :: t) by (rewrite <- !app_assoc; reflexivity).
  rewrite wr_at by (rewrite !app_length; cbn; lia). cbn [bind].
  destruct (Nat.eqb_spec (length p + length q) 0) as [E|E].
  - destruct q; [|cbn in E; lia]. exists z. rewrite <- !app_assoc. reflexivity.
  - destruct q as [|w q'] eqn:Q.
    + exists z. cbn [length] in *. destruct fuel as [|fuel]; [lia|]. cbn [shift_loop].
      destruct (Nat.ltb_spec (length p + 0 - 1) loc); [|lia]. f_equal. rewrite <- !app_assoc. reflexivity.
    + rewrite <- Q in *. destruct (IH z (z :: t) fuel) as [h Eh]; auto; try congruence; [lia|].
      exists h. replace ((pre ++ p ++ q ++ [z]) ++ z :: t) with (pre ++ p ++ q ++ z :: z :: t) by (rewrite <- !app_assoc; reflexivity).
      rewrite Eh. f_equal. rewrite <- !app_assoc. reflexivity.
Qed.

Lemma bins_loop_ok (t s pre post : list A) b i n : b = length pre -> i = length s -> n = length t -> s <> [] -> sorted s -> Forall ok s -> Forall ok t ->
  exists r, bins_loop cmp n (pre ++ s ++ t ++ post) b i = Ok (pre ++ r ++ post) /\ SP (s ++ t) r /\ sorted r.
Proof.
  revert s i n; induction t as [|x t IH]; intros s i n Hb Hi Hn N S Fs Ft; subst n; cbn [length bins_loop].
  - exists s. rewrite app_nil_r. split; [reflexivity|]. split; [apply SP_refl|assumption].
  - pose proof (Forall_inv Ft) as Ox. pose proof (Forall_inv_tail Ft) as Ft'. cbn in Ox.
    destruct (list_snoc s N) as [q [y Es]].
    assert (Oy : ok y) by (apply (ok_in s); auto; rewrite Es; apply in_or_app; cbn; auto).
    assert (Ly : nth_error s (length s - 1) = Some y).
    { rewrite Es, app_length. cbn [length]. rewrite nth_error_app2 by lia. replace (length q + 1 - 1 - length q)%nat with 0%nat by lia. reflexivity. }
    assert (L1 : (1 <= length s)%nat) by (rewrite Es, app_length; cbn; lia).
    rewrite (rd_nth_error _ (b + (i - 1)) y) by (rewrite nth_error_mid; subst; auto; lia). cbn [bind].
    replace (pre ++ s ++ (x :: t) ++ post) with ((pre ++ s) ++ x :: t ++ post) by (rewrite <- !app_assoc; reflexivity).
    rewrite (rd_at (pre ++ s)) by (rewrite app_length; lia). cbn [bind].
    destruct (Z.leb_spec (cmp y x) 0) as [L|L].
    + replace ((pre ++ s) ++ x :: t ++ post) with (pre ++ (s ++ [x]) ++ t ++ post) by (rewrite <- !app_assoc; reflexivity).
      destruct (IH (s ++ [x]) (Datatypes.S i) (length t)) as (r&E&P&Sr); auto.
      * rewrite app_length; cbn; lia.
      * destruct s; discriminate.
      * apply sorted_app. split; [assumption|]. split; [repeat constructor|]. intros u v Hu [<-|[]].
        apply In_nth_error in Hu. destruct Hu as [j Ej]. pose proof (ok_nth _ _ _ Fs Ej) as Ou.
        destruct (Nat.eq_dec j (length s - 1)) as [->|Nj]; [congruence|]. pose proof (nth_error_Some_lt _ _ _ Ej).
        apply (le_trans u y x); auto. apply (sorted_nth s j (length s - 1)); auto; lia.
      * apply Forall_app; auto.
      * exists r. rewrite E. split; [reflexivity|]. split; [|assumption]. rewrite <- app_assoc in P. exact P.
    + destruct (find_ok pre s (x :: t ++ post) b x) as (loc&E&Hloc&H1&H2); auto.
      { intros v Hv. assert (v = y) by congruence. subst v. apply (lt_gt x y); auto. }
      replace ((pre ++ s) ++ x :: t ++ post) with (pre ++ s ++ x :: t ++ post) by (rewrite <- !app_assoc; reflexivity).
      rewrite Hi, E. cbn [bind].
      destruct (split_at s loc Hloc) as (p&q2&Ep&Lp).
      assert (Nq : q2 <> []). { intros ->. rewrite app_nil_r in Ep. subst p. specialize (H1 (length s - 1)%nat y). rewrite <- Lp in H1.
        specialize (H1 ltac:(lia) Ly). pose proof (proj2 (lt_gt x y Ox Oy) L). lia. }
      assert (Lq : length s = (length p + length q2)%nat) by (rewrite Ep, app_length; reflexivity).
      destruct (shift_loop_ok q2 p pre (t ++ post) x b loc (Datatypes.S (length s))) as [h Eh]; auto; [lia|].
      replace (pre ++ s ++ x :: t ++ post) with (pre ++ p ++ q2 ++ x :: t ++ post) by (rewrite Ep, <- !app_assoc; reflexivity).
      rewrite Lq. rewrite Lq in Eh. rewrite Eh. cbn [bind].
      replace (pre ++ p ++ h :: q2 ++ t ++ post) with ((pre ++ p) ++ h :: q2 ++ t ++ post) by (rewrite <- !app_assoc; reflexivity).
      rewrite wr_at by (rewrite app_length; lia). cbn [bind].
      assert (Fp : Forall ok p /\ Forall ok q2) by (rewrite Ep in Fs; apply Forall_app in Fs; exact Fs). destruct Fp as [Fp Fq].
      assert (G1 : forall v, In v p -> cmp v x <= 0).
      { intros v Hv. apply In_nth_error in Hv. destruct Hv as [j Ej]. pose proof (nth_error_Some_lt _ _ _ Ej).
        apply ge_le; auto; [apply (ok_nth p j); auto|]. apply (H1 j); [lia|]. rewrite Ep, nth_error_app1 by lia. assumption. }
      assert (G2 : forall v, In v q2 -> cmp x v < 0).
      { intros v Hv. apply In_nth_error in Hv. destruct Hv as [j Ej]. apply (H2 (length p + j)%nat); [lia|].
        rewrite Ep, nth_error_app2 by lia. replace (length p + j - length p)%nat with j by lia. assumption. }
      rewrite Ep in S. apply sorted_app in S. destruct S as (S1&S2&S3).
      replace ((pre ++ p) ++ x :: q2 ++ t ++ post) with (pre ++ (p ++ x :: q2) ++ t ++ post) by (rewrite <- !app_assoc; reflexivity).
      destruct (IH (p ++ x :: q2) (Datatypes.S (length p + length q2)) (length t)) as (r&Er&P&Sr); auto.
      * rewrite app_length. cbn. lia.
      * destruct p; discriminate.
      * apply sorted_app. split; [assumption|]. split.
        -- apply sorted_cons_iff. split; [intros v Hv; specialize (G2 v Hv); lia|assumption].
        -- intros u v Hu [<-|Hv]; auto.
      * apply Forall_app; auto.
      * exists r. split; [exact Er|]. split; [|assumption]. eapply SP_trans; [|exact P].
        rewrite Ep. replace ((p ++ q2) ++ x :: t) with ((p ++ (q2 ++ [x])) ++ t) by (rewrite <- !app_assoc; reflexivity).
        apply SP_app; [|apply SP_refl]. apply SP_app; [apply SP_refl|]. apply SP_move; auto.
        intros v Hv. left. apply (lt_gt x v); auto. apply (ok_in q2); auto.
Qed.

(** ** runs *)
Lemma swap_ok (p m t : list A) x y i j : i = length p -> j = (length p + S (length m))%nat -> swap (p ++ x :: m ++ y :: t) i j = Ok (p ++ y :: m ++ x :: t).
Proof.
  intros Hi Hj. unfold swap. rewrite rd_at by assumption. cbn [bind].
  replace (p ++ x :: m ++ y :: t) with ((p ++ x :: m) ++ y :: t) by (rewrite <- app_assoc; reflexivity).
  rewrite rd_at by (rewrite app_length; cbn; lia). cbn [bind].
  replace ((p ++ x :: m) ++ y :: t) with (p ++ x :: m ++ y :: t) by (rewrite <- app_assoc; reflexivity).
  rewrite wr_at by assumption. cbn [bind].
  replace (p ++ y :: m ++ y :: t) with ((p ++ y :: m) ++ y :: t) by (rewrite <- app_assoc; reflexivity).
  rewrite wr_at by (rewrite app_length; cbn; lia). rewrite <- app_assoc. reflexivity.
Qed.
Lemma reverse_ok n : forall (s p t : list A) fuel b e, (length s <= n)%nat -> b = length p -> (e + 1 = length p + length s)%nat -> (length s < fuel)%nat ->
  reverse_elements fuel (p ++ s ++ t) b e = Ok (p ++ rev s ++ t).
Proof.
  induction n as [|n IH]; intros s p t fuel b e Hn Hb He Hf; (destruct fuel as [|fuel]; [lia|]); cbn [reverse_elements].
  - destruct s; [|cbn in Hn; lia]. cbn in *. destruct (Nat.leb_spec e b); [reflexivity|lia].
  - destruct (Nat.leb_spec e b) as [L|L].
    + destruct s as [|x [|y s]]; [reflexivity|reflexivity|cbn in *; lia].
    + destruct s as [|x s]; [cbn in *; lia|]. destruct s as [|z s0]; [cbn in *; lia|].
      destruct (list_snoc (z :: s0)) as [m [y Em]]; [discriminate|]. rewrite Em in *. cbn [length] in *. rewrite app_length in *. cbn [length] in *.
      replace (p ++ (x :: m ++ [y]) ++ t) with (p ++ x :: m ++ y :: t) by (cbn; rewrite <- app_assoc; reflexivity).
      rewrite swap_ok by lia. cbn [bind].
      replace (p ++ y :: m ++ x :: t) with ((p ++ [y]) ++ m ++ x :: t) by (rewrite <- app_assoc; reflexivity).
      rewrite IH.
      * f_equal. cbn [rev]. rewrite rev_app_distr. cbn. rewrite <- !app_assoc. reflexivity.
      * lia.
      * rewrite app_length. cbn. lia.
      * rewrite app_length. cbn. lia.
      * lia.
Qed.
Lemma sorted_adj s : Forall ok s -> (forall i a b, nth_error s i = Some a -> nth_error s (Datatypes.S i) = Some b -> cmp a b <= 0) -> sorted s.
Proof.
  induction s as [|x s IH]; intros F H; [constructor|]. apply sorted_cons_iff.
  pose proof (Forall_inv F) as Ox. pose proof (Forall_inv_tail F) as Fs. cbn in Ox.
  assert (S : sorted s) by (apply IH; auto; intros i a b Ha Hb; apply (H (Datatypes.S i)); auto).
  split; [|assumption]. intros y Hy. destruct s as [|z s]; [destruct Hy|].
  assert (xz : cmp x z <= 0) by (apply (H 0%nat); reflexivity).
  destruct Hy as [<-|Hy]; [assumption|]. apply sorted_cons_iff in S. pose proof (Forall_inv Fs) as Oz. cbn in Oz.
  apply (le_trans x z y); auto.
  - apply (ok_in (z :: s)); auto. now right.
  - apply (proj1 S). assumption.
Qed.
Lemma rev_desc s : Forall ok s -> (forall i a b, nth_error s i = Some a -> nth_error s (Datatypes.S i) = Some b -> 0 < cmp a b) -> SP s (rev s) /\ sorted (rev s).
Proof.
  induction s as [|x s IH]; intros F H; [split; [apply SP_refl|constructor]|].
  pose proof (Forall_inv F) as Ox. pose proof (Forall_inv_tail F) as Fs. cbn in Ox.
  destruct (IH Fs) as [P S]; [intros i a b Ha Hb; apply (H (Datatypes.S i)); auto|].
  assert (G : forall y, In y s -> 0 < cmp x y).
  { destruct s as [|z s0]; [intros ? []|]. assert (xz : 0 < cmp x z) by (apply (H 0%nat); reflexivity).
    pose proof (Forall_inv Fs) as Oz. cbn in Oz.
    intros y [<-|Hy]; [assumption|]. cbn [rev] in S. apply sorted_app in S. destruct S as (_&_&S). 
    assert (Oy : ok y) by (apply (ok_in s0); auto; apply (Forall_inv_tail Fs)).
    assert (cmp y z <= 0) by (apply S; [now apply -> in_rev|cbn; auto]).
    destruct (Z_lt_le_dec 0 (cmp x y)) as [|G]; [assumption|]. assert (cmp x z <= 0) by (apply (le_trans x y z); auto). lia. }
  cbn [rev]. split.
  - eapply SP_trans; [apply SP_cons, P|]. apply SP_sym, SP_move; auto.
    + apply (SP_ok s); auto.
    + intros y Hy. right. apply G. now apply in_rev.
  - apply sorted_app. split; [assumption|]. split; [repeat constructor|]. intros u v Hu [<-|[]]. apply nle_ge; auto.
    + apply (ok_in s); auto. now apply in_rev.
    + apply G. now apply in_rev.
Qed.

Definition ord (up : bool) (a b : A) : Prop := if up then cmp a b <= 0 else 0 < cmp a b.
Lemma run_loop_ok (dst : list A) up start fuel curr : let size := length dst in
  (start < curr <= size - 1)%nat -> (size - curr <= fuel)%nat ->
  (forall i a b, (start <= i)%nat -> (Datatypes.S i < curr)%nat -> nth_error dst i = Some a -> nth_error dst (Datatypes.S i) = Some b -> ord up a b) ->
  exists c, run_loop cmp fuel dst up size curr = Ok c /\ (curr <= c <= size - 1)%nat /\
  (forall i a b, (start <= i)%nat -> (Datatypes.S i < c)%nat -> nth_error dst i = Some a -> nth_error dst (Datatypes.S i) = Some b -> ord up a b).
Proof.
  intros size. revert curr; induction fuel as [|fuel IH]; intros curr Hc Hf H; [lia|]. cbn [run_loop].
  destruct (Nat.eqb_spec curr (size - 1)) as [E|E]; [exists curr; repeat split; auto; lia|].
  destruct (nth_error_ex dst (curr - 1) ltac:(lia)) as [p Ep]. destruct (nth_error_ex dst curr ltac:(lia)) as [q Eq].
  rewrite (rd_nth_error _ _ _ Ep), (rd_nth_error _ _ _ Eq). cbn [bind].
  assert (D : (if up then 0 <? cmp p q else cmp p q <=? 0) = false -> ord up p q) by (unfold ord; destruct up; lia).
  destruct (if up then 0 <? cmp p q else cmp p q <=? 0); [exists curr; repeat split; auto; lia|].
  destruct (IH (curr + 1)%nat) as (c&E1&E2&E3); try lia.
  - intros i a b Hi1 Hi2 Ha Hb. destruct (Nat.eq_dec (Datatypes.S i) curr) as [X|X]; [|apply (H i); auto; lia].
    assert (i = (curr - 1)%nat) by lia. subst i. rewrite X in Hb. rewrite Ep in Ha. rewrite Eq in Hb. injection Ha as <-. injection Hb as <-. auto.
  - exists c. repeat split; auto; lia.
Qed.

Lemma count_run_ok (pre s : list A) start size : start = length pre -> size = length (pre ++ s) -> s <> [] -> Forall ok s ->
  exists s1 s2 r len, count_run cmp (pre ++ s) start size = Ok (pre ++ r ++ s2, len) /\ s = s1 ++ s2 /\ length s1 = len /\ (1 <= len)%nat /\ SP s1 r /\ sorted r.
Proof.
  intros Hs Hz N F. unfold count_run. rewrite app_length in Hz.
  destruct (Nat.eqb_spec (size - start) 1) as [E1|E1].
  { destruct s as [|x [|y s]]; cbn [length] in *; [congruence| |lia]. exists [x], [], [x], 1%nat. rewrite app_nil_r.
    refine (conj _ (conj _ (conj _ (conj _ (conj _ _))))); auto; [apply SP_refl|repeat constructor]. }
  destruct (Nat.leb_spec (size - 2) start) as [L|L].
  { destruct s as [|x [|y [|z s]]]; cbn [length] in *; [congruence|lia| |lia].
    rewrite rd_at by lia. cbn [bind]. replace (pre ++ [x; y]) with ((pre ++ [x]) ++ [y]) by (rewrite <- app_assoc; reflexivity).
    rewrite (rd_at (pre ++ [x])) by (rewrite app_length; cbn; lia). cbn [bind].
    pose proof (Forall_inv F) as Ox. pose proof (Forall_inv (Forall_inv_tail F)) as Oy. cbn in Ox, Oy.
    destruct (Z.ltb_spec 0 (cmp x y)) as [G|G].
    - replace ((pre ++ [x]) ++ [y]) with (pre ++ x :: [] ++ [y]) by (rewrite <- app_assoc; reflexivity).
      rewrite swap_ok by (cbn; lia). cbn [bind]. exists [x; y], [], [y; x], 2%nat. rewrite app_nil_r. refine (conj _ (conj _ (conj _ (conj _ (conj _ _))))); auto.
      + apply (SP_move y [x]); auto. intros v [<-|[]]. auto.
      + apply sorted_cons_iff. split; [|repeat constructor]. intros v [<-|[]]. apply nle_ge; auto.
    - exists [x; y], [], [x; y], 2%nat. rewrite app_nil_r, <- app_assoc. refine (conj _ (conj _ (conj _ (conj _ (conj _ _))))); auto; [apply SP_refl|].
      apply sorted_cons_iff. split; [|repeat constructor]. intros v [<-|[]]. assumption. }
  assert (L3 : (3 <= length s)%nat) by lia.
  destruct (nth_error_ex s 0 ltac:(lia)) as [p Ep]. destruct (nth_error_ex s 1 ltac:(lia)) as [q Eq].
  assert (NP : forall i, nth_error (pre ++ s) (length pre + i) = nth_error s i).
  { intros i. rewrite nth_error_app2 by lia. f_equal. lia. }
  rewrite (rd_nth_error _ start p) by (rewrite <- Ep, <- NP; f_equal; lia). cbn [bind].
  rewrite (rd_nth_error _ (start + 1) q) by (rewrite <- Eq, <- NP; f_equal; lia). cbn [bind].
  assert (W : forall up, ord up p q -> exists c, run_loop cmp size (pre ++ s) up size (start + 2) = Ok c /\ (start + 2 <= c <= size - 1)%nat /\
      forall i a b, nth_error (firstn (c - start) s) i = Some a -> nth_error (firstn (c - start) s) (Datatypes.S i) = Some b -> ord up a b).
  { intros up O. pose proof (run_loop_ok (pre ++ s) up start size (start + 2)) as R. cbn zeta in R. rewrite app_length, <- Hz in R.
    destruct R as (c&R1&R2&R3); try lia.
    - intros i a b I1 I2 Ha Hb. assert (i = (length pre + 0)%nat) by lia. subst i. replace (Datatypes.S (length pre + 0)) with (length pre + 1)%nat in Hb by lia.
      rewrite NP in Ha, Hb. rewrite Ep in Ha. rewrite Eq in Hb. injection Ha as <-. injection Hb as <-. assumption.
    - exists c. split; [assumption|]. split; [assumption|]. intros i a b Ha Hb.
      assert (I : (Datatypes.S i < c - start)%nat) by (apply nth_error_Some_lt in Hb; rewrite firstn_length in Hb; lia).
      assert (FN : forall j, (j < c - start)%nat -> nth_error (firstn (c - start) s) j = nth_error s j).
      { intros j Hj. rewrite <- (firstn_skipn (c - start) s) at 2. rewrite nth_error_app1; [reflexivity|]. rewrite firstn_length. lia. }
      rewrite FN in Ha, Hb by lia. apply (R3 (length pre + i)%nat); try lia; [rewrite NP; exact Ha|].
      replace (Datatypes.S (length pre + i)) with (length pre + S i)%nat by lia. rewrite NP. exact Hb. }
  assert (FF : forall k, Forall ok (firstn k s)).
  { intros k. rewrite <- (firstn_skipn k s) in F. apply Forall_app in F. apply F. }
  destruct (Z.leb_spec (cmp p q) 0) as [Q|Q].
  - destruct (W true Q) as (c&R1&R2&R3). rewrite R1. cbn [bind].
    exists (firstn (c - start) s), (skipn (c - start) s), (firstn (c - start) s), (c - start)%nat.
    rewrite !firstn_skipn. rewrite firstn_length_le by lia. refine (conj _ (conj _ (conj _ (conj _ (conj _ _))))); auto; try lia; [apply SP_refl|].
    apply sorted_adj; auto.
  - destruct (W false Q) as (c&R1&R2&R3). rewrite R1. cbn [bind].
    destruct (rev_desc (firstn (c - start) s) (FF _) R3) as [P S].
    replace (pre ++ s) with (pre ++ firstn (c - start) s ++ skipn (c - start) s) by now rewrite firstn_skipn.
    rewrite (reverse_ok (length s)).
    + cbn [bind]. exists (firstn (c - start) s), (skipn (c - start) s), (rev (firstn (c - start) s)), (c - start)%nat.
      rewrite !firstn_skipn. rewrite firstn_length_le by lia. refine (conj _ (conj _ (conj _ (conj _ (conj _ _))))); auto; lia.
    + rewrite firstn_length. lia.
    + assumption.
    + rewrite firstn_length_le by lia. lia.
    + rewrite firstn_length. lia.
Qed.

(** ** merging *)
Lemma left_loop_ok (xs ys g p t pre : list A) n X e k i j : (* pre ++ xs is the storage *)
  length g = length xs -> k = length p -> i = length pre -> X = (length pre + length xs)%nat -> j = (length p + length g)%nat ->
  e = (length p + length g + length ys)%nat -> n = (length xs + length ys)%nat ->
  sorted xs -> sorted ys -> Forall ok xs -> Forall ok ys ->
  exists r, left_loop cmp n (p ++ g ++ ys ++ t) (pre ++ xs) X e k i j = Ok (p ++ r ++ t) /\ SP (xs ++ ys) r /\ sorted r.
Proof.
  revert xs ys g p pre k i j; induction n as [|n IH]; intros xs ys g p pre k i j Hg Hk Hi HX Hj He Hn S1 S2 F1 F2.
  - destruct xs; [|cbn in Hn; lia]. destruct ys; [|cbn in Hn; lia]. destruct g; [|cbn in Hg; lia]. cbn. exists []. split; [reflexivity|]. split; [apply SP_refl|constructor].
  - cbn [left_loop]. destruct xs as [|x xs].
    + destruct g; [|cbn in Hg; lia]. destruct (Nat.ltb_spec i X); [cbn in HX; lia|]. cbn [andb].
      exists ys. split; [reflexivity|]. split; [apply SP_refl|assumption].
    + destruct g as [|g0 g]; [cbn in Hg; lia|]. cbn [length] in *. destruct (Nat.ltb_spec i X) as [Li|]; [|lia]. cbn [andb].
      pose proof (Forall_inv F1) as Ox. pose proof (Forall_inv_tail F1) as F1'. cbn in Ox. apply sorted_cons_iff in S1. destruct S1 as [S1x S1].
      rewrite rd_at by assumption. cbn [bind].
      assert (TX : exists r, (do dst <- wr (p ++ (g0 :: g) ++ ys ++ t) k x; left_loop cmp n dst (pre ++ x :: xs) X e (Datatypes.S k) (Datatypes.S i) j) = Ok (p ++ r ++ t) /\
                   exists r', r = x :: r' /\ SP (xs ++ ys) r' /\ sorted r').
      { cbn [app]. rewrite wr_at by assumption. cbn [bind].
        replace (p ++ x :: g ++ ys ++ t) with ((p ++ [x]) ++ g ++ ys ++ t) by (rewrite <- app_assoc; reflexivity).
        replace (pre ++ x :: xs) with ((pre ++ [x]) ++ xs) by (rewrite <- app_assoc; reflexivity).
        destruct (IH xs ys g (p ++ [x]) (pre ++ [x]) (Datatypes.S k) (Datatypes.S i) j) as (r&E&P&S); auto; try (rewrite ?app_length; cbn [length]; lia).
        exists (x :: r). split; [rewrite E; f_equal; rewrite <- app_assoc; reflexivity|]. exists r. auto. }
      destruct ys as [|y ys].
      * destruct (Nat.ltb_spec j e); [cbn in *; lia|]. destruct TX as (r&E&r'&->&P&S). exists (x :: r'). split; [exact E|].
        split; [apply SP_cons, P|]. apply sorted_cons_iff. split; [|assumption]. intros v Hv. apply S1x.
        destruct P as [P _]. rewrite app_nil_r in P. apply Permutation_in with r'; [now apply Permutation_sym|assumption].
      * pose proof (Forall_inv F2) as Oy. pose proof (Forall_inv_tail F2) as F2'. cbn in Oy. pose proof S2 as S2y. apply sorted_cons_iff in S2y. destruct S2y as [S2y S2'].
        destruct (Nat.ltb_spec j e) as [Lj|]; [|cbn in *; lia].
        replace (p ++ (g0 :: g) ++ (y :: ys) ++ t) with ((p ++ g0 :: g) ++ y :: ys ++ t) by (rewrite <- app_assoc; reflexivity).
        rewrite rd_at by (rewrite app_length; cbn; lia). cbn [bind].
        replace ((p ++ g0 :: g) ++ y :: ys ++ t) with (p ++ (g0 :: g) ++ (y :: ys) ++ t) by (rewrite <- app_assoc; reflexivity).
        destruct (Z.leb_spec (cmp x y) 0) as [L|L].
        -- destruct TX as (r&E&r'&->&P&S). exists (x :: r'). split; [exact E|]. split; [apply SP_cons, P|].
           apply sorted_cons_iff. split; [|assumption]. intros v Hv. destruct P as [P _].
           apply (Permutation_in v (Permutation_sym P)) in Hv. apply in_app_or in Hv. destruct Hv as [Hv|[<-|Hv]]; auto.
           apply (le_trans x y v); auto. apply (ok_in ys); auto.
        -- cbn [app]. rewrite wr_at by assumption. cbn [bind].
           replace (p ++ y :: g ++ y :: ys ++ t) with ((p ++ [y]) ++ (g ++ [y]) ++ ys ++ t) by (rewrite <- !app_assoc; reflexivity).
           destruct (IH (x :: xs) ys (g ++ [y]) (p ++ [y]) pre (Datatypes.S k) i (Datatypes.S j)) as (r&E&P&S); auto; try (rewrite ?app_length; cbn [length] in *; lia).
           { apply sorted_cons_iff. auto. }
           exists (y :: r). split; [rewrite E; f_equal; rewrite <- app_assoc; reflexivity|].
           assert (G : forall v, In v (x :: xs) -> 0 < cmp v y).
           { intros v [<-|Hv]; [assumption|]. assert (Ov : ok v) by (apply (ok_in xs); auto). specialize (S1x v Hv).
             destruct (Z_lt_le_dec 0 (cmp v y)) as [|Q]; [assumption|]. assert (cmp x y <= 0) by (apply (le_trans x v y); auto). lia. }
           split.
           ++ eapply SP_trans; [|apply SP_cons, P]. apply SP_trans with (((x :: xs) ++ [y]) ++ ys); [rewrite <- app_assoc; apply SP_refl|].
              change (y :: (x :: xs) ++ ys) with ((y :: x :: xs) ++ ys). apply SP_app; [|apply SP_refl]. apply SP_move; auto.
           ++ apply sorted_cons_iff. split; [|assumption]. intros v Hv. destruct P as [P _].
              apply (Permutation_in v (Permutation_sym P)) in Hv. apply in_app_or in Hv. destruct Hv as [Hv|Hv]; [|auto].
              apply nle_ge; auto. apply (ok_in (x :: xs)); auto.
Qed.

Lemma right_loop_ok (xs ys g p t su : list A) n curr i j : (* ys ++ su is the storage *)
  length g = length ys -> curr = length p -> i = length ys -> j = (length p + length xs)%nat -> n = (length xs + length ys)%nat ->
  sorted xs -> sorted ys -> Forall ok xs -> Forall ok ys ->
  exists r, right_loop cmp n (p ++ xs ++ g ++ t) (ys ++ su) curr i j = Ok (p ++ r ++ t) /\ SP (xs ++ ys) r /\ sorted r.
Proof.
  revert xs ys g t su i j; induction n as [|n IH]; intros xs ys g t su i j Hg Hc Hi Hj Hn S1 S2 F1 F2.
  - destruct xs; [|cbn in Hn; lia]. destruct ys; [|cbn in Hn; lia]. destruct g; [|cbn in Hg; lia]. cbn. exists []. split; [reflexivity|]. split; [apply SP_refl|constructor].
  - cbn [right_loop]. destruct ys as [|y0 ys0] eqn:Ey.
    + destruct g; [|cbn in Hg; lia]. subst i. cbn [length Nat.ltb Nat.leb andb]. exists xs. rewrite app_nil_r. split; [reflexivity|]. split; [apply SP_refl|assumption].
    + destruct (list_snoc ys) as [ys' [y Es]]; [congruence|]. rewrite <- Ey in *. clear Ey y0 ys0. rewrite Es in *. clear ys Es. rename ys' into ys.
      destruct (list_snoc g) as [g' [g0 Eg]]; [destruct g; [rewrite app_length in Hg; cbn in Hg; lia|discriminate]|]. rewrite Eg in *. clear g Eg. rename g' into g.
      rewrite !app_length in *. cbn [length] in *. destruct (Nat.ltb_spec 0 i) as [Li|]; [|lia]. cbn [andb].
      apply Forall_app in F2. destruct F2 as [F2 Oy]. apply Forall_inv in Oy. apply sorted_app in S2. destruct S2 as (S2&_&S2y).
      assert (Lg : length g = length ys) by lia.
      replace ((ys ++ [y]) ++ su) with (ys ++ y :: su) by (rewrite <- app_assoc; reflexivity). rewrite (rd_at ys su y) by lia.
      assert (TY : exists r, (do dst <- wr (p ++ xs ++ (g ++ [g0]) ++ t) (curr + n) y; right_loop cmp n dst (ys ++ y :: su) curr (i - 1) j) = Ok (p ++ r ++ t) /\
                   exists r', r = r' ++ [y] /\ SP (xs ++ ys) r' /\ sorted r').
      { replace (p ++ xs ++ (g ++ [g0]) ++ t) with ((p ++ xs ++ g) ++ g0 :: t) by (rewrite <- !app_assoc; reflexivity).
        rewrite wr_at by (rewrite !app_length; lia). cbn [bind].
        replace ((p ++ xs ++ g) ++ y :: t) with (p ++ xs ++ g ++ y :: t) by (rewrite <- !app_assoc; reflexivity).
        destruct (IH xs ys g (y :: t) (y :: su) (i - 1)%nat j) as (r&E&P&S); auto; try lia.
        exists (r ++ [y]). split; [rewrite E; f_equal; rewrite <- app_assoc; reflexivity|]. exists r. auto. }
      destruct xs as [|x0 xs0] eqn:Ex.
      * cbn [length] in *. destruct (Nat.ltb_spec curr j); [lia|]. cbn [bind]. destruct TY as (r&E&r'&->&P&S). exists (r' ++ [y]). split; [exact E|].
        split; [cbn [app]; apply SP_app; [exact P|apply SP_refl]|]. apply sorted_app. split; [assumption|]. split; [repeat constructor|].
        intros u v Hu Hv. apply S2y; [|assumption]. destruct P as [P _]. apply (Permutation_in u (Permutation_sym P)) in Hu. exact Hu.
      * destruct (list_snoc xs) as [xs' [x Es]]; [congruence|]. rewrite <- Ex in *. clear Ex x0 xs0. rewrite Es in *. clear xs Es. rename xs' into xs.
        rewrite !app_length in *. cbn [length] in *. destruct (Nat.ltb_spec curr j) as [Lj|]; [|lia].
        pose proof F1 as F1'. apply Forall_app in F1'. destruct F1' as [F1' Ox]. apply Forall_inv in Ox. pose proof S1 as S1'. apply sorted_app in S1'. destruct S1' as (S1'&_&S1x).
        replace (p ++ (xs ++ [x]) ++ (g ++ [g0]) ++ t) with ((p ++ xs) ++ x :: g ++ g0 :: t) by (rewrite <- !app_assoc; reflexivity).
        rewrite rd_at by (rewrite app_length; lia). cbn [bind].
        replace ((p ++ xs) ++ x :: g ++ g0 :: t) with (p ++ (xs ++ [x]) ++ (g ++ [g0]) ++ t) by (rewrite <- !app_assoc; reflexivity).
        destruct (Z.ltb_spec 0 (cmp x y)) as [L|L].
        -- replace (p ++ (xs ++ [x]) ++ (g ++ [g0]) ++ t) with ((p ++ xs ++ x :: g) ++ g0 :: t) by (rewrite <- !app_assoc; reflexivity).
           rewrite wr_at by (rewrite !app_length; cbn [length]; lia). cbn [bind].
           replace ((p ++ xs ++ x :: g) ++ x :: t) with (p ++ xs ++ (x :: g) ++ x :: t) by (rewrite <- !app_assoc; reflexivity).
           replace (ys ++ y :: su) with ((ys ++ [y]) ++ su) by (rewrite <- app_assoc; reflexivity).
           destruct (IH xs (ys ++ [y]) (x :: g) (x :: t) su i (j - 1)%nat) as (r&E&P&S); auto; try (rewrite ?app_length; cbn [length]; lia).
           { apply sorted_app. split; [assumption|]. split; [repeat constructor|assumption]. }
           { apply Forall_app. auto. }
           exists (r ++ [x]). split; [rewrite E; f_equal; rewrite <- app_assoc; reflexivity|].
           assert (G : forall v, In v (ys ++ [y]) -> 0 < cmp x v).
           { intros v Hv. apply in_app_or in Hv. destruct Hv as [Hv|[<-|[]]]; [|assumption]. assert (Ov : ok v) by (apply (ok_in ys); auto).
             assert (Q1 : cmp v y <= 0) by (apply S2y; cbn; auto).
             destruct (Z_lt_le_dec 0 (cmp x v)) as [|Q]; [assumption|]. assert (cmp x y <= 0) by (apply (le_trans x v y); auto). lia. }
           split.
           ++ eapply SP_trans; [|apply SP_app; [exact P|apply SP_refl]].
              replace ((xs ++ [x]) ++ ys ++ [y]) with (xs ++ x :: ys ++ [y]) by (rewrite <- !app_assoc; reflexivity). rewrite <- !app_assoc.
              apply SP_app; [apply SP_refl|]. rewrite app_assoc. apply SP_sym, SP_move; auto. apply Forall_app; auto.
           ++ apply sorted_app. split; [assumption|]. split; [repeat constructor|]. intros u v Hu [<-|[]]. destruct P as [P _].
              apply (Permutation_in u (Permutation_sym P)) in Hu. apply in_app_or in Hu. destruct Hu as [Hu|Hu].
              ** apply S1x; cbn; auto.
              ** apply nle_ge; auto. apply (ok_in (ys ++ [y])); auto. apply Forall_app; auto.
        -- destruct TY as (r&E&r'&->&P&S). exists (r' ++ [y]). split; [exact E|].
           split; [rewrite app_assoc; apply SP_app; [exact P|apply SP_refl]|]. apply sorted_app. split; [assumption|]. split; [repeat constructor|].
           intros u v Hu [<-|[]]. destruct P as [P _]. apply (Permutation_in u (Permutation_sym P)) in Hu. apply in_app_or in Hu. destruct Hu as [Hu|Hu].
           ++ apply in_app_or in Hu. destruct Hu as [Hu|[<-|[]]]; [|assumption]. apply (le_trans u x y); auto; [apply (ok_in xs); auto|]. apply S1x; cbn; auto.
           ++ apply S2y; cbn; auto.
Qed.

Lemma cpy_ok (p s t : list A) alloc o n : o = length p -> n = length s -> (n <= alloc)%nat -> cpy_storage alloc (p ++ s ++ t) o n = Ok s.
Proof.
  intros Ho Hn Ha. unfold cpy_storage. destruct (Nat.ltb_spec alloc n); [lia|]. rewrite !app_length.
  destruct (Nat.ltb_spec (length p + (length s + length t)) (o + n)); [lia|]. cbn [orb]. f_equal. subst.
  rewrite skipn_app, Nat.sub_diag, skipn_all. cbn [skipn app]. rewrite firstn_app, Nat.sub_diag, firstn_all. cbn [firstn]. apply app_nil_r.
Qed.
Lemma resize_ok alloc m : (m <= resize alloc m)%nat.
Proof. unfold resize. destruct (Nat.ltb_spec alloc (2 * m)); lia. Qed.

Lemma merge_ok (p xs ys t : list A) alloc lo hi : lo = (length p, length xs) -> snd hi = length ys -> sorted xs -> sorted ys -> Forall ok xs -> Forall ok ys ->
  exists r alloc', tim_merge cmp (p ++ xs ++ ys ++ t) alloc lo hi = Ok (p ++ r ++ t, alloc') /\ SP (xs ++ ys) r /\ sorted r.
Proof.
  intros -> Hh S1 S2 F1 F2. unfold tim_merge. cbn [fst snd]. rewrite Hh.
  set (al := resize alloc (Nat.min (length xs) (length ys))). pose proof (resize_ok alloc (Nat.min (length xs) (length ys))) as R. fold al in R.
  destruct (Nat.ltb_spec (length xs) (length ys)) as [L|L].
  - rewrite (cpy_ok p xs (ys ++ t)) by lia. cbn [bind].
    destruct (left_loop_ok xs ys xs p t [] (length xs + length ys) (length xs) (length p + length xs + length ys) (length p) 0 (length p + length xs)) as (r&E&P&S); auto.
    cbn [app] in E. rewrite E. cbn [bind]. exists r, al. auto.
  - replace (p ++ xs ++ ys ++ t) with ((p ++ xs) ++ ys ++ t) by (rewrite <- app_assoc; reflexivity).
    rewrite (cpy_ok (p ++ xs) ys t); [|rewrite app_length; reflexivity|reflexivity|lia]. cbn [bind].
    replace ((p ++ xs) ++ ys ++ t) with (p ++ xs ++ ys ++ t) by (rewrite <- app_assoc; reflexivity).
    destruct (right_loop_ok xs ys ys p t [] (length xs + length ys) (length p) (length ys) (length p + length xs)) as (r&E&P&S); auto.
    rewrite app_nil_r in E. rewrite E. cbn [bind]. exists r, al. auto.
Qed.
End P.
