From Verif Require Import Base BitLemmas HashMapModel HashMapSpec HashMapProof HashMapProof2.

Section S.
Context {K V : Type}.
Variable eqk : K -> K -> bool.
Variable hash : K -> Z.
Hypothesis eq_refl_ : forall a, eqk a a = true.
Hypothesis eq_sym_ : forall a b, eqk a b = eqk b a.
Hypothesis eq_trans_ : forall a b c, eqk a b = true -> eqk b c = true -> eqk a c = true.
Hypothesis hash_range : forall a, 0 <= hash a < 2^64.
Hypothesis hash_eq : forall a b, eqk a b = true -> hash a = hash b.

Fixpoint zs (ks : list (option K)) (vs : list (option V)) : list (K * V) :=
  match ks, vs with
  | Some k :: ks, Some v :: vs => (k, v) :: zs ks vs
  | _ :: ks, _ :: vs => zs ks vs
  | _, _ => []
  end.
Definition abs (s : @state K V) := zs (keys s) (vals s).

Definition masks (ks : list (option K)) (vs : list (option V)) := map isSome ks = map isSome vs.

Record SInv (s : @state K V) (m : hmap) : Prop := {
  S_obj : obj s = Some m;
  S_ti : TI hash (hp m) (shf m) (keys s) (length (keys s));
  S_mask : masks (keys s) (vals s);
  S_pop : pop m = Z.of_nat (length (abs s));
  S_dist : forall i j a b, i <> j -> nth_error (keys s) i = Some (Some a) -> nth_error (keys s) j = Some (Some b) -> eqk a b = false
}.

(** The lists are never much longer than twice the number of keys. *)
Definition Ld (s : @state K V) (m : hmap) : Prop := Z.of_nat (length (keys s)) / 2 <= pop m + 32.

Lemma masks_length ks vs : masks ks vs -> length ks = length vs.
Proof. intros H. unfold masks in H. rewrite <- (map_length isSome ks), H, map_length. reflexivity. Qed.
Lemma masks_nth ks vs i : masks ks vs -> option_map isSome (nth_error ks i) = option_map isSome (nth_error vs i).
Proof. intros H. rewrite <- !nth_error_map, H. reflexivity. Qed.
Lemma masks_val ks vs i k : masks ks vs -> nth_error ks i = Some (Some k) -> exists v, nth_error vs i = Some (Some v).
Proof.
  intros H E. assert (X := masks_nth _ _ i H). rewrite E in X. cbn in X. destruct (nth_error vs i) as [[v|]|]; cbn in X; try discriminate. eauto.
Qed.
Lemma masks_cons k ks v vs : masks (k :: ks) (v :: vs) -> isSome k = isSome v /\ masks ks vs.
Proof. unfold masks. cbn. intros H. injection H. auto. Qed.

Lemma get_none ks vs x : masks ks vs -> (forall i k, nth_error ks i = Some (Some k) -> eqk x k = false) -> a_get eqk (zs ks vs) x = None.
Proof.
  revert vs. induction ks as [|k ks IH]; intros vs H N; [reflexivity|]. destruct vs as [|v vs]; [destruct k; reflexivity|].
  apply masks_cons in H. destruct H as [E H].
  assert (R : a_get eqk (zs ks vs) x = None) by (apply IH; [exact H|]; intros i k' Hk; exact (N (S i) k' Hk)).
  destruct k as [k|]; [|destruct v; exact R]. destruct v as [v|]; [|discriminate]. cbn. rewrite (N 0%nat k eq_refl). exact R.
Qed.
Lemma get_some ks vs x i k v : masks ks vs -> nth_error ks i = Some (Some k) -> nth_error vs i = Some (Some v) -> eqk x k = true ->
  (forall j k', (j < i)%nat -> nth_error ks j = Some (Some k') -> eqk x k' = false) -> a_get eqk (zs ks vs) x = Some v.
Proof.
  revert vs i. induction ks as [|k0 ks IH]; intros vs i H Hk Hv E N; [destruct i; discriminate|]. destruct vs as [|v0 vs]; [destruct i; discriminate|].
  apply masks_cons in H. destruct H as [Em H]. destruct i as [|i].
  - cbn in Hk, Hv. injection Hk as ->. injection Hv as ->. cbn. rewrite E. reflexivity.
  - assert (R : a_get eqk (zs ks vs) x = Some v) by (apply (IH vs i); auto; intros j k' L Hj; apply (N (S j)); [lia|exact Hj]).
    destruct k0 as [k0|]; [|destruct v0; exact R]. destruct v0 as [v0|]; [|discriminate]. cbn. rewrite (N 0%nat k0); [exact R|lia|reflexivity].
Qed.
Lemma set_found ks vs x i k v0 v : masks ks vs -> nth_error ks i = Some (Some k) -> nth_error vs i = Some (Some v0) -> eqk x k = true ->
  (forall j k', (j < i)%nat -> nth_error ks j = Some (Some k') -> eqk x k' = false) -> zs ks (upd vs i (Some v)) = a_set eqk (zs ks vs) x v.
Proof.
  revert vs i. induction ks as [|k0 ks IH]; intros vs i H Hk Hv E N; [destruct i; discriminate|]. destruct vs as [|v1 vs]; [destruct i; discriminate|].
  apply masks_cons in H. destruct H as [Em H]. destruct i as [|i].
  - cbn in Hk, Hv. injection Hk as ->. injection Hv as ->. cbn. rewrite E. reflexivity.
  - assert (R : zs ks (upd vs i (Some v)) = a_set eqk (zs ks vs) x v) by (apply (IH vs i); auto; intros j k' L Hj; apply (N (S j)); [lia|exact Hj]).
    destruct k0 as [k0|]; [|destruct v1; exact R]. destruct v1 as [v1|]; [|discriminate]. cbn. rewrite (N 0%nat k0); [rewrite R; reflexivity|lia|reflexivity].
Qed.
Lemma set_new ks vs x v : masks ks vs -> (forall i k, nth_error ks i = Some (Some k) -> eqk x k = false) ->
  zs (ks ++ [Some x]) (vs ++ [Some v]) = a_set eqk (zs ks vs) x v.
Proof.
  revert vs. induction ks as [|k ks IH]; intros vs H N; destruct vs as [|v0 vs]; try discriminate; [reflexivity|].
  apply masks_cons in H. destruct H as [E H].
  assert (R : zs (ks ++ [Some x]) (vs ++ [Some v]) = a_set eqk (zs ks vs) x v) by (apply IH; [exact H|]; intros i k' Hk; exact (N (S i) k' Hk)).
  destruct k as [k|]; [|destruct v0; exact R]. destruct v0 as [v0|]; [|discriminate]. cbn. rewrite (N 0%nat k eq_refl), R. reflexivity.
Qed.
Lemma set_new_len (m : list (K*V)) x v : a_get eqk m x = None -> length (a_set eqk m x v) = S (length m).
Proof. induction m as [|[k' v'] m IH]; cbn; intros H; [reflexivity|]. destruct (eqk x k'); [discriminate|]. cbn. rewrite IH by exact H. reflexivity. Qed.
Lemma set_old_len (m : list (K*V)) x v v0 : a_get eqk m x = Some v0 -> length (a_set eqk m x v) = length m.
Proof. induction m as [|[k' v'] m IH]; cbn; intros H; [discriminate|]. destruct (eqk x k'); [reflexivity|]. cbn. rewrite IH by exact H. reflexivity. Qed.
Lemma del_abs ks vs x i k : masks ks vs -> nth_error ks i = Some (Some k) -> eqk x k = true ->
  (forall j k', (j < i)%nat -> nth_error ks j = Some (Some k') -> eqk x k' = false) ->
  zs (upd ks i None) (upd vs i None) = a_delete eqk (zs ks vs) x /\ (length (zs ks vs) = S (length (a_delete eqk (zs ks vs) x)))%nat.
Proof.
  revert vs i. induction ks as [|k0 ks IH]; intros vs i H Hk E N; [destruct i; discriminate|]. destruct vs as [|v0 vs]; [discriminate|].
  apply masks_cons in H. destruct H as [Em H]. destruct i as [|i].
  - cbn in Hk. injection Hk as ->. destruct v0 as [v0|]; [|discriminate]. cbn. rewrite E. split; reflexivity.
  - destruct (IH vs i) as [R1 R2]; auto. { intros j k' L Hj; apply (N (S j)); [lia|exact Hj]. }
    destruct k0 as [k0|]; [|destruct v0; (split; [exact R1|exact R2])]. destruct v0 as [v0|]; [|discriminate]. cbn. rewrite (N 0%nat k0); [|lia|reflexivity].
    rewrite R1. cbn [length]. split; [reflexivity|]. rewrite R2. reflexivity.
Qed.
Lemma get_delete_none (m : list (K*V)) x : a_get eqk m x = None -> a_delete eqk m x = m.
Proof. induction m as [|[k' v'] m IH]; cbn; intros H; [reflexivity|]. destruct (eqk x k'); [discriminate|]. rewrite IH by exact H. reflexivity. Qed.

(** The keys before a found one differ from the searched key. *)
Lemma before_found (s : @state K V) m x i k : SInv s m -> nth_error (keys s) i = Some (Some k) -> eqk x k = true ->
  forall j k', (j < i)%nat -> nth_error (keys s) j = Some (Some k') -> eqk x k' = false.
Proof.
  intros [_ _ _ _ D] Hi E j k' L Hj. destruct (eqk x k') eqn:E'; [|reflexivity]. exfalso.
  assert (eqk k k' = true) by (apply (eq_trans_ k x k'); [rewrite eq_sym_; exact E|exact E']).
  rewrite (D i j k k') in H; [discriminate|lia|exact Hi|exact Hj].
Qed.

Lemma lookup_spec s m x : SInv s m -> lookup eqk hash s x = Ok (a_get eqk (abs s) x).
Proof.
  intros HS. assert (HS' := HS). destruct HS' as [So St Sm Sp Sd]. unfold lookup. rewrite So.
  assert (F := find_spec eqk hash eq_refl_ eq_sym_ eq_trans_ hash_range hash_eq _ _ _ _ x St).
  destruct (find eqk hash (hp m) (shf m) (keys s) x) as [[j i|j u]| |]; cbn [bind find_post] in *; try contradiction.
  - destruct F as [k [Hi [Hk [E _]]]]. destruct (masks_val _ _ _ _ Sm Hk) as [v Hv]. unfold rd. rewrite Hv. cbn [bind]. do 2 f_equal.
    symmetry. apply (get_some _ _ x i k v); auto. eapply before_found; eauto.
  - destruct F as [_ [_ [_ [_ [_ [_ F]]]]]]. do 2 f_equal. symmetry. apply get_none; auto. intros i k Hk. apply (F i k); auto. eapply nth_error_Some_lt; eauto.
Qed.

(** Compaction *)
Definition rank {A} (l : list (option A)) (i : nat) : nat := length (filter isSome (firstn i l)).

Lemma rank_S {A} (l : list (option A)) i a : nth_error l i = Some a -> rank l (S i) = (rank l i + if isSome a then 1 else 0)%nat.
Proof. intros H. unfold rank. rewrite (firstn_S l i a H), filter_app_, app_length. cbn. destruct (isSome a); reflexivity. Qed.
Lemma filter_len {A} (f : A -> bool) l : (length (filter f l) <= length l)%nat.
Proof. induction l as [|a l IH]; cbn; [lia|]. destruct (f a); cbn; lia. Qed.
Lemma rank_le {A} (l : list (option A)) i : (rank l i <= i)%nat.
Proof. unfold rank. assert (X := filter_len isSome (firstn i l)). rewrite firstn_length in X. lia. Qed.
Lemma rank_mono {A} (l : list (option A)) i j : (i <= j)%nat -> (rank l i <= rank l j)%nat.
Proof.
  intros H. unfold rank. replace j with (i + (j - i))%nat by lia. 
  assert (E : firstn (i + (j-i)) l = firstn i l ++ firstn (j-i) (skipn i l)).
  { generalize (j-i)%nat as d. clear. intros d. revert l. induction i as [|i IH]; intros l; cbn; [reflexivity|]. destruct l; cbn; [destruct d; reflexivity|]. rewrite IH. reflexivity. }
  rewrite E, filter_app_, app_length. lia.
Qed.
Lemma rank_inj {A} (l : list (option A)) i j a b : nth_error l i = Some (Some a) -> nth_error l j = Some (Some b) -> rank l i = rank l j -> i = j.
Proof.
  intros Hi Hj E. assert (Si := rank_S _ _ _ Hi). assert (Sj := rank_S _ _ _ Hj). cbn [isSome] in Si, Sj.
  destruct (Nat.lt_trichotomy i j) as [L|[L|L]]; [|exact L|].
  - assert (X := rank_mono l (S i) j L). lia.
  - assert (X := rank_mono l (S j) i L). lia.
Qed.
Lemma rank_nth {A} (l : list (option A)) i a : nth_error l i = Some (Some a) -> nth_error (filter isSome l) (rank l i) = Some (Some a).
Proof.
  intros H. rewrite <- (firstn_skipn i l) at 1. rewrite filter_app_.
  assert (Hs : exists t, skipn i l = Some a :: t).
  { clear -H. revert i H. induction l as [|b l IH]; intros [|i] H; try discriminate; cbn in *; [injection H as ->; eauto|apply IH; exact H]. }
  destruct Hs as [t ->]. unfold rank. rewrite nth_error_app2 by lia. rewrite Nat.sub_diag. reflexivity.
Qed.
Lemma rank_surj {A} (l : list (option A)) r x : nth_error (filter isSome l) r = Some x -> exists i a, x = Some a /\ nth_error l i = Some (Some a) /\ rank l i = r.
Proof.
  revert r. induction l as [|b l IH]; intros r H; [destruct r; discriminate|]. cbn in H. destruct b as [b|]; cbn in H.
  - destruct r as [|r]; cbn in H; [injection H as <-; exists 0%nat, b; auto|].
    destruct (IH r H) as [i [a [E [N R]]]]. exists (S i), a. split; [exact E|]. split; [exact N|]. unfold rank in *. cbn. rewrite R. reflexivity.
  - destruct (IH r H) as [i [a [E [N R]]]]. exists (S i), a. split; [exact E|]. split; [exact N|]. unfold rank in *. cbn. exact R.
Qed.

Lemma trim_spec (ks : list (option K)) : forall l, (l <= length ks)%nat -> (forall i, (l <= i < length ks)%nat -> nth_error ks i = Some None) ->
  (trim ks l <= length ks)%nat /\ (forall i, (trim ks l <= i < length ks)%nat -> nth_error ks i = Some None).
Proof.
  induction l as [|l IH]; intros Hl Hn; cbn [trim]; [auto|].
  destruct (nth_error ks l) as [[k|]|] eqn:E; auto. apply IH; [lia|]. intros i Hi. destruct (Nat.eq_dec i l) as [->|]; [exact E|]. apply Hn. lia.
Qed.

Lemma nth_error_firstn {A} (l : list A) n i : (i < n)%nat -> nth_error (firstn n l) i = nth_error l i.
Proof. revert n i; induction l as [|a l IH]; intros [|n] [|i] H; cbn; try lia; try reflexivity. apply IH. lia. Qed.

Lemma upd_filter_step {A} (l0 l : list A) (P : A -> bool) i j x :
  firstn j l = filter P (firstn i l0) -> length l = length l0 -> (j <= i)%nat -> (i < length l0)%nat ->
  nth_error l0 i = Some x -> 
  firstn (if P x then S j else j) (upd l j x) = filter P (firstn (S i) l0).
Proof.
  intros H Hl Hj Hi Hx. rewrite (firstn_S l0 i x Hx), filter_app_. cbn [filter].
  assert (F : firstn j (upd l j x) = firstn j l).
  { apply nth_error_ext. intros q. destruct (Nat.lt_ge_cases q j).
    - rewrite !nth_error_firstn by lia. apply upd_other. lia.
    - rewrite !(proj2 (nth_error_None _ _)); [reflexivity|rewrite firstn_length; lia|rewrite firstn_length; lia]. }
  destruct (P x).
  - rewrite (firstn_S (upd l j x) j x) by (apply upd_same; lia). rewrite F, H. reflexivity.
  - rewrite app_nil_r, F. exact H.
Qed.

Lemma compact_loop_spec (ks0 : list (option K)) (vs0 : list (option V)) l : masks ks0 vs0 -> (l <= length ks0)%nat ->
  forall todo i ks vs ind j, (i + todo = l)%nat -> j = rank ks0 i -> length ks = length ks0 -> length vs = length vs0 ->
  firstn j ks = filter isSome (firstn i ks0) -> firstn j vs = filter isSome (firstn i vs0) ->
  (forall q, (i <= q)%nat -> nth_error ks q = nth_error ks0 q) -> (forall q, (i <= q)%nat -> nth_error vs q = nth_error vs0 q) ->
  length ind = S l -> nth_error ind 0 = Some HMASK -> (forall q, (q < i)%nat -> nth_error ind (S q) = Some (Z.of_nat (rank ks0 q))) ->
  exists ks' vs' ind', compact_loop todo i ks vs ind j = Ok (ks', vs', ind', rank ks0 l) /\
    firstn (rank ks0 l) ks' = filter isSome (firstn l ks0) /\ firstn (rank ks0 l) vs' = filter isSome (firstn l vs0) /\
    length ind' = S l /\ nth_error ind' 0 = Some HMASK /\ (forall q, (q < l)%nat -> nth_error ind' (S q) = Some (Z.of_nat (rank ks0 q))).
Proof.
  intros Hm Hl. assert (Hlen := masks_length _ _ Hm).
  induction todo as [|todo IH]; intros i ks vs ind j Hi Hj Lk Lv Fk Fv Sk Sv Li I0 Iq; cbn [compact_loop].
  - assert (i = l) by lia. subst i j. exists ks, vs, ind. repeat split; auto.
  - assert (Hil : (i < length ks0)%nat) by lia. assert (Hr := rank_le ks0 i).
    destruct (nth_error ks0 i) as [x|] eqn:Ex; [|apply nth_error_None in Ex; lia].
    destruct (nth_error vs0 i) as [y|] eqn:Ey; [|apply nth_error_None in Ey; lia].
    assert (Hxy : isSome x = isSome y) by (assert (X := masks_nth _ _ i Hm); rewrite Ex, Ey in X; cbn in X; congruence).
    unfold rd. rewrite Sk, Ex by lia. cbn [bind]. rewrite wr_ok by lia. cbn [bind]. rewrite Sv, Ey by lia. cbn [bind].
    rewrite wr_ok by lia. cbn [bind]. rewrite wr_ok by lia. cbn [bind].
    apply IH; try lia; rewrite ?upd_length; try assumption; try lia.
    + rewrite (rank_S _ _ _ Ex), Hj. destruct (isSome x); lia.
    + apply upd_filter_step; auto; try lia. 
    + rewrite Hxy. apply upd_filter_step; auto; try lia. 
    + intros q Hq. rewrite upd_other by lia. apply Sk. lia.
    + intros q Hq. rewrite upd_other by lia. apply Sv. lia.
    + rewrite upd_other by lia. exact I0.
    + intros q Hq. destruct (Nat.eq_dec q i) as [->|].
      * rewrite upd_same by lia. rewrite Hj. reflexivity.
      * rewrite upd_other by lia. apply Iq. lia.
Qed.

Lemma remap_spec ind f : forall a, (forall u, In u a -> nth_error ind (Z.to_nat ((Z.land u HMASK + 1) mod 2^32)) = Some (f u)) ->
  exists a', remap a ind = Ok a' /\ a' = map (fun u => Z.lor (Z.ldiff u HMASK) (f u)) a.
Proof.
  induction a as [|h a IH]; intros H; [eexists; split; reflexivity|]. destruct IH as [a' [E ->]]. { intros u Hu. apply H. right. exact Hu. }
  cbn [remap]. unfold rd. rewrite (H h (or_introl eq_refl)). cbn [bind]. rewrite E. cbn [bind]. eexists. split; reflexivity.
Qed.

Lemma filter_all_none {A} (l : list (option A)) n : (forall i, (n <= i < length l)%nat -> nth_error l i = Some None) -> filter isSome (firstn n l) = filter isSome l.
Proof.
  revert n. induction l as [|a l IH]; intros n H; [destruct n; reflexivity|]. destruct n as [|n].
  - cbn [firstn filter]. assert (a = None) as -> by (specialize (H 0%nat); cbn in H; assert (Some a = Some None) by (apply H; lia); congruence). cbn [isSome].
    rewrite <- (IH 0%nat); [reflexivity|]. intros i Hi. apply (H (S i)). cbn. lia.
  - cbn [firstn filter]. rewrite IH; [reflexivity|]. intros i Hi. apply (H (S i)). cbn. lia.
Qed.

Lemma zs_filter ks vs : masks ks vs -> zs (filter isSome ks) (filter isSome vs) = zs ks vs.
Proof.
  revert vs. induction ks as [|k ks IH]; intros [|v vs] H; try discriminate; [reflexivity|]. apply masks_cons in H. destruct H as [E H].
  destruct k, v; try discriminate; cbn; rewrite IH by exact H; reflexivity.
Qed.
Lemma zs_len ks vs : masks ks vs -> length (zs ks vs) = length (filter isSome ks).
Proof.
  revert vs. induction ks as [|k ks IH]; intros [|v vs] H; try discriminate; [reflexivity|]. apply masks_cons in H. destruct H as [E H].
  destruct k, v; try discriminate; cbn; rewrite IH by exact H; reflexivity.
Qed.
Lemma mask_filter ks vs : masks ks vs -> masks (filter isSome ks) (filter isSome vs).
Proof.
  revert vs. induction ks as [|k ks IH]; intros [|v vs] H; try discriminate; [reflexivity|]. apply masks_cons in H. destruct H as [E H].
  destruct k, v; try discriminate; cbn; [|apply IH; exact H]. unfold masks in *. cbn. f_equal. apply IH. exact H.
Qed.

Lemma mask_none (ks : list (option K)) (vs : list (option V)) i : masks ks vs -> nth_error ks i = Some None -> nth_error vs i = Some None.
Proof. intros H E. assert (X := masks_nth _ _ i H). rewrite E in X. cbn in X. destruct (nth_error vs i) as [[v|]|]; cbn in X; try discriminate. reflexivity. Qed.

Lemma compact_spec s m : SInv s m -> exists s' m', compact s = Ok s' /\ SInv s' m' /\ abs s' = abs s /\ Ld s' m' /\
  keys s' = filter isSome (keys s) /\ vals s' = filter isSome (vals s).
Proof.
  intros [So St Sm Sp Sd]. unfold compact.
  set (l := trim (keys s) (length (keys s))).
  destruct (trim_spec (keys s) (length (keys s))) as [Hl Hnone]; [lia|lia|]. fold l in Hl, Hnone.
  assert (Hlen := masks_length _ _ Sm).
  destruct (compact_loop_spec (keys s) (vals s) l Sm Hl l 0 (keys s) (vals s) (HMASK :: repeat 0 l) 0) as [ks' [vs' [ind' [E [Fk [Fv [Li [I0 Iq]]]]]]]]; auto; try lia.
  { cbn. rewrite repeat_length. reflexivity. }
  rewrite E. cbn [bind]. rewrite Fk, Fv.
  rewrite (filter_all_none (keys s) l Hnone).
  rewrite (filter_all_none (vals s) l) by (intros i Hi; apply (mask_none (keys s)); [exact Sm|apply Hnone; lia]).
  assert (Er : rank (keys s) l = length (filter isSome (keys s))) by (unfold rank; rewrite filter_all_none by exact Hnone; reflexivity).
  assert (Hdist : forall i j a b, i <> j -> nth_error (filter isSome (keys s)) i = Some (Some a) -> nth_error (filter isSome (keys s)) j = Some (Some b) -> eqk a b = false).
  { intros i j a b Nij Ha Hb. apply rank_surj in Ha. destruct Ha as [i' [a' [Ea [Ha R1]]]]. apply rank_surj in Hb. destruct Hb as [j' [b' [Eb [Hb R2]]]].
    injection Ea as <-. injection Eb as <-. apply (Sd i' j'); auto. intros ->. lia. }
  assert (Hlenf := filter_len isSome (keys s)).
  destruct St as [T1 T2 T3 T4 T5 T6].
  assert (Habs : zs (filter isSome (keys s)) (filter isSome (vals s)) = abs s) by (apply zs_filter; exact Sm).
  destruct (Nat.ltb_spec 0 (rank (keys s) l)) as [Hpos|Hz].
  - rewrite So.
    set (g := fun u => if u =? EMPTY then HMASK else Z.of_nat (rank (keys s) (Z.to_nat (lo u)))).
    assert (Hlive : forall u, In u (hp m) -> u <> EMPTY -> live hash (keys s) (length (keys s)) u).
    { intros u Hu Nu. apply T5. split; [exact Nu|]. apply In_nth with (d := EMPTY) in Hu. destruct Hu as [p [_ Ep]]. exists p. exact Ep. }
    destruct (remap_spec ind' g (hp m)) as [a' [Ea ->]].
    { intros u Hu. rewrite land_hmask. unfold g. destruct (Z.eqb_spec u EMPTY) as [->|Nu].
      - replace (Z.to_nat ((lo EMPTY + 1) mod 2^32)) with 0%nat by reflexivity. exact I0.
      - destruct (Hlive u Hu Nu) as [i [k [Hi [Hk ->]]]].
        assert (Hir : 0 <= Z.of_nat i < 2^32) by (unfold maxElems in T6; change (2^28) with 268435456 in T6; change (2^32) with 4294967296; lia).
        rewrite lo_mk by exact Hir.
        assert (Z.to_nat ((Z.of_nat i + 1) mod 2^32) = S i) as -> by (rewrite Z.mod_small; [lia|]; unfold maxElems in T6; change (2^28) with 268435456 in T6; change (2^32) with 4294967296; lia).
        rewrite Nat2Z.id. apply Iq. destruct (Nat.lt_ge_cases i l); [assumption|]. rewrite Hnone in Hk by lia. discriminate. }
    rewrite Ea. cbn [bind]. set (F := fun u => Z.lor (Z.ldiff u HMASK) (g u)).
    assert (FE : F EMPTY = EMPTY) by (unfold F, g; rewrite Z.eqb_refl; reflexivity).
    assert (FL : forall u, live hash (keys s) (length (keys s)) u -> F u = hi u * 2^32 + Z.of_nat (rank (keys s) (Z.to_nat (lo u))) /\ hi (F u) = hi u /\ lo (F u) = Z.of_nat (rank (keys s) (Z.to_nat (lo u))) /\ 0 <= F u < EMPTY).
    { intros u Hu. assert (X := live_lt eqk hash eq_refl_ eq_sym_ eq_trans_ hash_range hash_eq _ _ _ T6 Hu). destruct Hu as [i [k [Hi [Hk ->]]]].
      assert (Hir : 0 <= Z.of_nat i < 2^32) by (unfold maxElems in T6; change (2^28) with 268435456 in T6; change (2^32) with 4294967296; lia).
      rewrite lo_mk, hi_mk by exact Hir. rewrite Nat2Z.id. assert (Y := rank_le (keys s) i). assert (Hhh := hash_hi eqk hash eq_refl_ eq_sym_ eq_trans_ hash_range hash_eq k).
      assert (Hrr : 0 <= Z.of_nat (rank (keys s) i) < 2^32) by lia.
      assert (EF : F (hi (hash k) * 2^32 + Z.of_nat i) = hi (hash k) * 2^32 + Z.of_nat (rank (keys s) i)).
      { unfold F, g. destruct (Z.eqb_spec (hi (hash k) * 2^32 + Z.of_nat i) EMPTY); [lia|]. rewrite ldiff_hmask, hi_mk, lo_mk by exact Hir. rewrite Nat2Z.id.
        apply lor_idx; [lia|apply Z.mod_mul; lia|lia]. }
      rewrite EF. rewrite hi_mk, lo_mk by exact Hrr. split; [reflexivity|]. split; [reflexivity|]. split; [reflexivity|].
      lia. }
    assert (At : forall p, at_ (map F (hp m)) p = F (at_ (hp m) p)).
    { intros p. unfold at_. rewrite <- FE at 1. apply map_nth. }
    assert (EL : forall p, at_ (hp m) p <> EMPTY -> live hash (keys s) (length (keys s)) (at_ (hp m) p)) by (intros p Np; apply T5; split; eauto).
    assert (NE : forall p, F (at_ (hp m) p) <> EMPTY <-> at_ (hp m) p <> EMPTY).
    { intros p. split; intros N; [intros X; rewrite X in N; contradiction|]. destruct (FL _ (EL p N)) as [_ [_ [_ Y]]]. lia. }
    eexists (St (filter isSome (keys s)) (filter isSome (vals s)) (Some (HM (pop m) (shf m) (map F (hp m))))), (HM (pop m) (shf m) (map F (hp m))). split; [reflexivity|]. split; [|split; [exact Habs|split; [unfold Ld; cbn [keys pop]; rewrite Sp; unfold abs; rewrite (zs_len _ _ Sm); apply Z.div_le_upper_bound; lia|split; reflexivity]]].
    constructor; cbn [obj keys vals hp shf pop]; auto.
    + constructor; auto.
      * unfold fits. rewrite map_length. exact T2.
      * constructor.
        -- intros p. rewrite At. destruct (Z.eq_dec (at_ (hp m) p) EMPTY) as [X|X]; [rewrite X, FE; unfold EMPTY; lia|].
           destruct (FL _ (EL p X)) as [_ [_ [_ Y]]]. lia.
        -- intros p. rewrite At. intros N. apply NE in N. destruct (FL _ (EL p N)) as [_ [Y _]]. rewrite (home_same _ _ _ (proj1 T1) Y). apply (L_home _ _ T3). exact N.
        -- intros p q. rewrite !At. intros N. apply NE in N. destruct (FL _ (EL p N)) as [_ [Y _]]. rewrite (home_same _ _ _ (proj1 T1) Y). intros Hq Hpq. apply NE. apply (L_probe _ _ T3 p q); auto.
        -- intros p q Hpq. rewrite !At. intros N1 N2. apply NE in N1. apply NE in N2. destruct (FL _ (EL p N1)) as [_ [-> _]]. destruct (FL _ (EL q N2)) as [_ [-> _]]. apply (L_sort _ _ T3); auto.
        -- intros p q. rewrite !At. intros Epq N. assert (N2 : F (at_ (hp m) q) <> EMPTY) by congruence. apply NE in N. apply NE in N2.
           destruct (FL _ (EL p N)) as [_ [H1 [L1 _]]]. destruct (FL _ (EL q N2)) as [_ [H2 [L2 _]]].
           assert (G1 := EL p N). assert (G2 := EL q N2). destruct G1 as [i [k [Hi [Hk Ei]]]]. destruct G2 as [j [k' [Hj [Hk' Ej]]]].
           assert (Hir : forall i0, (i0 < length (keys s))%nat -> 0 <= Z.of_nat i0 < 2^32) by (intros i0 Hi0; unfold maxElems in T6; change (2^28) with 268435456 in T6; change (2^32) with 4294967296; lia).
           rewrite Ei, lo_mk, Nat2Z.id in L1 by (apply Hir; exact Hi). rewrite Ej, lo_mk, Nat2Z.id in L2 by (apply Hir; exact Hj).
           rewrite Ei, Ej in Epq. rewrite Epq in L1. assert (rank (keys s) i = rank (keys s) j) by lia.
           assert (i = j) by (eapply rank_inj; eauto). subst j. assert (k = k') by congruence. subst k'. apply (L_inj _ _ T3); [congruence|exact N].
      * rewrite map_length, At, T4. exact FE.
      * intros u. split.
        -- intros [Nu [p Ep]]. rewrite At in Ep. assert (N : at_ (hp m) p <> EMPTY) by (apply NE; congruence).
           destruct (FL _ (EL p N)) as [EF _]. destruct (EL p N) as [i [k [Hi [Hk Ei]]]]. exists (rank (keys s) i), k.
           assert (Hir : 0 <= Z.of_nat i < 2^32) by (unfold maxElems in T6; change (2^28) with 268435456 in T6; change (2^32) with 4294967296; lia).
           assert (Hn := rank_nth _ _ _ Hk). split; [eapply nth_error_Some_lt; exact Hn|]. split; [exact Hn|].
           rewrite <- Ep, EF, Ei, lo_mk, hi_mk by exact Hir. rewrite Nat2Z.id. reflexivity.
        -- intros [r [k [Hr [Hk ->]]]]. apply rank_surj in Hk. destruct Hk as [i [k' [Ek [Hk R]]]]. injection Ek as <-.
           assert (Hi := nth_error_Some_lt _ _ _ Hk).
           assert (Hir : 0 <= Z.of_nat i < 2^32) by (unfold maxElems in T6; change (2^28) with 268435456 in T6; change (2^32) with 4294967296; lia).
           assert (L0 : live hash (keys s) (length (keys s)) (hi (hash k) * 2^32 + Z.of_nat i)) by (exists i, k; auto).
           destruct (FL _ L0) as [EF [_ [_ B]]]. rewrite lo_mk, hi_mk, Nat2Z.id, R in EF by exact Hir.
           apply T5 in L0. destruct L0 as [N [p Ep]]. rewrite <- EF. split; [lia|]. exists p. rewrite At, Ep. reflexivity.
      * lia.
    + apply mask_filter. exact Sm.
    + rewrite Sp. unfold abs at 2; cbn [keys vals]. rewrite Habs. reflexivity.
  - assert (Hf0 : filter isSome (keys s) = []) by (destruct (filter isSome (keys s)); [reflexivity|cbn in Er; lia]).
    assert (Hv0 : filter isSome (vals s) = []).
    { assert (X := mask_filter _ _ Sm). apply masks_length in X. rewrite Hf0 in X. destruct (filter isSome (vals s)); [reflexivity|discriminate]. }
    exists (St (filter isSome (keys s)) (filter isSome (vals s)) (obj s)), m. split; [reflexivity|].
    split; [|split; [exact Habs|split; [unfold Ld; cbn [keys pop]; rewrite Sp; unfold abs; rewrite (zs_len _ _ Sm); apply Z.div_le_upper_bound; lia|split; reflexivity]]].
    constructor; cbn [obj keys vals hp shf pop]; auto.
    + constructor; auto; [|lia]. intros u. rewrite T5. rewrite Hf0. split; intros [i [k [Hi [Hk _]]]].
      * apply rank_nth in Hk. rewrite Hf0 in Hk. destruct (rank (keys s) i); discriminate.
      * destruct i; discriminate.
    + apply mask_filter. exact Sm.
    + rewrite Sp. unfold abs at 2; cbn [keys vals]. rewrite Habs. reflexivity.
Qed.

Lemma unhole_keys ks vs : masks ks vs -> length (zs ks vs) = length ks -> unhole ks = Ok (map fst (zs ks vs)) /\ unhole vs = Ok (map snd (zs ks vs)).
Proof.
  revert vs. induction ks as [|k ks IH]; intros [|v vs] H E; try discriminate; [split; reflexivity|]. apply masks_cons in H. destruct H as [Em H].
  destruct k as [k|], v as [v|]; try discriminate.
  - cbn in E. injection E as E. destruct (IH vs H E) as [E1 E2]. cbn. rewrite E1, E2. split; reflexivity.
  - exfalso. cbn in E. rewrite zs_len in E by exact H. assert (X := filter_len isSome ks). lia.
Qed.

Lemma settle_spec s m : SInv s m -> exists s' m', settle s = Ok s' /\ SInv s' m' /\ abs s' = abs s /\ (Ld s m -> Ld s' m') /\
  unhole (keys s') = Ok (a_keys (abs s)) /\ unhole (vals s') = Ok (a_values (abs s)).
Proof.
  intros HS. assert (HS' := HS). destruct HS' as [So St Sm Sp Sd]. unfold settle. rewrite So.
  destruct (Z.eqb_spec (pop m) (Z.of_nat (length (keys s)))) as [E|N].
  - exists s, m. split; [reflexivity|]. split; [exact HS|]. split; [reflexivity|]. split; [auto|]. apply unhole_keys; [exact Sm|]. rewrite Sp in E. unfold abs in E. lia.
  - destruct (compact_spec s m HS) as [s' [m' [E [HI [Ha [Hld [Hk Hv]]]]]]]. exists s', m'. split; [exact E|]. split; [exact HI|]. split; [exact Ha|]. split; [auto|].
    rewrite <- Ha. apply unhole_keys; [exact (S_mask _ _ HI)|]. rewrite zs_len by exact (S_mask _ _ HI). rewrite Hk.
    clear. induction (keys s) as [|[k|] l IH]; cbn; auto.
Qed.

Lemma keys_flat ks vs : masks ks vs -> flat_map (fun o : option K => match o with Some k => [k] | None => [] end) ks = map fst (zs ks vs).
Proof.
  revert vs. induction ks as [|k ks IH]; intros [|v vs] H; try discriminate; [reflexivity|]. apply masks_cons in H. destruct H as [E H].
  destruct k, v; try discriminate; cbn; rewrite (IH vs H); reflexivity.
Qed.

Lemma set_spec s m w x : SInv s m ->
  match set eqk hash s w x true with
  | (s', Ok OutUnit) => exists m', SInv s' m' /\ abs s' = a_set eqk (abs s) w x /\ (Ld s m -> Ld s' m')
  | (s', Err) => a_get eqk (abs s) w = None /\ (length (keys s) = Z.to_nat maxElems \/ clustered hash (map fst (abs s) ++ [w]))
  | _ => False
  end.
Proof.
  intros HS. assert (HS' := HS). destruct HS' as [So St Sm Sp Sd]. unfold set. rewrite So.
  assert (F := find_spec eqk hash eq_refl_ eq_sym_ eq_trans_ hash_range hash_eq _ _ _ _ w St).
  assert (Hlen := masks_length _ _ Sm).
  destruct (find eqk hash (hp m) (shf m) (keys s) w) as [[j i|j u]| |]; cbn [find_post] in F; try contradiction.
  - destruct F as [k [Hi [Hk [E _]]]]. destruct (masks_val _ _ _ _ Sm Hk) as [v Hv].
    destruct (Nat.ltb_spec i (length (vals s))); [|lia]. exists m.
    assert (Ea : zs (keys s) (upd (vals s) i (Some x)) = a_set eqk (abs s) w x) by (apply (set_found _ _ w i k v); auto; eapply before_found; eauto).
    split; [|split; [exact Ea|auto]].
    constructor; cbn [obj keys vals]; auto.
    + unfold masks in *. rewrite Sm. apply nth_error_ext. intros q. rewrite !nth_error_map, nth_error_upd.
      destruct (Nat.eqb_spec i q) as [->|]; [|reflexivity]. rewrite Hv. destruct (Nat.ltb_spec q (length (vals s))); [reflexivity|lia].
    + unfold abs; cbn [keys vals]. rewrite Ea. rewrite (set_old_len (abs s) w x v); [exact Sp|]. apply (get_some _ _ w i k v); auto. eapply before_found; eauto.
  - assert (Hab : forall i k, nth_error (keys s) i = Some (Some k) -> eqk w k = false).
    { intros i k Hk. destruct F as [_ [_ [_ [_ [_ [_ F]]]]]]. apply (F i k); auto. eapply nth_error_Some_lt; eauto. }
    assert (Hgn : a_get eqk (abs s) w = None) by (apply get_none; auto).
    assert (Hmx : Z.of_nat (length (keys s)) <= maxElems) by exact (T_n _ _ _ _ _ St).
    destruct (insert_spec eqk hash eq_refl_ eq_sym_ eq_trans_ hash_range hash_eq _ _ _ _ w j u St Hmx F) as [je [a [Ei [La [Lya [Ea [Lje [Hla Hle]]]]]]]]. rewrite Ei.
    set (m1 := HM (pop m + 1) (shf m) a).
    destruct St as [T1 T2 T3 T4 T5 T6].
    assert (Hr : match (if (7 <? Z.shiftr (pop m + 1) (61 - shf m)) || (Z.of_nat je =? Z.of_nat (length a) - 1) then resize 64 m1 else Ok m1) with
      | Ok m2 => 32 <= shf m2 <= 63 /\ pop m2 = pop m + 1 /\ fits (shf m2) (hp m2) /\ Lay (at_ (hp m2)) (shf m2) /\ at_ (hp m2) (length (hp m2) - 1) = EMPTY /\
          (forall y, ent (at_ (hp m2)) y <-> ent (at_ a) y)
      | Err => clustered hash (map fst (abs s) ++ [w]) | UB => False end).
    { destruct ((7 <? Z.shiftr (pop m + 1) (61 - shf m)) || (Z.of_nat je =? Z.of_nat (length a) - 1)) eqn:G.
      - assert (R := resize_spec 64 m1). unfold m1 in R; cbn [shf hp pop] in R. fold m1 in R.
        assert (R' : match resize 64 m1 with
          | Ok m' => 32 <= shf m' <= 63 /\ pop m' = pop m + 1 /\ fits (shf m') (hp m') /\ Lay (at_ (hp m')) (shf m') /\ at_ (hp m') (length (hp m') - 1) = EMPTY /\ (forall u0, ent (at_ (hp m')) u0 <-> ent (at_ a) u0)
          | Err => crowd (at_ a) | UB => False end).
        { apply R; auto; [lia|unfold fits; rewrite La; exact T2|]. intros E32. apply orb_true_iff in G. destruct G as [G|G].
          - exfalso. apply Z.ltb_lt in G. rewrite E32 in G. change (61 - 32) with 29 in G. rewrite Z.shiftr_div_pow2 in G by lia.
            assert (X := zs_len _ _ Sm). assert (Y := filter_len isSome (keys s)). unfold abs in Sp. unfold maxElems in Hmx. change (2^28) with 268435456 in Hmx.
            assert ((pop m + 1) / 2^29 <= 0) by (apply Z.lt_succ_r; apply Z.div_lt_upper_bound; lia). lia.
          - rewrite La. apply Hle. lia. }
        destruct (resize 64 m1) as [m2| |]; auto.
        assert (C : clustered hash (keysof (S (length (keys s))) (keys s ++ [Some w]))).
        { apply (crowd_clustered eqk hash eq_refl_ eq_sym_ eq_trans_ hash_range hash_eq (at_ a)); auto; [lia|]. intros y. rewrite Ea.
          rewrite (live_snoc eqk hash eq_refl_ eq_sym_ eq_trans_ hash_range hash_eq (keys s ++ [Some w]) (length (keys s)) w) by (rewrite nth_error_app2, Nat.sub_diag by lia; reflexivity).
          assert (Q : live hash (keys s) (length (keys s)) y <-> live hash (keys s ++ [Some w]) (length (keys s)) y).
          { split; intros [i [k [Hi [Hk Ey]]]]; exists i, k; repeat split; auto; [rewrite nth_error_app1 by exact Hi; exact Hk|rewrite nth_error_app1 in Hk by exact Hi; exact Hk]. }
          rewrite Q. reflexivity. }
        replace (map fst (abs s) ++ [w]) with (keysof (S (length (keys s))) (keys s ++ [Some w])); [exact C|].
        unfold keysof. rewrite firstn_all2 by (rewrite app_length; cbn; lia). rewrite flat_map_app. cbn [flat_map app]. f_equal. unfold abs. apply keys_flat. exact Sm.
      - unfold m1; cbn [shf hp pop]. split; [exact T1|]. split; [reflexivity|]. split; [unfold fits; rewrite La; exact T2|]. split; [exact Lya|]. split; [|reflexivity].
        rewrite La. apply Hla. apply orb_false_iff in G. destruct G as [_ G]. lia. }
    destruct (if _ || _ then resize 64 m1 else Ok m1) as [m2| |]; [|split; [exact Hgn|right; exact Hr]|contradiction].
    destruct Hr as [K1 [K2 [K3 [K4 [K5 K6]]]]]. cbn [andb].
    destruct (Z.ltb_spec (Z.of_nat (length (keys s))) maxElems) as [Hlt|Hlt]; [|split; [exact Hgn|left; lia]].
    exists m2. assert (Ez : zs (keys s ++ [Some w]) (vals s ++ [Some x]) = a_set eqk (abs s) w x) by (apply set_new; auto).
    split; [|split; [exact Ez|unfold Ld; cbn [keys]; rewrite app_length, K2; cbn [length]; intros Y; clear -Y; lia]]. constructor; cbn [obj keys vals]; auto.
    + rewrite app_length. cbn [length]. constructor; auto; [|lia].
      intros y. rewrite K6, Ea. replace (length (keys s) + 1)%nat with (S (length (keys s))) by lia.
      rewrite (live_snoc eqk hash eq_refl_ eq_sym_ eq_trans_ hash_range hash_eq (keys s ++ [Some w]) (length (keys s)) w) by (rewrite nth_error_app2, Nat.sub_diag by lia; reflexivity).
      assert (Q : live hash (keys s) (length (keys s)) y <-> live hash (keys s ++ [Some w]) (length (keys s)) y).
      { split; intros [i [k [Hi [Hk Ey]]]]; exists i, k; repeat split; auto; [rewrite nth_error_app1 by exact Hi; exact Hk|rewrite nth_error_app1 in Hk by exact Hi; exact Hk]. }
      rewrite Q. reflexivity.
    + unfold masks in *. rewrite !map_app, Sm. reflexivity.
    + unfold abs; cbn [keys vals]. rewrite Ez, (set_new_len _ _ _ Hgn). rewrite K2, Sp. lia.
    + intros i0 j0 a0 b0 Nij Ha Hb.
      destruct (Nat.lt_ge_cases i0 (length (keys s))) as [L1|L1]; destruct (Nat.lt_ge_cases j0 (length (keys s))) as [L2|L2].
      * rewrite nth_error_app1 in Ha, Hb by assumption. apply (Sd i0 j0); auto.
      * rewrite nth_error_app1 in Ha by assumption. rewrite nth_error_app2 in Hb by assumption.
        destruct (j0 - length (keys s))%nat as [|d]; [|destruct d; discriminate]. cbn in Hb. injection Hb as <-. rewrite eq_sym_. apply (Hab i0). exact Ha.
      * rewrite nth_error_app1 in Hb by assumption. rewrite nth_error_app2 in Ha by assumption.
        destruct (i0 - length (keys s))%nat as [|d]; [|destruct d; discriminate]. cbn in Ha. injection Ha as <-. apply (Hab j0). exact Hb.
      * assert (X := nth_error_Some_lt _ _ _ Ha). assert (Y := nth_error_Some_lt _ _ _ Hb). rewrite app_length in X, Y. cbn in X, Y. lia.
Qed.

Lemma delete_spec s m x : SInv s m ->
  match delete eqk hash s x true with
  | (s', Ok OutUnit) => exists m', SInv s' m' /\ abs s' = a_delete eqk (abs s) x /\ a_get eqk (abs s) x <> None /\ Ld s' m'
  | (s', Err) => s' = s /\ a_get eqk (abs s) x = None
  | _ => False
  end.
Proof.
  intros HS. assert (HS' := HS). destruct HS' as [So St Sm Sp Sd]. unfold delete. rewrite So.
  assert (F := find_spec eqk hash eq_refl_ eq_sym_ eq_trans_ hash_range hash_eq _ _ _ _ x St).
  assert (Hlen := masks_length _ _ Sm).
  destruct (find eqk hash (hp m) (shf m) (keys s) x) as [[j i|j u]| |]; cbn [find_post] in F; try contradiction.
  - destruct F as [k [Hi [Hk [E [Ej [Nj Lj]]]]]]. assert (Hbf := before_found s m x i k HS Hk E).
    destruct (masks_val _ _ _ _ Sm Hk) as [v Hv].
    destruct St as [T1 T2 T3 T4 T5 T6].
    destruct (first_stop (hp m) (shf m) j Lj T4) as [e [Be [Ee Qe]]].
    destruct (backshift_spec (shf m) ltac:(lia) (S (length (hp m))) (hp m) j e Be Qe Ee) as [a [Eb [La Pa]]]; [lia|]. rewrite Eb. cbn [negb].
    set (s1 := HashMapModel.St (upd (keys s) i None) (upd (vals s) i None) (Some (HM (pop m - 1) (shf m) a))).
    destruct (del_abs _ _ x i k Sm Hk E Hbf) as [Da Dl].
    assert (Hg : a_get eqk (abs s) x <> None) by (unfold abs; rewrite (get_some _ _ x i k v Sm Hk Hv E Hbf); discriminate).
    assert (Hhx : hi (hash x) = hi (hash k)) by (rewrite (hash_eq x k E); reflexivity).
    assert (Hir : forall i0, (i0 < length (keys s))%nat -> 0 <= Z.of_nat i0 < 2^32) by (intros i0 Hi0; unfold maxElems in T6; change (2^28) with 268435456 in T6; change (2^32) with 4294967296; lia).
    assert (S1 : SInv s1 (HM (pop m - 1) (shf m) a)).
    { constructor; unfold s1; cbn [obj keys vals hp shf pop]; auto.
      - rewrite upd_length. constructor; auto.
        + unfold fits. rewrite La. exact T2.
        + eapply Lay_ext; [|apply (del_lay (at_ (hp m)) (shf m) (proj1 T1) T3 j e); auto; lia]. intros p. symmetry. apply Pa.
        + rewrite La, Pa. unfold del_fn. destruct (Nat.ltb_spec (length (hp m) - 1) j); [lia|]. destruct (Nat.ltb_spec (S (length (hp m) - 1)) e); [lia|].
          destruct (Nat.ltb_spec (length (hp m) - 1) e); [reflexivity|]. exact T4.
        + intros u. assert (Xe : ent (at_ a) u <-> ent (del_fn (at_ (hp m)) j e) u).
          { unfold ent. split; intros [N [p Ep]]; (split; [exact N|exists p; rewrite <- Ep, Pa; reflexivity] || (split; [exact N|exists p; rewrite Pa; exact Ep])). }
          rewrite Xe, (del_ent _ _ T3 j e ltac:(lia) Nj), T5. rewrite Ej, Hhx. split.
          * intros [Nu [i' [k' [Hi' [Hk' Eu]]]]]. exists i', k'. split; [exact Hi'|]. split; [|exact Eu].
            destruct (Nat.eq_dec i i') as [<-|Ni]; [|rewrite upd_other by lia; exact Hk'].
            exfalso. apply Nu. rewrite Eu. assert (k' = k) by congruence. subst k'. reflexivity.
          * intros [i' [k' [Hi' [Hk' Eu]]]]. destruct (Nat.eq_dec i i') as [<-|Ni]; [rewrite upd_same in Hk' by lia; discriminate|].
            rewrite upd_other in Hk' by lia. split; [|exists i', k'; auto].
            intros Eq. rewrite Eq in Eu. apply Ni. apply (f_equal lo) in Eu. rewrite !lo_mk in Eu by (apply Hir; assumption). lia.
      - unfold masks in *. apply nth_error_ext. intros q. assert (X := masks_nth _ _ q Sm). rewrite !nth_error_map, !nth_error_upd.
        rewrite Hlen. destruct (i =? q)%nat; [|exact X]. destruct (i <? length (vals s))%nat; reflexivity.
      - unfold abs; cbn [keys vals]. rewrite Da. unfold abs in Sp. lia.
      - intros i0 j0 a0 b0 Nij Ha Hb. rewrite nth_error_upd in Ha, Hb. 
        destruct (Nat.eqb_spec i i0); [destruct (i <? length (keys s))%nat; discriminate|].
        destruct (Nat.eqb_spec i j0); [destruct (i <? length (keys s))%nat; discriminate|]. apply (Sd i0 j0); auto. }
    assert (A1 : abs s1 = a_delete eqk (abs s) x) by exact Da.
    destruct ((pop m - 1 =? 0) || (pop m - 1 + 32 <? Z.of_nat (length (keys s)) / 2)) eqn:G.
    + destruct (compact_spec s1 _ S1) as [s2 [m2 [Ec [S2 [A2 [L2 _]]]]]]. rewrite Ec. exists m2. split; [exact S2|]. split; [congruence|]. split; [exact Hg|exact L2].
    + exists (HM (pop m - 1) (shf m) a). split; [exact S1|]. split; [exact A1|]. split; [exact Hg|].
      unfold Ld, s1; cbn [keys pop]. rewrite upd_length. apply orb_false_iff in G. destruct G as [_ G]. apply Z.ltb_ge in G. lia.
  - destruct F as [_ [_ [_ [_ [_ [_ F]]]]]]. split; [reflexivity|]. apply get_none; auto. intros i k Hk. apply (F i k); auto. eapply nth_error_Some_lt; eauto.
Qed.

Definition opmem (o : @op K V) : bool := match o with OSet _ _ b => b | ODelete _ b => b | _ => true end.

Definition stuck (m : list (K * V)) (k : K) : Prop :=
  a_get eqk m k = None /\ (2^27 - 32 <= a_count m \/ clustered hash (map fst m ++ [k])).

Lemma step_spec s m o : SInv s m -> Ld s m -> opmem o = true ->
  let '(s', r) := step eqk hash s o in
  (exists m', SInv s' m' /\ Ld s' m' /\ a_step eqk (abs s) o = (abs s', r)) \/
  (exists k v, o = OSet k v true /\ r = Err /\ stuck (abs s) k).
Proof.
  intros HS HL Hm. destruct o as [k d|k|k v b|k b| | |]; cbn [step a_step].
  - left. exists m. split; [exact HS|]. split; [exact HL|]. rewrite (lookup_spec s m k HS). cbn [bind]. destruct (a_get eqk (abs s) k), d; reflexivity.
  - left. exists m. split; [exact HS|]. split; [exact HL|]. rewrite (lookup_spec s m k HS). cbn [bind]. destruct (a_get eqk (abs s) k); reflexivity.
  - cbn in Hm. subst b. assert (X := set_spec s m k v HS). destruct (set eqk hash s k v true) as [s' [[]| |]]; try contradiction.
    + left. destruct X as [m' [X1 [X2 X3]]]. exists m'. split; [exact X1|]. split; [auto|]. rewrite X2. reflexivity.
    + right. exists k, v. destruct X as [X1 X2]. split; [reflexivity|]. split; [reflexivity|]. split; [exact X1|].
      destruct X2 as [X2|X2]; [left|right; exact X2]. unfold Ld in HL. destruct HS as [_ _ _ Sp _]. unfold a_count. rewrite <- Sp.
      rewrite X2 in HL. unfold maxElems in HL. rewrite Z2Nat.id in HL by lia. change (2^28 / 2) with (2^27) in HL. lia.
  - cbn in Hm. subst b. assert (X := delete_spec s m k HS). destruct (delete eqk hash s k true) as [s' [[]| |]]; try contradiction.
    + left. destruct X as [m' [X1 [X2 [X3 X4]]]]. exists m'. split; [exact X1|]. split; [exact X4|]. destruct (a_get eqk (abs s) k); [rewrite X2; reflexivity|contradiction].
    + left. destruct X as [-> X]. exists m. split; [exact HS|]. split; [exact HL|]. rewrite X. reflexivity.
  - left. exists m. split; [exact HS|]. split; [exact HL|]. destruct HS as [So _ _ Sp _]. rewrite So, Sp. reflexivity.
  - destruct (settle_spec s m HS) as [s' [m' [E [S' [A [L' [U1 U2]]]]]]]. rewrite E. left. exists m'. split; [exact S'|]. split; [auto|]. rewrite U1, A. reflexivity.
  - destruct (settle_spec s m HS) as [s' [m' [E [S' [A [L' [U1 U2]]]]]]]. rewrite E. left. exists m'. split; [exact S'|]. split; [auto|]. rewrite U2, A. reflexivity.
Qed.

Lemma run_spec os : forall s m, SInv s m -> Ld s m -> forallb opmem os = true ->
  snd (run eqk hash s os) = a_run eqk (abs s) os \/
  exists n k v, nth_error os n = Some (OSet k v true) /\ nth_error (snd (run eqk hash s os)) n = Some Err /\
    firstn n (snd (run eqk hash s os)) = firstn n (a_run eqk (abs s) os) /\ stuck (a_final eqk (abs s) (firstn n os)) k.
Proof.
  induction os as [|o os IH]; intros s m HS HL Hm; [left; reflexivity|]. cbn [forallb] in Hm. apply andb_true_iff in Hm. destruct Hm as [H1 H2].
  assert (X := step_spec s m o HS HL H1). cbn [run a_run]. destruct (step eqk hash s o) as [s' r]. destruct X as [[m' [S' [L' E]]]|[k [v [-> [-> G]]]]].
  - rewrite E. destruct (IH s' m' S' L' H2) as [R|[n [k [v [R1 [R2 [R3 R4]]]]]]].
    + left. destruct (run eqk hash s' os) as [s'' rs]. cbn [snd] in *. rewrite R. reflexivity.
    + right. exists (S n), k, v. split; [exact R1|]. destruct (run eqk hash s' os) as [s'' rs]. cbn [snd nth_error firstn a_final] in *. rewrite E. split; [exact R2|]. split; [rewrite R3; reflexivity|exact R4].
  - right. exists 0%nat, k, v. destruct (run eqk hash s' os) as [s'' rs]. cbn. auto.
Qed.

Lemma zs_combine (ks : list K) (vs : list V) : zs (map Some ks) (map Some vs) = combine ks vs.
Proof. revert vs; induction ks as [|k ks IH]; intros [|v vs]; try reflexivity. cbn. rewrite IH. reflexivity. Qed.

Lemma create_spec ks vs : Z.of_nat (length ks) <= maxElems ->
  match create eqk hash ks vs with
  | Ok s => exists m, SInv s m /\ Ld s m /\ abs s = combine ks vs /\ length ks = length vs /\
      (forall i j a b, (i < j)%nat -> nth_error ks i = Some a -> nth_error ks j = Some b -> eqk b a = false)
  | Err => length ks <> length vs \/ (exists i j a b, (i < j)%nat /\ nth_error ks i = Some a /\ nth_error ks j = Some b /\ eqk b a = true) \/ clustered hash ks
  | UB => False
  end.
Proof.
  intros H. unfold create. destruct (Nat.eqb_spec (length ks) (length vs)) as [El|]; [|left; assumption].
  assert (B := build_spec eqk hash eq_refl_ eq_sym_ eq_trans_ hash_range hash_eq ks H). destruct (build eqk hash ks) as [m| |]; cbn [bind]; auto.
    destruct B as [B1 [B2 B3]]. exists m. assert (A : abs (St (map Some ks) (map Some vs) (Some m)) = combine ks vs) by apply zs_combine.
  split; [|split; [unfold Ld; cbn [keys]; rewrite B2, map_length; apply Z.div_le_upper_bound; lia|auto]]. constructor; cbn [obj keys vals]; auto.
  - rewrite map_length. exact B1.
  - unfold masks. rewrite !map_map. cbn. revert vs El A. clear. induction ks as [|k ks IH]; intros [|v vs] E A; try discriminate; [reflexivity|]. cbn. f_equal. apply IH; [cbn in E; lia|]. apply zs_combine.
  - rewrite A, combine_length, B2. lia.
  - intros i j a b N Ha Hb. rewrite nth_error_map in Ha, Hb. 
    destruct (nth_error ks i) as [a'|] eqn:Ea; [|discriminate]. destruct (nth_error ks j) as [b'|] eqn:Eb; [|discriminate]. cbn in Ha, Hb. injection Ha as ->. injection Hb as ->.
    destruct (Nat.lt_trichotomy i j) as [L|[L|L]]; [rewrite eq_sym_; apply (B3 i j); auto|lia|apply (B3 j i); auto].
Qed.
End S.
