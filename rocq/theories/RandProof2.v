From Verif Require Import Base BitsModel BitsSpec BitsProof WidenModel RandModel RandSpec RandProof.
From Coq Require Import Permutation Sorting.Sorted.

(** some of the naturals *)
Definition some_of (wi xi : Z) (l : list Z) : Prop := len l = wi /\ NoDup l /\ below xi l.
Lemma perm_some n l : 0 <= n -> Permutation l (naturals n) -> some_of n n l.
Proof.
  intros N P. rewrite <- zr_nat in P. split; [|split].
  - unfold len. rewrite (Permutation_length P). apply (zr_len 0 n N).
  - apply (Permutation_NoDup (Permutation_sym P)). unfold zr. apply FinFun.Injective_map_NoDup; [intros a b E; lia|apply seq_NoDup].
  - unfold below. apply Forall_forall. intros v V. apply (Permutation_in _ P) in V. apply zr_in in V. lia.
Qed.
Lemma NoDup_app_l {A} (u v : list A) : NoDup (u ++ v) -> NoDup u.
Proof. induction u as [|a u IH]; intros H; [constructor|]. cbn [app] in H. inversion H as [|? ? Na Nu]; subst. constructor; [intros I; apply Na, in_or_app; auto|auto]. Qed.
Lemma dense_ok wi xi seed : 0 <= wi <= xi -> state seed -> exists m seed', shuffle wi 0 0 xi (iota xi) seed = Ok (m, seed') /\ state seed' /\ some_of wi xi (firstn (Z.to_nat wi) m).
Proof.
  intros W S. pose proof (iota_len xi ltac:(lia)) as Li. destruct (shuf_perm 0 0 xi wi (iota xi) seed S ltac:(lia) ltac:(lia) ltac:(lia)) as (m&s&E&Ss&(Lm&_)&P). exists m, s. split; [exact E|]. split; [exact Ss|].
  rewrite <- sl_firstn by lia. rewrite iota_sl, zr_nat in P by lia. destruct (perm_some xi _ ltac:(lia) P) as (_&D&B). split; [apply sl_len; lia|]. split; [eapply NoDup_app_l; exact D|]. apply Forall_app in B. apply B.
Qed.

Ltac ql := repeat match goal with H : forall _, _ |- _ => clear H end; lia.
(** the table *)
Section hash.
Context (wi xi e : Z) (W : 1 <= wi < xi) (X : xi < 2^31) (E0 : 0 <= e).
Context (sz : Z) (SE : sz = 2^e) (SZ : 2 * wi <= sz).
Lemma szp : 0 < sz. Proof. clear SZ. rewrite SE. apply Z.pow_pos_nonneg; lia. Qed.
Definition key (h : list Z) (t : Z) : Z := word h (2 * t).
Definition val (h : list Z) (t : Z) : Z := word h (2 * t + 1).
Definition slot (a : Z) : Z := a mod sz.
Lemma mask_ok t : 0 <= t -> Z.land (2 * t) (2 * (sz - 1)) = 2 * slot t.
Proof.
  intros T. replace (sz - 1) with (Z.ones e) by (clear SZ; rewrite SE, Z.ones_equiv; lia). rewrite !(Z.mul_comm 2). change 2 with (2^1) at 1 2 3. rewrite <- !Z.shiftl_mul_pow2 by lia. rewrite <- Z.shiftl_land. rewrite Z.land_ones by lia. unfold slot. rewrite SE. reflexivity.
Qed.
Lemma modn a : 0 <= slot a < sz. Proof. unfold slot. apply Z.mod_pos_bound. exact szp. Qed.
Lemma mod_next q j d : slot q = slot (j + d) -> slot (slot q + 1) = slot (j + (d + 1)).
Proof. unfold slot. intros H. rewrite Z.add_mod_idemp_l by (pose proof szp; lia). replace (j + (d + 1)) with (j + d + 1) by lia. rewrite <- (Z.add_mod_idemp_l q), <- (Z.add_mod_idemp_l (j + d)) by (pose proof szp; lia). rewrite H. reflexivity. Qed.
Definition passed (h : list Z) (j d : Z) : Prop := forall d', 0 <= d' < d -> key h (slot (j + d')) <> 0 /\ key h (slot (j + d')) <> j.
Lemma find_ok h j dz : len h = 2 * sz -> key h (slot (j + dz)) = 0 -> forall fuel d q, 0 <= d <= dz -> dz - d < Z.of_nat fuel -> 0 <= q -> slot q = slot (j + d) -> passed h j d ->
  exists d' b, find_slot fuel h (2 * (sz - 1)) j (2 * q) = Ok (2 * (slot (j + d')), b) /\ 0 <= d' /\ passed h j d' /\ key h (slot (j + d')) = (if b then j else 0).
Proof.
  intros L Hz. induction fuel as [|fuel IH]; intros d q D F Q Eq P; [lia|]. cbn [find_slot]. rewrite mask_ok by lia. rewrite Eq. pose proof (modn (j + d)) as B. rewrite rdz_ok by (lia). cbn [bind]. fold (key h (slot (j + d))).
  destruct (Z.eqb_spec (key h (slot (j + d))) 0) as [Z0|Nz]; [exists d, false; split; [reflexivity|]; split; [lia|]; split; auto|].
  destruct (Z.eqb_spec (key h (slot (j + d))) j) as [Zj|Nj]; [exists d, true; split; [reflexivity|]; split; [lia|]; split; auto|].
  assert (Nd : d <> dz) by (intros ->; congruence). replace (2 * (slot (j + d)) + 2) with (2 * (slot (j + d) + 1)) by lia. apply (IH (d + 1)); [clear - D Nd; lia|clear - D F; lia|clear - B; destruct B; apply Z.le_trans with (slot (j + d)); auto; apply Z.le_succ_diag_r| |].
  - rewrite <- Eq. apply mod_next. exact Eq.
  - intros d' D'. destruct (Z.eq_dec d' d) as [->|]; [auto|apply P; clear - D' n; lia].
Qed.
Definition Tab (V : Z -> Z) (h : list Z) (c : Z) : Prop := len h = 2 * sz /\
  (forall t, 0 <= t < sz -> key h t <> 0 -> wi <= key h t < xi /\ val h t = V (key h t) /\ exists d, 0 <= d /\ t = slot (key h t + d) /\ forall d', 0 <= d' < d -> key h (slot (key h t + d')) <> 0) /\
  (forall t u, 0 <= t < sz -> 0 <= u < sz -> key h t = key h u -> key h t <> 0 -> t = u) /\
  (forall k, wi <= k < xi -> (forall t, 0 <= t < sz -> key h t <> k) -> V k = k) /\
  (exists used, Z.of_nat (length used) <= c /\ forall t, 0 <= t < sz -> key h t <> 0 -> In t used).
Lemma free h (used : list Z) : Z.of_nat (length used) < sz -> (forall t, 0 <= t < sz -> key h t <> 0 -> In t used) -> exists t, 0 <= t < sz /\ key h t = 0.
Proof.
  intros L H. destruct (existsb (fun t => key h t =? 0) (zr 0 sz)) eqn:Ex.
  - apply existsb_exists in Ex. destruct Ex as (t&T&K). apply zr_in in T. exists t. split; [lia|]. apply Z.eqb_eq. exact K.
  - exfalso. assert (I : incl (zr 0 sz) used). { intros t T. pose proof T as T'. apply zr_in in T'. apply H; [lia|]. intros K. assert (Q : existsb (fun t => key h t =? 0) (zr 0 sz) = true) by (apply existsb_exists; exists t; split; [exact T|apply Z.eqb_eq; exact K]). congruence. }
    assert (S0 : 0 <= sz) by (pose proof szp; lia). assert (Nd : NoDup (zr 0 sz)) by (unfold zr; apply FinFun.Injective_map_NoDup; [intros a b Eab; lia|apply seq_NoDup]). pose proof (NoDup_incl_length Nd I) as Q. pose proof (zr_len 0 sz S0) as Q2. unfold len in Q2. lia.
Qed.
Lemma key_upd h t v u : len h = 2 * sz -> 0 <= t < sz -> 0 <= u < sz -> key (upd h (Z.to_nat (2 * t)) v) u = if u =? t then v else key h u.
Proof. intros L T U. unfold key. rewrite word_upd by lia. destruct (Z.eqb_spec (2 * u) (2 * t)), (Z.eqb_spec u t); try lia; reflexivity. Qed.
Lemma key_updv h t v u : len h = 2 * sz -> 0 <= t < sz -> 0 <= u < sz -> key (upd h (Z.to_nat (2 * t + 1)) v) u = key h u.
Proof. intros L T U. unfold key. rewrite word_upd by lia. destruct (Z.eqb_spec (2 * u) (2 * t + 1)); [lia|reflexivity]. Qed.
Lemma val_upd h t v u : len h = 2 * sz -> 0 <= t < sz -> 0 <= u < sz -> val (upd h (Z.to_nat (2 * t)) v) u = val h u.
Proof. intros L T U. unfold val. rewrite word_upd by lia. destruct (Z.eqb_spec (2 * u + 1) (2 * t)); [lia|reflexivity]. Qed.
Lemma val_updv h t v u : len h = 2 * sz -> 0 <= t < sz -> 0 <= u < sz -> val (upd h (Z.to_nat (2 * t + 1)) v) u = if u =? t then v else val h u.
Proof. intros L T U. unfold val. rewrite word_upd by lia. destruct (Z.eqb_spec (2 * u + 1) (2 * t + 1)), (Z.eqb_spec u t); try lia; reflexivity. Qed.
Definition swp (i j k : Z) : Z := if k =? i then j else if k =? j then i else k.
Definition inj (V : Z -> Z) : Prop := (forall a, 0 <= a < xi -> 0 <= V a < xi) /\ forall a b, 0 <= a < xi -> 0 <= b < xi -> V a = V b -> a = b.
Lemma swp_in i j k : 0 <= i < xi -> 0 <= j < xi -> 0 <= k < xi -> 0 <= swp i j k < xi.
Proof. intros. unfold swp. destruct (k =? i), (k =? j); lia. Qed.
Lemma inj_swp V i j : 0 <= i < xi -> 0 <= j < xi -> inj V -> inj (fun k => V (swp i j k)).
Proof.
  intros I J (R&N). split; [intros a A; apply R, swp_in; auto|]. intros a b A B H. apply N in H; try (apply swp_in; auto). unfold swp in H.
  destruct (Z.eqb_spec a i), (Z.eqb_spec b i), (Z.eqb_spec a j), (Z.eqb_spec b j); lia.
Qed.
Definition Inv (i : Z) (s : list Z * list Z * Z) : Prop := let '(rp, h, sd) := s in
  len rp = wi /\ state sd /\ exists V, inj V /\ (forall k, 0 <= k < wi -> word rp k = V k) /\ Tab V h i.
Lemma hash_step_ok i s : 0 <= i < wi -> Inv i s -> exists s', hash_step wi xi (2 * (sz - 1)) i s = Ok s' /\ Inv (i + 1) s'.
Proof.
  intros I. destruct s as [[rp h] sd0]. intros (Lr&Sd&V&J&R&(Lh&T1&T2&T3&(used&U1&U2))). unfold hash_step. draw Sd. pose proof (wy2u0k_ok rnd (xi - i) Hr ltac:(ql)) as Jb. set (j := wy2u0k rnd (xi - i) + i) in *. assert (Jj : i <= j < xi) by (unfold j; ql). clearbody j. clear Jb.
  destruct (Z.ltb_spec j wi) as [Lj|Gj].
  - rewrite !rdz_ok by ql. cbn [bind]. rewrite wrz_ok by ql. cbn [bind]. rewrite wrz_ok by (rewrite len_upd; ql). cbn [bind]. eexists. split; [reflexivity|]. split; [rewrite !len_upd; exact Lr|]. split; [exact Hs|].
    exists (fun k => V (swp i j k)). split; [apply inj_swp; auto; ql|]. split.
    + intros k K. rewrite word_upd by (rewrite ?len_upd; ql). rewrite word_upd by ql. unfold swp. destruct (Z.eqb_spec k i); [apply R; ql|]. destruct (Z.eqb_spec k j); apply R; ql.
    + split; [exact Lh|]. split; [|split; [exact T2|split]].
      * intros t T Nz. destruct (T1 t T Nz) as (A&B&C). split; [exact A|]. split; [|exact C]. rewrite B. unfold swp. destruct (Z.eqb_spec (key h t) i); [ql|]. destruct (Z.eqb_spec (key h t) j); [ql|]. reflexivity.
      * intros k K Ab. unfold swp. destruct (Z.eqb_spec k i); [ql|]. destruct (Z.eqb_spec k j); [ql|]. apply T3; auto.
      * exists used. split; [ql|exact U2].
  - destruct (free h used ltac:(ql) U2) as (z&Zb&Zk).
    assert (Dz : slot (j + slot (z - j)) = z). { unfold slot. rewrite Z.add_mod_idemp_r by (pose proof szp; ql). replace (j + (z - j)) with z by ql. apply Z.mod_small. exact Zb. }
    pose proof (modn (z - j)) as Db. destruct (find_ok h j (slot (z - j)) Lh ltac:(rewrite Dz; exact Zk) (S (length h)) 0 j) as (d&b&Ef&D0&Pd&Kd); try ql. { unfold len in Lh. ql. } { rewrite Z.add_0_r. reflexivity. } { intros d' D'. ql. }
    rewrite Ef. cbn [bind]. pose proof (modn (j + d)) as Tb. pose proof modn as MB. pose proof key_upd as KU. pose proof key_updv as KV. pose proof val_upd as VU. pose proof val_updv as VV. pose proof inj_swp as IS. remember (slot (j + d)) as t eqn:Et. clear Ew Hr Ef SE Dz Db Zb Zk Sd rnd E0 z.
    assert (Nk : forall u, 0 <= u < sz -> key h u = j -> b = true /\ u = t).
    { intros u Ub Ku. destruct (T1 u Ub ltac:(ql)) as (_&_&du&Du&Eu&Pu). rewrite Ku in Eu, Pu. destruct (Z.lt_trichotomy du d) as [Lt|[Eq|Gt]].
      - exfalso. destruct (Pd du ltac:(ql)) as (_&Q). rewrite <- Eu in Q. congruence.
      - rewrite Eq in Eu. rewrite <- Et in Eu. subst u. rewrite Ku in Kd. destruct b; [auto|ql].
      - specialize (Pu d ltac:(ql)). rewrite <- Et in Pu. rewrite Kd in Pu. destruct b; [split; auto|congruence]. symmetry. apply (T2 t u); auto; rewrite Kd; ql. }
    assert (Pj : (if b then val h t else j) = V j). { destruct b; [destruct (T1 t Tb ltac:(ql)) as (_&Q&_); rewrite Q, Kd; reflexivity|]. symmetry. apply T3; [ql|]. intros u Ub Ku. destruct (Nk u Ub Ku). discriminate. }
    assert (Ep : (if b then rdz h (2 * t + 1) else Ok j) = Ok (V j)). { rewrite <- Pj. destruct b; [|reflexivity]. rewrite rdz_ok by ql. reflexivity. }
    rewrite Ep. cbn [bind]. set (h1 := if b then h else upd h (Z.to_nat (2 * t)) j).
    assert (Eh : (if b then Ok h else wrz h (2 * t) j) = Ok h1) by (unfold h1; destruct b; [reflexivity|rewrite wrz_ok by ql; reflexivity]). rewrite Eh. cbn [bind]. rewrite rdz_ok by ql. cbn [bind].
    assert (L1 : len h1 = 2 * sz) by (unfold h1; destruct b; rewrite ?len_upd; exact Lh). rewrite wrz_ok by ql. cbn [bind]. rewrite wrz_ok by ql. cbn [bind]. eexists. split; [reflexivity|].
    set (h2 := upd h1 (Z.to_nat (2 * t + 1)) (word rp i)).
    assert (K2 : forall u, 0 <= u < sz -> key h2 u = if u =? t then j else key h u). { intros u Ub. unfold h2. rewrite KV by auto. unfold h1. destruct b; [|apply KU; auto]. destruct (Z.eqb_spec u t) as [->|]; [exact Kd|reflexivity]. }
    assert (V2 : forall u, 0 <= u < sz -> val h2 u = if u =? t then V i else val h u). { intros u Ub. unfold h2. rewrite VV by auto. rewrite R by ql. destruct (u =? t); [reflexivity|]. unfold h1. destruct b; [reflexivity|]. apply VU; auto. }
    assert (Nz2 : forall u, 0 <= u < sz -> key h u <> 0 -> key h2 u <> 0). { intros u Ub N0. rewrite K2 by auto. destruct (u =? t); [ql|exact N0]. }
    assert (L2 : len h2 = 2 * sz) by (unfold h2; rewrite len_upd; exact L1). clearbody h2. split; [rewrite len_upd; exact Lr|]. split; [exact Hs|]. exists (fun k => V (swp i j k)). split; [apply IS; auto; ql|]. split; [|split; [|split; [|split; [|split]]]].
    + intros k K. rewrite word_upd by ql. unfold swp. destruct (Z.eqb_spec k i); [reflexivity|]. destruct (Z.eqb_spec k j); [ql|]. apply R; ql.
    + exact L2.
    + intros u Ub Nu. rewrite K2 in * by auto. rewrite V2 by auto. destruct (Z.eqb_spec u t) as [->|Nt].
      * split; [ql|]. split. { unfold swp. destruct (Z.eqb_spec j i); [ql|]. rewrite Z.eqb_refl. reflexivity. } exists d. split; [exact D0|]. split; [exact Et|]. intros d' D'. apply Nz2; [apply MB|]. apply Pd. exact D'.
      * destruct (T1 u Ub Nu) as (A&B&du&Du&Eu&Pu). split; [exact A|]. split. { rewrite B. unfold swp. destruct (Z.eqb_spec (key h u) i); [ql|]. destruct (Z.eqb_spec (key h u) j) as [Ej|]; [|reflexivity]. destruct (Nk u Ub Ej). congruence. } exists du. split; [exact Du|]. split; [exact Eu|]. intros d' D'. apply Nz2; [apply MB|]. apply Pu. exact D'.
    + intros u v Ub Vb. rewrite !K2 by auto. destruct (Z.eqb_spec u t) as [->|Nu], (Z.eqb_spec v t) as [->|Nv]; intros Q N0; auto.
      * destruct (Nk v Vb ltac:(auto)). congruence.
      * destruct (Nk u Ub ltac:(auto)). congruence.
    + intros k K Ab. unfold swp. destruct (Z.eqb_spec k i); [ql|]. destruct (Z.eqb_spec k j) as [->|Nj]. { exfalso. apply (Ab t Tb). rewrite K2, Z.eqb_refl by auto. reflexivity. }
      apply T3; [exact K|]. intros u Ub Ku. apply (Ab u Ub). rewrite K2 by auto. destruct (Z.eqb_spec u t) as [->|]; [|exact Ku]. rewrite Ku in Kd. destruct b; ql.
    + exists (t :: used). split; [cbn [length]; ql|]. intros u Ub. rewrite K2 by auto. destruct (Z.eqb_spec u t) as [->|]; [left; reflexivity|]. intros N0. right. apply U2; auto.
Qed.
End hash.
