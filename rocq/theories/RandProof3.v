From Verif Require Import Base BitsModel BitsSpec BitsProof WidenModel RandModel RandSpec RandProof RandProof2.
From Coq Require Import Permutation Sorting.Sorted.

Lemma pow_from_ok w : forall fuel e, 0 <= e -> w <= 2^(e + Z.of_nat fuel) -> exists e', pow_from fuel (2^e) w = Ok (2^e') /\ 0 <= e' /\ w <= 2^e'.
Proof.
  induction fuel as [|f IH]; intros e E H; cbn [pow_from]; destruct (Z.ltb_spec (2^e) w) as [L|G].
  - replace (e + Z.of_nat 0) with e in H by lia. lia.
  - exists e. auto.
  - replace (2^e * 2) with (2^(e+1)) by (rewrite Z.pow_add_r by lia; lia). apply IH; [lia|]. replace (e + 1 + Z.of_nat f) with (e + Z.of_nat (S f)) by lia. exact H.
  - exists e. auto.
Qed.
Lemma repeat_word v n k : 0 <= k < Z.of_nat n -> word (repeat v n) k = v.
Proof. intros H. unfold word. apply nth_error_nth. rewrite nth_error_repeat by lia. reflexivity. Qed.
Lemma repeat_len (v : Z) n : 0 <= n -> len (repeat v (Z.to_nat n)) = n. Proof. intros. unfold len. rewrite repeat_length. lia. Qed.
Lemma hash_deal_ok wi xi seed : 1 <= wi < xi -> xi < 2^31 -> state seed -> exists l seed', hash_deal wi xi seed = Ok (l, seed') /\ state seed' /\ some_of wi xi l.
Proof.
  intros W X S. unfold hash_deal. destruct (pow_from_ok (wi * 2) 32 0 ltac:(lia)) as (e&Ep&E0&Ew0). { change (2^(0 + Z.of_nat 32)) with 4294967296. lia. }
  change (2^0) with 1 in Ep. rewrite Ep. cbn [bind]. cbv zeta. assert (P : 0 < 2^e) by (apply Z.pow_pos_nonneg; lia).
  destruct (for_keep (hash_step wi xi (2 * (2^e - 1))) (Inv wi xi (2^e)) (Z.to_nat wi) 0 (iota wi, repeat 0 (Z.to_nat (2 * 2^e)), seed)) as ([[rp h] sd]&Ef&I).
  - intros i st Ib I. apply (hash_step_ok wi xi e W E0 (2^e) eq_refl ltac:(lia)); [lia|exact I].
  - unfold Inv. split; [apply iota_len; lia|]. split; [exact S|]. exists (fun k => k). assert (K0 : forall t, 0 <= t < 2^e -> key (repeat 0 (Z.to_nat (2 * 2^e))) t = 0) by (intros t T; unfold key; apply repeat_word; lia).
    split; [split; auto|]. split; [intros k K; apply iota_word; lia|]. split; [apply repeat_len; lia|]. split; [|split; [|split; [auto|]]].
    + intros t T N. rewrite K0 in N by lia. lia.
    + intros t u T U _ N. rewrite K0 in N by lia. lia.
    + exists []. split; [cbn; lia|]. intros t T N. rewrite K0 in N by lia. lia.
  - rewrite Ef. cbn [bind]. exists rp, sd. split; [reflexivity|]. destruct I as (Lr&Sd&V&(Vr&Vi)&R&_). split; [exact Sd|]. split; [exact Lr|].
    rewrite <- (sl_all rp), Lr. split.
    + unfold sl. assert (G : forall l, (forall k, In k l -> 0 <= k < wi) -> NoDup l -> NoDup (map (word rp) l)); [|apply G; [intros k K; apply zr_in in K; lia|unfold zr; apply FinFun.Injective_map_NoDup; [intros a b Eab; lia|apply seq_NoDup]]].
      induction l as [|k l IH]; intros H N; [constructor|]. inversion N as [|? ? N1 N2]; subst. cbn [map]. constructor; [|apply IH; auto; intros; apply H; right; auto]. intros Hin. apply in_map_iff in Hin. destruct Hin as (q&Eq&Q). pose proof (H k ltac:(left; auto)). pose proof (H q ltac:(right; auto)). rewrite !R in Eq by lia. apply Vi in Eq; try lia. subst. auto.
    + unfold below. apply Forall_forall. intros v V0. unfold sl in V0. apply in_map_iff in V0. destruct V0 as (k&<-&K). apply zr_in in K. rewrite R by lia. apply Vr. lia.
Qed.
Lemma deal2_ok wi xi junk seed : 0 <= wi <= xi -> xi < 2^31 -> len junk = xi -> state seed -> exists l seed', deal_c2 wi xi seed junk = Ok (l, seed') /\ state seed' /\ some_of wi xi l.
Proof.
  intros W X L S. unfold deal_c2. destruct (Z.ltb_spec xi 0); [lia|]. destruct (Z.ltb_spec wi 0); [lia|]. destruct (Z.eqb_spec wi 0) as [->|]. { exists [], seed. split; [reflexivity|]. split; [exact S|]. split; [reflexivity|]. split; constructor. }
  destruct (Z.ltb_spec xi wi); [lia|]. destruct (Z.eqb_spec wi xi) as [->|]. { destruct (deal_ok xi junk seed ltac:(lia) L S) as (l&s&E&Ss&P). exists l, s. split; [exact E|]. split; [exact Ss|]. apply perm_some; [lia|exact P]. }
  destruct (Z.ltb_spec (xi / 64) wi); [|apply hash_deal_ok; auto; lia]. destruct (dense_ok wi xi seed W S) as (m&s&E&Ss&P). rewrite E. cbn [bind]. exists (firstn (Z.to_nat wi) m), s. auto.
Qed.

(** subsets *)
Definition ones_in (l : list Z) : Z := Z.of_nat (length (filter (fun b => negb (b =? 0)) l)).
Lemma positions_ok : forall l a, Z.of_nat (length (positions a l)) = ones_in l /\ ascending (positions a l) /\ Forall (fun v => a <= v < a + len l) (positions a l).
Proof.
  induction l as [|b l IH]; intros a; [repeat split; constructor|]. destruct (IH (a + 1)) as (C&A&F). unfold ones_in, len in *. cbn [positions filter length]. destruct (b =? 0); cbn [negb].
  - split; [exact C|]. split; [exact A|]. eapply Forall_impl; [|exact F]. cbn beta. intros; lia.
  - split; [cbn [length]; lia|]. split; [constructor; [exact A|]; eapply Forall_impl; [|exact F]; cbn beta; intros; lia|]. constructor; [lia|]. eapply Forall_impl; [|exact F]. cbn beta. intros; lia.
Qed.
Definition subset_of (wi xi : Z) (l : list Z) : Prop := len l = wi /\ ascending l /\ below xi l.
Lemma ones_upd l k : 0 <= k < len l -> word l k = 0 -> ones_in (upd l (Z.to_nat k) 1) = ones_in l + 1.
Proof.
  unfold word, len, ones_in. intros K. replace k with (Z.of_nat (Z.to_nat k)) in K by lia. revert K. generalize (Z.to_nat k). clear k. induction l as [|b l IH]; intros k K H; [cbn in K; lia|]. destruct k as [|k]; cbn [nth upd filter length] in *.
  - subst b. cbn [Z.eqb negb length]. lia.
  - destruct (b =? 0); cbn [negb length]; rewrite ?Nat2Z.inj_succ; specialize (IH k ltac:(lia) H); lia.
Qed.
Lemma ones_inv l : Forall (fun b => b = 0 \/ b = 1) l -> ones_in (map (fun b => 1 - b) l) = len l - ones_in l.
Proof. unfold ones_in, len. induction 1 as [|b l H F IH]; [reflexivity|]. cbn [map filter length]. destruct H as [-> | ->]; [change (1 - 0) with 1|change (1 - 1) with 0]; cbn [Z.eqb negb length]; lia. Qed.
Lemma ones_0 n : ones_in (repeat 0 n) = 0. Proof. unfold ones_in. induction n; [reflexivity|]. cbn. exact IHn. Qed.
Lemma Forall_upd (P : Z -> Prop) l k v : Forall P l -> P v -> Forall P (upd l k v).
Proof. intros H Pv. revert k. induction H; intros [|k]; cbn [upd]; constructor; auto. Qed.
Lemma byte_ok wi xi seed : 0 < wi < xi -> state seed -> exists l seed', byte_subset wi xi seed = Ok (l, seed') /\ state seed' /\ subset_of wi xi l.
Proof.
  intros W S. unfold byte_subset. set (inv := xi / 2 <? wi). set (wn := if inv then xi - wi else wi). cbv zeta. assert (Wn : 0 <= wn <= xi) by (unfold wn; destruct inv; lia).
  destruct (for_keep byte_step (fun i st => let '(set, sd) := st in state sd /\ len set = xi /\ Forall (fun b => b = 0 \/ b = 1) set /\ (forall k, i <= k < xi -> word set k = 0) /\ ones_in set = i - (xi - wn)) (Z.to_nat wn) (xi - wn) (repeat 0 (Z.to_nat xi), seed)) as ([set sd]&E&P).
  - intros i [st s] I (Sd&L&B&Z0&C). unfold byte_step. draw Sd. pose proof (wy2u0k_ok rnd (i + 1) Hr ltac:(lia)) as J. set (j := wy2u0k rnd (i + 1)) in *. rewrite rdz_ok by lia. cbn [bind].
    set (j' := if negb (word st j =? 0) then i else j). assert (J' : 0 <= j' <= i /\ word st j' = 0). { unfold j'. destruct (Z.eqb_spec (word st j) 0); cbn [negb]; [split; [lia|auto]|]. split; [lia|]. apply Z0. lia. }
    rewrite wrz_ok by lia. cbn [bind]. eexists. split; [reflexivity|]. split; [exact Hs|]. split; [rewrite len_upd; exact L|]. split; [apply Forall_upd; auto|]. split.
    + intros k K. rewrite word_upd by lia. destruct (Z.eqb_spec k j'); [lia|]. apply Z0. lia.
    + rewrite ones_upd by (try apply J'; lia). lia.
  - split; [exact S|]. split; [apply repeat_len; lia|]. split. { apply Forall_forall. intros b Hb. apply repeat_spec in Hb. auto. } split; [intros k K; apply repeat_word; lia|]. rewrite ones_0. lia.
  - rewrite E. cbn [bind]. destruct P as (Sd&L&B&_&C). replace (xi - wn + Z.of_nat (Z.to_nat wn)) with xi in C by lia. eexists _, sd. split; [reflexivity|]. split; [exact Sd|].
    set (st := if inv then map (fun b => 1 - b) set else set). assert (Q : len st = xi /\ ones_in st = wi). { unfold st, wn in *. destruct inv; [|split; [exact L|lia]]. split; [unfold len in *; rewrite map_length; exact L|]. rewrite ones_inv by auto. lia. }
    destruct Q as (Ls&Cs). destruct (positions_ok st 0) as (A1&A2&A3). split; [unfold len; lia|]. split; [exact A2|]. unfold below. eapply Forall_impl; [|exact A3]. cbn beta. intros; lia.
Qed.
