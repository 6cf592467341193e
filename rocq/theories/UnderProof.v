From Verif Require Import Base SqueezeModel ReuseModel TransSpec SqueezeProof FnsModel FnsProof UnderModel UnderSpec.
From Coq Require Import List.
Open Scope nat_scope.
Lemma cell_len {A} csz n (x : list A) k : length x = n * csz -> k < n -> length (cell csz x k) = csz.
Proof. intros L K. unfold cell. rewrite firstn_length, skipn_length. assert (S k * csz <= n * csz) by (apply Nat.mul_le_mono_r; lia). cbn [Nat.mul] in *. lia. Qed.
Lemma skskip {A} (l : list A) : forall a b, skipn a (skipn b l) = skipn (b + a) l.
Proof. induction l as [|v l IH]; intros a [|b]; cbn [skipn Nat.add]; auto. destruct a; reflexivity. Qed.
Lemma firstn_skipn_snoc {A} (l : list A) p n d : p + n < length l -> firstn (n + 1) (skipn p l) = firstn n (skipn p l) ++ [nth (p + n) l d].
Proof.
  intros H. rewrite (firstn_snoc (skipn p l) n d) by (rewrite skipn_length; lia). f_equal. f_equal. revert p H. induction l as [|a l IH]; intros [|p] H; cbn [skipn length Nat.add nth] in *; try lia; auto. apply IH. lia.
Qed.
Lemma copy_ok {A} (s : list A) so p : forall n d, p + n <= length d -> so + n <= length s -> copy_range d p s so n = Ok (firstn p d ++ firstn n (skipn so s) ++ skipn (p + n) d).
Proof.
  intros n d HD HS. destruct s as [|a0 s0] eqn:ES. { cbn [length] in HS. assert (n = 0) by lia. subst n. unfold copy_range. cbn [for_i firstn]. rewrite Nat.add_0_r. cbn [app]. rewrite firstn_skipn. reflexivity. } rewrite <- ES in *. clear ES s0.
  unfold copy_range. destruct (for_inv (fun j t => t = firstn p d ++ firstn j (skipn so s) ++ skipn (p + j) d) (fun j d => do v <- rd s (so + j); wr d (p + j) v) n 0 d) as (t & E & ->).
  - intros j t J ->. rewrite (rd_ok s (so + j) a0) by lia. cbn [bind].
    assert (L1 : length (firstn p d ++ firstn j (skipn so s)) = p + j) by (rewrite app_length, !firstn_length, skipn_length; lia).
    rewrite wr_ok' by (rewrite app_assoc, app_length, L1, skipn_length; lia). eexists; split; [reflexivity|].
    rewrite app_assoc. rewrite firstn_app_l by exact L1. rewrite skipn_app, (skipn_all2 (firstn p d ++ _)) by lia. rewrite L1. replace (p + j + 1 - (p + j)) with 1 by lia. cbn [app].
    rewrite (firstn_skipn_snoc s so j a0) by lia. rewrite <- !app_assoc. do 2 f_equal. cbn [app]. f_equal. rewrite skskip. f_equal. lia.
  - cbn [firstn]. rewrite Nat.add_0_r. cbn [app]. symmetry. apply firstn_skipn.
  - rewrite E. reflexivity.
Qed.

Lemma same_ok {A} (compat : A -> A -> bool) (CE : forall a b, compat a b = true <-> a = b) : forall n a p b q, p + n <= length a -> q + n <= length b ->
  exists t, same_range compat a p b q n = Ok t /\ (t = true <-> firstn n (skipn p a) = firstn n (skipn q b)).
Proof.
  induction n as [|n IH]; intros a p b q HA HB; cbn [same_range]; [exists true; split; [reflexivity|cbn [firstn]; tauto]|].
  destruct (nth_error a p) as [u|] eqn:EU; [|apply nth_error_None in EU; lia]. destruct (nth_error b q) as [v|] eqn:EV; [|apply nth_error_None in EV; lia].
  assert (SU : skipn p a = u :: skipn (p + 1) a). { clear - EU. revert p EU. induction a as [|c a IH]; intros [|p] E; cbn [nth_error] in E; try discriminate; [inversion E; reflexivity|]. cbn [skipn Nat.add]. apply IH. exact E. }
  assert (SV : skipn q b = v :: skipn (q + 1) b). { clear - EV. revert q EV. induction b as [|c a IH]; intros [|p] E; cbn [nth_error] in E; try discriminate; [inversion E; reflexivity|]. cbn [skipn Nat.add]. apply IH. exact E. }
  unfold rd. rewrite EU, EV. cbn [bind]. rewrite SU, SV. cbn [firstn]. destruct (compat u v) eqn:C.
  - apply CE in C. subst v. destruct (IH a (p + 1) b (q + 1)) as (t & E & H); [lia|lia|]. exists t. split; [exact E|]. rewrite H. split; [intros ->; reflexivity|intros Q; inversion Q; auto].
  - exists false. split; [reflexivity|]. split; [discriminate|]. intros Q. inversion Q; subst. exfalso. assert (compat v v = true) by (apply CE; reflexivity). congruence.
Qed.
Lemma cell_upd {A} csz n (d c : list A) k0 k : length d = n * csz -> length c = csz -> k0 < n -> k < n ->
  cell csz (firstn (k0 * csz) d ++ c ++ skipn (k0 * csz + csz) d) k = if k =? k0 then c else cell csz d k.
Proof.
  intros LD LC K0 K. assert (B0 : S k0 * csz <= n * csz) by (apply Nat.mul_le_mono_r; lia). cbn [Nat.mul] in B0. unfold cell. assert (LF : length (firstn (k0 * csz) d) = k0 * csz) by (rewrite firstn_length; lia).
  destruct (Nat.eqb_spec k k0) as [->|NE].
  - rewrite skipn_app, skipn_all2 by lia. rewrite LF, Nat.sub_diag. cbn [app skipn]. apply firstn_app_l. exact LC.
  - destruct (Nat.lt_ge_cases k k0) as [LT|GE].
    + assert (B1 : S k * csz <= k0 * csz) by (apply Nat.mul_le_mono_r; lia). cbn [Nat.mul] in B1. rewrite skipn_app, firstn_app. rewrite skipn_length, LF. replace (csz - (k0 * csz - k * csz)) with 0 by lia. cbn [firstn]. rewrite app_nil_r.
      rewrite skipn_firstn_comm, firstn_firstn. f_equal. lia.
    + assert (B1 : S k0 * csz <= k * csz) by (apply Nat.mul_le_mono_r; lia). cbn [Nat.mul] in B1. rewrite app_assoc, skipn_app, skipn_all2 by (rewrite app_length; lia). cbn [app]. rewrite app_length, LF, LC, skskip. do 2 f_equal. lia.
Qed.
Definition wrapz (n : nat) (z : Z) : nat := Z.to_nat (if z <? 0 then z + Z.of_nat n else z)%Z.
Lemma read_w_ok n w i v : nth_error w i = Some v -> read_w n w i = Ok (wrapz n v).
Proof. intros E. unfold read_w, rd. rewrite E. reflexivity. Qed.
Lemma set_ok n (w : list Z) junk : length junk = n -> Forall (fun z => in_range n z = true) w -> exists s, set_init junk n w = Ok s /\ length s = n /\ forall k, In k (map (wrapz n) w) -> nth_error s k = Some false.
Proof.
  intros LJ F. assert (WB : forall i v, nth_error w i = Some v -> wrapz n v < n). { intros i v E. apply nth_error_In in E. rewrite Forall_forall in F. specialize (F v E). unfold in_range in F. unfold wrapz. destruct (Z.ltb_spec v 0); lia. }
  unfold set_init. destruct (length w <? n / 64).
  - destruct (for_inv (fun i s => length s = n /\ forall k, In k (map (wrapz n) (firstn i w)) -> nth_error s k = Some false) (fun i s => do cw <- read_w n w i; wr s cw false) (length w) 0 junk) as (s & E & LS & H).
    + intros i s I (LS & H). destruct (nth_error w i) as [v|] eqn:EV; [|apply nth_error_None in EV; lia]. rewrite (read_w_ok _ _ _ _ EV). cbn [bind]. pose proof (WB i v EV). unfold wr. rewrite LS. replace (wrapz n v <? n) with true by (symmetry; apply Nat.ltb_lt; lia).
      eexists. split; [reflexivity|]. split; [rewrite upd_length; exact LS|]. intros k K. rewrite nth_error_upd, LS. replace (wrapz n v <? n) with true by (symmetry; apply Nat.ltb_lt; lia). destruct (Nat.eqb_spec (wrapz n v) k) as [_|NE]; [reflexivity|]. apply H.
      rewrite (firstn_snoc w i v), map_app in K by lia. apply in_app_or in K. destruct K as [K|[K|[]]]; [exact K|]. rewrite (nth_error_nth _ _ _ EV) in K. contradiction.
    + split; [exact LJ|]. intros k [].
    + cbn [Nat.add] in H. rewrite firstn_all in H. exists s. auto.
  - destruct (for_inv (fun i s => length s = n /\ forall k, k < i -> nth_error s k = Some false) (fun i s => wr s i false) n 0 junk) as (s & E & LS & H).
    + intros i s I (LS & H). unfold wr. rewrite LS. replace (i <? n) with true by (symmetry; apply Nat.ltb_lt; lia). eexists. split; [reflexivity|]. split; [rewrite upd_length; exact LS|]. intros k K. rewrite nth_error_upd, LS. replace (i <? n) with true by (symmetry; apply Nat.ltb_lt; lia). destruct (Nat.eqb_spec i k); [reflexivity|]. apply H. lia.
    + split; [exact LJ|]. intros k K. lia.
    + exists s. split; [exact E|]. split; [exact LS|]. intros k K. apply H. apply in_map_iff in K. destruct K as (v & <- & V). apply In_nth_error in V. destruct V as [i V]. apply (WB i v) in V. lia.
Qed.
(** the comparison is of the right cells *)
Definition narrow (wf64 : bool) (re : el) (csz : nat) : Prop := csz = 1 \/ wf64 = true \/ re = EBit \/ re = EB \/ (Z.of_nat csz * elWidth re < 256)%Z.
Lemma cell_eq_ok {A} (compat : A -> A -> bool) (CE : forall a b, compat a b = true <-> a = b) wf64 re csz n m (r rep : list A) k i : narrow wf64 re csz -> length r = n * csz -> length rep = m * csz -> k < n -> i < m ->
  exists t, cell_eq compat wf64 re csz r rep k i = Ok t /\ (t = true <-> cell csz r k = cell csz rep i).
Proof.
  intros N LR LP K I. assert (B1 : S k * csz <= n * csz) by (apply Nat.mul_le_mono_r; lia). assert (B2 : S i * csz <= m * csz) by (apply Nat.mul_le_mono_r; lia). cbn [Nat.mul] in B1, B2. unfold cell_eq. destruct (Nat.eqb_spec csz 1) as [->|N1].
  - unfold cell. rewrite !Nat.mul_1_r in *. apply same_ok; [exact CE|lia|lia].
  - destruct (wf64 || _) eqn:C; [apply same_ok; [exact CE|lia|lia]|]. apply orb_false_iff in C. destruct C as [-> C]. destruct N as [N|[N|[N|[N|N]]]]; try congruence; try (subst re; discriminate).
    assert (EW : (0 < elWidth re)%Z) by (destruct re; cbn [elWidth]; try lia; discriminate). cbv zeta. rewrite to_u_id by (try change (2 ^ 8)%Z with 256%Z; nia). rewrite Z.div_mul by lia. rewrite Nat2Z.id. apply same_ok; [exact CE|lia|lia].
Qed.

Lemma cell_eq_self {A} csz (a b : list A) : csz = 0 -> forall k i, cell csz a k = cell csz b i.
Proof. intros -> k i. reflexivity. Qed.
Lemma loop_ok' {A} (compat : A -> A -> bool) (CE : forall a b, compat a b = true <-> a = b) wf64 re csz n (w : list Z) (x rep : list A) : narrow wf64 re csz -> length x = n * csz -> length rep = length w * csz -> Forall (fun z => in_range n z = true) w ->
  let idx := map (wrapz n) w in
  forall m i set r, i + m = length w -> length set = n -> (forall k, In k idx -> nth_error set k = Some (if in_dec Nat.eq_dec k (firstn i idx) then true else false)) ->
  replaced csz n (firstn i idx) x rep r -> consistent csz (firstn i idx) rep ->
  match replace_loop compat wf64 re n csz w rep m i set r with Ok r => replaced csz n idx x rep r /\ consistent csz idx rep | Err => ~ consistent csz idx rep | UB => False end.
Proof.
  intros NR LX LP F idx. assert (LI : length idx = length w) by apply map_length. induction m as [|m IH]; intros i set r IM LS SET R C; cbn [replace_loop].
  - assert (E : firstn i idx = idx) by (apply firstn_all2; lia). rewrite E in *. auto.
  - destruct (nth_error w i) as [v|] eqn:EV; [|apply nth_error_None in EV; lia]. rewrite (read_w_ok _ _ _ _ EV). cbn [bind]. set (k := wrapz n v). assert (EK : nth_error idx i = Some k) by (unfold idx; rewrite nth_error_map, EV; reflexivity).
    assert (KN : k < n). { apply nth_error_In in EV. rewrite Forall_forall in F. specialize (F v EV). unfold in_range in F. unfold k, wrapz. destruct (Z.ltb_spec v 0); lia. }
    clearbody k. unfold rd. rewrite (SET k) by (eapply nth_error_In; exact EK). cbn [bind]. destruct R as (RL & R1 & R2).
    assert (FS : firstn (i + 1) idx = firstn i idx ++ [k]) by (rewrite (firstn_snoc idx i 0) by lia; rewrite (nth_error_nth _ _ _ EK); reflexivity).
    assert (NF : forall j q, nth_error (firstn i idx) j = Some q -> j < i /\ nth_error idx j = Some q). { intros j q E. assert (j < length (firstn i idx)) by (apply nth_error_Some; congruence). rewrite firstn_length in H. split; [lia|]. rewrite <- (firstn_skipn i idx), nth_error_app1 by (rewrite firstn_length; lia). exact E. }
    assert (STEP : (forall j, nth_error (firstn i idx) j = Some k -> cell csz rep j = cell csz rep i) ->
      match (do set <- wr set k true; do r <- copy_range r (k * csz) rep (i * csz) csz; replace_loop compat wf64 re n csz w rep m (i + 1) set r) with Ok r => replaced csz n idx x rep r /\ consistent csz idx rep | Err => ~ consistent csz idx rep | UB => False end).
    { intros SAME. unfold wr. rewrite LS. replace (k <? n) with true by (symmetry; apply Nat.ltb_lt; exact KN). cbn [bind]. assert (B1 : S k * csz <= n * csz) by (apply Nat.mul_le_mono_r; lia). assert (B2 : S i * csz <= length w * csz) by (apply Nat.mul_le_mono_r; lia). cbn [Nat.mul] in B1, B2.
      rewrite copy_ok by lia. cbn [bind]. fold (cell csz rep i). assert (LC : length (cell csz rep i) = csz) by (apply (cell_len csz (length w)); lia).
      assert (CU : forall q, q < n -> cell csz (firstn (k * csz) r ++ cell csz rep i ++ skipn (k * csz + csz) r) q = if q =? k then cell csz rep i else cell csz r q) by (intros q Q; apply (cell_upd csz n); lia).
      apply IH; [lia|rewrite upd_length; exact LS| | |].
      - intros q Q. rewrite nth_error_upd, LS. replace (k <? n) with true by (symmetry; apply Nat.ltb_lt; exact KN). rewrite FS. destruct (Nat.eqb_spec k q) as [->|NE].
        + destruct (in_dec Nat.eq_dec q (firstn i idx ++ [q])) as [_|N]; [reflexivity|]. exfalso. apply N. apply in_or_app. right. left. reflexivity.
        + rewrite (SET q Q). destruct (in_dec Nat.eq_dec q (firstn i idx)) as [Y|N], (in_dec Nat.eq_dec q (firstn i idx ++ [k])) as [Y'|N']; auto; exfalso; [apply N'; apply in_or_app; auto|]. apply in_app_or in Y'. destruct Y' as [Y'|[Y'|[]]]; [auto|congruence].
      - rewrite FS. split; [|split].
        + rewrite !app_length, firstn_length, skipn_length, LC. lia.
        + intros j q E. destruct (Nat.lt_ge_cases j (length (firstn i idx))) as [LT|GE].
          * rewrite nth_error_app1 in E by exact LT. destruct (NF j q E) as [_ EJ]. assert (QN : q < n). { apply nth_error_In in EJ. unfold idx in EJ. apply in_map_iff in EJ. destruct EJ as (z & <- & Z). rewrite Forall_forall in F. specialize (F z Z). unfold in_range in F. unfold wrapz. destruct (Z.ltb_spec z 0); lia. }
            rewrite CU by exact QN. destruct (Nat.eqb_spec q k) as [->|NE]; [symmetry; apply SAME; exact E|apply R1; exact E].
          * rewrite nth_error_app2 in E by exact GE. rewrite firstn_length in *. destruct (j - Nat.min i (length idx)) as [|t] eqn:T; cbn [nth_error] in E; [|destruct t; discriminate]. inversion E; subst q. rewrite CU by exact KN. rewrite Nat.eqb_refl. f_equal. lia.
        + intros q Q N. rewrite CU by exact Q. destruct (Nat.eqb_spec q k) as [->|NE]; [exfalso; apply N; apply in_or_app; right; left; reflexivity|]. apply R2; [exact Q|]. intros H. apply N. apply in_or_app. auto.
      - rewrite FS. assert (KEY : forall j q, nth_error (firstn i idx ++ [k]) j = Some q -> (j < i /\ nth_error (firstn i idx) j = Some q) \/ j = i /\ q = k).
        { intros j q E. destruct (Nat.lt_ge_cases j (length (firstn i idx))) as [LT|GE]; [left; rewrite nth_error_app1 in E by exact LT; rewrite firstn_length in LT; split; [lia|exact E]|]. right. rewrite nth_error_app2 in E by exact GE. rewrite firstn_length in *. destruct (j - Nat.min i (length idx)) as [|t] eqn:T; cbn [nth_error] in E; [|destruct t; discriminate]. inversion E; subst q. split; [lia|reflexivity]. }
        intros a b q EA EB. destruct (KEY a q EA) as [[_ A1]|[-> ->]], (KEY b _ EB) as [[_ B1']|[-> Q]]; try subst q; auto; [exact (C a b q A1 B1')|symmetry; auto]. }
    destruct (in_dec Nat.eq_dec k (firstn i idx)) as [Y|N]; cbn [bind].
    + apply In_nth_error in Y. destruct Y as [j J]. destruct (cell_eq_ok compat CE wf64 re csz n (length w) r rep k i NR ltac:(lia) LP KN ltac:(lia)) as (t & E & T). rewrite E. cbn [bind]. rewrite (R1 j k J) in T. destruct t.
      * apply STEP. intros j' J'. rewrite (C j' j k J' J). apply T. reflexivity.
      * intros CC. assert (Q : false = true); [|discriminate]. apply T. destruct (NF j k J) as [_ EJ]. exact (CC j i k EJ EK).
    + apply STEP. intros j J. exfalso. apply N. eapply nth_error_In. exact J.
Qed.
Lemma replace_ok {A} (compat : A -> A -> bool) (CE : forall a b, compat a b = true <-> a = b) junk wf64 re csz n (w : list Z) (x rep : list A) : length junk = n -> narrow wf64 re csz -> length x = n * csz -> length rep = length w * csz -> Forall (fun z => in_range n z = true) w ->
  let idx := map (wrapz n) w in
  match select_replace compat junk wf64 re n csz w x rep with Ok r => replaced csz n idx x rep r /\ consistent csz idx rep | Err => ~ consistent csz idx rep | UB => False end.
Proof.
  intros LJ NR LX LP F idx. unfold select_replace. destruct (set_ok n w junk LJ F) as (s & E & LS & H). rewrite E. cbn [bind]. apply loop_ok'; auto.
  - cbn [firstn]. split; [reflexivity|]. split; [intros [|i] k Q; discriminate|reflexivity].
  - intros [|i] i' k Q; discriminate.
Qed.
