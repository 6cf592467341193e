(** Proofs about the sorting of integers and bits. *)
From Verif Require Import Base BitLemmas BitsModel BitsSpec TimsortModel TimsortSpec TimsortProof SortModel SortSpec RadixProof.

(** ** insertion sort *)
Lemma LT_spec up a b : if LT up a b then before up a b /\ a <> b else before up b a.
Proof. unfold LT, before. destruct up; [destruct (Z.ltb_spec a b)|destruct (Z.ltb_spec b a)]; lia. Qed.
Lemma before_trans up a b c : before up a b -> before up b c -> before up a c.
Proof. unfold before. destruct up; lia. Qed.
Lemma ins_loop_ok up xi : forall s h rest, StronglySorted (before up) s ->
  exists p q, s = p ++ q /\ ins_loop up (s ++ h :: rest) xi (length s) = Ok (p ++ xi :: q ++ rest) /\ Forall (before up xi) q /\ Forall (fun y => before up y xi) p.
Proof.
  intros s. induction s as [|y s IH] using rev_ind; intros h rest Hs.
  - exists [], []. split; [reflexivity|]. split; [reflexivity|]. split; constructor.
  - rewrite app_length. cbn [length]. rewrite Nat.add_1_r. cbn [ins_loop].
    replace ((s ++ [y]) ++ h :: rest) with (s ++ y :: h :: rest) by (rewrite <- app_assoc; reflexivity).
    rewrite rd_at by reflexivity. cbn [bind].
    assert (Hsy : StronglySorted (before up) s /\ Forall (fun z => before up z y) s).
    { clear -Hs. induction s as [|a s IH]; [split; constructor|]. cbn [app] in Hs. apply StronglySorted_inv in Hs. destruct Hs as [Hs F]. destruct (IH Hs). split; constructor; auto; [apply Forall_app in F; tauto|]. rewrite Forall_forall in F. apply F. apply in_or_app. cbn. auto. }
    destruct Hsy as [Hs' Fy]. pose proof (LT_spec up xi y) as L. destruct (LT up xi y).
    + replace (s ++ y :: h :: rest) with ((s ++ [y]) ++ h :: rest) by (rewrite <- app_assoc; reflexivity).
      replace (S (length s)) with (length (s ++ [y])) by (rewrite app_length; cbn; lia). rewrite wr_at by reflexivity. cbn [bind].
      replace ((s ++ [y]) ++ y :: rest) with (s ++ y :: y :: rest) by (rewrite <- app_assoc; reflexivity).
      destruct (IH y (y :: rest) Hs') as (p&q&E1&E2&E3&E4). exists p, (q ++ [y]). split; [rewrite E1, app_assoc; reflexivity|]. split; [rewrite E2, <- app_assoc; reflexivity|].
      split; [|exact E4]. apply Forall_app. split; [exact E3|]. constructor; [apply L|constructor].
    + replace (S (length s)) with (length (s ++ [y])) by (rewrite app_length; cbn; lia).
      replace (s ++ y :: h :: rest) with ((s ++ [y]) ++ h :: rest) by (rewrite <- app_assoc; reflexivity). rewrite wr_at by reflexivity.
      exists (s ++ [y]), []. split; [now rewrite app_nil_r|]. split; [reflexivity|]. split; [constructor|]. apply Forall_app. split; [|constructor; [exact L|constructor]].
      rewrite Forall_forall in *. intros z Hz. apply before_trans with y; auto.
Qed.
Lemma insert_sorted up xi p q : StronglySorted (before up) (p ++ q) -> Forall (before up xi) q -> Forall (fun y => before up y xi) p -> StronglySorted (before up) (p ++ xi :: q).
Proof.
  intros S Fq Fp. induction p as [|a p IH]; cbn [app] in *; [constructor; auto|].
  apply StronglySorted_inv in S. destruct S as [S F]. pose proof (Forall_inv Fp) as Fa. apply Forall_inv_tail in Fp. constructor; [auto|].
  apply Forall_app in F. apply Forall_app. split; [tauto|]. constructor; tauto.
Qed.
Lemma ins_outer_ok up xp : forall q p s rest, xp = p ++ q -> Permutation p s -> StronglySorted (before up) s -> length rest = length q ->
  exists r, ins_outer up (length q) xp (s ++ rest) (length s) = Ok r /\ sorting up xp r.
Proof.
  induction q as [|xi q IH]; intros p s rest El P Ss L; cbn [length ins_outer].
  - destruct rest; [|discriminate]. rewrite !app_nil_r in *. subst p. exists s. split; [reflexivity|]. split; assumption.
  - destruct rest as [|h rest]; [discriminate|].
    assert (Ln : length p = length s) by (apply Permutation_length, P). rewrite El, <- Ln, rd_at by reflexivity. cbn [bind]. rewrite Ln.
    destruct (ins_loop_ok up xi s h rest Ss) as (a&b&E1&E2&E3&E4). rewrite E2. cbn [bind].
    assert (Lb : S (length s) = length (a ++ xi :: b)) by (rewrite E1, !app_length; cbn; lia). rewrite Lb.
    replace (a ++ xi :: b ++ rest) with ((a ++ xi :: b) ++ rest) by (rewrite <- app_assoc; reflexivity). rewrite <- El.
    apply (IH (p ++ [xi])).
    + rewrite El, <- app_assoc. reflexivity.
    + apply Permutation_trans with (xi :: p); [apply Permutation_sym, Permutation_cons_append|]. apply Permutation_cons_app. rewrite <- E1. exact P.
    + apply insert_sorted; auto. rewrite <- E1. exact Ss.
    + cbn in L. lia.
Qed.
Lemma insertion_sort_ok up xp rp : xp <> [] -> length rp = length xp -> exists r, insertion_sort up xp rp = Ok r /\ sorting up xp r.
Proof.
  intros N L. unfold insertion_sort. destruct xp as [|x0 xp']; [congruence|]. destruct rp as [|h rp]; [discriminate|].
  change (rd (x0 :: xp') 0) with (Ok x0). cbn [bind]. rewrite wr_ok by (cbn; lia). cbn [bind].
  apply (ins_outer_ok up (x0 :: xp') (x0 :: xp') [] [] (upd (h :: rp) 0 x0)); [reflexivity|constructor|constructor|]. rewrite upd_length. exact L.
Qed.

(** ** radix *)
Lemma bpass_perm {A} up ks : forall l : list A, (forall v k, In v l -> In k ks -> (k v < 256)%nat) -> Permutation l (fold_left (bpass up) ks l).
Proof.
  induction ks as [|k ks IH]; intros l H; cbn [fold_left]; [apply Permutation_refl|].
  assert (P : Permutation l (bpass up l k)) by (apply bucket_perm; intros x Hx; apply sg_lt, H; cbn; auto).
  apply Permutation_trans with (bpass up l k); [exact P|]. apply IH. intros v k' Hv Hk. apply H; cbn; auto. apply (Permutation_in v (Permutation_sym P) Hv).
Qed.
Definition lexR {A} (up : bool) (R : A -> A -> Prop) (k : A -> nat) (a b : A) : Prop := (sg up (k a) < sg up (k b))%nat \/ sg up (k a) = sg up (k b) /\ R a b.
Lemma bpass_sorted {A} up ks : forall (l : list A) R, StronglySorted R l -> StronglySorted (fold_left (lexR up) ks R) (fold_left (bpass up) ks l).
Proof. induction ks as [|k ks IH]; intros l R S; cbn [fold_left]; [exact S|]. apply IH. apply (bucket_sorted (fun v => sg up (k v))). exact S. Qed.

Lemma sgn_small k v : 0 < k -> - 2 ^ (k - 1) <= v < 2 ^ (k - 1) -> sgn k v = v.
Proof. intros K H. unfold sgn. assert (E : 2 ^ k = 2 * 2 ^ (k - 1)) by (rewrite <- Z.pow_succ_r by lia; f_equal; lia). rewrite Z.mod_small; lia. Qed.
Lemma ubyte_val s v : 0 <= s -> Z.of_nat (ubyte s v) = v / 2 ^ s mod 256.
Proof. intros H. unfold ubyte. rewrite Z.shiftr_div_pow2 by lia. rewrite Z2Nat.id; [reflexivity|]. apply Z.mod_pos_bound. lia. Qed.
Lemma sbyte_val s v : 0 <= s -> -128 <= v / 2 ^ s < 128 -> Z.of_nat (sbyte s v) = v / 2 ^ s + 128.
Proof. intros H B. unfold sbyte. rewrite Z.shiftr_div_pow2 by lia. rewrite sgn_small; [lia|lia|]. change (2 ^ (8 - 1)) with 128. lia. Qed.
Lemma sg_le up i j : (i < 256)%nat -> (j < 256)%nat -> ((sg up i < sg up j)%nat <-> (if up then (i < j)%nat else (j < i)%nat)).
Proof. unfold sg. destruct up; lia. Qed.
Lemma int_ok_8 v : int_ok 8 v -> -128 <= v < 128. Proof. unfold int_ok. change (2 ^ (8 - 1)) with 128. lia. Qed.
Lemma int_ok_16 v : int_ok 16 v -> -32768 <= v < 32768. Proof. unfold int_ok. change (2 ^ (16 - 1)) with 32768. lia. Qed.
Lemma int_ok_32 v : int_ok 32 v -> -2147483648 <= v < 2147483648. Proof. unfold int_ok. change (2 ^ (32 - 1)) with 2147483648. lia. Qed.
Definition width w := w = 8 \/ w = 16 \/ w = 32.
Lemma digits_lt w v k : width w -> int_ok w v -> In k (digits w) -> (k v < 256)%nat.
Proof.
  assert (U : forall s, 0 <= s -> (ubyte s v < 256)%nat) by (intros s Hs; pose proof (ubyte_val s v Hs); pose proof (Z.mod_pos_bound (v / 2 ^ s) 256); lia).
  intros [ -> | [ -> | -> ]] H I; cbn in I.
  - apply int_ok_8 in H. destruct I as [ <- |[]]. pose proof (sbyte_val 0 v). change (2 ^ 0) with 1 in *. lia.
  - apply int_ok_16 in H. destruct I as [ <- |[ <- |[]]]; [apply U; lia|]. pose proof (sbyte_val 8 v). change (2 ^ 8) with 256 in *. lia.
  - apply int_ok_32 in H. destruct I as [ <- |[ <- |[ <- |[ <- |[]]]]]; try (apply U; lia). pose proof (sbyte_val 24 v). change (2 ^ 24) with 16777216 in *. lia.
Qed.
Lemma digits_nonempty w : digits w <> []. Proof. unfold digits. destruct (w =? 8); [discriminate|]. destruct (w =? 16); discriminate. Qed.
(** the digits, most significant last, decide the order *)
Lemma digits_order w up (R : Z -> Z -> Prop) a b : width w -> int_ok w a -> int_ok w b -> fold_left (lexR up) (digits w) R a b -> icmp up a b < 0 \/ a = b /\ R a b.
Proof.
  intros W Ha Hb H.
  assert (L : forall k, In k (digits w) -> (k a < 256)%nat /\ (k b < 256)%nat) by (intros k Hk; split; apply (digits_lt w); auto).
  destruct W as [ -> | [ -> | -> ]]; unfold digits in *; cbn [Z.eqb Pos.eqb fold_left In] in *; unfold lexR in H.
  - apply int_ok_8 in Ha, Hb. destruct (L _ (or_introl eq_refl)) as [L1 L2]. rewrite sg_le in H by assumption.
    pose proof (sbyte_val 0 a) as A. pose proof (sbyte_val 0 b) as B. change (2 ^ 0) with 1 in *. rewrite Z.div_1_r in *. unfold icmp.
    destruct H as [H|[H HR]]; [left; destruct up; lia|right]. apply sg_inj in H; auto. split; [lia|assumption].
  - apply int_ok_16 in Ha, Hb. destruct (L (ubyte 0)) as [L1 L2]; [tauto|]. destruct (L (sbyte 8)) as [L3 L4]; [tauto|]. rewrite !sg_le in H by assumption.
    pose proof (ubyte_val 0 a) as A0. pose proof (ubyte_val 0 b) as B0. pose proof (sbyte_val 8 a) as A1. pose proof (sbyte_val 8 b) as B1.
    change (2 ^ 0) with 1 in *. change (2 ^ 8) with 256 in *. rewrite Z.div_1_r in *. unfold icmp.
    destruct H as [H|[H [H'|[H' HR]]]]; try apply sg_inj in H; try apply sg_inj in H'; auto; [left; destruct up; lia|left; destruct up; lia|right; split; [lia|assumption]].
  - apply int_ok_32 in Ha, Hb. destruct (L (ubyte 0)) as [L1 L2]; [tauto|]. destruct (L (ubyte 8)) as [L3 L4]; [tauto|]. destruct (L (ubyte 16)) as [L5 L6]; [tauto|]. destruct (L (sbyte 24)) as [L7 L8]; [tauto|].
    rewrite !sg_le in H by assumption.
    pose proof (ubyte_val 0 a) as A0. pose proof (ubyte_val 0 b) as B0. pose proof (ubyte_val 8 a) as A1. pose proof (ubyte_val 8 b) as B1.
    pose proof (ubyte_val 16 a) as A2. pose proof (ubyte_val 16 b) as B2. pose proof (sbyte_val 24 a) as A3. pose proof (sbyte_val 24 b) as B3.
    assert (Da : a / 2 ^ 16 = a / 2 ^ 8 / 256 /\ a / 2 ^ 24 = a / 2 ^ 16 / 256) by (split; rewrite Z.div_div by lia; reflexivity).
    assert (Db : b / 2 ^ 16 = b / 2 ^ 8 / 256 /\ b / 2 ^ 24 = b / 2 ^ 16 / 256) by (split; rewrite Z.div_div by lia; reflexivity).
    change (2 ^ 0) with 1 in *. rewrite Z.div_1_r in *. change (2 ^ 8) with 256 in *.
    set (a1 := a / 256) in *. set (b1 := b / 256) in *. destruct Da as [Da2 Da3]. destruct Db as [Db2 Db3]. rewrite Da3, Da2, Db3, Db2 in *.
    set (a2 := a1 / 256) in *. set (b2 := b1 / 256) in *. set (a3 := a2 / 256) in *. set (b3 := b2 / 256) in *.
    unfold icmp. assert (-128 <= a3 < 128) by (unfold a3, a2, a1; lia). assert (-128 <= b3 < 128) by (unfold b3, b2, b1; lia).
    specialize (A0 ltac:(lia)). specialize (A1 ltac:(lia)). specialize (A2 ltac:(lia)). specialize (A3 ltac:(lia) ltac:(lia)).
    specialize (B0 ltac:(lia)). specialize (B1 ltac:(lia)). specialize (B2 ltac:(lia)). specialize (B3 ltac:(lia) ltac:(lia)).
    assert (Ea : a = 256 * a1 + a mod 256 /\ a1 = 256 * a2 + a1 mod 256 /\ a2 = 256 * a3 + a2 mod 256) by (unfold a3, a2, a1; repeat split; apply Z.div_mod; lia).
    assert (Eb : b = 256 * b1 + b mod 256 /\ b1 = 256 * b2 + b1 mod 256 /\ b2 = 256 * b3 + b2 mod 256) by (unfold b3, b2, b1; repeat split; apply Z.div_mod; lia).
    clearbody a1 a2 a3 b1 b2 b3. generalize dependent (ubyte 0 a). generalize dependent (ubyte 0 b). generalize dependent (ubyte 8 a). generalize dependent (ubyte 8 b).
    generalize dependent (ubyte 16 a). generalize dependent (ubyte 16 b). generalize dependent (sbyte 24 a). generalize dependent (sbyte 24 b). intros.
    generalize dependent (a mod 256). generalize dependent (b mod 256). generalize dependent (a1 mod 256). generalize dependent (b1 mod 256). generalize dependent (a2 mod 256). generalize dependent (b2 mod 256). intros. clear L Da2 Da3 Db2 Db3 Ha Hb.
    destruct H as [H|[H [H'|[H' [H''|[H'' [H3|[H3 HR]]]]]]]]; try apply sg_inj in H; try apply sg_inj in H'; try apply sg_inj in H''; try apply sg_inj in H3; auto; try (left; destruct up; lia). right; split; [lia|assumption].
Qed.
