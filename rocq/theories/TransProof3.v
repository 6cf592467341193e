From Verif Require Import Base ListLib TransModel TransProof TransProof2.
From Coq Require Import List Arith Lia.
Open Scope nat_scope.
Lemma offr_mod rl K : pos rl -> offr rl K = offr rl (K mod P rl).
Proof.
  intros PU. revert K. induction PU as [|[a b] u U PU IH]; intros K; auto. cbn [fst] in U. pose proof (P_pos _ PU). cbn [offr]. rewrite P_cons. f_equal.
  - rewrite (Nat.mul_comm a (P u)), mod_mod_mul by lia. reflexivity.
  - rewrite IH. f_equal. rewrite mod_split by lia. rewrite (Nat.mul_comm a ((K / a) mod P u)), Nat.div_add by lia. rewrite (Nat.div_small (K mod a) a) by (apply Nat.mod_upper_bound; lia). reflexivity.
Qed.
Lemma bump2_ok skip rest i c rl : pos rl -> forall K, K < P rl ->
  bump2 skip (map (pair false) (dg rl K) ++ rest) i (offr rl K + c) =
  if K + 1 <? P rl then Ok (map (pair false) (dg rl (K + 1)) ++ rest, i, offr rl (K + 1) + c)
  else do (t, j) <- bump2 skip rest i c; Ok (map (pair false) (dg rl 0) ++ fst t, snd t, j).
Proof.
  intros PR. revert i c. induction PR as [|[l s] rl L PR IH]; intros i c K KB.
  - change (P []) with 1 in *. assert (K = 0) as -> by lia. cbn [dg offr map app Nat.add Nat.ltb Nat.leb]. destruct (bump2 skip rest i c) as [[[t i'] j]| |]; reflexivity.
  - cbn [fst] in L. rewrite P_cons in *. pose proof (P_pos _ PR) as PP. pose proof (Nat.div_mod K l ltac:(lia)) as DM. assert (KD : K / l < P rl) by (apply Nat.div_lt_upper_bound; lia). cbn [dg offr map app bump2]. destruct (succ_digit l K L) as [(A1 & A2 & A3)|(A1 & A2 & A3)].
    + replace (K mod l + 1 <? l) with true by (symmetry; apply Nat.ltb_lt; lia). replace (K + 1 <? l * P rl) with true; [rewrite A2, A3; do 2 f_equal; ring|]. symmetry. apply Nat.ltb_lt. assert (l * (K / l) + l <= l * P rl) by nia. lia.
    + replace (K mod l + 1 <? l) with false by (symmetry; apply Nat.ltb_ge; lia). replace (K mod l * s + offr rl (K / l) + c + s) with (l * s + (offr rl (K / l) + c)) by (transitivity ((K mod l + 1) * s + offr rl (K / l) + c); [rewrite A1; ring|ring]). replace (l * s + (offr rl (K / l) + c) <? l * s) with false by (symmetry; apply Nat.ltb_ge; lia). replace (l * s + (offr rl (K / l) + c) - l * s) with (offr rl (K / l) + c) by lia. rewrite IH by auto. assert (EC : (K + 1 <? l * P rl) = (K / l + 1 <? P rl)). { destruct (Nat.ltb_spec (K / l + 1) (P rl)); [apply Nat.ltb_lt; assert (l * (K / l + 1) + l <= l * P rl) by nia; lia|apply Nat.ltb_ge; assert (K / l + 1 = P rl) by lia; nia]. } rewrite EC. destruct (K / l + 1 <? P rl).
      * cbn [bind]. rewrite A2, A3. do 2 f_equal. 
      * destruct (bump2 skip rest i c) as [[[t i'] j]| |]; cbn [bind fst snd]; try reflexivity. rewrite Nat.mod_0_l, Nat.div_0_l by lia. reflexivity.
Qed.
Section M.
Context {A : Type}.
Variables (x : list A) (h ws w : nat) (mid out : list (nat * nat)).
Hypotheses (H0 : 0 < h) (W0 : 0 < w) (PM : pos mid) (PO : pos out).
Let rl := (h, ws) :: mid ++ (w, 1) :: out.
Let M := P mid. Let O := P out. Let hs := M * h. Let N := P rl.
Hypothesis fb : forall n, n < N -> offr rl n < length x.
Lemma M0 : 0 < M. Proof. apply P_pos; auto. Qed.
Lemma O0 : 0 < O. Proof. apply P_pos; auto. Qed.
Lemma N_eq : N = O * (w * hs). Proof. unfold N, rl. rewrite P_cons, P_app, P_cons. unfold hs, O, M. ring. Qed.
Definition iK (K : nat) : nat := (K / M) * (w * hs) + (K mod M) * h.
Lemma digits a b c d : b < w -> c < M -> d < h -> offr rl (a * (w * hs) + (b * hs + (c * h + d))) = d * ws + (offr mid c + (b + offr out a)).
Proof.
  intros B C D. pose proof M0. unfold rl. cbn [offr]. replace (a * (w * hs) + (b * hs + (c * h + d))) with (((a * w + b) * M + c) * h + d) by (unfold hs; ring). destruct (divmod_digit h ((a * w + b) * M + c) d H0 D) as [-> ->]. rewrite offr_app by auto. fold M. destruct (divmod_digit M (a * w + b) c M0 C) as [D1 D2]. rewrite D2. rewrite (offr_mod mid) by auto. fold M. rewrite D1. cbn [offr]. destruct (divmod_digit w a b W0 B) as [-> ->]. lia.
Qed.
Definition idx (m : nat) : nat := (m / (w * hs)) * M + (m / h) mod M.
Lemma decomp m : m = (m / (w * hs)) * (w * hs) + (((m / hs) mod w) * hs + (((m / h) mod M) * h + m mod h)).
Proof.
  pose proof M0. assert (HS : 0 < hs) by (unfold hs; nia). rewrite (Nat.div_mod m (w * hs)) at 1 by nia. rewrite (Nat.mul_comm w hs), mod_split by lia. replace (m mod hs) with (m mod h + h * ((m / h) mod M)) by (unfold hs; rewrite (Nat.mul_comm M h), mod_split by lia; reflexivity). ring.
Qed.
Lemma iK_row K y xi : K / M < O -> xi < w -> y < h -> iK K + (xi * hs + y) < N /\ offr rl (iK K + (xi * hs + y)) = offr mid (K mod M) + offr out (K / M) + (y * ws + xi).
Proof.
  intros KB XB YB. pose proof M0. assert (CM : K mod M < M) by (apply Nat.mod_upper_bound; lia). unfold iK. replace ((K / M) * (w * hs) + K mod M * h + (xi * hs + y)) with ((K / M) * (w * hs) + (xi * hs + (K mod M * h + y))) by ring. split; [|rewrite digits by auto; lia]. rewrite N_eq. assert (K mod M * h + y < hs) by (unfold hs; nia). assert (xi * hs + (K mod M * h + y) < w * hs) by nia. nia.
Qed.
Lemma idx_lt m : m < N -> idx m < M * O.
Proof. intros MB. rewrite N_eq in MB. pose proof M0. assert (HS : 0 < hs) by (unfold hs; nia). assert (m / (w * hs) < O) by (apply Nat.div_lt_upper_bound; nia). pose proof (Nat.mod_upper_bound (m / h) M ltac:(lia)). unfold idx. nia. Qed.
Lemma loop2d_ok skip : skip = (w - 1) * hs -> forall fuel K r, M * O - K < fuel -> K < M * O -> inv x N (offr rl) r (fun m => idx m < K) ->
  exists r', loop2d fuel (fun i j r => transpose_T r i x j w h ws hs) h skip (N - skip) (iK K) (offr mid (K mod M) + offr out (K / M)) (map (pair false) (dg mid (K mod M)) ++ (true, (w, 1, 0)) :: map (pair false) (dg out (K / M))) r = Ok r' /\ inv x N (offr rl) r' (fun _ => True).
Proof.
  intros SK. pose proof M0 as M0. pose proof O0 as O0. assert (HS : 0 < hs) by (unfold hs; nia). induction fuel as [|fuel IH]; intros K r FU KB IV; [lia|]. cbn [loop2d].
  assert (KD : K / M < O) by (apply Nat.div_lt_upper_bound; lia). pose proof (Nat.mod_upper_bound K M ltac:(lia)) as KM. pose proof (Nat.div_mod K M ltac:(lia)) as DM.
  destruct (tran_ok x N (offr rl) fb r (fun m => idx m < K) (iK K) (offr mid (K mod M) + offr out (K / M)) w h ws hs IV) as (r1 & E1 & IV1).
  { intros xi y XB YB. apply iK_row; auto. }
  rewrite E1. cbn [bind]. assert (IV2 : inv x N (offr rl) r1 (fun m => idx m < K + 1)).
  { eapply inv_weak; [|exact IV1]. intros m MB MI. cbn beta in *. destruct (Nat.eq_dec (idx m) K) as [EI|]; [right|left; lia]. exists ((m / hs) mod w), (m mod h). split; [apply Nat.mod_upper_bound; lia|]. split; [apply Nat.mod_upper_bound; lia|]. assert (D : K / M = m / (w * hs) /\ K mod M = (m / h) mod M). { rewrite <- EI. unfold idx. pose proof (divmod_digit M (m / (w * hs)) ((m / h) mod M) M0 ltac:(apply Nat.mod_upper_bound; lia)). tauto. } destruct D as [D1 D2]. unfold iK. rewrite D1, D2. rewrite (decomp m) at 1. ring. }
  clear IV1 IV. assert (EQ : N - skip = (O - 1) * (w * hs) + hs). { rewrite N_eq, SK. assert (exists o, O = S o) as (o & ->) by (destruct O; [lia|eauto]). assert (exists w', w = S w') as (w' & EW) by (destruct w; [lia|eauto]). rewrite EW. cbn [Nat.sub]. rewrite !Nat.sub_0_r. cbn [Nat.mul]. lia. }
  destruct (succ_digit M K M0) as [(A1 & A2 & A3)|(A1 & A2 & A3)].
  - replace (iK K + h) with (iK (K + 1)) by (unfold iK; rewrite A2, A3; ring). assert (LT : (iK (K + 1) =? N - skip) = false). { apply Nat.eqb_neq. rewrite EQ. unfold iK. rewrite A2, A3. assert ((K mod M + 1) * h < hs) by (unfold hs; nia). pose proof (Nat.mul_le_mono_r (K / M) (O - 1) (w * hs) ltac:(lia)). lia. } rewrite LT. rewrite (bump2_ok skip _ _ (offr out (K / M)) mid PM (K mod M) KM). fold M. replace (K mod M + 1 <? M) with true by (symmetry; apply Nat.ltb_lt; lia). cbn [bind]. rewrite <- A2. rewrite <- A3. apply IH; auto; [lia|].
    assert (K + 1 <> M * O); [|lia]. intros EK. rewrite EK in A2. rewrite Nat.mul_comm, Nat.mod_mul in A2 by lia. lia.
  - assert (IE : iK K + h = (K / M) * (w * hs) + hs) by (unfold iK; replace hs with ((K mod M + 1) * h) by (rewrite A1; reflexivity); ring). rewrite IE. destruct (Nat.eqb_spec ((K / M) * (w * hs) + hs) (N - skip)) as [EE|NE].
    + exists r1. split; auto. eapply inv_weak; [|exact IV2]. intros m MB _. cbn beta. pose proof (idx_lt m MB). assert (K / M = O - 1). { rewrite EQ in EE. assert (0 < w * hs) by (apply Nat.mul_pos_pos; auto). assert ((K / M) * (w * hs) = (O - 1) * (w * hs)) by lia. apply (Nat.mul_cancel_r _ _ (w * hs)); lia. } assert (M * O = M * (K / M) + M) by (replace O with (K / M + 1) by lia; ring). lia.
    + assert (KO : K / M + 1 < O). { destruct (Nat.eq_dec (K / M) (O - 1)) as [E|]; [exfalso; apply NE; rewrite EQ, E; reflexivity|lia]. } rewrite (bump2_ok skip _ _ (offr out (K / M)) mid PM (K mod M) KM). fold M. replace (K mod M + 1 <? M) with false by (symmetry; apply Nat.ltb_ge; lia). cbn [bump2]. pose proof (bump2_ok skip [] ((K / M) * (w * hs) + hs + skip) 0 out PO (K / M) KD) as BO. rewrite !app_nil_r, !Nat.add_0_r in BO. rewrite BO. fold O. replace (K / M + 1 <? O) with true by (symmetry; apply Nat.ltb_lt; lia). cbn [bind fst snd].
      replace ((K / M) * (w * hs) + hs + skip) with (iK (K + 1)). 2:{ unfold iK. rewrite A2, A3, SK. assert (exists w', w = S w') as (w' & ->) by (destruct w; [lia|eauto]). cbn [Nat.sub]. rewrite Nat.sub_0_r. cbn [Nat.mul]. ring. }
      replace (offr out (K / M + 1)) with (offr mid ((K + 1) mod M) + offr out ((K + 1) / M)) by (rewrite A2, A3, offr0; reflexivity). rewrite <- A3. replace (dg mid 0) with (dg mid ((K + 1) mod M)) by (rewrite A2; reflexivity). apply IH; auto; [lia|]. pose proof (Nat.mul_lt_mono_pos_l M (K / M + 1) O M0). assert (M * (K / M + 1) = K + 1) by lia. lia.
Qed.
End M.
