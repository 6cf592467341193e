(** Repeat: the whole function. *)
From Verif Require Import Base SqueezeModel MapModel MapSpec MapProof MapProof5.
Open Scope Z_scope.
Section P.
Context {V S : Type}.
Implicit Types f fi : V -> S -> res (V * S).
(** the part of [repeat_] for everything but numbers from 0 *)
Definition many f fi g x s : res (rv V * S) :=
  do (lo, hi) <- bounds g (0, 0);
  let min := to_s 64 (- lo) in
  let max := hi in
  if negb (Z.shiftr (Z.lor min max) 48 =? 0) then Err else
  let all := repeat None (Z.to_nat (min + max + 1)) in
  do all <- wr all (Z.to_nat min) (Some x);
  do (all, s) <- (if min =? 0 then Ok (all, s) else fill_calls (Z.to_nat min) fi (-1) min all x s);
  do (all, s) <- fill_calls (Z.to_nat max) f 1 min all x s;
  do r <- replace all min g; Ok (r, s).
Lemma counts_range g : wf_g g -> forall z, counts g z -> - 2 ^ 63 <= z < 2 ^ 63.
Proof.
  revert g. apply (gv_ind' (fun g => wf_g g -> forall z, counts g z -> - 2 ^ 63 <= z < 2 ^ 63)).
  - intros z0 W z C. inversion C; subst. inversion W; subst. assumption.
  - intros _ z C. inversion C.
  - intros num sh gs IH W z C. inversion W; subst. inversion C as [|n s l g z' I G]; subst. rewrite Forall_forall in IH, H1. eapply IH; eauto.
Qed.
Lemma bounds_hl g lo hi : wf_g g -> ~ bad g -> highest g hi -> lowest g lo -> bounds g (0, 0) = Ok (- lo, hi).
Proof.
  intros W NB (H0&H1&H2) (L0&L1&L2). pose proof (bounds_ok g W (0, 0)) as O. destruct (bounds g (0, 0)) as [[l h]| |]; cbn [outcome] in O; [|tauto..].
  destruct O as (_&(A1&A2&A3)&(B1&B2&B3)). cbn [fst snd] in *.
  assert (l = - lo). { destruct A2 as [->|C1]; destruct L1 as [->|C2]; try lia; [specialize (A3 _ C2); lia|specialize (L2 _ C1); lia|specialize (A3 _ C2); specialize (L2 _ C1); lia]. }
  assert (h = hi). { destruct B2 as [->|C1]; destruct H1 as [->|C2]; try lia; [specialize (B3 _ C2); lia|specialize (H2 _ C1); lia|specialize (B3 _ C2); specialize (H2 _ C1); lia]. }
  subst. reflexivity.
Qed.
Lemma many_ok f fi g x s lo hi : wf_g g -> ~ bad g -> highest g hi -> lowest g lo -> hi < 2 ^ 48 -> lo < 2 ^ 48 ->
  match chain (Z.to_nat lo) fi x s with
  | Ok (downs, s1) => match chain (Z.to_nat hi) f x s1 with
                      | Ok (ups, s2) => exists r, many f fi g x s = Ok (r, s2) /\ substituted (nth_result x ups downs) g r
                      | Err => many f fi g x s = Err | UB => many f fi g x s = UB
                      end
  | Err => many f fi g x s = Err | UB => many f fi g x s = UB
  end.
Proof.
  intros W NB H L H48 L48. unfold many. rewrite (bounds_hl g lo hi W NB H L). cbn [bind]. destruct H as (H0&H1&H2), L as (L0&L1&L2).
  replace (to_s 64 (- - lo)) with lo by (unfold to_s; rewrite Z.opp_involutive, Z.mod_small by (change (2 ^ 64) with (2 * 2 ^ 63); change (64 - 1) with 63; lia); lia).
  rewrite (proj2 (shift_small lo hi L0 H0)) by lia. cbn [negb]. set (all0 := repeat None (Z.to_nat (lo + hi + 1))).
  assert (LA : length all0 = Z.to_nat (lo + hi + 1)) by apply repeat_length.
  assert (EW : wr all0 (Z.to_nat lo) (Some x) = Ok (upd all0 (Z.to_nat lo) (Some x))) by (unfold wr; destruct (Nat.ltb_spec (Z.to_nat lo) (length all0)) as [_|X]; [reflexivity|lia]). rewrite EW. cbn [bind]. set (all1 := upd all0 (Z.to_nat lo) (Some x)).
  assert (LB : length all1 = length all0) by apply upd_len.
  assert (X0 : nth_error all1 (Z.to_nat lo) = Some (Some x)).
  { unfold all1. rewrite nth_upd, Nat.eqb_refl. destruct (nth_error all0 (Z.to_nat lo)) eqn:E; [reflexivity|]. apply nth_error_None in E. lia. }
  replace (if lo =? 0 then Ok (all1, s) else fill_calls (Z.to_nat lo) fi (-1) lo all1 x s) with (fill_calls (Z.to_nat lo) fi (-1) lo all1 x s) by (destruct (Z.eqb_spec lo 0) as [->|]; reflexivity).
  pose proof (fill_ok fi (-1) ltac:(right; reflexivity) (Z.to_nat lo) lo all1 x s ltac:(lia) ltac:(lia)) as D.
  destruct (chain (Z.to_nat lo) fi x s) as [[downs s1]| |] eqn:CD; [|rewrite D; reflexivity..]. destruct D as (all2&E2&L2'&G2&K2). rewrite E2. cbn [bind].
  pose proof (fill_ok f 1 ltac:(left; reflexivity) (Z.to_nat hi) lo all2 x s1 ltac:(lia) ltac:(lia)) as U.
  destruct (chain (Z.to_nat hi) f x s1) as [[ups s2]| |] eqn:CU; [|rewrite U; reflexivity..]. destruct U as (all3&E3&L3&G3&K3). rewrite E3. cbn [bind].
  pose proof (chain_len _ _ _ _ _ _ CD) as LD. pose proof (chain_len _ _ _ _ _ _ CU) as LU.
  destruct (replace_ok all3 lo (nth_result x ups downs) L0 g NB) as (r&ER&Q); [|exists r; rewrite ER; split; [reflexivity|exact Q]].
  intros z C. specialize (H2 z C). specialize (L2 z C). unfold nth_result. destruct (Z.eqb_spec z 0) as [->|NZ].
  - exists x. split; [reflexivity|]. split; [lia|]. rewrite Z.add_0_r. rewrite K3 by lia. rewrite K2 by lia. exact X0.
  - destruct (Z.ltb_spec 0 z) as [P|P].
    + destruct (nth_error ups (Z.to_nat (z - 1))) as [y|] eqn:N; [|apply nth_error_None in N; lia]. exists y. split; [reflexivity|]. split; [lia|]. rewrite <- (G3 _ _ N). f_equal. lia.
    + destruct (nth_error downs (Z.to_nat (- z - 1))) as [y|] eqn:N; [|apply nth_error_None in N; lia]. exists y. split; [reflexivity|]. split; [lia|]. rewrite K3 by lia. rewrite <- (G2 _ _ N). f_equal. lia.
Qed.
Lemma many_bad f fi g x s : wf_g g -> bad g -> many f fi g x s = Err.
Proof. intros W B. unfold many. pose proof (bounds_ok g W (0, 0)) as O. destruct (bounds g (0, 0)) as [[l h]| |]; cbn [outcome] in O; [tauto|reflexivity|tauto]. Qed.
Lemma many_big f fi g x s lo hi : wf_g g -> ~ bad g -> highest g hi -> lowest g lo -> 2 ^ 48 <= hi \/ 2 ^ 48 <= lo -> many f fi g x s = Err.
Proof.
  intros W NB H L B. unfold many. rewrite (bounds_hl g lo hi W NB H L). cbn [bind]. destruct H as (H0&H1&_), L as (L0&L1&_).
  assert (HI : hi < 2 ^ 63) by (destruct H1 as [->|C]; [lia|apply (counts_range g W) in C; lia]). assert (LO : lo <= 2 ^ 63) by (destruct L1 as [->|C]; [lia|apply (counts_range g W) in C; lia]).
  rewrite Z.opp_involutive. destruct (Z.eq_dec lo (2 ^ 63)) as [->|NE].
  - change (to_s 64 (2 ^ 63)) with (- 2 ^ 63). assert (N : Z.shiftr (Z.lor (- 2 ^ 63) hi) 48 < 0) by (apply Z.shiftr_neg, Z.lor_neg; lia).
    destruct (Z.eqb_spec (Z.shiftr (Z.lor (- 2 ^ 63) hi) 48) 0); [lia|reflexivity].
  - replace (to_s 64 lo) with lo by (unfold to_s; rewrite Z.mod_small by (change (2 ^ 64) with (2 * 2 ^ 63); change (64 - 1) with 63; lia); lia).
    destruct (Z.shiftr (Z.lor lo hi) 48 =? 0) eqn:E; [|reflexivity]. apply shift_small in E; lia.
Qed.
Lemma single_hl z : highest (GNum (Some z)) (Z.max 0 z) /\ lowest (GNum (Some z)) (Z.max 0 (- z)).
Proof.
  split; (split; [lia|]); split; try (intros y C; inversion C; subst; lia).
  - destruct (Z.le_gt_cases z 0); [left; lia|right; replace (Z.max 0 z) with z by lia; constructor].
  - destruct (Z.le_gt_cases 0 z); [left; lia|right; replace (- Z.max 0 (- z)) with z by lia; constructor].
Qed.
Lemma hl_unique g : forall a b, highest g a -> highest g b -> a = b.
Proof. intros a b (A0&A1&A2) (B0&B1&B2). destruct A1 as [->|C]; destruct B1 as [->|D]; try lia; try specialize (A2 _ D); try specialize (B2 _ C); lia. Qed.
Lemma lo_unique g : forall a b, lowest g a -> lowest g b -> a = b.
Proof. intros a b (A0&A1&A2) (B0&B1&B2). destruct A1 as [->|C]; destruct B1 as [->|D]; try lia; try specialize (A2 _ D); try specialize (B2 _ C); lia. Qed.
Theorem repeat_ok f fi g x s lo hi : wf_g g -> ~ bad g -> highest g hi -> lowest g lo -> in_limits g lo hi ->
  match chain (Z.to_nat lo) fi x s with
  | Ok (downs, s1) => match chain (Z.to_nat hi) f x s1 with
                      | Ok (ups, s2) => exists r, repeat_ f fi g x s = Ok (r, s2) /\ substituted (nth_result x ups downs) g r
                      | Err => repeat_ f fi g x s = Err | UB => repeat_ f fi g x s = UB
                      end
  | Err => repeat_ f fi g x s = Err | UB => repeat_ f fi g x s = UB
  end.
Proof.
  intros W NB H L LIM. assert (CASE : (exists n, g = GNum (Some n) /\ 0 <= n) \/ (repeat_ f fi g x s = many f fi g x s /\ forall n, g = GNum (Some n) -> n < 0)).
  { destruct g as [[z|]| |]; [|exfalso; apply NB; constructor|right; split; [reflexivity|discriminate]..]. destruct (Z.le_gt_cases 0 z); [left; eauto|right]. split; [|intros n [= <-]; lia]. unfold repeat_. rewrite (proj2 (Z.leb_gt _ _)) by lia. reflexivity. }
  destruct CASE as [(n&->&N)|[E NN]].
  - destruct (single_hl n) as [H' L']. pose proof (hl_unique _ _ _ H H') as EH. pose proof (lo_unique _ _ _ L L') as EL. replace (Z.max 0 n) with n in EH by lia. replace (Z.max 0 (- n)) with 0 in EL by lia. subst hi lo.
    cbn [Z.to_nat chain]. unfold repeat_. rewrite (proj2 (Z.leb_le _ _)) by lia. rewrite times_chain. destruct (chain (Z.to_nat n) f x s) as [[ups s2]| |] eqn:CU; [|reflexivity..]. cbn [bind].
    eexists. split; [reflexivity|]. constructor. unfold nth_result. pose proof (chain_len _ _ _ _ _ _ CU) as LU. destruct (Z.eqb_spec n 0) as [->|NZ]; [destruct ups; [reflexivity|discriminate]|]. rewrite (proj2 (Z.ltb_lt 0 n)) by lia.
    replace (Z.to_nat (n - 1)) with (length ups - 1)%nat by lia. assert (NE : ups <> []) by (intros ->; cbn [length] in LU; lia). clear -NE. revert x.
    induction ups as [|a ups IH]; intros x; [congruence|]. destruct ups as [|b ups]; [reflexivity|]. specialize (IH ltac:(discriminate) x). cbn [length last] in *. rewrite Nat.sub_succ, Nat.sub_0_r in *. cbn [nth_error]. exact IH.
  - destruct LIM as [(n&->&N)|[A B]]; [specialize (NN n eq_refl); lia|]. rewrite E. exact (many_ok f fi g x s lo hi W NB H L A B).
Qed.
Theorem repeat_err f fi g x s : wf_g g -> bad g \/ (exists lo hi, ~ bad g /\ highest g hi /\ lowest g lo /\ ~ in_limits g lo hi) -> repeat_ f fi g x s = Err.
Proof.
  intros W [B|(lo&hi&NB&H&L&LIM)].
  - destruct g as [[z|]| |]; [inversion B|reflexivity|apply (many_bad f fi _ x s W B)..].
  - assert (BIG : 2 ^ 48 <= hi \/ 2 ^ 48 <= lo) by (destruct (Z.lt_ge_cases hi (2 ^ 48)); [|auto]; destruct (Z.lt_ge_cases lo (2 ^ 48)); [|auto]; exfalso; apply LIM; right; auto).
    pose proof (many_big f fi g x s lo hi W NB H L BIG) as M. destruct g as [[z|]| |]; [|reflexivity|exact M..]. unfold repeat_. destruct (Z.leb_spec 0 z); [|exact M]. exfalso. apply LIM. left. eauto.
Qed.
End P.
