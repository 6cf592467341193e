From Verif Require Import Base BitsModel SqueezeModel SqueezeProof ReuseModel TransSpec FnsModel FnsSpec FnsProof FnsProof2.
From Coq Require Import List.
Open Scope nat_scope.

(** * positions and strides *)
Fixpoint dot (u st : list nat) : nat := match u, st with i :: u, s :: st => i * s + dot u st | _, _ => 0 end.
Fixpoint sts (cia : nat) (xw : list nat) : list nat := match xw with [] => [] | _ :: t => cia * size t :: sts cia t end.
Lemma sts_len c xw : length (sts c xw) = length xw. Proof. induction xw; cbn [sts length]; auto. Qed.
Lemma dot_app a b s t : length a = length s -> dot (a ++ b) (s ++ t) = dot a s + dot b t.
Proof. revert s. induction a as [|x a IH]; intros [|y s] H; cbn [length] in H; try lia; [reflexivity|]. cbn [app dot]. rewrite IH by lia. lia. Qed.
Lemma dot_sts c xw : forall I, length I = length xw -> dot I (sts c xw) = ravel xw I * c.
Proof. induction xw as [|h t IH]; intros [|i I] H; cbn [length] in H; try lia; [reflexivity|]. cbn [sts dot ravel]. rewrite IH by lia. lia. Qed.
Lemma size_cons l sh : size (l :: sh) = l * size sh. Proof. reflexivity. Qed.
Lemma size_app' a b : size (a ++ b) = size a * size b.
Proof. induction a as [|l a IH]; [cbn [app]; change (size []) with 1; lia|]. cbn [app]. rewrite !size_cons, IH. lia. Qed.
Lemma ravel_app2 s t I J : length I = length s -> ravel (s ++ t) (I ++ J) = ravel s I * size t + ravel t J.
Proof. revert I. induction s as [|l s IH]; intros [|i I] H; cbn [length] in H; try lia; [reflexivity|]. cbn [app ravel]. rewrite IH, size_app' by lia. lia. Qed.
Lemma plus_len a : forall b, length a = length b -> length (plus a b) = length a.
Proof. induction a as [|x a IH]; intros [|y b] H; cbn [length] in H; try lia; [reflexivity|]. cbn [plus length]. rewrite IH; lia. Qed.
Lemma ravel_plus sh : forall I J, length I = length sh -> length J = length sh -> ravel sh (plus I J) = ravel sh I + ravel sh J.
Proof. induction sh as [|l sh IH]; intros [|i I] [|j J] H1 H2; cbn [length] in *; try lia; [reflexivity|]. cbn [plus ravel]. rewrite IH by lia. lia. Qed.
Lemma upd_len {A} (l : list A) i v : length (upd l i v) = length l. Proof. apply upd_length. Qed.
Lemma dot_upd : forall u st a v, a < length u -> length u = length st -> dot (upd u a v) st + nth a u 0 * nth a st 0 = dot u st + v * nth a st 0.
Proof. induction u as [|x u IH]; intros [|s st] [|a] v H L; cbn [length] in *; try lia; cbn [upd dot nth]; [lia|]. specialize (IH st a v ltac:(lia) ltac:(lia)). lia. Qed.
Lemma ravel_upd : forall G u a v, a < length u -> length u = length G -> ravel G (upd u a v) + nth a u 0 * size (skipn (a + 1) G) = ravel G u + v * size (skipn (a + 1) G).
Proof. induction G as [|g G IH]; intros [|x u] [|a] v H L; cbn [length] in *; try lia; cbn [upd ravel nth Nat.add skipn]; [lia|]. specialize (IH u a v ltac:(lia) ltac:(lia)). lia. Qed.
Lemma inb_upd : forall G u a v, inb G u -> v < nth a G 0 -> inb G (upd u a v).
Proof. intros G u a v H. revert a. induction H as [|g x G u H F IH]; intros a V; [destruct a; cbn in V; lia|]. destruct a as [|a]; cbn [upd nth] in *; constructor; auto. apply IH; auto. Qed.
Lemma inb_nth G u : inb G u -> forall a, a < length G -> nth a u 0 < nth a G 0.
Proof. induction 1 as [|g x G u H F IH]; intros [|a] L; cbn [length nth] in *; try lia. apply IH; lia. Qed.
Lemma size_skip G : forall a, a < length G -> size (skipn a G) = nth a G 0 * size (skipn (a + 1) G).
Proof. induction G as [|g G IH]; intros [|a] L; cbn [length] in L; try lia; [reflexivity|]. cbn [skipn nth Nat.add]. apply IH. lia. Qed.
Lemma sts_nth c xw : forall b, b < length xw -> nth b (sts c xw) 0 = c * size (skipn (b + 1) xw).
Proof. induction xw as [|h t IH]; intros [|b] L; cbn [length] in L; try lia; [reflexivity|]. cbn [sts nth Nat.add skipn]. apply IH. lia. Qed.
Lemma sts_step c xw b : b + 1 < length xw -> nth b (sts c xw) 0 = nth (b + 1) (sts c xw) 0 * nth (b + 1) xw 0.
Proof. intros H. rewrite !sts_nth by lia. rewrite (size_skip xw (b + 1)) by lia. lia. Qed.
Lemma sts_last c xw : 0 < length xw -> nth (length xw - 1) (sts c xw) 0 = c.
Proof. intros H. rewrite sts_nth by lia. rewrite skipn_all2 by lia. change (size []) with 1. lia. Qed.
Lemma size_pos' G : Forall (fun l => 0 < l) G -> 0 < size G. Proof. induction 1 as [|l G H F IH]; [cbn; lia|]. rewrite size_cons. nia. Qed.
Lemma size_skip_le xw : Forall (fun l => 0 < l) xw -> forall b, size (skipn b xw) <= size xw.
Proof. induction 1 as [|l xw H F IH]; intros [|b]; cbn [skipn]; try lia. rewrite size_cons. specialize (IH b). nia. Qed.

Lemma nth_map_Z l i : i < length l -> nth i (map Z.of_nat l) 0%Z = Z.of_nat (nth i l 0).
Proof. intros H. change 0%Z with (Z.of_nat 0). apply map_nth. Qed.
Lemma rd_map l i : i < length l -> rd (map Z.of_nat l) i = Ok (Z.of_nat (nth i l 0)).
Proof. intros H. rewrite (rd_ok _ _ 0%Z) by (rewrite map_length; exact H). rewrite nth_map_Z by exact H. reflexivity. Qed.
Lemma wr_map l i v : i < length l -> wr (map Z.of_nat l) i (Z.of_nat v) = Ok (map Z.of_nat (upd l i v)).
Proof.
  intros H. unfold wr. rewrite map_length. replace (i <? length l) with true by lia. f_equal. revert i H. induction l as [|x l IH]; intros [|i] H; cbn [length] in H; try lia; [reflexivity|].
  cbn [map upd]. rewrite IH by lia. reflexivity.
Qed.

(** * the odometer *)
Section O.
Variables (xsh xw rest G rsh : list nat) (cia mlast : nat).
Let w := length xw.
Hypothesis XE : xsh = xw ++ rest.
Hypothesis W2 : 2 <= w.
Hypothesis GL : length G + 1 = 2 * w.
Hypothesis RE : rsh = G ++ mlast :: rest.
Hypothesis XP : Forall (fun l => 0 < l) xw.
Hypothesis XB : (Z.of_nat (cia * size xw) < 2 ^ 32)%Z.
Definition FS := sts cia xw ++ sts cia xw.
Lemma FS_len : length FS = 2 * w. Proof. unfold FS. rewrite app_length, sts_len. fold w. lia. Qed.
Lemma FS_lo a : a < w -> nth a FS 0 = nth a (sts cia xw) 0.
Proof. intros H. unfold FS. apply app_nth1. rewrite sts_len. exact H. Qed.
Lemma FS_hi a : w <= a -> nth a FS 0 = nth (a - w) (sts cia xw) 0.
Proof. intros H. unfold FS. rewrite app_nth2 by (rewrite sts_len; exact H). rewrite sts_len. reflexivity. Qed.
Lemma dot_pre u : length u = length G -> dot u FS = dot u (firstn (length G) FS).
Proof. intros H. rewrite <- (firstn_skipn (length G) FS) at 1. rewrite <- (app_nil_r u) at 1. rewrite dot_app by (rewrite firstn_length, FS_len; lia). cbn [dot]. lia. Qed.
Lemma sts_bnd b : b < w -> (Z.of_nat (nth b (sts cia xw) 0%nat) < 2 ^ 32)%Z.
Proof. intros H. rewrite sts_nth by exact H. pose proof (size_skip_le xw XP (b + 1)). assert (cia * size (skipn (b + 1) xw) <= cia * size xw) by (apply Nat.mul_le_mono_l; auto). lia. Qed.
Lemma dotFS_upd u a v : a < length G -> length u = length G -> dot (upd u a v) FS + nth a u 0 * nth a FS 0 = dot u FS + v * nth a FS 0.
Proof.
  intros A L. rewrite !dot_pre by (rewrite ?upd_len; exact L). pose proof (dot_upd u (firstn (length G) FS) a v ltac:(lia) ltac:(rewrite firstn_length, FS_len; lia)) as D.
  assert (E : nth a (firstn (length G) FS) 0 = nth a FS 0). { rewrite <- (firstn_skipn (length G) FS) at 2. rewrite app_nth1; [reflexivity|]. rewrite firstn_length, FS_len. lia. }
  rewrite E in D. exact D.
Qed.
Open Scope Z_scope.
Definition bax (a : nat) : Z := if (a <? w)%nat then Z.of_nat a else Z.of_nat a - Z.of_nat w.
Lemma bump_ok : forall a fuel u, (a < fuel)%nat -> inb G u -> (a < length G)%nat -> (ravel G u + size (skipn (a + 1) G) < size G)%nat ->
  exists u', win_bump fuel (map Z.of_nat rsh) (map Z.of_nat xsh) (Z.of_nat cia) (Z.of_nat w) (map Z.of_nat u) (Z.of_nat a) (bax a) (Z.of_nat (nth a FS 0%nat)) (to_u 32 (Z.of_nat (dot u FS + nth a FS 0%nat)))
             = Ok (map Z.of_nat u', to_u 32 (Z.of_nat (dot u' FS))) /\ inb G u' /\ ravel G u' = (ravel G u + size (skipn (a + 1) G))%nat.
Proof.
  induction a as [|a IH]; intros fuel u F IB AL LT.
  all: destruct fuel as [|fuel]; [lia|]; cbn [win_bump].
  all: pose proof (inb_len' _ _ IB) as UL.
  - change (Z.of_nat 0 <? 0) with false. cbv iota. change (Z.to_nat (Z.of_nat 0)) with 0%nat. rewrite rd_map by lia. cbn [bind]. rewrite RE. rewrite rd_map by (rewrite app_length; lia). cbn [bind]. rewrite app_nth1 by lia.
    pose proof (inb_nth _ _ IB 0%nat AL) as N0. pose proof (size_skip G 0 AL) as S0. cbn [skipn Nat.add] in *.
    destruct (Z.eqb_spec (Z.of_nat (nth 0 u 0%nat) + 1) (Z.of_nat (nth 0 G 0%nat))) as [E|E].
    + exfalso. pose proof (ravel_upd G u 0 0 ltac:(lia) UL) as R. cbn [Nat.add skipn] in R. assert (nth 0 G 0 = nth 0 u 0 + 1)%nat by lia. rewrite H in S0. lia.
    + replace (Z.of_nat (nth 0 u 0%nat) + 1) with (Z.of_nat (nth 0 u 0%nat + 1)) by lia. rewrite wr_map by lia. cbn [bind].
      exists (upd u 0 (nth 0 u 0%nat + 1)%nat). pose proof (dotFS_upd u 0 (nth 0 u 0%nat + 1) AL UL) as D. pose proof (ravel_upd G u 0 (nth 0 u 0%nat + 1) ltac:(lia) UL) as R. cbn [skipn Nat.add] in *.
      split; [do 3 f_equal; lia|]. split; [apply inb_upd; auto; lia|lia].
  - replace (Z.of_nat (S a) <? 0) with false by lia. cbv iota. rewrite Nat2Z.id. rewrite rd_map by lia. cbn [bind]. rewrite RE. rewrite rd_map by (rewrite app_length; lia). cbn [bind]. rewrite app_nth1 by lia. rewrite <- RE.
    pose proof (inb_nth _ _ IB (S a) AL) as N0. pose proof (size_skip G (S a) AL) as S0. pose proof (size_skip G a ltac:(lia)) as S1. replace (a + 1)%nat with (S a) in S1 by lia.
    destruct (Z.eqb_spec (Z.of_nat (nth (S a) u 0%nat) + 1) (Z.of_nat (nth (S a) G 0%nat))) as [E|E].
    + change (wr (map Z.of_nat u) (S a) 0) with (wr (map Z.of_nat u) (S a) (Z.of_nat 0)). rewrite wr_map by lia. cbn [bind]. set (u1 := upd u (S a) 0%nat).
      assert (EN : nth (S a) G 0%nat = (nth (S a) u 0 + 1)%nat) by lia.
      pose proof (dotFS_upd u (S a) 0 AL UL) as D. pose proof (ravel_upd G u (S a) 0 ltac:(lia) UL) as R. fold u1 in D, R.
      assert (BX : 0 <= bax (S a) < Z.of_nat w) by (unfold bax; destruct (Nat.ltb_spec (S a) w); lia).
      replace (bax (S a) <? 0) with false by lia. cbv iota. rewrite XE. rewrite rd_map by (rewrite app_length; fold w; lia). cbn [bind]. rewrite app_nth1 by (fold w; lia). rewrite <- XE.
      assert (ST : (if bax (S a) =? 0 then (Z.of_nat cia, Z.of_nat w) else (to_u 32 (Z.of_nat (nth (S a) FS 0%nat) * Z.of_nat (nth (Z.to_nat (bax (S a))) xw 0%nat)), bax (S a)))
                   = (Z.of_nat (nth a FS 0%nat), bax a + 1)).
      { unfold bax in *. destruct (Nat.ltb_spec (S a) w) as [H|H].
        - replace (Z.of_nat (S a) =? 0) with false by lia. replace (a <? w)%nat with true by lia. rewrite Nat2Z.id. rewrite !FS_lo by lia. pose proof (sts_step cia xw a ltac:(fold w; lia)) as P. replace (a + 1)%nat with (S a) in P by lia.
          rewrite <- Nat2Z.inj_mul, <- P. f_equal; [|lia]. apply to_u_id. pose proof (sts_bnd a ltac:(lia)). lia.
        - destruct (Z.eqb_spec (Z.of_nat (S a) - Z.of_nat w) 0) as [Q|Q].
          + replace (a <? w)%nat with true by lia. rewrite FS_lo by lia. replace a with (length xw - 1)%nat by (fold w; lia). rewrite sts_last by (fold w; lia). fold w. f_equal. lia.
          + replace (a <? w)%nat with false by lia. rewrite !FS_hi by lia. pose proof (sts_step cia xw (a - w) ltac:(fold w; lia)) as P. replace (a - w + 1)%nat with (S a - w)%nat in P by lia.
            replace (Z.to_nat (Z.of_nat (S a) - Z.of_nat w)) with (S a - w)%nat by lia. rewrite <- Nat2Z.inj_mul, <- P. f_equal; [|lia]. apply to_u_id. pose proof (sts_bnd (a - w) ltac:(lia)). lia. }
      cbv zeta. rewrite ST.
      assert (J : to_u 32 (to_u 32 (to_u 32 (Z.of_nat (dot u FS + nth (S a) FS 0%nat)) - Z.of_nat (nth (S a) G 0%nat) * Z.of_nat (nth (S a) FS 0%nat)) + Z.of_nat (nth a FS 0%nat)) = to_u 32 (Z.of_nat (dot u1 FS + nth a FS 0%nat))).
      { unfold to_u. rewrite Zplus_mod_idemp_l. rewrite <- (Zplus_mod_idemp_l (_ - _)), Zminus_mod_idemp_l, Zplus_mod_idemp_l. f_equal. rewrite EN. lia. }
      rewrite J. replace (Z.of_nat (S a) - 1) with (Z.of_nat a) by lia. replace (bax a + 1 - 1) with (bax a) by lia.
      assert (I1 : inb G u1) by (apply inb_upd; auto; lia).
      assert (RS : (ravel G u1 + size (skipn (a + 1) G) = ravel G u + size (skipn (S a + 1) G))%nat).
      { replace (a + 1)%nat with (S a) by lia. rewrite S0, EN. lia. }
      destruct (IH fuel u1 ltac:(lia) I1 ltac:(lia) ltac:(lia)) as (u' & E' & I' & R'). exists u'. split; [exact E'|]. split; [exact I'|]. lia.
    + replace (Z.of_nat (nth (S a) u 0%nat) + 1) with (Z.of_nat (nth (S a) u 0%nat + 1)) by lia. rewrite wr_map by lia. cbn [bind].
      exists (upd u (S a) (nth (S a) u 0%nat + 1)%nat). pose proof (dotFS_upd u (S a) (nth (S a) u 0%nat + 1) AL UL) as D. pose proof (ravel_upd G u (S a) (nth (S a) u 0%nat + 1) ltac:(lia) UL) as R.
      split; [do 3 f_equal; lia|]. split; [apply inb_upd; auto; lia|lia].
Qed.
End O.
