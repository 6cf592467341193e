From Verif Require Import Base SqueezeModel ReuseModel TransSpec SqueezeProof MoveProof2 FnsModel FnsProof UnderModel UnderSpec UnderProof UnderProof2.
From Coq Require Import List.
Open Scope nat_scope.
Lemma takedrop_ok {A} mem wi (o : oper A) k xsh x : length mem = length x -> array xsh x -> wf_op o -> (Z.of_nat (length x) < 2 ^ 32)%Z -> k <= lead xsh ->
  let cs := tl xsh in let back := (wi <? 0)%Z in
  match takedrop_ucw mem wi o (Z.of_nat k) xsh x with
  | Ok (rsh, r) => rsh = xsh /\ exists rep, gives o (k :: cs) (taken back k (size cs) x) rep /\ r = put_back back k (size cs) x rep
  | Err => forall rep, ~ gives o (k :: cs) (taken back k (size cs) x) rep
  | UB => exists f, o = OFun f /\ f (k :: cs) (taken back k (size cs) x) = UB
  end.
Proof.
  intros LM AX WF B K cs back. set (csz := size cs). assert (LX : length x = lead xsh * csz) by (unfold array in AX; rewrite AX; unfold lead, csz, cs; destruct xsh; reflexivity).
  assert (KB : k * csz <= lead xsh * csz) by (apply Nat.mul_le_mono_r; exact K). unfold takedrop_ucw. fold cs csz.
  assert (ET : to_u 32 (Z.of_nat csz * Z.of_nat k) = Z.of_nat (k * csz)) by (rewrite to_u_id; lia). rewrite ET. assert (EL : to_u 32 (Z.of_nat (length x) - Z.of_nat (k * csz)) = Z.of_nat (length x - k * csz)) by (rewrite to_u_id; lia). cbv zeta. rewrite EL. fold back.
  assert (NB : (Z.of_nat (length x) <? (if back then Z.of_nat (length x - k * csz) else 0) + Z.of_nat (k * csz))%Z = false) by (apply Z.ltb_ge; destruct back; lia). rewrite NB.
  assert (EA : firstn (Z.to_nat (Z.of_nat (k * csz))) (skipn (Z.to_nat (if back then Z.of_nat (length x - k * csz) else 0)) x) = taken back k csz x).
  { rewrite Nat2Z.id. unfold taken. destruct back; [rewrite Nat2Z.id; apply firstn_all2; rewrite skipn_length; lia|reflexivity]. }
  rewrite EA, Nat2Z.id. pose proof (call_ok o (k :: cs) (taken back k csz x)) as CO. destruct (call o (k :: cs) _) as [[|s rep]| |]; cbn [bind]; [exact CO| |exact CO|exact CO].
  destruct (eqsh s (k :: cs)); cbn [negb]; [|exact CO].
  assert (LR : length rep = k * csz). { assert (Q : array (k :: cs) rep); [|exact Q]. eapply gives_len; [exact WF| |exact CO]. unfold array, taken. change (size (k :: cs)) with (k * csz). destruct back; [rewrite skipn_length; lia|rewrite firstn_length; lia]. }
  rewrite !Nat2Z.id. unfold put_back. destruct back.
  - rewrite copy_ok by lia. cbn [bind]. cbn [firstn skipn app Nat.add]. rewrite copy_ok by (rewrite ?app_length, ?firstn_length, ?skipn_length; lia). cbn [bind]. split; [reflexivity|]. exists rep. split; [exact CO|].
    rewrite firstn_app_l by (rewrite firstn_length; lia). f_equal. cbn [skipn]. rewrite (skipn_all2 (firstn _ x ++ _)) by (rewrite app_length, firstn_length, skipn_length; lia). rewrite app_nil_r. apply firstn_all2. lia.
  - rewrite copy_ok by lia. cbn [bind]. cbn [firstn skipn app Nat.add]. rewrite (firstn_all2 (n := k * csz) rep) by lia. rewrite copy_ok by (rewrite ?app_length, ?firstn_length, ?skipn_length; lia). cbn [bind]. split; [reflexivity|]. exists rep. split; [exact CO|].
    rewrite firstn_app_l by exact LR. f_equal. rewrite (firstn_all2 (skipn (k * csz) x)) by (rewrite skipn_length; lia). rewrite (skipn_all2 (rep ++ _)) by (rewrite app_length, skipn_length; lia). apply app_nil_r.
Qed.
Lemma shape1_ok {A} (o : oper A) xsh x : array xsh x -> wf_op o ->
  match shape_uc1 o xsh x with Ok (rsh, r) => rsh = xsh /\ gives o [length x] x r /\ array xsh r | Err => forall rep, ~ gives o [length x] x rep | UB => exists f, o = OFun f /\ f [length x] x = UB end.
Proof.
  intros AX WF. unfold shape_uc1. pose proof (call_ok o [length x] x) as CO. destruct (call o [length x] x) as [[|s rep]| |]; cbn [bind]; [exact CO| |exact CO|exact CO].
  destruct (eqsh_ok s [length x]) as [->|NE].
  - rewrite Nat.eqb_refl. split; [reflexivity|]. split; [exact CO|]. assert (Q : array [length x] rep) by (eapply gives_len; [exact WF| |exact CO]; unfold array; cbn [size fold_right]; lia). unfold array in *. cbn [size fold_right] in Q. lia.
  - destruct s as [|m [|? ?]]; try exact CO. destruct (Nat.eqb_spec m (length x)); [congruence|exact CO].
Qed.
Lemma shape2_ok {A} mem (o : oper A) ash xsh x : length mem = length x -> array xsh x -> wf_op o ->
  match shape_ucw mem o ash xsh x with
  | Ok (Some (rsh, r)) => size ash <= length x /\ rsh = xsh /\ exists rep, gives o ash (firstn (size ash) x) rep /\ r = rep ++ skipn (size ash) x
  | Ok None => length x < size ash
  | Err => forall rep, ~ gives o ash (firstn (size ash) x) rep
  | UB => exists f, o = OFun f /\ f ash (firstn (size ash) x) = UB
  end.
Proof.
  intros LM AX WF. unfold shape_ucw. destruct (Nat.ltb_spec (length x) (size ash)) as [LT|GE]; [exact LT|]. pose proof (call_ok o ash (firstn (size ash) x)) as CO. destruct (call o ash _) as [[|s rep]| |]; cbn [bind]; [exact CO| |exact CO|exact CO].
  destruct (eqsh s ash); cbn [negb]; [|exact CO]. assert (LR : length rep = size ash). { assert (Q : array ash rep); [|exact Q]. eapply gives_len; [exact WF| |exact CO]. unfold array. rewrite firstn_length. lia. }
  destruct (Nat.eqb_spec (length x) (size ash)) as [E|NE].
  - split; [lia|]. split; [reflexivity|]. exists rep. split; [exact CO|]. rewrite skipn_all2 by lia. symmetry. apply app_nil_r.
  - rewrite copy_ok by lia. cbn [bind]. cbn [firstn skipn app Nat.add]. rewrite (firstn_all2 (n := size ash) rep) by lia. rewrite copy_ok by (rewrite ?app_length, ?firstn_length, ?skipn_length; lia). cbn [bind]. split; [lia|]. split; [reflexivity|]. exists rep. split; [exact CO|].
    rewrite firstn_app_l by exact LR. f_equal. rewrite (firstn_all2 (skipn (size ash) x)) by (rewrite skipn_length; lia). rewrite (skipn_all2 (rep ++ _)) by (rewrite app_length, skipn_length; lia). apply app_nil_r.
Qed.
(** ** Pick *)
Lemma wrapi_ok z n : i64 z = true -> (Z.of_nat n < 2 ^ 32)%Z -> match wrapi z n with Ok k => index_of n (VNum z) k | Err => forall k, ~ index_of n (VNum z) k | UB => False end.
Proof.
  intros I N. unfold i64 in I. unfold wrapi, index_of. assert (IZ : (- 2 ^ 63 <= z < 2 ^ 63)%Z) by lia. clear I. assert (E64 : forall t, (0 <= t < 2 ^ 64)%Z -> to_u 64 t = t) by (intros; apply to_u_id; auto). assert (M64 : forall t, (- 2 ^ 64 <= t < 0)%Z -> to_u 64 t = (t + 2 ^ 64)%Z) by (intros t T; unfold to_u; symmetry; apply (Z.mod_unique_pos _ _ (-1)); lia).
  assert (INV : forall a b, VNum a = VNum b -> a = b) by (intros a b H; inversion H; reflexivity).
  destruct (Z.ltb_spec z 0) as [NG|PS].
  - rewrite M64 by lia. replace (z + 2 ^ 64 <? Z.of_nat n)%Z with false by lia. cbv zeta. destruct (Z.ltb_spec (z + Z.of_nat n) 0) as [G|G].
    + rewrite M64 by lia. replace (z + Z.of_nat n + 2 ^ 64 <? Z.of_nat n)%Z with false by lia. intros k (K & [E|E]); apply INV in E; lia.
    + rewrite E64 by lia. replace (z + Z.of_nat n <? Z.of_nat n)%Z with true by lia. split; [lia|]. right. f_equal. lia.
  - rewrite E64 by lia. destruct (Z.ltb_spec z (Z.of_nat n)) as [G|G]; [split; [lia|]; left; f_equal; lia|]. cbv zeta. rewrite E64 by lia. replace (z + Z.of_nat n <? Z.of_nat n)%Z with false by lia. intros k (K & [E|E]); apply INV in E; lia.
Qed.
Lemma idx_zero : forall xsh w c, length w = length xsh -> size xsh = 0 -> Forall (fun z => i64 z = true) w -> Forall (fun n => (Z.of_nat n < 2 ^ 32)%Z) xsh -> pick_idx c w xsh = Err.
Proof.
  induction xsh as [|n xsh IH]; intros [|z w] c L S F B; cbn [length] in L; try lia; [discriminate S|]. cbn [pick_idx]. pose proof (wrapi_ok z n (Forall_inv F) (Forall_inv B)) as W. destruct (wrapi z n) as [k| |]; cbn [bind]; [|reflexivity|destruct W].
  destruct W as [K _]. apply IH; [lia| |exact (Forall_inv_tail F)|exact (Forall_inv_tail B)]. change (size (n :: xsh)) with (n * size xsh) in S. apply Nat.mul_eq_0 in S. lia.
Qed.
Lemma idx_ok : forall xsh w c, length w = length xsh -> Forall (fun z => i64 z = true) w -> Forall (fun n => (Z.of_nat n < 2 ^ 32)%Z) xsh -> (Z.of_nat ((c + 1) * size xsh) < 2 ^ 32)%Z -> size xsh <> 0 ->
  match pick_idx (Z.of_nat c) w xsh with Ok r => exists I, index_vec xsh (map VNum w) I /\ r = Z.of_nat (c * size xsh + ravel xsh I) | Err => forall I, ~ index_vec xsh (map VNum w) I | UB => False end.
Proof.
  induction xsh as [|n xsh IH]; intros [|z w] c L F B S NZ; cbn [length] in L; try lia; cbn [pick_idx].
  - exists []. split; [split; [reflexivity|constructor]|]. cbn [ravel]. change (size []) with 1. f_equal. lia.
  - change (size (n :: xsh)) with (n * size xsh) in *. pose proof (wrapi_ok z n (Forall_inv F) (Forall_inv B)) as W. destruct (wrapi z n) as [k| |]; cbn [bind]; [| |exact W].
    + destruct (Nat.eq_dec (size xsh) 0) as [Z0|Z0]; [rewrite Z0 in NZ; lia|]. assert (K : k < n) by apply W. assert (BC : (c * n + k + 1) * size xsh <= (c + 1) * (n * size xsh)) by (rewrite Nat.mul_assoc; apply Nat.mul_le_mono_r; nia).
      assert (BD : c * n + k + 1 <= (c * n + k + 1) * size xsh) by nia. rewrite to_u_id by lia. replace (Z.of_nat c * Z.of_nat n + Z.of_nat k)%Z with (Z.of_nat (c * n + k)) by lia.
      specialize (IH w (c * n + k) ltac:(lia) (Forall_inv_tail F) (Forall_inv_tail B) ltac:(lia) Z0). destruct (pick_idx (Z.of_nat (c * n + k)) w xsh) as [r| |]; [| |exact IH].
      * destruct IH as (I & [LI V] & ->). exists (k :: I). split; [split; [cbn [length]; lia|cbn [map combine]; constructor; [exact W|exact V]]|]. cbn [ravel]. f_equal. nia.
      * intros I [LI V]. destruct I as [|k' I]; [cbn [length] in LI; lia|]. cbn [map combine] in V. inversion V; subst. apply (IH I). split; [cbn [length] in LI; lia|assumption].
    + intros I [LI V]. destruct I as [|k' I]; [cbn [length] in LI; lia|]. cbn [map combine] in V. inversion V; subst. eapply W. eassumption.
Qed.
Lemma vec_inv xsh w I : index_vec xsh w I -> exists z, w = map VNum z /\ length w = length xsh /\ inb xsh I /\ (Forall (fun n => (Z.of_nat n < 2 ^ 32)%Z) xsh -> forallb i64 z = true).
Proof.
  intros [L V]. revert w I L V. induction xsh as [|n xsh IH]; intros w [|k I] L V; cbn [length] in L; try lia; cbn [combine] in V; inversion V as [|v ? w' ? HV HT]; subst.
  - exists []. repeat split; auto; try constructor.
  - destruct (IH w' I) as (z & -> & L' & IB & H64); [lia|exact HT|]. destruct HV as (K & E). assert (EZ : exists a, v = VNum a /\ (a = Z.of_nat k \/ a = Z.of_nat k - Z.of_nat n)%Z) by (destruct E as [-> | ->]; eauto). destruct EZ as (a & -> & EA). exists (a :: z). split; [reflexivity|]. split; [cbn [length]; lia|]. split; [constructor; [exact K|exact IB]|].
    intros B. cbn [forallb]. pose proof (Forall_inv B) as B0. cbv beta in B0. apply andb_true_iff. split; [unfold i64; lia|apply H64; exact (Forall_inv_tail B)].
Qed.
Lemma one_ok w xsh : xsh <> [] -> (Z.of_nat (size xsh) < 2 ^ 32)%Z -> Forall (fun n => (Z.of_nat n < 2 ^ 32)%Z) xsh ->
  match one_index w xsh with
  | Ok (Some p) => exists I, index_vec xsh w I /\ p = Z.of_nat (ravel xsh I)
  | Ok None => length w <> length xsh \/ exists v l, w = v :: l /\ isnum v = false
  | Err => forall I, ~ index_vec xsh w I
  | UB => False
  end.
Proof.
  intros NE S B. unfold one_index. destruct (Nat.eqb_spec (length w) (length xsh)) as [L|L]; cbn [negb]; [|left; exact L]. destruct w as [|v l] eqn:EW; [destruct xsh; [congruence|discriminate]|]. destruct (isnum v) eqn:NV; cbn [negb]; [|right; eauto]. rewrite <- EW in *. clear v l EW NV.
  pose proof (wholes_ok w) as HW. destruct (wholes w) as [z|].
  - subst w. rewrite map_length in L. destruct (forallb i64 z) eqn:F.
    + assert (FF : Forall (fun z => i64 z = true) z) by (apply Forall_forall; rewrite forallb_forall in F; exact F). destruct (Nat.eq_dec (size xsh) 0) as [Z0|Z0].
      * rewrite (idx_zero xsh z 0 L Z0 FF B). cbn [bind]. intros I V. destruct (vec_inv _ _ _ V) as (_ & _ & _ & IB & _). apply ravel_lt' in IB. lia.
      * pose proof (idx_ok xsh z 0 L FF B ltac:(lia) Z0) as IO. change (Z.of_nat 0) with 0%Z in IO. destruct (pick_idx 0 z xsh) as [p| |]; cbn [bind]; [|exact IO|exact IO]. destruct IO as (I & V & ->). exists I. split; [exact V|]. f_equal. 
    + intros I V. destruct (vec_inv _ _ _ V) as (z' & E & _ & _ & H). assert (z = z'); [|subst z'; rewrite (H B) in F; discriminate]. clear - E. revert z' E. induction z as [|a z IH]; intros [|b z'] E; cbn [map] in E; try discriminate; [reflexivity|]. inversion E. f_equal. auto.
  - intros I V. destruct (vec_inv _ _ _ V) as (z & E & _). exact (HW z E).
Qed.
Lemma vec_fun xsh : forall w I J, index_vec xsh w I -> index_vec xsh w J -> I = J.
Proof.
  induction xsh as [|n xsh IH]; intros w [|i I] [|j J] [L1 V1] [L2 V2]; cbn [length] in *; try lia; [reflexivity|]. cbn [combine] in *. inversion V1; subst. inversion V2; subst. f_equal; [eapply index_fun; eassumption|]. apply (IH l I J); split; auto; lia.
Qed.
Lemma one_changed {A} (f : A -> res A) xsh x I : array xsh x -> inb xsh I -> exists c, elt xsh x I = Some c /\
  match replace_one f (ravel xsh I) x with Ok r => exists v, f c = Ok v /\ changed xsh x I v r | Err => f c = Err | UB => f c = UB end.
Proof.
  intros AX IB. pose proof (ravel_lt' _ _ IB) as RL. unfold array in AX. rewrite <- AX in RL. unfold elt. destruct (nth_error x (ravel xsh I)) as [c|] eqn:E; [|apply nth_error_None in E; lia]. exists c. split; [reflexivity|]. unfold replace_one, rd. rewrite E. cbn [bind]. destruct (f c) as [v| |]; cbn [bind]; auto.
  unfold wr. replace (ravel xsh I <? length x) with true by (symmetry; apply Nat.ltb_lt; exact RL). exists v. split; [reflexivity|]. split; [unfold array; rewrite upd_length; exact AX|]. unfold elt. split.
  - rewrite nth_error_upd, Nat.eqb_refl. replace (ravel xsh I <? length x) with true by (symmetry; apply Nat.ltb_lt; exact RL). reflexivity.
  - intros J JB NE. rewrite nth_error_upd. destruct (Nat.eqb_spec (ravel xsh I) (ravel xsh J)) as [Q|_]; [|reflexivity]. exfalso. apply NE. symmetry. eapply ravel_inj; eauto.
Qed.
