(** Proofs about MoveModel: Rotate, Reverse, shifts, Prefixes and Suffixes. *)
From Coq Require Import List Arith ZArith Bool Lia.
Import ListNotations.
From Verif Require Import Base ListLib SqueezeModel SqueezeProof TransModel TransSpec TransProof TransProof2 TransProof5 MoveModel MoveSpec MoveProof MoveProof2 MoveProof4.
Open Scope nat_scope.
Lemma wrap_rot_ok v l : 0 < l -> wrap_rot v l = (v mod Z.of_nat l)%Z.
Proof.
  intros L. unfold wrap_rot. destruct (Z.leb_spec 0 v); cbn [andb].
  - destruct (Z.ltb_spec v (Z.of_nat l)); [rewrite Z.mod_small by lia; auto|]. rewrite Z.rem_mod_nonneg by lia. pose proof (Z.mod_pos_bound v (Z.of_nat l) ltac:(lia)). replace (v mod Z.of_nat l <? 0)%Z with false by (symmetry; apply Z.ltb_ge; lia). reflexivity.
  - pose proof (Z.quot_rem' v (Z.of_nat l)) as Q. pose proof (Z.rem_bound_pos_neg v (Z.of_nat l) ltac:(lia) ltac:(lia)) as B. set (rm := Z.rem v (Z.of_nat l)) in *. destruct (Z.ltb_spec rm 0). + apply Z.mod_unique with (q := (Z.quot v (Z.of_nat l) - 1)%Z); lia. + apply Z.mod_unique with (q := Z.quot v (Z.of_nat l)); lia.
Qed.
Definition amt (w : Z) (l : nat) : nat := Z.to_nat (w mod Z.of_nat l).
Lemma amt_lt w l : 0 < l -> amt w l < l. Proof. intros L. unfold amt. pose proof (Z.mod_pos_bound w (Z.of_nat l) ltac:(lia)). lia. Qed.
Lemma amt_z w l : 0 < l -> Z.of_nat (amt w l) = (w mod Z.of_nat l)%Z. Proof. intros L. unfold amt. pose proof (Z.mod_pos_bound w (Z.of_nat l) ltac:(lia)). lia. Qed.
Lemma turn_amt w l i : i < l -> Z.to_nat ((Z.of_nat i + w) mod Z.of_nat l) = (i + amt w l) mod l.
Proof. intros L. apply Nat2Z.inj. rewrite Z2Nat.id by (apply Z.mod_pos_bound; lia). rewrite Nat2Z.inj_mod, Nat2Z.inj_add, amt_z by lia. rewrite Zplus_mod_idemp_r. reflexivity. Qed.
Lemma mod_once i r l : i < l -> r < l -> (i + r) mod l = if i + r <? l then i + r else i + r - l.
Proof. intros A B. destruct (Nat.ltb_spec (i + r) l); [apply Nat.mod_small; auto|]. symmetry. apply Nat.mod_unique with (q := 1); lia. Qed.
Lemma turn_zero w l i : i < l -> amt w l = 0 -> Z.to_nat ((Z.of_nat i + w) mod Z.of_nat l) = i.
Proof. intros L E. rewrite turn_amt, E, Nat.add_0_r, Nat.mod_small by auto. reflexivity. Qed.
Lemma turn_nil sh I : turn [] sh I = I. Proof. destruct sh; reflexivity. Qed.
Section Rot.
Context {A : Type}.
(** * a number *)
Lemma rotate_num_ok w xsh (x : list A) : xsh <> [] -> array xsh x -> exists r, rotate_num w xsh x = Ok (xsh, r) /\ rotated [w] xsh x r.
Proof.
  intros NE AX. destruct xsh as [|cam sh]; [congruence|]. unfold rotate_num. unfold array in AX. change (size (cam :: sh)) with (cam * shProd sh) in AX. destruct (Nat.eqb_spec (length x) 0) as [Z0|NZ].
  - exists x. split; auto. split; [exact AX|]. intros I B. apply inb_pos in B. rewrite shProd_cons in B. lia.
  - destruct (Nat.eqb_spec cam 0) as [|CP]; [nia|]. rewrite wrap_rot_ok by lia. fold (amt w cam). pose proof (amt_lt w cam ltac:(lia)) as AL. destruct (Nat.eqb_spec (amt w cam) 0) as [E|NE0].
    + exists x. split; auto. split; [exact AX|]. intros I B. inversion B as [|? i ? I' Bi BI]; subst. cbn [turn]. rewrite turn_zero by auto. reflexivity.
    + set (c := shProd sh) in *. set (am := amt w cam) in *. replace (length x <? am * c) with false by (symmetry; apply Nat.ltb_ge; nia). set (wn := fun p => nth_error x (if p <? length x - am * c then p + am * c else p - (length x - am * c))).
      destruct (wcopy (length x) wn (repeat None (length x)) (fun _ => False) 0 x (am * c) (length x - am * c)) as (r1 & -> & I1); [apply winv0; auto|lia|nia| |]. { intros k K. unfold wn. cbn [Nat.add]. replace (k <? length x - am * c) with true by (symmetry; apply Nat.ltb_lt; auto). f_equal. lia. } cbn [bind].
      destruct (wcopy (length x) wn r1 _ (length x - am * c) x 0 (am * c) I1) as (r2 & -> & I2); [nia|nia| |]. { intros k K. unfold wn. replace (_ <? _) with false by (symmetry; apply Nat.ltb_ge; lia). f_equal. lia. } cbn [bind].
      destruct (wdone (length x) wn r2) as (l & -> & LL & G); [eapply winv_weak; [|exact I2]; intros n NB _; cbn beta; lia|]. cbn [bind]. exists l. split; auto. split; [unfold array; rewrite LL; exact AX|]. intros I B. inversion B as [|? i ? I' Bi BI]; subst. pose proof (ravel_lt _ _ BI) as RB. fold c in RB. cbn [turn]. rewrite turn_amt by auto. fold am. rewrite mod_once by auto. unfold elt. cbn [ravel]. change (size sh) with c. rewrite G by nia. unfold wn. f_equal.
      destruct (Nat.ltb_spec (i + am) cam) as [L|L].
      * replace (_ <? _) with true by (symmetry; apply Nat.ltb_lt; nia). lia.
      * replace (_ <? _) with false by (symmetry; apply Nat.ltb_ge; nia). assert (length x = cam * c) by lia. rewrite Nat.mul_sub_distr_r, Nat.mul_add_distr_r. nia.
Qed.
(** * a list *)
Definition rx (l : list (nat * nat * nat)) : Prop := Forall (fun '(rot, len, c) => rot < len) l.
Fixpoint rst (l : list (nat * nat * nat)) (K : nat) : list (nat * (nat * nat * nat)) := match l with [] => [] | (rot, len, c) :: l => ((K mod len + rot) mod len, (rot, len, c)) :: rst l (K / len) end.
Fixpoint X (l : list (nat * nat * nat)) (K : nat) : nat := match l with [] => 0 | (rot, len, c) :: l => ((K mod len + rot) mod len) * c + X l (K / len) end.
Definition PR (l : list (nat * nat * nat)) : nat := shProd (map (fun e => snd (fst e)) l).
Lemma rot_bump_ok l : forall K base, rx l -> K < PR l -> (K + 1 = PR l /\ rot_bump (rst l K) (base + X l K) = Ok None) \/ (K + 1 < PR l /\ rot_bump (rst l K) (base + X l K) = Ok (Some (rst l (K + 1), base + X l (K + 1)))).
Proof.
  induction l as [|[[rot len] c] l IH]; intros K base H KB; [left; split; auto; unfold PR in *; cbn in *; lia|]. pose proof (Forall_inv H) as RL. cbn beta iota in RL. unfold PR in *. cbn [map fst snd] in *. rewrite shProd_cons in *. cbn [rst X rot_bump]. assert (L0 : 0 < len) by lia. pose proof (Nat.mod_upper_bound K len ltac:(lia)) as MB. pose proof (Nat.div_mod K len ltac:(lia)) as DM. assert (KD : K / len < PR l) by (unfold PR; apply Nat.div_lt_upper_bound; lia). unfold PR in KD. set (PP := shProd (map (fun e : nat * nat * nat => snd (fst e)) l)) in *.
  rewrite (mod_once (K mod len) rot len MB RL). set (p := if K mod len + rot <? len then K mod len + rot else K mod len + rot - len). set (R := X l (K / len)).
  assert (PB : p < len) by (unfold p; destruct (Nat.ltb_spec (K mod len + rot) len); lia).
  assert (Q : (if p + 1 =? len then (if base + (p * c + R) + c <? c * (p + 1) then UB else Ok (0, base + (p * c + R) + c - c * (p + 1))) else Ok (p + 1, base + (p * c + R) + c)) = Ok (let p' := if p + 1 =? len then 0 else p + 1 in (p', base + p' * c + R))).
  { destruct (Nat.eqb_spec (p + 1) len) as [E|E]. - replace (_ <? _) with false by (symmetry; apply Nat.ltb_ge; lia). cbn zeta. do 2 f_equal. lia. - cbn zeta. do 2 f_equal. lia. }
  rewrite Q. cbn [bind]. cbn zeta. set (p' := if p + 1 =? len then 0 else p + 1).
  assert (P' : p' = ((K + 1) mod len + rot) mod len /\ (p' = rot <-> (K + 1) mod len = 0)).
  { destruct (succ_digit len K L0) as [(A1 & A2 & A3)|(A1 & A2 & A3)]; rewrite A2; (rewrite mod_once by lia); unfold p', p; destruct (Nat.ltb_spec (K mod len + rot) len); repeat match goal with |- context [?a =? ?b] => destruct (Nat.eqb_spec a b) end; repeat match goal with |- context [?a <? ?b] => destruct (Nat.ltb_spec a b) end; lia. }
  destruct P' as [P1 P2]. rewrite <- P1. destruct (succ_digit len K L0) as [(A1 & A2 & A3)|(A1 & A2 & A3)].
  - right. split; [nia|]. rewrite A3. fold R. destruct (Nat.eqb_spec p' rot) as [E|E]; [rewrite P2, A2 in E; lia|]. cbn [negb]. do 3 f_equal. lia.
  - rewrite A3. destruct (Nat.eqb_spec p' rot) as [E|E]; [|exfalso; apply E; apply P2; auto]. cbn [negb]. destruct (IH (K / len) (base + p' * c) (Forall_inv_tail H) KD) as [(E1 & E2)|(E1 & E2)]; fold PP in E1; fold R in E2; rewrite E2; cbn [bind].
    + left. split; auto. nia.
    + right. split; [nia|]. do 3 f_equal. lia.
Qed.
Section RL.
Variables (x : list A) (N n0 n1 : nat) (want : nat -> option A) (l : list (nat * nat * nat)).
Hypothesis HX : rx l.
Hypothesis HN : N = PR l * (n0 + n1).
Hypothesis HC : forall K, K < PR l -> X l K + (n0 + n1) <= length x /\ (forall k, k < n1 -> want (K * (n0 + n1) + k) = nth_error x (X l K + n0 + k)) /\ forall k, k < n0 -> want (K * (n0 + n1) + n1 + k) = nth_error x (X l K + k).
Lemma rot_loop_ok fuel : forall K r, K < PR l -> PR l - K <= fuel -> winv N want r (fun p => p < K * (n0 + n1)) -> exists r', rot_loop fuel x n0 n1 (n0 + n1) (rst l K) (K * (n0 + n1)) (X l K) r = Ok r' /\ winv N want r' (fun _ => True).
Proof.
  induction fuel as [|fuel IH]; intros K r KB FB IV; [lia|]. cbn [rot_loop]. destruct (HC K KB) as (BX & C1 & C2). assert (KN : K * (n0 + n1) + (n0 + n1) <= N) by nia.
  destruct (wcopy N want r _ (K * (n0 + n1) + n1) x (X l K) n0 IV) as (r1 & -> & I1); [lia|lia|intros k KK; apply C2; auto|]. cbn [bind].
  destruct (wcopy N want r1 _ (K * (n0 + n1)) x (X l K + n0) n1 I1) as (r2 & -> & I2); [lia|lia|intros k KK; apply C1; auto|]. cbn [bind].
  destruct (rot_bump_ok l K 0 HX KB) as [(E1 & E2)|(E1 & E2)]; cbn [Nat.add] in E2; rewrite E2; cbn [bind].
  - exists r2. split; auto. eapply winv_weak; [|exact I2]. intros p PB _. assert (N = K * (n0 + n1) + (n0 + n1)) by (rewrite HN, <- E1; lia). cbn beta. lia.
  - replace (K * (n0 + n1) + (n0 + n1)) with ((K + 1) * (n0 + n1)) by lia. apply IH; [lia|lia|]. eapply winv_weak; [|exact I2]. intros p PB PL. cbn beta in *. lia.
Qed.
End RL.
End Rot.
