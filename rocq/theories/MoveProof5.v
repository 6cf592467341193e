(** Proofs about MoveModel: Take and Drop with a list. *)
From Coq Require Import List Arith ZArith Bool Lia.
Import ListNotations.
From Verif Require Import Base ListLib SqueezeModel SqueezeProof TransModel TransSpec TransProof TransProof2 TransProof5 MoveModel MoveSpec MoveProof MoveProof2 MoveProof3 MoveProof4.
Open Scope nat_scope.
Notation zaxis := (bool * nat * Z)%type.
Definition lenf (take : bool) : Z -> nat -> Z := if take then take_len else drop_len.
Definition offf (take : bool) : Z -> nat -> Z := if take then take_off else drop_off.
Fixpoint axz (take : bool) (ws : list Z) (xe : list nat) : list zaxis :=
  match ws, xe with
  | w :: ws, l :: xe => ((w <? 0)%Z, l, lenf take w l) :: axz take ws xe
  | [], l :: xe => (false, l, Z.of_nat l) :: axz take [] xe
  | _, [] => []
  end.
Lemma td_axis_ok take w l : (- 2 ^ 63 < w)%Z -> td_axis take w l = Ok ((w <? 0)%Z, l, lenf take w l).
Proof.
  intros H. unfold td_axis. assert (E : (if (w <? 0)%Z then neg64 w else Ok w) = Ok (Z.abs w)). { destruct (Z.ltb_spec w 0). - rewrite neg64_ok by auto. f_equal. lia. - f_equal. lia. } rewrite E. cbn [bind]. unfold lenf. destruct take; unfold take_len, drop_len; auto. destruct (Z.leb_spec (Z.of_nat l) (Z.abs w)); do 2 f_equal; lia.
Qed.
Lemma td_axes_ok take ws : forall xe, Forall (fun w => (- 2 ^ 63 < w)%Z) ws -> td_axes take ws xe = Ok (axz take ws xe).
Proof.
  induction ws as [|w ws IH]; intros xe H.
  - clear H. induction xe as [|l xe IH]; auto. cbn [td_axes axz]. rewrite td_axis_ok by (destruct take; lia). cbn [bind]. rewrite IH. cbn [bind]. replace ((if take then Z.of_nat l else 0) <? 0)%Z with false by (symmetry; apply Z.ltb_ge; destruct take; lia). replace (lenf take (if take then Z.of_nat l else 0%Z) l) with (Z.of_nat l) by (unfold lenf; destruct take; [unfold take_len|unfold drop_len]; lia). reflexivity.
  - destruct xe as [|l xe]; auto. cbn [td_axes axz]. rewrite td_axis_ok by (apply Forall_inv in H; auto). cbn [bind]. rewrite IH by (eapply Forall_inv_tail; eauto). reflexivity.
Qed.
Lemma axz_len take ws : forall xe, map (fun a : zaxis => snd a) (axz take ws xe) = per_axis (lenf take) Z.of_nat ws xe.
Proof. induction ws as [|w ws IH]; intros xe. - induction xe as [|l xe IH]; auto. cbn [axz map per_axis snd] in *. f_equal. rewrite IH. destruct xe; auto. - destruct xe as [|l xe]; auto. cbn [axz map per_axis snd]. f_equal. apply IH. Qed.
Lemma axz_xl take ws : forall xe, map (fun a : zaxis => snd (fst a)) (axz take ws xe) = xe.
Proof. induction ws as [|w ws IH]; intros xe. - induction xe as [|l xe IH]; auto. cbn [axz map fst snd] in *. f_equal. auto. - destruct xe as [|l xe]; auto. cbn [axz map fst snd]. f_equal. apply IH. Qed.
Lemma axz_nn take ws : forall xe, Forall (fun a : zaxis => (0 <= snd a)%Z) (axz take ws xe).
Proof. induction ws as [|w ws IH]; intros xe. - induction xe as [|l xe IH]; constructor; auto. cbn [snd]. lia. - destruct xe as [|l xe]; constructor; auto. cbn [snd]. unfold lenf. destruct take; [unfold take_len|unfold drop_len]; lia. Qed.
Definition cut (a : zaxis) : axis := let '(n, x, c) := a in (n, x, Z.to_nat (to_u 32 c)).
(** [dz] of the code and the offsets of the specification give the same sources *)
Definition small (a : zaxis) : Prop := (0 <= snd a < 2 ^ 32)%Z.
Lemma cut_rl a : small a -> rl (cut a) = Z.to_nat (snd a). Proof. destruct a as [[n x] c]. unfold small, rl, cut. cbn [snd]. intros H. rewrite to_u_id by lia. reflexivity. Qed.
Lemma cut_xl a : xl (cut a) = snd (fst a). Proof. destruct a as [[n x] c]. reflexivity. Qed.
Lemma axz_src take ws : forall xe I, Forall small (axz take ws xe) -> inb (map rl (map cut (axz take ws xe))) I -> source (map (dz take) (map cut (axz take ws xe))) xe I = source (per_axis (offf take) (fun _ => 0%Z) ws xe) xe I.
Proof.
  induction ws as [|w ws IH]; intros xe I S B.
  - revert I B. induction xe as [|l xe IH]; intros I B; inversion B as [|? i ? I' Bi BI]; subst; auto. cbn [axz map per_axis source]. pose proof (Forall_inv S) as S0. assert (E : dz take (cut (false, l, Z.of_nat l)) = 0%Z). { unfold dz. rewrite (cut_rl (false, l, Z.of_nat l) S0), cut_xl. cbn [fst snd]. rewrite Nat2Z.id. destruct (uo _ _); lia. } rewrite E. rewrite (IH (Forall_inv_tail S) I' BI). destruct xe; reflexivity.
  - destruct xe as [|l xe]; [inversion B; auto|]. inversion B as [|? i ? I' Bi BI]; subst. cbn [axz map per_axis source]. pose proof (Forall_inv S) as S0. rewrite IH by (auto; eapply Forall_inv_tail; eauto).
    assert (E : dz take (cut ((w <? 0)%Z, l, lenf take w l)) = offf take w l); [|rewrite E; reflexivity]. change (i < rl (cut ((w <? 0)%Z, l, lenf take w l))) in Bi. rewrite (cut_rl _ S0) in Bi. unfold dz. rewrite (cut_rl _ S0), cut_xl. cbn [fst snd] in *. unfold uo, cut. cbn [fst snd]. unfold lenf, offf in *. destruct take; cbn [xorb negb].
    + unfold take_len, take_off in *. destruct (Z.ltb_spec w 0); destruct (Z.leb_spec 0 w); cbn [negb]; lia.
    + unfold drop_len, drop_off in *. destruct (Z.ltb_spec w 0); destruct (Z.leb_spec 0 w); cbn [negb]; lia.
Qed.
(** * the product *)
Definition zprod (l : list Z) : Z := fold_right Z.mul 1%Z l.
Lemma zprod_nn l : Forall (fun c => 0 <= c)%Z l -> (0 <= zprod l)%Z. Proof. induction 1; cbn [zprod fold_right]; [lia|]. fold (zprod l). nia. Qed.
Lemma zprod_pos l : Forall (fun c => 1 <= c)%Z l -> (1 <= zprod l)%Z. Proof. induction 1; cbn [zprod fold_right]; [lia|]. fold (zprod l). nia. Qed.
Lemma prod0 (l : list zaxis) : forall b g, td_prod l 0 b g = (0%Z, b, g || existsb (fun a => (snd a =? 0)%Z) l).
Proof. induction l as [|[[n x] c] l IH]; intros b g; cbn [td_prod existsb snd]; [rewrite orb_false_r; auto|]. rewrite Z.mul_0_l. change (to_u 32 0) with 0%Z. change (2 ^ 32 <=? 0)%Z with false. rewrite orb_false_r, IH, orb_assoc. reflexivity. Qed.
Lemma prod_zero (l : list zaxis) : forall r b g, existsb (fun a => (snd a =? 0)%Z) l = true -> exists b', td_prod l r b g = (0%Z, b', true).
Proof.
  induction l as [|[[n x] c] l IH]; intros r b g E; [discriminate|]. cbn [td_prod existsb snd] in *. destruct (Z.eqb_spec c 0) as [->|NE].
  - rewrite Z.mul_0_r. change (to_u 32 0) with 0%Z. change (2 ^ 32 <=? 0)%Z with false. rewrite prod0. rewrite orb_true_r. cbn [orb]. eauto.
  - rewrite orb_false_l in E. apply IH. auto.
Qed.
Lemma prod_bad (l : list zaxis) : forall r g, Forall (fun a => 1 <= snd a)%Z l -> exists r', td_prod l r true g = (r', true, g).
Proof. induction l as [|[[n x] c] l IH]; intros r g H; cbn [td_prod]; [eauto|]. pose proof (Forall_inv H) as H0. cbn [snd] in H0. replace (c =? 0)%Z with false by (symmetry; apply Z.eqb_neq; lia). rewrite orb_false_r. cbn [orb]. apply IH. eapply Forall_inv_tail; eauto. Qed.
Lemma prod_ok (l : list zaxis) : forall r g, (1 <= r < 2 ^ 32)%Z -> Forall (fun a => 1 <= snd a)%Z l -> if (r * zprod (map (fun a => snd a) l) <? 2 ^ 32)%Z then td_prod l r false g = ((r * zprod (map (fun a => snd a) l))%Z, false, g) else exists r', td_prod l r false g = (r', true, g).
Proof.
  induction l as [|[[n x] c] l IH]; intros r g R H.
  - cbn [map zprod fold_right td_prod]. rewrite Z.mul_1_r. replace (r <? 2 ^ 32)%Z with true by (symmetry; apply Z.ltb_lt; lia). reflexivity.
  - pose proof (Forall_inv H) as H0. pose proof (Forall_inv_tail H) as HT. cbn [snd] in H0. cbn [map snd zprod fold_right td_prod]. fold (zprod (map (fun a : zaxis => snd a) l)). set (p := zprod (map (fun a : zaxis => snd a) l)) in *. assert (PP : (1 <= p)%Z). { apply zprod_pos. apply Forall_map. exact HT. }
    replace (c =? 0)%Z with false by (symmetry; apply Z.eqb_neq; lia). rewrite orb_false_r. cbn [orb]. rewrite Z.mul_assoc. destruct (Z.leb_spec (2 ^ 32) (r * c)) as [L|L].
    + replace (r * c * p <? 2 ^ 32)%Z with false by (symmetry; apply Z.ltb_ge; nia). apply prod_bad. auto.
    + rewrite to_u_id by nia. apply IH; auto. nia.
Qed.
(** * the axis from which on whole cells are copied *)
Lemma cell_start_ok (l : list zaxis) : forall i cs, (cell_start l i cs = cs /\ Forall (fun a => snd a = Z.of_nat (snd (fst a))) l) \/
  exists outer a inner, l = outer ++ a :: inner /\ cell_start l i cs = Some (i + length outer) /\ snd a <> Z.of_nat (snd (fst a)) /\ Forall (fun a => snd a = Z.of_nat (snd (fst a))) inner.
Proof.
  induction l as [|[[n x] c] l IH]; intros i cs; [left; auto|]. cbn [cell_start]. destruct (IH (i + 1) (if (c =? Z.of_nat x)%Z then cs else Some i)) as [[E F]|(o & a & q & -> & E & NE & F)].
  - destruct (Z.eqb_spec c (Z.of_nat x)) as [->|NE]; [left; split; auto|]. right. exists [], (n, x, c), l. cbn [app length]. rewrite Nat.add_0_r. auto.
  - right. exists ((n, x, c) :: o), a, q. cbn [app length]. split; auto. split; [rewrite E; f_equal; lia|auto].
Qed.
Lemma source_bound ds : forall sh I J, source ds sh I = Some J -> inb sh J.
Proof.
  induction ds as [|z ds IH]; intros [|l sh] [|i I] J E; cbn [source] in E; try discriminate. - injection E as <-. constructor. - destruct (Z.leb_spec 0 (Z.of_nat i + z)); cbn [andb] in E; [|discriminate]. destruct (Z.ltb_spec (Z.of_nat i + z) (Z.of_nat l)); [|discriminate]. destruct (source ds sh I) as [J'|] eqn:EJ; cbn [option_map] in E; [|discriminate]. injection E as <-. constructor; [lia|]. eapply IH; eauto.
Qed.
