(** Proofs about MoveModel: Take and Drop with a list, continued. *)
From Coq Require Import List Arith ZArith Bool Lia.
Import ListNotations.
From Verif Require Import Base ListLib SqueezeModel SqueezeProof TransModel TransSpec TransProof TransProof2 TransProof5 MoveModel MoveSpec MoveProof MoveProof2 MoveProof3 MoveProof4 MoveProof5.
Open Scope nat_scope.
Notation padded := MoveSpec.padded.
Definition still (a : zaxis) : Prop := snd a = Z.of_nat (snd (fst a)).
Lemma dz_still take a : small a -> still a -> dz take (cut a) = 0%Z.
Proof. intros S E. unfold dz. rewrite cut_rl, cut_xl by auto. rewrite E. rewrite Nat2Z.id. destruct (uo _ _); lia. Qed.
Lemma dz_stills take (l : list zaxis) : Forall small l -> Forall still l -> map (dz take) (map cut l) = map (fun _ => 0%Z) l.
Proof. intros S. induction S as [|a l Sa SL IH]; intros E; auto. cbn [map]. rewrite (dz_still take a Sa (Forall_inv E)). f_equal. apply IH. eapply Forall_inv_tail; eauto. Qed.
Lemma rl_stills (l : list zaxis) : Forall small l -> Forall still l -> map rl (map cut l) = map (fun a => snd (fst a)) l.
Proof. intros S. induction S as [|a l Sa SL IH]; intros E; auto. cbn [map]. rewrite (cut_rl a Sa), (Forall_inv E), Nat2Z.id. f_equal. apply IH. eapply Forall_inv_tail; eauto. Qed.
Lemma rl_cut (l : list zaxis) : Forall small l -> map Z.of_nat (map rl (map cut l)) = map (fun a => snd a) l.
Proof. induction 1 as [|a l Sa SL IH]; auto. cbn [map]. rewrite (cut_rl a Sa), IH. f_equal. destruct Sa. lia. Qed.
Lemma zprod_nat l : zprod (map Z.of_nat l) = Z.of_nat (shProd l).
Proof. induction l as [|a l IH]; auto. cbn [map zprod fold_right]. fold (zprod (map Z.of_nat l)). rewrite IH, shProd_cons. lia. Qed.
Lemma zprod_zero l : In 0%Z l -> zprod l = 0%Z. Proof. induction l as [|a l IH]; intros H; [destruct H|]. cbn [zprod fold_right]. fold (zprod l). destruct H as [->|H]; [lia|]. rewrite IH by auto. lia. Qed.
(** Drop never looks outside of 𝕩 *)
Lemma drop_src ws : forall xe rsh I, map Z.of_nat rsh = per_axis drop_len Z.of_nat ws xe -> inb rsh I -> source (per_axis drop_off (fun _ => 0%Z) ws xe) xe I <> None.
Proof.
  induction ws as [|w ws IH]; intros xe rsh I E B.
  - assert (rsh = xe) as -> by (clear B; revert rsh E; induction xe as [|l xe IH]; intros [|c rsh] E; cbn [map per_axis] in E; try discriminate; auto; injection E as E1 E2; f_equal; [lia|apply IH; rewrite E2; destruct xe; auto]). replace (per_axis drop_off (fun _ => 0%Z) [] xe) with (map (fun _ : nat => 0%Z) xe) by (destruct xe; auto). rewrite source_tail by auto. discriminate.
  - destruct xe as [|l xe]; [destruct rsh; [|discriminate]; inversion B; subst; discriminate|]. cbn [per_axis] in *. destruct rsh as [|c rsh]; [discriminate|]. cbn [map] in E. injection E as E1 E2. inversion B as [|? i ? I' Bi BI]; subst. cbn [source]. destruct (source (per_axis drop_off (fun _ => 0%Z) ws xe) xe I') as [J|] eqn:S; [|exfalso; eapply IH; eauto].
    assert (Q : (0 <= Z.of_nat i + drop_off w l < Z.of_nat l)%Z) by (unfold drop_len, drop_off in *; destruct (Z.leb_spec 0 w); lia). replace ((0 <=? _) && (_ <? _))%Z with true; [cbn [option_map]; discriminate|]. symmetry. apply andb_true_intro. split; [apply Z.leb_le|apply Z.ltb_lt]; lia.
Qed.
Lemma moved_fill {A} d xsh (x : list A) rsh f g r : (forall I, inb rsh I -> source d xsh I <> None) -> moved d xsh x rsh f r -> moved d xsh x rsh g r.
Proof. intros H [L G]. split; auto. intros I B. specialize (H I B). rewrite G by auto. destruct (source d xsh I); congruence. Qed.
Lemma td_unf {A} take ws xsh (x : list A) fill : 2 <= length ws < 255 -> takedrop_list take ws xsh x fill =
  let xe := repeat 1 ((if length ws <? length xsh then length xsh else length ws) - length xsh) ++ xsh in
  do l <- td_axes take ws xe;
  let '(riaZ, bad, good) := td_prod l 1 false false in
  if bad && negb good then Err else
  if (2 ^ 31 - 1000 <? riaZ)%Z then Err else
  let rsh := map (fun '(_, _, c) => Z.to_nat (to_u 32 c)) l in
  match cell_start l 0 None with
  | None => Ok (xe, x)
  | Some 0 => if take then take_num (hd 0%Z ws) xe x fill else drop_num (hd 0%Z ws) xe x
  | Some cs =>
    if (riaZ =? 0)%Z then Ok (rsh, [])
    else
      let anyFill := existsb (fun '(_, xl, c) => (Z.of_nat xl <? c)%Z) l in
      if anyFill && match fill with None => true | Some _ => false end then Err else
      do r <- td_generic take anyFill cs (Z.to_nat riaZ) (map (fun '(n, xl, c) => (n, xl, Z.to_nat (to_u 32 c))) l) x fill;
      Ok (rsh, r)
  end.
Proof. intros H. unfold takedrop_list. replace (255 <=? length ws) with false by (symmetry; apply Nat.leb_gt; lia). destruct ws as [|w0 [|w1 ws]]; cbn [length] in H; try lia. reflexivity. Qed.
Lemma shProd_all {B} (f : B -> nat) l : 0 < shProd (map f l) -> Forall (fun b => 0 < f b) l.
Proof. induction l as [|b l IH]; intros H; constructor; cbn [map] in H; rewrite shProd_cons in H; [nia|apply IH; nia]. Qed.
Section TD.
Context {A : Type}.
Variables (take : bool) (ws : list Z) (xsh : list nat) (x : list A) (fill : option A).
Hypothesis WL : 2 <= length ws < 255.
Hypothesis WB : Forall (fun w => (- 2 ^ 63 < w)%Z) ws.
Hypothesis AX : array xsh x.
Notation xe := (padded (length ws) xsh).
Notation L := (lengths (lenf take) ws xsh).
Notation ax := (axz take ws xe).
Lemma xe_eq : repeat 1 ((if length ws <? length xsh then length xsh else length ws) - length xsh) ++ xsh = xe.
Proof. unfold padded. do 2 f_equal. destruct (Nat.ltb_spec (length ws) (length xsh)); lia. Qed.
Lemma xe_prod : length x = shProd xe.
Proof. unfold padded. rewrite shProd_app. rewrite AX. assert (E : forall n, shProd (repeat 1 n) = 1) by (induction n; cbn [repeat]; auto; rewrite shProd_cons; lia). rewrite E. unfold size, shProd. lia. Qed.
Lemma ax_len : map (fun a : zaxis => snd a) ax = L. Proof. apply axz_len. Qed.
Lemma ax_xl : map (fun a : zaxis => snd (fst a)) ax = xe. Proof. apply axz_xl. Qed.
Lemma xsh_ax : xsh_ (map cut ax) = xe. Proof. rewrite <- ax_xl at 2. unfold xsh_. rewrite map_map. apply map_ext. intros a. apply cut_xl. Qed.
Lemma xe_cons : exists l0 xe', xe = l0 :: xe'.
Proof. unfold padded. destruct (repeat 1 (length ws - length xsh) ++ xsh) as [|l0 xe'] eqn:E; eauto. exfalso. apply (f_equal (@length nat)) in E. rewrite app_length, repeat_length in E. cbn [length] in E. lia. Qed.
Lemma pad_pad : padded 1 xe = xe. Proof. destruct xe_cons as (l0 & xe' & ->). unfold padded. reflexivity. Qed.
Section OK.
Hypothesis LB : Forall (fun c => (c < 2 ^ 32)%Z) L.
Lemma ax_small : Forall small ax.
Proof. pose proof (axz_nn take ws xe) as N. pose proof LB as B. rewrite <- ax_len in B. rewrite Forall_map in B. rewrite Forall_forall in *. intros a IA. split; auto. Qed.
Lemma rsh_ax : map Z.of_nat (rsh_ (map cut ax)) = L. Proof. unfold rsh_. rewrite rl_cut by apply ax_small. apply ax_len. Qed.
Lemma rsh_prod : Z.of_nat (shProd (rsh_ (map cut ax))) = zprod L. Proof. rewrite <- zprod_nat, rsh_ax. reflexivity. Qed.
Lemma src_eq I : inb (rsh_ (map cut ax)) I -> source (map (dz take) (map cut ax)) xe I = source (offsets (offf take) ws xsh) xe I.
Proof. intros B. apply axz_src; auto. apply ax_small. Qed.
Lemma map_cut_rl : map (fun '(_, _, c) => Z.to_nat (to_u 32 c)) ax = rsh_ (map cut ax).
Proof. unfold rsh_. rewrite map_map. apply map_ext. intros [[n l] c]. reflexivity. Qed.
Lemma map_cut : map (fun '(n, l, c) => (n, l, Z.to_nat (to_u 32 c))) ax = map cut ax. Proof. apply map_ext. intros [[n l] c]. reflexivity. Qed.
Lemma any_cut : existsb (fun '(_, xl, c) => (Z.of_nat xl <? c)%Z) ax = existsb (fun a => xl a <? rl a) (map cut ax).
Proof. pose proof ax_small as SM. induction SM as [|b q Sb Sq IH]; auto. cbn [existsb map]. rewrite <- IH. rewrite (cut_rl b Sb), cut_xl. destruct b as [[n l] c]. unfold small in Sb. cbn [fst snd] in *. f_equal. destruct (Z.ltb_spec (Z.of_nat l) c); destruct (Nat.ltb_spec l (Z.to_nat c)); auto; lia. Qed.
Hypothesis PB : (zprod L <= 2 ^ 31 - 1000)%Z.
Lemma prod_eq : exists bad good, td_prod ax 1 false false = (zprod L, bad, good) /\ bad && negb good = false.
Proof.
  destruct (existsb (fun a : zaxis => (snd a =? 0)%Z) ax) eqn:Z0.
  - destruct (prod_zero ax 1 false false Z0) as (b & E). exists b, true. rewrite E. apply existsb_exists in Z0. destruct Z0 as (a & IA & E0). apply Z.eqb_eq in E0. rewrite <- ax_len. rewrite zprod_zero by (rewrite <- E0; apply in_map with (f := fun a : zaxis => snd a); auto). split; auto. apply andb_false_r.
  - exists false, false. split; auto. pose proof (prod_ok ax 1 false ltac:(lia)) as H. rewrite ax_len in H. rewrite Z.mul_1_l in H. replace (zprod L <? 2 ^ 32)%Z with true in H by (symmetry; apply Z.ltb_lt; lia). apply H. apply Forall_forall. intros a IA. pose proof (axz_nn take ws xe) as N. rewrite Forall_forall in N. specialize (N a IA). cbn beta in N. destruct (Z.eq_dec (snd a) 0); [|lia]. exfalso. assert (existsb (fun a : zaxis => (snd a =? 0)%Z) ax = true); [|congruence]. apply existsb_exists. exists a. split; auto. apply Z.eqb_eq. auto.
Qed.
Hypothesis FL : fill <> None \/ zprod L = 0%Z \/ Forall2 (fun c l => (c <= Z.of_nat l)%Z) L xe.
Hypothesis DB : take = false -> (Z.abs (hd 0%Z ws) * Z.of_nat (shProd (tl xe)) < 2 ^ 63)%Z /\ (Z.of_nat (lead xe) < 2 ^ 32)%Z.
Lemma le_ax : Forall2 (fun c l => (c <= Z.of_nat l)%Z) L xe -> forall a, In a ax -> (snd a <= Z.of_nat (snd (fst a)))%Z.
Proof. rewrite <- ax_len. rewrite <- ax_xl at 2. induction ax as [|b q IH]; intros H a IA; [destruct IA|]. cbn [map] in H. inversion H; subst. destruct IA as [<-|IA]; auto. Qed.
Lemma td_ok : exists rsh r, takedrop_list take ws xsh x fill = Ok (rsh, r) /\ map Z.of_nat rsh = L /\ moved (offsets (offf take) ws xsh) xe x rsh fill r.
Proof.
  rewrite td_unf by exact WL. cbv zeta. assert (EW : exists w0 ws', ws = w0 :: ws'). { destruct ws; [cbn [length] in WL; lia|eauto]. } destruct EW as (w0 & ws' & EW). assert (EH : hd 0%Z ws = w0) by (rewrite EW; reflexivity). rewrite EH. rewrite xe_eq. rewrite td_axes_ok by exact WB. cbn [bind]. destruct prod_eq as (bad & good & EP & BG). rewrite EP, BG. replace (2 ^ 31 - 1000 <? zprod L)%Z with false by (symmetry; apply Z.ltb_ge; lia).
  pose proof ax_small as SM. destruct (cell_start_ok ax 0 None) as [[E ST]|(outer & a & inner & EA & E & NE & ST)]; rewrite E.
  - exists xe, x. split; auto. assert (ER : rsh_ (map cut ax) = xe). { unfold rsh_. rewrite rl_stills by (auto; exact ST). apply ax_xl. } split; [rewrite <- rsh_ax, ER; auto|]. split; [exact xe_prod|]. intros J BJ. rewrite <- src_eq by (rewrite ER; auto). rewrite dz_stills by (auto; exact ST). rewrite <- ax_xl at 3. assert (Z0 : map (fun _ : zaxis => 0%Z) ax = map (fun _ => 0%Z) xe). { rewrite <- ax_xl at 2. rewrite map_map. reflexivity. } rewrite Z0, ax_xl, source_tail by auto. reflexivity.
  - cbn [Nat.add]. destruct outer as [|o0 outer']; cbn [length].
    + (* only the leading axis changes *)
      destruct xe_cons as (l0 & xe' & EX). pose proof EA as EA'. rewrite EX, EW in EA'. cbn [axz app] in EA'. injection EA' as Ea Ei.
      assert (EC : csz xe = shProd xe') by (rewrite csz_tl, EX; reflexivity). assert (ELD : lead xe = l0) by (rewrite EX; reflexivity).
      pose proof SM as SM2. rewrite EA in SM2. cbn [app] in SM2. pose proof (Forall_inv SM2) as Sa. pose proof (Forall_inv_tail SM2) as Si.
      assert (EXI : map (fun a : zaxis => snd (fst a)) inner = xe') by (rewrite <- Ei; apply axz_xl).
      assert (EL : L = lenf take w0 l0 :: map Z.of_nat xe'). { rewrite <- ax_len, EA. cbn [app map]. f_equal; [rewrite <- Ea; reflexivity|]. rewrite <- EXI, map_map. apply map_ext_in. intros b IB. rewrite Forall_forall in ST. apply ST. auto. }
      assert (EP2 : zprod L = (lenf take w0 l0 * Z.of_nat (csz xe))%Z) by (rewrite EL; cbn [zprod fold_right]; fold (zprod (map Z.of_nat xe')); rewrite zprod_nat, EC; auto).
      assert (W0 : (- 2 ^ 63 < w0)%Z) by (rewrite EW in WB; apply (Forall_inv WB)).
      assert (Sa' : (0 <= lenf take w0 l0 < 2 ^ 32)%Z) by (rewrite <- Ea in Sa; exact Sa).
      assert (FIN : forall (fl : option A) rsh r, map Z.of_nat rsh = lengths (lenf take) [w0] xe /\ moved (offsets (offf take) [w0] xe) (padded 1 xe) x rsh fl r -> map Z.of_nat rsh = L /\ moved (offsets (offf take) ws xsh) xe x rsh fl r).
      { intros fl rsh r [Q1 Q2]. rewrite pad_pad in Q2. unfold lengths, offsets in Q1, Q2. cbn [length] in Q1, Q2. rewrite pad_pad in Q1, Q2.
        assert (QL : per_axis (lenf take) Z.of_nat [w0] xe = L) by (rewrite EX, EL; reflexivity). rewrite QL in Q1. split; auto. assert (ER : rsh = rsh_ (map cut ax)). { pose proof rsh_ax as R. rewrite <- Q1 in R. clear -R. revert R. generalize (rsh_ (map cut ax)). intros u. revert rsh. induction u as [|b u IH]; intros [|c rsh] R; cbn [map] in R; try discriminate; auto. injection R as R1 R2. f_equal; [lia|auto]. }
        eapply moved_ext; [|exact Q2]. intros J BJ. rewrite ER in BJ. rewrite <- (src_eq J BJ).
        assert (EQC : map (dz take) (map cut ax) = map (dz take) (map cut (axz take [w0] xe)) /\ rsh_ (map cut ax) = rsh_ (map cut (axz take [w0] xe)) /\ Forall small (axz take [w0] xe)).
        { rewrite EX at 2 4 5. cbn [axz]. rewrite Ea. rewrite EA. cbn [app map]. assert (S0 : Forall small (axz take [] xe') /\ Forall still (axz take [] xe')). { assert (XB : Forall (fun l => (Z.of_nat l < 2 ^ 32)%Z) xe'). { pose proof LB as B. rewrite EL in B. apply Forall_inv_tail in B. rewrite Forall_map in B. exact B. } clear -XB. induction XB as [|l q B XB [I1 I2]]; [split; constructor|]. cbn [axz]. split; constructor; auto; [unfold small; cbn [snd]; lia|reflexivity]. }
          destruct S0 as [S0 S1]. split; [|split].
          - f_equal. rewrite !dz_stills by auto. rewrite <- (axz_xl take [] xe') in EXI. clear -EXI. revert EXI. generalize (axz take [] xe'). clear. induction inner as [|b q IH]; intros [|c u] EXI; cbn [map] in EXI |- *; try discriminate; auto. injection EXI as _ E2. f_equal. auto.
          - unfold rsh_. cbn [map]. f_equal. rewrite !rl_stills by auto. rewrite axz_xl. auto.
          - constructor; auto. }
        destruct EQC as (C1 & C2 & C3). rewrite C1. symmetry. apply axz_src; auto. fold (rsh_ (map cut (axz take [w0] xe))). rewrite <- C2. auto. }
      assert (AX2 : array xe x) by exact xe_prod. assert (TK : forall b, take = b -> lenf take = lenf b /\ offf take = offf b) by (intros b ->; auto).
      destruct take.
      * destruct (take_num_ok xe x w0 AX2 fill W0) as (rsh & r & ER & T1 & T2).
        -- change (lenf true w0 l0) with (Z.abs w0) in Sa'. lia.
        -- change (lenf true w0 l0) with (Z.abs w0) in EP2. lia.
        -- destruct FL as [F|[F|F]]; [auto| |]; right; change (lenf true w0 l0) with (Z.abs w0) in EP2; [lia|]. rewrite EL, EX in F. inversion F as [|? ? ? ? F1 F2]. change (lenf true w0 l0) with (Z.abs w0) in F1. replace (length x) with (l0 * shProd xe') by (rewrite xe_prod, EX; symmetry; apply shProd_cons). rewrite EC, Nat2Z.inj_mul. apply Z.mul_le_mono_nonneg_r; [lia|exact F1].
        -- rewrite ER. exists rsh, r. split; auto.
      * destruct (DB eq_refl) as [D1 D2]. destruct (drop_num_ok xe x w0 AX2) as (rsh & r & ER & T1 & T2); auto. { rewrite csz_tl. rewrite EH in D1. pose proof (abs_csz w0 (shProd (tl xe))). lia. } rewrite ER. exists rsh, r. split; auto.
        apply FIN. split; auto. eapply moved_fill; [|exact T2]. intros J BJ. apply (drop_src [w0] _ rsh); auto.
    + (* the general case *)
      rewrite map_cut_rl, map_cut. destruct (Z.eqb_spec (zprod L) 0) as [Z0|NZ].
      * exists (rsh_ (map cut ax)), []. split; auto. split; [apply rsh_ax|]. pose proof rsh_prod as RP. split; [unfold array; cbn [length]; change (size ?s) with (shProd s); lia|]. intros J BJ. pose proof (inb_pos _ _ BJ). lia.
      * rewrite any_cut. set (af := existsb (fun a => xl a <? rl a) (map cut ax)). pose proof rsh_prod as RP. assert (NP : 0 < shProd (rsh_ (map cut ax))). { pose proof (zprod_nn L) as ZN. assert (0 <= zprod L)%Z; [apply ZN; rewrite <- ax_len; apply Forall_map; apply axz_nn|lia]. }
        assert (AFF : af = true -> fill <> None). { intros AT. destruct FL as [F|[F|F]]; [auto|lia|]. exfalso. unfold af in AT. apply existsb_exists in AT. destruct AT as (e & IE & EL). apply Nat.ltb_lt in EL. apply in_map_iff in IE. destruct IE as (b & <- & IB). rewrite Forall_forall in SM. rewrite (cut_rl b (SM b IB)), cut_xl in EL. pose proof (le_ax F b IB). lia. }
        assert (AFC : af && match fill with None => true | Some _ => false end = false). { destruct af; auto. destruct fill; auto. exfalso. apply AFF; auto. } rewrite AFC. replace (Z.to_nat (zprod L)) with (shProd (rsh_ (map cut ax))) by lia.
        assert (G : exists r, td_generic take af (S (length outer')) (shProd (rsh_ (map cut ax))) (map cut ax) x fill = Ok r /\ moved (map (dz take) (map cut ax)) xe x (rsh_ (map cut ax)) fill r).
        { destruct (Nat.eq_dec (length x) 0) as [LX|LX].
          - (* 𝕩 has no elements *)
            unfold td_generic. rewrite LX. cbn [Nat.eqb]. assert (exists f, fill = Some f) as (f & Ef). { destruct fill as [f|]; [eauto|]. exfalso. apply AFF; auto. unfold af. destruct (existsb (fun a => xl a <? rl a) (map cut ax)) eqn:EF; auto. exfalso. rewrite xe_prod in LX. rewrite <- xsh_ax in LX. clear - LX NP EF. unfold xsh_, rsh_ in *. induction (map cut ax) as [|b q IH]; cbn [map existsb] in *; [cbn in LX; lia|]. rewrite shProd_cons in *. apply orb_false_iff in EF. destruct EF as [E1 E2]. apply Nat.ltb_ge in E1. assert (0 < rl b) by (destruct (rl b); lia). apply Nat.mul_eq_0 in LX. apply IH; auto; [lia|]. destruct (shProd (map rl q)); lia. }
            rewrite Ef. cbn [need bind]. set (Nn := shProd (rsh_ (map cut ax))). destruct (wfill Nn (fun _ => Some f) (repeat None Nn) (fun _ => False) 0 f Nn) as (r & -> & IV); [apply winv0; auto|lia|auto|]. cbn [bind]. destruct (wdone Nn (fun _ => Some f) r) as (q & EQ & LQ & GQ); [eapply winv_weak; [|exact IV]; intros n NB _; right; lia|]. exists q. split; auto. split; [exact LQ|]. intros J BJ. unfold elt at 1. rewrite GQ by (apply ravel_lt; auto). destruct (source _ xe J) as [J'|] eqn:ES; auto. exfalso. apply source_bound in ES. apply inb_pos in ES. rewrite <- xe_prod in ES. lia.
          - assert (EM : map cut ax = map cut (o0 :: outer') ++ cut a :: map cut inner) by (rewrite EA, map_app; reflexivity). pose proof xsh_ax as XA. rewrite EM in *. rewrite <- XA. apply generic_moved.
            + rewrite map_length. reflexivity.
            + apply Forall_map. pose proof SM as SM2. rewrite EA in SM2. apply Forall_app in SM2. destruct SM2 as [_ SM2]. apply Forall_inv_tail in SM2. rewrite Forall_forall in *. intros b IB. rewrite (cut_rl b (SM2 b IB)), cut_xl. rewrite (ST b IB). lia.
            + rewrite XA. apply xe_prod.
            + apply shProd_all. exact NP.
            + apply shProd_all. change (map xl ?l) with (xsh_ l). rewrite XA, <- xe_prod. lia.
            + unfold af. rewrite EM. reflexivity.
            + exact AFF. }
        destruct G as (r & -> & G). cbn [bind]. exists (rsh_ (map cut ax)), r. split; auto. split; [apply rsh_ax|]. eapply moved_ext; [|exact G]. intros J BJ. apply src_eq. auto.
Qed.
End OK.
Lemma td_big : (2 ^ 31 - 1000 < zprod L)%Z -> takedrop_list take ws xsh x fill = Err.
Proof.
  intros B. rewrite td_unf by exact WL. cbv zeta. rewrite xe_eq. rewrite td_axes_ok by exact WB. cbn [bind]. assert (P1 : Forall (fun a : zaxis => (1 <= snd a)%Z) ax).
  { pose proof (axz_nn take ws xe) as N. rewrite Forall_forall in *. intros a IA. specialize (N a IA). cbn beta in N. destruct (Z.eq_dec (snd a) 0) as [E|]; [|lia]. exfalso. rewrite <- ax_len in B. rewrite zprod_zero in B; [lia|]. rewrite <- E. apply in_map with (f := fun a : zaxis => snd a). auto. }
  pose proof (prod_ok ax 1 false ltac:(lia) P1) as H. rewrite ax_len, Z.mul_1_l in H. destruct (zprod L <? 2 ^ 32)%Z.
  - rewrite H. cbn [andb]. replace (2 ^ 31 - 1000 <? zprod L)%Z with true by (symmetry; apply Z.ltb_lt; auto). reflexivity.
  - destruct H as (r' & ->). reflexivity.
Qed.
Lemma td_nofill : take = true -> fill = None -> (0 < zprod L)%Z -> Exists (fun a => Z.of_nat (snd (fst a)) < snd a)%Z ax -> takedrop_list take ws xsh x fill = Err.
Proof.
  intros ET EF NZ EX. destruct (Z.lt_ge_cases (2 ^ 31 - 1000) (zprod L)) as [B|B]; [apply td_big; auto|]. rewrite td_unf by exact WL. cbv zeta. rewrite xe_eq. rewrite td_axes_ok by exact WB. cbn [bind]. destruct (prod_eq B) as (bad & good & -> & ->). replace (2 ^ 31 - 1000 <? zprod L)%Z with false by (symmetry; apply Z.ltb_ge; lia).
  apply Exists_exists in EX. destruct EX as (e & IE & LE). destruct (cell_start_ok ax 0 None) as [[E ST]|(outer & a & inner & EA & E & NE & ST)]; rewrite E.
  - exfalso. rewrite Forall_forall in ST. specialize (ST e IE). cbn beta in ST. lia.
  - destruct outer as [|o0 outer']; cbn [length Nat.add].
    + assert (EW : exists w0 ws', ws = w0 :: ws'). { destruct ws; [cbn [length] in WL; lia|eauto]. } destruct EW as (w0 & ws' & EW). destruct xe_cons as (l0 & xe' & EX). pose proof EA as EA'. rewrite EX, EW in EA'. cbn [axz app] in EA'. injection EA' as Ea Ei. rewrite ET. rewrite EA in IE. cbn [app] in IE. destruct IE as [<-|IE]; [|exfalso; rewrite Forall_forall in ST; specialize (ST e IE); lia].
      rewrite <- Ea in LE. cbn [fst snd] in LE. rewrite ET in LE. change (lenf true w0 l0) with (Z.abs w0) in LE. rewrite EF. rewrite EW. cbn [hd]. rewrite <- EW.
      assert (EC : csz xe = shProd xe') by (rewrite csz_tl, EX; reflexivity). assert (EL : L = lenf take w0 l0 :: map Z.of_nat xe'). { rewrite <- ax_len, EA. cbn [app map]. f_equal; [rewrite <- Ea; reflexivity|]. assert (EXI : map (fun a : zaxis => snd (fst a)) inner = xe') by (rewrite <- Ei; apply axz_xl). rewrite <- EXI, map_map. apply map_ext_in. intros b IB. rewrite Forall_forall in ST. apply ST. auto. }
      assert (EP2 : zprod L = (Z.abs w0 * Z.of_nat (csz xe))%Z) by (rewrite EL, ET; cbn [zprod fold_right]; fold (zprod (map Z.of_nat xe')); rewrite zprod_nat, EC; auto).
      apply take_num_err; [pose proof (abs_csz w0 (csz xe)); lia|]. right. split; auto. rewrite EC in *. replace (length x) with (l0 * shProd xe') by (rewrite xe_prod, EX; symmetry; apply shProd_cons). rewrite Nat2Z.inj_mul. apply Z.mul_lt_mono_pos_r; auto. destruct (shProd xe'); lia.
    + replace (zprod L =? 0)%Z with false by (symmetry; apply Z.eqb_neq; lia). assert (AFT : existsb (fun '(_, xl, c) => (Z.of_nat xl <? c)%Z) ax = true). { apply existsb_exists. exists e. split; auto. destruct e as [[n l] c]. cbn [fst snd] in LE. apply Z.ltb_lt. auto. } rewrite AFT, EF. reflexivity.
Qed.
End TD.
