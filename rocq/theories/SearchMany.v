(** The search functions as a whole: every path gives the position, or presence, of the first equal element. *)
From Verif Require Import Base BitsModel BitsSpec BitsProof BitsProof2 BitsThm TagModel TagSpec TagProof NumSpec NumProof ArrSpec DataSpec SqueezeModel SqueezeSpec SqueezeProof MatchModel MatchSpec MatchProof MatchProof2 ListLib HashModel HashSpec HashProof HtabModel HtabProof HtabThm HtabMap SearchModel SearchSpec SearchProof SearchChain SearchFlat SearchTab.
From Coq Require Import List.
Notation elNum := SearchModel.elNum.
Notation elChr := SearchModel.elChr.

(** ** Which path *)
Definition flatv (o : hobj) : Prop := sval o /\ isflat o.
Definition rel16 (w x : hobj) (we xe : elt) (wl xl : list hobj) : Prop :=
  exists wz xz fw fx, int16_ty we /\ int16_ty xe /\ sraws we w = Ok wz /\ sraws xe x = Ok xz /\ Forall (raw_ok we) wz /\ Forall (raw_ok xe) xz /\ wl = map fw wz /\ xl = map fx xz /\
    (forall a b, In a wz -> In b xz -> EQH (fw a) (fx b) = (a =? b)).
Definition ischr (t : elt) : bool := match t with EC8 | EC16 | EC32 => true | _ => false end.
Lemma elChr_ty t : elChr t = true <-> chr_ty t.
Proof. unfold chr_ty. destruct t; cbn; split; try discriminate; auto; intros [H|[H|H]]; discriminate. Qed.
Lemma els_flat o : flatv o -> elems o = Ok (map (fun z => HAtom (cv (h_elt o) z)) (fraws o)) /\ Forall (raw_ok (h_elt o)) (fraws o) /\ h_elt o <> EB /\ raws_of o = Ok (fraws o).
Proof. intros [(D&H&P) F]. assert (O : okh o) by (split; auto). destruct (raws_of_ok o F O) as (R&R1&_). split; [apply elems_flat; auto|]. split; auto. split; [apply flat_elt; auto|auto]. Qed.
Lemma EQH_flat s t a b : s <> EB -> t <> EB -> raw_ok s a -> raw_ok t b -> EQH (HAtom (cv s a)) (HAtom (cv t b)) = true <-> vof s a = vof t b /\ vof s a <> VNaN.
Proof.
  intros S1 T1 A B. rewrite EQH_atoms by (apply cv_okh; auto; apply vof_plain; auto). destruct (cv_ok s a A) as (_&-> &_), (cv_ok t b B) as (_&-> &_). reflexivity.
Qed.
Lemma num_vof t z : elNum t = true -> raw_ok t z -> is_number (vof t z).
Proof. intros N R. destruct t; try discriminate; cbn [vof]; try (right; eexists; reflexivity). rewrite (raw_f64_den z R). destruct (is_nan z); [left; auto|right; eexists; reflexivity]. Qed.
Lemma num_chr s t a b : elNum s = true -> chr_ty t -> raw_ok s a -> vof s a <> vof t b.
Proof. intros N T R E. rewrite (vof_chr t b T) in E. destruct (num_vof s a N R) as [H|[x H]]; congruence. Qed.
Lemma copy_ok o : flatv o -> h_elt o = EC8 \/ h_elt o = EC16 -> flatv (cpyC16Arr o) /\ h_elt (cpyC16Arr o) = EC16 /\ h_ia (cpyC16Arr o) = h_ia o /\ fraws (cpyC16Arr o) = fraws o /\ elems (cpyC16Arr o) = elems o.
Proof.
  intros Fo T. destruct (els_flat o Fo) as (E&R&_&_). destruct Fo as [(D&H&P) F]. destruct o as [u|f sh ws|f sh t l|f sh l]; try destruct F; [destruct T; discriminate|]. unfold h_elt in T, R. cbn [erase o_elt fraws] in T, R.
  assert (F2 : flatv (cpyC16Arr (HTyped f sh t l))).
  { destruct D as [V Pl]. cbn [erase ovalid] in V. destruct V as (V1&V2&V3&V4&V5). split; [|exact Logic.I]. split; [|split; [|exact Logic.I]].
    - split; cbn [cpyC16Arr erase ovalid oden].
      + split; auto. split; [discriminate|]. split; [discriminate|]. split; auto. eapply Forall_impl; [|exact V5]. intros z Hz. destruct T as [ -> | -> ]; cbn [raw_ok] in *; lia.
      + cbn [oden erase] in Pl. destruct T as [ -> | -> ]; exact Pl.
    - cbn [cpyC16Arr hflags_ok]. unfold flags_ok. cbn [with_fl a_sq a_asc a_dsc h_sq h_asc h_dsc]. split; [discriminate|]. split; discriminate. }
  split; auto. split; [reflexivity|]. split; [reflexivity|]. split; [reflexivity|]. rewrite E. destruct (els_flat _ F2) as (-> &_). f_equal. cbn [cpyC16Arr fraws]. unfold h_elt. cbn [erase o_elt]. apply map_ext. intros z. unfold cv. destruct T as [ -> | -> ]; reflexivity.
Qed.
Lemma to_s_inj k a b : 0 < k -> 0 <= a < 2 ^ k -> 0 <= b < 2 ^ k -> to_s k a = to_s k b -> a = b.
Proof.
  intros K A B E. unfold to_s in E. assert (E2 : (a + 2 ^ (k - 1)) mod 2 ^ k = (b + 2 ^ (k - 1)) mod 2 ^ k) by lia. pose proof (Z.pow_pos_nonneg 2 k ltac:(lia) ltac:(lia)).
  rewrite <- (Z.mod_small a (2 ^ k)), <- (Z.mod_small b (2 ^ k)) by auto. replace a with (a + 2 ^ (k - 1) - 2 ^ (k - 1)) by lia. replace b with (b + 2 ^ (k - 1) - 2 ^ (k - 1)) by lia. rewrite Zminus_mod, E2, <- Zminus_mod. reflexivity.
Qed.
Lemma to_s_range k z : 0 < k -> - 2 ^ (k - 1) <= to_s k z < 2 ^ (k - 1).
Proof. intros K. unfold to_s. pose proof (Z.mod_pos_bound (z + 2 ^ (k - 1)) (2 ^ k) (Z.pow_pos_nonneg 2 k ltac:(lia) ltac:(lia))). assert (2 ^ k = 2 * 2 ^ (k - 1)) by (rewrite <- Z.pow_succ_r by lia; f_equal; lia). lia. Qed.
Lemma rel16_num w x : flatv w -> flatv x -> int16_ty (h_elt w) -> int16_ty (h_elt x) -> forall wl xl, elems w = Ok wl -> elems x = Ok xl -> rel16 w x (h_elt w) (h_elt x) wl xl.
Proof.
  intros W X Tw Tx wl xl Ew Ex. destruct (els_flat w W) as (Ew'&Rw&Bw&Aw), (els_flat x X) as (Ex'&Rx&Bx&Ax). rewrite Ew in Ew'. rewrite Ex in Ex'. apply Ok_inj in Ew', Ex'. subst wl xl.
  assert (S1 : forall t l, int16_ty t -> Forall (raw_ok t) l -> (match t with EI8 => map (to_s 8) l | EI16 => map (to_s 16) l | EI32 => map (to_s 32) l | _ => l end) = l).
  { intros t l T R. destruct T as [ -> |[ -> | -> ]]; auto; rewrite <- (map_id l) at 2; apply map_ext_in; intros z Hz; rewrite Forall_forall in R; specialize (R z Hz); cbn [raw_ok] in R; apply to_s_id; lia. }
  exists (fraws w), (fraws x), (fun z => HAtom (cv (h_elt w) z)), (fun z => HAtom (cv (h_elt x) z)). unfold sraws. rewrite Aw, Ax. cbn [bind]. rewrite !S1 by auto. repeat (split; [auto; fail|]).
  intros a b Ha Hb. rewrite Forall_forall in Rw, Rx. specialize (Rw a Ha). specialize (Rx b Hb). apply bool_eq_iff. rewrite EQH_flat by auto.
  assert (Iw : int_ty (h_elt w)) by (destruct Tw as [ -> |[ -> | -> ]]; cbv; discriminate). assert (Ix : int_ty (h_elt x)) by (destruct Tx as [ -> |[ -> | -> ]]; cbv; discriminate).
  rewrite (vof_int (h_elt w) a Iw), (vof_int (h_elt x) b Ix), VNum_inj, one_cancel, Z.eqb_eq. split; [intros [H _]; auto|intros H; split; [auto|discriminate]].
Qed.
Lemma rel16_chr w x k : flatv w -> flatv x -> h_elt w = h_elt x -> (h_elt w = EC8 /\ k = EI8 \/ h_elt w = EC16 /\ k = EI16) -> forall wl xl, elems w = Ok wl -> elems x = Ok xl -> rel16 w x k k wl xl.
Proof.
  intros W X Te T wl xl Ew Ex. destruct (els_flat w W) as (Ew'&Rw&Bw&Aw), (els_flat x X) as (Ex'&Rx&Bx&Ax). rewrite Ew in Ew'. rewrite Ex in Ex'. apply Ok_inj in Ew', Ex'. subst wl xl.
  set (n := match k with EI8 => 8 | _ => 16 end).
  assert (S1 : forall l, (match k with EI8 => map (to_s 8) l | EI16 => map (to_s 16) l | EI32 => map (to_s 32) l | _ => l end) = map (to_s n) l) by (intros l; destruct T as [[_ ->]|[_ ->]]; reflexivity).
  assert (Kn : 0 < n) by (unfold n; destruct k; lia). assert (Rn : forall z, raw_ok (h_elt w) z -> 0 <= z < 2 ^ n) by (intros z; unfold n; destruct T as [[-> ->]|[-> ->]]; cbn [raw_ok]; lia).
  pose (un := fun s => s mod 2 ^ n). assert (U : forall z, raw_ok (h_elt w) z -> un (to_s n z) = z).
  { intros z Hz. apply Rn in Hz. unfold un, to_s. rewrite Zminus_mod, Zmod_mod, <- Zminus_mod. replace (z + 2 ^ (n - 1) - 2 ^ (n - 1)) with z by lia. apply Z.mod_small; auto. }
  rewrite Te in Rn, U. pose proof U as Ux. rewrite <- Te in U.
  exists (map (to_s n) (fraws w)), (map (to_s n) (fraws x)), (fun z => HAtom (cv (h_elt w) (un z))), (fun z => HAtom (cv (h_elt w) (un z))). unfold sraws. rewrite Aw, Ax. cbn [bind]. rewrite !S1.
  assert (Tk : int16_ty k) by (unfold int16_ty; destruct T as [[_ ->]|[_ ->]]; auto).
  assert (Rk : forall l, Forall (raw_ok k) (map (to_s n) l)).
  { intros l. apply Forall_forall. intros s Hs. apply in_map_iff in Hs. destruct Hs as (z&<-&_). pose proof (to_s_range n z Kn). unfold n in *. destruct T as [[_ ->]|[_ ->]]; cbn [raw_ok] in *; change (2 ^ (8 - 1)) with 128 in *; change (2 ^ (16 - 1)) with 32768 in *; lia. }
  split; auto. split; auto. split; auto. split; auto. split; [apply Rk|]. split; [apply Rk|].
  rewrite Forall_forall in Rw, Rx.
  split. { rewrite map_map. apply map_ext_in. intros z Hz. rewrite U by auto. reflexivity. }
  split. { rewrite map_map. apply map_ext_in. intros z Hz. rewrite Ux by auto. rewrite Te. reflexivity. }
  intros a b Ha Hb. apply in_map_iff in Ha. apply in_map_iff in Hb. destruct Ha as (za&<-&Ha), Hb as (zb&<-&Hb). specialize (Rw za Ha). specialize (Rx zb Hb). rewrite U by auto. rewrite <- Te in Ux, Rx. rewrite Ux by auto.
  apply bool_eq_iff. rewrite EQH_flat by auto. assert (C : chr_ty (h_elt w)) by (unfold chr_ty; destruct T as [[-> _]|[-> _]]; auto). rewrite !vof_chr, VChr_inj, Z.eqb_eq by auto. rewrite <- Te in Rn. pose proof (Rn za Rw). pose proof (Rn zb Rx).
  split; [intros [-> _]; auto|]. intros E. apply to_s_inj in E; auto. split; [auto|discriminate].
Qed.
Definition outcome (w x : hobj) (wl xl : list hobj) (c : chk) : Prop :=
  match c with
  | NoneFound => forall a b, In a wl -> In b xl -> EQH a b = false
  | Gen => True
  | Flat w' x' we xe => flatv w' /\ flatv x' /\ elems w' = Ok wl /\ elems x' = Ok xl /\ h_ia w' = h_ia w /\ h_ia x' = h_ia x /\ (elt_no we = 0 <-> h_elt w' = EBit) /\ (elt_no xe = 0 <-> h_elt x' = EBit) /\
      (elt_no we <= 2 -> elt_no xe <= 2 -> rel16 w' x' we xe wl xl) /\ (w = x -> w' = x' /\ we = xe)
  end.
Lemma no_e0 t : elt_no t = 0 <-> t = EBit.
Proof. destruct t; cbn; split; auto; discriminate. Qed.
Lemma chr_e0 t : chr_ty t -> elt_no (chr_to_int t) = 0 <-> t = EBit.
Proof. intros [ -> |[ -> | -> ]]; cbn; split; discriminate. Qed.
Lemma check_ok w x wl xl : sval w -> sval x -> isAtom (erase w) = false -> isAtom (erase x) = false -> elems w = Ok wl -> elems x = Ok xl -> outcome w x wl xl (check_chrs w x).
Proof.
  intros W X Aw Ax Ew Ex. unfold check_chrs. cbv zeta.
  assert (Fw : h_elt w <> EB -> flatv w) by (intros H; split; auto; apply isflat_iff; auto). assert (Fx : h_elt x <> EB -> flatv x) by (intros H; split; auto; apply isflat_iff; auto).
  assert (NB : forall t, elNum t = true -> t <> EB) by (intros t H ->; discriminate). assert (CB : forall t, chr_ty t -> t <> EB) by (intros t [H|[H|H]] ->; discriminate).
  assert (NoneL : forall s t, s = h_elt w -> t = h_elt x -> (chr_ty s /\ elNum t = true \/ elNum s = true /\ chr_ty t) -> outcome w x wl xl NoneFound).
  { intros s t -> -> H a b Ha Hb. assert (W1 : flatv w) by (apply Fw; destruct H as [[H _]|[H _]]; auto). assert (X1 : flatv x) by (apply Fx; destruct H as [[_ H]|[_ H]]; auto).
    destruct (els_flat w W1) as (Ew'&Rw&Bw&_), (els_flat x X1) as (Ex'&Rx&Bx&_). rewrite Ew in Ew'. rewrite Ex in Ex'. apply Ok_inj in Ew', Ex'. subst wl xl. apply in_map_iff in Ha. apply in_map_iff in Hb. destruct Ha as (za&<-&Ha), Hb as (zb&<-&Hb).
    rewrite Forall_forall in Rw, Rx. specialize (Rw za Ha). specialize (Rx zb Hb). apply not_true_is_false. rewrite EQH_flat by auto. intros [Q _]. destruct H as [[H1 H2]|[H1 H2]].
    - symmetry in Q. revert Q. apply num_chr; auto. - revert Q. apply num_chr; auto. }
  destruct (elNum (h_elt w)) eqn:Nw; cbn [negb].
  - destruct (elNum (h_elt x)) eqn:Nx; cbn [negb].
    + cbn [outcome]. pose proof (Fw (NB _ Nw)) as W1. pose proof (Fx (NB _ Nx)) as X1. repeat (split; [auto using no_e0; fail|]). split; [|intros ->; auto].
      intros L1 L2. apply rel16_num; auto; unfold int16_ty; [destruct (h_elt w)|destruct (h_elt x)]; cbn in L1, L2; auto; lia.
    + destruct (elChr (h_elt x)) eqn:Cx; [|exact Logic.I]. apply elChr_ty in Cx. eapply NoneL; eauto.
  - destruct (elChr (h_elt w)) eqn:Cw; [|exact Logic.I]. apply elChr_ty in Cw. destruct (elNum (h_elt x)) eqn:Nx; [eapply NoneL; eauto|].
    pose proof (Fw (CB _ Cw)) as W1.
    destruct (negb (elt_no (h_elt w) =? elt_no (h_elt x)) && (elt_no (h_elt w) <=? elt_no EC16) && (elt_no (h_elt x) <=? elt_no EC16)) eqn:M.
    + apply andb_prop in M. destruct M as [M M3]. apply andb_prop in M. destruct M as [M1 M2]. apply negb_true_iff, Z.eqb_neq in M1. apply Z.leb_le in M2, M3. cbn [elt_no] in M2, M3.
      assert (Tx : h_elt x = EC8 \/ h_elt x = EC16) by (destruct (h_elt x); try discriminate; cbn in M3; auto; lia). assert (Tw : h_elt w = EC8 \/ h_elt w = EC16) by (destruct Cw as [H|[H|H]]; rewrite H in *; cbn in M2; auto; lia).
      assert (X1 : flatv x) by (apply Fx; destruct Tx as [H|H]; rewrite H; discriminate).
      destruct (Z.ltb_spec (elt_no (h_elt x)) (elt_no (h_elt w))) as [Lt|Ge].
      * assert (Q : h_elt w = EC16) by (destruct Tw as [H|H]; auto; destruct Tx as [H2|H2]; rewrite H, H2 in Lt; cbn in Lt; lia).
        destruct (copy_ok x X1 Tx) as (C1&C2&C3&C4&C5). cbn [outcome]. repeat (split; [auto; try congruence; fail|]). split; [rewrite Q; cbn; split; discriminate|]. split; [rewrite C2; cbn; split; discriminate|]. split; [|intros ->; congruence].
        intros _ _. apply rel16_chr; auto; congruence.
      * assert (Q : h_elt x = EC16) by (destruct Tx as [H|H]; auto; destruct Tw as [H2|H2]; rewrite H, H2 in *; cbn in *; lia).
        destruct (copy_ok w W1 Tw) as (C1&C2&C3&C4&C5). cbn [outcome]. repeat (split; [auto; try congruence; fail|]). split; [rewrite C2; cbn; split; discriminate|]. split; [rewrite Q; cbn; split; discriminate|]. split; [|intros ->; congruence].
        intros _ _. apply rel16_chr; auto; congruence.
    + destruct (elChr (h_elt x)) eqn:Cx; [|exact Logic.I]. apply elChr_ty in Cx. pose proof (Fx (CB _ Cx)) as X1. cbn [outcome]. repeat (split; [auto using chr_e0; fail|]). split; [|intros ->; auto].
      intros L1 L2. assert (Q : h_elt w = h_elt x) by (destruct Cw as [H|[H|H]], Cx as [H2|[H2|H2]]; rewrite H, H2 in *; cbn in *; try discriminate; auto; lia). rewrite <- Q.
      apply rel16_chr; auto. destruct Cw as [H|[H|H]]; rewrite H in *; cbn in *; auto; lia.
Qed.
