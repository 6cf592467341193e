(** Index-of, member-of and progressive index-of: results of every path. *)
From Verif Require Import Base BitsModel BitsSpec BitsProof BitsProof2 BitsThm TagModel TagSpec TagProof NumSpec NumProof ArrSpec DataSpec SqueezeModel SqueezeSpec SqueezeProof MatchModel MatchSpec MatchProof MatchProof2 ListLib HashModel HashSpec HashProof HtabModel HtabProof HtabThm HtabMap SearchModel SearchSpec SearchProof SearchChain SearchFlat SearchTab SearchMany.
From Coq Require Import List.

Lemma eq_each_ok a x xl : okh a -> Forall okh xl -> elems x = Ok xl -> eq_each a x = Ok (map (EQH a) xl).
Proof. intros A X E. unfold eq_each. rewrite E. cbn [bind]. apply mapM_ok. intros b Hb. rewrite Forall_forall in X. apply EQH_ok; auto. Qed.
Lemma sval_okh o : sval o -> okh o. Proof. intros (A&B&_). split; auto. Qed.
Lemma flat_nonatom o : isflat o -> isAtom (erase o) = false. Proof. destruct o; intros H; try destruct H; reflexivity. Qed.
Definition mem_in (wl : list hobj) (x : hobj) : bool := existsb (fun a => EQH a x) wl.
Lemma mem_pos wl x : mem_in wl x = (pos_in wl x <? Z.of_nat (length wl)).
Proof. apply bool_eq_iff. rewrite Z.ltb_lt. symmetry. apply scan_lt. Qed.

(** *** Bit lists *)
Definition bitv (b : bool) : hobj := HAtom (of_int (b2z b)).
Lemma bitv_okh b : okh (bitv b).
Proof. replace (bitv b) with (HAtom (cv EBit (b2z b))) by reflexivity. apply cv_okh; [destruct b; cbn; lia|left; right; eexists; reflexivity]. Qed.
Lemma bitv_neq v e : okh e -> EQH (bitv v) e = true -> EQH (bitv (negb v)) e = false.
Proof.
  intros E H. apply not_true_is_false. intros H2. pose proof (EQH_sym _ _ (bitv_okh (negb v)) E H2) as H3. pose proof (EQH_trans _ _ _ (bitv_okh v) E (bitv_okh (negb v)) H H3) as H4.
  unfold bitv in H4. replace (of_int (b2z v)) with (cv EBit (b2z v)) in H4 by reflexivity. replace (of_int (b2z (negb v))) with (cv EBit (b2z (negb v))) in H4 by reflexivity.
  rewrite EQH_flat in H4; try discriminate; try (destruct v; cbn; lia). destruct H4 as [H4 _]. destruct v; discriminate.
Qed.
Lemma bit_elems w ws f sh : w = HBits f sh ws -> sval w -> elems w = Ok (map bitv (bits_of ws 0 (prod sh))) /\ words ws /\ 0 <= prod sh /\ prod sh <= 64 * Z.of_nat (length ws) /\ prod sh / 64 < Z.of_nat (length ws).
Proof.
  intros -> W. assert (F : flatv (HBits f sh ws)) by (split; auto; exact Logic.I). destruct (els_flat _ F) as (E&_). split; [rewrite E; f_equal; cbn [fraws]; rewrite map_map; reflexivity|].
  destruct W as ((V&_)&_&P). cbn [erase ovalid padded] in *. destruct V as (V1&V2&V3). pose proof (prod_nonneg _ V1). auto.
Qed.
Lemma pos_bits e w0 l : okh e -> scan (fun b => EQH (bitv b) e) (w0 :: l) = if EQH (bitv w0) e then 0 else if EQH (bitv (negb w0)) e then first_index (negb w0) (w0 :: l) else Z.of_nat (length (w0 :: l)).
Proof.
  intros E. destruct (EQH (bitv w0) e) eqn:E0; [cbn [scan]; rewrite E0; reflexivity|]. destruct (EQH (bitv (negb w0)) e) eqn:E1.
  - rewrite first_index_scan. apply scan_eq. intros b _. destruct b, w0; cbn [negb Bool.eqb] in *; auto.
  - apply scan_const. apply Forall_forall. intros b _. destruct b, w0; auto.
Qed.
(** *** Few searched-in elements *)
Lemma fold_few (wl xl : list hobj) a : fold_left (fun r n => map (fun nr => fst nr * (1 + snd nr)) (combine n r)) (rev (map (fun a => map (fun x => b2z (negb (EQH a x))) xl) wl)) (map (fun x => b2z (negb (EQH a x))) xl) = map (pos_in (wl ++ [a])) xl.
Proof.
  rewrite <- fold_left_rev_right, rev_involutive. induction wl as [|c wl IH]; cbn [map fold_right app].
  - apply map_ext. intros x. unfold pos_in. cbn [scan]. destruct (EQH a x); reflexivity.
  - rewrite IH. clear IH. induction xl as [|x xl IH]; cbn [map combine]; auto. rewrite IH. f_equal. cbn [fst snd]. unfold pos_in at 2. cbn [scan]. fold (pos_in (wl ++ [a]) x). destruct (EQH c x); cbn [negb b2z]; lia.
Qed.
Lemma fold_or (xl wl : list hobj) : forall r : list bool, length r = length wl -> fold_left (fun r n => map (fun ab => fst ab || snd ab) (combine r n)) (map (fun a => map (EQH a) wl) xl) r = map (fun rb => fst rb || mem_in xl (snd rb)) (combine r wl).
Proof.
  induction xl as [|a xl IH]; intros r L; cbn [map fold_left].
  - revert wl L. induction r as [|b r IHr]; intros [|y wl] L; cbn in *; try discriminate; auto. rewrite <- IHr by lia. rewrite orb_false_r. reflexivity.
  - rewrite IH by (rewrite map_length, combine_length, map_length; lia). clear IH. revert wl L. induction r as [|b r IHr]; intros [|y wl] L; cbn [map combine length] in *; try discriminate; auto. rewrite IHr by lia. f_equal. cbn [fst snd]. unfold mem_in. cbn [existsb]. rewrite orb_assoc. reflexivity.
Qed.
Lemma mem_table fw fx wz xz : (forall a b, In a wz -> In b xz -> EQH (fw a) (fx b) = (a =? b)) -> forall z, In z xz -> pos_in (map fw wz) (fx z) = scan (fun v => v =? z) wz.
Proof. intros H z Hz. unfold pos_in. rewrite scan_map. apply scan_eq. intros a Ha. auto. Qed.
Lemma EQH_symb a b : okh a -> okh b -> EQH a b = EQH b a.
Proof. intros A B. apply bool_eq_iff. split; apply EQH_sym; auto. Qed.
Lemma chain_map (fw fx : Z -> hobj) wz : forall xz used js, (forall a b, In a wz -> In b xz -> EQH (fw a) (fx b) = (a =? b)) -> chain_ok Z.eqb wz used xz js -> forall xl', xl' = map fx xz -> 
  (fix go used (xl : list hobj) js := match xl, js with [], [] => True | x :: xl, j :: js => (0 <= j <= Z.of_nat (length (map fw wz)) /\ (forall i a, nth_error (map fw wz) i = Some a -> Z.of_nat i < j -> EQH a x = true -> In (Z.of_nat i) used) /\
  (j = Z.of_nat (length (map fw wz)) \/ exists i a, j = Z.of_nat i /\ nth_error (map fw wz) i = Some a /\ EQH a x = true /\ ~ In j used)) /\ go (used ++ [j]) xl js | _, _ => False end) used xl' js.
Proof.
  induction xz as [|x xz IH]; intros used js H C xl' ->; destruct js as [|j js]; cbn [map chain_ok] in *; auto. destruct C as [(C1&C2&C3) C4]. rewrite map_length. split; [split; auto; split|].
  - intros i a N L E. rewrite nth_error_map in N. destruct (nth_error wz i) as [z|] eqn:Nz; [|discriminate]. cbn [option_map] in N. injection N as <-. rewrite H in E; [eauto|eapply nth_error_In; eauto|left; auto].
  - destruct C3 as [C3|(i&a&C3&N&E&U)]; [left; auto|]. right. exists i, (fw a). rewrite nth_error_map, N. split; auto. split; auto. split; auto. rewrite H; [auto|eapply nth_error_In; eauto|left; auto].
  - rewrite <- (map_length fw). eapply IH; eauto. intros a b Ha Hb. apply H; auto. right; auto.
Qed.

Section H.
Context (cast : Z -> Z) (wyhash64 : Z -> Z -> Z) (wyhash : list Z -> Z -> list Z -> Z) (s0 s1 s2 s3 nan0 : Z) (junk : nat -> bool).
Hypothesis cast_good : cast_ok cast.
Hypothesis mix : mixers wyhash64 wyhash s3.
Notation HASH := (HASH cast wyhash64 wyhash s0 s1 s2 s3 nan0 junk).
Notation indexOf_many := (indexOf_many cast wyhash64 wyhash s0 s1 s2 s3 nan0 junk).
Notation indexOf_c2 := (indexOf_c2 cast wyhash64 wyhash s0 s1 s2 s3 nan0 junk).
Notation memberOf_gen := (memberOf_gen cast wyhash64 wyhash s0 s1 s2 s3 nan0 junk).
Notation memberOf_many := (memberOf_many cast wyhash64 wyhash s0 s1 s2 s3 nan0 junk).
Notation memberOf_c2 := (memberOf_c2 cast wyhash64 wyhash s0 s1 s2 s3 nan0 junk).
Notation count_c2 := (count_c2 cast wyhash64 wyhash s0 s1 s2 s3 nan0 junk).

Lemma tval_pos wz k n z : 0 < k -> Z.of_nat (length wz) = n -> n < 2 ^ (k - 1) -> tval wz (to_s k) n Z.of_nat z = scan (fun v => v =? z) wz.
Proof.
  intros K L B. unfold tval. cbv zeta. pose proof (scan_range (fun v => v =? z) wz) as R. destruct (Z.ltb_spec (scan (fun v => v =? z) wz) (Z.of_nat (length wz))); rewrite to_s_id; lia.
Qed.
Lemma elems_len o l : isAtom (erase o) = false -> okh o -> elems o = Ok l -> Z.of_nat (length l) = h_ia o /\ Forall okh l.
Proof. intros A O E. destruct (elems_ok o A O) as (l'&E'&_&F&L). rewrite E in E'. apply Ok_inj in E'. subst. auto. Qed.
Lemma indexOf_many_ok sm w x wl xl : (sm = true -> w = x) -> sval w -> sval x -> isAtom (erase w) = false -> isAtom (erase x) = false -> elems w = Ok wl -> elems x = Ok xl -> h_ia w < 2 ^ 31 ->
  indexOf_many sm w x = Ok (map (pos_in wl) xl).
Proof.
  intros Sm W X Aw Ax Ew Ex Len. unfold SearchModel.indexOf_many. cbv zeta.
  destruct (elems_len w wl Aw (sval_okh w W) Ew) as [Lw Ow]. destruct (elems_len x xl Ax (sval_okh x X) Ex) as [Lx Ox].
  assert (NoneR : (forall a b, In a wl -> In b xl -> EQH a b = false) -> Ok (repeat (h_ia w) (Z.to_nat (h_ia x))) = Ok (map (pos_in wl) xl)).
  { intros H. f_equal. rewrite <- Lx, Nat2Z.id. apply nth_error_ext. intros i. rewrite nth_error_map. destruct (Nat.lt_ge_cases i (length xl)) as [Li|Li].
    - destruct (nth_error_ex xl i Li) as [b Nb]. rewrite Nb. cbn [option_map]. rewrite nth_error_repeat' by auto. f_equal. unfold pos_in. rewrite <- Lw. symmetry. apply scan_const. apply Forall_forall. intros a Ha. apply H; auto. eapply nth_error_In; eauto.
    - rewrite (proj2 (nth_error_None xl i)) by auto. apply nth_error_None. rewrite repeat_length. auto. }
  destruct ((h_ia w =? 0) || (h_ia x =? 0)) eqn:Em.
  { apply NoneR. intros a b Ha Hb. apply orb_prop in Em. destruct Em as [Em|Em]; apply Z.eqb_eq in Em; [destruct wl; [destruct Ha|cbn in Lw; lia]|destruct xl; [destruct Hb|cbn in Lx; lia]]. }
  apply orb_false_iff in Em. destruct Em as [Em1 Em2]. apply Z.eqb_neq in Em1, Em2.
  assert (GenR : forall w' x', elems w' = Ok wl -> elems x' = Ok xl -> (do wl <- elems w'; do xl <- elems x'; indexOf_gen cast wyhash64 wyhash s0 s1 s2 s3 nan0 junk wl xl) = Ok (map (pos_in wl) xl)).
  { intros w' x' -> ->. cbn [bind]. apply indexOf_gen_ok; auto. lia. }
  pose proof (check_ok w x wl xl W X Aw Ax Ew Ex) as Ck. destruct (check_chrs w x) as [|w' x' we xe|]; cbn [outcome] in Ck; [apply NoneR; auto| |apply GenR; auto].
  destruct Ck as ([Sw Fw]&[Sx Fx]&Ew'&Ex'&Iw&Ix&Bw&Bx&R16&Sm2).
  destruct ((32 <? h_ia w) && _). { rewrite Ex'. cbn [bind]. apply mapM_ok. intros e He. rewrite Forall_forall in Ox. rewrite (indexOfOne_ok w' e wl Sw (flat_nonatom _ Fw)) by auto. cbn [bind]. f_equal. pose proof (scan_range (fun a => EQH a e) wl). apply to_s_id; unfold pos_in; lia. }
  destruct (Z.eqb_spec (elt_no we) 0) as [We|We].
  { apply (proj1 Bw) in We. destruct w' as [u|f sh ws|f sh t l|f sh l]; try (destruct Fw; fail).
    2: { unfold h_elt in We. cbn [erase o_elt] in We. destruct Sw as ((V&_)&_). cbn [erase ovalid] in V. destruct V as (_&V&_). congruence. }
    destruct (bit_elems _ ws f sh eq_refl Sw) as (E&Hw&P0&P1&P2). rewrite Ew' in E. apply Ok_inj in E. change (prod sh = h_ia w) in Iw. rewrite <- Iw in Lw, Len, Em1 |- *.
    set (l := bits_of ws 0 (prod sh)) in *. assert (Ll : Z.of_nat (length l) = prod sh) by (unfold l, bits_of; rewrite map_length, seq_length; lia).
    assert (B0 : exists l', l = mbit ws 0 :: l').
    { unfold l, bits_of. destruct (Z.to_nat (prod sh)) as [|n] eqn:Q; [lia|]. cbn [seq map]. eexists. reflexivity. }
    destruct B0 as [l' B0]. rewrite bitz_ok by lia. cbn [bind]. change (Z.of_nat 0) with 0. 
    replace (negb ((if mbit ws 0 then 1 else 0) =? 0)) with (mbit ws 0) by (destruct (mbit ws 0); reflexivity). set (b0 := mbit ws 0) in *.
    rewrite C13_find_first by (auto; lia). fold l. cbn [bind].
    rewrite (eq_each_ok (HAtom (of_int (b2z b0))) x' xl (bitv_okh b0) Ox Ex'). cbn [bind]. rewrite (eq_each_ok (HAtom (of_int (b2z (negb b0)))) x' xl (bitv_okh (negb b0)) Ox Ex'). cbn [bind].
    fold (bitv b0). fold (bitv (negb b0)).
    assert (Pi : forall e, In e xl -> pos_in wl e = if EQH (bitv b0) e then 0 else if EQH (bitv (negb b0)) e then first_index (negb b0) l else prod sh).
    { intros e He. rewrite Forall_forall in Ox. unfold pos_in. rewrite E, scan_map, B0, pos_bits, <- B0, Ll by auto. reflexivity. }
    pose proof (scan_range (fun b => Bool.eqb b (negb b0)) l) as Rg. rewrite <- first_index_scan in Rg.
    rewrite to_s_id by lia. rewrite map_map. destruct (Z.eqb_spec (first_index (negb b0) l) (prod sh)) as [Q|Q].
    - f_equal. apply map_ext_in. intros e He. rewrite Pi by auto. destruct (EQH (bitv b0) e), (EQH (bitv (negb b0)) e); cbn [negb b2z]; lia.
    - f_equal. rewrite to_s_id by lia. clear - Pi Rg Ox Q. induction xl as [|e xl IH]; cbn [map combine]; auto. apply Forall_cons_iff in Ox. destruct Ox as [O1 Ox]. rewrite IH by (auto; intros; apply Pi; right; auto). f_equal. cbn [fst snd].
      rewrite Pi by (left; auto). pose proof (bitv_neq b0 e O1). destruct (EQH (bitv b0) e); [rewrite H by auto|]; destruct (EQH (bitv (negb b0)) e) eqn:E1; cbn [negb b2z]; lia. }
  destruct ((h_ia w <=? 4) && _).
  { rewrite Ew'. cbn [bind]. rewrite (mapM_ok _ (fun a => map (fun x => b2z (negb (EQH a x))) xl)).
    2: { intros a Ha. rewrite Forall_forall in Ow. rewrite (eq_each_ok a x' xl) by auto. cbn [bind]. rewrite map_map. reflexivity. }
    cbn [bind]. destruct (@exists_last _ wl ltac:(intros ->; cbn in Lw; lia)) as (wl'&a&->). rewrite map_app, rev_app_distr. cbn [map rev app]. f_equal. apply fold_few. }
  destruct ((20 <? h_ia x + h_ia w) && (elt_no we <=? 2) && (elt_no xe <=? 2)) eqn:C; [|apply GenR; auto].
  apply andb_prop in C. destruct C as [C C3]. apply andb_prop in C. destruct C as [_ C2]. apply Z.leb_le in C2, C3. destruct (R16 C2 C3) as (wz&xz&fw&fx&Tw&Tx&Sz&Sy&Rw&Rx&-> & -> &HE).
  rewrite Sz, Sy. cbn [bind]. rewrite map_length in Lw, Lx.
  assert (Sm3 : sm = true -> xe = we /\ xz = wz) by (intros S1; destruct (Sm2 (Sm S1)) as [<- <-]; split; [auto|congruence]).
  assert (NBt : we <> EBit) by (intros ->; apply We; reflexivity).
  assert (Fin : forall k sz, 0 < k -> h_ia w < 2 ^ (k - 1) -> table sm we xe wz xz (to_s k) sz (h_ia w) Z.of_nat = Ok (map (pos_in (map fw wz)) (map fx xz))).
  { intros k sz K B. rewrite table_ok by auto. f_equal. rewrite map_map. apply map_ext_in. intros z Hz. rewrite (mem_table fw fx wz xz HE z Hz). apply tval_pos; auto. }
  destruct (Z.leb_spec (h_ia w) 127); [apply Fin; lia|]. destruct (Z.leb_spec (h_ia w) 32767); [apply Fin; lia|]. apply Fin; lia.
Qed.
Definition xels (x : hobj) : res (list hobj) := match x with HAtom _ => Ok [x] | _ => elems x end.
Lemma prod_nil sh : length sh = 0%nat -> prod sh = 1. Proof. destruct sh; [reflexivity|discriminate]. Qed.
Lemma unit_elems x xl : isAtom (erase x) = false -> okh x -> length (h_shape x) = 0%nat -> elems x = Ok xl -> exists e, getH x 0 = Ok e /\ xl = [e].
Proof.
  intros A O L E. unfold elems, h_ia in E. rewrite (prod_nil _ L) in E. change (seq 0 (Z.to_nat 1)) with [0%nat] in E. cbn [mapM] in E. destruct (getH x 0) as [e| |]; cbn [bind] in E; try discriminate. apply Ok_inj in E. eauto.
Qed.
Lemma indexOf_c2_ok sm w x wl xl : (sm = true -> w = x) -> sval w -> sval x -> isAtom (erase w) = false -> elems w = Ok wl -> xels x = Ok xl -> h_ia w < 2 ^ 31 -> indexOf_c2 sm w x = Ok (map (pos_in wl) xl).
Proof.
  intros Sm W X Aw Ew Ex Len. unfold SearchModel.indexOf_c2. destruct (isAtom (erase x)) eqn:Ax.
  - destruct x as [u| | |]; try discriminate. cbn [xels] in Ex. apply Ok_inj in Ex. subst xl. rewrite (indexOfOne_ok w _ wl) by (auto; apply sval_okh; auto). reflexivity.
  - assert (Ex' : elems x = Ok xl) by (destruct x; [discriminate|auto|auto|auto]).
    assert (G : (if (length (h_shape x) =? 0)%nat then do e <- getH x 0; do r <- indexOfOne w e; Ok [r] else indexOf_many sm w x) = Ok (map (pos_in wl) xl)).
    { destruct (Nat.eqb_spec (length (h_shape x)) 0) as [L|L]; [|apply indexOf_many_ok; auto]. destruct (unit_elems x xl Ax (sval_okh x X) L Ex') as (e&G&->). rewrite G. cbn [bind].
      destruct (elems_len x [e] Ax (sval_okh x X) Ex') as [_ O]. apply Forall_cons_iff in O. rewrite (indexOfOne_ok w e wl) by (auto; apply O). reflexivity. }
    destruct x; [discriminate|exact G|exact G|exact G].
Qed.

(** *** Member-of *)
Lemma ins_state l : forall (f : fmap hobj unit), Forall okh l -> forall k, sstate f (map (fun a => Ins hobj unit a tt) l) k = if existsb (fun a => EQH a k) l then Some tt else f k.
Proof.
  induction l as [|a l IH]; intros f F k; cbn [map existsb]; [reflexivity|]. apply Forall_cons_iff in F. destruct F as [A F]. rewrite sstate_cons. cbn [spec_step snd]. rewrite IH by auto. unfold fset. destruct (existsb (fun a0 => EQH a0 k) l), (EQH a k); reflexivity.
Qed.
Lemma memberOf_gen_ok xl wl : Forall okh wl -> Forall okh xl -> memberOf_gen xl wl = Ok (map (mem_in xl) wl).
Proof.
  intros W X. unfold SearchModel.memberOf_gen.
  pose (rq := fun a : hobj => Ins hobj unit a tt). pose (rest := map (fun x => Has hobj unit x) wl).
  assert (O : Forall (fun r : req hobj unit => okh (rkey r)) (map rq xl ++ rest)).
  { apply Forall_app. rewrite Forall_forall in W, X. split; apply Forall_forall; intros r H; apply in_map_iff in H; destruct H as (a&<-&H); cbn; auto. }
  apply (hrun cast wyhash64 wyhash s0 s1 s2 s3 nan0 junk cast_good mix) in O.
  destruct (fold_run cast wyhash64 wyhash s0 s1 s2 s3 nan0 junk rq (fun m k => do (m, _) <- ins hobj unit EQH HASH m k tt; Ok m) rest) with (2 := O) as (m'&Fm&R).
  { intros m a x m1 E. unfold rq in E. cbn [step] in E. destruct (ins hobj unit EQH HASH m a tt) as [[m2 y]| |]; cbn [bind] in *; try discriminate. congruence. }
  rewrite Fm. cbn [bind].
  assert (G : mapM (fun x => do v <- has hobj unit EQH HASH m' x; Ok (AB unit v)) wl = Ok (skipn (length xl) (spec_run hobj unit EQH (fun _ => None) (map rq xl ++ rest)))).
  { apply (get_run cast wyhash64 wyhash s0 s1 s2 s3 nan0 junk (fun x => Has hobj unit x) (fun m x => do v <- has hobj unit EQH HASH m x; Ok (AB unit v))); [|exact R].
    intros m a x m1 E. cbn [step] in E. destruct (has hobj unit EQH HASH m a) as [v| |]; cbn [bind] in *; try discriminate. split; congruence. }
  rewrite <- (map_length rq xl), spec_skip in G.
  assert (S1 : spec_run hobj unit EQH (sstate (fun _ => None) (map rq xl)) rest = map (fun x => AB unit (mem_in xl x)) wl).
  { unfold rest. assert (FS : forall k, okh k -> match sstate (fun _ => None) (map rq xl) k with Some _ => true | None => false end = mem_in xl k).
    { intros k K. unfold rq. rewrite (ins_state xl (fun _ => None) X). unfold mem_in. destruct (existsb _ xl); reflexivity. }
    revert FS. generalize (sstate (fun _ : hobj => @None unit) (map rq xl)). intros f FS. clear - W FS.
    induction W as [|x l Hx _ IH]; cbn [map spec_run spec_step]; auto. rewrite IH, FS by auto. reflexivity. }
  rewrite S1 in G. apply (mapM_comp _ (fun a => match a with AB _ v => v | _ => false end)) in G.
  rewrite map_map in G. etransitivity; [|exact G]. apply mapM_ext. intros a _. destruct (has _ _ _ _ _ _); reflexivity.
Qed.
Lemma memberOf_many_ok sm w x wl xl : (sm = true -> w = x) -> sval w -> sval x -> isAtom (erase w) = false -> isAtom (erase x) = false -> elems w = Ok wl -> elems x = Ok xl ->
  memberOf_many sm w x = Ok (map (mem_in xl) wl).
Proof.
  intros Sm W X Aw Ax Ew Ex. unfold SearchModel.memberOf_many. cbv zeta.
  destruct (elems_len w wl Aw (sval_okh w W) Ew) as [Lw Ow]. destruct (elems_len x xl Ax (sval_okh x X) Ex) as [Lx Ox]. pose proof Ow as Ow'. pose proof Ox as Ox'. rewrite Forall_forall in Ow', Ox'.
  assert (NoneR : (forall a b, In a wl -> In b xl -> EQH a b = false) -> Ok (repeat false (Z.to_nat (h_ia w))) = Ok (map (mem_in xl) wl)).
  { intros H. f_equal. rewrite <- Lw, Nat2Z.id. apply nth_error_ext. intros i. rewrite nth_error_map. destruct (Nat.lt_ge_cases i (length wl)) as [Li|Li].
    - destruct (nth_error_ex wl i Li) as [b Nb]. rewrite Nb. cbn [option_map]. rewrite nth_error_repeat' by auto. f_equal. symmetry. apply not_true_is_false. unfold mem_in. rewrite existsb_exists. intros (a&Ha&E).
      assert (Hb : In b wl) by (eapply nth_error_In; eauto). rewrite EQH_symb, H in E by auto. discriminate.
    - rewrite (proj2 (nth_error_None wl i)) by auto. apply nth_error_None. rewrite repeat_length. auto. }
  destruct ((h_ia w =? 0) || (h_ia x =? 0)) eqn:Em.
  { apply NoneR. intros a b Ha Hb. apply orb_prop in Em. destruct Em as [Em|Em]; apply Z.eqb_eq in Em; [destruct wl; [destruct Ha|cbn in Lw; lia]|destruct xl; [destruct Hb|cbn in Lx; lia]]. }
  apply orb_false_iff in Em. destruct Em as [Em1 Em2]. apply Z.eqb_neq in Em1, Em2.
  assert (GenR : forall w' x', elems w' = Ok wl -> elems x' = Ok xl -> (do wl <- elems w'; do xl <- elems x'; memberOf_gen xl wl) = Ok (map (mem_in xl) wl)).
  { intros w' x' -> ->. cbn [bind]. apply memberOf_gen_ok; auto. }
  pose proof (check_ok w x wl xl W X Aw Ax Ew Ex) as Ck. destruct (check_chrs w x) as [|w' x' we xe|]; cbn [outcome] in Ck; [apply NoneR; auto| |apply GenR; auto].
  destruct Ck as ([Sw Fw]&[Sx Fx]&Ew'&Ex'&Iw&Ix&Bw&Bx&R16&Sm2).
  destruct ((32 <? h_ia x) && _). { rewrite Ew'. cbn [bind]. apply mapM_ok. intros e He. rewrite (indexOfOne_ok x' e xl Sx (flat_nonatom _ Fx)) by auto. cbn [bind]. f_equal. rewrite mem_pos, Lx. reflexivity. }
  destruct (Z.eqb_spec (elt_no xe) 0) as [We|We].
  { apply (proj1 Bx) in We. destruct x' as [u|f sh ws|f sh t l|f sh l]; try (destruct Fx; fail).
    2: { unfold h_elt in We. cbn [erase o_elt] in We. destruct Sx as ((V&_)&_). cbn [erase ovalid] in V. destruct V as (_&V&_). congruence. }
    destruct (bit_elems _ ws f sh eq_refl Sx) as (E&Hw&P0&P1&P2). rewrite Ex' in E. apply Ok_inj in E. change (prod sh = h_ia x) in Ix. rewrite <- Ix in Lx, Em2 |- *.
    set (l := bits_of ws 0 (prod sh)) in *.
    assert (B0 : exists l', l = mbit ws 0 :: l').
    { unfold l, bits_of. destruct (Z.to_nat (prod sh)) as [|n] eqn:Q; [lia|]. cbn [seq map]. eexists. reflexivity. }
    destruct B0 as [l' B0]. rewrite bitz_ok by lia. cbn [bind]. change (Z.of_nat 0) with 0. 
    replace (negb ((if mbit ws 0 then 1 else 0) =? 0)) with (mbit ws 0) by (destruct (mbit ws 0); reflexivity). set (b0 := mbit ws 0) in *.
    rewrite (eq_each_ok (HAtom (of_int (b2z b0))) w' wl (bitv_okh b0) Ow Ew'). cbn [bind]. rewrite (eq_each_ok (HAtom (of_int (b2z (negb b0)))) w' wl (bitv_okh (negb b0)) Ow Ew'). cbn [bind].
    fold (bitv b0). fold (bitv (negb b0)).
    destruct (C13_has_iff_in ws 0 (prod sh) (negb b0)) as (h&Hh&Hi); [auto|lia|lia|lia|]. rewrite Hh. cbn [bind]. fold l in Hi.
    assert (Pi : forall e, In e wl -> mem_in xl e = EQH (bitv b0) e || (h && EQH (bitv (negb b0)) e)).
    { intros e He. unfold mem_in. rewrite E. apply bool_eq_iff. rewrite existsb_exists, orb_true_iff, andb_true_iff, Hi. split.
      - intros (a&Ha&Ea). apply in_map_iff in Ha. destruct Ha as (b&<-&Hb). destruct (Bool.bool_dec b b0) as [Q|Q]; [rewrite Q in Ea; auto|]. right. assert (NE : forall p q : bool, p <> q -> negb q = p) by (intros [] [] NQ; try reflexivity; exfalso; apply NQ; reflexivity). rewrite (NE b b0 Q). auto.
      - intros [Q|[Q1 Q2]]; [exists (bitv b0); split; auto; apply in_map; rewrite B0; left; auto|exists (bitv (negb b0)); split; auto; apply in_map; auto]. }
    destruct h; cbn [negb].
    - f_equal. clear - Pi. induction wl as [|e wl IH]; cbn [map combine]; auto. rewrite IH by (intros; apply Pi; right; auto). f_equal. cbn [fst snd]. rewrite Pi by (left; auto). reflexivity.
    - f_equal. apply map_ext_in. intros e He. rewrite Pi by auto. cbn [andb]. rewrite orb_false_r. reflexivity. }
  destruct ((h_ia x <=? _) && (16 <? h_ia w)).
  { rewrite Ex'. cbn [bind]. rewrite (mapM_ok _ (fun a => map (EQH a) wl)) by (intros a Ha; apply eq_each_ok; auto).
    cbn [bind]. destruct xl as [|a xl]; [cbn in Lx; lia|]. cbn [map]. f_equal. rewrite fold_or by apply map_length. clear. induction wl as [|y wl IH]; cbn [map combine]; auto. rewrite IH. reflexivity. }
  destruct ((20 <? h_ia x + h_ia w) && (elt_no we <=? 2) && (elt_no xe <=? 2)) eqn:C; [|apply GenR; auto].
  apply andb_prop in C. destruct C as [C C3]. apply andb_prop in C. destruct C as [_ C2]. apply Z.leb_le in C2, C3. destruct (R16 C2 C3) as (wz&xz&fw&fx&Tw&Tx&Sz&Sy&Rw&Rx&-> & -> &HE).
  rewrite Sz, Sy. cbn [bind]. rewrite map_length in Lw, Lx.
  assert (Sm3 : sm = true -> we = xe /\ wz = xz) by (intros S1; destruct (Sm2 (Sm S1)) as [<- <-]; split; [auto|congruence]).
  assert (NBt : xe <> EBit) by (intros ->; apply We; reflexivity).
  rewrite table_ok by auto. cbn [bind]. f_equal. rewrite !map_map. apply map_ext_in. intros z Hz. unfold tval. cbv zeta. rewrite mem_pos. unfold pos_in. rewrite scan_map, map_length.
  rewrite (scan_eq (fun a => EQH (fx a) (fw z)) (fun v => v =? z)). { destruct (_ <? _); reflexivity. }
  intros a Ha. rewrite EQH_symb by (first [apply Ox'; apply in_map; exact Ha|apply Ow'; apply in_map; exact Hz]). rewrite HE by auto. apply Z.eqb_sym.
Qed.
Lemma memberOf_c2_ok sm w x wl xl : (sm = true -> w = x) -> sval w -> sval x -> isAtom (erase x) = false -> xels w = Ok wl -> elems x = Ok xl -> memberOf_c2 sm w x = Ok (map (mem_in xl) wl).
Proof.
  intros Sm W X Ax Ew Ex. unfold SearchModel.memberOf_c2. cbv zeta. destruct (elems_len x xl Ax (sval_okh x X) Ex) as [Lx _].
  assert (One : forall e, okh e -> (do r <- indexOfOne x e; Ok [negb (r =? h_ia x)]) = Ok [mem_in xl e]).
  { intros e E. rewrite (indexOfOne_ok x e xl) by auto. cbn [bind]. rewrite mem_pos, Lx. pose proof (scan_range (fun a => EQH a e) xl) as R. fold (pos_in xl e) in R. destruct (Z.eqb_spec (pos_in xl e) (h_ia x)), (Z.ltb_spec (pos_in xl e) (h_ia x)); try lia; reflexivity. }
  destruct (isAtom (erase w)) eqn:Aw.
  - destruct w as [u| | |]; try discriminate. cbn [xels] in Ew. apply Ok_inj in Ew. subst wl. rewrite One by (apply sval_okh; auto). reflexivity.
  - assert (Ew' : elems w = Ok wl) by (destruct w; [discriminate|auto|auto|auto]).
    assert (G : (if (length (h_shape w) =? 0)%nat then do e <- getH w 0; do r <- indexOfOne x e; Ok [negb (r =? h_ia x)] else memberOf_many sm w x) = Ok (map (mem_in xl) wl)).
    { destruct (Nat.eqb_spec (length (h_shape w)) 0) as [L|L]; [|apply memberOf_many_ok; auto]. destruct (unit_elems w wl Aw (sval_okh w W) L Ew') as (e&G&->). rewrite G. cbn [bind].
      destruct (elems_len w [e] Aw (sval_okh w W) Ew') as [_ O]. apply Forall_cons_iff in O. apply One. apply O. }
    destruct w; [discriminate|exact G|exact G|exact G].
Qed.

(** *** Progressive index-of *)
Lemma chain_none wl xl : (forall a b, In a wl -> In b xl -> EQH a b = false) -> forall used, chain_ok EQH wl used xl (repeat (Z.of_nat (length wl)) (length xl)).
Proof.
  induction xl as [|x xl IH]; intros H used; cbn [chain_ok length repeat]; auto. split; [|apply IH; intros; apply H; auto; right; auto]. split; [lia|]. split; [|left; auto].
  intros i a N _ E. rewrite H in E; [discriminate|eapply nth_error_In; eauto|left; auto].
Qed.
Lemma chain_one wl x : chain_ok EQH wl [] [x] [pos_in wl x].
Proof.
  cbn [chain_ok]. split; auto. destruct (proj1 (scan_spec (fun a => EQH a x) wl _) eq_refl) as [H1 H2]. fold (pos_in wl x) in H1, H2. split; [apply scan_range|]. split.
  - intros i a N L E. rewrite (H1 i a N L) in E. discriminate.
  - destruct H2 as [H2|(i&a&H2&N&Ea)]; [left; auto|]. right. exists i, a. auto.
Qed.
Lemma count_c2_ok w x wl xl : sval w -> sval x -> isAtom (erase w) = false -> elems w = Ok wl -> xels x = Ok xl -> h_ia w < 2 ^ 31 -> exists js, count_c2 w x = Ok js /\ chain_ok EQH wl [] xl js.
Proof.
  intros W X Aw Ew Ex Len. unfold SearchModel.count_c2. destruct (elems_len w wl Aw (sval_okh w W) Ew) as [Lw Ow].
  assert (One : forall e, xl = [e] -> exists js, indexOf_c2 false w x = Ok js /\ chain_ok EQH wl [] xl js).
  { intros e ->. exists [pos_in wl e]. split; [|apply chain_one]. rewrite (indexOf_c2_ok false w x wl [e]) by (auto; discriminate). reflexivity. }
  destruct (isAtom (erase x)) eqn:Ax.
  - destruct x as [u| | |]; try discriminate. cbn [xels] in Ex. apply Ok_inj in Ex. apply (One (HAtom u)). auto.
  - assert (Ex' : elems x = Ok xl) by (destruct x; [discriminate|auto|auto|auto]). destruct (elems_len x xl Ax (sval_okh x X) Ex') as [Lx Ox].
    cut (exists js, (let wia := h_ia w in let xia := h_ia x in
    if (xia <=? 1) || (wia =? 0) then indexOf_c2 false w x else
    match check_chrs w x with
    | NoneFound => Ok (repeat wia (Z.to_nat xia))
    | Gen => do wl <- elems w; do xl <- elems x; count_gen cast wyhash64 wyhash s0 s1 s2 s3 nan0 junk wl xl
    | Flat w x we xe =>
      if (elt_no we <=? 2) && (elt_no xe <=? 2) then do wl <- sraws we w; do xl <- sraws xe x; count_table we xe wl xl
      else do wl <- elems w; do xl <- elems x; count_gen cast wyhash64 wyhash s0 s1 s2 s3 nan0 junk wl xl
    end) = Ok js /\ chain_ok EQH wl [] xl js); [intros G; destruct x; [discriminate|exact G|exact G|exact G]|].
    cbv zeta.
    destruct ((h_ia x <=? 1) || (h_ia w =? 0)) eqn:Em.
    { destruct (Z.eqb_spec (h_ia w) 0) as [E0|E0].
      - assert (wl = []) by (destruct wl; auto; cbn in Lw; lia). subst wl. rewrite (indexOf_c2_ok false w x [] xl) by (auto; discriminate). eexists. split; [reflexivity|]. replace (map (pos_in []) xl) with (repeat (Z.of_nat (@length hobj [])) (length xl)); [apply chain_none; intros a b []|]. clear. induction xl; cbn; auto. f_equal. auto.
      - rewrite orb_false_r in Em. apply Z.leb_le in Em. destruct xl as [|e [|e2 xl]]; [|apply (One e); auto|cbn in Lx; lia]. rewrite (indexOf_c2_ok false w x wl []) by (auto; discriminate). exists []. split; [reflexivity|exact Logic.I]. }
    assert (GenR : forall w' x', elems w' = Ok wl -> elems x' = Ok xl -> exists js, (do wl <- elems w'; do xl <- elems x'; count_gen cast wyhash64 wyhash s0 s1 s2 s3 nan0 junk wl xl) = Ok js /\ chain_ok EQH wl [] xl js).
    { intros w' x' -> ->. cbn [bind]. apply count_gen_ok; auto. lia. }
    pose proof (check_ok w x wl xl W X Aw Ax Ew Ex') as Ck. destruct (check_chrs w x) as [|w' x' we xe|]; cbn [outcome] in Ck; [|  |apply GenR; auto].
    { eexists. split; [reflexivity|]. rewrite <- Lx, Nat2Z.id, <- Lw. apply chain_none; auto. }
    destruct Ck as ([Sw Fw]&[Sx Fx]&Ew'&Ex''&Iw&Ix&Bw&Bx&R16&Sm2).
    destruct ((elt_no we <=? 2) && (elt_no xe <=? 2)) eqn:C; [|apply GenR; auto].
    apply andb_prop in C. destruct C as [C2 C3]. apply Z.leb_le in C2, C3. destruct (R16 C2 C3) as (wz&xz&fw&fx&Tw&Tx&Sz&Sy&Rw&Rx&-> & -> &HE).
    rewrite Sz, Sy. cbn [bind]. rewrite map_length in Lw, Lx. destruct (count_table_ok we xe wz xz Tw Tx Rw Rx ltac:(lia)) as (js&E&C). exists js. split; auto. exact (chain_map fw fx wz xz [] js HE C _ eq_refl).
Qed.
End H.
