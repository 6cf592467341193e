(** Arrays of numbers, and all values *)
From Verif Require Import Base TagModel TagSpec TagProof NumSpec NumProof ArrSpec SqueezeModel SqueezeSpec SqueezeProof SqueezeProof2 SqueezeThm HashModel PervModel PervSpec PervProof PervProof2 MonModel MonSpec MonProof MonProof2.
From Verif Require ArithModel ArithSpec ArithProof.
From Coq Require Import List Lia.
Open Scope Z_scope.
Definition leaves (e : elt) (l : list Z) : list tree := map (fun z => TA (vof e z)) l.
Lemma same_ok o sh e l : length l = size sh -> e <> EB -> Forall (raw_ok e) l -> (forall z, raw_ok e z -> sends o (vof e z) (vof e z)) -> applied o (TN sh (leaves e l)) (Ok (Ta sh e l)).
Proof. intros L NB R H. apply typed_ok; [exact L|exact NB|]. clear L. induction R as [|z l Z R IH]; constructor; auto. Qed.
Lemma leaves_values e l r : values r = values (mk e l) -> leaves (a_et r) (a_els r) = leaves e l.
Proof. unfold values, leaves. cbn [a_et a_els mk]. intros V. rewrite <- (map_map (vof (a_et r)) TA), <- (map_map (vof e) TA), V. reflexivity. Qed.
Lemma mk_flags e l : flags_ok (mk e l).
Proof. unfold flags_ok, mk. cbn. repeat split; discriminate. Qed.
Lemma num_fits e z : PervModel.elNum e = true -> raw_ok e z -> fits e (vof e z) /\ is_number (vof e z).
Proof.
  intros E R. destruct e; try discriminate; cbn [raw_ok vof fits] in *.
  - split; [|right; eauto]. assert (z = 0 \/ z = 1) as [ -> | -> ] by lia; [left; reflexivity|right; f_equal; ring].
  - split; [exists z; auto|right; eauto].
  - split; [exists z; auto|right; eauto].
  - split; [exists z; auto|right; eauto].
  - apply num_f64 in R. assert (N : den z = VNaN \/ exists x, den z = VNum x) by (destruct (num_cases z R) as [(_ & _ & D)|(_ & D)]; rewrite D; eauto). split; exact N.
Qed.
Lemma squeeze_typed cast e l f : cast_ok cast -> PervModel.elNum e = true -> Forall (raw_ok e) l -> f = squeeze_numNew cast \/ f = squeeze_numTry cast ->
  exists r, f (mk e l) = Ok r /\ leaves (a_et r) (a_els r) = leaves e l /\ length (a_els r) = length l /\ Forall (raw_ok (a_et r)) (a_els r) /\ PervModel.elNum (a_et r) = true.
Proof.
  intros C E R Hf. destruct (C14_squeeze_num cast C (mk e l) R (mk_flags e l) f Hf) as (r & Q & V & A & _ & Sm). exists r. split; [exact Q|]. split; [apply leaves_values, V|].
  split; [apply (f_equal (@length _)) in V; unfold values in V; rewrite !map_length in V; exact V|]. split; [exact A|].
  destruct l as [|z l].
  - destruct Hf as [ -> | -> ]; cbn in Q; destruct (elt_no e =? 0); injection Q as <-; exact E || reflexivity.
  - assert (NN : Forall is_number (values (mk e (z :: l)))) by (unfold values; apply Forall_map; eapply Forall_impl; [|exact R]; intros y Y; apply num_fits; assumption).
    destruct (Sm NN ltac:(discriminate)) as [_ Le]. specialize (Le e). assert (elt_no (a_et r) <= elt_no e). { apply Le. unfold values. apply Forall_map. eapply Forall_impl; [|exact R]. intros y Y. apply num_fits; assumption. }
    destruct e; try discriminate; cbn [elt_no] in *; destruct (a_et r); cbn [elt_no] in *; reflexivity || lia.
Qed.
Lemma float_body cast o sh l f : cast_ok cast -> length l = size sh -> Forall (raw_ok EF64) l -> (forall z, num z -> num (f z) /\ sends o (den z) (den (f z))) ->
  applied o (TN sh (leaves EF64 l)) (do r <- squeeze_numNew cast (mk EF64 (map f l)); Ok (of_arr sh r)).
Proof.
  intros C L R H. assert (R' : Forall (raw_ok EF64) (map f l)) by (apply Forall_map; eapply Forall_impl; [|exact R]; intros z Z; apply num_f64, H, num_f64, Z).
  destruct (squeeze_typed cast EF64 (map f l) _ C eq_refl R' (or_introl eq_refl)) as (r & Q & V & LR & A & EN). rewrite Q. cbn [bind applied]. rewrite map_length in LR.
  assert (T : tree_of (of_arr sh r) = TN sh (leaves EF64 (map f l))) by (unfold of_arr; rewrite typed_tree by congruence; f_equal; exact V). rewrite T. split.
  - constructor. clear - R H. induction R as [|z l Z R IH]; cbn [map leaves]; constructor; [constructor; apply H, num_f64, Z|exact IH].
  - unfold of_arr. cbn [wfm]. split; [destruct (a_et r); discriminate|]. split; [lia|]. rewrite <- L, <- LR, firstn_all. exact A.
Qed.
Lemma num_types e : PervModel.elNum e = true -> e = EBit \/ int_t e \/ e = EF64.
Proof. unfold int_t. destruct e; intros H; try discriminate; tauto. Qed.
Lemma stile_ok e l : int_t e \/ e = EF64 -> Forall (raw_ok e) l -> forall r, stile e l = Some r -> Forall2 (fun z y => sends MAbs (vof e z) (vof e y) /\ raw_ok e y) l r.
Proof.
  intros T R. induction R as [|z l Z R IH]; cbn [stile]; intros r Q; [injection Q as <-; constructor|].
  destruct T as [I| -> ].
  - assert (G : (if z =? - 2 ^ (width e - 1) then None else Some (if 0 <=? z then z else to_s (width e) (- z))) = None \/ exists y, (if z =? - 2 ^ (width e - 1) then None else Some (if 0 <=? z then z else to_s (width e) (- z))) = Some y /\ y = Z.abs z /\ raw_ok e y).
    { pose proof (proj1 (int_range e z I) Z) as B. destruct (Z.eqb_spec z (- 2 ^ (width e - 1))); [left; reflexivity|right]. eexists. split; [reflexivity|]. assert (K : 0 < width e) by (destruct I as [ -> |[ -> | -> ]]; reflexivity).
      destruct (Z.leb_spec 0 z); [split; [lia|exact Z]|]. rewrite to_s_id by lia. split; [lia|]. apply int_range; [exact I|lia]. }
    assert (Q' : match (if z =? - 2 ^ (width e - 1) then None else Some (if 0 <=? z then z else to_s (width e) (- z))) with Some y => match stile e l with Some r => Some (y :: r) | None => None end | None => None end = Some r) by (destruct I as [ -> |[ -> | -> ]]; exact Q).
    destruct G as [G|(y & G & Y & RY)]; rewrite G in Q'; [discriminate|]. destruct (stile e l) as [r'|] eqn:QL; [|discriminate]. injection Q' as <-. constructor; [|apply IH; reflexivity]. split; [|exact RY].
    rewrite (int_vof e z), (int_vof e y) by (left; exact I). subst y. unfold sends. cbn [of_value of_num]. do 2 f_equal. rewrite Z.abs_mul. f_equal. 
  - destruct (stile EF64 l) as [r'|] eqn:QL; [|discriminate]. injection Q as <-. constructor; [|apply IH; reflexivity]. cbn [vof]. apply num_f64 in Z. destruct (fle 0 z) eqn:LE.
    + split; [|apply num_f64, Z]. unfold fle in LE. change (is_nan 0) with false in LE. change (fval 0) with 0 in LE. destruct (num_cases z Z) as [(N & _ & D)|(N & D)]; rewrite N in LE; cbn [negb andb] in LE; [discriminate|].
      rewrite D. unfold sends. cbn [of_value of_num]. do 2 f_equal. lia.
    + destruct (atom_num MNeg z Z) as [N V]. cbn [atom_fn] in *. split; [|apply num_f64, N]. unfold fle in LE. change (is_nan 0) with false in LE. change (fval 0) with 0 in LE. unfold sends in *.
      destruct (num_cases z Z) as [(NZ & _ & D)|(NZ & D)]; rewrite D in *; cbn [of_value of_num] in *; [exact V|]. rewrite NZ in LE. cbn [negb andb] in LE. rewrite <- V. do 2 f_equal. lia.
Qed.
Lemma leaves_int_sends o e z y : int_t e \/ e = EBit -> of_num o (z * one) = y * one -> sends o (vof e z) (VNum (y * one)).
Proof. intros T H. rewrite int_vof by exact T. unfold sends. cbn [of_value]. rewrite H. reflexivity. Qed.
Lemma int_floor z : z * one / one * one = z * one. Proof. pose proof one_pos. rewrite Z.div_mul by lia. reflexivity. Qed.
Lemma int_ceil z : - (- (z * one) / one * one) = z * one. Proof. pose proof one_pos. replace (- (z * one)) with (- z * one) by ring. rewrite Z.div_mul by lia. ring. Qed.
Lemma mon_typed_ok cast o sh e l : cast_ok cast -> PervModel.elNum e = true -> length l = size sh -> Forall (raw_ok e) l -> applied o (TN sh (leaves e l)) (mon_typed cast o sh e l).
Proof.
  intros C E L R. assert (NB : e <> EB) by (destruct e; discriminate). destruct o; cbn [mon_typed].
  - apply same_ok; auto. intros z Z. destruct (num_fits e z E Z) as [_ [D|[x D]]]; rewrite D; reflexivity.
  - destruct (num_types e E) as [ -> |T].
    + apply map_ok; auto; [discriminate|]. intros z Z. cbn [raw_ok] in Z. assert (z = 0 \/ z = 1) as [ -> | -> ] by lia; (split; [|cbn; lia]); unfold sends; cbn [vof of_value of_num Z.eqb Pos.eqb]; do 2 f_equal.
    + assert (G := sub_SA_ok 0 MNeg sh e l (or_introl (conj eq_refl eq_refl)) T L R). destruct T as [[ -> |[ -> | -> ]]| -> ]; exact G.
  - destruct (num_types e E) as [ -> |T].
    + apply same_ok; auto. intros z Z. cbn [raw_ok] in Z. apply leaves_int_sends; [right; reflexivity|]. cbn [of_num]. pose proof one_pos. rewrite Z.abs_mul. f_equal; lia.
    + assert (G : applied MAbs (TN sh (leaves e l)) (match stile e l with Some r => Ok (Ta sh e r) | None => each_typed (mon_atom MAbs) sh e l end)).
      { destruct (stile e l) as [r|] eqn:Q; [apply typed_ok; auto; apply stile_ok; assumption|]. apply each_ok; auto. intros v V. apply atom_ok, V. }
      destruct T as [[ -> |[ -> | -> ]]| -> ]; exact G.
  - destruct (num_types e E) as [T|[T| -> ]].
    + subst e. apply same_ok; auto. intros z Z. apply leaves_int_sends; [auto|apply int_floor].
    + assert (G : applied MFloor (TN sh (leaves e l)) (Ok (Ta sh e l))) by (apply same_ok; auto; intros z Z; rewrite (int_vof e z) by auto; unfold sends; cbn [of_value of_num]; rewrite int_floor; reflexivity). destruct T as [ -> |[ -> | -> ]]; exact G.
    + apply float_body; auto. intros z Z. exact (atom_num MFloor z Z).
  - destruct (num_types e E) as [T|[T| -> ]].
    + subst e. apply same_ok; auto. intros z Z. apply leaves_int_sends; [auto|apply int_ceil].
    + assert (G : applied MCeil (TN sh (leaves e l)) (Ok (Ta sh e l))) by (apply same_ok; auto; intros z Z; rewrite (int_vof e z) by auto; unfold sends; cbn [of_value of_num]; rewrite int_ceil; reflexivity). destruct T as [ -> |[ -> | -> ]]; exact G.
    + apply float_body; auto. intros z Z. exact (atom_num MCeil z Z).
  - destruct (num_types e E) as [ -> |T].
    + apply same_ok; auto. intros z Z. cbn [raw_ok] in Z. apply leaves_int_sends; [right; reflexivity|]. cbn [of_num]. rewrite sgn_one. f_equal. lia.
    + assert (G : applied MSign (TN sh (leaves e l)) (Ok (Ta sh EI8 (map (sign_expr e) l)))).
      { apply map_ok; auto; [discriminate|]. intros z Z. destruct T as [I| -> ].
        - assert (Q : sign_expr e z = Z.sgn z) by (destruct I as [ -> |[ -> | -> ]]; cbn [sign_expr]; destruct (Z.ltb_spec 0 z); [lia|destruct (Z.eqb_spec z 0); lia|lia|destruct (Z.eqb_spec z 0); lia|lia|destruct (Z.eqb_spec z 0); lia]).
          rewrite Q. split; [|cbn [raw_ok]; lia]. apply leaves_int_sends; [auto|]. cbn [of_num]. rewrite sgn_one. reflexivity.
        - apply num_f64 in Z. assert (Q : sign_expr EF64 z = fsgn z).
          { cbn [sign_expr]. unfold fsgn, feq, flt. destruct (negb (is_nan z)); cbn [andb]; change (is_nan 0) with false; cbn [negb andb]; [|reflexivity]. change (fval 0) with 0. destruct (Z.ltb_spec 0 (fval z)); [|reflexivity]. destruct (Z.eqb_spec (fval z) 0); [lia|reflexivity]. }
          rewrite Q. destruct (atom_num MSign z Z) as [_ V]. cbn [atom_fn vof] in *. assert (B : -1 <= fsgn z <= 1) by (unfold fsgn; destruct (feq z 0); [lia|]; destruct (flt 0 z); lia).
          destruct (num_int (fsgn z)) as [_ D]; [lia|]. rewrite D in V. split; [exact V|cbn [raw_ok]; lia]. }
      destruct T as [[ -> |[ -> | -> ]]| -> ]; exact G.
  - assert (BN : forall m, length m = size sh -> Forall (raw_ok EBit) m -> applied MNot (TN sh (leaves EBit m)) (Ok (Ta sh EBit (bit_negate m)))).
    { intros m LM RM. apply map_ok; auto; [discriminate|]. intros z Z. cbn [raw_ok] in *. split; [|lia]. apply sub_value; [right; auto|lia]. }
    destruct (num_types e E) as [ -> |T]; [apply BN; assumption|].
    assert (G : applied MNot (TN sh (leaves e l)) (do r <- squeeze_numTry cast (mk e l); match a_et r with EBit => Ok (Ta sh EBit (bit_negate (a_els r))) | _ => sub_SA 1 sh (a_et r) (a_els r) end)).
    { destruct (squeeze_typed cast e l _ C E R (or_intror eq_refl)) as (r & Q & V & LR & A & EN). rewrite Q. cbn [bind]. rewrite <- V. destruct (num_types _ EN) as [B|T'].
      - rewrite B in *. apply BN; [congruence|exact A].
      - assert (H := sub_SA_ok 1 MNot sh (a_et r) (a_els r) (or_intror (conj eq_refl eq_refl)) T' ltac:(congruence) A). destruct T' as [[B|[B|B]]|B]; rewrite B in *; exact H. }
    destruct T as [[ -> |[ -> | -> ]]| -> ]; exact G.
Qed.

(** ** All values *)
Lemma av_ind2 (P : av -> Prop) : (forall w, P (At w)) -> (forall sh e m, P (Ta sh e m)) -> (forall sh d, Forall P d -> P (Bx sh d)) -> forall a, P a.
Proof.
  intros HA HT HB. fix IH 1. intros [w|sh e m|sh d]; [apply HA|apply HT|]. apply HB. induction d as [|a d ID]; constructor; [apply IH|exact ID].
Qed.
Lemma wfm_all d : (fix all l := match l with [] => True | a :: l => wfm a /\ all l end) d <-> Forall wfm d.
Proof. induction d as [|a d IH]; [split; auto|]. split; [intros [A B]; constructor; [exact A|apply IH, B]|intros F; inversion F; subst; split; [assumption|apply IH; assumption]]. Qed.
Lemma go_mapM (f : av -> res av) d : (fix go l := match l with [] => Ok [] | a :: l => do y <- f a; do r <- go l; Ok (y :: r) end) d = mapM f d.
Proof. induction d as [|a d IH]; [reflexivity|]. cbn [mapM]. rewrite IH. reflexivity. Qed.
Lemma maps_conj : forall a r, maps MConj (tree_of a) r -> r = tree_of a.
Proof.
  induction a as [w|sh e m|sh d IH] using av_ind2; cbn [tree_of]; intros r M.
  - inversion M as [v u V|]; subst. destruct (den w); cbn [of_value of_num] in V; try discriminate; injection V as <-; reflexivity.
  - inversion M as [|s0 l0 u F]; subst. f_equal. clear M. remember (map (fun z => TA (vof e z)) (firstn (size sh) m)) as t eqn:Q. revert Q. generalize (firstn (size sh) m). clear m. induction F as [|t u l r T F IH]; intros m Q; [reflexivity|].
    destruct m as [|z m]; [discriminate|]. injection Q as -> ->. f_equal; [|eapply IH; reflexivity]. inversion T as [v u' V|]; subst. destruct (vof e z); cbn [of_value of_num] in V; try discriminate; injection V as <-; reflexivity.
  - inversion M as [|s0 l0 u F]; subst. f_equal. clear M. revert u F. induction IH as [|a d A IH' IH2]; intros u F; cbn [map] in *; inversion F; subst; [reflexivity|]. f_equal; auto.
Qed.
Theorem mon_ok cast o : cast_ok cast -> forall a, wfm a -> applied o (tree_of a) (mon cast o a).
Proof.
  intros C. induction a as [w|sh e m|sh d IH] using av_ind2; intros W.
  - apply atom_ok. exact W.
  - cbn [wfm] in W. destruct W as (NB & L & R). cbn [mon]. rewrite read_all by exact L. cbn [bind]. assert (LF : length (firstn (size sh) m) = size sh) by (apply firstn_length_le; exact L).
    destruct (PervModel.elNum e) eqn:E; [exact (mon_typed_ok cast o sh e _ C E LF R)|].
    assert (G := each_ok o sh e (mon_atom o) (firstn (size sh) m) LF R (fun v V => atom_ok o v V)). change (TN sh (map (fun z => TA (vof e z)) (firstn (size sh) m))) with (tree_of (Ta sh e m)) in G.
    destruct (each_typed (mon_atom o) sh e (firstn (size sh) m)) as [r| |]; [|exact G|exact G]. cbn [bind]. destruct o; try exact G. destruct G as [G _]. pose proof (maps_conj (Ta sh e m) _ G) as Q. cbn [applied]. split; [rewrite <- Q at 2; exact G|]. cbn [wfm]. auto.
  - cbn [wfm] in W. destruct W as (L & WD). apply wfm_all in WD. cbn [mon]. rewrite go_mapM. pose proof (mapM_cases (mon cast o) d) as MC.
    assert (A : forall a, In a d -> applied o (tree_of a) (mon cast o a)) by (rewrite Forall_forall in IH, WD; intros a I; apply IH; auto).
    destruct (mapM (mon cast o) d) as [r| |]; cbn [bind].
    + assert (F : Forall2 (fun t a => maps o t (tree_of a) /\ wfm a) (map tree_of d) r).
      { clear - MC A. induction MC as [|a b l r E MC IH]; cbn [map]; constructor; [|apply IH; intros; apply A; right; assumption]. specialize (A a (or_introl eq_refl)). rewrite E in A. exact A. }
      assert (G := box_ok o sh (map tree_of d) r ltac:(rewrite map_length; exact L) F). change (TN sh (map tree_of d)) with (tree_of (Bx sh d)) in G. destruct o; try exact G.
      destruct G as [G _]. pose proof (maps_conj (Bx sh d) _ G) as Q. cbn [applied]. split; [rewrite <- Q at 2; exact G|]. cbn [wfm]. split; [exact L|apply wfm_all, WD].
    + destruct MC as (a & I & E). specialize (A a I). rewrite E in A. cbn [applied tree_of] in *. intros u M. inversion M as [|s0 l0 r0 F]; subst. apply (in_map tree_of) in I.
      apply in_split in I. destruct I as (l1 & l2 & Q). rewrite Q in F. apply Forall2_app_inv_l in F. destruct F as (r1 & r2 & _ & F & _). inversion F; subst. eapply A; eassumption.
    + destruct MC as (a & I & E). specialize (A a I). rewrite E in A. exact A.
Qed.
