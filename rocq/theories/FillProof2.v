(** withFill and asFill *)
From Verif Require Import Base TagModel TagSpec TagProof NumSpec NumProof ArrSpec SqueezeModel SqueezeSpec SqueezeProof SqueezeProof2 SqueezeThm HashModel FillModel FillSpec FillProof.
From Verif Require PervModel PervSpec PervProof PervProof2 MonProof2 MonProof3.
From Coq Require Import List Lia.
Open Scope Z_scope.
Section F.
Variable cast : Z -> Z.
Hypothesis C : cast_ok cast.
Variables reuse squoze : fv -> bool.
Definition sqf_ok (s : arr -> res arr) : Prop := s = squeeze_numTry cast \/ s = squeeze_chrTry.
Lemma sq_arr s a : sqf_ok s -> arr_ok a -> flags_ok a -> exists r, s a = Ok r /\ values r = values a /\ arr_ok r.
Proof.
  intros [ -> | -> ] A F.
  - destruct (C14_squeeze_num cast C a A F _ (or_intror eq_refl)) as (r & Q & V & O & _). eauto.
  - destruct (C14_squeeze_chr a A F _ (or_intror eq_refl)) as (r & Q & V & O & _). eauto.
Qed.
Lemma et_typed s e l r : sqf_ok s -> e <> EB -> Forall (raw_ok e) l -> s (mk e l) = Ok r -> a_et r <> EB.
Proof.
  intros [ -> | -> ] N R Q.
  - destruct (PervModel.elNum e) eqn:E.
    + destruct (MonProof3.squeeze_typed cast e l _ C E R (or_intror eq_refl)) as (r' & Q' & _ & _ & _ & EN). rewrite Q in Q'. injection Q' as <-. intros X. rewrite X in EN. discriminate.
    + destruct e; try discriminate; try congruence; unfold squeeze_numTry in Q; destruct l; cbn in Q; injection Q as <-; discriminate.
  - destruct (PervModel.elNum e) eqn:E.
    + destruct e; try discriminate; unfold squeeze_chrTry in Q; destruct l; cbn in Q; injection Q as <-; discriminate.
    + destruct l as [|z l]; [destruct e; try discriminate; try congruence; cbn in Q; injection Q as <-; discriminate|].
      destruct (C14_squeeze_chr (mk e (z :: l)) R (MonProof3.mk_flags _ _) _ (or_intror eq_refl)) as (r' & Q' & _ & _ & _ & Sm). rewrite Q in Q'. injection Q' as <-.
      assert (IC : Forall is_char (values (mk e (z :: l)))) by (unfold values; apply Forall_map, Forall_forall; intros y _; destruct e; try discriminate; try congruence; eexists; reflexivity).
      destruct (Sm IC ltac:(discriminate)) as [_ Le]. assert (FE : Forall (fits e) (values (mk e (z :: l)))).
      { unfold values. apply Forall_map. eapply Forall_impl; [|exact R]. intros y Y. cbn [mk a_et]. destruct e; try discriminate; try congruence; cbn [raw_ok] in Y; cbn [fits vof]; exists y; try split; try reflexivity; lia. }
      specialize (Le e FE). intros X. rewrite X in Le. destruct e; try congruence; cbn [elt_no] in Le; lia.
Qed.
Lemma words_of_ok : forall d ws, words_of d = Some ws -> d = map At ws.
Proof.
  induction d as [|a d IH]; cbn [words_of]; intros ws Q; [injection Q as <-; reflexivity|]. destruct a; try discriminate. destruct (words_of d); [|discriminate]. injection Q as <-. cbn [map]. f_equal. apply IH. reflexivity.
Qed.
Lemma tree_values sh r : tree_of (Ty sh (a_et r) (a_els r)) = TN sh (map TA (values r)).
Proof. cbn [tree_of]. unfold values. rewrite map_map. reflexivity. Qed.
Lemma squeeze_v_ok s x : sqf_ok s -> is_array x -> wff x -> exists y, squeeze_v s x = Ok y /\ tree_of y = tree_of x /\ wff y /\ is_array y /\ (y = x \/ exists sh e l, y = Ty sh e l).
Proof.
  intros SO A W. destruct x as [|sh e l|sh d f]; [contradiction| |]; cbn [squeeze_v].
  - cbn [wff] in W. destruct W as (N & L & R). destruct (sq_arr s (mk e l) SO R (MonProof3.mk_flags _ _)) as (r & Q & V & O). rewrite Q. cbn [bind]. eexists. split; [reflexivity|].
    assert (LR : length (a_els r) = length l) by (apply (f_equal (@length _)) in V; unfold values in V; rewrite !map_length in V; exact V).
    split; [rewrite tree_values, V; unfold values; cbn [mk a_et a_els tree_of]; rewrite map_map; reflexivity|]. split; [|split; [exact Logic.I|right; eauto]]. cbn [wff]. split; [eapply et_typed; eassumption|]. split; [congruence|exact O].
  - destruct (words_of d) as [ws|] eqn:WD; [|exists (Bx sh d f); auto 6]. pose proof (words_of_ok d ws WD) as D. subst d. cbn [wff] in W. destruct W as (L & WD' & FF). apply all_wff in WD'.
    assert (R : arr_ok (mk EB ws)) by (unfold arr_ok; cbn [mk a_et a_els]; rewrite Forall_map in WD'; exact WD'). destruct (sq_arr s (mk EB ws) SO R (MonProof3.mk_flags _ _)) as (r & Q & V & O). rewrite Q. cbn [bind].
    assert (LR : length (a_els r) = length ws) by (apply (f_equal (@length _)) in V; unfold values in V; rewrite !map_length in V; exact V). rewrite map_length in L.
    assert (G : exists y, y = Ty sh (a_et r) (a_els r) /\ tree_of y = tree_of (Bx sh (map At ws) f)).
    { eexists. split; [reflexivity|]. rewrite tree_values, V. unfold values. cbn [mk a_et a_els tree_of]. rewrite !map_map. reflexivity. }
    destruct G as (y & Y & T). assert (WX : wff (Bx sh (map At ws) f)) by (cbn [wff]; rewrite map_length; split; [exact L|]; split; [apply all_wff, WD'|exact FF]).
    assert (NB : a_et r <> EB -> wff y) by (intros NB; subst y; cbn [wff]; split; [exact NB|]; split; [congruence|exact O]).
    destruct (a_et r); try (exists y; subst y; split; [reflexivity|]; split; [exact T|]; split; [apply NB; discriminate|]; split; [exact Logic.I|right; eauto]).
    exists (Bx sh (map At ws) f). auto 6.
Qed.
Lemma boxed_ok x f : is_array x -> wff x -> fill_ok f -> exists r, boxed x f = Ok r /\ tree_of r = tree_of x /\ wff r /\ is_array r /\ getFill r = Some f.
Proof.
  intros A W F. destruct x as [|sh e l|sh d g]; [contradiction| |]; cbn [boxed].
  - cbn [wff] in W. destruct W as (N & L & R). assert (M : exists m, mapM (conv1 e EB) l = Ok m /\ length m = length l /\ map den m = map (vof e) l /\ Forall (raw_ok EB) m).
    { clear L A. induction R as [|z l Z R IH]; [exists (@nil Z); auto|]. destruct IH as (m & Q & LM & V & O). destruct (PervProof2.get_ok e z Z) as (y & E & D & RY). exists (y :: m). cbn [mapM]. rewrite E, Q. cbn [bind length map]. split; [reflexivity|]. split; [congruence|]. split; [congruence|constructor; assumption]. }
    destruct M as (m & Q & LM & V & O). rewrite Q. cbn [bind]. eexists. split; [reflexivity|]. split; [|split; [|split; [exact Logic.I|reflexivity]]].
    + cbn [tree_of]. f_equal. rewrite map_map. cbn [tree_of]. rewrite <- (map_map den TA), V, map_map. reflexivity.
    + cbn [wff]. rewrite map_length. split; [congruence|]. split; [|exact F]. apply all_wff. apply Forall_map. exact O.
  - eexists. split; [reflexivity|]. split; [reflexivity|]. split; [|split; [exact Logic.I|reflexivity]]. cbn [wff] in *. tauto.
Qed.
Lemma num_at f : numFill f = true -> f = At 0.
Proof. destruct f; cbn [numFill]; try discriminate. intros H. apply Z.eqb_eq in H. congruence. Qed.
Lemma chr_at f : fill_ok f -> chrFill f = true -> f = At space.
Proof. destruct f as [w| |]; cbn [chrFill fill_ok]; try discriminate. intros [ -> | -> ] H; [discriminate|reflexivity]. Qed.
Lemma el_ty y : el_type y <> EB -> exists sh e l, y = Ty sh e l /\ el_type y = e. Proof. destruct y; cbn [el_type]; intros N; try congruence. eauto. Qed.
Lemma with_new_ok x f : is_array x -> wff x -> fill_ok f -> exists r, with_new cast squoze x f = Ok r /\ tree_of r = tree_of x /\ wff r /\ is_array r /\ getFill r = Some f.
Proof.
  intros A W F. unfold with_new. destruct (squoze x); [apply boxed_ok; assumption|]. destruct (numFill f) eqn:NF.
  - destruct (squeeze_v_ok _ x (or_introl eq_refl) A W) as (y & Q & T & WY & AY & _). rewrite Q. cbn [bind]. destruct (elNum (el_type y)) eqn:E.
    + exists y. split; [reflexivity|]. split; [exact T|]. split; [exact WY|]. split; [exact AY|]. apply num_at in NF. subst f. destruct (el_ty y) as (sh & e & l & -> & EE); [intros X; rewrite X in E; discriminate|]. cbn [el_type] in E. cbn [getFill]. rewrite E. reflexivity.
    + destruct (boxed_ok y f AY WY F) as (r & B & T' & WR & AR & G). exists r. rewrite T' , T. auto.
  - destruct (chrFill f) eqn:CF; [|apply boxed_ok; assumption].
    destruct (squeeze_v_ok _ x (or_intror eq_refl) A W) as (y & Q & T & WY & AY & _). rewrite Q. cbn [bind]. destruct (elChr (el_type y)) eqn:E.
    + exists y. split; [reflexivity|]. split; [exact T|]. split; [exact WY|]. split; [exact AY|]. apply chr_at in CF; [|exact F]. subst f. destruct (el_ty y) as (sh & e & l & -> & EE); [intros X; rewrite X in E; discriminate|]. cbn [el_type] in E. cbn [getFill]. destruct e; try discriminate; reflexivity.
    + destruct (boxed_ok y f AY WY F) as (r & B & T' & WR & AR & G). exists r. rewrite T', T. auto.
Qed.
Lemma withFill_ok x f : is_array x -> wff x -> fill_ok f ->
  exists r g, withFill cast reuse squoze x (Some f) = Ok r /\ tree_of r = tree_of x /\ wff r /\ is_array r /\ getFill r = Some g /\ tree_of g = tree_of f /\ (g = f \/ getFill x = Some g).
Proof.
  intros A W F. cbn [withFill].
  assert (K : exists r g, with_new cast squoze x f = Ok r /\ tree_of r = tree_of x /\ wff r /\ is_array r /\ getFill r = Some g /\ tree_of g = tree_of f /\ (g = f \/ getFill x = Some g)).
  { destruct (with_new_ok x f A W F) as (r & Q & T & WR & AR & G). exists r, f. auto 8. }
  destruct x as [|sh e l|sh d [g|]]; [contradiction| | |exact K].
  - destruct ((elNum e && numFill f) || (elChr e && chrFill f)) eqn:E; [|exact K]. exists (Ty sh e l), f. split; [reflexivity|]. split; [reflexivity|]. split; [exact W|]. split; [exact A|].
    assert (G : getFill (Ty sh e l) = Some f).
    { cbn [getFill]. apply orb_true_iff in E. destruct E as [E|E]; apply andb_true_iff in E; destruct E as [E1 E2]; [rewrite E1, (num_at f E2); reflexivity|]. rewrite (chr_at f F E2). destruct e; try discriminate; reflexivity. }
    auto.
  - destruct (fillEqual g f) eqn:E.
    + exists (Bx sh d (Some g)), g. cbn [wff] in W. assert (FG : fill_ok g) by apply W. apply fillEqual_iff in E; [|exact FG|exact F]. cbn [getFill]. auto 8.
    + destruct (reuse _); [|exact K]. exists (Bx sh d (Some f)), f. cbn [wff getFill] in *. split; [reflexivity|]. split; [reflexivity|]. tauto.
Qed.

(** ** The prototype *)
Lemma chr_EB ws r : squeeze_chrTry (mk EB ws) = Ok r -> a_et r = EB \/ elChr (a_et r) = true.
Proof.
  unfold squeeze_chrTry. cbn [mk a_sq]. destruct ws as [|w ws]; [cbn; intros Q; injection Q as <-; right; reflexivity|]. cbn [is_empty mk a_els a_et chrFns]. unfold squeeze_B_chr. destruct (chrB_loop _ _) as [o|]; [|intros Q; injection Q as <-; left; reflexivity].
  unfold r_to, cpy. destruct (65535 <? o); [|destruct (255 <? o)]; destruct (mapM _ _); cbn [bind]; intros Q; try discriminate; injection Q as <-; right; reflexivity.
Qed.
Lemma fill_typed e els ws : e <> EB -> map (vof e) els = map den ws -> Forall atomic ws -> (elNum e = true -> els <> [] -> e = EBit) -> Forall (fun z => z = if elNum e then 0 else 32) els.
Proof.
  intros N V A E. assert (E' : els = [] \/ elNum e = false \/ e = EBit) by (destruct els; [auto|]; destruct (elNum e); [right; right; apply E; [reflexivity|discriminate]|auto]). clear E.
  destruct E' as [ -> |E']; [constructor|]. revert ws V A. induction els as [|z els IH]; intros ws V A; [constructor|]. destruct ws as [|w ws]; [discriminate|]. injection V as V VS. inversion A as [|? ? AW AS]; subst. constructor; [|eapply IH; eassumption].
  pose proof one_pos as O1. destruct E' as [E'| -> ].
  - rewrite E'. destruct AW as [ -> | -> ]; rewrite ?den_0, ?den_space in V; destruct e; try discriminate; try congruence; cbn [vof] in V; congruence.
  - cbn [elNum PervModel.elNum]. destruct AW as [ -> | -> ]; rewrite ?den_0, ?den_space in V; cbn [vof] in V; [|discriminate]. assert (H : z * one = 0) by congruence. nia.
Qed.
Lemma squeeze_fill s sh d : sqf_ok s -> fill_ok (Bx sh d None) -> exists y, squeeze_v s (Bx sh d None) = Ok y /\ fill_ok y.
Proof.
  intros SO F. pose proof (fill_wff _ F) as W. cbn [squeeze_v]. destruct (words_of d) as [ws|] eqn:WD; [|eauto]. pose proof (words_of_ok d ws WD) as D. subst d. pose proof F as F0. cbn [fill_ok] in F. destruct F as (L & AF & _). apply all_fill in AF. rewrite Forall_map in AF.
  assert (AT : Forall atomic ws) by exact AF. clear AF. assert (R : arr_ok (mk EB ws)) by (unfold arr_ok; cbn [mk a_et a_els]; eapply Forall_impl; [|exact AT]; intros w; apply atomic_raw).
  destruct (sq_arr s (mk EB ws) SO R (MonProof3.mk_flags _ _)) as (r & Q & V & O). rewrite Q. cbn [bind]. rewrite map_length in L.
  assert (LR : length (a_els r) = length ws) by (apply (f_equal (@length _)) in V; unfold values in V; rewrite !map_length in V; exact V).
  assert (G : a_et r <> EB -> fill_ok (Ty sh (a_et r) (a_els r))).
  { intros NB. cbn [fill_ok]. split; [exact NB|]. split; [congruence|]. apply (fill_typed (a_et r) (a_els r) ws); [exact NB|exact V|exact AT|]. intros EN NE. destruct SO as [ -> | -> ].
    - destruct (C14_squeeze_num cast C (mk EB ws) R (MonProof3.mk_flags _ _) _ (or_intror eq_refl)) as (r' & Q' & V' & _ & _ & Sm). rewrite Q in Q'. injection Q' as <-.
      assert (NN : Forall is_number (values (mk EB ws))). { rewrite <- V. unfold values. apply Forall_map. eapply Forall_impl; [|exact O]. intros z Z. apply MonProof3.num_fits; [exact EN|exact Z]. }
      destruct (Sm NN) as [_ Le]; [intros X; cbn [mk a_els] in X; subst ws; destruct (a_els r); [congruence|discriminate]|]. assert (FB : Forall (fits EBit) (values (mk EB ws))).
      { unfold values in *. cbn [mk a_et a_els] in *. rewrite Forall_map in *. rewrite Forall_forall in *. intros w I. specialize (AT w I). specialize (NN w I). cbn [vof] in *. destruct AT as [ -> | -> ]; rewrite ?den_0, ?den_space in *; [left; reflexivity|]. destruct NN as [X|[x X]]; discriminate. }
      specialize (Le EBit FB). destruct (a_et r); cbn [elt_no] in Le; try lia. reflexivity.
    - destruct (chr_EB ws r Q) as [X|X]; [contradiction|]. destruct (a_et r); discriminate. }
  destruct (a_et r) eqn:E; try (eexists; split; [reflexivity|]; apply G; discriminate). exists (Bx sh (map At ws) None). split; [reflexivity|exact F0].
Qed.
Lemma boxed_fill y f r : fill_ok y -> fill_ok f -> boxed y f = Ok r -> fill_ok r.
Proof.
  intros Y F Q. destruct y as [|sh e l|sh d g]; cbn [boxed] in Q; [discriminate| |injection Q as <-; cbn [fill_ok] in *; tauto].
  cbn [fill_ok] in Y. destruct Y as (N & L & FL). destruct (mapM (conv1 e EB) l) as [m| |] eqn:M; cbn [bind] in Q; try discriminate. injection Q as <-. cbn [fill_ok]. rewrite map_length.
  assert (K : length m = length l /\ Forall atomic m).
  { clear L. revert m M. induction FL as [|z l -> FL IH]; cbn [mapM]; intros m M; [injection M as <-; auto|]. change (if elNum e then 0 else 32) with (cz e) in M.
    assert (B : conv1 e EB (cz e) = Ok (cw e)) by (destruct e; try congruence; reflexivity). rewrite B in M. cbn [bind] in M. destruct (mapM (conv1 e EB) l) as [m'| |]; cbn [bind] in M; try discriminate. injection M as <-. destruct (IH m' eq_refl) as [LM AM]. cbn [length]. split; [congruence|constructor; [apply cw_atomic|exact AM]]. }
  destruct K as [LM AM]. split; [congruence|]. split; [|exact F]. apply all_fill, Forall_map. exact AM.
Qed.
Lemma with_new_fill sh d f r : fill_ok (Bx sh d None) -> fill_ok f -> with_new cast squoze (Bx sh d None) f = Ok r -> fill_ok r.
Proof.
  intros X F. unfold with_new. destruct (squoze _); [apply boxed_fill; assumption|]. destruct (numFill f).
  - destruct (squeeze_fill _ sh d (or_introl eq_refl) X) as (y & Q & FY). rewrite Q. cbn [bind]. destruct (elNum (el_type y)); [intros E; injection E as <-; exact FY|apply boxed_fill; assumption].
  - destruct (chrFill f); [|apply boxed_fill; assumption]. destruct (squeeze_fill _ sh d (or_intror eq_refl) X) as (y & Q & FY). rewrite Q. cbn [bind]. destruct (elChr (el_type y)); [intros E; injection E as <-; exact FY|apply boxed_fill; assumption].
Qed.
Definition asFill_at := asFill cast reuse squoze.
Lemma typed_proto e l n : e <> EB -> Forall (raw_ok e) l -> length l = n -> Forall2 proto (map (fun z => TA (vof e z)) l) (map (fun z => TA (vof (if elNum e then EBit else EC8) z)) (repeat (if elNum e then 0 else 32) n)).
Proof.
  intros N R <-. induction R as [|z l Z R IH]; [constructor|]. cbn [length repeat map]. constructor; [|exact IH]. destruct (elNum e) eqn:E.
  - cbn [vof]. rewrite Z.mul_0_l. constructor. apply MonProof3.num_fits; [exact E|exact Z].
  - cbn [vof]. destruct e; try discriminate; try congruence; constructor.
Qed.
Theorem asFill_ok : forall a, wff a -> match asFill_at a with Ok (Some r) => proto (tree_of a) (tree_of r) /\ fill_ok r /\ (is_array a -> is_array r /\ getFill r = getFill a) | Ok None => forall u, ~ proto (tree_of a) u | _ => False end.
Proof.
  unfold asFill_at. induction a as [w|sh e l|sh d f IH] using fv_ind2; intros W.
  - cbn [asFill tree_of wff] in *. destruct W as [WD CH]. destruct (den_cases w WD) as [(F & _ & N)|[(F & CC & D)|(F & CC & D)]]; rewrite F.
    + cbn [tree_of]. rewrite den_0. split; [constructor; exact N|]. split; [left; reflexivity|contradiction].
    + rewrite CC. cbn [tree_of]. rewrite den_space, D. split; [constructor|]. split; [right; reflexivity|contradiction].
    + rewrite CC, D. intros u P. inversion P as [v NV|n|]; subst. destruct NV as [X|[x X]]; discriminate.
  - cbn [asFill tree_of wff] in *. destruct W as (N & L & R). pose proof (typed_proto e l (size sh) N R L) as P. destruct (elNum e) eqn:E; cbn [tree_of]; (split; [constructor; exact P|]).
    + split; [|intros _; split; [exact Logic.I|cbn [getFill]; rewrite E; reflexivity]]. cbn [fill_ok]. split; [discriminate|]. split; [apply repeat_length|]. apply Forall_forall. intros z I. apply repeat_spec in I. exact I.
    + split; [|intros _; split; [exact Logic.I|cbn [getFill]; rewrite E; reflexivity]]. cbn [fill_ok]. split; [discriminate|]. split; [apply repeat_length|]. apply Forall_forall. intros z I. apply repeat_spec in I. exact I.
  - cbn [wff] in W. destruct W as (L & WD & FF). apply all_wff in WD. cbn [asFill].
    assert (G : forall go : list fv -> res (option (list fv)), go [] = Ok (Some []) -> (forall a d, go (a :: d) = do y <- asFill cast reuse squoze a; match y with None => Ok None | Some y => do r <- go d; Ok (match r with None => None | Some r => Some (y :: r) end) end) ->
      match go d with Ok (Some r) => Forall2 (fun a r => proto (tree_of a) (tree_of r) /\ fill_ok r) d r | Ok None => exists a, In a d /\ forall u, ~ proto (tree_of a) u | _ => False end).
    { intros go G0 G1. clear L FF. induction d as [|a d ID]; [rewrite G0; constructor|]. inversion IH as [|? ? A IH']; inversion WD as [|? ? WA WD']; subst. specialize (A WA). specialize (ID IH' WD'). rewrite G1. destruct (asFill cast reuse squoze a) as [[y|]| |]; cbn [bind]; try contradiction.
      - destruct (go d) as [[r|]| |]; cbn [bind]; try contradiction; [constructor; [tauto|exact ID]|]. destruct ID as (b & I & H). exists b. split; [right; exact I|exact H].
      - exists a. split; [left; reflexivity|exact A]. }
    match goal with |- context [bind (?go d) _] => specialize (G go eq_refl ltac:(reflexivity)); destruct (go d) as [[r|]| |] end; cbn [bind]; try contradiction.
    + assert (P : Forall2 proto (map tree_of d) (map tree_of r) /\ Forall fill_ok r /\ length r = length d).
      { clear - G. induction G as [|a b l r [P F] G IH]; [repeat constructor|]. destruct IH as (P' & F' & L'). cbn [map length]. split; [constructor; assumption|]. split; [constructor; assumption|congruence]. }
      destruct P as (P & FR & LR). assert (FX : fill_ok (Bx sh r None)) by (cbn [fill_ok]; split; [congruence|]; split; [apply all_fill, FR|exact Logic.I]).
      destruct f as [g|].
      * destruct (with_new_ok (Bx sh r None) g Logic.I (fill_wff _ FX) FF) as (y & Q & T & WY & AY & GY). cbn [withFill]. rewrite Q. cbn [bind]. rewrite T. cbn [tree_of]. split; [constructor; exact P|]. split; [exact (with_new_fill sh r g y FX FF Q)|]. intros _. split; [exact AY|exact GY].
      * cbn [withFill bind tree_of]. split; [constructor; exact P|]. split; [exact FX|]. intros _. split; [exact Logic.I|reflexivity].
    + destruct G as (a & I & H). intros u P. cbn [tree_of] in P. inversion P as [| |s0 l0 r0 F]; subst. apply (in_map tree_of) in I. apply in_split in I. destruct I as (l1 & l2 & Q). rewrite Q in F. apply Forall2_app_inv_l in F. destruct F as (r1 & r2 & _ & F & _). inversion F; subst. eapply H; eassumption.
Qed.
End F.
