From Verif Require Import Base BitsModel BitsSpec BitLemmas BitsProof BitsProof2 TagModel TagSpec TagProof NumSpec NumProof ArrSpec DataSpec SqueezeModel SqueezeSpec SqueezeProof SqueezeProof2 CompareModel CompareSpec CompareProof MatchModel MatchSpec MatchProof MatchProof2 MatchThm ListLib HashModel HashSpec HashProof HashThm HtabMap SearchModel SearchSpec SearchProof.
From Coq Require Import List.

(** ** Flat arrays *)
Definition cv (t : elt) (z : Z) : Z := match conv1 t EB z with Ok v => v | _ => 0 end.
Definition fraws (o : hobj) : list Z := match o with HBits _ sh ws => map b2z (bits_of ws 0 (prod sh)) | HTyped _ _ _ l => l | _ => [] end.
Lemma cv_ok t z : raw_ok t z -> conv1 t EB z = Ok (cv t z) /\ den (cv t z) = vof t z /\ raw_ok EB (cv t z).
Proof. intros R. destruct (conv1_ok t EB z R Logic.I) as (y&Y&Y2&Y3). unfold cv. rewrite Y. auto. Qed.
Lemma bits_raw ws n : Forall (raw_ok EBit) (map b2z (bits_of ws 0 n)).
Proof. apply Forall_forall. intros z H. apply in_map_iff in H. destruct H as (b&<-&_). cbn [raw_ok]. destruct b; cbn; lia. Qed.
Lemma raws_of_ok o : isflat o -> okh o -> raws_of o = Ok (fraws o) /\ Forall (raw_ok (h_elt o)) (fraws o) /\ Z.of_nat (length (fraws o)) = h_ia o.
Proof.
  intros F [[V _] _]. destruct o as [w|f sh ws|f sh t l|f sh l]; try destruct F; cbn [raws_of fraws erase ovalid] in *; unfold h_elt, h_ia, h_shape; cbn [erase o_elt o_shape].
  - destruct V as (S1&_&S3). split; [|split; [apply bits_raw|]]. + rewrite bitzs_ok by lia. reflexivity.
    + unfold bits_of. rewrite !map_length, seq_length. pose proof (prod_nonneg _ S1). lia.
  - destruct V as (S1&T1&T2&L&R). auto.
Qed.
Lemma elems_flat o : isflat o -> okh o -> elems o = Ok (map (fun z => HAtom (cv (h_elt o) z)) (fraws o)).
Proof.
  intros F O. destruct (raws_of_ok o F O) as (_&R&L). destruct (elems_ok o) as (l&E&_&_&Ll); [destruct o; try destruct F; reflexivity|auto|]. rewrite E. f_equal. unfold elems in E. apply mapM_inv in E. destruct E as [E1 E2].
  apply nth_error_ext. intros i. destruct (Nat.lt_ge_cases i (length l)) as [Li|Li].
  2: { rewrite (proj2 (nth_error_None _ _)) by lia. symmetry. apply nth_error_None. rewrite map_length. lia. }
  destruct (E2 i i) as (b&G&N); [rewrite nth_error_seq' by lia; reflexivity|]. rewrite N, nth_error_map. destruct (nth_error_ex (fraws o) i ltac:(lia)) as [z Nz]. rewrite Nz. cbn [option_map].
  assert (Rz : raw_ok (h_elt o) z) by (rewrite Forall_forall in R; apply R; eapply nth_error_In; eauto).
  destruct O as [[V _] _]. destruct o as [w|f sh ws|f sh t k|f sh k]; try destruct F; cbn [fraws] in Nz; unfold h_elt in *; cbn [erase o_elt ovalid] in *; cbn [getH] in G.
  - rewrite nth_error_map in Nz. unfold bits_of in Nz. rewrite nth_error_map in Nz. destruct (nth_error (seq 0 (Z.to_nat (prod sh))) i) as [i'|] eqn:Ni; [|discriminate]. cbn [option_map] in Nz. injection Nz as <-.
    assert (Hi : (i < Z.to_nat (prod sh))%nat) by (apply nth_error_Some_lt in Ni; rewrite seq_length in Ni; auto). rewrite nth_error_seq' in Ni by auto. injection Ni as <-. rewrite bitz_ok in G by lia. cbn [bind] in G.
    replace (64 * 0 + Z.of_nat (0 + i)) with (Z.of_nat i) in * by lia. unfold b2z in *. destruct (cv_ok _ _ Rz) as (C&_&_). rewrite C in G. cbn [bind] in G. apply Ok_inj in G. congruence.
  - rewrite (rd_ok' _ _ _ Nz) in G. cbn [bind] in G. destruct (cv_ok _ _ Rz) as (C&_&_). rewrite C in G. cbn [bind] in G. apply Ok_inj in G. congruence.
Qed.
Lemma cv_okh t z : raw_ok t z -> is_number (vof t z) \/ is_char (vof t z) -> okh (HAtom (cv t z)).
Proof. intros R N. destruct (cv_ok t z R) as (_&D&V). split; [|exact Logic.I]. split; cbn [erase ovalid oden plain]; [exact V|rewrite D; exact N]. Qed.
Lemma EQH_atoms u v : okh (HAtom u) -> okh (HAtom v) -> (EQH (HAtom u) (HAtom v) = true <-> den u = den v /\ den u <> VNaN).
Proof.
  intros U V. rewrite (proj2 (EQH_ok _ _ U V)). unfold SearchSpec.same. cbn [erase oden nan_free]. split; intros [A B]; split; auto; congruence.
Qed.
Lemma bool_eq_iff (a b : bool) : (a = true <-> b = true) -> a = b.
Proof. intros [H1 H2]. destruct a, b; auto. symmetry. auto. Qed.
Lemma vof_plain t z : t <> EB -> raw_ok t z -> is_number (vof t z) \/ is_char (vof t z).
Proof.
  intros T R. destruct t; cbn [vof raw_ok] in *; try (left; right; eexists; reflexivity); try (right; eexists; reflexivity); [|congruence].
  left. rewrite raw_f64_den by exact R. destruct (is_nan z); [left; auto|right; eauto].
Qed.
Lemma flat_elt o : isflat o -> okh o -> h_elt o <> EB.
Proof. intros F [[V _] _]. destruct o; try destruct F; unfold h_elt; cbn [erase o_elt ovalid] in *; [discriminate|apply V]. Qed.
Lemma isflat_iff o : isAtom (erase o) = false -> (h_elt o <> EB -> isflat o).
Proof. destruct o; cbn; intros; try discriminate; try exact Logic.I; congruence. Qed.

(** ** A single element *)
Lemma q_int_ok lo hi u : word u -> q_int lo hi u = match den u with VNum x => if (ftrunc u * one =? x) && (lo <=? ftrunc u) && (ftrunc u <=? hi) then Some (ftrunc u) else None | _ => None end.
Proof.
  intros W. unfold q_int. destruct (is_nan u) eqn:N.
  - unfold den. rewrite N. destruct (_ <=? _); auto. destruct (_ =? _); auto.
  - unfold den. rewrite N. reflexivity.
Qed.
Lemma q_int_Some lo hi u v : q_int lo hi u = Some v -> den u = VNum (v * one) /\ lo <= v <= hi.
Proof.
  unfold q_int. destruct (is_nan u) eqn:N; [discriminate|]. destruct ((_ && _ && _)) eqn:B; [|discriminate]. intros E. injection E as <-. apply andb_true_iff in B. destruct B as [B B3]. apply andb_true_iff in B. destruct B as [B1 B2].
  split; [|lia]. unfold den. rewrite N. f_equal. lia.
Qed.
Lemma q_int_None lo hi u v : q_int lo hi u = None -> lo <= v <= hi -> den u <> VNum (v * one).
Proof.
  unfold q_int. intros Q R D. apply den_num in D. destruct D as [N Fv]. rewrite N in Q. assert (I1 : is_int u v) by (split; auto). rewrite (is_int_trunc u v I1), Fv, Z.eqb_refl in Q. destruct (Z.leb_spec lo v), (Z.leb_spec v hi); try lia. discriminate.
Qed.
Lemma scan_const {A} (p : A -> bool) l : Forall (fun a => p a = false) l -> scan p l = Z.of_nat (length l).
Proof. induction 1; cbn [scan length]; auto. rewrite H. lia. Qed.
Lemma atom_word u : okh (HAtom u) -> word u.
Proof. intros [[V _] _]. apply V. Qed.
Lemma EQH_nonatom u e : okh (HAtom u) -> okh e -> isAtom (erase e) = false -> EQH (HAtom u) e = false.
Proof. intros U E A. apply not_true_is_false. rewrite (proj2 (EQH_ok _ _ U E)). intros [D _]. destruct e; try discriminate. Qed.
Lemma scan_map {A B} (p : B -> bool) (f : A -> B) l : scan p (map f l) = scan (fun a => p (f a)) l.
Proof. induction l; cbn [map scan]; auto. rewrite IHl. reflexivity. Qed.
Lemma scan_eq {A} (p q : A -> bool) l : (forall a, In a l -> p a = q a) -> scan p l = scan q l.
Proof. induction l; cbn [scan]; intros H; auto. rewrite (H a) by (left; auto). rewrite IHl by (intros; apply H; right; auto). reflexivity. Qed.
Lemma scanM_ok {A} (p : A -> res bool) (q : A -> bool) l : (forall a, In a l -> p a = Ok (q a)) -> scanM p l = Ok (scan q l).
Proof. induction l; cbn [scan scanM]; intros H; auto. rewrite (H a) by (left; auto). cbn [bind]. destruct (q a); auto. rewrite IHl by (intros; apply H; right; auto). reflexivity. Qed.
Lemma u_eq_ok k lo a b : 0 < k -> lo <= a < lo + 2 ^ k -> lo <= b < lo + 2 ^ k -> u_eq k a b = (a =? b).
Proof.
  intros Hk A B. unfold u_eq. apply bool_eq_iff. rewrite !Z.eqb_eq. split; [|congruence]. intros E. pose proof (Z.pow_pos_nonneg 2 k ltac:(lia) ltac:(lia)). pose proof (Z.div_mod a (2^k) ltac:(lia)). pose proof (Z.div_mod b (2^k) ltac:(lia)).
  assert (a / 2^k = b / 2^k \/ a / 2^k <> b / 2^k) as [Q|Q] by lia; [nia|]. exfalso. rewrite E in H0. assert (a - b = 2^k * (a / 2^k - b / 2^k)) by lia. nia.
Qed.
Definition chr_ty (t : elt) : Prop := t = EC8 \/ t = EC16 \/ t = EC32.
Lemma vof_chr t z : chr_ty t -> vof t z = VChr z.
Proof. intros [ -> |[ -> | -> ]]; reflexivity. Qed.
Lemma fmatch_int t u raws v : int_ty t -> Forall (raw_ok t) raws -> okh (HAtom u) -> den u = VNum (v * one) ->
  scan (fun z => v =? z) raws = scan (fun a => EQH a (HAtom u)) (map (fun z => HAtom (cv t z)) raws).
Proof.
  intros T R U D. rewrite scan_map. apply scan_eq. intros z Hz. rewrite Forall_forall in R. specialize (R z Hz). apply bool_eq_iff.
  rewrite EQH_atoms; auto; [|apply cv_okh; auto; left; right; rewrite vof_int by auto; eauto]. destruct (cv_ok t z R) as (_&-> &_). rewrite D, vof_int by auto. rewrite VNum_inj, one_cancel, Z.eqb_eq. split; [intros <-; split; [auto|discriminate]|intros [<- _]; auto].
Qed.
Lemma fmatch_chr t u raws n : chr_ty t -> Forall (raw_ok t) raws -> okh (HAtom u) -> den u = VChr n ->
  scan (fun z => n =? z) raws = scan (fun a => EQH a (HAtom u)) (map (fun z => HAtom (cv t z)) raws).
Proof.
  intros T R U D. rewrite scan_map. apply scan_eq. intros z Hz. rewrite Forall_forall in R. specialize (R z Hz). apply bool_eq_iff.
  rewrite EQH_atoms; auto; [|apply cv_okh; auto; right; rewrite vof_chr by auto; eexists; reflexivity]. destruct (cv_ok t z R) as (_&-> &_). rewrite D, vof_chr by auto. rewrite VChr_inj, Z.eqb_eq. split; [intros <-; split; [auto|discriminate]|intros [<- _]; auto].
Qed.
(** no element is equal *)
Lemma fmatch_none t e raws : t <> EB -> Forall (raw_ok t) raws -> okh e -> (forall u, e = HAtom u -> Forall (fun z => vof t z <> den u \/ den u = VNaN) raws) ->
  scan (fun a => EQH a e) (map (fun z => HAtom (cv t z)) raws) = Z.of_nat (length raws).
Proof.
  intros T R E H. rewrite scan_map. apply scan_const. apply Forall_forall. intros z Hz. rewrite Forall_forall in R. specialize (R z Hz). assert (Z1 : okh (HAtom (cv t z))) by (apply cv_okh; auto; apply vof_plain; auto).
  destruct (isAtom (erase e)) eqn:A; [|apply EQH_nonatom; auto]. destruct e as [u| | |]; try discriminate. specialize (H u eq_refl). rewrite Forall_forall in H. specialize (H z Hz).
  apply not_true_is_false. rewrite EQH_atoms by auto. destruct (cv_ok t z R) as (_&-> &_). intros [Q1 Q2]. destruct H; congruence.
Qed.
Lemma q_chr u : okh (HAtom u) -> match den u with VChr n => isC32 u = true /\ o2cG u = n /\ 0 <= n < 1114112 /\ u = m_c32 n | VOth _ => False | _ => isC32 u = false end.
Proof.
  intros O. assert (W := atom_word u O). destruct O as [[V P] _]. cbn [erase ovalid oden plain raw_ok] in V, P.
  destruct (den_cases u W) as [(_&C&[D|[x D]])|[(_&C&D)|(_&C&D)]].
  - rewrite D. auto. - rewrite D. auto.
  - destruct V as [_ V]. specialize (V _ D). destruct (den_chr u _ W D) as (_&_&_&U). destruct (o2c_chr u _ W D V) as [N O]. rewrite D. split; auto. split; auto. split; [lia|]. rewrite c32_add by lia. lia.
  - rewrite D in *. destruct P as [[P|[x P]]|[n P]]; discriminate.
Qed.
Lemma len_raws o : isflat o -> okh o -> h_ia o = Z.of_nat (length (fraws o)).
Proof. intros F O. destruct (raws_of_ok o F O) as (_&_&L). auto. Qed.
Lemma scan_u_eq k lo v raws : 0 < k -> lo <= v < lo + 2 ^ k -> Forall (fun z => lo <= z < lo + 2 ^ k) raws -> scan (u_eq k v) raws = scan (fun z => v =? z) raws.
Proof. intros K V R. apply scan_eq. intros z Hz. rewrite Forall_forall in R. apply (u_eq_ok k lo); auto. Qed.
Definition atom_num (lo hi : Z) (e : hobj) : option Z := match e with HAtom u => q_int lo hi u | _ => None end.
Definition atom_chr (q : Z -> bool) (e : hobj) : option Z := match e with HAtom u => if q u then Some (o2cG u) else None | _ => None end.
Lemma one_int k t e raws : 0 < k -> int_ty t -> lo t = - 2 ^ (k - 1) -> hi t = 2 ^ (k - 1) - 1 -> Forall (raw_ok t) raws -> okh e ->
  match atom_num (lo t) (hi t) e with Some v => scan (u_eq k v) raws | None => Z.of_nat (length raws) end = scan (fun a => EQH a e) (map (fun z => HAtom (cv t z)) raws).
Proof.
  intros K T Lo Hi R E. assert (P2 : 2 ^ k = 2 * 2 ^ (k - 1)) by (rewrite <- Z.pow_succ_r by lia; f_equal; lia).
  assert (Rg : Forall (fun z => lo t <= z <= hi t) raws) by (eapply Forall_impl; [|exact R]; intros z Hz; apply raw_int; auto).
  destruct (atom_num (lo t) (hi t) e) as [v|] eqn:Q.
  - destruct e as [u| | |]; try discriminate. cbn [atom_num] in Q. apply q_int_Some in Q. destruct Q as [D V].
    rewrite (scan_u_eq k (lo t)); [apply (fmatch_int t u); auto|lia|lia|eapply Forall_impl; [|exact Rg]; cbn; lia].
  - symmetry. apply fmatch_none; auto; [intros ->; cbv in T; congruence|]. intros u ->. cbn [atom_num] in Q. eapply Forall_impl; [|exact Rg]. intros z Hz. left. rewrite vof_int by auto. intros D. symmetry in D. exact (q_int_None _ _ _ _ Q Hz D).
Qed.
Lemma one_chr k t q e raws : 0 < k -> chr_ty t -> (forall z, raw_ok t z -> 0 <= z < 2 ^ k) -> (forall n, 0 <= n < 1114112 -> (q (m_c32 n) = true <-> n < 2 ^ k)) -> (forall u, isC32 u = false -> q u = false) -> Forall (raw_ok t) raws -> okh e ->
  match atom_chr q e with Some v => scan (u_eq k v) raws | None => Z.of_nat (length raws) end = scan (fun a => EQH a e) (map (fun z => HAtom (cv t z)) raws).
Proof.
  intros K T Rk Qk Qn R E.
  assert (Rg : Forall (fun z => 0 <= z < 2 ^ k) raws) by (eapply Forall_impl; [|exact R]; auto).
  destruct (atom_chr q e) as [v|] eqn:Q.
  - destruct e as [u| | |]; try discriminate. cbn [atom_chr] in Q. destruct (q u) eqn:Qu; [|discriminate]. injection Q as <-. pose proof (q_chr u E) as C. destruct (den u) as [x| |n|w] eqn:D; try (rewrite (Qn u C) in Qu; discriminate); [|destruct C].
    destruct C as (C1&C2&C3&C4). rewrite C2. rewrite C4 in Qu. pose proof (proj1 (Qk n C3) Qu). rewrite (scan_u_eq k 0 n raws K ltac:(lia) Rg). apply (fmatch_chr t u); auto.
  - symmetry. apply fmatch_none; auto; [intros ->; destruct T as [ | [ | ]]; discriminate|]. intros u ->. cbn [atom_chr] in Q. eapply Forall_impl; [|exact Rg]. intros z Hz. left. rewrite vof_chr by auto. intros D. symmetry in D. pose proof (q_chr u E) as C. rewrite D in C. destruct C as (_&_&C3&C4).
    destruct (q u) eqn:Qu; [discriminate|]. rewrite C4 in Qu. rewrite (proj2 (Qk z C3) (proj2 Hz)) in Qu. discriminate.
Qed.
Lemma feq_den a b : raw_ok EB a -> raw_ok EF64 b -> (feq a b = true <-> den a = den b /\ den a <> VNaN).
Proof.
  intros A B. unfold feq. rewrite (raw_f64_den b B). unfold den. destruct (is_nan a) eqn:Na; cbn [negb andb].
  - split; [discriminate|]. destruct (is_nan b); destruct (_ <=? _); try (intros [? ?]; congruence); destruct (_ =? _); intros [? ?]; discriminate.
  - destruct (is_nan b); cbn [negb andb]; [split; [discriminate|intros [? ?]; discriminate]|]. rewrite Z.eqb_eq. split; [intros ->; split; [auto|discriminate]|intros [Q _]; congruence].
Qed.
Lemma first_index_scan v l : first_index v l = scan (fun b => Bool.eqb b v) l.
Proof. induction l; cbn [first_index scan]; auto. rewrite IHl. reflexivity. Qed.
Lemma indexOfOne_ok w e wl : sval w -> isAtom (erase w) = false -> okh e -> elems w = Ok wl -> indexOfOne w e = Ok (pos_in wl e).
Proof.
  intros (Dw&Fw&Pw) A E El. assert (O : okh w) by (split; auto). unfold pos_in.
  destruct w as [u|f sh ws|f sh t raws|f sh l]; [discriminate| | |].
  - rewrite elems_flat in El by (auto; exact Logic.I). apply Ok_inj in El. subst wl. cbn [indexOfOne fraws]. unfold h_elt. cbn [erase o_elt]. unfold h_ia, h_shape. cbn [erase o_shape].
    destruct (raws_of_ok (HBits f sh ws) Logic.I O) as (_&R&L). unfold h_elt, h_ia, h_shape in R, L. cbn [fraws erase o_elt o_shape] in R, L.
    destruct Dw as [V _]. cbn [erase ovalid] in V. destruct V as (V1&V2&V3). pose proof (prod_nonneg _ V1) as V4.
    fold (atom_num 0 1 e). destruct (atom_num 0 1 e) as [v|] eqn:Q.
    + destruct e as [u| | |]; try discriminate. cbn [atom_num] in Q. apply q_int_Some in Q. destruct Q as [D V].
      rewrite bit_find_first by (auto; cbn [padded] in Pw; lia). rewrite <- (fmatch_int EBit u _ v); auto; [|cbv; discriminate]. rewrite first_index_scan, scan_map. f_equal. apply scan_eq. intros b _. assert (v = 0 \/ v = 1) as [ -> | -> ] by lia; destruct b; reflexivity.
    + symmetry. rewrite fmatch_none; auto; [f_equal; lia|discriminate|]. intros u ->. cbn [atom_num] in Q. eapply Forall_impl; [|exact R]. intros z Hz. left. cbn [vof raw_ok] in *. intros D. symmetry in D. exact (q_int_None _ _ _ _ Q Hz D).
  - rewrite elems_flat in El by (auto; exact Logic.I). apply Ok_inj in El. subst wl. cbn [indexOfOne fraws]. unfold h_elt. cbn [erase o_elt].
    destruct (raws_of_ok (HTyped f sh t raws) Logic.I O) as (_&R&L). unfold h_elt in R. cbn [fraws erase o_elt] in R, L. rewrite <- L.
    assert (NB : t <> EB /\ t <> EBit) by (destruct Dw as [V _]; cbn [erase ovalid] in V; tauto). cbv zeta.
    destruct t; try (destruct NB; congruence).
    + pose proof (one_int 8 EI8 e raws ltac:(lia) ltac:(cbv; discriminate) eq_refl eq_refl R E) as H. cbn [lo hi] in H. rewrite <- H. unfold atom_num. destruct e as [u| | |]; try reflexivity. destruct (q_int (-128) 127 u); reflexivity.
    + pose proof (one_int 16 EI16 e raws ltac:(lia) ltac:(cbv; discriminate) eq_refl eq_refl R E) as H. cbn [lo hi] in H. rewrite <- H. unfold atom_num. destruct e as [u| | |]; try reflexivity. destruct (q_int _ _ u); reflexivity.
    + pose proof (one_int 32 EI32 e raws ltac:(lia) ltac:(cbv; discriminate) eq_refl eq_refl R E) as H. cbn [lo hi] in H. rewrite <- H. unfold atom_num. destruct e as [u| | |]; try reflexivity. destruct (q_int _ _ u); reflexivity.
    + destruct e as [u| | |]; try (rewrite fmatch_none; auto; [discriminate|intros u X; discriminate]). destruct (isF64 u) eqn:Fu.
      * f_equal. rewrite scan_map. apply scan_eq. intros z Hz. rewrite Forall_forall in R. specialize (R z Hz). apply bool_eq_iff. rewrite EQH_atoms; auto; [|apply cv_okh; auto; apply vof_plain; auto; discriminate].
        destruct (cv_ok EF64 z R) as (_&-> &_). cbn [vof]. apply feq_den; [apply raw_number_word; auto|]. destruct E as [E _]. apply f_raw; auto. apply oatom_ok; auto.
      * rewrite fmatch_none; auto; [discriminate|]. intros u' Q. injection Q as <-. eapply Forall_impl; [|exact R]. intros z Hz. left. cbn [vof]. intros D. assert (W := atom_word u E).
        destruct (den_cases u W) as [(X&_)|[(_&_&X)|(_&_&X)]]; [congruence| |]; rewrite <- D, (raw_f64_den z Hz) in X; destruct (is_nan z); discriminate.
    + pose proof (one_chr 8 EC8 q_c8 e raws ltac:(lia) ltac:(left; auto) ltac:(cbn; intros; lia)) as H. rewrite <- H; auto.
      * unfold atom_chr. destruct e as [u| | |]; try reflexivity. destruct (q_c8 u); reflexivity.
      * intros n Hn. apply c32_narrow. lia.
      * intros u Hu. apply not_true_is_false. intros Q. unfold q_c8, isC32, hasTag, shr64, shl64, u64, M64, C32_TAG in *. apply Z.eqb_eq in Q. apply Z.eqb_neq in Hu. apply Hu. apply div_case; [lia|]. rewrite Z.mod_small in Q by lia. lia.
    + pose proof (one_chr 16 EC16 q_c16 e raws ltac:(lia) ltac:(right; left; auto) ltac:(cbn; intros; lia)) as H. rewrite <- H; auto.
      * unfold atom_chr. destruct e as [u| | |]; try reflexivity. destruct (q_c16 u); reflexivity.
      * intros n Hn. apply c32_narrow. lia.
      * intros u Hu. apply not_true_is_false. intros Q. unfold q_c16, isC32, hasTag, shr64, shl64, u64, M64, C32_TAG in *. apply Z.eqb_eq in Q. apply Z.eqb_neq in Hu. apply Hu. apply div_case; [lia|]. rewrite Z.mod_small in Q by lia. lia.
    + pose proof (one_chr 32 EC32 isC32 e raws ltac:(lia) ltac:(right; right; auto) ltac:(cbn; intros; lia)) as H. rewrite <- H; auto.
      * unfold atom_chr. destruct e as [u| | |]; try reflexivity. destruct (isC32 u); reflexivity.
      * intros n Hn. destruct (c32_roundtrip n ltac:(lia)) as (_&C&_). split; [lia|auto].
  - destruct (elems_ok (HBox f sh l) eq_refl O) as (l'&E'&_&Ol&Ll). rewrite El in E'. apply Ok_inj in E'. subst l'.
    assert (wl = l). { unfold elems in El. apply mapM_inv in El. destruct El as [E1 E2]. apply nth_error_ext. intros i. destruct (Nat.lt_ge_cases i (length wl)) as [Li|Li].
      - destruct (E2 i i) as (b&G&N); [rewrite nth_error_seq' by lia; reflexivity|]. cbn [getH] in G. unfold rd in G. destruct (nth_error l i); try discriminate. congruence.
      - destruct Dw as [V _]. cbn [erase] in V. apply ovalid_box in V. destruct V as (_&V&_). rewrite map_length in V. unfold h_ia, h_shape in Ll. cbn [erase o_shape] in Ll. rewrite !(proj2 (nth_error_None _ _)); auto; lia. }
    subst wl. cbn [indexOfOne]. cbv zeta. rewrite Forall_forall in Ol.
    assert (G : scanM (fun a => equal (erase a) (erase e)) l = Ok (scan (fun a => EQH a e) l)) by (apply scanM_ok; intros a Ha; apply EQH_ok; auto).
    destruct e as [u| | |]; auto. destruct (isF64 u) eqn:Fu; auto. f_equal. apply scan_eq. intros a Ha. specialize (Ol a Ha). assert (Ru : raw_ok EF64 u) by (destruct E as [E _]; apply f_raw; auto; apply oatom_ok; auto).
    apply bool_eq_iff. destruct a as [v| | |]; [rewrite EQH_atoms by auto; apply feq_den; auto; apply Ol| | |];
      (split; [intros Q|rewrite (proj2 (EQH_ok _ _ Ol E)); intros [Q _]; discriminate]); exfalso; apply (feq_den ARRW) in Q; auto; try apply arrw_raw; destruct Q as [Q _]; rewrite (proj2 arrw_raw), (raw_f64_den u Ru) in Q; destruct (is_nan u); discriminate.
Qed.
