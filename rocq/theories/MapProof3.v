(** Each with two arguments: all the ways the loops run. *)
From Verif Require Import Base SqueezeModel TransSpec JoinProof JoinProof4 JoinProof2 MapModel MapSpec MapProof MapProof2.
Open Scope nat_scope.
Section P.
Context {V S : Type}.
Lemma arr_ar (a : arg V) : fst (arr_of a) <> [] -> a = Ar (fst (arr_of a)) (snd (arr_of a)).
Proof. destruct a; cbn [arr_of fst snd]; [congruence|reflexivity]. Qed.
Lemma nth_lt {A} (l : list A) i a : nth_error l i = Some a -> i < length l.
Proof. intros H. apply nth_error_Some. rewrite H. discriminate. Qed.
Lemma one_elem {A} (l : list A) i a : length l = 1 -> nth_error l i = Some a -> nth_error l 0 = Some a.
Proof. intros H E. pose proof (nth_lt _ _ _ E). replace i with 0 in E by lia. exact E. Qed.
(** 𝕨 has the larger or the same rank *)
Lemma eachd_w zero ow ox (f : op2 V S) (w x : arg V) t s : fst (arr_of w) = fst (arr_of x) ++ t -> valid_arg w -> valid_arg x ->
  eachd_fn zero ow ox f w x s = shaped (fst (arr_of w)) (calls (do2 f) (pairs_of (snd (arr_of w)) (snd (arr_of x)) 1 (size t)) s).
Proof.
  intros E Vw Vx. destruct (unit_of_ok w Vw) as (w'&Uw&Sw&Iw&Gw&Cw). destruct (unit_of_ok x Vx) as (x'&Ux&Sx&Ix&Gx&Cx).
  unfold valid_arg, array in Vw, Vx. unfold eachd_fn. rewrite Uw. cbn [bind]. rewrite Ux. cbn [bind]. cbn zeta.
  pose proof (arr_ar w) as Aw. pose proof (arr_ar x) as Ax.
  destruct (arr_of w) as [wsh wd], (arr_of x) as [xsh xd]. cbn [fst snd] in *. subst wsh. rewrite app_length.
  assert (E1 : length wd * 1 = length xd * size t) by (rewrite Vw, Vx, size_app; lia). set (ps := pairs_of wd xd 1 (size t)).
  assert (L : length ps = length wd) by (unfold ps; rewrite pairs_len by exact E1; lia).
  assert (PN : forall n p, nth_error ps n = Some p -> nth_error wd n = Some (fst p) /\ nth_error xd (n / size t) = Some (snd p)).
  { intros n [a b] H. apply pairs_nth in H; [|exact E1]. rewrite Nat.div_1_r in H. exact H. }
  destruct (Nat.ltb_spec (length xsh) (length xsh + length t)) as [LT|GE].
  - assert (NE : length xsh + length t <> 0) by lia. rewrite (proj2 (Nat.eqb_neq _ _) NE).
    assert (NW : xsh ++ t <> []) by (destruct xsh, t; cbn in *; try lia; discriminate). specialize (Cw NW). specialize (Aw NW). subst w'. rewrite Sx. rewrite Aw. cbn [sh_of].
    replace (eqShPart (xsh ++ t) xsh (length xsh)) with true
      by (symmetry; apply eqShPart_iff; [rewrite app_length; lia|lia|]; rewrite firstn_app, firstn_all, Nat.sub_diag; cbn [firstn]; apply app_nil_r).
    cbn [negb]. rewrite andb_false_r. rewrite Nat.eqb_refl. rewrite (proj2 (Nat.eqb_neq (length xsh + length t) (length xsh))) by lia. cbn [andb orb]. rewrite orb_false_r.
    destruct (Nat.eqb_spec (length xsh) 0) as [X0|X0].
    + assert (X1 : length xd = 1) by (destruct xsh; [exact Vx|discriminate]).
      destruct xd as [|xv [|]]; cbn [length] in X1; try lia. rewrite (Gx 0 xv eq_refl). cbn [bind].
      assert (PX : forall n p, nth_error ps n = Some p -> snd p = xv).
      { intros n p H. destruct (PN n p H) as [_ H2]. apply one_elem in H2; [|reflexivity]. injection H2. auto. }
      destruct ow; cbn [andb].
      * rewrite shaped_bind. f_equal. destruct (Nat.eqb_spec (length wd) 0) as [D0|D0].
        { destruct ps; [destruct wd; [reflexivity|discriminate]|cbn [length] in L; lia]. }
        apply (inplace_all zero (do2 f) ps wd); [lia..|]. intros j p v Hp Hv s0. destruct (PN j p Hp) as [H1 _]. rewrite Hv in H1. injection H1 as ->. rewrite <- (PX j p Hp). destruct f; reflexivity.
      * cbn [ia_of sh_of]. destruct (Nat.eqb_spec (length wd) 0) as [D0|D0]; [destruct ps; [reflexivity|cbn [length] in L; lia]|].
        assert (C : (do (r, s0) <- collect (length wd) 0 (fun i s0 => do w <- get (Ar (xsh ++ t) wd) i; call2 f w xv s0) s; Ok (Ar (xsh ++ t) r, s0)) = shaped (xsh ++ t) (calls (do2 f) ps s)).
        { rewrite shaped_bind. f_equal. rewrite <- L. apply collect_calls. intros j p Hp s0. cbn [Nat.add get]. rewrite (rd_nth _ _ _ (proj1 (PN j p Hp))). cbn [bind]. rewrite <- (PX j p Hp). destruct f; reflexivity. }
        destruct f as [g| |c]; [exact C|exact C|]. rewrite (const_calls c ps) by reflexivity. cbn [shaped]. rewrite L. reflexivity.
    + assert (NX : xsh <> []) by (destruct xsh; [cbn in X0; lia|discriminate]). specialize (Cx NX). specialize (Ax NX). subst x'. rewrite Ax. rewrite andb_false_r. cbn [ia_of sh_of].
      destruct (Nat.eqb_spec (length wd) 0) as [D0|D0]; [destruct ps; [reflexivity|cbn [length] in L; lia]|].
      assert (T0 : size t <> 0) by (intros T; rewrite T in E1; lia).
      assert (C : (do (r, s0) <- nested (length xd) (length wd / length xd) 0 0 (fun i k s0 => do x <- get (Ar xsh xd) i; do w <- get (Ar (xsh ++ t) wd) k; call2 f w x s0) s; Ok (Ar (xsh ++ t) r, s0)) = shaped (xsh ++ t) (calls (do2 f) ps s)).
      { rewrite shaped_bind. f_equal. assert (D : length wd / length xd = size t).
        { replace (length wd) with (size t * length xd) by lia. apply Nat.div_mul. intros Z0. rewrite Z0 in E1. lia. }
        rewrite D. apply nested_calls; [lia|]. intros p q a Hq Hn s0. cbn [Nat.add get]. destruct (PN _ _ Hn) as [H1 H2].
        rewrite Nat.div_add_l in H2 by exact T0. rewrite Nat.div_small in H2 by exact Hq. rewrite Nat.add_0_r in H2.
        rewrite (rd_nth _ _ _ H2). cbn [bind]. rewrite (rd_nth _ _ _ H1). cbn [bind]. destruct f; reflexivity. }
      destruct f as [g| |c]; [exact C|exact C|]. rewrite (const_calls c ps) by reflexivity. cbn [shaped]. rewrite L. reflexivity.
  - assert (T : t = []) by (destruct t; [reflexivity|cbn [length] in GE; lia]). subst t. rewrite !app_nil_r in *. cbn [length]. rewrite !Nat.add_0_r. rewrite !Nat.eqb_refl.
    change (size []) with 1 in *.
    assert (PX : forall n p, nth_error ps n = Some p -> nth_error xd n = Some (snd p)) by (intros n p H; destruct (PN n p H) as [_ H2]; rewrite Nat.div_1_r in H2; exact H2).
    destruct (Nat.eqb_spec (length xsh) 0) as [X0|X0].
    + assert (xsh = []) by (destruct xsh; [reflexivity|discriminate]). clear Sw Sx. subst xsh. change (size []) with 1 in *.
      destruct wd as [|wv [|]]; cbn [length] in Vw; try lia. destruct xd as [|xv [|]]; cbn [length] in Vx; try lia.
      rewrite (Gw 0 wv eq_refl), (Gx 0 xv eq_refl). cbn [bind]. unfold ps, pairs_of. cbn [flat_map repeat app combine calls].
      replace (call2 f wv xv s) with (do2 f (wv, xv) s) by (destruct f; reflexivity). destruct (do2 f (wv, xv) s) as [[r s1]| |]; reflexivity.
    + assert (NX : xsh <> []) by (destruct xsh; [cbn in X0; lia|discriminate]). specialize (Cx NX). specialize (Ax NX). specialize (Cw NX). specialize (Aw NX). subst x' w'. rewrite Ax, Aw. cbn [sh_of].
      replace (eqShPart xsh xsh (length xsh)) with true by (symmetry; apply eqShPart_iff; [lia|lia|reflexivity]). cbn [negb andb orb]. rewrite andb_true_r.
      destruct ow; cbn [orb].
      * rewrite shaped_bind. f_equal. destruct (Nat.eqb_spec (length wd) 0) as [D0|D0].
        { destruct ps; [destruct wd; [reflexivity|discriminate]|cbn [length] in L; lia]. }
        apply (inplace_all zero (do2 f) ps wd); [lia..|]. intros j p v Hp Hv s0. destruct (PN j p Hp) as [H1 _]. rewrite Hv in H1. injection H1 as ->.
        cbn [get]. rewrite (rd_nth _ _ _ (PX j p Hp)). cbn [bind]. destruct f; reflexivity.
      * destruct ox.
        -- rewrite shaped_bind. f_equal. destruct (Nat.eqb_spec (length xd) 0) as [D0|D0].
           { destruct ps; [destruct xd; [reflexivity|discriminate]|cbn [length] in L; lia]. }
           apply (inplace_all zero (do2 f) ps xd); [lia..|]. intros j p v Hp Hv s0. pose proof (PX j p Hp) as H1. rewrite Hv in H1. injection H1 as ->.
           cbn [get]. rewrite (rd_nth _ _ _ (proj1 (PN j p Hp))). cbn [bind]. destruct f; reflexivity.
        -- cbn [ia_of sh_of]. destruct (Nat.eqb_spec (length xd) 0) as [D0|D0]; [destruct ps; [reflexivity|cbn [length] in L; lia]|].
           assert (L2 : length xd = length ps) by lia.
           assert (C : (do (r, s0) <- collect (length xd) 0 (fun i s0 => do w <- get (Ar xsh wd) i; do x <- get (Ar xsh xd) i; call2 f w x s0) s; Ok (Ar xsh r, s0)) = shaped xsh (calls (do2 f) ps s)).
           { rewrite shaped_bind. f_equal. rewrite L2. apply collect_calls. intros j p Hp s0. cbn [Nat.add get]. rewrite (rd_nth _ _ _ (proj1 (PN j p Hp))). cbn [bind]. rewrite (rd_nth _ _ _ (PX j p Hp)). destruct f; reflexivity. }
           destruct f as [g| |c]; [exact C|exact C|]. rewrite (const_calls c ps) by reflexivity. cbn [shaped]. rewrite L2. reflexivity.
Qed.
(** 𝕩 has the larger rank *)
Lemma eachd_x zero ow ox (f : op2 V S) (w x : arg V) t s : t <> [] -> fst (arr_of x) = fst (arr_of w) ++ t -> valid_arg w -> valid_arg x ->
  eachd_fn zero ow ox f w x s = shaped (fst (arr_of x)) (calls (do2 f) (pairs_of (snd (arr_of w)) (snd (arr_of x)) (size t) 1) s).
Proof.
  intros TN E Vw Vx. destruct (unit_of_ok w Vw) as (w'&Uw&Sw&Iw&Gw&Cw). destruct (unit_of_ok x Vx) as (x'&Ux&Sx&Ix&Gx&Cx).
  unfold valid_arg, array in Vw, Vx. unfold eachd_fn. rewrite Uw. cbn [bind]. rewrite Ux. cbn [bind]. cbn zeta.
  pose proof (arr_ar w) as Aw. pose proof (arr_ar x) as Ax.
  destruct (arr_of w) as [wsh wd], (arr_of x) as [xsh xd]. cbn [fst snd] in *. subst xsh. rewrite app_length.
  assert (LT : 0 < length t) by (destruct t; [congruence|cbn [length]; lia]).
  assert (E1 : length wd * size t = length xd * 1) by (rewrite Vw, Vx, size_app; lia). set (ps := pairs_of wd xd (size t) 1).
  assert (L : length ps = length xd) by (unfold ps; rewrite pairs_len by exact E1; lia).
  assert (PN : forall n p, nth_error ps n = Some p -> nth_error wd (n / size t) = Some (fst p) /\ nth_error xd n = Some (snd p)).
  { intros n [a b] H. apply pairs_nth in H; [|exact E1]. rewrite Nat.div_1_r in H. exact H. }
  destruct (Nat.ltb_spec (length wsh + length t) (length wsh)) as [BAD|_]; [lia|].
  rewrite (proj2 (Nat.eqb_neq (length wsh + length t) 0)) by lia.
  assert (NW : wsh ++ t <> []) by (destruct wsh, t; cbn in *; try lia; discriminate). specialize (Cx NW). specialize (Ax NW). subst x'. rewrite Sw. rewrite Ax. cbn [sh_of].
  rewrite eqShPart_app. cbn [negb]. rewrite andb_false_r. rewrite Nat.eqb_refl. rewrite (proj2 (Nat.eqb_neq (length wsh + length t) (length wsh))) by lia. 
  rewrite (proj2 (Nat.eqb_neq (length wsh) (length wsh + length t))) by lia. cbn [andb orb].
  destruct (Nat.eqb_spec (length wsh) 0) as [X0|X0].
  + assert (X1 : length wd = 1) by (destruct wsh; [exact Vw|discriminate]).
    destruct wd as [|xv [|]]; cbn [length] in X1; try lia. rewrite (Gw 0 xv eq_refl). cbn [bind].
    assert (PX : forall n p, nth_error ps n = Some p -> fst p = xv).
    { intros n p H. destruct (PN n p H) as [H2 _]. apply one_elem in H2; [|reflexivity]. injection H2. auto. }
    destruct ox; cbn [andb].
    * rewrite shaped_bind. f_equal. destruct (Nat.eqb_spec (length xd) 0) as [D0|D0].
      { destruct ps; [destruct xd; [reflexivity|discriminate]|cbn [length] in L; lia]. }
      apply (inplace_all zero (do2 f) ps xd); [lia..|]. intros j p v Hp Hv s0. destruct (PN j p Hp) as [_ H1]. rewrite Hv in H1. injection H1 as ->. rewrite <- (PX j p Hp). destruct f; reflexivity.
    * cbn [ia_of sh_of]. destruct (Nat.eqb_spec (length xd) 0) as [D0|D0]; [destruct ps; [reflexivity|cbn [length] in L; lia]|].
      assert (C : (do (r, s0) <- collect (length xd) 0 (fun i s0 => do x <- get (Ar (wsh ++ t) xd) i; call2 f xv x s0) s; Ok (Ar (wsh ++ t) r, s0)) = shaped (wsh ++ t) (calls (do2 f) ps s)).
      { rewrite shaped_bind. f_equal. rewrite <- L. apply collect_calls. intros j p Hp s0. cbn [Nat.add get]. rewrite (rd_nth _ _ _ (proj2 (PN j p Hp))). cbn [bind]. rewrite <- (PX j p Hp). destruct f; reflexivity. }
      destruct f as [g| |c]; [exact C|exact C|]. rewrite (const_calls c ps) by reflexivity. cbn [shaped]. rewrite L. reflexivity.
  + assert (NX : wsh <> []) by (destruct wsh; [cbn in X0; lia|discriminate]). specialize (Cw NX). specialize (Aw NX). subst w'. rewrite Aw. rewrite andb_false_r. cbn [ia_of sh_of].
    destruct (Nat.eqb_spec (length xd) 0) as [D0|D0]; [destruct ps; [reflexivity|cbn [length] in L; lia]|].
    assert (T0 : size t <> 0) by (intros T; rewrite T in E1; lia).
    assert (C : (do (r, s0) <- nested (length wd) (length xd / length wd) 0 0 (fun i k s0 => do w <- get (Ar wsh wd) i; do x <- get (Ar (wsh ++ t) xd) k; call2 f w x s0) s; Ok (Ar (wsh ++ t) r, s0)) = shaped (wsh ++ t) (calls (do2 f) ps s)).
    { rewrite shaped_bind. f_equal. assert (D : length xd / length wd = size t).
      { replace (length xd) with (size t * length wd) by lia. apply Nat.div_mul. intros Z0. rewrite Z0 in E1. lia. }
      rewrite D. apply nested_calls; [lia|]. intros p q a Hq Hn s0. cbn [Nat.add get]. destruct (PN _ _ Hn) as [H2 H1].
      rewrite Nat.div_add_l in H2 by exact T0. rewrite Nat.div_small in H2 by exact Hq. rewrite Nat.add_0_r in H2.
      rewrite (rd_nth _ _ _ H2). cbn [bind]. rewrite (rd_nth _ _ _ H1). cbn [bind]. destruct f; reflexivity. }
    destruct f as [g| |c]; [exact C|exact C|]. rewrite (const_calls c ps) by reflexivity. cbn [shaped]. rewrite L. reflexivity.
Qed.
Theorem each2_ok zero ow ox (f : op2 V S) (w x : arg V) s : valid_arg w -> valid_arg x -> agree (fst (arr_of w)) (fst (arr_of x)) ->
  exists rsh ps, paired w x rsh ps /\ each_c2 zero ow ox f w x s = shaped rsh (calls (do2 f) ps s).
Proof.
  intros Vw Vx A.
  assert (H : exists rsh ps, paired w x rsh ps /\ eachd_fn zero ow ox f w x s = shaped rsh (calls (do2 f) ps s)).
  { destruct A as [[[|n t] E]|[t E]].
    - eexists _, _. rewrite app_nil_r in E. split; [apply (paired_w w x [])|apply (eachd_w zero ow ox f w x [])]; auto; rewrite app_nil_r; auto.
    - eexists _, _. split; [eapply paired_x|eapply eachd_x]; eauto. discriminate.
    - eexists _, _. split; [eapply paired_w|eapply eachd_w]; eauto. }
  destruct w as [wv|wsh wd]; [|exact H]. destruct x as [xv|xsh xd]; [|exact H].
  exists [], [(wv, xv)]. split; [exact (paired_w (At wv) (At xv) [] eq_refl Vw Vx)|]. cbn [each_c2 calls]. replace (call2 f wv xv s) with (do2 f (wv, xv) s) by (destruct f; reflexivity).
  destruct (do2 f (wv, xv) s) as [[r s1]| |]; reflexivity.
Qed.
Theorem each2_err zero ow ox (f : op2 V S) (w x : arg V) s : valid_arg w -> valid_arg x -> ~ agree (fst (arr_of w)) (fst (arr_of x)) -> each_c2 zero ow ox f w x s = Err.
Proof.
  intros Vw Vx A. assert (NW : fst (arr_of w) <> []) by (intros E; apply A; left; rewrite E; eexists; reflexivity).
  assert (NX : fst (arr_of x) <> []) by (intros E; apply A; right; rewrite E; eexists; reflexivity).
  destruct w as [wv|wsh wd]; [cbn in NW; congruence|]. destruct x as [xv|xsh xd]; [cbn in NX; congruence|]. cbn [each_c2 arr_of fst] in *. unfold eachd_fn.
  assert (Uw : unit_of (Ar wsh wd) = Ok (length wsh, Ar wsh wd)) by (destruct wsh; [congruence|reflexivity]).
  assert (Ux : unit_of (Ar xsh xd) = Ok (length xsh, Ar xsh xd)) by (destruct xsh; [congruence|reflexivity]). rewrite Uw. cbn [bind]. rewrite Ux. cbn [bind sh_of].
  assert (0 < length wsh) by (destruct wsh; [congruence|cbn [length]; lia]). assert (0 < length xsh) by (destruct xsh; [congruence|cbn [length]; lia]).
  destruct (Nat.ltb_spec (length xsh) (length wsh)) as [LT|GE]; rewrite !(proj2 (Nat.eqb_neq _ 0)) by lia; cbn [negb andb].
  - destruct (eqShPart wsh xsh (length xsh)) eqn:Q; [|reflexivity]. exfalso. apply eqShPart_iff in Q; [|lia..]. rewrite firstn_all in Q. apply A. right. exists (skipn (length xsh) wsh).
    rewrite <- Q at 1. symmetry. apply firstn_skipn.
  - destruct (eqShPart wsh xsh (length wsh)) eqn:Q; [|reflexivity]. exfalso. apply eqShPart_iff in Q; [|lia..]. rewrite firstn_all in Q. apply A. left. exists (skipn (length wsh) xsh).
    rewrite Q at 1. symmetry. apply firstn_skipn.
Qed.
End P.
