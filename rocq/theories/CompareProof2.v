From Verif Require Import Base TagModel TagSpec TagProof NumSpec NumProof ArrSpec DataSpec SqueezeModel SqueezeSpec SqueezeProof CompareModel CompareSpec CompareProof.

Lemma G_atom_inv w : G (GAtom w) -> okatom w. Proof. intros H. inversion H; subst. split; auto. Qed.
Lemma G_arr_inv sh els : G (GArr sh els) -> Forall (fun n => 0 <= n) sh /\ Z.of_nat (length els) = prod sh /\ Forall G els.
Proof. intros H. inversion H; subst. auto. Qed.
Lemma G_els sh els x : G (GArr sh els) -> In x els -> G x.
Proof. intros H I. apply G_arr_inv in H. destruct H as (_&_&H). rewrite Forall_forall in H. auto. Qed.
Lemma cmp_atom_def a x : okatom a -> G x -> exists c, cmp_atom a x = Ok c.
Proof.
  intros A. induction x as [w|sh els IH] using gobj_ind'; intros X; cbn [cmp_atom].
  - apply G_atom_inv in X. rewrite cmp_atoms_eq by auto. eauto.
  - destruct els as [|x0 t]; eauto. inversion IH as [|? ? I0 _]; subst. destruct I0 as [c ->]; [eapply G_els; eauto; left; auto|]. cbn. eauto.
Qed.
Lemma atom_def a x : okatom a -> G x -> defd (GAtom a) x.
Proof. intros A X. unfold defd, cmp. cbn [compare]. destruct (cmp_atom_def a x A X) as [c E]. destruct x; rewrite E; reflexivity. Qed.
Lemma E1 a b : okatom a -> okatom b -> cmp (GAtom a) (GAtom b) = catom a b.
Proof. intros A B. unfold cmp. cbn [compare cmp_atom]. rewrite cmp_atoms_eq by auto. reflexivity. Qed.
Lemma E2 a sh : cmp (GAtom a) (GArr sh []) = 1. Proof. reflexivity. Qed.
Lemma E3 a sh x0 t : okatom a -> G x0 -> cmp (GAtom a) (GArr sh (x0 :: t)) = if cmp (GAtom a) x0 <=? 0 then -1 else 1.
Proof.
  intros A X. assert (D := atom_def a x0 A X). unfold defd in D. unfold cmp at 1. cbn [compare cmp_atom]. assert (E : compare (GAtom a) x0 = cmp_atom a x0) by (destruct x0; reflexivity).
  rewrite <- E, D. reflexivity.
Qed.
Lemma E4 b sh els : okatom b -> G (GArr sh els) -> cmp (GArr sh els) (GAtom b) = - cmp (GAtom b) (GArr sh els) /\ defd (GArr sh els) (GAtom b).
Proof.
  intros B X. destruct els as [|x0 t]. { split; reflexivity. }
  assert (X0 : G x0) by (eapply G_els; eauto; left; auto). rewrite E3 by auto. assert (D := atom_def b x0 B X0). unfold defd in D. assert (E : compare (GAtom b) x0 = cmp_atom b x0) by (destruct x0; reflexivity).
  rewrite E in D. assert (Q : compare (GArr sh (x0 :: t)) (GAtom b) = Ok (- (if cmp (GAtom b) x0 <=? 0 then -1 else 1))).
  { cbn [compare cmp_swapped]. rewrite D. cbn [bind]. destruct (cmp (GAtom b) x0 <=? 0); reflexivity. }
  assert (Q2 : cmp (GArr sh (x0 :: t)) (GAtom b) = - (if cmp (GAtom b) x0 <=? 0 then -1 else 1)) by (unfold cmp at 1; rewrite Q; reflexivity).
  split; [exact Q2|]. unfold defd. rewrite Q2. exact Q.
Qed.
Lemma prod_nonneg s : Forall (fun n => 0 <= n) s -> 0 <= prod s.
Proof. induction 1; cbn [prod fold_right]; [lia|]. apply Z.mul_nonneg_nonneg; auto. Qed.
Lemma prod_all_pos s : Forall (fun n => 0 <= n) s -> 0 < prod s -> Forall (fun n => 0 < n) s.
Proof. induction 1 as [|n s N F IH]; cbn [prod fold_right]; constructor; fold (prod s) in *; assert (Q := prod_nonneg s F); try nia. apply IH; nia. Qed.
Lemma prod_app a b : prod (a ++ b) = prod a * prod b.
Proof. unfold prod. induction a as [|x a IH]; cbn [app fold_right]; [lia|]. rewrite IH. ring. Qed.
Lemma prod_rev s : prod (rev s) = prod s.
Proof. induction s as [|x s IH]; auto. cbn [rev]. rewrite prod_app, IH. unfold prod. cbn [fold_right]. ring. Qed.
Definition empty {A} (l : list A) : bool := match l with [] => true | _ => false end.
Lemma E5 wsh wels xsh xels : G (GArr wsh wels) -> G (GArr xsh xels) -> (forall a b, In a wels -> In b xels -> defd a b) ->
  defd (GArr wsh wels) (GArr xsh xels) /\
  cmp (GArr wsh wels) (GArr xsh xels) =
    if empty wels then (if empty xels then lexc ICMP (rev wsh) (rev xsh) else -1)
    else if empty xels then 1 else lexc tokcmp (tokens wsh wels) (tokens xsh xels).
Proof.
  intros GW GX D. destruct (G_arr_inv _ _ GW) as (H1&H2&H3), (G_arr_inv _ _ GX) as (H7&H8&H9). unfold defd, cmp. rewrite compare_arr.
  assert (RC : snd (shape_cmp wsh xsh) = lexc ICMP (rev wsh) (rev xsh)) by (apply shape_rc; rewrite !rev_length; auto).
  destruct (shape_cmp wsh xsh) as [rm rc] eqn:SC. cbn [snd] in RC. cbv zeta.
  destruct wels as [|e r], xels as [|f s]; cbn [empty length Z.of_nat Z.eqb orb].
  - cbn. rewrite RC. auto.
  - cbn [ICMP b2z]. unfold ICMP, b2z. cbn. auto.
  - cbn. unfold ICMP, b2z. cbn. auto.
  - cbn [length] in H2, H8. assert (PW : Forall (fun n => 0 < n) (rev wsh)) by (apply Forall_rev, prod_all_pos; auto; lia). assert (PX : Forall (fun n => 0 < n) (rev xsh)) by (apply Forall_rev, prod_all_pos; auto; lia).
    assert (T := tk_lex (rev wsh) (rev xsh) 1 r s (ICMP (Z.of_nat (length wsh)) (Z.of_nat (length xsh))) PW PX ltac:(lia)). rewrite !prod_rev, !rev_length in T.
    specialize (T ltac:(lia) ltac:(lia) eq_refl ltac:(intros; apply D; right; auto)). unfold shape_cmp in SC. rewrite SC in T. destruct T as [T1 T2].
    cbn [orb]. cbn [go]. destruct (Z.leb_spec rm 0); [lia|]. fold (go rc). assert (D0 : defd e f) by (apply D; left; auto). unfold defd in D0. rewrite D0. cbn [bind tokens lexc tokcmp].
    destruct (Z.eqb_spec (cmp e f) 0); cbn [negb]; [rewrite T2|]; auto.
Qed.
Lemma compare_def w : forall x, G w -> G x -> defd w x.
Proof.
  induction w as [a|wsh wels IH] using gobj_ind'; intros x W X.
  - apply atom_def; auto. apply G_atom_inv; auto.
  - destruct x as [b|xsh xels]. + apply E4; auto. apply G_atom_inv; auto.
    + apply E5; auto. intros a b A B. rewrite Forall_forall in IH. exact (IH a A b (G_els _ _ _ W A) (G_els _ _ _ X B)).
Qed.
Lemma E5' wsh wels xsh xels : G (GArr wsh wels) -> G (GArr xsh xels) ->
  cmp (GArr wsh wels) (GArr xsh xels) =
    if empty wels then (if empty xels then lexc ICMP (rev wsh) (rev xsh) else -1)
    else if empty xels then 1 else lexc tokcmp (tokens wsh wels) (tokens xsh xels).
Proof.
  intros W X. apply E5; auto. intros a b A B. apply compare_def; [exact (G_els _ _ _ W A)|exact (G_els _ _ _ X B)].
Qed.
Lemma in_tk s : forall m els g, In (TEl g) (tk s m els) -> In g els.
Proof.
  induction s as [|n s IH]; intros m els g H; cbn [tk] in H.
  - destruct H as [H|[]]; discriminate.
  - apply in_app_or in H. destruct H as [H|[H|H]]; [|discriminate|].
    + apply in_map_iff in H as (y&E&H). injection E as ->. rewrite <- (firstn_skipn (Z.to_nat (m*n-m)) els). apply in_or_app; auto.
    + apply IH in H. rewrite <- (firstn_skipn (Z.to_nat (m*n-m)) els). apply in_or_app; auto.
Qed.
Lemma in_tokens sh els g : In (TEl g) (tokens sh els) -> In g els.
Proof. destruct els as [|e r]; cbn [tokens]; [intros []|]. intros [H|H]; [injection H as ->; left; auto|right; eapply in_tk; eauto]. Qed.

(** ** Antisymmetry and range *)
Lemma cmp_antisym w : forall x, G w -> G x -> cmp x w = - cmp w x.
Proof.
  induction w as [a|wsh wels IH] using gobj_ind'; intros x W X.
  - apply G_atom_inv in W. destruct x as [b|xsh xels].
    + apply G_atom_inv in X. rewrite !E1 by auto. apply catom_antisym.
    + apply E4; auto.
  - destruct x as [b|xsh xels].
    + apply G_atom_inv in X. destruct (E4 b wsh wels X W) as [-> _]. lia.
    + rewrite !E5' by auto. destruct wels as [|e r] eqn:EW, xels as [|f s] eqn:EX; cbn [empty]; try lia.
      * apply lexc_antisym. intros; apply ICMP_antisym.
      * rewrite <- EW, <- EX in *. apply lexc_antisym. intros t u T U. destruct t, u; cbn [tokcmp]; try apply ICMP_antisym.
        apply in_tokens in T, U. rewrite Forall_forall in IH. exact (IH _ T _ (G_els _ _ _ W T) (G_els _ _ _ X U)).
Qed.
Lemma cmp_range w : forall x, G w -> G x -> -1 <= cmp w x <= 1.
Proof.
  induction w as [a|wsh wels IH] using gobj_ind'; intros x W X.
  - apply G_atom_inv in W. destruct x as [b|xsh xels].
    + apply G_atom_inv in X. rewrite !E1 by auto. apply catom_range.
    + destruct xels; [rewrite E2; lia|]. rewrite E3 by (auto; eapply G_els; eauto; left; auto). destruct (_ <=? _); lia.
  - destruct x as [b|xsh xels].
    + apply G_atom_inv in X. destruct (E4 b wsh wels X W) as [-> _]. destruct wels; [rewrite E2; lia|]. rewrite E3 by (auto; eapply G_els; eauto; left; auto). destruct (_ <=? _); lia.
    + rewrite !E5' by auto. destruct wels as [|e r] eqn:EW, xels as [|f s] eqn:EX; cbn [empty]; try lia.
      * apply lexc_range. intros; apply ICMP_range.
      * rewrite <- EW, <- EX in *. apply lexc_range. intros t u T U. destruct t, u; cbn [tokcmp]; try apply ICMP_range.
        apply in_tokens in T, U. rewrite Forall_forall in IH. exact (IH _ T _ (G_els _ _ _ W T) (G_els _ _ _ X U)).
Qed.

(** ** Transitivity *)
Fixpoint gsize (g : gobj) : nat :=
  match g with GAtom _ => 1 | GArr _ els => S ((fix go (l : list gobj) : nat := match l with [] => 0%nat | x :: t => (gsize x + go t)%nat end) els) end.
Lemma gsize_in sh els x : In x els -> (gsize x < gsize (GArr sh els))%nat.
Proof. cbn [gsize]. induction els as [|y t IH]; intros []; [subst; lia|]. specialize (IH H). lia. Qed.
Lemma first_le sh e r sh' f s : G (GArr sh (e :: r)) -> G (GArr sh' (f :: s)) -> cmp (GArr sh (e :: r)) (GArr sh' (f :: s)) <= 0 -> cmp e f <= 0.
Proof. intros A B. rewrite E5' by auto. cbn [empty tokens lexc tokcmp]. destruct (Z.eqb_spec (cmp e f) 0); lia. Qed.
Lemma cmp_trans n : forall x y z, (gsize x + gsize y + gsize z <= n)%nat -> G x -> G y -> G z -> cmp x y <= 0 -> cmp y z <= 0 -> cmp x z <= 0.
Proof.
  induction n as [|n IH]; intros x y z SZ X Y Z. { destruct x; cbn in SZ; lia. }
  assert (GI : forall sh els e, G (GArr sh els) -> In e els -> G e) by (intros; eapply G_els; eauto).
  destruct x as [a|xsh xs], y as [b|ysh ys], z as [c|zsh zs].
  - apply G_atom_inv in X, Y, Z. rewrite !E1 by auto. apply catom_trans.
  - (* a b z *) assert (A := G_atom_inv _ X). assert (B := G_atom_inv _ Y). destruct zs as [|z0 t]; [rewrite !E2; lia|]. assert (Z0 := GI _ _ z0 Z (or_introl eq_refl)). rewrite !E3 by auto.
    assert (T := IH (GAtom a) (GAtom b) z0). assert (S0 := gsize_in zsh (z0 :: t) z0 (or_introl eq_refl)). specialize (T ltac:(lia) X Y Z0).
    intros H1 H2. destruct (Z.leb_spec (cmp (GAtom b) z0) 0); [|lia]. destruct (Z.leb_spec (cmp (GAtom a) z0) 0); lia.
  - (* a y c *) assert (A := G_atom_inv _ X). assert (C := G_atom_inv _ Z). destruct (E4 c ysh ys C Y) as [E _]. rewrite E. destruct ys as [|y0 t]; [rewrite !E2; lia|]. assert (Y0 := GI _ _ y0 Y (or_introl eq_refl)). rewrite !E3 by auto.
    assert (S0 := gsize_in ysh (y0 :: t) y0 (or_introl eq_refl)). assert (T := IH (GAtom a) y0 (GAtom c) ltac:(lia) X Y0 Z). rewrite (cmp_antisym (GAtom c) y0 Z Y0) in T.
    destruct (Z.leb_spec (cmp (GAtom a) y0) 0), (Z.leb_spec (cmp (GAtom c) y0) 0); lia.
  - (* a y z *) assert (A := G_atom_inv _ X). destruct ys as [|y0 t]; [rewrite E2; lia|]. assert (Y0 := GI _ _ y0 Y (or_introl eq_refl)).
    destruct zs as [|z0 u]. { intros _. rewrite E5' by auto. cbn [empty]. lia. } assert (Z0 := GI _ _ z0 Z (or_introl eq_refl)). rewrite !E3 by auto.
    intros H1 H2. apply first_le in H2; auto. assert (S1 := gsize_in ysh (y0 :: t) y0 (or_introl eq_refl)). assert (S2 := gsize_in zsh (z0 :: u) z0 (or_introl eq_refl)).
    assert (T := IH (GAtom a) y0 z0 ltac:(lia) X Y0 Z0). destruct (Z.leb_spec (cmp (GAtom a) y0) 0); [|lia]. destruct (Z.leb_spec (cmp (GAtom a) z0) 0); lia.
  - (* x b c *) assert (B := G_atom_inv _ Y). assert (C := G_atom_inv _ Z). destruct (E4 b xsh xs B X) as [E _]. rewrite E. destruct (E4 c xsh xs C X) as [E' _]. rewrite E'.
    destruct xs as [|x0 t]; [rewrite !E2; lia|]. assert (X0 := GI _ _ x0 X (or_introl eq_refl)). rewrite !E3 by auto.
    assert (S0 := gsize_in xsh (x0 :: t) x0 (or_introl eq_refl)). assert (T := IH (GAtom b) (GAtom c) x0 ltac:(lia) Y Z X0).
    destruct (Z.leb_spec (cmp (GAtom b) x0) 0), (Z.leb_spec (cmp (GAtom c) x0) 0); lia.
  - (* x b z *) assert (B := G_atom_inv _ Y). destruct (E4 b xsh xs B X) as [E _]. rewrite E.
    destruct zs as [|z0 u]; [rewrite E2; lia|]. assert (Z0 := GI _ _ z0 Z (or_introl eq_refl)). rewrite E5' by auto. destruct xs as [|x0 t]; cbn [empty]; [lia|]. assert (X0 := GI _ _ x0 X (or_introl eq_refl)).
    rewrite !E3 by auto. assert (S1 := gsize_in xsh (x0 :: t) x0 (or_introl eq_refl)). assert (S2 := gsize_in zsh (z0 :: u) z0 (or_introl eq_refl)).
    assert (T := IH (GAtom b) z0 x0 ltac:(lia) Y Z0 X0). rewrite (cmp_antisym x0 z0 X0 Z0) in T. cbn [tokens lexc tokcmp].
    destruct (Z.leb_spec (cmp (GAtom b) x0) 0), (Z.leb_spec (cmp (GAtom b) z0) 0), (Z.eqb_spec (cmp x0 z0) 0); try lia.
  - (* x y c *) assert (C := G_atom_inv _ Z). destruct (E4 c xsh xs C X) as [E _]. rewrite E. destruct (E4 c ysh ys C Y) as [E' _]. rewrite E'.
    destruct xs as [|x0 t]; [rewrite E2; lia|]. assert (X0 := GI _ _ x0 X (or_introl eq_refl)). destruct ys as [|y0 u]. { rewrite E5' by auto. cbn [empty]. lia. }
    assert (Y0 := GI _ _ y0 Y (or_introl eq_refl)). rewrite !E3 by auto. intros H1 H2. apply first_le in H1; auto.
    assert (S1 := gsize_in xsh (x0 :: t) x0 (or_introl eq_refl)). assert (S2 := gsize_in ysh (y0 :: u) y0 (or_introl eq_refl)).
    assert (T := IH (GAtom c) x0 y0 ltac:(lia) Z X0 Y0). destruct (Z.leb_spec (cmp (GAtom c) x0) 0), (Z.leb_spec (cmp (GAtom c) y0) 0); lia.
  - (* arrays *) rewrite !E5' by auto.
    destruct (empty xs) eqn:EX, (empty ys) eqn:EY, (empty zs) eqn:EZ; try lia.
    + apply lexc_trans; intros; try apply ICMP_antisym; rewrite ICMP_le in *; lia.
    + assert (MI : forall t, In t (tokens xsh xs) -> match t with TEl g => G g /\ (gsize g < gsize (GArr xsh xs))%nat | _ => True end).
      { intros [g| |] T; auto. apply in_tokens in T. split; [exact (GI _ _ _ X T)|apply gsize_in; exact T]. }
      assert (MJ : forall t, In t (tokens ysh ys) -> match t with TEl g => G g /\ (gsize g < gsize (GArr ysh ys))%nat | _ => True end).
      { intros [g| |] T; auto. apply in_tokens in T. split; [exact (GI _ _ _ Y T)|apply gsize_in; exact T]. }
      assert (MK : forall t, In t (tokens zsh zs) -> match t with TEl g => G g /\ (gsize g < gsize (GArr zsh zs))%nat | _ => True end).
      { intros [g| |] T; auto. apply in_tokens in T. split; [exact (GI _ _ _ Z T)|apply gsize_in; exact T]. }
      assert (AS : forall t u, match t with TEl g => G g | _ => True end -> match u with TEl g => G g | _ => True end -> tokcmp u t = - tokcmp t u).
      { intros [g| |] [h| |] T U; cbn [tokcmp]; try apply ICMP_antisym. apply cmp_antisym; auto. }
      assert (TR : forall t u v, match t with TEl g => G g /\ (gsize g < gsize (GArr xsh xs))%nat | _ => True end -> match u with TEl g => G g /\ (gsize g < gsize (GArr ysh ys))%nat | _ => True end -> match v with TEl g => G g /\ (gsize g < gsize (GArr zsh zs))%nat | _ => True end ->
         (tokcmp t u <= 0 -> tokcmp u v <= 0 -> tokcmp t v <= 0) /\ (tokcmp u v <= 0 -> tokcmp v t <= 0 -> tokcmp u t <= 0) /\ (tokcmp v t <= 0 -> tokcmp t u <= 0 -> tokcmp v u <= 0)).
      { intros [g| |] [h| |] [k| |] T U V; cbn [tokcmp tno]; try (rewrite ?ICMP_le; lia).
        destruct T, U, V. repeat apply conj; apply IH; auto; lia. }
      assert (GG : forall t (N : nat), match t with TEl g => G g /\ (gsize g < N)%nat | _ => True end -> match t with TEl g => G g | _ => True end) by (intros [g| |] ? H; tauto).
      apply lexc_trans.
      * intros a b A B. exact (AS a b (GG _ _ (MI a A)) (GG _ _ (MJ b B))).
      * intros a b A B. exact (AS a b (GG _ _ (MJ a A)) (GG _ _ (MK b B))).
      * intros a b A B. exact (AS a b (GG _ _ (MI a A)) (GG _ _ (MK b B))).
      * intros t u v A B C. destruct (TR t u v (MI t A) (MJ u B) (MK v C)) as (T1&T2&T3); auto.
      * intros t u v A B C. destruct (TR t u v (MI t A) (MJ u B) (MK v C)) as (T1&T2&T3); auto.
      * intros t u v A B C. destruct (TR t u v (MI t A) (MJ u B) (MK v C)) as (T1&T2&T3); auto.
Qed.

(** ** Zero means the same data *)
Lemma shape_loop_same s : forall m rc, shape_loop s s m rc = (m * prod s, rc).
Proof. induction s as [|n s IH]; intros m rc; cbn [shape_loop prod fold_right]; [f_equal; lia|]. rewrite Z.eqb_refl, IH. f_equal. fold (prod s). ring. Qed.
Lemma lexc_ICMP_0 l l' : lexc ICMP l l' = 0 -> l = l'.
Proof. intros H. apply lexc_0 in H. induction H; auto. apply (proj1 (ICMP_0 _ _)) in H. congruence. Qed.
Lemma go_rc rc l1 : forall l2 n, (forall a b, In a l1 -> In b l2 -> defd a b) -> go rc l1 l2 n = Ok 0 -> rc = 0.
Proof.
  induction l1 as [|a l1 IH]; intros l2 n D; cbn [go]; destruct (n <=? 0); try congruence.
  destruct l2 as [|b l2]; [discriminate|]. fold (go rc). assert (E : defd a b) by (apply D; left; auto). unfold defd in E. rewrite E. cbn [bind].
  destruct (Z.eqb_spec (cmp a b) 0); cbn [negb]; [|congruence]. apply IH. intros; apply D; right; auto.
Qed.
Lemma same_shape sh els els' : G (GArr sh els) -> G (GArr sh els') -> cmp (GArr sh els) (GArr sh els') = lexc cmp els els'.
Proof.
  intros A B. assert (DD : forall a b, In a els -> In b els' -> defd a b) by (intros; apply compare_def; eauto using G_els).
  assert (D := compare_def _ _ A B). unfold defd in D. rewrite compare_arr in D. unfold shape_cmp in D. rewrite shape_loop_same, ICMP_refl, prod_rev in D.
  destruct (G_arr_inv _ _ A) as (_&LA&_), (G_arr_inv _ _ B) as (_&LB&_). assert (L : length els = length els') by lia. rewrite L in D. rewrite orb_diag, ICMP_refl in D. cbn [Z.eqb negb] in D. cbv zeta in D.
  destruct (Z.eqb_spec (Z.of_nat (length els')) 0).
  - destruct els, els'; cbn in *; try lia. congruence.
  - replace (1 * prod sh) with (Z.of_nat (length els) + 0) in D by lia. rewrite <- (app_nil_r els), <- (app_nil_r els') in D at 1. rewrite (go_split 0 0) in D by (auto; lia). cbv zeta in D. rewrite go_0 in D.
    destruct (Z.eqb_spec (lexc cmp els els') 0); congruence.
Qed.
Lemma cmp_0 w : forall x, G w -> G x -> (cmp w x = 0 <-> gden w = gden x).
Proof.
  induction w as [a|wsh wels IH] using gobj_ind'; intros x W X.
  - apply G_atom_inv in W. destruct x as [b|xsh xels]; cbn [gden].
    + apply G_atom_inv in X. rewrite E1 by auto. rewrite catom_0 by auto. split; congruence.
    + split; [|discriminate]. destruct xels as [|x0 t]; [rewrite E2; lia|]. rewrite E3 by (auto; eapply G_els; eauto; left; auto). destruct (_ <=? _); lia.
  - destruct x as [b|xsh xels]; cbn [gden].
    + split; [|discriminate]. apply G_atom_inv in X. destruct (E4 b wsh wels X W) as [-> _]. destruct wels as [|x0 t]; [rewrite E2; lia|]. rewrite E3 by (auto; eapply G_els; eauto; left; auto). destruct (_ <=? _); lia.
    + assert (DD : forall a b, In a wels -> In b xels -> defd a b) by (intros; apply compare_def; eauto using G_els).
      assert (SH : cmp (GArr wsh wels) (GArr xsh xels) = 0 -> wsh = xsh).
      { intros Z. rewrite E5' in Z by auto. assert (Q : rev wsh = rev xsh); [|apply (f_equal (@rev BinNums.Z)) in Q; rewrite !rev_involutive in Q; exact Q].
        destruct (empty wels) eqn:EW, (empty xels) eqn:EX; try lia. - apply lexc_ICMP_0; auto.
        - assert (D := compare_def _ _ W X). unfold defd in D. rewrite E5' in D by auto. rewrite EW, EX, Z in D. rewrite compare_arr in D. unfold shape_cmp in D.
          assert (RC := shape_rc (rev wsh) (rev xsh) 1 (ICMP (Z.of_nat (length wsh)) (Z.of_nat (length xsh))) ltac:(rewrite !rev_length; auto)).
          destruct (shape_loop _ _ _ _) as [rm rc]. cbn [snd] in RC. cbv zeta in D. apply lexc_ICMP_0. rewrite <- RC.
          destruct ((_ =? 0) || (_ =? 0)) eqn:Q. { destruct wels, xels; cbn in *; try discriminate. } apply go_rc in D; auto. }
      assert (EL : forall l l', Forall (fun w => forall x, G w -> G x -> (cmp w x = 0 <-> gden w = gden x)) l -> Forall G l -> Forall G l' -> (lexc cmp l l' = 0 <-> map gden l = map gden l')).
      { clear. induction l as [|a l IHl]; intros [|b l'] H A B; cbn [lexc map]; try (split; intros; (discriminate || lia)). - split; auto.
        - inversion H as [|? ? Ha Hl]; inversion A as [|? ? Aa Al]; inversion B as [|? ? Ba Bl]; subst. assert (Q := Ha b Aa Ba). destruct (Z.eqb_spec (cmp a b) 0) as [e|ne].
          + rewrite IHl by auto. apply Q in e. split; intros; congruence.
          + split; [lia|]. intros E. injection E as E _. tauto. }
      destruct (G_arr_inv _ _ W) as (_&_&GW), (G_arr_inv _ _ X) as (_&_&GX). split.
      * intros Z. assert (S := SH Z). subst xsh. rewrite same_shape in Z by auto. apply EL in Z; auto. congruence.
      * intros E. injection E as E0 E1. subst xsh. rewrite same_shape by auto. apply EL; auto.
Qed.
