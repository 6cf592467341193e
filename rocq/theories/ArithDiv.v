From Verif Require Import Base.
From Coq Require Import List QArith Qabs Qround Lia Lqa ZArith.
From Verif Require Import BitsModel SqueezeModel SelectModel ArithModel ArithModel2.
Open Scope Q_scope.

(** far from the limits of the exponent *)
Definition mid (q : Q) : Prop := q == 0 \/ ((1 # 18446744073709551616) <= Qabs q /\ Qabs q <= 18446744073709551616).
(** fl has relative error at most u *)
Definition rel_err (u : Q) (fl : Q -> Q) : Prop := forall q, mid q -> Qabs (fl q - q) <= u * Qabs q.
Lemma mid_eq p q : p == q -> mid p -> mid q.
Proof. unfold mid. intros E H. rewrite <- E. exact H. Qed.
Lemma mid_pos q : (1 # 18446744073709551616) <= q -> q <= 18446744073709551616 -> mid q.
Proof. intros A B. right. rewrite Qabs_pos by lra. split; auto. Qed.
Lemma mid_neg q : (1 # 18446744073709551616) <= - q -> - q <= 18446744073709551616 -> mid q.
Proof. intros A B. right. rewrite Qabs_neg by lra. split; auto. Qed.
Lemma mid_sgn g q : (g = 1 \/ g = -1)%Z -> mid (inject_Z g * q) -> mid q.
Proof.
  intros G [H|H]; [left|right].
  - destruct G as [-> | ->]; [change (inject_Z 1) with 1 in H|change (inject_Z (-1)) with (-1) in H]; lra.
  - rewrite Qabs_Qmult in H. assert (Qabs (inject_Z g) == 1) as E by (destruct G as [-> | ->]; reflexivity). rewrite E in H. lra.
Qed.
Lemma mid_int z : (- 4294967296 <= z <= 4294967296)%Z -> mid (inject_Z z).
Proof.
  intros H. destruct (Z.eq_dec z 0) as [->|N]; [left; reflexivity|right]. assert (Qabs (inject_Z z) == inject_Z (Z.abs z)) as -> by reflexivity.
  assert (inject_Z 1 <= inject_Z (Z.abs z)) by (rewrite <- Zle_Qle; lia). assert (inject_Z (Z.abs z) <= inject_Z 4294967296) by (rewrite <- Zle_Qle; lia). change (inject_Z 1) with 1 in *. change (inject_Z 4294967296) with 4294967296 in *. lra.
Qed.
Lemma abs_le a b : Qabs a <= b <-> -b <= a /\ a <= b.
Proof. split; [apply Qabs_Qle_condition|]. intros [H1 H2]. apply Qabs_Qle_condition. split; auto. Qed.
Lemma floor_is q (n : Z) : inject_Z n <= q -> q < inject_Z (n + 1) -> Qfloor q = n.
Proof.
  intros A B. pose proof (Qfloor_le q) as L. pose proof (Qlt_floor q) as U.
  assert (inject_Z (Qfloor q) < inject_Z (n + 1)) as H1 by (eapply Qle_lt_trans; eauto). assert (inject_Z n < inject_Z (Qfloor q + 1)) as H2 by (eapply Qle_lt_trans; eauto).
  rewrite <- Zlt_Qlt in H1, H2. lia.
Qed.
(** the heart: with y = |x| and v = w times the sign of x; t approximates 1/y, p approximates v*t, o approximates t/2, s approximates p+o *)
Lemma div_core u y x0 t v p o s : 0 <= u -> u <= 1 # 1024 -> 1 <= y -> Qabs v * 16 * u + 16 * u < 1 ->
  Qabs (x0 - y) <= u * y -> Qabs (t * x0 - 1) <= u -> Qabs (p - v * t) <= u * Qabs (v * t) -> Qabs (o - (1 # 2) * t) <= u * ((1 # 2) * t) -> Qabs (s - (p + o)) <= u * Qabs (p + o) ->
  v < s * y /\ s * y < v + 1.
Proof.
  intros U0 U1 Y V X T P O S.
  apply abs_le in X. apply abs_le in T. 
  assert (X0 : 0 < x0) by nra. assert (T0 : 0 < t). { destruct (Qlt_le_dec 0 t); auto. exfalso. nra. }
  assert (TY : 1 - 2 * u <= t * y /\ t * y <= 1 + 3 * u).
  { split.
    - (* t*x0 <= t*(1+u)*y *) assert (t * x0 <= t * ((1 + u) * y)) by nra. assert ((1 - 2 * u) * (1 + u) <= (t * y) * (1 + u)) by nra. nra.
    - assert (t * ((1 - u) * y) <= t * x0) by nra. assert ((t * y) * (1 - u) <= (1 + 3 * u) * (1 - u)) by nra. nra. }
  set (z := t * y) in *. set (a := Qabs v) in *. assert (A0 : 0 <= a) by apply Qabs_nonneg. assert (AV : - a <= v /\ v <= a) by (apply abs_le; apply Qle_refl).
  rewrite Qabs_Qmult in P. fold a in P. rewrite (Qabs_pos t) in P by lra. apply abs_le in P. apply abs_le in O.
  assert (B : Qabs (p + o) <= (1 + u) * (a + (1 # 2)) * t). { apply abs_le. split; nra. }
  assert (S2 : Qabs (s - (p + o)) <= u * ((1 + u) * (a + (1 # 2)) * t)). { eapply Qle_trans; [exact S|]. rewrite (Qmult_comm u), (Qmult_comm u). apply Qmult_le_compat_r; auto. }
  apply abs_le in S2. clear S B.
  (* d = s - (v + 1/2) t *)
  assert (D : - ((3 # 1) * u * (a + (1 # 2)) * t) <= s - (v + (1 # 2)) * t /\ s - (v + (1 # 2)) * t <= (3 # 1) * u * (a + (1 # 2)) * t).
  { set (b := (a + (1 # 2)) * t). assert (B0 : 0 <= b) by (unfold b; nra). 
    assert (E : u * ((1 + u) * (a + (1 # 2)) * t) <= (2 # 1) * u * b). { assert (u * ((1 + u) * (a + (1 # 2)) * t) == u * (1 + u) * b) as -> by (unfold b; ring). assert (0 <= u * b) by nra. assert (u * (1 + u) * b <= u * 2 * b) by nra. lra. }
    assert (F : u * (a * t) + u * ((1 # 2) * t) == u * b) by (unfold b; ring). assert (G : (3 # 1) * u * (a + (1 # 2)) * t == (3 # 1) * u * b) by (unfold b; ring). rewrite G. split; lra. }
  assert (DY : - ((3 # 1) * u * (a + (1 # 2)) * z) <= s * y - (v + (1 # 2)) * z /\ s * y - (v + (1 # 2)) * z <= (3 # 1) * u * (a + (1 # 2)) * z).
  { destruct D as [D1 D2]. assert (Y0 : 0 <= y) by lra. apply (Qmult_le_compat_r _ _ y) in D1; auto. apply (Qmult_le_compat_r _ _ y) in D2; auto. unfold z. split; [eapply Qle_trans; [|eapply Qle_trans; [exact D1|]]|eapply Qle_trans; [|eapply Qle_trans; [exact D2|]]]; apply Qle_lteq; right; ring. }
  clear D P O S2 X T. clearbody z. 
  assert (K : (3 # 1) * u * (a + (1 # 2)) * z <= (4 # 1) * u * (a + (1 # 2))). { assert (0 <= u * (a + (1 # 2))) by nra. assert (z <= 4 # 3) by lra. nra. }
  assert (L : - ((3 # 1) * u * (a + (1 # 2))) <= (v + (1 # 2)) * (z - 1) /\ (v + (1 # 2)) * (z - 1) <= (3 # 1) * u * (a + (1 # 2))).
  { set (c := z - 1). assert (- ((3 # 1) * u) <= c /\ c <= (3 # 1) * u) by (unfold c; lra). assert (- (a + (1 # 2)) <= v + (1 # 2) /\ v + (1 # 2) <= a + (1 # 2)) by lra. clearbody c. split; nra. }
  assert (SY : s * y == (s * y - (v + (1 # 2)) * z) + (v + (1 # 2)) * (z - 1) + (v + (1 # 2))) by ring. set (sy := s * y) in *. clearbody sy. split; nra.
Qed.
Lemma fd_elem_ok u fl w x : rel_err u fl -> 0 <= u -> u <= 1 # 1024 -> x <> 0%Z -> (Z.abs x <= 4294967296)%Z -> (Z.abs w <= 4294967296)%Z -> inject_Z (Z.abs w) * 16 * u + 16 * u < 1 -> fd_elem fl x w = (w / x)%Z.
Proof.
  intros R U0 U1 X XB WB W. unfold fd_elem. set (X1 := fl (inject_Z x)). set (xr := fl (1 / X1)). set (o := fl ((1 # 2) * Qabs xr)). set (p := fl (inject_Z w * xr)). set (s := fl (p + o)).
  set (g := Z.sgn x). assert (G : (g = 1 \/ g = -1)%Z) by (unfold g; lia). assert (GG : inject_Z g * inject_Z g == 1) by (destruct G as [-> | ->]; reflexivity).
  set (y := Z.abs x). set (v := (g * w)%Z). assert (Y : (1 <= y)%Z) by (unfold y; lia).
  assert (YQ : 1 <= inject_Z y) by (change 1 with (inject_Z 1); rewrite <- Zle_Qle; exact Y).
  assert (GX : inject_Z g * inject_Z x == inject_Z y). { rewrite <- inject_Z_mult. unfold g, y. replace (Z.sgn x * x)%Z with (Z.abs x) by lia. reflexivity. }
  assert (AG : forall q, Qabs (inject_Z g * q) == Qabs q). { intros q. rewrite Qabs_Qmult. assert (Qabs (inject_Z g) == 1) as -> by (destruct G as [-> | ->]; reflexivity). ring. }
  assert (HX : Qabs (inject_Z g * X1 - inject_Z y) <= u * inject_Z y).
  { assert (inject_Z g * X1 - inject_Z y == inject_Z g * (X1 - inject_Z x)) as -> by (rewrite <- GX; ring). rewrite AG. eapply Qle_trans; [apply R; apply mid_int; lia|]. rewrite <- (AG (inject_Z x)), GX. rewrite (Qabs_pos (inject_Z y)) by lra. apply Qle_refl. }
  assert (X1n : ~ X1 == 0). { intros Z0. rewrite Z0 in HX. apply abs_le in HX. nra. }
  assert (YB : inject_Z y <= 4294967296) by (change 4294967296 with (inject_Z 4294967296); rewrite <- Zle_Qle; unfold y; lia).
  assert (X0b : (1 # 2) <= inject_Z g * X1 /\ inject_Z g * X1 <= 8589934592) by (apply abs_le in HX; split; nra).
  assert (M1 : mid (1 / X1)).
  { apply (mid_sgn g); auto. assert (E : inject_Z g * (1 / X1) == 1 / (inject_Z g * X1)). { destruct G as [E | E]; rewrite E; [change (inject_Z 1) with 1|change (inject_Z (-1)) with (-1)]; field; exact X1n. }
    apply (mid_eq _ _ (Qeq_sym _ _ E)). set (x0 := inject_Z g * X1) in *. assert (P0 : 0 < x0) by lra. assert (I0 : (1 / x0) * x0 == 1) by (field; lra). set (i0 := 1 / x0) in *. clearbody i0 x0. apply mid_pos; nra. }
  assert (HT : Qabs ((inject_Z g * xr) * (inject_Z g * X1) - 1) <= u).
  { assert ((inject_Z g * xr) * (inject_Z g * X1) - 1 == (xr - 1 / X1) * X1) as ->. { transitivity ((inject_Z g * inject_Z g) * (xr * X1) - 1); [ring|]. rewrite GG. field. exact X1n. }
    rewrite Qabs_Qmult. pose proof (R (1 / X1) M1) as H. fold xr in H. apply (Qmult_le_compat_r _ _ (Qabs X1)) in H; [|apply Qabs_nonneg]. eapply Qle_trans; [exact H|]. apply Qle_lteq. right.
    assert (Qabs (1 / X1) * Qabs X1 == 1) as E. { rewrite <- Qabs_Qmult. assert (1 / X1 * X1 == 1) as -> by (field; exact X1n). reflexivity. }
    rewrite <- Qmult_assoc, E. ring. }
  assert (TP : 0 < inject_Z g * xr). { apply abs_le in HX. apply abs_le in HT. assert (0 < inject_Z g * X1) by nra. set (t := inject_Z g * xr) in *. set (x0 := inject_Z g * X1) in *. clearbody t x0. destruct (Qlt_le_dec 0 t); auto. exfalso. nra. }
  assert (AT : Qabs xr == inject_Z g * xr) by (rewrite <- AG; apply Qabs_pos; lra).
  assert (TB : (1 # 17179869184) <= inject_Z g * xr /\ inject_Z g * xr <= 4).
  { apply abs_le in HT. set (t := inject_Z g * xr) in *. set (x0 := inject_Z g * X1) in *. clearbody t x0. split; nra. }
  assert (HP : Qabs (p - inject_Z v * (inject_Z g * xr)) <= u * Qabs (inject_Z v * (inject_Z g * xr))).
  { unfold v. rewrite inject_Z_mult. assert (inject_Z g * inject_Z w * (inject_Z g * xr) == inject_Z w * xr) as E. { transitivity ((inject_Z g * inject_Z g) * (inject_Z w * xr)); [ring|]. rewrite GG. ring. }
    rewrite E. apply R. destruct (Z.eq_dec w 0) as [->|W0]; [left; change (inject_Z 0) with 0; ring|]. right. rewrite Qabs_Qmult. rewrite AT. assert (Qabs (inject_Z w) == inject_Z (Z.abs w)) as -> by reflexivity.
    assert (inject_Z 1 <= inject_Z (Z.abs w)) by (rewrite <- Zle_Qle; lia). assert (inject_Z (Z.abs w) <= inject_Z 4294967296) by (rewrite <- Zle_Qle; lia). change (inject_Z 1) with 1 in *. change (inject_Z 4294967296) with 4294967296 in *. split; nra. }
  assert (HO : Qabs (o - (1 # 2) * (inject_Z g * xr)) <= u * ((1 # 2) * (inject_Z g * xr))).
  { assert (MO : mid ((1 # 2) * Qabs xr)). { apply (mid_eq ((1 # 2) * (inject_Z g * xr))); [rewrite AT; reflexivity|]. apply mid_pos; nra. }
    pose proof (R ((1 # 2) * Qabs xr) MO) as H. fold o in H. rewrite (Qabs_Qmult (1 # 2) (Qabs xr)) in H. rewrite AT in H. rewrite (Qabs_pos (inject_Z g * xr)) in H by lra. exact H. }
  assert (MS : mid (p + o)).
  { apply abs_le in HO. set (t := inject_Z g * xr) in *. rewrite Qabs_Qmult, (Qabs_pos t) in HP by lra. apply abs_le in HP. clearbody t. assert (VA : Qabs (inject_Z v) == inject_Z (Z.abs w)) by (unfold v; rewrite inject_Z_mult, AG; reflexivity).
    assert (WQ : inject_Z (Z.abs w) <= 4294967296) by (change 4294967296 with (inject_Z 4294967296); rewrite <- Zle_Qle; exact WB).
    destruct (Z_lt_ge_dec v 0) as [N|N].
    - assert (V1 : inject_Z v <= -1) by (change (-1) with (inject_Z (-1)); rewrite <- Zle_Qle; lia). rewrite (Qabs_neg (inject_Z v)) in HP, VA by lra. set (a := - inject_Z v) in *. assert (E : inject_Z v == - a) by (unfold a; ring). rewrite E in *. clearbody a. assert (MT : - a * t == - (a * t)) by ring. rewrite MT in HP. set (m := a * t) in *. assert (Ma : t <= m) by (unfold m; nra). assert (Mb : m <= 4294967296 * 4) by (unfold m; nra). assert (Mc : u * m <= (1 # 1024) * m) by nra. assert (Md : u * ((1 # 2) * t) <= (1 # 2048) * t) by nra. clearbody m. apply mid_neg; lra.
    - assert (V1 : 0 <= inject_Z v) by (change 0 with (inject_Z 0); rewrite <- Zle_Qle; lia). rewrite (Qabs_pos (inject_Z v)) in HP, VA by lra. set (a := inject_Z v) in *. clearbody a. set (m := a * t) in *. assert (Ma : 0 <= m) by (unfold m; nra). assert (Mb : m <= 4294967296 * 4) by (unfold m; nra). assert (Mc : u * m <= (1 # 1024) * m) by nra. assert (Md : u * ((1 # 2) * t) <= (1 # 2048) * t) by nra. clearbody m. apply mid_pos; lra. }
  destruct (div_core u (inject_Z y) (inject_Z g * X1) (inject_Z g * xr) (inject_Z v) p o s) as [C1 C2]; auto.
  - unfold v. rewrite inject_Z_mult, AG. assert (Qabs (inject_Z w) == inject_Z (Z.abs w)) as -> by reflexivity. exact W.
  - apply R; exact MS.
  - assert (DIV : (w / x = v / y)%Z). { unfold v, y, g. destruct (Z_lt_ge_dec x 0). - replace (Z.sgn x) with (-1)%Z by lia. rewrite Z.abs_neq by lia. rewrite <- Z.div_opp_opp by lia. f_equal; lia. - replace (Z.sgn x) with 1%Z by lia. rewrite Z.abs_eq by lia. f_equal; lia. }
    rewrite DIV. pose proof (Z.div_mod v y ltac:(lia)) as DM. pose proof (Z.mod_pos_bound v y ltac:(lia)) as MB. set (q := (v / y)%Z) in *.
    assert (L1 : inject_Z q * inject_Z y <= inject_Z v) by (rewrite <- inject_Z_mult, <- Zle_Qle; nia).
    assert (L2 : inject_Z v + 1 <= inject_Z (q + 1) * inject_Z y). { change 1 with (inject_Z 1). rewrite <- inject_Z_plus, <- inject_Z_mult, <- Zle_Qle. nia. }
    apply floor_is; [apply Qlt_le_weak|]; apply (Qmult_lt_r _ _ (inject_Z y)); lra.
Qed.
(** rounding of a quotient: integers up to 1/u are exact *)
Definition int_exact (u : Q) (fl : Q -> Q) : Prop := forall n q, q == inject_Z n -> inject_Z (Z.abs n) * u <= 1 -> fl q == q.
Lemma fdiv_elem_ok u fl w x : rel_err u fl -> int_exact u fl -> 0 < u -> u <= 1 # 1024 -> x <> 0%Z -> (Z.abs x <= 4294967296)%Z -> (Z.abs w <= 4294967296)%Z -> inject_Z (Z.abs w) * 16 * u < 1 -> fdiv_elem fl w x = (w / x)%Z.
Proof.
  intros R I U0 U1 X XB WB W. unfold fdiv_elem.
  assert (A0 : 0 <= inject_Z (Z.abs w)) by (change 0 with (inject_Z 0); rewrite <- Zle_Qle; lia).
  assert (EW : fl (inject_Z w) == inject_Z w). { apply (I w); [reflexivity|]. nra. }
  set (X1 := fl (inject_Z x)). set (g := Z.sgn x). assert (G : (g = 1 \/ g = -1)%Z) by (unfold g; lia). assert (GG : inject_Z g * inject_Z g == 1) by (destruct G as [-> | ->]; reflexivity).
  set (y := Z.abs x). set (v := (g * w)%Z). assert (Y : (1 <= y)%Z) by (unfold y; lia).
  assert (YQ : 1 <= inject_Z y) by (change 1 with (inject_Z 1); rewrite <- Zle_Qle; exact Y).
  assert (GX : inject_Z g * inject_Z x == inject_Z y). { rewrite <- inject_Z_mult. unfold g, y. replace (Z.sgn x * x)%Z with (Z.abs x) by lia. reflexivity. }
  assert (AG : forall q, Qabs (inject_Z g * q) == Qabs q). { intros q. rewrite Qabs_Qmult. assert (Qabs (inject_Z g) == 1) as -> by (destruct G as [-> | ->]; reflexivity). ring. }
  assert (HX : Qabs (inject_Z g * X1 - inject_Z y) <= u * inject_Z y).
  { assert (inject_Z g * X1 - inject_Z y == inject_Z g * (X1 - inject_Z x)) as -> by (rewrite <- GX; ring). rewrite AG. eapply Qle_trans; [apply R; apply mid_int; lia|]. rewrite <- (AG (inject_Z x)), GX. rewrite (Qabs_pos (inject_Z y)) by lra. apply Qle_refl. }
  set (x0 := inject_Z g * X1) in *. assert (X0p : 0 < x0) by (apply abs_le in HX; nra).
  assert (DIV : (w / x = v / y)%Z). { unfold v, y, g. destruct (Z_lt_ge_dec x 0). - replace (Z.sgn x) with (-1)%Z by lia. rewrite Z.abs_neq by lia. rewrite <- Z.div_opp_opp by lia. f_equal; lia. - replace (Z.sgn x) with 1%Z by lia. rewrite Z.abs_eq by lia. f_equal; lia. }
  assert (AV : inject_Z (Z.abs v) == inject_Z (Z.abs w)) by (unfold v; destruct G as [-> | ->]; apply inject_Z_injective; lia).
  set (c := fl (inject_Z w) / X1). assert (C : c == inject_Z v / x0).
  { unfold c. rewrite EW. unfold v, x0. rewrite inject_Z_mult. field. split; [|destruct G as [-> | ->]; discriminate]. intros Z0. unfold x0 in X0p. rewrite Z0 in X0p. ring_simplify in X0p. lra. }
  assert (MC : mid c).
  { apply (mid_eq _ _ (Qeq_sym _ _ C)). assert (YB : inject_Z y <= 4294967296) by (change 4294967296 with (inject_Z 4294967296); rewrite <- Zle_Qle; unfold y; lia).
    assert (X0b : (1 # 2) <= x0 /\ x0 <= 8589934592) by (apply abs_le in HX; split; nra). assert (WQ : inject_Z (Z.abs w) <= 4294967296) by (change 4294967296 with (inject_Z 4294967296); rewrite <- Zle_Qle; exact WB).
    assert (I0 : (inject_Z v / x0) * x0 == inject_Z v) by (field; lra). set (i0 := inject_Z v / x0) in *. clearbody i0.
    destruct (Z.eq_dec v 0) as [E|V0]; [left; rewrite E in I0; change (inject_Z 0) with 0 in I0; nra|].
    destruct (Z_lt_ge_dec v 0) as [N|N].
    - assert (V1 : inject_Z v <= -1) by (change (-1) with (inject_Z (-1)); rewrite <- Zle_Qle; lia). rewrite Z.abs_neq, inject_Z_opp in AV by lia. apply mid_neg; nra.
    - assert (V1 : 1 <= inject_Z v) by (change 1 with (inject_Z 1); rewrite <- Zle_Qle; lia). rewrite Z.abs_eq in AV by lia. apply mid_pos; nra. }
  pose proof (R c MC) as Rc. fold c.
  pose proof (Z.div_mod v y ltac:(lia)) as DM. pose proof (Z.mod_pos_bound v y ltac:(lia)) as MB. rewrite DIV. set (q := (v / y)%Z) in *.
  assert (A0v : 0 <= inject_Z (Z.abs v)) by lra. assert (VB : - inject_Z (Z.abs v) <= inject_Z v /\ inject_Z v <= inject_Z (Z.abs v)). { rewrite <- inject_Z_opp, <- !Zle_Qle. lia. }
  assert (Cx : c * x0 == inject_Z v) by (rewrite C; field; lra).
  destruct (Qlt_le_dec 1 (inject_Z y * u)) as [Big|Small].
  - (* the divisor is large: the quotient is between -1 and 1 *)
    assert (VY : inject_Z (Z.abs v) * 16 < inject_Z y) by nra.
    assert (VYZ : (Z.abs v * 16 < y)%Z) by (rewrite Zlt_Qlt, inject_Z_mult; exact VY).
    assert (X0b : inject_Z (Z.abs v) * 2 < x0 \/ v = 0%Z). { left. apply abs_le in HX. nra. }
    assert (Qz : q = if (v <? 0)%Z then (-1)%Z else 0%Z). { unfold q. destruct (Z.ltb_spec v 0). - symmetry. apply Z.div_unique with (v + y)%Z; lia. - apply Z.div_small. lia. }
    destruct (Z.ltb_spec v 0) as [N|N].
    + rewrite Qz. assert (inject_Z v <= -1) by (change (-1) with (inject_Z (-1)); rewrite <- Zle_Qle; lia). assert (Cn : c < 0) by nra. assert (Cb : - (1 # 2) <= c). { destruct X0b as [X0b|]; [|lia]. rewrite Z.abs_neq in X0b by lia. rewrite inject_Z_opp in X0b. nra. }
      rewrite (Qabs_neg c) in Rc by lra. apply abs_le in Rc. apply floor_is; [change (inject_Z (-1)) with (-1)|change (inject_Z (-1 + 1)) with 0]; nra.
    + rewrite Qz. assert (0 <= inject_Z v) by (change 0 with (inject_Z 0); rewrite <- Zle_Qle; lia). assert (Cn : 0 <= c) by nra. assert (Cb : c <= (1 # 2)). { destruct X0b as [X0b|X0b]; [rewrite Z.abs_eq in X0b by lia; nra|]. rewrite X0b in Cx. change (inject_Z 0) with 0 in Cx. nra. }
      rewrite (Qabs_pos c) in Rc by lra. apply abs_le in Rc. apply floor_is; [change (inject_Z 0) with 0|change (inject_Z (0 + 1)) with 1]; nra.
  - (* the divisor is exact *)
    assert (EX : x0 == inject_Z y). { unfold x0, X1. rewrite (I x (inject_Z x)) by (try reflexivity; exact Small). exact GX. }
    rewrite EX in Cx. assert (CA : Qabs c * inject_Z y == inject_Z (Z.abs v)). { rewrite <- (Qabs_pos (inject_Z y)) at 1 by lra. rewrite <- Qabs_Qmult, Cx. reflexivity. }
    assert (ER : - (1 # 16) < (fl c - c) * inject_Z y /\ (fl c - c) * inject_Z y < (1 # 16)).
    { apply abs_le in Rc. set (ac := Qabs c) in *. assert (0 <= ac) by apply Qabs_nonneg. set (e := fl c - c) in *. clearbody e ac. assert (u * ac * inject_Z y < 1 # 16) by nra. split; nra. }
    destruct (Z.eq_dec (v mod y) 0) as [M0|M0].
    + (* whole *)
      assert (Ec : c == inject_Z q). { assert (inject_Z v == inject_Z y * inject_Z q) as E by (rewrite <- inject_Z_mult; apply inject_Z_injective; lia). rewrite E in Cx. assert (c * inject_Z y == inject_Z q * inject_Z y) as E2 by (rewrite Cx; ring). apply Qmult_inj_r in E2; lra. }
      assert (Ef : fl c == inject_Z q). { rewrite <- Ec. apply (I q); auto. assert (inject_Z (Z.abs q) <= inject_Z (Z.abs v)) by (rewrite <- Zle_Qle; nia). nra. }
      apply floor_is; rewrite Ef; [apply Qle_refl|]. rewrite <- Zlt_Qlt. lia.
    + assert (L1 : inject_Z q * inject_Z y + 1 <= inject_Z v) by (change 1 with (inject_Z 1); rewrite <- inject_Z_mult, <- inject_Z_plus, <- Zle_Qle; nia).
      assert (L2 : inject_Z v + 1 <= inject_Z (q + 1) * inject_Z y). { change 1 with (inject_Z 1). rewrite <- inject_Z_plus, <- inject_Z_mult, <- Zle_Qle. nia. }
      assert (FS : fl c * inject_Z y == (fl c - c) * inject_Z y + inject_Z v) by (rewrite <- Cx; ring).
      apply floor_is; [apply Qlt_le_weak|]; apply (Qmult_lt_r _ _ (inject_Z y)); try lra.
Qed.
