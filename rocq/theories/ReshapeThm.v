(** Reshape: theorems (C34, C38). *)
From Coq Require Import ZArith List Bool Lia Znumtheory.
Import ListNotations.
From Verif Require Import Base ListLib SqueezeModel SqueezeProof ReshapeModel ReshapeSpec ReshapeProof ReshapeProof2 ReshapeProof3.
Open Scope Z_scope.

(** The repetition that Reshape does when the result is longer than 𝕩, for bits, elements of 1 2 4 8 bytes, and other elements: whatever
    the new buffer held, every copy stays in bounds and does not overlap, and element i of the result is element i mod ≠𝕩. *)
Theorem C34_reshape_repeats : forall (B : Type) g (gb : Z -> B) nia x, wf_arr x -> 1 <= alen x < nia -> nia <= max_len x ->
  exists r, reshape_cycle g gb nia x = Ok r /\
    match x, r with
    | ABit l, ABit l' => repeats nia l l'
    | ATyp k l, ATyp k' l' => k' = k /\ repeats nia l l'
    | ABox l, ABox l' => repeats nia l l'
    | _, _ => False
    end.
Proof. intros. apply reshape_cycle_ok; assumption. Qed.
Print Assumptions C34_reshape_repeats.
(** longer results, and an empty 𝕩, are errors *)
Theorem C34_reshape_repeats_error : forall (B : Type) g (gb : Z -> B) nia x, alen x = 0 \/ (0 < alen x /\ max_len x < nia) -> reshape_cycle g gb nia x = Err.
Proof.
  intros B g gb nia x [E|[H0 H]]; unfold reshape_cycle. { rewrite E. reflexivity. }
  destruct (Z.eqb_spec (alen x) 0); [reflexivity|]. destruct x as [l|k l|l]; cbn [max_len] in H.
  - unfold cycle_bits. destruct (Z.ltb_spec (2^32-66) nia); [reflexivity|lia].
  - unfold cycle_typ. destruct (Z.leb_spec (2^32-1) nia); [reflexivity|lia].
  - unfold cycle_box. change (2^31/8) with (2^28). destruct (Z.ltb_spec (2^28-1000) nia); [reflexivity|lia].
Qed.
Print Assumptions C34_reshape_repeats_error.
Example C34_reshape_repeats_ex : exists r, reshape_cycle (fun _ => true) (fun _ => 0) 70 (ABit [true; false; false]) = Ok (ABit r) /\ firstn 5 r = [true; false; false; true; false] /\ length r = 70%nat.
Proof. eexists. split; [vm_compute; reflexivity|]. split; reflexivity. Qed.
Example C34_reshape_repeats_ex2 : reshape_cycle (fun _ => true) (fun _ => 0) 7 (ATyp 1 [500; 65535; 3]) = Ok (ATyp 1 [500; 65535; 3; 500; 65535; 3; 500]).
Proof. vm_compute. reflexivity. Qed.

(** One element repeated: the smallest type that holds it is used, and every element reads back as it. *)
Theorem C34_reshape_one_int : forall g nia n, - 2 ^ 31 <= n < 2 ^ 31 -> 0 <= nia <= 2 ^ 29 - 1000 ->
  exists k m, one_num g nia (inl n) = Ok (k, m) /\ forall i, 0 <= i < nia -> val_at k m i = n.
Proof. intros. apply one_int_ok; auto. Qed.
Print Assumptions C34_reshape_one_int.
Theorem C34_reshape_one_float : forall g nia u, 0 <= u < 2 ^ 64 -> 0 <= nia <= 2 ^ 28 - 1000 ->
  exists m, one_num g nia (inr u) = Ok (KF, m) /\ forall i, 0 <= i < nia -> val_at KF m i = u.
Proof. intros g nia u H1 H2. destruct (one_flt_ok g nia u H1 H2) as [k [m [E [-> Q]]]]. exists m. auto. Qed.
Print Assumptions C34_reshape_one_float.
Theorem C34_reshape_one_char : forall g nia c, 0 <= c < 2 ^ 32 -> 0 <= nia <= 2 ^ 29 - 1000 ->
  exists k m, one_chr g nia c = Ok (k, m) /\ forall i, 0 <= i < nia -> val_at k m i = c.
Proof. intros. apply one_chr_ok; auto. Qed.
Print Assumptions C34_reshape_one_char.
Example C34_reshape_one_ex : exists k m, one_num (fun _ => false) 5 (inl (-300)) = Ok (k, m) /\ k = KI 1 /\ val_at k m 4 = -300.
Proof. eexists _, _. split; [reflexivity|]. split; vm_compute; reflexivity. Qed.

(** Shapes. *)
Definition given (ws : list axis) : Z := fold_right (fun a q => match a with Nat_ v => v * q | _ => q end) 1 ws.
Definition round_of (a : axis) : option rounding := match a with Atop => Some Exact | Floor => Some Down | Reverse | Take => Some Up | _ => None end.
Definition axes_ok (ws : list axis) : Prop := Forall (fun a => match a with Nat_ v => 0 <= v < 2 ^ 32 | _ => True end) ws.
Definition ax (a : axis) : Z := match a with Nat_ v => v | _ => 0 end.
(** The computed axis, if any, when it is ⌊ and the product of the others does not fit the size type: see C38_reshape_floor_refuted *)
Definition floor_overflows (ws : list axis) : Prop := In Floor ws /\ 2 ^ 32 <= given ws.

Definition inv (Q : Z) (xia : Z) (s : lst) : Prop :=
  l_nia s = Q mod 2 ^ 32 /\ 0 <= Q /\ (l_bad s = false -> Q < 2 ^ 32) /\ (l_bad s = true -> Q = 0 \/ 2 ^ 32 <= Q) /\
  (l_good s = true -> Q = 0 \/ (l_pos s <> None /\ (xia = 0 \/ l_id s = Floor))).
Lemma shape_loop_ok xia ws : forall i Q s t, axes_ok ws -> inv Q xia s -> length (l_sh s) = i ->
  shape_loop ws i xia s = Ok t ->
  inv (Q * given ws) xia t /\ l_sh t = l_sh s ++ map ax ws /\
  ((l_pos t = l_pos s /\ l_id t = l_id s /\ Forall (fun a => exists v, a = Nat_ v) ws) \/
   (l_pos s = None /\ exists a b, ws = a ++ l_id t :: b /\ l_pos t = Some (i + length a)%nat /\ is_prim (l_id t) = true /\
      Forall (fun a => exists v, a = Nat_ v) a /\ Forall (fun a => exists v, a = Nat_ v) b)).
Proof.
  induction ws as [|w ws IH]; intros i Q s t AX I Hi E.
  { cbn [shape_loop] in E. injection E as <-. cbn [given fold_right map]. rewrite Z.mul_1_r, app_nil_r. split; [exact I|]. split; [reflexivity|]. left. auto. }
  assert (AX2 : axes_ok ws) by (inversion AX; assumption). pose proof (Forall_inv AX) as A0. cbn beta in A0.
  destruct I as [I1 [I2 [I3 [I4 I5]]]].
  assert (PRIM : is_prim w = true -> l_pos s = None ->
    shape_loop ws (S i) xia {| l_nia := l_nia s; l_sh := l_sh s ++ [0]; l_pos := Some i; l_id := w; l_bad := l_bad s; l_good := l_good s || ((xia =? 0) || match w with Floor => true | _ => false end) |} = Ok t ->
    inv (Q * given (w :: ws)) xia t /\ l_sh t = l_sh s ++ map ax (w :: ws) /\
    ((l_pos t = l_pos s /\ l_id t = l_id s /\ Forall (fun a => exists v, a = Nat_ v) (w :: ws)) \/
     (l_pos s = None /\ exists a b, w :: ws = a ++ l_id t :: b /\ l_pos t = Some (i + length a)%nat /\ is_prim (l_id t) = true /\
      Forall (fun a => exists v, a = Nat_ v) a /\ Forall (fun a => exists v, a = Nat_ v) b))).
  { intros PW PN E2. destruct (fun A B => IH (S i) Q _ t AX2 A B E2) as [J1 [J2 J3]].
    - split; [exact I1|]. split; [exact I2|]. split; [exact I3|]. split; [exact I4|]. cbn [l_good l_pos l_id]. intros G.
      apply orb_true_iff in G as [G|G]. { destruct (I5 G) as [->|[X _]]; [left; reflexivity|contradiction]. }
      right. split; [discriminate|]. apply orb_true_iff in G as [G|G]; [left; apply Z.eqb_eq; exact G|right; destruct w; congruence].
    - cbn [l_sh]. rewrite app_length. cbn. lia.
    - cbn [l_sh l_pos l_id] in J2, J3.
      replace (given (w :: ws)) with (given ws) by (destruct w; try discriminate; reflexivity).
      split; [exact J1|]. split. { rewrite J2, <- app_assoc. destruct w; try discriminate; reflexivity. }
      right. split; [exact PN|]. destruct J3 as [[K1 [K2 K3]]|[K _]]; [|discriminate].
      exists [], ws. rewrite K1, K2. split; [reflexivity|]. split; [f_equal; cbn; lia|]. split; [exact PW|]. split; [constructor|exact K3]. }
  destruct w as [v| | | | | |]; cbn [shape_loop is_prim negb] in E; try discriminate; cbv zeta in E;
    try (destruct (l_pos s) eqn:EP; [discriminate|]; apply PRIM; [reflexivity|reflexivity|exact E]).
  destruct (fun A B => IH (S i) (Q * v) _ t AX2 A B E) as [J1 [J2 J3]].
  - cbn [l_nia l_bad l_good l_pos l_id]. split; [unfold to_u; rewrite I1, Z.mul_mod_idemp_l by lia; reflexivity|]. split; [nia|].
    assert (QM : 0 <= Q mod 2^32 <= Q) by (split; [apply Z.mod_pos_bound; lia|apply Z.mod_le; lia]).
    split.
    { intros B. apply orb_false_iff in B as [B1 B2]. apply Z.leb_gt in B2. specialize (I3 B1). rewrite I1, (Z.mod_small Q) in B2 by lia. exact B2. }
    split.
    { intros B. cbn [l_bad] in B. apply orb_true_iff in B as [B|B].
      - destruct (I4 B) as [->|L]; [left; reflexivity|]. destruct (Z.eq_dec v 0) as [->|Nv]; [left; lia|right; nia].
      - apply Z.leb_le in B. rewrite I1 in B. right. nia. }
    cbn [l_good l_pos l_id]. intros G. apply orb_true_iff in G as [G|G]. { destruct (I5 G) as [->|X]; [left; reflexivity|right; exact X]. } apply Z.eqb_eq in G. subst v. left. lia.
  - cbn [l_sh]. rewrite app_length. cbn. lia.
  - cbn [l_sh l_pos l_id] in J2, J3. cbn [given fold_right]. fold (given ws). rewrite Z.mul_assoc. split; [exact J1|].
    split. { rewrite J2, <- app_assoc. reflexivity. }
    destruct J3 as [[K1 [K2 K3]]|[K [a [b [K1 [K2 [K3 [K4 K5]]]]]]]].
    + left. split; [exact K1|]. split; [exact K2|]. constructor; [exists v; reflexivity|exact K3].
    + right. split; [exact K|]. exists (Nat_ v :: a), b. split; [rewrite K1 at 1; reflexivity|]. split; [rewrite K2; f_equal; cbn [length]; lia|]. split; [exact K3|]. split; [constructor; [exists v; reflexivity|exact K4]|exact K5].
Qed.
Lemma given_all ws : Forall (fun a => exists v, a = Nat_ v) ws -> product (map ax ws) = given ws.
Proof. induction 1 as [|a l [v ->] H IH]; [reflexivity|]. unfold product, given in *. cbn [map ax fold_right]. rewrite IH. reflexivity. Qed.
Lemma given_app a b : given (a ++ b) = given a * given b.
Proof. induction a as [|w a IH]; [unfold given at 2; cbn [app fold_right]; lia|]. change ((w :: a) ++ b) with (w :: (a ++ b)). unfold given in *. cbn [fold_right]. destruct w; rewrite IH; ring. Qed.
Lemma product_app a b : product (a ++ b) = product a * product b.
Proof. induction a as [|w a IH]; [unfold product at 2; cbn [app fold_right]; lia|]. unfold product in *. cbn [app fold_right]. rewrite IH. ring. Qed.
Lemma upd_middle {A} (a : list A) x y b : upd (a ++ x :: b) (length a) y = a ++ y :: b.
Proof. induction a; cbn [app length upd]; [reflexivity|]. rewrite IHa. reflexivity. Qed.
Lemma axis_rule_div q n : 0 < q -> 0 <= n -> axis_rule Down q n (n / q) /\ axis_rule Up q n (if negb (n mod q =? 0) then n / q + 1 else n / q) /\ (n mod q = 0 -> axis_rule Exact q n (n / q)).
Proof.
  intros Hq Hn. pose proof (Z.div_mod n q ltac:(lia)). pose proof (Z.mod_pos_bound n q ltac:(lia)). cbn [axis_rule]. split; [nia|]. split.
  - destruct (Z.eqb_spec (n mod q) 0); cbn [negb]; nia.
  - nia.
Qed.

(** The shape that Reshape computes, whenever it does not raise an error: the given axes are kept, the computed axis follows its rule,
    and the number of elements the result gets is the product of the shape and fits the size type. Left out: the case of
    C38_reshape_floor_refuted. *)
Theorem C34_reshape_shape : forall ws xia sh n fl, axes_ok ws -> 0 <= xia < 2 ^ 32 -> ~ floor_overflows ws ->
  shape_list ws xia = Ok (sh, n, fl) ->
  length sh = length ws /\ product sh = n /\ n < 2 ^ 32 /\
  (forall i v, nth_error ws i = Some (Nat_ v) -> nth_error sh i = Some v) /\
  (forall i a, nth_error ws i = Some a -> (forall v, a <> Nat_ v) -> exists rd c, round_of a = Some rd /\ nth_error sh i = Some c /\ 0 < given ws /\ axis_rule rd (given ws) xia c) /\
  (fl = true <-> In Take ws).
Proof.
  intros ws xia sh n fl AX Hx NF E. unfold shape_list in E.
  destruct (shape_loop ws 0 xia _) as [s| |] eqn:EL; cbn [bind] in E; try discriminate.
  destruct (fun A B => shape_loop_ok xia ws 0 1 _ s AX A B EL) as [[I1 [I2 [I3 [I4 I5]]]] [HS HP]].
  { split; [reflexivity|]. split; [lia|]. split; [lia|]. split; [discriminate|discriminate]. } { reflexivity. }
  rewrite Z.mul_1_l in *. cbn [l_sh] in HS. cbn [app] in HS.
  destruct (l_bad s && negb (l_good s)) eqn:BG; [discriminate|].
  destruct HP as [[PP [_ ALL]]|[_ [a [b [EW [PP [PR [FA FB]]]]]]]].
  - cbn [l_pos] in PP. rewrite PP in E.
    assert (H : sh = map ax ws /\ n = l_nia s /\ fl = false) by (inversion E; subst; auto). destruct H as [-> [-> ->]].
    rewrite map_length. split; [reflexivity|]. rewrite given_all by exact ALL.
    assert (QN : l_nia s = given ws).
    { rewrite I1. destruct (l_bad s) eqn:B.
      - cbn [andb] in BG. apply negb_false_iff in BG. destruct (I5 BG) as [->|[X _]]; [reflexivity|congruence].
      - apply Z.mod_small. split; [exact I2|]. apply I3. reflexivity. }
    split; [symmetry; exact QN|]. split; [rewrite I1; apply Z.mod_pos_bound; lia|].
    split. { intros i v H. rewrite nth_error_map, H. reflexivity. }
    split. { intros i w H NW. exfalso. rewrite Forall_forall in ALL. destruct (ALL w (nth_error_In _ _ H)) as [v ->]. exact (NW v eq_refl). }
    split; [discriminate|]. intros H. rewrite Forall_forall in ALL. destruct (ALL _ H) as [v X]. discriminate.
  - rewrite PP in E. destruct (is_computed (l_id s)) eqn:IC; cbn [negb] in E; [|discriminate].
    destruct (Z.eqb_spec (l_nia s) 0) as [|NZ]; [discriminate|].
    set (c := l_id s) in *. set (q := l_nia s) in *.
    assert (GV : given ws = given a * given b) by (rewrite EW, given_app; f_equal; change (c :: b) with ([c] ++ b); rewrite given_app; unfold given at 1; cbn [fold_right]; destruct c; try discriminate; lia).
    assert (MA : map ax ws = map ax a ++ 0 :: map ax b) by (rewrite EW, map_app; cbn [map]; f_equal; f_equal; destruct c; try discriminate; reflexivity).
    assert (PRODU : forall it, product (upd (l_sh s) (0 + length a) it) = it * given ws).
    { intros it. rewrite HS, MA. replace (0 + length a)%nat with (length (map ax a)) by (rewrite map_length; lia). rewrite upd_middle, product_app. change (product (it :: map ax b)) with (it * product (map ax b)). rewrite !given_all by assumption. rewrite GV. ring. }
    assert (POSQ : 0 <= q) by (rewrite I1; apply Z.mod_pos_bound; lia).
    (* either the product is exact or 𝕩 is empty *)
    assert (CASE : q = given ws \/ (xia = 0 /\ 0 < given ws)).
    { destruct (l_bad s) eqn:B.
      - cbn [andb] in BG. apply negb_false_iff in BG. destruct (I5 BG) as [X|[_ [X|X]]].
        + exfalso. apply NZ. rewrite I1, X. reflexivity.
        + right. split; [exact X|]. destruct (I4 eq_refl) as [Y|Y]; [exfalso; apply NZ; rewrite I1, Y; reflexivity|lia].
        + exfalso. destruct (I4 eq_refl) as [Y|Y]; [apply NZ; rewrite I1, Y; reflexivity|]. apply NF. split; [|exact Y]. rewrite EW. apply in_or_app. right. left. fold c in X. exact X.
      - left. rewrite I1. apply Z.mod_small. split; [exact I2|]. apply I3. reflexivity. }
    assert (GPOS : 0 < given ws) by (destruct CASE as [C|[_ C]]; lia).
    destruct (axis_rule_div q xia ltac:(lia) ltac:(lia)) as [RD [RU RE]].
    (* the item *)
    assert (EX : exists it rd, round_of c = Some rd /\ axis_rule rd q xia it /\ (sh, n, fl) = (upd (l_sh s) (0 + length a) it, q * it, match c with Take => true | _ => false end) /\ q * it < 2 ^ 32).
    { destruct c; try discriminate; cbn [bind] in E.
      - destruct (Z.eqb_spec (xia mod q) 0) as [M0|]; cbn [negb] in E; [|discriminate]. cbn [bind] in E. destruct (Z.leb_spec (2^32) (q * (xia/q))); [discriminate|]. exists (xia/q), Exact.
        split; [reflexivity|]. split; [apply RE; exact M0|]. split; [inversion E; subst; reflexivity|lia].
      - destruct (Z.leb_spec (2^32) (q * (xia/q))); [discriminate|]. exists (xia/q), Down. split; [reflexivity|]. split; [exact RD|]. split; [inversion E; subst; reflexivity|lia].
      - destruct (Z.leb_spec (2^32) (q * (if negb (xia mod q =? 0) then xia / q + 1 else xia / q))); [discriminate|]. eexists _, Up. split; [reflexivity|]. split; [exact RU|]. split; [inversion E; subst; reflexivity|lia].
      - destruct (Z.leb_spec (2^32) (q * (if negb (xia mod q =? 0) then xia / q + 1 else xia / q))); [discriminate|]. eexists _, Up. split; [reflexivity|]. split; [exact RU|]. split; [inversion E; subst; reflexivity|lia]. }
    destruct EX as [it [rd [RO [RL [EQ LT]]]]]. assert (H : sh = upd (l_sh s) (0 + length a) it /\ n = q * it /\ fl = match c with Take => true | _ => false end) by (inversion EQ; subst; auto).
    destruct H as [-> [-> ->]].
    assert (IT0 : xia = 0 -> it = 0) by (intros ->; destruct rd; cbn [axis_rule] in RL; nia).
    split; [rewrite upd_length, HS, map_length; reflexivity|].
    split. { rewrite PRODU. destruct CASE as [->|[X _]]; [ring|]. rewrite (IT0 X). ring. }
    split; [exact LT|].
    assert (SH : upd (l_sh s) (0 + length a) it = map ax a ++ it :: map ax b).
    { rewrite HS, MA. replace (0 + length a)%nat with (length (map ax a)) by (rewrite map_length; lia). apply upd_middle. }
    rewrite SH.
    assert (NTH : forall i w, nth_error ws i = Some w -> (i = length a /\ w = c) \/ (nth_error (map ax a ++ it :: map ax b) i = Some (ax w) /\ exists v, w = Nat_ v)).
    { intros i w H. rewrite EW in H. destruct (Nat.lt_trichotomy i (length a)) as [L|[->|L]].
      - right. rewrite nth_error_app1 in H by exact L. rewrite nth_error_app1 by (rewrite map_length; exact L). rewrite nth_error_map, H. split; [reflexivity|]. rewrite Forall_forall in FA. exact (FA w (nth_error_In _ _ H)).
      - left. rewrite nth_error_app2, Nat.sub_diag in H by lia. split; [reflexivity|]. cbn in H. congruence.
      - right. rewrite nth_error_app2 in H by lia. rewrite nth_error_app2 by (rewrite map_length; lia). rewrite map_length. destruct (i - length a)%nat as [|j] eqn:EJ; [lia|]. cbn [nth_error] in *. rewrite nth_error_map, H. split; [reflexivity|]. rewrite Forall_forall in FB. exact (FB w (nth_error_In _ _ H)). }
    split. { intros i v H. destruct (NTH i _ H) as [[-> X]|[X _]]; [|exact X]. rewrite <- X in PR. discriminate. }
    split.
    { intros i w H NW. destruct (NTH i _ H) as [[-> ->]|[_ [v X]]]; [|exfalso; exact (NW v X)]. exists rd, it. split; [exact RO|]. split.
      - rewrite nth_error_app2, map_length, Nat.sub_diag by (rewrite map_length; lia). reflexivity.
      - split; [exact GPOS|]. destruct CASE as [<-|[X G]]; [exact RL|]. rewrite X in *. rewrite (IT0 eq_refl). destruct rd; cbn [axis_rule]; nia. }
    split.
    + intros H. destruct c eqn:EC; try discriminate. rewrite EW. apply in_or_app. right. left. reflexivity.
    + intros H. rewrite EW in H. apply in_app_or in H. destruct H as [H|[H|H]].
      * rewrite Forall_forall in FA. destruct (FA _ H) as [v X]. discriminate.
      * rewrite H. reflexivity.
      * rewrite Forall_forall in FB. destruct (FB _ H) as [v X]. discriminate.
Qed.
Print Assumptions C34_reshape_shape.
Example C34_reshape_shape_ex : shape_list [Nat_ 3; Take; Nat_ 2] 13 = Ok ([3; 3; 2], 18, true) /\ ~ floor_overflows [Nat_ 3; Take; Nat_ 2].
Proof. split; [reflexivity|]. intros [H _]. cbn in H. intuition discriminate. Qed.

(** The excluded case is real: 3‿1431655766‿⌊⥊↕4 gets a shape with product 8589934596 but 4 elements. *)
Theorem C38_reshape_floor_refuted : exists ws xia sh n fl, axes_ok ws /\ 0 <= xia < 2 ^ 32 /\ shape_list ws xia = Ok (sh, n, fl) /\ product sh <> n.
Proof.
  exists [Nat_ 3; Nat_ 1431655766; Floor], 4, [3; 1431655766; 2], 4, false. split; [repeat constructor; lia|]. split; [lia|]. split; [vm_compute; reflexivity|]. vm_compute. discriminate.
Qed.
Print Assumptions C38_reshape_floor_refuted.

(** All of 𝕨⥊𝕩 for a list of axes: the result has as many elements as its shape says, and they are those of 𝕩 from the start,
    repeated, or with ↑ padded with the fill. [cyc] is the repetition, C34_reshape_repeats. *)
Theorem C34_reshape : forall (A : Type) (cyc : Z -> list A -> res (list A)),
  (forall n l r, Z.of_nat (length l) < n -> cyc n l = Ok r -> repeats n l r) ->
  forall ws fill xs sh r, axes_ok ws -> Z.of_nat (length xs) < 2 ^ 32 -> ~ floor_overflows ws ->
  reshape_list cyc ws fill xs = Ok (sh, r) ->
  length sh = length ws /\ product sh = Z.of_nat (length r) /\
  (In Take ws -> padded (product sh) fill xs r) /\
  (~ In Take ws -> repeats (product sh) xs r).
Proof.
  intros A cyc HC ws fill xs sh r AX HX NF E. unfold reshape_list in E. destruct (Z.ltb_spec 255 (Z.of_nat (length ws))); [discriminate|].
  destruct (shape_list ws (Z.of_nat (length xs))) as [[[sh0 n] fl]| |] eqn:ES; cbn [bind] in E; try discriminate.
  destruct (C34_reshape_shape ws (Z.of_nat (length xs)) sh0 n fl AX ltac:(lia) NF ES) as [H1 [H2 [H3 [H4 [H5 H6]]]]].
  assert (N0 : 0 <= n).
  { rewrite <- H2. assert (P0 : Forall (fun z => 0 <= z) sh0).
    { apply Forall_forall. intros z Hz. apply In_nth_error in Hz as [i Hz]. destruct (nth_error ws i) as [a|] eqn:EA.
      - assert (D : (exists v, a = Nat_ v) \/ (forall v, a <> Nat_ v)) by (destruct a; [left; eexists; reflexivity|right; intros v X; discriminate..]).
        destruct D as [[v ->]|D].
        + rewrite (H4 i v EA) in Hz. injection Hz as <-. unfold axes_ok in AX. rewrite Forall_forall in AX. specialize (AX _ (nth_error_In _ _ EA)). cbn in AX. lia.
        + destruct (H5 i a EA D) as [rd0 [c [_ [Y [GP R]]]]]. rewrite Y in Hz. injection Hz as <-.
          destruct rd0; cbn [axis_rule] in R; nia.
      - exfalso. apply nth_error_None in EA. assert (i < length sh0)%nat by (apply nth_error_Some; congruence). lia. }
    clear - P0. induction P0; [unfold product; cbn; lia|]. unfold product in *. cbn [fold_right]. nia. }
  assert (PAD : forall (l : list A), n <= Z.of_nat (length l) -> Z.of_nat (length (firstn (Z.to_nat n) l)) = n) by (intros l L; rewrite firstn_length; lia).
  destruct (if fl then _ else _) as [r0| |] eqn:ER; cbn [bind] in E; try discriminate. injection E as <- <-.
  destruct fl.
  - assert (TK : In Take ws) by (apply H6; reflexivity). unfold take_impl in ER.
    assert (PR : padded n fill xs r0).
    { destruct (Z.ltb_spec (Z.of_nat (length xs)) n) as [L|L].
      - destruct fill as [f0|]; [|discriminate]. injection ER as <-. split; [rewrite app_length, repeat_length; lia|]. intros i Hi. destruct (Z.ltb_spec i (Z.of_nat (length xs))).
        + apply nth_error_app1. lia.
        + rewrite nth_error_app2 by lia. rewrite nth_error_repeat by lia. reflexivity.
      - injection ER as <-. split; [apply PAD; exact L|]. intros i Hi. destruct (Z.ltb_spec i (Z.of_nat (length xs))); [|lia]. apply nth_error_firstn_lt. lia. }
    split; [exact H1|]. split; [destruct PR; lia|]. split; [intros _; rewrite H2; exact PR|]. intros X. contradiction.
  - unfold reshape_unshaped in ER.
    assert (PR : repeats n xs r0).
    { destruct (Z.leb_spec n (Z.of_nat (length xs))) as [L|L].
      - injection ER as <-. split; [apply PAD; exact L|]. intros i Hi. rewrite nth_error_firstn_lt by lia. f_equal. rewrite Z.mod_small by lia. reflexivity.
      - apply HC; [lia|exact ER]. }
    split; [exact H1|]. split; [destruct PR; lia|]. split; [|intros _; rewrite H2; exact PR].
    intros X. apply H6 in X. discriminate.
Qed.
Print Assumptions C34_reshape.
(** for lists of bits, with the repetition modelled above *)
Definition cyc_bits (g : Z -> bool) (n : Z) (l : list bool) : res (list bool) := do r <- reshape_cycle (B := unit) g (fun _ => tt) n (ABit l); match r with ABit l' => Ok l' | _ => UB end.
Theorem C34_reshape_bits : forall g ws fill xs sh r, axes_ok ws -> Z.of_nat (length xs) < 2 ^ 32 -> ~ floor_overflows ws ->
  reshape_list (cyc_bits g) ws fill xs = Ok (sh, r) ->
  length sh = length ws /\ product sh = Z.of_nat (length r) /\ (In Take ws -> padded (product sh) fill xs r) /\ (~ In Take ws -> repeats (product sh) xs r).
Proof.
  intros g. apply C34_reshape. intros n l r L E. unfold cyc_bits in E.
  destruct (Z.eq_dec (Z.of_nat (length l)) 0) as [Z0|NZ]. { rewrite (C34_reshape_repeats_error unit g _ n (ABit l)) in E by (left; exact Z0). discriminate. }
  destruct (Z.le_gt_cases n (2^32-66)) as [LE|GT].
  - destruct (C34_reshape_repeats unit g (fun _ => tt) n (ABit l) I) as [r0 [E0 H]]; [cbn [alen]; lia|cbn [max_len]; lia|]. rewrite E0 in E. cbn [bind] in E. destruct r0 as [l'|k l'|l']; try contradiction. injection E as <-. exact H.
  - rewrite (C34_reshape_repeats_error unit g _ n (ABit l)) in E by (right; cbn [alen max_len]; lia). discriminate.
Qed.
Print Assumptions C34_reshape_bits.
Example C34_reshape_ex : reshape_list (cyc_bits (fun _ => true)) [Nat_ 2; Reverse] None [true; false; true] = Ok ([2; 2], [true; false; true; true]).
Proof. vm_compute. reflexivity. Qed.
