From Verif Require Import Base BitsModel SqueezeModel SqueezeProof ReuseModel TransSpec TransProof5 MoveProof2 FnsModel FnsSpec FnsProof FnsProof2 FnsProof3.
From Coq Require Import List.
Open Scope nat_scope.
Section C.
Context {A : Type}.
Implicit Types (x : list A) (r : list (option A)).
Notation dot := FnsProof3.dot.

Lemma copy_ok r i x j n : i + n <= length r -> j + n <= length x ->
  exists r', copy_to r (Z.of_nat i) x (Z.of_nat j) (Z.of_nat n) = Ok r' /\ length r' = length r /\
    forall p, nth_error r' p = if (i <=? p) && (p <? i + n) then Some (nth_error x (j + (p - i))) else nth_error r p.
Proof.
  intros R X. unfold copy_to. rewrite !Nat2Z.id.
  destruct (for_inv (fun k r' => length r' = length r /\ forall p, nth_error r' p = if (i <=? p) && (p <? i + k) then Some (nth_error x (j + (p - i))) else nth_error r p)
    (fun k r => do v <- rd x (j + k); wr r (i + k) (Some v)) n 0 r) as (r' & E & L & H).
  - intros k s K [L H]. unfold rd. destruct (nth_error x (j + k)) as [v|] eqn:V; [|apply nth_error_None in V; lia]. cbn [bind]. unfold wr. replace (i + k <? length s) with true by lia. eexists; split; [reflexivity|].
    split; [rewrite upd_length; exact L|]. intros p. rewrite nth_error_upd. replace (i + k <? length s) with true by lia. destruct (Nat.eqb_spec (i + k) p) as [E|E].
    + subst p. replace ((i <=? i + k) && (i + k <? i + (k + 1))) with true by lia. replace (j + (i + k - i)) with (j + k) by lia. rewrite V. reflexivity.
    + rewrite H. replace ((i <=? p) && (p <? i + (k + 1))) with ((i <=? p) && (p <? i + k)) by lia. reflexivity.
  - split; [reflexivity|]. intros p. replace ((i <=? p) && (p <? i + 0)) with false by lia. reflexivity.
  - exists r'. auto.
Qed.
Lemma all_set_ok : forall r, (forall p, p < length r -> exists v, nth_error r p = Some (Some v)) ->
  exists l, all_set r = Ok l /\ length l = length r /\ forall p v, nth_error r p = Some v -> nth_error l p = v.
Proof.
  induction r as [|o r IH]; intros H; [exists []; split; [reflexivity|]; split; [reflexivity|]; intros [|p] v E; discriminate|].
  destruct (H 0 ltac:(cbn; lia)) as [v E]. cbn in E. injection E as ->. cbn [all_set]. destruct IH as (l & E & L & N); [intros p P; apply (H (S p)); cbn; lia|]. rewrite E. cbn [bind]. exists (v :: l).
  split; [reflexivity|]. split; [cbn [length]; lia|]. intros [|p] w W; cbn in *; [congruence|apply N; exact W].
Qed.
Definition Inv (G FS : list nat) (k : nat) x (ria K : nat) r : Prop :=
  length r = ria /\ forall u t, inb G u -> ravel G u < K -> t < k -> nth_error r (ravel G u * k + t) = Some (nth_error x (dot u FS + t)).
Lemma inv_step G FS k x ria K r u0 : Inv G FS k x ria K r -> inb G u0 -> ravel G u0 = K -> dot u0 FS + k <= length x -> (K + 1) * k <= ria ->
  exists r', copy_to r (Z.of_nat (K * k)) x (Z.of_nat (dot u0 FS)) (Z.of_nat k) = Ok r' /\ Inv G FS k x ria (K + 1) r'.
Proof.
  intros [L H] U E B R. destruct (copy_ok r (K * k) x (dot u0 FS) k ltac:(lia) B) as (r' & E' & L' & N). exists r'. split; [exact E'|]. split; [lia|].
  intros u t IU RU T. rewrite N. destruct (Nat.eq_dec (ravel G u) K) as [Q|Q].
  - assert (u = u0) by (apply (ravel_inj G); auto; congruence). subst u. rewrite Q. replace ((K * k <=? K * k + t) && (K * k + t <? K * k + k)) with true by lia. do 2 f_equal. lia.
  - assert (S (ravel G u) * k <= K * k) by (apply Nat.mul_le_mono_r; lia). cbn [Nat.mul] in *. replace (K * k <=? ravel G u * k + t) with false by lia. cbn [andb]. apply H; auto. lia.
Qed.
Lemma inv_end G FS k x r : Inv G FS k x (size G * k) (size G) r -> (forall u, inb G u -> dot u FS + k <= length x) ->
  exists l, all_set r = Ok l /\ length l = size G * k /\ forall u t, inb G u -> t < k -> nth_error l (ravel G u * k + t) = nth_error x (dot u FS + t).
Proof.
  intros [L H] B. destruct (all_set_ok r) as (l & E & LL & N).
  - intros p P. rewrite L in P. assert (K0 : 0 < k) by nia. destruct (ravel_surj G (p / k)) as (u & U & R); [apply Nat.div_lt_upper_bound; [lia|]; change (TransModel.shProd G) with (size G); lia|].
    pose proof (Nat.mod_upper_bound p k ltac:(lia)) as M. pose proof (Nat.div_mod p k ltac:(lia)) as D. specialize (H u (p mod k) U ltac:(rewrite R; apply Nat.div_lt_upper_bound; lia) M). rewrite R in H. replace (p / k * k + p mod k) with p in H by lia.
    destruct (nth_error x (dot u FS + p mod k)) as [v|] eqn:V; [exists v; exact H|]. apply nth_error_None in V. specialize (B u U). lia.
  - exists l. split; [exact E|]. split; [lia|]. intros u t U T. apply N. apply H; auto. apply ravel_lt'. exact U.
Qed.
Open Scope Z_scope.
Lemma loop1_ok x n k cia FS1 : (0 < k)%nat -> Z.of_nat (n * k) < 2 ^ 32 -> Z.of_nat (n * cia) < 2 ^ 32 -> (forall K, (K < n)%nat -> (K * cia + k <= length x)%nat) ->
  forall fuel K r, (K <= n)%nat -> (n - K < fuel)%nat -> Inv [n] (cia :: FS1) k x (n * k) K r ->
  exists r', win_loop1 fuel x (Z.of_nat (n * k)) (Z.of_nat k) (Z.of_nat cia) (Z.of_nat (K * k)) (Z.of_nat (K * cia)) r = Ok r' /\ Inv [n] (cia :: FS1) k x (n * k) n r'.
Proof.
  intros K0 B1 B2 BX. induction fuel as [|fuel IH]; intros K r KN F I; [lia|]. cbn [win_loop1].
  destruct (Z.ltb_spec (Z.of_nat (K * k)) (Z.of_nat (n * k))) as [LT|GE].
  - assert (KL : (K < n)%nat) by nia. assert (U : inb [n] [K]) by (constructor; [exact KL|constructor]). assert (RV : ravel [n] [K] = K) by (cbn; lia).
    assert (DT : dot [K] (cia :: FS1) = (K * cia)%nat) by (cbn [FnsProof3.dot]; destruct FS1; cbn; lia).
    destruct (inv_step [n] (cia :: FS1) k x (n * k) K r [K] I U RV) as (r' & E & I'); [rewrite DT; apply BX; exact KL|nia|]. rewrite DT in E. rewrite E. cbn [bind].
    assert (E1 : to_u 32 (Z.of_nat (K * k) + Z.of_nat k) = Z.of_nat ((K + 1) * k)) by (rewrite to_u_id; nia).
    assert (E2 : to_u 32 (Z.of_nat (K * cia) + Z.of_nat cia) = Z.of_nat ((K + 1) * cia)) by (rewrite to_u_id; nia).
    rewrite E1, E2. apply IH; auto; lia.
  - assert (K = n) by nia. subst K. exists r. auto.
Qed.
Lemma loop_ok xsh xw rest G rsh cia mlast x : xsh = xw ++ rest -> (2 <= length xw)%nat -> (length G + 1 = 2 * length xw)%nat -> rsh = G ++ mlast :: rest -> Forall (fun l => 0 < l)%nat xw ->
  Z.of_nat (cia * size xw) < 2 ^ 32 -> Z.of_nat (length x) < 2 ^ 32 -> forall k, (0 < k)%nat -> Z.of_nat (size G * k) < 2 ^ 32 -> (forall u, inb G u -> (dot u (FS xw cia) + k <= length x)%nat) ->
  forall fuel u r, inb G u -> (size G - ravel G u <= fuel)%nat -> Inv G (FS xw cia) k x (size G * k) (ravel G u) r ->
  exists r', win_loop fuel x (map Z.of_nat rsh) (map Z.of_nat xsh) (Z.of_nat (size G * k)) (Z.of_nat k) (Z.of_nat cia) (Z.of_nat (length xw)) (Z.of_nat (ravel G u * k)) (Z.of_nat (dot u (FS xw cia))) (map Z.of_nat u) r = Ok r' /\
             Inv G (FS xw cia) k x (size G * k) (size G) r'.
Proof.
  intros XE W2 GL RE XP XB XL k K0 RB BX. induction fuel as [|fuel IH]; intros u r U F I; [pose proof (ravel_lt' G u U); lia|]. cbn [win_loop].
  pose proof (ravel_lt' G u U) as RL. set (K := ravel G u) in *.
  assert (KR : ((K + 1) * k <= size G * k)%nat) by (apply Nat.mul_le_mono_r; lia).
  destruct (inv_step G (FS xw cia) k x (size G * k) K r u I U eq_refl (BX u U) KR) as (r' & E & I'). rewrite E. cbn [bind].
  replace (Z.to_nat (Z.of_nat (length xw) - 1)) with (length xw - 1)%nat by lia. rewrite rd_map by (rewrite XE, app_length; lia). cbn [bind]. replace (nth (length xw - 1) xsh 0%nat) with (nth (length xw - 1) xw 0%nat) by (rewrite XE, app_nth1 by lia; reflexivity).
  assert (E1 : to_u 32 (Z.of_nat (K * k) + Z.of_nat k) = Z.of_nat ((K + 1) * k)) by (rewrite to_u_id; lia). cbv zeta. rewrite E1.
  assert (ST : to_u 32 (Z.of_nat cia * Z.of_nat (nth (length xw - 1) xw 0%nat)) = Z.of_nat (nth (length G - 1) (FS xw cia) 0%nat)).
  { rewrite (FS_hi xw cia) by lia. replace (length G - 1 - length xw)%nat with (length xw - 2)%nat by lia. pose proof (sts_step cia xw (length xw - 2) ltac:(lia)) as P. replace (length xw - 2 + 1)%nat with (length xw - 1)%nat in P by lia.
    rewrite sts_last in P by lia. rewrite P. rewrite <- Nat2Z.inj_mul. apply to_u_id. pose proof (sts_bnd xw G cia W2 GL XP XB (length xw - 2) ltac:(lia)). rewrite P in H. lia. }
  rewrite ST. destruct (Z.eqb_spec (Z.of_nat ((K + 1) * k)) (Z.of_nat (size G * k))) as [Q|Q].
  - assert (K + 1 = size G)%nat by nia. exists r'. rewrite H in I'. auto.
  - rewrite map_length. pose proof (inb_len' _ _ U) as UL.
    assert (J : to_u 32 (Z.of_nat (dot u (FS xw cia)) + Z.of_nat (nth (length G - 1) (FS xw cia) 0%nat)) = to_u 32 (Z.of_nat (dot u (FS xw cia) + nth (length G - 1) (FS xw cia) 0%nat))) by (f_equal; lia).
    rewrite J. assert (SK : size (skipn (length G - 1 + 1) G) = 1%nat) by (rewrite skipn_all2 by lia; reflexivity).
    assert (NL : (K + 1 < size G)%nat). { destruct (Nat.eq_dec (K + 1) (size G)) as [e|]; [rewrite e in Q; lia|lia]. }
    destruct (bump_ok xsh xw rest G rsh cia mlast XE W2 GL RE XP XB (length G - 1) (length u) u) as (u' & E' & U' & R'); [lia|exact U|lia|rewrite SK; fold K; lia|].
    assert (BA : bax xw (length G - 1) = Z.of_nat (length xw) - 2) by (unfold bax; replace (length G - 1 <? length xw)%nat with false by lia; lia). rewrite BA in E'.
    replace (Z.of_nat (length G - 1)) with (2 * Z.of_nat (length xw) - 2) in E' by lia. rewrite E'. cbn [bind]. rewrite SK in R'. fold K in R'.
    rewrite (to_u_id 32 (Z.of_nat (dot u' (FS xw cia)))) by (specialize (BX u' U'); lia).
    rewrite <- R'. apply IH; [exact U'|lia|rewrite R'; exact I'].
Qed.
End C.
