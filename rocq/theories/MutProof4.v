From Verif Require Import Base BitsModel BitsSpec SqueezeModel ReuseModel MutModel MutSpec MutProof MutProof2 MutProof3.
From Coq Require Import List Lia ZArith.
Import ListNotations.
Open Scope Z_scope.

(** the kind of append that the first piece selects *)
Definition kind_for (sh : list nat) : kind :=
  if (length sh =? 0)%nat then Sh0 else if (prod sh =? 0)%nat then ShE sh else if (length sh =? 1)%nat then Sh1 (prod sh) else Sh2 sh.
Lemma sheq_iff a b : sheq a b = true <-> a = b.
Proof. unfold sheq. destruct (list_eq_dec Nat.eq_dec a b); split; congruence. Qed.
Lemma chk_iff sh x : sh_chk (kind_for sh) x = true <-> shape_of x = sh.
Proof.
  unfold kind_for. destruct (Nat.eqb_spec (length sh) 0) as [Z|Z].
  - destruct sh; [|discriminate]. destruct x as [v|[|n sh] s f]; cbn; split; congruence.
  - assert (Hs : sh <> []) by (destruct sh; cbn in *; congruence). destruct (Nat.eqb_spec (prod sh) 0) as [P|P].
    + destruct x as [v|xsh s f]; cbn [sh_chk shape_of]; [split; congruence|]. rewrite andb_true_iff, sheq_iff, Nat.eqb_eq. split; [intros [_ H]; congruence|intros ->; auto].
    + destruct (Nat.eqb_spec (length sh) 1) as [O|O].
      * destruct sh as [|n [|? ?]]; try discriminate. destruct x as [v|xsh s f]; cbn [sh_chk shape_of]; [split; congruence|].
        rewrite andb_true_iff, !Nat.eqb_eq. split.
        -- intros [H1 H2]. destruct xsh as [|m [|? ?]]; try discriminate. cbn [prod fold_right] in H2. f_equal. lia.
        -- intros ->. cbn. auto.
      * destruct x as [v|xsh s f]; cbn [sh_chk shape_of]; [split; congruence|]. rewrite andb_true_iff, sheq_iff, Nat.eqb_eq. split; [intros [_ H]; congruence|intros ->; auto].
Qed.
Lemma kind_ok sh : okind (kind_for sh).
Proof. unfold kind_for. destruct (length sh =? 0)%nat; [exact I|]. destruct (Nat.eqb_spec (prod sh) 0) as [P|P]; [exact P|]. destruct (length sh =? 1)%nat; exact I. Qed.
Lemma elems_len x l : elems_of x l -> length l = prod (shape_of x).
Proof. destruct x; cbn; [intros ->; reflexivity|intros [H _]; exact H]. Qed.
Lemma total xs ls sh : Forall2 elems_of xs ls -> Forall (fun x => shape_of x = sh) xs -> length (concat ls) = (length xs * prod sh)%nat.
Proof.
  intros H. induction H as [|x l xs ls E _ IH]; intros F; [reflexivity|]. inversion F as [|? ? F1 F2]; subst. cbn [concat length]. rewrite app_length, IH by assumption. apply elems_len in E. lia.
Qed.

Section Build.
Variable mk : el -> nat -> store.
Hypothesis Hmk : fresh mk.
Lemma start_ok k s xl n fi kp rsh : source s xl -> (length xl <= n)%nat ->
  exists r, copyG (mk (st_el s) n) 0 s 0 (length xl) = Ok r /\ st_el r = st_el s /\ good {| a_kind := k; a_st := r; a_tia := n; a_pos := length xl; a_fill := fi; a_keep := kp; a_rsh := rsh |} xl.
Proof.
  intros S Hl. destruct (Hmk (st_el s) n) as [Ek Rk].
  destruct (copyG_ok (mk (st_el s) n) n 0 s (length xl) 0 (length xl)) as (r & E & W1 & W2 & W3 & W4); try lia; try assumption; [apply S|rewrite Ek; apply or_same|].
  exists r. split; [exact E|]. split; [congruence|]. split; [exact W2|]. split; [reflexivity|]. split; [exact Hl|]. cbn [a_st]. intros i v Hi.
  assert (i < length xl)%nat by (apply nth_error_Some; congruence). specialize (W3 i ltac:(assumption)). cbn [Nat.add] in W3. rewrite W3. apply (src_look s xl); assumption.
Qed.
Lemma rsh_wrap (rsh0 : list nat) : Z.of_nat (prod rsh0) < 2 ^ 32 -> Z.to_nat (to_u 32 (Z.of_nat (prod rsh0))) = prod rsh0.
Proof. intros H. unfold to_u. rewrite Z.mod_small by lia. apply Nat2Z.id. Qed.
(** the first append *)
Lemma init_ok rsh0 x xl : Z.of_nat (prod rsh0) * Z.of_nat (prod (shape_of x)) < 2 ^ 32 -> Z.of_nat (prod rsh0) < 2 ^ 32 -> (0 < prod rsh0)%nat -> (shape_of x = [] \/ (length rsh0 + length (shape_of x) <= 255)%nat) -> elems_of x xl ->
  exists a, apd_sh_init mk rsh0 x = Ok (Run a) /\ good a xl /\ a_kind a = kind_for (shape_of x) /\ a_tia a = (prod rsh0 * prod (shape_of x))%nat /\ a_rsh a = rsh0 ++ shape_of x.
Proof.
  intros Ht Hr Hp Hk He. unfold apd_sh_init. rewrite rsh_wrap by exact Hr. destruct x as [v|sh s f]; cbn [shape_of elems_of] in *.
  - set (a0 := {| a_kind := Sh0; a_st := mk (self_el v) (prod rsh0); a_tia := prod rsh0; a_pos := 0; a_fill := if is_B (self_el v) then getFill (Atom v) else None; a_keep := is_B (self_el v); a_rsh := rsh0 |}).
    assert (G0 : good a0 []). { split; [apply Hmk|]. split; [reflexivity|]. split; [cbn; lia|]. intros [|i] y Hi; discriminate. }
    subst xl. destruct (step_ok mk Hmk a0 [] (Atom v) [v] G0 I eq_refl eq_refl) as (b & E & Gb & Sb); [cbn [length a_tia a0]; lia|]. rewrite E. exists b. split; [reflexivity|]. split; [exact Gb|].
    destruct Sb as (K & T & R). rewrite K, T, R, app_nil_r. cbn [a0 a_kind a_tia a_rsh prod fold_right]. split; [reflexivity|]. split; [lia|reflexivity].
  - destruct He as [Hs S]. unfold kind_for. destruct (Nat.eqb_spec (length sh) 0) as [Z|Z].
    + destruct sh; [|discriminate]. cbn [prod fold_right] in *. rewrite <- Hs.
      destruct (start_ok Sh0 s xl (prod rsh0) (if is_B (st_el s) then getFill (Arr [] s f) else None) (is_B (st_el s)) (rsh0 ++ []) S ltac:(lia)) as (r & E & Er & G). rewrite E. cbn [bind]. eexists. split; [reflexivity|].
      split; [exact G|]. split; [reflexivity|]. split; [cbn [a_tia]; lia|reflexivity].
    + destruct Hk as [Hk|Hk]; [subst; cbn in Z; lia|]. destruct (Nat.ltb_spec 255 (length rsh0 + length sh)) as [B|_]; [lia|].
      destruct (Z.leb_spec (2 ^ 32) (Z.of_nat (prod rsh0) * Z.of_nat (prod sh))) as [B|_]; [lia|].
      set (k := if (prod sh =? 0)%nat then ShE sh else if (length sh =? 1)%nat then Sh1 (prod sh) else Sh2 sh). rewrite <- Hs.
      destruct (start_ok k s xl (prod rsh0 * length xl) (if is_B (st_el s) then getFill (Arr sh s f) else None) (is_B (st_el s)) (rsh0 ++ sh) S ltac:(nia)) as (r & E & Er & G).
      rewrite E. cbn [bind]. eexists. split; [reflexivity|]. split; [exact G|]. split; [reflexivity|]. split; reflexivity.
Qed.
Lemma merge_ok rsh0 xs ls sh : Forall2 elems_of xs ls -> Forall (fun x => shape_of x = sh) xs -> length xs = prod rsh0 -> (0 < prod rsh0)%nat -> Z.of_nat (prod rsh0) < 2 ^ 32 -> Z.of_nat (prod rsh0) * Z.of_nat (prod sh) < 2 ^ 32 ->
  (sh = [] \/ (length rsh0 + length sh <= 255)%nat) -> exists s f, build_sh mk rsh0 xs = Ok (rsh0 ++ sh, s, f) /\ room s (prod rsh0 * prod sh) /\ contents s (concat ls).
Proof.
  intros He Hs Hn Hp Hr Ht Hk. destruct xs as [|x xs]; [cbn in Hn; lia|]. pose proof (total _ _ _ He Hs) as Htot. inversion He as [|? xl ? ls' E1 E2]; subst. inversion Hs as [|? ? S1 S2]; subst.
  unfold build_sh. destruct (init_ok rsh0 x xl Ht Hr Hp Hk E1) as (a & E & G & K & T & R). rewrite E. cbn [bind].
  destruct (rest_ok mk Hmk xs ls' a xl G) as (a' & E' & G' & K' & T' & R').
  - rewrite K. apply kind_ok.
  - rewrite K. eapply Forall_impl; [|exact S2]. intros y Hy. apply chk_iff. exact Hy.
  - exact E2.
  - rewrite T, <- Hn, <- Htot. cbn [concat]. rewrite app_length. lia.
  - rewrite E'. cbn [bind]. rewrite R', R. eexists. eexists. split; [reflexivity|]. split; [rewrite <- T, <- T'; apply G'|]. apply good_contents. exact G'.
Qed.
(** a piece of another shape *)
Lemma try_fail a x : a_kind a <> Tot -> sh_chk (a_kind a) x = false -> try_apd a x = Ok (Some None).
Proof. intros Hk Hc. unfold try_apd. destruct (a_kind a); try congruence; rewrite Hc; reflexivity. Qed.
Lemma rest_failed xs : apd_rest mk ShFail xs = Ok ShFail. Proof. induction xs; cbn; auto. Qed.
Lemma rest_rank xs : apd_rest mk RnkFail xs = Ok RnkFail. Proof. induction xs; cbn; auto. Qed.
Lemma rest_fail xs sh : forall ls a l, good a l -> a_kind a = kind_for sh -> Forall2 elems_of xs ls -> (length l + length xs * prod sh <= a_tia a)%nat -> Exists (fun x => shape_of x <> sh) xs -> apd_rest mk (Run a) xs = Ok ShFail.
Proof.
  induction xs as [|x xs IH]; intros ls a l G K He Hl Hx; [inversion Hx|]. inversion He as [|? xl ? ls' E1 E2]; subst. cbn [apd_rest].
  destruct (sh_chk (a_kind a) x) eqn:C.
  - assert (Sx : shape_of x = sh) by (apply chk_iff; rewrite <- K; exact C). pose proof (elems_len _ _ E1) as HL. rewrite Sx in HL. cbn [length] in Hl.
    destruct (step_ok mk Hmk a l x xl G) as (b & E & Gb & K' & T & R); try assumption; [rewrite K; apply kind_ok|lia|]. rewrite E. cbn [bind].
    apply (IH ls' b (l ++ xl)); try assumption; [congruence|rewrite T, app_length; lia|]. inversion Hx; subst; [contradiction|assumption].
  - unfold apd_step. rewrite try_fail; [|rewrite K; unfold kind_for; destruct (length sh =? 0)%nat; [discriminate|]; destruct (prod sh =? 0)%nat; [discriminate|]; destruct (length sh =? 1)%nat; discriminate|exact C].
    cbn [bind]. apply rest_failed.
Qed.
Lemma merge_err rsh0 xs ls : Forall2 elems_of xs ls -> length xs = prod rsh0 -> Z.of_nat (prod rsh0) < 2 ^ 32 -> (exists x y, In x xs /\ In y xs /\ shape_of x <> shape_of y) -> build_sh mk rsh0 xs = Err.
Proof.
  intros He Hn Hr (x1 & y1 & I1 & I2 & Hd). destruct xs as [|x xs]; [destruct I1|].
  assert (Hx : Exists (fun y => shape_of y <> shape_of x) xs).
  { apply Exists_exists. destruct I1 as [<-|I1], I2 as [<-|I2]; try congruence.
    - exists y1. split; [exact I2|]. congruence.
    - exists x1. split; [exact I1|]. congruence.
    - destruct (list_eq_dec Nat.eq_dec (shape_of x1) (shape_of x)) as [Q|Q]; [exists y1|exists x1]; split; try assumption; congruence. }
  inversion He as [|? xl ? ls' E1 E2]; subst. unfold build_sh. assert (Hp : (0 < prod rsh0)%nat) by (rewrite <- Hn; cbn; lia).
  destruct (Z.ltb_spec (Z.of_nat (prod rsh0) * Z.of_nat (prod (shape_of x))) (2 ^ 32)) as [B|B].
  - assert (Hk : (shape_of x = [] \/ (length rsh0 + length (shape_of x) <= 255)%nat) \/ (shape_of x <> [] /\ (255 < length rsh0 + length (shape_of x))%nat)).
    { destruct (shape_of x) as [|n sh] eqn:Es; [left; left; reflexivity|]. destruct (Nat.leb_spec (length rsh0 + length (n :: sh)) 255); [left; right; assumption|right; split; [discriminate|assumption]]. }
    destruct Hk as [Hk|[Hk1 Hk2]].
    + destruct (init_ok rsh0 x xl B Hr Hp Hk E1) as (a & E & G & K & T & R). rewrite E. cbn [bind]. rewrite (rest_fail xs (shape_of x) ls' a xl G K E2); [reflexivity| |exact Hx].
      rewrite T, <- Hn. apply elems_len in E1. cbn [length]. lia.
    + destruct x as [v|sh s f]; [cbn in Hk1; congruence|]. cbn [shape_of] in *. unfold apd_sh_init. destruct (Nat.eqb_spec (length sh) 0) as [Z|Z]; [destruct sh; [congruence|discriminate]|].
      destruct (Nat.ltb_spec 255 (length rsh0 + length sh)); [|lia]. cbn [bind]. rewrite rest_rank. reflexivity.
  - destruct x as [v|sh s f]; cbn [shape_of] in *; [cbn [prod fold_right] in B; lia|]. unfold apd_sh_init. rewrite rsh_wrap by exact Hr. destruct (Nat.eqb_spec (length sh) 0) as [Z|Z].
    + destruct sh; [|discriminate]. cbn [prod fold_right] in B. lia.
    + destruct (255 <? length rsh0 + length sh)%nat; [cbn [bind]; rewrite rest_rank; reflexivity|]. destruct (Z.leb_spec (2 ^ 32) (Z.of_nat (prod rsh0) * Z.of_nat (prod sh))); [reflexivity|lia].
Qed.
Lemma merge_rank rsh0 x xs : shape_of x <> [] -> (255 < length rsh0 + length (shape_of x))%nat -> build_sh mk rsh0 (x :: xs) = Err.
Proof.
  intros H1 H2. destruct x as [v|sh s f]; [cbn in H1; congruence|]. cbn [shape_of] in *. unfold build_sh, apd_sh_init. destruct (Nat.eqb_spec (length sh) 0) as [Z|Z]; [destruct sh; [congruence|discriminate]|].
  destruct (Nat.ltb_spec 255 (length rsh0 + length sh)); [|lia]. cbn [bind]. rewrite rest_rank. reflexivity.
Qed.
End Build.
