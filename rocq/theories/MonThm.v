(** C52: the arithmetic functions of one argument act on every number of any argument. *)
From Verif Require Import Base TagModel TagSpec TagProof NumSpec NumProof ArrSpec SqueezeModel SqueezeSpec SqueezeThm PervModel PervSpec PervProof MonModel MonSpec MonProof MonProof2 MonProof3.
From Verif Require ArithModel ArithSpec ArithProof.
From Coq Require Import List Lia.
Open Scope Z_scope.

(** + - | ⌊ ⌈ × ¬ of any value: the function of every number, in arrays of the same shapes, or an error if there is no such value; nothing outside of an array is read. *)
Theorem C52_acts_on_every_number cast o a : cast_ok cast -> wfm a -> applied o (tree_of a) (mon cast o a).
Proof. intros C. apply mon_ok, C. Qed.
Print Assumptions C52_acts_on_every_number.

Lemma tree_ind2 (P : tree -> Prop) : (forall v, P (TA v)) -> (forall sh l, Forall P l -> P (TN sh l)) -> forall t, P t.
Proof. intros HA HN. fix IH 1. intros [v|sh l]; [apply HA|]. apply HN. induction l as [|t l IL]; constructor; [apply IH|exact IL]. Qed.
Lemma maps_fun o : forall t u u', maps o t u -> maps o t u' -> u = u'.
Proof.
  induction t as [v|sh l IH] using tree_ind2; intros u u' M M'; inversion M; inversion M'; subst; [congruence|]. f_equal.
  match goal with A : Forall2 _ l ?r, B : Forall2 _ l ?r' |- _ => clear - IH A B; revert r r' A B end. induction IH as [|t l T IH IL]; intros r r' A B; inversion A; inversion B; subst; [reflexivity|]. f_equal; auto.
Qed.
Lemma numeric_maps o : forall t, numeric t <-> exists u, maps o t u.
Proof.
  induction t as [v|sh l IH] using tree_ind2.
  - split.
    + intros N. inversion N as [v0 NV|]; subst. destruct NV as [ -> |[x -> ]]; eexists; constructor; reflexivity.
    + intros [u M]. inversion M as [v0 r V|]; subst. constructor. destruct v; cbn [of_value] in V; try discriminate; [right; eauto|left; reflexivity].
  - split.
    + intros N. inversion N as [|s0 l0 F]; subst. enough (E : exists r, Forall2 (maps o) l r) by (destruct E as [r E]; exists (TN sh r); constructor; exact E). clear N. revert F. induction IH as [|t l T IH IL]; intros F; [exists []; constructor|].
      inversion F; subst. destruct (proj1 T) as [u U]; [assumption|]. destruct IL as [r E]; [assumption|]. exists (u :: r). constructor; assumption.
    + intros [u M]. inversion M as [|s0 l0 r F]; subst. constructor. clear M. revert r F. induction IH as [|t l T IH IL]; intros r F; constructor; inversion F; subst; [apply T; eauto|eapply IL; eassumption].
Qed.

(** There is a result exactly if every atom is a number. *)
Theorem C52_defined cast o a : cast_ok cast -> wfm a -> (numeric (tree_of a) -> exists r, mon cast o a = Ok r) /\ (~ numeric (tree_of a) -> mon cast o a = Err).
Proof.
  intros C W. pose proof (C52_acts_on_every_number cast o a C W) as H. destruct (mon cast o a) as [r| |]; cbn [applied] in H; [| |contradiction].
  - split; [eauto|]. intros N. exfalso. apply N, (numeric_maps o). exists (tree_of r). apply H.
  - split; [|auto]. intros N. apply (numeric_maps o) in N. destruct N as [u U]. destruct (H u U).
Qed.
Print Assumptions C52_defined.

(** How numbers are stored makes no difference. *)
Theorem C52_storage_makes_no_difference cast o a b : cast_ok cast -> wfm a -> wfm b -> tree_of a = tree_of b ->
  match mon cast o a, mon cast o b with Ok r, Ok s => tree_of r = tree_of s | Err, Err => True | _, _ => False end.
Proof.
  intros C A B T. pose proof (C52_acts_on_every_number cast o a C A) as HA. pose proof (C52_acts_on_every_number cast o b C B) as HB. rewrite T in HA.
  destruct (mon cast o a) as [r| |], (mon cast o b) as [s| |]; cbn [applied] in *; try contradiction; try exact Logic.I.
  - eapply maps_fun; [apply HA|apply HB].
  - eapply HB, HA.
  - eapply HA, HB.
Qed.
Print Assumptions C52_storage_makes_no_difference.

Lemma maps_then o p q : (forall v r, of_value o v = Some r -> exists s, of_value p r = Some s /\ of_value q v = Some s) -> forall t u, maps o t u -> exists s, maps p u s /\ maps q t s.
Proof.
  intros H. induction t as [v|sh l IH] using tree_ind2; intros u M; inversion M as [v0 r V|s0 l0 r F]; subst.
  - destruct (H _ _ V) as (s & P & Q). exists (TA s). split; constructor; assumption.
  - enough (E : exists s, Forall2 (maps p) r s /\ Forall2 (maps q) l s) by (destruct E as (s & P & Q); exists (TN sh s); split; constructor; assumption).
    clear M. revert r F. induction IH as [|t l T IH IL]; intros r F; inversion F; subst; [exists []; split; constructor|].
    match goal with M : maps o t _, G : Forall2 _ l _ |- _ => destruct (T _ M) as (s & P & Q); destruct (IL _ G) as (ss & PS & QS) end. exists (s :: ss). split; constructor; assumption.
Qed.
Lemma twice cast o p q a r : cast_ok cast -> wfm a -> (forall v r, of_value o v = Some r -> exists s, of_value p r = Some s /\ of_value q v = Some s) ->
  mon cast o a = Ok r -> exists s, mon cast p r = Ok s /\ wfm s /\ maps q (tree_of a) (tree_of s).
Proof.
  intros C W H E. pose proof (C52_acts_on_every_number cast o a C W) as HA. rewrite E in HA. destruct HA as [M WR]. destruct (maps_then o p q H _ _ M) as (s & P & Q).
  pose proof (C52_acts_on_every_number cast p r C WR) as HR. destruct (mon cast p r) as [s'| |]; cbn [applied] in HR; [|destruct (HR s P)|contradiction]. destruct HR as [M' WS]. exists s'. split; [reflexivity|]. split; [exact WS|].
  rewrite (maps_fun p _ _ _ M' P). exact Q.
Qed.
(** --𝕩 is 𝕩. *)
Theorem C52_negation_undone cast a r : cast_ok cast -> wfm a -> mon cast MNeg a = Ok r -> exists s, mon cast MNeg r = Ok s /\ tree_of s = tree_of a.
Proof.
  intros C W E. destruct (twice cast MNeg MNeg MConj a r C W) as (s & Q & _ & M); [|exact E|].
  - intros v u V. destruct v; cbn [of_value of_num] in V; try discriminate; injection V as <-; eexists; (split; [reflexivity|]); cbn [of_value of_num]; rewrite ?Z.opp_involutive; reflexivity.
  - exists s. split; [exact Q|]. apply maps_conj, M.
Qed.
Print Assumptions C52_negation_undone.
(** +, |, ⌊, ⌈ and × of their own result change nothing. *)
Theorem C52_idempotent cast o a r : cast_ok cast -> wfm a -> o = MConj \/ o = MAbs \/ o = MFloor \/ o = MCeil \/ o = MSign -> mon cast o a = Ok r -> exists s, mon cast o r = Ok s /\ tree_of s = tree_of r.
Proof.
  intros C W O E. destruct (twice cast o o o a r C W) as (s & Q & _ & M); [|exact E|].
  - assert (F : forall x, of_num o (of_num o x) = of_num o x).
    { intros x. destruct O as [ -> |[ -> |[ -> |[ -> | -> ]]]]; cbn [of_num]; [reflexivity|lia|apply int_floor| |rewrite sgn_one; f_equal; lia]. rewrite <- (Z.mul_opp_l (- x / one) one) at 1. rewrite int_ceil. ring. }
    intros v u V. destruct v; cbn [of_value] in V; try discriminate; injection V as <-; cbn [of_value]; eexists; (split; [|reflexivity]); [rewrite F; reflexivity|]. destruct O as [ -> |[ -> |[ -> |[ -> | -> ]]]]; reflexivity.
  - exists s. split; [exact Q|]. pose proof (C52_acts_on_every_number cast o a C W) as HA. rewrite E in HA. destruct HA as [MA _]. eapply maps_fun; eassumption.
Qed.
Print Assumptions C52_idempotent.
(** ¬ of a number x gives the double nearest to 1-x. *)
Theorem C52_not_nearest x y : maps MNot (TA (VNum x)) (TA (VNum y)) -> ArithSpec.nearest (one - x) y.
Proof. intros M. inversion M as [v r V|]; subst. assert (Y : of_num MNot x = y) by (change (Some (VNum (of_num MNot x)) = Some (VNum y)) in V; generalize dependent (of_num MNot x); intros k E; congruence). rewrite <- Y. exact (ArithProof.rnd_nearest (one - x)). Qed.
Print Assumptions C52_not_nearest.
(** ⌊ of a number gives the largest whole number that is not above it, ⌈ the smallest one that is not below it. *)
Theorem C52_floor_ceiling x y z : maps MFloor (TA (VNum x)) (TA (VNum y)) -> maps MCeil (TA (VNum x)) (TA (VNum z)) ->
  (exists n, y = n * one /\ n * one <= x /\ forall k, k * one <= x -> k <= n) /\ (exists n, z = n * one /\ x <= n * one /\ forall k, x <= k * one -> n <= k).
Proof.
  intros M M'. inversion M as [v r V|]; inversion M' as [v' r' V'|]; subst.
  assert (Y : of_num MFloor x = y) by (change (Some (VNum (of_num MFloor x)) = Some (VNum y)) in V; generalize dependent (of_num MFloor x); intros k E; congruence).
  assert (Y' : of_num MCeil x = z) by (change (Some (VNum (of_num MCeil x)) = Some (VNum z)) in V'; generalize dependent (of_num MCeil x); intros k E; congruence).
  rewrite <- Y, <- Y'. clear. cbn [of_num]. pose proof one_pos as O1. split.
  - exists (x / one). pose proof (div_near x). split; [reflexivity|]. split; [lia|]. intros k K. apply Z.div_le_lower_bound; lia.
  - exists (- (- x / one)). pose proof (div_near (- x)). split; [ring|]. split; [lia|]. intros k K. assert (- k <= - x / one) by (apply Z.div_le_lower_bound; lia). lia.
Qed.
Print Assumptions C52_floor_ceiling.

(** ** Examples *)
Definition half3 : Z := 0x3FF8000000000000. (* 1.5 *)
Definition mixed : av := Bx [3%nat] [Ta [2%nat] EI8 [-128; 5]; At half3; Ta [2%nat; 2%nat] EBit [1; 0; 0; 1]].
Example mixed_wf : wfm mixed /\ numeric (tree_of mixed).
Proof.
  split.
  - cbn [wfm mixed]. split; [reflexivity|]. split; [|split; [|split; [|exact Logic.I]]].
    + split; [discriminate|]. split; [apply le_n|]. cbn [firstn size fold_right Nat.mul Nat.add raw_ok]. repeat constructor; lia.
    + split; [split; [discriminate|reflexivity]|]. intros n H. assert (D : den half3 = VNum (fval half3)) by reflexivity. rewrite D in H. discriminate.
    + split; [discriminate|]. split; [apply le_n|]. cbn [firstn size fold_right Nat.mul Nat.add raw_ok]. repeat constructor; lia.
  - cbn [tree_of mixed map firstn size fold_right Nat.mul Nat.add vof]. assert (D : den half3 = VNum (fval half3)) by reflexivity. rewrite D. repeat (constructor; try (right; eexists; reflexivity)).
Qed.
(** |¯128‿5 does not fit in 8 bits; ¬1.5 is ¯0.5 *)
Example mixed_abs : mon x86_cast MAbs mixed = Ok (Bx [3%nat] [Bx [2%nat] [At (of_int 128); At (of_int 5)]; At half3; Ta [2%nat; 2%nat] EBit [1; 0; 0; 1]]).
Proof. vm_compute. reflexivity. Qed.
Example mixed_not : mon x86_cast MNot mixed = Ok (Bx [3%nat] [Bx [2%nat] [At (of_int 129); At (of_int (-4))]; At 0xBFE0000000000000; Ta [2%nat; 2%nat] EBit [0; 1; 1; 0]]).
Proof. vm_compute. reflexivity. Qed.
Example floors : mon x86_cast MFloor (Ta [3%nat] EF64 [half3; 0xBFE0000000000000; of_int 7]) = Ok (Ta [3%nat] EI8 [1; -1; 7]).
Proof. vm_compute. reflexivity. Qed.
Example text_refused : mon x86_cast MNeg (Ta [1%nat] EC8 [97]) = Err.
Proof. vm_compute. reflexivity. Qed.
Example mixed_twice : exists r s, mon x86_cast MNeg mixed = Ok r /\ mon x86_cast MNeg r = Ok s /\ tree_of s = tree_of mixed.
Proof. eexists. eexists. split; [vm_compute; reflexivity|]. split; [vm_compute; reflexivity|]. vm_compute. reflexivity. Qed.
