(** Fills: equality, squeezing, withFill, asFill *)
From Verif Require Import Base TagModel TagSpec TagProof NumSpec NumProof ArrSpec SqueezeModel SqueezeSpec SqueezeProof SqueezeProof2 SqueezeThm HashModel FillModel FillSpec.
From Verif Require PervModel PervSpec PervProof MonProof2 MonProof3.
From Coq Require Import List Lia.
Open Scope Z_scope.

Lemma fv_ind2 (P : fv -> Prop) : (forall w, P (At w)) -> (forall sh e l, P (Ty sh e l)) -> (forall sh d f, Forall P d -> P (Bx sh d f)) -> forall a, P a.
Proof. intros HA HT HB. fix IH 1. intros [w|sh e l|sh d f]; [apply HA|apply HT|]. apply HB. induction d as [|a d ID]; constructor; [apply IH|exact ID]. Qed.
Lemma all_wff d : (fix all l := match l with [] => True | a :: l => wff a /\ all l end) d <-> Forall wff d.
Proof. induction d as [|a d IH]; [split; auto|]. split; [intros [A B]; constructor; [exact A|apply IH, B]|intros F; inversion F; subst; split; [assumption|apply IH; assumption]]. Qed.
Lemma all_fill d : (fix all l := match l with [] => True | a :: l => fill_ok a /\ all l end) d <-> Forall fill_ok d.
Proof. induction d as [|a d IH]; [split; auto|]. split; [intros [A B]; constructor; [exact A|apply IH, B]|intros F; inversion F; subst; split; [assumption|apply IH; assumption]]. Qed.
Lemma den_0 : den 0 = VNum 0. Proof. reflexivity. Qed.
Lemma den_space : den space = VChr 32. Proof. reflexivity. Qed.
Definition atomic (w : Z) : Prop := w = 0 \/ w = space.
Lemma atomic_inj w x : atomic w -> atomic x -> den w = den x -> w = x.
Proof. intros [ -> | -> ] [ -> | -> ]; rewrite ?den_0, ?den_space; congruence. Qed.
Lemma atomic_raw w : atomic w -> raw_ok EB w.
Proof. intros [ -> | -> ]; (split; [split; [discriminate|reflexivity]|]); intros n; rewrite ?den_0, ?den_space; intros H; [discriminate|injection H as <-; reflexivity]. Qed.
Definition cz (e : elt) : Z := if elNum e then 0 else 32.
Definition cw (e : elt) : Z := if elNum e then 0 else space.
Lemma cz_raw e : e <> EB -> raw_ok e (cz e).
Proof. destruct e; intros N; try congruence; cbn [raw_ok cz elNum PervModel.elNum]; try lia. split; [split; [discriminate|reflexivity]|]. intros [[E _] _]. cbv in E. discriminate. Qed.
Lemma cz_box e : e <> EB -> box e (cz e) = cw e. Proof. destruct e; intros N; try congruence; reflexivity. Qed.
Lemma cz_vof e : e <> EB -> vof e (cz e) = den (cw e). Proof. destruct e; intros N; try congruence; reflexivity. Qed.
Lemma cw_atomic e : atomic (cw e). Proof. unfold cw. destruct (elNum e); [left|right]; reflexivity. Qed.
Lemma cw_eq e e' : cw e = cw e' <-> elNum e = elNum e'.
Proof. unfold cw. destruct (elNum e), (elNum e'); split; intros H; try reflexivity; discriminate. Qed.
Lemma fill_wff : forall a, fill_ok a -> wff a.
Proof.
  induction a as [w|sh e l|sh d f IH] using fv_ind2; cbn [fill_ok wff].
  - apply atomic_raw.
  - intros (N & L & F). split; [exact N|]. split; [exact L|]. eapply Forall_impl; [|exact F]. intros z ->. apply cz_raw, N.
  - intros (L & D & F). split; [exact L|]. split; [|exact F]. apply all_wff. apply all_fill in D. rewrite Forall_forall in *. auto.
Qed.
Lemma fill_proto : forall a, fill_ok a -> proto (tree_of a) (tree_of a).
Proof.
  induction a as [w|sh e l|sh d f IH] using fv_ind2; cbn [fill_ok tree_of].
  - intros [ -> | -> ]; [rewrite den_0; constructor; right; eauto|rewrite den_space; constructor].
  - intros (N & L & F). constructor. clear L. induction F as [|z l -> F IH]; cbn [map]; constructor; [|exact IH]. change (if elNum e then 0 else 32) with (cz e). rewrite cz_vof by exact N. destruct (cw_atomic e) as [ -> | -> ]; [rewrite den_0; constructor; right; eauto|rewrite den_space; constructor].
  - intros (L & D & F). apply all_fill in D. constructor. clear L F. induction D as [|a d A D ID]; cbn [map]; constructor; inversion IH; subst; auto.
Qed.

(** ** Equality of fills *)
(** the elements as values *)
Definition elems (a : fv) : list fv := match a with At _ => [a] | Ty _ e l => map (fun z => At (box e z)) l | Bx _ d _ => d end.
Definition shape (a : fv) : list nat := match a with At _ => [] | Ty sh _ _ | Bx sh _ _ => sh end.
Lemma fill_elems a : is_array a -> fill_ok a -> Forall fill_ok (elems a) /\ length (elems a) = size (shape a) /\ tree_of a = TN (shape a) (map tree_of (elems a)).
Proof.
  destruct a as [w|sh e l|sh d f]; cbn [is_array fill_ok elems shape tree_of]; [contradiction| |].
  - intros _ (N & L & F). rewrite map_length. split; [|split; [exact L|]].
    + apply Forall_map. eapply Forall_impl; [|exact F]. intros z ->. cbn [fill_ok]. change (if elNum e then 0 else 32) with (cz e). rewrite cz_box by exact N. apply cw_atomic.
    + f_equal. rewrite map_map. apply map_ext_in. intros z I. rewrite Forall_forall in F. rewrite (F z I). cbn [tree_of]. change (if elNum e then 0 else 32) with (cz e). rewrite cz_box, cz_vof by exact N. reflexivity.
  - intros _ (L & D & _). apply all_fill in D. auto.
Qed.
Lemma sh_eqb_iff a b : sh_eqb a b = true <-> a = b.
Proof. unfold sh_eqb. destruct (list_eq_dec _ a b); split; congruence. Qed.
Definition all2 (f : fv -> fv -> bool) (l m : list fv) : bool := forallb (fun p => f (fst p) (snd p)) (combine l m).
Lemma all2_iff f l m : length l = length m -> Forall (fun a => forall b, In b m -> (f a b = true <-> tree_of a = tree_of b)) l -> (all2 f l m = true <-> map tree_of l = map tree_of m).
Proof.
  unfold all2. revert m. induction l as [|a l IH]; intros [|b m] L F; try discriminate; [split; reflexivity|]. cbn [combine forallb map fst snd]. rewrite andb_true_iff. inversion F as [|? ? A F']; subst.
  rewrite IH; [|injection L as L; exact L|eapply Forall_impl; [|exact F']; intros x H y I; apply H; right; exact I]. rewrite (A b (or_introl eq_refl)). split; [intros [ -> -> ]; reflexivity|intros H; injection H; auto].
Qed.
Lemma fe_arrays a b : is_array a -> is_array b -> fill_ok a -> fill_ok b -> fillEqual a b = sh_eqb (shape a) (shape b) && ((size (shape a) =? 0)%nat || all2 fillEqual (elems a) (elems b)).
Proof.
  intros A B FA FB. destruct a as [|sh e l|sh d f]; [contradiction| |]; destruct b as [|sh' e' l'|sh' d' f']; try contradiction; cbn [fillEqual shape elems].
  - destruct (sh_eqb sh sh') eqn:S'; [|reflexivity]. apply sh_eqb_iff in S'. subst sh'. cbn [andb]. destruct (Nat.eqb_spec (size sh) 0) as [Z|Z]; [reflexivity|]. cbn [orb]. cbn [fill_ok] in FA, FB. destruct FA as (N & L & F), FB as (N' & L' & F').
    unfold all2. destruct l as [|z l], l' as [|z' l']; cbn [length] in *; try lia. assert (Q : forall z z', z = cz e -> z' = cz e' -> (box e z =? box e' z') = Bool.eqb (elNum e) (elNum e')).
    { intros y y' -> ->. rewrite !cz_box by assumption. unfold cw. destruct (elNum e), (elNum e'); reflexivity. }
    pose proof (Forall_inv F) as FZ. pose proof (Forall_inv_tail F) as FL. pose proof (Forall_inv F') as FZ'. pose proof (Forall_inv_tail F') as FL'. cbn [map combine forallb fst snd fillEqual]. rewrite (Q _ _ FZ FZ').
    destruct (Bool.eqb (elNum e) (elNum e')); [|reflexivity]. cbn [andb]. symmetry. clear L L' F F' A B. revert l' FL'. induction FL as [|y l Y FL IH]; intros l' FL'; [reflexivity|]. destruct FL' as [|y' l' Y' FL']; [reflexivity|].
    cbn [map combine forallb fst snd fillEqual]. rewrite (Q _ _ Y Y'). cbn [andb]. apply IH, FL'.
  - do 2 f_equal. unfold all2. clear. revert d'. induction l as [|z l IH]; intros [|b d']; cbn [map combine forallb fst snd]; try reflexivity. rewrite IH. f_equal.
  - do 2 f_equal. unfold all2. clear. revert l'. induction d as [|a d IH]; intros [|z l']; cbn [map combine forallb fst snd]; try reflexivity. rewrite IH. reflexivity.
  - do 2 f_equal. unfold all2. clear. revert d'. induction d as [|a d IH]; intros [|z l']; cbn [map combine forallb fst snd]; try reflexivity. rewrite IH. reflexivity.
Qed.
Lemma fe_at w b : atomic w -> fill_ok b -> (fillEqual (At w) b = true <-> tree_of (At w) = tree_of b).
Proof.
  intros A B. destruct b as [x| |]; cbn [fillEqual tree_of]; [|split; discriminate|split; discriminate]. rewrite Z.eqb_eq. split; [congruence|]. intros H. injection H as H. apply atomic_inj; assumption.
Qed.
Lemma fillEqual_iff : forall a b, fill_ok a -> fill_ok b -> (fillEqual a b = true <-> tree_of a = tree_of b).
Proof.
  assert (K : forall a b, is_array a -> fill_ok a -> fill_ok b -> Forall (fun a => forall b, fill_ok b -> (fillEqual a b = true <-> tree_of a = tree_of b)) (elems a) -> (fillEqual a b = true <-> tree_of a = tree_of b)).
  { intros a b A FA FB IH. destruct (fill_elems a A FA) as (EA & LA & TA').
    assert (AB : is_array b \/ exists x, b = At x) by (destruct b; [right; eauto|left; exact Logic.I|left; exact Logic.I]). destruct AB as [B|[x -> ]].
    - destruct (fill_elems b B FB) as (EB' & LB & TB). rewrite fe_arrays by assumption. rewrite TA', TB. rewrite andb_true_iff, orb_true_iff, sh_eqb_iff, Nat.eqb_eq. split.
      + intros [Sh O]. rewrite Sh in *. f_equal. destruct O as [Z|O].
        * rewrite Z in *. destruct (elems a), (elems b); try discriminate; reflexivity.
        * apply all2_iff in O; [exact O|congruence|]. rewrite Forall_forall in *. auto.
      + intros H. injection H as Sh E. split; [exact Sh|]. right. apply all2_iff; [rewrite <- (map_length tree_of (elems a)), E, map_length; reflexivity| |exact E]. rewrite Forall_forall in *. auto.
    - rewrite TA'. destruct a; [contradiction| |]; cbn [fillEqual tree_of shape]; split; discriminate. }
  induction a as [w|sh e l|sh d f IH] using fv_ind2; intros b FA FB.
  - apply fe_at; assumption.
  - apply K; try exact Logic.I; try assumption. destruct (fill_elems (Ty sh e l) Logic.I FA) as (EA & _ & _). cbn [elems] in *. apply Forall_map. rewrite Forall_forall in *. intros z I c FC. apply fe_at; [|exact FC]. specialize (EA (At (box e z)) (in_map _ _ _ I)). exact EA.
  - apply K; try exact Logic.I; try assumption. cbn [elems]. cbn [fill_ok] in FA. destruct FA as (_ & D & _). apply all_fill in D. rewrite Forall_forall in *. intros a I c FC. apply IH; auto.
Qed.
