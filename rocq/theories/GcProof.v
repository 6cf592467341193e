(** Proofs about the collector: marking computes reachability; counts are restored; freeing keeps a counting invariant. *)
From Verif Require Import Base GcModel GcSpec.

Notation cnt := (count_occ Nat.eq_dec).
Definition kindof (h : gheap) x := match nth_error h x with Some o => o_kind o | None => GEmpty end.
Definition refcof (h : gheap) x := match nth_error h x with Some o => o_refc o | None => 0 end.
Definition markof (h : gheap) x := match nth_error h x with Some o => o_mark o | None => true end.
Definition refsof (h : gheap) x := match nth_error h x with Some o => o_refs o | None => [] end.

Lemma lt_some {A} (h : list A) x : (x < length h)%nat -> exists o, nth_error h x = Some o.
Proof. intros H. destruct (nth_error h x) eqn:E; eauto. apply nth_error_None in E; lia. Qed.
Lemma some_lt {A} (h : list A) x o : nth_error h x = Some o -> (x < length h)%nat.
Proof. intros H. apply nth_error_Some. congruence. Qed.

(** the three setters *)
Lemma set_kind_ok h x k : (x < length h)%nat -> exists h', set_kind h x k = Ok h' /\ length h' = length h /\
  (forall y, kindof h' y = if (x =? y)%nat then k else kindof h y) /\ (forall y, refcof h' y = refcof h y) /\
  (forall y, markof h' y = markof h y) /\ (forall y, refsof h' y = refsof h y).
Proof.
  intros H. destruct (lt_some h x H) as [o E]. unfold set_kind, rd, wr. rewrite E. cbn [bind].
  destruct (Nat.ltb_spec x (length h)); [|lia]. eexists; split; [reflexivity|]. split; [apply upd_length|].
  unfold kindof, refcof, markof, refsof.
  repeat split; intros y; rewrite nth_error_upd; destruct (Nat.eqb_spec x y) as [->|]; try reflexivity;
    destruct (Nat.ltb_spec y (length h)); try lia; rewrite ?E; reflexivity.
Qed.
Lemma set_mark_ok h x m : (x < length h)%nat -> exists h', set_mark h x m = Ok h' /\ length h' = length h /\
  (forall y, kindof h' y = kindof h y) /\ (forall y, refcof h' y = refcof h y) /\
  (forall y, markof h' y = if (x =? y)%nat then m else markof h y) /\ (forall y, refsof h' y = refsof h y).
Proof.
  intros H. destruct (lt_some h x H) as [o E]. unfold set_mark, rd, wr. rewrite E. cbn [bind].
  destruct (Nat.ltb_spec x (length h)); [|lia]. eexists; split; [reflexivity|]. split; [apply upd_length|].
  unfold kindof, refcof, markof, refsof.
  repeat split; intros y; rewrite nth_error_upd; destruct (Nat.eqb_spec x y) as [->|]; try reflexivity;
    destruct (Nat.ltb_spec y (length h)); try lia; rewrite ?E; reflexivity.
Qed.
Lemma add_refc_ok h x d : (x < length h)%nat -> exists h', add_refc h x d = Ok h' /\ length h' = length h /\
  (forall y, kindof h' y = kindof h y) /\ (forall y, refcof h' y = refcof h y + if (x =? y)%nat then d else 0) /\
  (forall y, markof h' y = markof h y) /\ (forall y, refsof h' y = refsof h y).
Proof.
  intros H. destruct (lt_some h x H) as [o E]. unfold add_refc, rd, wr. rewrite E. cbn [bind].
  destruct (Nat.ltb_spec x (length h)); [|lia]. eexists; split; [reflexivity|]. split; [apply upd_length|].
  unfold kindof, refcof, markof, refsof.
  repeat split; intros y; rewrite nth_error_upd; destruct (Nat.eqb_spec x y) as [->|]; try lia; try reflexivity;
    destruct (Nat.ltb_spec y (length h)); try lia; rewrite ?E; reflexivity.
Qed.
Lemma rd_ok h x : (x < length h)%nat -> exists o, rd h x = Ok o /\ o_kind o = kindof h x /\ o_refc o = refcof h x /\ o_mark o = markof h x /\ o_refs o = refsof h x.
Proof. intros H. destruct (lt_some h x H) as [o E]. exists o. unfold rd, kindof, refcof, markof, refsof. rewrite E. auto. Qed.

Lemma obj_ext h1 h2 : length h1 = length h2 -> (forall y, kindof h1 y = kindof h2 y) -> (forall y, refcof h1 y = refcof h2 y) ->
  (forall y, markof h1 y = markof h2 y) -> (forall y, refsof h1 y = refsof h2 y) -> h1 = h2.
Proof.
  intros L K R M F. apply nth_error_ext. intros i. specialize (K i); specialize (R i); specialize (M i); specialize (F i).
  unfold kindof, refcof, markof, refsof in *.
  destruct (nth_error h1 i) as [[? ? ? ?]|] eqn:E1, (nth_error h2 i) as [[? ? ? ?]|] eqn:E2; cbn in *; subst; auto.
  - apply some_lt in E1. apply nth_error_None in E2. lia.
  - apply some_lt in E2. apply nth_error_None in E1. lia.
Qed.

(** ** Well-formed pointers *)
Definition good (h : gheap) x := (x < length h)%nat /\ (kindof h x = GLive \/ kindof h x = GSkip).
Definition ptrs_ok (h : gheap) := forall x y, good h x -> In y (refsof h x) -> good h y.

(** ** Marking *)
Definition same_m (h h' : gheap) := length h' = length h /\ (forall y, kindof h' y = kindof h y) /\ (forall y, refcof h' y = refcof h y) /\ (forall y, refsof h' y = refsof h y).
Lemma same_m_refl h : same_m h h. Proof. repeat split; auto. Qed.
Lemma same_m_trans a b c : same_m a b -> same_m b c -> same_m a c.
Proof. intros (A1&A2&A3&A4) (B1&B2&B3&B4). repeat split; intros; congruence. Qed.
Lemma good_same h h' x : same_m h h' -> good h x -> good h' x.
Proof. intros (A1&A2&_) (B1&B2). split; [lia|]. rewrite A2. exact B2. Qed.
Lemma same_m_sym h h' : same_m h h' -> same_m h' h.
Proof. intros (A1&A2&A3&A4). repeat split; intros; congruence. Qed.
Lemma ptrs_same h h' : same_m h h' -> ptrs_ok h -> ptrs_ok h'.
Proof. intros A P x y G I. apply (good_same h); auto. apply (P x); [apply (good_same h'); auto using same_m_sym|]. destruct A as (_&_&_&A4). rewrite <- A4. exact I. Qed.
Lemma reach_refs_eq h h' (st : nat -> Prop) x : (forall y, refsof h' y = refsof h y) -> reach h st x -> reach h' st x.
Proof.
  intros A4 R. induction R as [x S0|x o y R IH E I]; [apply reach_start; auto|]. specialize (A4 x). unfold refsof in A4. rewrite E in A4.
  destruct (nth_error h' x) as [o'|] eqn:E'.
  - apply (reach_step h' st x o' y IH E'). rewrite A4. exact I.
  - rewrite <- A4 in I. destruct I.
Qed.
Lemma reach_same h h' (st : nat -> Prop) x : same_m h h' -> reach h st x -> reach h' st x.
Proof. intros (_&_&_&A). apply reach_refs_eq; auto. Qed.
Lemma reach_mono h (s1 s2 : nat -> Prop) x : (forall y, s1 y -> s2 y) -> reach h s1 x -> reach h s2 x.
Proof. intros H R. induction R; [apply reach_start; auto|eapply reach_step; eauto]. Qed.
Lemma reach_refs h (st : nat -> Prop) x y : reach h st x -> In y (refsof h x) -> reach h st y.
Proof. intros R I. unfold refsof in I. destruct (nth_error h x) eqn:E; [|destruct I]. eapply reach_step; eauto. Qed.
Lemma reach_trans h (st : nat -> Prop) x y : reach h st x -> reach h (eq x) y -> reach h st y.
Proof. intros R1 R2. induction R2; [subst; auto|eapply reach_step; eauto]. Qed.

Definition unm (h : gheap) : nat := length (filter (fun x => negb (markof h x)) (seq 0 (length h))).
Lemma filter_len_le {A} (f g : A -> bool) l : (forall x, In x l -> f x = true -> g x = true) -> (length (filter f l) <= length (filter g l))%nat.
Proof.
  intros H. induction l as [|a l IH]; [cbn; lia|]. cbn. assert (H' := H a (or_introl eq_refl)).
  specialize (IH (fun x I => H x (or_intror I))). destruct (f a); [rewrite H' by auto; cbn; lia|destruct (g a); cbn; lia].
Qed.
Lemma filter_len_lt {A} (f g : A -> bool) l x : (forall x, In x l -> f x = true -> g x = true) -> In x l -> f x = false -> g x = true ->
  (length (filter f l) < length (filter g l))%nat.
Proof.
  intros H I F G. induction l as [|a l IH]; [destruct I|]. cbn. destruct I as [->|I].
  - rewrite F, G. cbn. assert (L := filter_len_le f g l (fun x I => H x (or_intror I))). lia.
  - specialize (IH (fun x I => H x (or_intror I)) I). assert (H' := H a (or_introl eq_refl)). destruct (f a); [rewrite H' by auto; cbn; lia|destruct (g a); cbn; lia].
Qed.

Record marked_from (h h' : gheap) (l : list nat) : Prop := {
  mf_same : same_m h h';
  mf_mono : forall x, markof h x = true -> markof h' x = true;
  mf_in : forall x, In x l -> markof h' x = true;
  mf_closed : forall x y, markof h x = false -> markof h' x = true -> In y (refsof h x) -> markof h' y = true;
  mf_from : forall x, markof h x = false -> markof h' x = true -> reach h (fun y => In y l) x
}.
Lemma mf_unm h h' l : marked_from h h' l -> (unm h' <= unm h)%nat.
Proof.
  intros [A M _ _ _]. unfold unm. destruct A as (L&_). rewrite L. apply filter_len_le.
  intros x _ H. specialize (M x). destruct (markof h x); auto. rewrite M in H by auto. discriminate.
Qed.
Lemma mf_nil h : marked_from h h [].
Proof. split; auto using same_m_refl; intros; try easy; congruence. Qed.
Lemma mf_app h h1 h2 l1 l2 : marked_from h h1 l1 -> marked_from h1 h2 l2 -> marked_from h h2 (l1 ++ l2).
Proof.
  intros A B. destruct A as [A1 A2 A3 A4 A5], B as [B1 B2 B3 B4 B5]. split.
  - eauto using same_m_trans.
  - auto.
  - intros x I. apply in_app_iff in I as [I|I]; auto.
  - intros x y N M I. destruct (markof h1 x) eqn:E; [eauto|]. apply (B4 x y); auto. destruct A1 as (_&_&_&F). rewrite F. exact I.
  - intros x N M. destruct (markof h1 x) eqn:E.
    + apply (reach_mono h (fun y => In y l1)); auto. intros; apply in_app_iff; auto.
    + apply (reach_same h1 h); auto using same_m_sym. apply (reach_mono h1 (fun y => In y l2)); auto. intros; apply in_app_iff; auto.
Qed.

Lemma mark_go n l h : (fix go (l : list nat) (h : gheap) : res gheap := match l with [] => Ok h | y :: l => do h <- mark n h y; go l h end) l h = marks n h l.
Proof. revert h. induction l as [|y l IH]; intros h; cbn [marks]; auto. destruct (mark n h y); cbn [bind]; auto. Qed.
Lemma mark_spec n : forall h x, (unm h < n)%nat -> ptrs_ok h -> good h x -> exists h', mark n h x = Ok h' /\ marked_from h h' [x].
Proof.
  induction n as [|n IH]; intros h x U P G; [lia|].
  assert (MS : forall l h, (unm h < n)%nat -> ptrs_ok h -> (forall y, In y l -> good h y) -> exists h', marks n h l = Ok h' /\ marked_from h h' l).
  { induction l as [|y l IHl]; intros h0 U0 P0 G0; cbn [marks].
    - eauto using mf_nil.
    - destruct (IH h0 y) as (h1&E1&F1); auto; [apply G0; left; auto|]. rewrite E1. cbn [bind].
      destruct (IHl h1) as (h2&E2&F2); [apply mf_unm in F1; lia|eapply ptrs_same; eauto; apply F1| |].
      { intros z I. apply (good_same h0); [apply F1|apply G0; right; auto]. }
      exists h2. split; auto. change (y :: l) with ([y] ++ l). eauto using mf_app. }
  cbn [mark]. destruct (rd_ok h x) as (o&E&K&R&M&F); [apply G|]. rewrite E. cbn [bind]. rewrite M.
  destruct (markof h x) eqn:Em.
  - exists h. split; auto. split; auto using same_m_refl; intros; try congruence. destruct H as [->|[]]. auto.
  - destruct (set_mark_ok h x true) as (h1&E1&L1&K1&R1&M1&F1); [apply G|].
    assert (SM : same_m h h1) by (repeat split; auto).
    assert (U1 : (unm h1 < unm h)%nat).
    { unfold unm. rewrite L1. apply (filter_len_lt _ _ _ x).
      - intros y _. rewrite M1. destruct (Nat.eqb x y); [discriminate|auto].
      - apply in_seq. destruct G; lia.
      - rewrite M1, Nat.eqb_refl. auto.
      - rewrite Em. auto. }
    destruct (MS (o_refs o) h1) as (h2&E2&F2); [lia|eapply ptrs_same; eauto| |].
    { intros y I. apply (good_same h); auto. apply (P x); auto. rewrite <- F. exact I. }
    exists h2. split.
    { destruct G as [_ [G|G]]; rewrite K, G, E1; cbn [bind]; rewrite mark_go; exact E2. }
    destruct F2 as [B1 B2 B3 B4 B5]. split.
    + eauto using same_m_trans.
    + intros y H. apply B2. rewrite M1. destruct (Nat.eqb x y); auto.
    + intros y [<-|[]]. apply B2. rewrite M1, Nat.eqb_refl. auto.
    + intros y z N H I. destruct (Nat.eqb_spec x y) as [<-|D].
      * apply B3. rewrite F. exact I.
      * apply (B4 y z); auto; [rewrite M1; destruct (Nat.eqb_spec x y); congruence|rewrite F1; auto].
    + intros y N H. destruct (Nat.eqb_spec x y) as [<-|D]; [apply reach_start; left; auto|].
      assert (Q : reach h1 (fun z => In z (o_refs o)) y) by (apply B5; auto; rewrite M1; destruct (Nat.eqb_spec x y); congruence).
      apply (reach_same h1 h) in Q; auto using same_m_sym. clear - Q F. induction Q as [y I|y p z Q IH Ep I].
      * apply (reach_refs h _ x); [apply reach_start; left; auto|]. rewrite <- F. exact I.
      * eapply reach_step; eauto.
Qed.
Lemma marks_spec n : forall l h, (unm h < n)%nat -> ptrs_ok h -> (forall y, In y l -> good h y) -> exists h', marks n h l = Ok h' /\ marked_from h h' l.
Proof.
  induction l as [|y l IHl]; intros h0 U0 P0 G0; cbn [marks].
  - eauto using mf_nil.
  - destruct (mark_spec n h0 y) as (h1&E1&F1); auto; [apply G0; left; auto|]. rewrite E1. cbn [bind].
    destruct (IHl h1) as (h2&E2&F2); [apply mf_unm in F1; lia|eapply ptrs_same; eauto; apply F1| |].
    { intros z I. apply (good_same h0); [apply F1|apply G0; right; auto]. }
    exists h2. split; auto. change (y :: l) with ([y] ++ l). eauto using mf_app.
Qed.
Lemma unm_fuel h : (unm h < fuel h)%nat.
Proof.
  unfold unm, fuel. assert (H : forall (f : nat -> bool) l, (length (filter f l) <= length l)%nat).
  { intros f l. induction l as [|a l IH]; cbn; [lia|]. destruct (f a); cbn; lia. }
  specialize (H (fun x => negb (markof h x)) (seq 0 (length h))). rewrite seq_length in H. lia.
Qed.

(** ** Marking all objects with a nonzero count *)
Lemma mark_nonzero_spec : forall l h, ptrs_ok h -> (forall x, kindof h x <> GFreed) -> (forall x, In x l -> (x < length h)%nat) ->
  exists h', for_heap mark_nonzero h l = Ok h' /\
    marked_from h h' (filter (fun x => match kindof h x with GEmpty => false | _ => negb (refcof h x =? 0) end) l).
Proof.
  induction l as [|x l IH]; intros h P NF L; cbn [for_heap filter]; [eauto using mf_nil|].
  destruct (rd_ok h x) as (o&E&K&R&M&F); [apply L; left; auto|]. rewrite E. cbn [bind]. rewrite K.
  assert (Hx : exists h1, match kindof h x with GEmpty => Ok h | _ => mark_nonzero h x end = Ok h1 /\
     marked_from h h1 (if match kindof h x with GEmpty => false | _ => negb (refcof h x =? 0) end then [x] else [])).
  { unfold mark_nonzero. rewrite E. cbn [bind]. rewrite R. destruct (kindof h x) eqn:Kx; [eauto using mf_nil|exfalso; apply (NF x); auto| |].
    all: destruct (Z.eqb_spec (refcof h x) 0); cbn [negb]; [eauto using mf_nil|].
    all: apply mark_spec; [apply unm_fuel|auto|split; [apply L; left; auto|rewrite Kx; auto]]. }
  destruct Hx as (h1&E1&F1).
  assert (E1' : match kindof h x with GEmpty => Ok h | GFreed => mark_nonzero h x | GSkip => mark_nonzero h x | GLive => mark_nonzero h x end = Ok h1) by exact E1.
  rewrite E1'. cbn [bind]. destruct (mf_same _ _ _ F1) as (S1&S2&S3&S4).
  destruct (IH h1) as (h2&E2&F2); [eapply ptrs_same; eauto; apply F1|intros y; rewrite S2; auto|intros y I; rewrite S1; apply L; right; auto|].
  exists h2. split; auto.
  rewrite (filter_ext (fun x => match kindof h1 x with GEmpty => false | _ => negb (refcof h1 x =? 0) end) (fun x => match kindof h x with GEmpty => false | _ => negb (refcof h x =? 0) end)) in F2 by (intros y; rewrite S2, S3; auto).
  assert (Q := mf_app _ _ _ _ _ F1 F2).
  destruct (match kindof h x with GEmpty => false | _ => negb (refcof h x =? 0) end); exact Q.
Qed.

(** ** Decrementing and incrementing along pointers *)
Definition same_r (h h' : gheap) := length h' = length h /\ (forall y, kindof h' y = kindof h y) /\ (forall y, markof h' y = markof h y) /\ (forall y, refsof h' y = refsof h y).
Lemma visit_add_spec d : forall l h, (forall y, In y l -> (y < length h)%nat) -> exists h', visit_add d h l = Ok h' /\ same_r h h' /\
  forall y, refcof h' y = refcof h y + d * Z.of_nat (cnt l y).
Proof.
  induction l as [|x l IH]; intros h L; cbn [visit_add].
  - exists h. split; auto. split; [repeat split; auto|]. intros; cbn; lia.
  - destruct (add_refc_ok h x d) as (h1&E1&L1&K1&R1&M1&F1); [apply L; left; auto|]. rewrite E1. cbn [bind].
    destruct (IH h1) as (h2&E2&(S1&S2&S3&S4)&R2); [intros y I; rewrite L1; apply L; right; auto|].
    exists h2. split; auto. split; [repeat split; intros; congruence|].
    intros y. rewrite R2, R1. cbn [count_occ]. destruct (Nat.eq_dec x y), (Nat.eqb_spec x y); try congruence; lia.
Qed.
Definition out (h : gheap) (z y : nat) : Z := match kindof h z with GEmpty => 0 | _ => Z.of_nat (cnt (refsof h z) y) end.
Definition sumf (f : nat -> Z) (l : list nat) : Z := fold_right (fun z s => f z + s) 0 l.
Lemma sumf_app f l1 l2 : sumf f (l1 ++ l2) = sumf f l1 + sumf f l2.
Proof. unfold sumf. induction l1; cbn [app fold_right]; lia. Qed.
Lemma sumf_ext f g l : (forall x, In x l -> f x = g x) -> sumf f l = sumf g l.
Proof. unfold sumf. induction l as [|a l IH]; intros H; cbn [fold_right]; auto. rewrite IH, (H a); auto; [left; auto|intros; apply H; right; auto]. Qed.
Lemma sumf_nonneg f l : (forall x, In x l -> 0 <= f x) -> 0 <= sumf f l.
Proof. unfold sumf. induction l as [|a l IH]; intros H; cbn [fold_right]; [lia|]. assert (A := H a (or_introl eq_refl)). specialize (IH (fun x I => H x (or_intror I))). lia. Qed.
Lemma sumf_ge f l x : (forall x, In x l -> 0 <= f x) -> In x l -> f x <= sumf f l.
Proof.
  unfold sumf. induction l as [|a l IH]; intros H I; cbn [fold_right]; [destruct I|]. assert (A := H a (or_introl eq_refl)).
  assert (B := sumf_nonneg f l (fun x I => H x (or_intror I))). unfold sumf in B.
  destruct I as [->|I]; [lia|]. specialize (IH (fun x I => H x (or_intror I)) I). lia.
Qed.
Lemma sumf_seq_shift f s n : sumf f (seq (S s) n) = sumf (fun i => f (S i)) (seq s n).
Proof. revert s. induction n as [|n IH]; intros s; cbn; auto. f_equal. apply IH. Qed.
Lemma visit_all_spec d : forall l h, (forall x, In x l -> (x < length h)%nat) ->
  (forall x y, kindof h x <> GEmpty -> In y (refsof h x) -> (y < length h)%nat) ->
  exists h', for_heap (visit_obj d) h l = Ok h' /\ same_r h h' /\ forall y, refcof h' y = refcof h y + d * sumf (fun z => out h z y) l.
Proof.
  induction l as [|x l IH]; intros h L P; cbn [for_heap].
  - exists h. split; auto. split; [repeat split; auto|]. intros; cbn; lia.
  - destruct (rd_ok h x) as (o&E&K&R&M&F); [apply L; left; auto|]. rewrite E. cbn [bind]. rewrite K.
    assert (Hx : exists h1, match kindof h x with GEmpty => Ok h | GFreed => visit_obj d h x | GSkip => visit_obj d h x | GLive => visit_obj d h x end = Ok h1 /\
      same_r h h1 /\ forall y, refcof h1 y = refcof h y + d * out h x y).
    { unfold visit_obj, out. rewrite E. cbn [bind]. rewrite F. destruct (kindof h x) eqn:Kx.
      - exists h. split; auto. split; [repeat split; auto|]. intros; lia.
      - apply visit_add_spec. intros y I. apply (P x); [rewrite Kx; discriminate|auto].
      - apply visit_add_spec. intros y I. apply (P x); [rewrite Kx; discriminate|auto].
      - apply visit_add_spec. intros y I. apply (P x); [rewrite Kx; discriminate|auto]. }
    destruct Hx as (h1&E1&(S1&S2&S3&S4)&R1).
    match goal with |- exists h', bind ?e _ = _ /\ _ => replace e with (Ok h1) end. cbn [bind].
    destruct (IH h1) as (h2&E2&(T1&T2&T3&T4)&R2).
    { intros y I. rewrite S1. apply L; right; auto. }
    { intros y z. rewrite S2, S4, S1. apply P. }
    exists h2. split; auto. split; [repeat split; intros; congruence|].
    intros y. rewrite R2, R1. rewrite (sumf_ext (fun z => out h1 z y) (fun z => out h z y)) by (intros z _; unfold out; rewrite S2, S4; auto).
    unfold sumf. cbn [fold_right]. lia.
Qed.

(** pointers_to as a sum over positions *)
Lemma pointers_sum h y : pointers_to h y = sumf (fun z => out h z y) (seq 0 (length h)).
Proof.
  induction h as [|o h IH]; [reflexivity|]. cbn [length seq pointers_to fold_right]. unfold sumf. cbn [fold_right].
  fold (sumf (fun z => out (o :: h) z y) (seq 1 (length h))). rewrite sumf_seq_shift.
  replace (out (o :: h) 0 y) with (match o_kind o with GEmpty => 0 | _ => Z.of_nat (cnt (o_refs o) y) end) by reflexivity.
  f_equal. unfold pointers_to in IH. rewrite IH. apply sumf_ext. intros x _. reflexivity.
Qed.
Lemma sumf_upd f g l z : NoDup l -> In z l -> (forall x, x <> z -> f x = g x) -> sumf g l = sumf f l - f z + g z.
Proof.
  unfold sumf. induction l as [|a l IH]; intros N I H; [destruct I|]. inversion N; subst. cbn [fold_right].
  destruct I as [->|I].
  - replace (fold_right (fun z0 s => g z0 + s) 0 l) with (fold_right (fun z0 s => f z0 + s) 0 l); [lia|].
    apply (sumf_ext f g l). intros x Ix. apply H. intros ->. auto.
  - rewrite IH by auto. rewrite (H a); [lia|]. intros ->. auto.
Qed.

(** ** Freeing *)
Section Free.
Variables (h0 : gheap) (ext : nat -> Z).
Hypothesis ext_nonneg : forall y, 0 <= ext y.
Let N := length h0.
(* every marked object is held from outside or by a marked object *)
Hypothesis held : forall x, (x < N)%nat -> markof h0 x = true -> kindof h0 x <> GEmpty -> 0 < ext x \/ exists z, good h0 z /\ markof h0 z = true /\ In x (refsof h0 z).

Definition total_rem (rem : nat -> list nat) y := sumf (fun z => Z.of_nat (cnt (rem z) y)) (seq 0 N).
Definition bump (top : option nat) y := match top with Some x => if (x =? y)%nat then 1 else 0 | None => 0 end.

Record J (h : gheap) (rem : nat -> list nat) (top : option nat) (st : list nat) : Prop := {
  j_len : length h = N;
  j_refs : forall x, refsof h x = refsof h0 x;
  j_mark : forall x, markof h x = markof h0 x;
  j_sum : forall y, good h0 y -> refcof h y = ext y + bump top y + total_rem rem y;
  j_incl : forall x y, (x < N)%nat -> In y (rem x) -> good h0 y;
  j_marked : forall x, (x < N)%nat -> markof h0 x = true -> kindof h x = kindof h0 x /\ ~ In x st /\ (kindof h0 x <> GEmpty -> rem x = refsof h0 x);
  j_idle : forall x, (x < N)%nat -> ~ In x st ->
    match kindof h x with
    | GEmpty => rem x = [] /\ (good h0 x -> refcof h x = 0)
    | GFreed => rem x = [] /\ 0 < refcof h x /\ kindof h0 x = GLive
    | k => kindof h0 x = k /\ rem x = refsof h0 x /\ 0 < refcof h x
    end;
  j_busy : forall x, In x st -> (x < N)%nat /\ kindof h x <> GEmpty /\ good h0 x /\ (refcof h x = 0 \/ top = Some x)
}.
Definition mu (h : gheap) (st : list nat) : nat :=
  length (filter (fun x => match kindof h x with GEmpty => false | _ => negb (existsb (Nat.eqb x) st) end) (seq 0 N)).
Lemma existsb_in x st : existsb (Nat.eqb x) st = true <-> In x st.
Proof. rewrite existsb_exists. split; [intros (y&I&E); apply Nat.eqb_eq in E; subst; auto|intros I; exists x; split; auto; apply Nat.eqb_refl]. Qed.
Lemma existsb_not x st : existsb (Nat.eqb x) st = false <-> ~ In x st.
Proof. rewrite <- existsb_in. destruct (existsb (Nat.eqb x) st); intuition congruence. Qed.
(* monotone: free blocks stay free *)
Definition mono (h h' : gheap) := forall x, kindof h' x = kindof h x \/ kindof h' x = GEmpty.
Lemma mono_refl h : mono h h. Proof. intros x; auto. Qed.
Lemma mono_trans a b c : mono a b -> mono b c -> mono a c.
Proof. intros A B x. destruct (A x) as [E|E], (B x) as [F|F]; rewrite ?F; auto. Qed.
Lemma mu_mono h h' st : mono h h' -> (mu h' st <= mu h st)%nat.
Proof.
  intros A. unfold mu. apply filter_len_le. intros x _ H. destruct (A x) as [E|E]; rewrite E in H; auto; discriminate.
Qed.

Lemma seq_in x : (x < N)%nat -> In x (seq 0 N). Proof. intros. apply in_seq. lia. Qed.
Lemma rem_nonneg (rem : nat -> list nat) y : forall x, In x (seq 0 N) -> 0 <= Z.of_nat (cnt (rem x) y). Proof. intros; lia. Qed.
Lemma total_upd rem z l y : (z < N)%nat -> total_rem (fun x => if (x =? z)%nat then l else rem x) y = total_rem rem y - Z.of_nat (cnt (rem z) y) + Z.of_nat (cnt l y).
Proof.
  intros H. unfold total_rem. rewrite (sumf_upd (fun x => Z.of_nat (cnt (rem x) y)) (fun x => Z.of_nat (cnt (if (x =? z)%nat then l else rem x) y)) (seq 0 N) z).
  - rewrite Nat.eqb_refl. reflexivity.
  - apply seq_NoDup.
  - apply seq_in; auto.
  - intros x D. destruct (Nat.eqb_spec x z); congruence.
Qed.
Lemma total_pos rem z y : (z < N)%nat -> In y (rem z) -> 0 < total_rem rem y.
Proof.
  intros H I. unfold total_rem. assert (Q := sumf_ge (fun x => Z.of_nat (cnt (rem x) y)) (seq 0 N) z (rem_nonneg rem y) (seq_in z H)). cbn beta in Q.
  apply (count_occ_In Nat.eq_dec) in I. lia.
Qed.
Lemma total_nonneg rem y : 0 <= total_rem rem y. Proof. apply sumf_nonneg, rem_nonneg. Qed.
Lemma bump_nonneg top y : 0 <= bump top y. Proof. destruct top as [x|]; cbn; [destruct (x =? y)%nat|]; lia. Qed.
Lemma J_nonneg h rem top st y : J h rem top st -> good h0 y -> 0 <= refcof h y.
Proof. intros H L. rewrite (j_sum _ _ _ _ H y L). assert (A := ext_nonneg y). assert (B := bump_nonneg top y). assert (C := total_nonneg rem y). lia. Qed.

(* one decrement of the pending pointers of z *)
Lemma dec_step h rem top st z y l : J h rem top st -> In z st -> rem z = y :: l ->
  exists h1, add_refc h y (-1) = Ok h1 /\ (y < length h1)%nat /\ (forall x, kindof h1 x = kindof h x) /\ mono h h1 /\
    let rem1 := fun x => if (x =? z)%nat then l else rem x in
    (refcof h1 y <> 0 /\ J h1 rem1 top st \/
     refcof h1 y = 0 /\ J h1 rem1 top (y :: st) /\ ~ In y st /\ kindof h1 y <> GEmpty /\ rem1 y = match kindof h1 y with GFreed => [] | _ => refsof h0 y end).
Proof.
  intros H Iz Ez. assert (Lz : (z < N)%nat) by (apply (j_busy _ _ _ _ H z Iz)).
  assert (Gy : good h0 y) by (apply (j_incl _ _ _ _ H z y Lz); rewrite Ez; left; auto).
  assert (Ly : (y < N)%nat) by (apply Gy).
  destruct (add_refc_ok h y (-1)) as (h1&E1&L1&K1&R1&M1&F1); [rewrite (j_len _ _ _ _ H); auto|].
  exists h1. split; auto. split; [rewrite L1, (j_len _ _ _ _ H); auto|]. split; [auto|]. split; [intros x; rewrite K1; auto|]. cbv zeta.
  set (rem1 := fun x => if (x =? z)%nat then l else rem x).
  assert (T1 : forall x, total_rem rem1 x = total_rem rem x - (if (y =? x)%nat then 1 else 0)).
  { intros x. unfold rem1. rewrite total_upd by auto. rewrite Ez. cbn [count_occ]. destruct (Nat.eq_dec y x), (Nat.eqb_spec y x); try congruence; lia. }
  assert (Py : 0 < total_rem rem y) by (apply (total_pos rem z); auto; rewrite Ez; left; auto).
  assert (Sy := j_sum _ _ _ _ H y Gy). assert (Ey := ext_nonneg y). assert (By := bump_nonneg top y).
  assert (Ry : 0 < refcof h y) by lia.
  assert (Sum1 : forall x, good h0 x -> refcof h1 x = ext x + bump top x + total_rem rem1 x).
  { intros x Lx. rewrite R1, T1, (j_sum _ _ _ _ H x Lx). destruct (Nat.eqb y x); lia. }
  assert (Z1 : refcof h1 y = refcof h y - 1) by (rewrite R1, Nat.eqb_refl; lia).
  assert (Incl1 : forall x w, (x < N)%nat -> In w (rem1 x) -> good h0 w).
  { intros x w Lx I. unfold rem1 in I. destruct (Nat.eqb_spec x z); [apply (j_incl _ _ _ _ H z w Lz); rewrite Ez; right; auto|apply (j_incl _ _ _ _ H x w); auto]. }
  assert (NR : forall x, ~ In x st -> rem1 x = rem x).
  { intros x I. unfold rem1. destruct (Nat.eqb_spec x z); [congruence|auto]. }
  assert (Busy1 : forall x, In x st -> x <> y \/ top = Some y).
  { intros x Ix. destruct (Nat.eq_dec x y) as [->|]; auto. destruct (j_busy _ _ _ _ H y Ix) as (_&_&_&[Q|Q]); [lia|auto]. }
  destruct (Z.eq_dec (refcof h1 y) 0) as [Z0|NZ].
  - right. split; auto.
    assert (Tn : top <> Some y). { intros ->. cbn in By, Sy. rewrite Nat.eqb_refl in Sy. lia. }
    assert (Ny : ~ In y st). { intros Iy. destruct (Busy1 y Iy); congruence. }
    assert (Tot0 : total_rem rem1 y = 0). { assert (Q := Sum1 y Gy). assert (Q2 := total_nonneg rem1 y). lia. }
    assert (Um : markof h0 y = false).
    { destruct (markof h0 y) eqn:Em; auto. exfalso.
      destruct (held y Ly Em) as [Q|(w&Gw&Mw&Iw)]; [destruct Gy as [_ [Q|Q]]; rewrite Q; discriminate| |].
      - assert (Q1 := Sum1 y Gy). assert (Q2 := total_nonneg rem1 y). lia.
      - destruct (j_marked _ _ _ _ H w (proj1 Gw) Mw) as (_&Nw&Rw).
        assert (In y (rem1 w)). { rewrite (NR w Nw), Rw; auto. destruct Gw as [_ [Q|Q]]; rewrite Q; discriminate. }
        assert (Q := total_pos rem1 w y (proj1 Gw) H0). lia. }
    assert (Idy := j_idle _ _ _ _ H y Ly Ny). rewrite K1.
    assert (Ke : kindof h y <> GEmpty). { intros Q. rewrite Q in Idy. destruct Idy as (_&Idy). specialize (Idy Gy). lia. }
    split; [|split; [auto|split; [auto|]]].
    + split.
      * rewrite L1. apply (j_len _ _ _ _ H).
      * intros x. rewrite F1. apply (j_refs _ _ _ _ H).
      * intros x. rewrite M1. apply (j_mark _ _ _ _ H).
      * exact Sum1.
      * exact Incl1.
      * intros x Lx Mx. destruct (j_marked _ _ _ _ H x Lx Mx) as (A&B&C). rewrite K1. split; auto. split; [intros [<-|Q]; [congruence|auto]|]. intros Q. rewrite NR; auto.
      * intros x Lx Nx. assert (Nx' : ~ In x st) by (intros Q; apply Nx; right; auto). rewrite K1, (NR x Nx'), R1. assert (D : y <> x) by (intros ->; apply Nx; left; auto).
        destruct (Nat.eqb_spec y x); [congruence|]. rewrite Z.add_0_r. apply (j_idle _ _ _ _ H x Lx Nx').
      * intros x [<-|Ix].
        -- rewrite K1. split; [auto|split; [auto|split; [auto|left; auto]]].
        -- destruct (j_busy _ _ _ _ H x Ix) as (A&B&C&D). rewrite K1, R1. split; [auto|split; [auto|split; [auto|]]].
           destruct D as [D|D]; [left|right; auto]. destruct (Nat.eqb_spec y x); [subst; lia|lia].
    + rewrite (NR y Ny). destruct (kindof h y); intuition congruence.
  - left. split; auto. split.
    + rewrite L1. apply (j_len _ _ _ _ H).
    + intros x. rewrite F1. apply (j_refs _ _ _ _ H).
    + intros x. rewrite M1. apply (j_mark _ _ _ _ H).
    + exact Sum1.
    + exact Incl1.
    + intros x Lx Mx. destruct (j_marked _ _ _ _ H x Lx Mx) as (A&B&C). rewrite K1. split; auto. split; auto. intros Q. rewrite NR; auto.
    + intros x Lx Nx. rewrite K1, (NR x Nx), R1. assert (Q := j_idle _ _ _ _ H x Lx Nx).
      destruct (Nat.eqb_spec y x) as [<-|D].
      * destruct (kindof h y); [destruct Q as (_&Q); specialize (Q Gy); lia| | |]; repeat split; try tauto; lia.
      * rewrite Z.add_0_r. exact Q.
    + intros x Ix. destruct (j_busy _ _ _ _ H x Ix) as (A&B&C&D). rewrite K1, R1. split; [auto|split; [auto|split; [auto|]]].
      destruct D as [D|D]; [left|right; auto]. destruct (Nat.eqb_spec y x); [subst; lia|lia].
Qed.

(* taking x off the stack once its pointers are released *)
Lemma pop_step h rem top st x : J h rem top (x :: st) -> top <> Some x -> ~ In x st -> rem x = [] ->
  exists h1, set_kind h x GEmpty = Ok h1 /\ J h1 rem top st /\ mono h h1 /\ kindof h1 x = GEmpty /\ (forall y, y <> x -> kindof h1 y = kindof h y).
Proof.
  intros H T Nx Rx. destruct (j_busy _ _ _ _ H x (or_introl eq_refl)) as (Lx&Kx&Gx&Bx). assert (Zx : refcof h x = 0) by (destruct Bx; congruence).
  destruct (set_kind_ok h x GEmpty) as (h1&E1&L1&K1&R1&M1&F1); [rewrite (j_len _ _ _ _ H); auto|].
  exists h1. split; auto. split; [|split; [|split]].
  - split.
    + rewrite L1. apply (j_len _ _ _ _ H).
    + intros y. rewrite F1. apply (j_refs _ _ _ _ H).
    + intros y. rewrite M1. apply (j_mark _ _ _ _ H).
    + intros y Gy. rewrite R1. apply (j_sum _ _ _ _ H y Gy).
    + apply (j_incl _ _ _ _ H).
    + intros y Ly My. destruct (j_marked _ _ _ _ H y Ly My) as (A&B&C). rewrite K1. destruct (Nat.eqb_spec x y) as [->|]; [exfalso; apply B; left; auto|].
      split; auto. split; auto. intros Q; apply B; right; auto.
    + intros y Ly Ny. rewrite K1, R1. destruct (Nat.eqb_spec x y) as [<-|D]; [auto|]. apply (j_idle _ _ _ _ H y Ly). intros [Q|Q]; auto.
    + intros y Iy. destruct (j_busy _ _ _ _ H y (or_intror Iy)) as (A&B&C&D). rewrite K1, R1. destruct (Nat.eqb_spec x y) as [<-|]; [contradiction|]. auto.
  - intros y; rewrite K1; destruct (Nat.eqb x y); auto.
  - rewrite K1, Nat.eqb_refl; auto.
  - intros y D. rewrite K1. destruct (Nat.eqb_spec x y); congruence.
Qed.

Lemma mu_push h st y : (y < N)%nat -> kindof h y <> GEmpty -> ~ In y st -> (mu h (y :: st) < mu h st)%nat.
Proof.
  intros L K I. unfold mu. apply (filter_len_lt _ _ _ y).
  - intros x _. cbn [existsb]. destruct (kindof h x); auto; destruct (Nat.eqb x y); cbn; auto; discriminate.
  - apply seq_in; auto.
  - cbn [existsb]. rewrite Nat.eqb_refl. cbn. destruct (kindof h y); auto.
  - apply existsb_not in I. rewrite I. destruct (kindof h y); auto; congruence.
Qed.

Definition agree (st : list nat) (r r' : nat -> list nat) := forall x, In x st -> r' x = r x.
Lemma vf_go n l h : (fix go (l : list nat) (h : gheap) : res gheap :=
                 match l with
                 | [] => Ok h
                 | y :: l => do h <- add_refc h y (-1); do p <- rd h y; do h <- (if o_refc p =? 0 then value_free n h y else Ok h); go l h
                 end) l h = decs n h l.
Proof.
  revert h. induction l as [|y l IH]; intros h; cbn [decs]; auto. destruct (add_refc h y (-1)) as [h1| |]; cbn [bind]; auto.
  destruct (rd h1 y) as [p| |]; cbn [bind]; auto. destruct (if o_refc p =? 0 then value_free n h1 y else Ok h1); cbn [bind]; auto.
Qed.

Definition vf_stmt (n : nat) := forall h rem top st y, J h rem top (y :: st) -> (mu h (y :: st) < n)%nat -> refcof h y = 0 -> top <> Some y -> ~ In y st -> kindof h y <> GEmpty ->
  rem y = match kindof h y with GFreed => [] | _ => refsof h0 y end ->
  exists h' rem', value_free n h y = Ok h' /\ J h' rem' top st /\ mono h h' /\ agree st rem rem'.
Definition ds_stmt (n : nat) := forall l h rem top st z, J h rem top st -> (mu h st <= n)%nat -> In z st -> rem z = l ->
  exists h' rem', decs n h l = Ok h' /\ J h' rem' top st /\ mono h h' /\ rem' z = [] /\ (forall x, In x st -> x <> z -> rem' x = rem x).

Lemma ds_of_vf n : vf_stmt n -> ds_stmt n.
Proof.
  intros V. intros l. induction l as [|y l IH]; intros h rem top st z H U Iz Ez; cbn [decs].
  - exists h, rem. split; auto. split; auto. split; [apply mono_refl|]. auto.
  - destruct (dec_step h rem top st z y l H Iz Ez) as (h1&E1&L1&K1&M1&D). rewrite E1. cbn [bind].
    destruct (rd_ok h1 y L1) as (p&Ep&_&Rp&_). rewrite Ep. cbn [bind]. rewrite Rp. cbv zeta in D.
    set (rem1 := fun x => if (x =? z)%nat then l else rem x) in *.
    assert (R1z : rem1 z = l) by (unfold rem1; rewrite Nat.eqb_refl; auto).
    assert (R1o : forall x, x <> z -> rem1 x = rem x) by (intros x Dx; unfold rem1; destruct (Nat.eqb_spec x z); congruence).
    destruct D as [(NZ&J1)|(Z0&J1&Ny&Ky&Ry)].
    + destruct (Z.eqb_spec (refcof h1 y) 0); [contradiction|]. cbn [bind].
      destruct (IH h1 rem1 top st z J1) as (h2&rem2&E2&J2&M2&R2&O2); auto; [assert (Q := mu_mono h h1 st M1); lia|].
      exists h2, rem2. split; auto. split; auto. split; [eapply mono_trans; eauto|]. split; auto. intros x Ix Dx. rewrite O2; auto.
    + destruct (Z.eqb_spec (refcof h1 y) 0); [|contradiction].
      assert (Ly : (y < N)%nat) by (apply (j_busy _ _ _ _ J1 y); left; auto).
      destruct (V h1 rem1 top st y) as (h2&rem2&E2&J2&M2&A2); auto.
      { assert (Q := mu_mono h h1 st M1). assert (Q2 := mu_push h1 st y Ly Ky Ny). lia. }
      { intros ->. assert (Q := j_sum _ _ _ _ J1 y (proj1 (proj2 (proj2 (j_busy _ _ _ _ J1 y (or_introl eq_refl)))))). cbn in Q. rewrite Nat.eqb_refl in Q. assert (Q1 := ext_nonneg y). assert (Q2 := total_nonneg rem1 y). lia. }
      rewrite E2. cbn [bind].
      destruct (IH h2 rem2 top st z J2) as (h3&rem3&E3&J3&M3&R3&O3); auto.
      { assert (Q := mu_mono h h1 st M1). assert (Q2 := mu_mono h1 h2 st M2). lia. }
      { rewrite A2; auto. }
      exists h3, rem3. split; auto. split; auto. split; [eapply mono_trans; eauto; eapply mono_trans; eauto|]. split; auto. intros x Ix Dx. rewrite O3, A2; auto.
Qed.
Lemma vf_ok n : vf_stmt n.
Proof.
  induction n as [|n IH]; intros h rem top st y H U Z T Ny K R; [lia|].
  assert (Ly : (y < N)%nat) by (apply (j_busy _ _ _ _ H y); left; auto).
  cbn [value_free]. destruct (rd_ok h y) as (o&E&Ko&_&_&Fo); [rewrite (j_len _ _ _ _ H); auto|]. rewrite E. cbn [bind]. rewrite Ko, vf_go, Fo, (j_refs _ _ _ _ H y).
  destruct (kindof h y) eqn:Ky; [congruence| | |].
  - destruct (pop_step h rem top st y H T Ny R) as (h1&E1&J1&M1&_). exists h1, rem. split; auto. split; auto. split; auto. intros x _; auto.
  - destruct (ds_of_vf n IH (refsof h0 y) h rem top (y :: st) y H) as (h1&rem1&E1&J1&M1&R1&O1); auto; [lia|left; auto|].
    rewrite E1. cbn [bind]. destruct (pop_step h1 rem1 top st y J1 T Ny R1) as (h2&E2&J2&M2&_). exists h2, rem1. split; auto. split; auto.
    split; [eapply mono_trans; eauto|]. intros x Ix. apply O1; [right; auto|]. intros ->. auto.
  - destruct (ds_of_vf n IH (refsof h0 y) h rem top (y :: st) y H) as (h1&rem1&E1&J1&M1&R1&O1); auto; [lia|left; auto|].
    rewrite E1. cbn [bind]. destruct (pop_step h1 rem1 top st y J1 T Ny R1) as (h2&E2&J2&M2&_). exists h2, rem1. split; auto. split; auto.
    split; [eapply mono_trans; eauto|]. intros x Ix. apply O1; [right; auto|]. intros ->. auto.
Qed.
Lemma ds_ok n : ds_stmt n.
Proof. apply ds_of_vf, vf_ok. Qed.

(* one object of the loop over the heap; afterwards x is gone unless marked or skipped *)
Lemma try_free_spec h rem x : J h rem None [] -> (x < N)%nat -> (kindof h x <> GFreed) ->
  exists h' rem', try_free h x = Ok h' /\ J h' rem' None [] /\ (forall y, y <> x -> kindof h' y = kindof h y \/ kindof h' y = GEmpty) /\ (forall y, y <> x -> kindof h' y = GFreed -> kindof h y = GFreed) /\ (markof h0 x = false -> kindof h' x <> GLive).
Proof.
  intros H Lx KF. unfold try_free. destruct (rd_ok h x) as (o&E&Ko&_&Mo&Fo); [rewrite (j_len _ _ _ _ H); auto|]. rewrite E. cbn [bind].
  rewrite Mo, (j_mark _ _ _ _ H x). destruct (markof h0 x) eqn:Em.
  { exists h, rem. split; auto. split; auto. split; [auto|]. split; [auto|discriminate]. }
  rewrite Ko. destruct (kindof h x) eqn:Kx; [|congruence| |].
  1,2: exists h, rem; split; auto; split; auto; split; [auto|]; split; [auto|congruence].
  assert (Id := j_idle _ _ _ _ H x Lx (fun Q => Q)). rewrite Kx in Id. destruct Id as (K0&R0&P0).
  destruct (set_kind_ok h x GFreed) as (h1&E1&L1&K1&R1&M1&F1); [rewrite (j_len _ _ _ _ H); auto|]. rewrite E1. cbn [bind].
  destruct (add_refc_ok h1 x 1) as (h2&E2&L2&K2&R2&M2&F2); [rewrite L1, (j_len _ _ _ _ H); auto|]. rewrite E2. cbn [bind].
  assert (J2 : J h2 rem (Some x) [x]).
  { split.
    - rewrite L2, L1. apply (j_len _ _ _ _ H).
    - intros y. rewrite F2, F1. apply (j_refs _ _ _ _ H).
    - intros y. rewrite M2, M1. apply (j_mark _ _ _ _ H).
    - intros y Gy. rewrite R2, R1, (j_sum _ _ _ _ H y Gy). cbn. lia.
    - apply (j_incl _ _ _ _ H).
    - intros y Ly My. destruct (j_marked _ _ _ _ H y Ly My) as (A&B&C). assert (x <> y) by congruence. rewrite K2, K1. destruct (Nat.eqb_spec x y); [congruence|].
      split; auto. split; auto. intros [Q|[]]; auto.
    - intros y Ly Ny. assert (x <> y) by (intros ->; apply Ny; left; auto). rewrite K2, K1, R2, R1. destruct (Nat.eqb_spec x y); [congruence|]. rewrite Z.add_0_r. apply (j_idle _ _ _ _ H y Ly); auto.
    - intros y [<-|[]]. rewrite K2, K1, Nat.eqb_refl. split; auto. split; [discriminate|]. split; [|auto]. split; auto. }
  rewrite Fo, (j_refs _ _ _ _ H x), <- R0.
  destruct (ds_ok (fuel h2) (rem x) h2 rem (Some x) [x] x J2) as (h3&rem3&E3&J3&M3&R3&_); auto; [|left; auto|].
  { unfold mu, fuel. rewrite L2, L1, (j_len _ _ _ _ H). match goal with |- (length (filter ?f ?l) <= _)%nat => assert (Q := filter_len_le f (fun _ => true) l (fun _ _ _ => eq_refl)) end.
    assert (Q2 : forall l : list nat, filter (fun _ => true) l = l) by (induction l as [|a l IHl]; cbn; congruence). rewrite Q2, seq_length in Q. lia. }
  rewrite E3. cbn [bind].
  destruct (add_refc_ok h3 x (-1)) as (h4&E4&L4&K4&R4&M4&F4); [rewrite (j_len _ _ _ _ J3); auto|]. rewrite E4. cbn [bind].
  destruct (rd_ok h4 x) as (p&Ep&_&Rp&_); [rewrite L4, (j_len _ _ _ _ J3); auto|]. rewrite Ep. cbn [bind]. rewrite Rp.
  assert (K3x : kindof h3 x = GFreed).
  { destruct (j_busy _ _ _ _ J3 x (or_introl eq_refl)) as (_&Q2&_). destruct (M3 x) as [Q|Q]; [|congruence]. rewrite Q, K2, K1, Nat.eqb_refl; auto. }
  assert (S4 : forall y, good h0 y -> refcof h4 y = ext y + total_rem rem3 y).
  { intros y Ly. rewrite R4, (j_sum _ _ _ _ J3 y Ly). cbn. destruct (x =? y)%nat; lia. }
  assert (NFr : forall y, y <> x -> kindof h3 y = GFreed -> kindof h y = GFreed).
  { intros y Dy Q. destruct (M3 y) as [Q2|Q2]; [|congruence]. rewrite Q2, K2, K1 in Q. destruct (Nat.eqb_spec x y); congruence. }
  assert (Fin : forall k h5, (forall y, kindof h5 y = if (x =? y)%nat then k else kindof h4 y) -> length h5 = length h4 -> (forall y, refcof h5 y = refcof h4 y) ->
     (forall y, markof h5 y = markof h4 y) -> (forall y, refsof h5 y = refsof h4 y) -> (k = GEmpty /\ refcof h4 x = 0 \/ k = GFreed /\ 0 < refcof h4 x) ->
     J h5 rem3 None [] /\ (forall y, y <> x -> kindof h5 y = kindof h y \/ kindof h5 y = GEmpty) /\ (forall y, y <> x -> kindof h5 y = GFreed -> kindof h y = GFreed) /\ kindof h5 x <> GLive).
  { intros k h5 K5 L5 R5 M5 F5 D. split; [|split; [|split]].
    - split.
      + rewrite L5, L4. apply (j_len _ _ _ _ J3).
      + intros y. rewrite F5, F4. apply (j_refs _ _ _ _ J3).
      + intros y. rewrite M5, M4. apply (j_mark _ _ _ _ J3).
      + intros y Ly. rewrite R5, S4; auto. cbn. lia.
      + apply (j_incl _ _ _ _ J3).
      + intros y Ly My. destruct (j_marked _ _ _ _ J3 y Ly My) as (A&B&C). assert (x <> y) by (intros ->; apply B; left; auto). rewrite K5, K4. destruct (Nat.eqb_spec x y); [congruence|]. auto.
      + intros y Ly _. rewrite K5, K4, R5. destruct (Nat.eqb_spec x y) as [<-|Dy].
        * destruct D as [(->&D)|(->&D)]; auto.
        * rewrite R4. destruct (Nat.eqb_spec x y); [congruence|]. rewrite Z.add_0_r. apply (j_idle _ _ _ _ J3 y Ly). intros [Q|[]]; auto.
      + intros y [].
    - intros y Dy. rewrite K5, K4. destruct (Nat.eqb_spec x y); [congruence|]. destruct (M3 y) as [Q|Q]; auto. left. rewrite Q, K2, K1. destruct (Nat.eqb_spec x y); congruence.
    - intros y Dy. rewrite K5, K4. destruct (Nat.eqb_spec x y); [congruence|]. auto.
    - rewrite K5, Nat.eqb_refl. destruct D as [(->&_)|(->&_)]; discriminate. }
  assert (P4 : 0 <= refcof h4 x) by (rewrite S4 by (split; auto); assert (Q1 := ext_nonneg x); assert (Q2 := total_nonneg rem3 x); lia).
  destruct (Z.eqb_spec (refcof h4 x) 0) as [Z4|Z4].
  - destruct (set_kind_ok h4 x GEmpty) as (h5&E5&L5&K5&R5&M5&F5); [rewrite L4, (j_len _ _ _ _ J3); auto|].
    destruct (Fin GEmpty h5) as (A&B&C&D); auto; exists h5, rem3. auto.
  - destruct (Fin GFreed h4) as (A&B&C&D); auto.
    { intros y. destruct (Nat.eqb_spec x y) as [<-|]; auto. rewrite K4; auto. }
    { right. split; auto. lia. }
    exists h4, rem3. auto.
Qed.

Lemma try_all_spec : forall l h rem, J h rem None [] -> NoDup l -> (forall x, In x l -> (x < N)%nat /\ kindof h x <> GFreed) ->
  exists h' rem', for_heap try_free h l = Ok h' /\ J h' rem' None [] /\ (forall y, ~ In y l -> kindof h' y = kindof h y \/ kindof h' y = GEmpty) /\
    (forall x, In x l -> markof h0 x = false -> kindof h' x <> GLive).
Proof.
  induction l as [|x l IH]; intros h rem H ND L; cbn [for_heap].
  - exists h, rem. auto.
  - inversion ND as [|? ? Nx ND']; subst. destruct (L x (or_introl eq_refl)) as (Lx&Kx).
    destruct (rd_ok h x) as (o&E&Ko&_); [rewrite (j_len _ _ _ _ H); auto|]. rewrite E. cbn [bind]. rewrite Ko.
    destruct (try_free_spec h rem x H Lx Kx) as (h1&rem1&E1&J1&M1&F1&G1).
    assert (Em : match kindof h x with GEmpty => Ok h | GFreed => try_free h x | GSkip => try_free h x | GLive => try_free h x end = Ok h1).
    { destruct (kindof h x) eqn:K; auto. revert E1. unfold try_free. rewrite E. cbn [bind]. rewrite Ko. destruct (o_mark o); auto. }
    replace (match kindof h x with GEmpty => Ok h | _ => try_free h x end) with (Ok h1) by (symmetry; exact Em). cbn [bind].
    destruct (IH h1 rem1 J1 ND') as (h2&rem2&E2&J2&M2&G2).
    { intros y I. destruct (L y (or_intror I)) as (A&B). split; auto. intros Q. apply B, F1; auto. intros ->. auto. }
    exists h2, rem2. split; auto. split; auto. split.
    + intros y Ny. destruct (M2 y) as [Q|Q]; auto; [intros I; apply Ny; right; auto|]. rewrite Q. apply M1. intros ->. apply Ny. left; auto.
    + intros y [<-|I] My; [|auto]. destruct (M2 x Nx) as [Q|Q]; rewrite Q; [auto|discriminate].
Qed.
End Free.

Lemma nth_error_map_ {A B} (f : A -> B) l i : nth_error (map f l) i = option_map f (nth_error l i).
Proof. revert i. induction l as [|a l IH]; intros [|i]; cbn; auto. Qed.
Lemma unmark_ok h : same_m h (unmark h) /\ forall x, (x < length h)%nat -> markof (unmark h) x = false.
Proof.
  unfold unmark, same_m, kindof, refcof, refsof, markof. rewrite map_length. repeat split; intros y; rewrite nth_error_map_; destruct (nth_error h y) eqn:E; auto.
  intros L. apply nth_error_None in E. lia.
Qed.

Lemma gc_spec (top : bool) roots h ext : consistent h ext -> (forall r, In r roots -> 0 < ext r) ->
  (top = true -> forall x, 0 < ext x -> In x roots \/ kindof h x = GSkip) ->
  exists h', gc_run top roots h = Ok h' /\ length h' = length h /\ consistent h' ext /\
    forall x, (x < length h)%nat -> (reach h (fun y => 0 < ext y) x -> kindof h' x = kindof h x /\ refsof h' x = refsof h x) /\
                    (kindof h' x <> GEmpty -> reach h (fun y => 0 < ext y) x).
Proof.
  intros (EN&CO&CE) RT TP.
  assert (AL : forall x, kindof h x <> GEmpty -> exists o, nth_error h x = Some o /\ allocated o).
  { intros x K. unfold kindof in K. destruct (nth_error h x) eqn:E; [|congruence]. eauto. }
  assert (NF : forall x, kindof h x <> GFreed).
  { intros x K. destruct (AL x) as (o&E&A); [congruence|]. unfold kindof in K. rewrite E in K. destruct (CO x o E A) as (_&_&_&_&Q). auto. }
  assert (GD : forall x, kindof h x <> GEmpty -> good h x).
  { intros x K. split; [destruct (AL x K) as (o&E&_); eapply some_lt; eauto|]. specialize (NF x). destruct (kindof h x); auto; congruence. }
  assert (GA : forall y, (exists p, nth_error h y = Some p /\ allocated p) -> good h y).
  { intros y (p&E&A). apply GD. unfold kindof. rewrite E. exact A. }
  assert (P : ptrs_ok h).
  { intros x y G I. apply GA. destruct (AL x) as (o&E&A); [destruct G as (_&[G|G]); congruence|]. apply (CO x o E A). unfold refsof in I. rewrite E in I. exact I. }
  assert (SK : forall x, kindof h x = GSkip -> refsof h x = []).
  { intros x K. destruct (AL x) as (o&E&A); [congruence|]. unfold kindof, refsof in *. rewrite E in *. apply (CO x o E A); auto. }
  assert (RC : forall x, good h x -> refcof h x = ext x + pointers_to h x /\ 0 < refcof h x).
  { intros x G. destruct (AL x) as (o&E&A); [destruct G as (_&[G|G]); congruence|]. unfold refcof. rewrite E. destruct (CO x o E A) as (Q1&Q2&_). auto. }
  assert (RG : forall r, 0 < ext r -> good h r) by (intros r R; apply GA, CE; auto).
  assert (ReG : forall x, reach h (fun y => 0 < ext y) x -> good h x).
  { intros x R. induction R as [x S0|x o y R IH E I]; auto. apply (P x); auto. unfold refsof. rewrite E. exact I. }
  destruct (unmark_ok h) as (U1&U2). set (h1 := unmark h) in *.
  assert (P1 : ptrs_ok h1) by (eapply ptrs_same; eauto).
  (* marking *)
  set (start := fun y => if top then In y roots else (0 < ext y)).
  assert (StE : forall y, start y -> 0 < ext y) by (intros y; unfold start; destruct top; auto).
  assert (Mk : exists hm, (do h2 <- (if top then Ok h1 else do h2 <- for_heap (visit_obj (-1)) h1 (all h); do h2 <- for_heap mark_nonzero h2 (all h2); for_heap (visit_obj 1) h2 (all h2)); marks (fuel h2) h2 roots) = Ok hm /\
    same_m h hm /\ (forall x, start x -> markof hm x = true) /\ (forall x y, (x < length h)%nat -> markof hm x = true -> In y (refsof h x) -> markof hm y = true) /\
    (forall x, (x < length h)%nat -> markof hm x = true -> reach h start x)).
  { destruct top; cbn [bind].
    - destruct (marks_spec (fuel h1) roots h1) as (hm&E&F); [apply unm_fuel|auto|intros y I; apply (good_same h); auto|].
      exists hm. split; [exact E|]. destruct F as [F1 F2 F3 F4 F5]. split; [eapply same_m_trans; eauto|]. split; [exact F3|]. split.
      + intros x y L M I. apply (F4 x y); auto. destruct U1 as (_&_&_&U1). rewrite U1; auto.
      + intros x L M. apply (reach_same h1 h); auto using same_m_sym.
    - assert (PL : forall h', length h' = length h -> (forall y, kindof h' y = kindof h y) -> (forall y, refsof h' y = refsof h y) -> forall x y, kindof h' x <> GEmpty -> In y (refsof h' x) -> (y < length h')%nat).
      { intros h' Q1 Q2 Q3 x y. rewrite Q1, Q2, Q3. intros K I. apply (P x y); auto. }
      destruct U1 as (UL&UK&UR&UF).
      destruct (visit_all_spec (-1) (all h) h1) as (h2&E2&S2&R2).
      { intros x I. apply in_seq in I. lia. }
      { apply PL; auto. }
      rewrite E2. cbn [bind]. destruct S2 as (SL&S_K&SM&SF).
      assert (OUT : forall h', (forall y, kindof h' y = kindof h y) -> (forall y, refsof h' y = refsof h y) -> forall y, sumf (fun z => out h' z y) (seq 0 (length h)) = pointers_to h y).
      { intros h' Q1 Q2 y. rewrite pointers_sum. apply sumf_ext. intros z _; unfold out; rewrite Q1, Q2; auto. }
      assert (R2' : forall y, good h y -> refcof h2 y = ext y).
      { intros y G. rewrite R2. destruct (RC y G) as (Q&_). unfold all. rewrite UR, Q, (OUT h1) by auto. lia. }
      assert (G2 : forall x, good h2 x <-> good h x) by (intros x; unfold good; rewrite SL, UL, S_K, UK; tauto).
      destruct (mark_nonzero_spec (all h2) h2) as (h3&E3&F3).
      { intros x y G I. apply G2, (P x y); [apply G2; auto|]. rewrite <- UF, <- SF. auto. }
      { intros x. rewrite S_K, UK. auto. }
      { intros x I. apply in_seq in I. lia. }
      rewrite E3. cbn [bind]. set (l3 := filter _ _) in F3.
      assert (L3 : forall x, In x l3 <-> 0 < ext x).
      { intros x. unfold l3. rewrite filter_In, S_K, UK. unfold all. rewrite in_seq. split.
        - intros (_&Q). assert (G : good h x) by (apply GD; intros Q2; rewrite Q2 in Q; discriminate). rewrite R2' in Q by auto. specialize (EN x). destruct (kindof h x); try discriminate; lia.
        - intros Q. assert (G := RG x Q). rewrite R2' by auto. split; [destruct G; lia|]. destruct G as (_&[G|G]); rewrite G; lia. }
      destruct F3 as [(TL&TK&TR&TF) F32 F33 F34 F35].
      destruct (visit_all_spec 1 (all h3) h3) as (h4&E4&(VL&VK&VM&VF)&R4).
      { intros x I. apply in_seq in I. lia. }
      { apply PL; [lia| |]; intros y; congruence. }
      rewrite E4. cbn [bind].
      assert (S4 : same_m h h4).
      { repeat split; [lia|intros; congruence| |intros; congruence].
        intros y. rewrite R4, TR, R2, UR. unfold all. replace (length h3) with (length h) by lia. rewrite (OUT h1), (OUT h3) by (intros; congruence). lia. }
      destruct (marks_spec (fuel h4) roots h4) as (hm&E&F); [apply unm_fuel|eapply ptrs_same; eauto|intros y I; apply (good_same h); auto|].
      exists hm. split; [exact E|]. destruct F as [F1 F2 F3 F4 F5]. split; [eapply same_m_trans; eauto|].
      split; [|split].
      + intros x Sx. apply F2. rewrite VM. apply F33, L3; auto.
      + intros x y L M I. destruct (markof h4 x) eqn:M4.
        * apply F2. rewrite VM in *. apply (F34 x y); auto; [rewrite SM; auto|rewrite SF, UF; auto].
        * apply (F4 x y); auto. destruct S4 as (_&_&_&Q). rewrite Q; auto.
      + intros x L M. destruct (markof h4 x) eqn:M4.
        * rewrite VM in M4. assert (Q : reach h2 (fun y => In y l3) x) by (apply F35; auto; rewrite SM; auto).
          apply (reach_refs_eq h2 h) in Q; [|intros; congruence]. revert Q. apply reach_mono. intros y I. apply L3; auto.
        * apply (reach_same h4 h); auto using same_m_sym. apply (reach_mono h4 (fun y => In y roots)); auto. }
  destruct Mk as (hm&Em&Sm&M1&M2&M3).
  match type of Em with bind ?e _ = _ => destruct e as [hx| |] eqn:Ex end; cbn [bind] in Em; try discriminate.
  unfold gc_run. fold h1. rewrite Ex. cbn [bind]. rewrite Em. cbn [bind].
  destruct Sm as (ML&MK&MR&MF).
  assert (Gm : forall x, good hm x <-> good h x) by (intros x; unfold good; rewrite ML, MK; tauto).
  assert (NE : forall x, good h x -> kindof h x <> GEmpty) by (intros x (_&[Q|Q]); congruence).
  assert (Hd : forall x, (x < length hm)%nat -> markof hm x = true -> kindof hm x <> GEmpty -> 0 < ext x \/ exists z, good hm z /\ markof hm z = true /\ In x (refsof hm z)).
  { intros x L M K. assert (R := M3 x ltac:(lia) M). destruct R as [x S0|x o y R E I]; [left; auto|]. right. exists x. rewrite Gm, MF.
    assert (Gx : good h x) by (apply ReG; revert R; apply reach_mono; auto).
    split; auto. split; [|unfold refsof; rewrite E; auto].
    clear -R M1 M2 ReG StE. induction R as [x S0|x o y R IH E I]; auto. apply (M2 x); [apply ReG; revert R; apply reach_mono; auto|auto|unfold refsof; rewrite E; auto]. }
  assert (J0 : J hm ext hm (fun x => match kindof hm x with GEmpty => [] | _ => refsof hm x end) None []).
  { split; auto.
    - intros y G. apply Gm in G. destruct (RC y G) as (Q&_). rewrite MR, Q, pointers_sum. unfold total_rem. rewrite ML. cbn [bump]. rewrite Z.add_0_r. f_equal.
      apply sumf_ext. intros z _. unfold out. rewrite MK, MF. destruct (kindof h z); reflexivity.
    - intros x y L. rewrite MK, MF. intros I. apply Gm. apply (P x); auto; [apply GD; intros Q; rewrite Q in I; destruct I|destruct (kindof h x); auto; destruct I].
    - intros x L M. split; auto. split; [intros []|]. destruct (kindof hm x); congruence.
    - intros x L _. assert (NFx := NF x). destruct (kindof hm x) eqn:K; rewrite MK in K; [|congruence| |].
      + split; auto. intros G. apply Gm in G. destruct (NE x G); auto.
      + split; auto. split; auto. rewrite MR. apply RC. apply GD. congruence.
      + split; auto. split; auto. rewrite MR. apply RC. apply GD. congruence.
    - intros x []. }
  assert (ND5 : NoDup (all hm)) by apply seq_NoDup.
  assert (LF5 : forall x, In x (all hm) -> (x < length hm)%nat /\ kindof hm x <> GFreed).
  { intros x I. apply in_seq in I. split; [lia|]. rewrite MK. apply NF. }
  destruct (try_all_spec hm ext EN Hd (all hm) hm _ J0 ND5 LF5) as (h5&rem&E5&J5&_&G5).
  rewrite E5. cbn [bind]. eexists. split; [reflexivity|].
  assert (Kf : forall x, kindof (merge_freed h5) x = match kindof h5 x with GFreed => GEmpty | k => k end).
  { intros x. unfold kindof, merge_freed. rewrite nth_error_map_. destruct (nth_error h5 x) as [o|]; cbn [option_map]; auto. destruct (o_kind o) eqn:Q; cbn; auto. }
  assert (Rf : forall x, refcof (merge_freed h5) x = refcof h5 x).
  { intros x. unfold refcof, merge_freed. rewrite nth_error_map_. destruct (nth_error h5 x) as [o|]; cbn [option_map]; auto. destruct (o_kind o) eqn:Q; cbn; auto. }
  assert (Ff : forall x, refsof (merge_freed h5) x = refsof h x).
  { intros x. rewrite <- MF, <- (j_refs _ _ _ _ _ _ J5). unfold refsof, merge_freed. rewrite nth_error_map_. destruct (nth_error h5 x) as [o|]; cbn [option_map]; auto. destruct (o_kind o) eqn:Q; cbn; auto. }
  assert (Lf : length (merge_freed h5) = length h) by (unfold merge_freed; rewrite map_length, (j_len _ _ _ _ _ _ J5); auto).
  (* what is left at each position *)
  assert (Rem : forall x, (x < length h)%nat -> rem x = match kindof (merge_freed h5) x with GEmpty => [] | _ => refsof h x end).
  { intros x L. assert (Q := j_idle _ _ _ _ _ _ J5 x ltac:(lia) (fun Q => Q)). rewrite Kf. rewrite MF in Q. destruct (kindof h5 x); intuition congruence. }
  assert (Tot : forall y, total_rem hm rem y = pointers_to (merge_freed h5) y).
  { intros y. unfold total_rem. rewrite pointers_sum, Lf, ML. apply sumf_ext. intros z I. apply in_seq in I. rewrite Rem by lia. unfold out. rewrite Ff. destruct (kindof (merge_freed h5) z); reflexivity. }
  assert (Left : forall x, (x < length h)%nat -> kindof h5 x <> GEmpty -> reach h (fun y => 0 < ext y) x /\ kindof h5 x = kindof h x).
  { intros x L K. destruct (markof hm x) eqn:Mx.
    - split; [apply (reach_mono h start); auto|]. rewrite <- MK. apply (j_marked _ _ _ _ _ _ J5); auto; lia.
    - assert (Id := j_idle _ _ _ _ _ _ J5 x ltac:(lia) (fun Q => Q)).
      assert (Gx : good h x).
      { rewrite <- Gm. split; [lia|]. destruct (kindof h5 x); intuition congruence. }
      assert (Sx := j_sum _ _ _ _ _ _ J5 x (proj2 (Gm x) Gx)). cbn [bump] in Sx.
      assert (Px : 0 < refcof h5 x) by (destruct (kindof h5 x); intuition congruence).
      assert (T0 : total_rem hm rem x = 0).
      { unfold total_rem. rewrite (sumf_ext _ (fun _ => 0)).
        - clear. induction (seq 0 (length hm)); cbn; auto.
        - intros z I. apply in_seq in I. rewrite Rem by lia. rewrite Kf. assert (Iz := j_idle _ _ _ _ _ _ J5 z ltac:(lia) (fun Q => Q)).
          assert (Gz := G5 z ltac:(apply in_seq; lia)). destruct (kindof h5 z); cbn [count_occ]; auto.
          + rewrite SK by (rewrite <- MK; tauto). reflexivity.
          + assert (~ In x (refsof h z)); [|apply (count_occ_not_In Nat.eq_dec) in H; rewrite H; reflexivity].
            intros Ix. assert (Q := M2 z x ltac:(lia)). destruct (markof hm z); [specialize (Q eq_refl Ix); congruence|]. apply Gz; auto. }
      assert (Ex0 : 0 < ext x) by lia. split; [apply reach_start; auto|].
      assert (Sk : kindof h x = GSkip).
      { unfold start in M1. destruct top; [destruct (TP eq_refl x Ex0) as [Q|Q]; auto|]; rewrite M1 in Mx by auto; discriminate. }
      rewrite MK in Id. destruct (kindof h5 x); intuition congruence. }
  assert (Rch : forall x, reach h (fun y => 0 < ext y) x -> kindof h5 x = kindof h x).
  { intros x R. assert (Gx := ReG x R).
    assert (Hx : markof hm x = true \/ (kindof h x = GSkip /\ 0 < ext x)).
    { clear - R ReG M1 M2 SK TP start. induction R as [x S0|x o y R IH E I].
      - unfold start in M1. destruct top; [|left; auto]. destruct (TP eq_refl x S0); [left; auto|right; auto].
      - assert (I' : In y (refsof h x)) by (unfold refsof; rewrite E; auto). destruct IH as [IH|(IH&_)].
        + left. apply (M2 x); auto. apply ReG; auto.
        + rewrite (SK x IH) in I'. destruct I'. }
    destruct Hx as [Hx|(Sk&Ex0)]; [rewrite <- MK; apply (j_marked _ _ _ _ _ _ J5); auto; destruct Gx; lia|].
    assert (Id := j_idle _ _ _ _ _ _ J5 x ltac:(destruct Gx; lia) (fun Q => Q)). rewrite MK in Id.
    assert (Sx := j_sum _ _ _ _ _ _ J5 x (proj2 (Gm x) Gx)). cbn [bump] in Sx. assert (Q : 0 <= total_rem hm rem x) by (eapply total_nonneg; eauto).
    destruct (kindof h5 x); try (intuition congruence). destruct Id as (_&Id). specialize (Id (proj2 (Gm x) Gx)). lia. }
  split; [exact Lf|]. split; [|].
  - (* consistent *)
    assert (Kx : forall x o, nth_error (merge_freed h5) x = Some o -> allocated o -> (x < length h)%nat /\ o_kind o = kindof h x /\ reach h (fun y => 0 < ext y) x /\ good h x /\ kindof h5 x = kindof h x).
    { intros x o E A. assert (L := some_lt _ _ _ E). rewrite Lf in L. assert (K := Kf x). unfold kindof at 1 in K. rewrite E in K. unfold allocated in A.
      destruct (Left x L) as (R&Q); [intros Q; rewrite Q in K; congruence|]. assert (G := ReG x R). rewrite Q in K. rewrite K. split; auto. split; [destruct G as (_&[G|G]); rewrite G; auto|auto]. }
    split; [exact EN|]. split.
    + intros x o E A. destruct (Kx x o E A) as (L&K&R&G&K5).
      assert (Rx := Rf x). assert (Fx := Ff x). unfold refcof at 1 in Rx. unfold refsof at 1 in Fx. rewrite E in Rx, Fx.
      assert (Sx := j_sum _ _ _ _ _ _ J5 x (proj2 (Gm x) G)). cbn [bump] in Sx. rewrite Tot in Sx.
      assert (Id := j_idle _ _ _ _ _ _ J5 x ltac:(lia) (fun Q => Q)). rewrite K5 in Id.
      split; [lia|]. split; [destruct G as (_&[G|G]); rewrite G in Id; destruct Id as (_&_&Id); lia|]. split; [|split].
      * intros y I. rewrite Fx in I. assert (Ry := reach_refs h _ x y R I). assert (Gy := ReG y Ry). assert (K5y := Rch y Ry).
        destruct (lt_some (merge_freed h5) y) as (p&Ep); [rewrite Lf; apply Gy|]. exists p. split; auto. unfold allocated. assert (Ky := Kf y). unfold kindof at 1 in Ky. rewrite Ep, K5y in Ky. rewrite Ky.
        destruct Gy as (_&[Q|Q]); rewrite Q; discriminate.
      * intros Sk. rewrite Fx. apply SK. congruence.
      * rewrite K. apply NF.
    + intros y Ey. assert (Ry : reach h (fun y => 0 < ext y) y) by (apply reach_start; auto). assert (Gy := ReG y Ry). assert (K5y := Rch y Ry).
      destruct (lt_some (merge_freed h5) y) as (p&Ep); [rewrite Lf; apply Gy|]. exists p. split; auto. unfold allocated. assert (Ky := Kf y). unfold kindof at 1 in Ky. rewrite Ep, K5y in Ky. rewrite Ky.
      destruct Gy as (_&[Q|Q]); rewrite Q; discriminate.
  - intros x L. split.
    + intros R. split; [|apply Ff]. rewrite Kf, (Rch x R). assert (G := ReG x R). destruct G as (_&[Q|Q]); rewrite Q; auto.
    + intros R. rewrite Kf in R. apply Left; auto. intros Q. rewrite Q in R. auto.
Qed.
