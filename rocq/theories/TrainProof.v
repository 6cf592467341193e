(** Calls of trains and combinators: proofs *)
From Verif Require Import Base TrainModel TrainSpec.
From Coq Require Import List Lia PeanoNat ZArith.
Import ListNotations.
Open Scope Z_scope.
Section P.
Variable W : Type.
Variable obj : nat -> val * val * val.
Variable prim : Z -> option val -> val -> err -> W -> out * W.
Variable warm : Z -> option val -> val -> W -> cache -> cache.
Variable pick : val -> val -> out.
Hypothesis PS : forall p w x e s, sane (fst (prim p w x e s)).
Hypothesis KS : forall r g, sane (pick r g).
Hypothesis WO : forall p w x s c, ptrs_ok obj c -> ptrs_ok obj (warm p w x s c).
Notation cg := (cG W obj prim warm pick).
Notation callc := (call W).
Fixpoint me (n : nat) (e : err) (b : expr) : M W :=
  match b with
  | V v => ret W v
  | C1 f x => andthen W (me n e x) (fun v => callc (cg n e) f None v)
  | C2 w f x => andthen W (me n e x) (fun v => andthen W (me n e w) (fun u => callc (cg n e) f (Some u) v))
  | Try a b => fun s => match me n e a s with Some (Thr t, s) => me n t b s | r => r end
  | If c a b => andthen W (me n e c) (fun v => match v with Num 0 => me n e b | Num 1 => me n e a | _ => thr W EBool end)
  | Sel i g w x => andthen W (me n e i) (fun r => andthen W (lift W (choice pick r g)) (fun k => callc (cg n e) k w x))
  end.
Lemma me_apply n e f w x s : me n e (apply f w (V x)) s = callc (cg n e) f w x s.
Proof. destruct w; reflexivity. Qed.
Lemma set_ok c id two : ptrs_ok obj c -> ptrs_ok obj (set_ptr c id two (let '(f, g, h) := obj id in choose f g h)).
Proof.
  intros H i. specialize (H i). unfold set_ptr. destruct (Nat.eqb_spec i id) as [ -> |N]; [|exact H]. destruct (obj id) as [[f g] h]. destruct two; cbn [fst snd]; tauto.
Qed.
Lemma fork_gen G f g h w x s : (isMd f && isFun g && isFun h)%bool = false -> fork_run W G (choose f g h) f g h w x s = fork_run W G PGen f g h w x s.
Proof.
  intros N. unfold choose, fork_run. destruct (isFun g) eqn:FG; cbn [negb]; [|reflexivity]. destruct (isFun h) eqn:FH; cbn [negb]; [|reflexivity]. rewrite !andb_true_r in N.
  destruct (isFun f) eqn:FF; [unfold call, callG, andthen; rewrite FG, FH, FF; reflexivity|].
  assert (E : forall w x, callc G f w x = ret W f) by (intros w' x'; unfold call; rewrite FF; unfold cF; destruct f; try discriminate; try discriminate; reflexivity).
  destruct (isVal f) eqn:VF; unfold andthen; rewrite E; unfold call, callG, ret; rewrite FG, FH; reflexivity.
Qed.
Lemma step n e f w x b c s : ptrs_ok obj c -> body_as_is obj f w x = Some b -> exists c1, ptrs_ok obj c1 /\ cg (S n) e f w x (c, s) = me n e b (c1, s).
Proof.
  intros I B. destruct f as [| | | | | |p|id|g h|m f|m f g]; cbn [body_as_is body] in B; try discriminate.
  - pose proof (I id) as I'. pose proof (set_ok c id (match w with Some _ => true | None => false end) I) as SO. cbn [cG]. unfold fork_call. destruct (obj id) as [[f g] h].
    assert (R : forall c1, fork_run W (cg n e) (choose f g h) f g h w x (c1, s) = me n e b (c1, s)).
    { intros c1. destruct (isMd f && isFun g && isFun h)%bool eqn:N'; injection B as <-.
      - apply andb_true_iff in N'. destruct N' as [N' FH]. apply andb_true_iff in N'. destruct N' as [FM FG]. unfold choose. rewrite FG, FH. destruct f; try discriminate. cbn [negb isFun isVal fork_run me]. unfold callG, andthen, ret. rewrite FH, FG, me_apply. unfold call. rewrite FH, FG. reflexivity.
      - rewrite fork_gen by exact N'. cbn [fork_run me]. unfold andthen. rewrite me_apply. destruct (callc (cg n e) h w x (c1, s)) as [[[hr|t|] s1]|]; try reflexivity. rewrite me_apply. reflexivity. }
    cbn [fst snd]. destruct I' as [I1 I2]. destruct w as [w|].
    + destruct I2 as [E|E]; rewrite E.
      * eexists. split; [exact SO|]. apply R.
      * exists c. split; [exact I|]. rewrite <- R. destruct (choose f g h) eqn:Q; try reflexivity. exfalso. clear - Q. unfold choose in Q. destruct (isFun g), (isFun h), (isFun f), (isVal f); discriminate.
    + destruct I1 as [E|E]; rewrite E.
      * eexists. split; [exact SO|]. apply R.
      * exists c. split; [exact I|]. rewrite <- R. destruct (choose f g h) eqn:Q; try reflexivity. exfalso. clear - Q. unfold choose in Q. destruct (isFun g), (isFun h), (isFun f), (isVal f); discriminate.
  - injection B as <-. exists c. split; [exact I|]. cbn [cG me]. unfold andthen. rewrite me_apply. reflexivity.
  - exists c. split; [exact I|]. destruct m; injection B as <-; [reflexivity|]. destruct w; reflexivity.
  - exists c. split; [exact I|]. destruct m; injection B as <-; cbn [cG].
    + destruct w; reflexivity.
    + cbn [me]. rewrite me_apply. destruct (callc (cg n e) f w x (c, s)) as [[[v|t|] s1]|]; try reflexivity. rewrite me_apply. reflexivity.
    + destruct w as [w|]; cbn [me]; [reflexivity|]. unfold isCallable. destruct f; reflexivity.
    + destruct w as [w|]; cbn [me]; unfold andthen, ret; cbv beta iota.
      * destruct (callc (cg n e) g None x (c, s)) as [[[v|t|] s1]|]; reflexivity.
      * unfold isCallable. destruct g; cbn [isFun isMd orb]; unfold callG, call, cF, ret, thr; cbn [isFun isMd]; try reflexivity;
          match goal with |- context [match ?q with Some _ => _ | None => _ end] => destruct q as [[[v|t|] s1]|]; reflexivity end.
    + cbn [me]. unfold andthen. rewrite me_apply. reflexivity.
    + destruct w as [w|]; cbn [me]; unfold andthen, ret; cbv beta iota; reflexivity.
    + cbn [me]. unfold andthen. rewrite me_apply. reflexivity.
    + cbn [me]. unfold andthen. rewrite me_apply. destruct (callc (cg n e) g w x (c, s)) as [[[v|t|] s1]|]; try reflexivity. destruct v as [z| | | | | | | | | |]; try reflexivity. destruct z as [|q|q]; [reflexivity| |reflexivity]. destruct q; try reflexivity.
      destruct w as [w|]; cbn [apply me]; unfold andthen, ret; cbv beta iota.
      * destruct (callc (cg n e) f (Some w) x s1) as [[[v|t|] s2]|]; reflexivity.
      * destruct (callc (cg n e) f None x s1) as [[[v|t|] s2]|]; reflexivity.
Qed.
Lemma sel_choice r g : sel pick r g (choice pick r g).
Proof.
  assert (A : forall l i, 0 <= i < Z.of_nat (length l) -> exists f : val, nth_error l (Z.to_nat i) = Some f).
  { intros l i H. destruct (nth_error l (Z.to_nat i)) as [f|] eqn:E; [eauto|]. apply nth_error_None in E. lia. }
  destruct r as [z|k| | | | | | | | |]; cbn [choice]; try (apply s_pick; intros i; split; discriminate).
  - destruct g as [| | |sh l| | | | | | |]; try (apply s_rank; [eauto|discriminate]). destruct sh as [|n [|n' sh]]; try (apply s_rank; [eauto|discriminate]). unfold wrap.
    destruct (Z.leb_spec 0 z); destruct (Z.ltb_spec z (Z.of_nat (length l))); cbn [andb]; cbv zeta.
    + destruct (A l z) as [f E]; [lia|]. rewrite E. apply s_front; assumption.
    + destruct (Z.leb_spec 0 (z + Z.of_nat (length l))); destruct (Z.ltb_spec (z + Z.of_nat (length l)) (Z.of_nat (length l))); cbn [andb]; try lia; apply s_out; lia.
    + destruct (Z.leb_spec 0 (z + Z.of_nat (length l))); destruct (Z.ltb_spec (z + Z.of_nat (length l)) (Z.of_nat (length l))); cbn [andb]; try lia; [|apply s_out; lia].
      destruct (A l (z + Z.of_nat (length l))) as [f E]; [lia|]. rewrite E. apply s_back; [lia|lia|exact E].
    + lia.
  - destruct g as [| | |sh l| | | | | | |]; try (apply s_rank; [eauto|discriminate]). destruct sh as [|n [|n' sh]]; try (apply s_rank; [eauto|discriminate]). constructor.
Qed.
Lemma sel_fun r g o o' : sel pick r g o -> sel pick r g o' -> o = o'.
Proof.
  assert (L : forall l i (f : val), nth_error l (Z.to_nat i) = Some f -> 0 <= i -> i < Z.of_nat (length l)).
  { intros l i f E P. assert (H : nth_error l (Z.to_nat i) <> None) by congruence. apply nth_error_Some in H. lia. }
  assert (N : forall i n l, (forall n' l', Arr [n] l <> Arr [n'] l') -> (exists j, Num i = Num j \/ Num i = Frac j) -> False) by (intros i n l H _; eapply H; reflexivity).
  intros A B. inversion A; subst; inversion B; subst; try reflexivity; try congruence; try lia;
    repeat match goal with H : nth_error _ _ = Some _ |- _ => pose proof (L _ _ _ H); revert H end; intros; try congruence; try lia;
    try (exfalso; match goal with H : forall n l, Arr [?a] ?b <> Arr [n] l |- _ => exact (H a b eq_refl) end);
    try (exfalso; match goal with H : forall i, Num ?z <> Num i /\ _ |- _ => exact (proj1 (H z) eq_refl) | H : forall i, _ /\ Frac ?z <> Frac i |- _ => exact (proj2 (H z) eq_refl) end);
    try (exfalso; match goal with H : exists i, _ |- _ => destruct H as [j [ -> | -> ]] end; match goal with H : forall i, _ /\ _ |- _ => destruct (H j) as [X Y]; congruence end).
Qed.
Lemma choice_sane r g : sane (choice pick r g).
Proof. pose proof (sel_choice r g) as H. unfold sane. intros E. rewrite E in H. inversion H; subst. eapply (KS r g). congruence. Qed.

(** ** What is computed is what is defined *)
Definition sound (n : nat) : Prop := forall e f w x c s o c' s', ptrs_ok obj c -> callc (cg n e) f w x (c, s) = Some (o, (c', s')) -> sane o /\ ap W prim pick (body_as_is obj) e f w x s o s' /\ ptrs_ok obj c'.
Lemma me_sound n : sound n -> forall b e c s o c' s', ptrs_ok obj c -> me n e b (c, s) = Some (o, (c', s')) -> sane o /\ ev W prim pick (body_as_is obj) e b s o s' /\ ptrs_ok obj c'.
Proof.
  intros H. induction b as [v|f x IX|w IW f x IX|a IA b IB|c0 IC a IA b IB|i II g w x]; intros e c s o c' s' I E; cbn [me] in E; unfold andthen, ret, lift in E.
  - injection E as <- <- <-. split; [discriminate|]. split; [constructor|exact I].
  - destruct (me n e x (c, s)) as [[o1 [c1 s1]]|] eqn:E1; [|discriminate]. destruct (IX e c s o1 c1 s1 I E1) as (N1 & V1 & I1). destruct o1 as [v|t|]; [| |exfalso; apply N1; reflexivity].
    + destruct (H e f None v c1 s1 o c' s' I1 E) as (N & A & I2). split; [exact N|]. split; [econstructor; eassumption|exact I2].
    + injection E as <- <- <-. split; [discriminate|]. split; [apply e_c1t; exact V1|exact I1].
  - destruct (me n e x (c, s)) as [[o1 [c1 s1]]|] eqn:E1; [|discriminate]. destruct (IX e c s o1 c1 s1 I E1) as (N1 & V1 & I1). destruct o1 as [v|t|]; [| |exfalso; apply N1; reflexivity].
    + destruct (me n e w (c1, s1)) as [[o2 [c2 s2]]|] eqn:E2; [|discriminate]. destruct (IW e c1 s1 o2 c2 s2 I1 E2) as (N2 & V2 & I2). destruct o2 as [u|t|]; [| |exfalso; apply N2; reflexivity].
      * destruct (H e f (Some u) v c2 s2 o c' s' I2 E) as (N & A & I3). split; [exact N|]. split; [eapply e_c2; eassumption|exact I3].
      * injection E as <- <- <-. split; [discriminate|]. split; [eapply e_c2w; eassumption|exact I2].
    + injection E as <- <- <-. split; [discriminate|]. split; [apply e_c2x; exact V1|exact I1].
  - destruct (me n e a (c, s)) as [[o1 [c1 s1]]|] eqn:E1; [|discriminate]. destruct (IA e c s o1 c1 s1 I E1) as (N1 & V1 & I1). destruct o1 as [v|t|]; [| |exfalso; apply N1; reflexivity].
    + injection E as <- <- <-. split; [discriminate|]. split; [apply e_try; exact V1|exact I1].
    + destruct (IB t c1 s1 o c' s' I1 E) as (N2 & V2 & I2). split; [exact N2|]. split; [eapply e_catch; eassumption|exact I2].
  - destruct (me n e c0 (c, s)) as [[o1 [c1 s1]]|] eqn:E1; [|discriminate]. destruct (IC e c s o1 c1 s1 I E1) as (N1 & V1 & I1). destruct o1 as [v|t|]; [| |exfalso; apply N1; reflexivity].
    + assert (D : v = Num 0 \/ v = Num 1 \/ (v <> Num 0 /\ v <> Num 1 /\ thr W EBool (c1, s1) = Some (o, (c', s')))).
      { destruct v as [z| | | | | | | | | |]; try (right; right; split; [discriminate|]; split; [discriminate|exact E]). destruct z as [|q|q]; [auto| |right; right; split; [discriminate|]; split; [discriminate|exact E]]. destruct q; auto; right; right; (split; [discriminate|]; split; [discriminate|exact E]). }
      destruct D as [ -> |[ -> |(X & Y & D)]].
      * destruct (IB e c1 s1 o c' s' I1 E) as (N2 & V2 & I2). split; [exact N2|]. split; [eapply e_no; eassumption|exact I2].
      * destruct (IA e c1 s1 o c' s' I1 E) as (N2 & V2 & I2). split; [exact N2|]. split; [eapply e_yes; eassumption|exact I2].
      * injection D as <- <- <-. split; [discriminate|]. split; [eapply e_bool; eassumption|exact I1].
    + injection E as <- <- <-. split; [discriminate|]. split; [apply e_ift; exact V1|exact I1].
  - destruct (me n e i (c, s)) as [[o1 [c1 s1]]|] eqn:E1; [|discriminate]. destruct (II e c s o1 c1 s1 I E1) as (N1 & V1 & I1). destruct o1 as [r|t|]; [| |exfalso; apply N1; reflexivity].
    + pose proof (sel_choice r g) as SC. pose proof (choice_sane r g) as SN. destruct (choice pick r g) as [k|t|]; [| |exfalso; apply SN; reflexivity].
      * destruct (H e k w x c1 s1 o c' s' I1 E) as (N & A & I2). split; [exact N|]. split; [eapply e_sel; eassumption|exact I2].
      * injection E as <- <- <-. split; [discriminate|]. split; [eapply e_selt; eassumption|exact I1].
    + injection E as <- <- <-. split; [discriminate|]. split; [apply e_selx; exact V1|exact I1].
Qed.
Lemma fun_body f w x : isFun f = true -> (exists p, f = Prim p) \/ exists b, body_as_is obj f w x = Some b.
Proof.
  destruct f as [| | | | | |p|id|g h|m f|m f g]; try discriminate; intros _; [eauto| | | |]; right; cbn [body_as_is body]; [destruct (obj id) as [[f g] h]; destruct (isMd f && isFun g && isFun h)%bool; eauto|eauto|destruct m; eauto|destruct m; eauto].
Qed.
Theorem call_sound n : sound n.
Proof.
  induction n as [|n IH]; intros e f w x c s o c' s' I E; unfold call in E; destruct (isFun f) eqn:F; try (unfold cF in E; destruct f; try discriminate; injection E as <- <- <-; (split; [discriminate|]); (split; [constructor; exact Logic.I|exact I])).
  destruct (fun_body f w x F) as [[p -> ]|[b B]].
  - cbn [cG fst snd] in E. injection E as <- <- <-. split; [apply PS|]. split; [constructor|apply WO; exact I].
  - destruct (step n e f w x b c s I B) as (c1 & I1 & Q). rewrite Q in E. destruct (me_sound n IH b e c1 s o c' s' I1 E) as (N & V & I2). split; [exact N|]. split; [eapply a_def; eassumption|exact I2].
Qed.
(** ** What is defined is computed *)
Scheme ev_mut := Minimality for ev Sort Prop with ap_mut := Minimality for ap Sort Prop.
Definition ev_done (e : err) (b : expr) (s : W) (o : out) (s' : W) : Prop := exists N, forall n c, (N <= n)%nat -> ptrs_ok obj c -> exists c', me n e b (c, s) = Some (o, (c', s')) /\ ptrs_ok obj c'.
Definition ap_done (e : err) (f : val) (w : option val) (x : val) (s : W) (o : out) (s' : W) : Prop := exists N, forall n c, (N <= n)%nat -> ptrs_ok obj c -> exists c', callc (cg n e) f w x (c, s) = Some (o, (c', s')) /\ ptrs_ok obj c'.
Theorem call_complete e f w x s o s' : ap W prim pick (body_as_is obj) e f w x s o s' -> ap_done e f w x s o s'.
Proof.
  revert e f w x s o s'. apply (ap_mut W prim pick (body_as_is obj) ev_done ap_done); unfold ev_done, ap_done.
  - intros e v s. exists O. intros n c _ I. exists c. split; [reflexivity|exact I].
  - intros e f x v s s1 o s2 _ [N1 H1] _ [N2 H2]. exists (N1 + N2)%nat. intros n c L I. destruct (H1 n c ltac:(lia) I) as (c1 & Q1 & I1). destruct (H2 n c1 ltac:(lia) I1) as (c2 & Q2 & I2). exists c2. split; [|exact I2]. cbn [me]. unfold andthen. rewrite Q1. exact Q2.
  - intros e f x t s s1 _ [N1 H1]. exists N1. intros n c L I. destruct (H1 n c L I) as (c1 & Q1 & I1). exists c1. split; [|exact I1]. cbn [me]. unfold andthen. rewrite Q1. reflexivity.
  - intros e w f x v u s s1 s2 o s3 _ [N1 H1] _ [N2 H2] _ [N3 H3]. exists (N1 + N2 + N3)%nat. intros n c L I. destruct (H1 n c ltac:(lia) I) as (c1 & Q1 & I1). destruct (H2 n c1 ltac:(lia) I1) as (c2 & Q2 & I2). destruct (H3 n c2 ltac:(lia) I2) as (c3 & Q3 & I3). exists c3. split; [|exact I3]. cbn [me]. unfold andthen. rewrite Q1, Q2. exact Q3.
  - intros e w f x v t s s1 s2 _ [N1 H1] _ [N2 H2]. exists (N1 + N2)%nat. intros n c L I. destruct (H1 n c ltac:(lia) I) as (c1 & Q1 & I1). destruct (H2 n c1 ltac:(lia) I1) as (c2 & Q2 & I2). exists c2. split; [|exact I2]. cbn [me]. unfold andthen. rewrite Q1, Q2. reflexivity.
  - intros e w f x t s s1 _ [N1 H1]. exists N1. intros n c L I. destruct (H1 n c L I) as (c1 & Q1 & I1). exists c1. split; [|exact I1]. cbn [me]. unfold andthen. rewrite Q1. reflexivity.
  - intros e a b v s s1 _ [N1 H1]. exists N1. intros n c L I. destruct (H1 n c L I) as (c1 & Q1 & I1). exists c1. split; [|exact I1]. cbn [me]. rewrite Q1. reflexivity.
  - intros e a b t s s1 o s2 _ [N1 H1] _ [N2 H2]. exists (N1 + N2)%nat. intros n c L I. destruct (H1 n c ltac:(lia) I) as (c1 & Q1 & I1). destruct (H2 n c1 ltac:(lia) I1) as (c2 & Q2 & I2). exists c2. split; [|exact I2]. cbn [me]. rewrite Q1. exact Q2.
  - intros e c0 a b s s1 o s2 _ [N1 H1] _ [N2 H2]. exists (N1 + N2)%nat. intros n c L I. destruct (H1 n c ltac:(lia) I) as (c1 & Q1 & I1). destruct (H2 n c1 ltac:(lia) I1) as (c2 & Q2 & I2). exists c2. split; [|exact I2]. cbn [me]. unfold andthen. rewrite Q1. exact Q2.
  - intros e c0 a b s s1 o s2 _ [N1 H1] _ [N2 H2]. exists (N1 + N2)%nat. intros n c L I. destruct (H1 n c ltac:(lia) I) as (c1 & Q1 & I1). destruct (H2 n c1 ltac:(lia) I1) as (c2 & Q2 & I2). exists c2. split; [|exact I2]. cbn [me]. unfold andthen. rewrite Q1. exact Q2.
  - intros e c0 a b v s s1 _ [N1 H1] X Y. exists N1. intros n c L I. destruct (H1 n c L I) as (c1 & Q1 & I1). exists c1. split; [|exact I1]. cbn [me]. unfold andthen. rewrite Q1. destruct v as [z| | | | | | | | | |]; try reflexivity. destruct z as [|q|q]; [congruence| |reflexivity]. destruct q; try reflexivity. congruence.
  - intros e c0 a b t s s1 _ [N1 H1]. exists N1. intros n c L I. destruct (H1 n c L I) as (c1 & Q1 & I1). exists c1. split; [|exact I1]. cbn [me]. unfold andthen. rewrite Q1. reflexivity.
  - intros e i g w x r f s s1 o s2 _ [N1 H1] SC _ [N2 H2]. exists (N1 + N2)%nat. intros n c L I. destruct (H1 n c ltac:(lia) I) as (c1 & Q1 & I1). destruct (H2 n c1 ltac:(lia) I1) as (c2 & Q2 & I2). exists c2. split; [|exact I2]. cbn [me]. unfold andthen, lift. rewrite Q1, (sel_fun r g _ _ (sel_choice r g) SC). exact Q2.
  - intros e i g w x r t s s1 _ [N1 H1] SC. exists N1. intros n c L I. destruct (H1 n c L I) as (c1 & Q1 & I1). exists c1. split; [|exact I1]. cbn [me]. unfold andthen, lift. rewrite Q1, (sel_fun r g _ _ (sel_choice r g) SC). reflexivity.
  - intros e i g w x t s s1 _ [N1 H1]. exists N1. intros n c L I. destruct (H1 n c L I) as (c1 & Q1 & I1). exists c1. split; [|exact I1]. cbn [me]. unfold andthen. rewrite Q1. reflexivity.
  - intros e f w x s D. exists O. intros n c _ I. exists c. split; [|exact I]. destruct f; try contradiction; reflexivity.
  - intros e k w x s. exists O. intros n c _ I. exists c. split; [reflexivity|exact I].
  - intros e p w x s. exists 1%nat. intros n c L I. destruct n as [|n]; [lia|]. eexists. split; [reflexivity|]. apply WO. exact I.
  - intros e f w x b s o s' B _ [N H]. exists (Datatypes.S N). intros n c L I. destruct n as [|n]; [lia|]. destruct (step n e f w x b c s I B) as (c1 & I1 & Q). destruct (H n c1 ltac:(lia) I1) as (c2 & Q2 & I2). exists c2. split; [|exact I2].
    assert (F : isFun f = true) by (destruct f; try discriminate; reflexivity). unfold call. rewrite F, Q. exact Q2.
Qed.
End P.
(** definitions that agree give the same meaning *)
Theorem ap_ext W prim pick d d' : (forall f w x, d f w x = d' f w x) -> forall e f w x (s : W) o s', ap W prim pick d e f w x s o s' -> ap W prim pick d' e f w x s o s'.
Proof.
  intros D. apply (ap_mut W prim pick d (ev W prim pick d') (ap W prim pick d')); intros; try (econstructor; eassumption); try (constructor; assumption).
  eapply a_def; [rewrite <- D|]; eassumption.
Qed.
Lemma as_is obj : no_mod obj -> forall f w x, body_as_is obj f w x = body obj f w x.
Proof. intros N f w x. destruct f as [| | | | | |p|id|g h|m f|m f g]; try reflexivity. cbn [body_as_is body]. specialize (N id). destruct (obj id) as [[f g] h]. destruct f; try reflexivity. exfalso. eapply N. reflexivity. Qed.
