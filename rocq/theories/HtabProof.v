(** Proofs about the generic hash table. *)
From Verif Require Import Base HtabModel.

Section HtabProof.
Context {K V : Type} (EQUAL : K -> K -> bool) (H1 : K -> Z).
Hypothesis eq_sym' : forall a b, EQUAL a b = true -> EQUAL b a = true.
Hypothesis eq_trans' : forall a b c, EQUAL a b = true -> EQUAL b c = true -> EQUAL a c = true.
Hypothesis hash_eq : forall a b, EQUAL a b = true -> H1 a = H1 b.
Hypothesis hash_pos : forall k, 0 < H1 k.
Notation ent := (ent K V). Notation map := (map K V).

Definition ne (a : list ent) (p : nat) : Prop := exists e, nth_error a p = Some e /\ ehash _ _ e <> 0.
Definition chain (a : list ent) (h p : nat) : Prop :=
  exists d, (d < length a)%nat /\ p = ((h + d) mod length a)%nat /\ forall d', (d' < d)%nat -> ne a ((h + d') mod length a)%nat.
Definition homep (a : list ent) (h : Z) : nat := Z.to_nat (Z.land h (Z.of_nat (length a) - 1)).
Definition nonempty (e : ent) : bool := negb (EMPTY _ _ e).
Record Inv (m : map) : Prop := {
  i_sz : exists j, 2 <= j /\ Z.of_nat (length (ents _ _ m)) = 2 ^ j;
  i_pop : pop _ _ m = Z.of_nat (length (filter nonempty (ents _ _ m)));
  i_ent : forall p e, nth_error (ents _ _ m) p = Some e -> ehash _ _ e <> 0 -> exists k, ekey _ _ e = Some k /\ ehash _ _ e = H1 k /\ chain (ents _ _ m) (homep (ents _ _ m) (H1 k)) p;
  i_uniq : forall p q e e' k k', nth_error (ents _ _ m) p = Some e -> nth_error (ents _ _ m) q = Some e' -> ehash _ _ e <> 0 -> ehash _ _ e' <> 0 ->
    ekey _ _ e = Some k -> ekey _ _ e' = Some k' -> EQUAL k k' = true -> p = q;
  i_fresh : forall p e, nth_error (ents _ _ m) p = Some e -> ehash _ _ e = 0 -> eval _ _ e = None
}.
Definition content (a : list ent) (k : K) (ov : option V) : Prop :=
  exists p e k', nth_error a p = Some e /\ ehash _ _ e <> 0 /\ ekey _ _ e = Some k' /\ EQUAL k' k = true /\ eval _ _ e = ov.

Lemma home_lt : forall (a : list ent) h j, 0 <= j -> Z.of_nat (length a) = 2 ^ j -> 0 <= h -> (homep a h < length a)%nat.
Proof.
  intros a h j Hj E Hh. unfold homep. rewrite E. replace (2 ^ j - 1) with (Z.ones j) by (rewrite Z.ones_equiv; lia).
  rewrite Z.land_ones by lia. pose proof (Z.mod_pos_bound h (2 ^ j)). assert (0 < 2 ^ j) by (apply Z.pow_pos_nonneg; lia). lia.
Qed.
Lemma next_mod : forall (n x : nat), (0 < n)%nat -> (if Z.of_nat (x mod n) =? Z.of_nat n - 1 then 0%nat else S (x mod n)) = (S x mod n)%nat.
Proof.
  intros n x H. pose proof (Nat.mod_upper_bound x n ltac:(lia)) as B.
  replace (S x mod n)%nat with ((x mod n + 1) mod n)%nat by (rewrite Nat.add_mod_idemp_l by lia; f_equal; lia).
  set (y := (x mod n)%nat) in *. clearbody y. destruct (Z.eqb_spec (Z.of_nat y) (Z.of_nat n - 1)) as [E|N].
  - replace (y + 1)%nat with n by lia. symmetry. apply Nat.mod_same. lia.
  - rewrite Nat.mod_small by lia. lia.
Qed.
Lemma all_ne_full : forall (a : list ent), (forall p, (p < length a)%nat -> ne a p) -> length (filter nonempty a) = length a.
Proof.
  induction a as [|e a IH]; intro H; [reflexivity|]. cbn [filter length].
  destruct (H 0%nat ltac:(cbn; lia)) as (e' & E & N). injection E as <-. unfold nonempty at 1, EMPTY. destruct (Z.eqb_spec (ehash _ _ e) 0); [contradiction|].
  cbn [negb length]. f_equal. apply IH. intros p Hp. destruct (H (S p) ltac:(cbn; lia)) as (e' & E' & N'). exists e'. auto.
Qed.
Lemma all_d_all_p : forall (a : list ent) h, (0 < length a)%nat -> (forall d, (d < length a)%nat -> ne a ((h + d) mod length a)%nat) -> forall p, (p < length a)%nat -> ne a p.
Proof.
  intros a h L H p Hp. set (n := length a) in *. pose proof (Nat.mod_upper_bound h n ltac:(lia)) as B.
  set (d := ((p + n - h mod n) mod n)%nat). replace p with ((h + d) mod n)%nat; [apply H; apply Nat.mod_upper_bound; lia|].
  unfold d. rewrite Nat.add_mod_idemp_r by lia. rewrite <- Nat.add_mod_idemp_l by lia.
  replace (h mod n + (p + n - h mod n))%nat with (p + 1 * n)%nat by lia. rewrite Nat.mod_add by lia. apply Nat.mod_small. exact Hp.
Qed.
Lemma rd_ok : forall (a : list ent) p e, nth_error a p = Some e -> rd a p = Ok e.
Proof. intros a p e H. unfold rd. rewrite H. reflexivity. Qed.

Section One.
Variables (m : map).
Notation a := (ents _ _ m).
Notation n := (length a).
Hypothesis I : Inv m.
Hypothesis roomy : pop _ _ m < Z.of_nat n.

Lemma n_pos : (0 < n)%nat.
Proof. destruct (i_sz m I) as (j & Hj & E). assert (0 < 2 ^ j) by (apply Z.pow_pos_nonneg; lia). lia. Qed.
Lemma not_all_ne : forall h, ~ (forall d, (d < n)%nat -> ne a ((h + d) mod n)%nat).
Proof. intros h H. pose proof (all_ne_full a (all_d_all_p a h n_pos H)). pose proof (i_pop m I). lia. Qed.

Lemma find_loop_ok : forall k h fuel d, (d + fuel = S n)%nat -> (d <= n)%nat -> h = homep a (H1 k) ->
  (forall d', (d' < d)%nat -> ne a ((h + d') mod n)%nat) ->
  (forall d' e k', (d' < d)%nat -> nth_error a ((h + d') mod n)%nat = Some e -> ekey _ _ e = Some k' -> EQUAL k' k = false) ->
  exists p had, find_loop _ _ EQUAL fuel m k (H1 k) ((h + d) mod n)%nat = Ok (p, had) /\ (p < n)%nat /\
    (had = true -> exists e k', nth_error a p = Some e /\ ehash _ _ e <> 0 /\ ekey _ _ e = Some k' /\ EQUAL k' k = true) /\
    (had = false -> (exists e, nth_error a p = Some e /\ ehash _ _ e = 0) /\ chain a h p /\ forall ov, ~ content a k ov).
Proof.
  intros k h fuel. induction fuel as [|f IH]; intros d Hf Hd Eh Hne Hno; [exfalso; lia|].
  pose proof n_pos as Np.
  destruct (Nat.eq_dec d n) as [->|Nd]; [exfalso; eapply not_all_ne; exact Hne|].
  set (p := ((h + d) mod n)%nat) in *. assert (Pl : (p < n)%nat) by (apply Nat.mod_upper_bound; lia).
  destruct (nth_error a p) as [e|] eqn:Ee; [|apply nth_error_None in Ee; lia].
  cbn [find_loop]. rewrite (rd_ok _ _ _ Ee). cbn [bind].
  assert (Cont : ehash _ _ e <> 0 -> (forall k', ekey _ _ e = Some k' -> EQUAL k' k = false) ->
    exists p' had, find_loop _ _ EQUAL f m k (H1 k) (if Z.of_nat p =? mask _ _ m then 0%nat else S p) = Ok (p', had) /\ (p' < n)%nat /\
    (had = true -> exists e k', nth_error a p' = Some e /\ ehash _ _ e <> 0 /\ ekey _ _ e = Some k' /\ EQUAL k' k = true) /\
    (had = false -> (exists e, nth_error a p' = Some e /\ ehash _ _ e = 0) /\ chain a h p' /\ forall ov, ~ content a k ov)).
  { intros Nz Nk. unfold mask, sz. unfold p. rewrite next_mod by exact Np. rewrite <- Nat.add_succ_r. apply IH; try lia.
    - intros d' Hd'. destruct (Nat.eq_dec d' d) as [->|]; [exists e; auto|apply Hne; lia].
    - intros d' e' k' Hd' E' K'. destruct (Nat.eq_dec d' d) as [->|]; [fold p in E'; rewrite Ee in E'; injection E' as <-; auto|eapply Hno; eauto; lia]. }
  destruct (Z.eqb_spec (ehash _ _ e) (H1 k)) as [Eq|Nq].
  - pose proof (hash_pos k). assert (Nz : ehash _ _ e <> 0) by lia. destruct (i_ent m I p e Ee Nz) as (k' & Ek & _ & _). rewrite Ek. cbn [get bind].
    destruct (EQUAL k' k) eqn:Eqk.
    + exists p, true. split; [reflexivity|]. split; [exact Pl|]. split; [|discriminate]. intros _. exists e, k'. auto.
    + unfold EMPTY. destruct (Z.eqb_spec (ehash _ _ e) 0); [contradiction|]. apply Cont; [exact Nz|]. intros k'' E. rewrite Ek in E. injection E as <-. exact Eqk.
  - cbn [bind]. unfold EMPTY. destruct (Z.eqb_spec (ehash _ _ e) 0) as [Ez|Nz].
    + exists p, false. split; [reflexivity|]. split; [exact Pl|]. split; [discriminate|]. intros _. split; [eauto|]. split.
      * exists d. split; [lia|]. split; [reflexivity|]. exact Hne.
      * intros ov (q & e' & k' & Eq & Nz' & Ek' & EQ & _). destruct (i_ent m I q e' Eq Nz') as (k'' & Ek'' & _ & (d0 & L0 & -> & C0)).
        rewrite Ek' in Ek''. injection Ek'' as <-. rewrite (hash_eq _ _ EQ), <- Eh in C0, Eq.
        destruct (Nat.lt_trichotomy d0 d) as [Lt|[->|Gt]].
        -- rewrite (Hno d0 e' k' Lt Eq Ek') in EQ. discriminate.
        -- fold p in Eq. rewrite Ee in Eq. injection Eq as <-. contradiction.
        -- destruct (C0 d Gt) as (e'' & E'' & N''). fold p in E''. rewrite Ee in E''. injection E'' as <-. contradiction.
    + apply Cont; [exact Nz|]. intros k' Ek'. destruct (i_ent m I p e Ee Nz) as (k'' & Ek'' & Eh'' & _). rewrite Ek' in Ek''. injection Ek'' as <-.
      destruct (EQUAL k' k) eqn:EQ; [|reflexivity]. apply hash_eq in EQ. congruence.
Qed.

Lemma home_n : forall k, (homep a (H1 k) < n)%nat.
Proof. intro k. destruct (i_sz m I) as (j & Hj & E). pose proof (hash_pos k). apply (home_lt a (H1 k) j); lia. Qed.

Lemma find_ok : forall k, exists p had, find _ _ EQUAL m k (H1 k) (H1 k) = Ok (p, had) /\ (p < n)%nat /\
    (had = true -> exists e k', nth_error a p = Some e /\ ehash _ _ e <> 0 /\ ekey _ _ e = Some k' /\ EQUAL k' k = true) /\
    (had = false -> (exists e, nth_error a p = Some e /\ ehash _ _ e = 0) /\ chain a (homep a (H1 k)) p /\ forall ov, ~ content a k ov).
Proof.
  intro k. unfold find, mask, sz. fold (homep a (H1 k)). pose proof (home_n k) as B.
  destruct (find_loop_ok k (homep a (H1 k)) (S n) 0) as (p & had & F & R); try lia; try (intros; lia).
  rewrite Nat.add_0_r, (Nat.mod_small _ _ B) in F. exists p, had. split; [exact F|exact R].
Qed.

Lemma qins_loop_ok : forall h h2 k v fuel d, (d + fuel = S n)%nat -> (d <= n)%nat ->
  (forall d', (d' < d)%nat -> ne a ((h + d') mod n)%nat) ->
  exists p e, qins_loop _ _ fuel m h2 k v ((h + d) mod n)%nat = Ok {| pop := pop _ _ m + 1; ents := upd a p {| ekey := k; ehash := h2; eval := v |} |} /\
    nth_error a p = Some e /\ ehash _ _ e = 0 /\ chain a h p.
Proof.
  intros h h2 k v fuel. induction fuel as [|f IH]; intros d Hf Hd Hne; [exfalso; lia|].
  pose proof n_pos as Np. destruct (Nat.eq_dec d n) as [->|Nd]; [exfalso; eapply not_all_ne; exact Hne|].
  set (p := ((h + d) mod n)%nat) in *. assert (Pl : (p < n)%nat) by (apply Nat.mod_upper_bound; lia).
  destruct (nth_error a p) as [e|] eqn:Ee; [|apply nth_error_None in Ee; lia].
  cbn [qins_loop]. rewrite (rd_ok _ _ _ Ee). cbn [bind]. unfold EMPTY. destruct (Z.eqb_spec (ehash _ _ e) 0) as [Ez|Nz].
  - exists p, e. split; [reflexivity|]. split; [exact Ee|]. split; [exact Ez|]. exists d. split; [lia|]. split; [reflexivity|exact Hne].
  - unfold mask, sz, p. rewrite next_mod by exact Np. rewrite <- Nat.add_succ_r. apply IH; try lia.
    intros d' Hd'. destruct (Nat.eq_dec d' d) as [->|]; [exists e; auto|apply Hne; lia].
Qed.
End One.

(* adding an entry at an empty place *)
Lemma filter_upd : forall (a : list ent) p e e', nth_error a p = Some e -> nonempty e = false -> nonempty e' = true -> length (filter nonempty (upd a p e')) = S (length (filter nonempty a)).
Proof.
  induction a as [|x a IH]; intros [|p] e e' H N N'; cbn [nth_error] in H; try discriminate; cbn [upd filter].
  - injection H as ->. rewrite N, N'. reflexivity.
  - destruct (nonempty x); cbn [length]; erewrite IH; eauto.
Qed.
Lemma filter_upd_same : forall (a : list ent) p e e', nth_error a p = Some e -> nonempty e' = nonempty e -> length (filter nonempty (upd a p e')) = length (filter nonempty a).
Proof.
  induction a as [|x a IH]; intros [|p] e e' H N; cbn [nth_error] in H; try discriminate; cbn [upd filter].
  - injection H as ->. rewrite N. destruct (nonempty e); reflexivity.
  - destruct (nonempty x); cbn [length]; erewrite IH; eauto.
Qed.
Lemma chain_upd : forall (a : list ent) p e' h q, ehash _ _ e' <> 0 -> chain a h q -> chain (upd a p e') h q.
Proof.
  intros a p e' h q N (d & L & E & C). exists d. rewrite upd_length. split; [exact L|]. split; [exact E|]. intros d' Hd'. destruct (C d' Hd') as (x & Ex & Nx).
  unfold ne. rewrite nth_error_upd. destruct (Nat.eqb_spec p ((h + d') mod length a)) as [->|]; [|eauto].
  pose proof (nth_error_Some_lt _ _ _ Ex). destruct (Nat.ltb_spec ((h + d') mod length a)%nat (length a)); [eauto|lia].
Qed.

Lemma add_inv : forall m p e0 k v, Inv m -> nth_error (ents _ _ m) p = Some e0 -> ehash _ _ e0 = 0 -> chain (ents _ _ m) (homep (ents _ _ m) (H1 k)) p ->
  (forall ov, ~ content (ents _ _ m) k ov) ->
  let m' := {| pop := pop _ _ m + 1; ents := upd (ents _ _ m) p {| ekey := Some k; ehash := H1 k; eval := v |} |} in
  Inv m' /\ forall k' ov, content (ents _ _ m') k' ov <-> (EQUAL k k' = true /\ ov = v) \/ (EQUAL k k' = false /\ content (ents _ _ m) k' ov).
Proof.
  intros m p e0 k v I E0 Z0 C0 Fresh. set (a := ents _ _ m) in *. set (ne' := {| ekey := Some k; ehash := H1 k; eval := v |}).
  pose proof (hash_pos k) as Hp. assert (Nn : ehash _ _ ne' <> 0) by (cbn; lia). pose proof (nth_error_Some_lt _ _ _ E0) as Lp.
  assert (At : forall q e, nth_error (upd a p ne') q = Some e -> (q = p /\ e = ne') \/ (q <> p /\ nth_error a q = Some e)).
  { intros q e H. rewrite nth_error_upd in H. destruct (Nat.eqb_spec p q) as [->|]; [|right; auto].
    destruct (Nat.ltb_spec q (length a)); [|lia]. injection H as <-. auto. }
  cbn zeta. split.
  - constructor; cbn [pop ents].
    + rewrite upd_length. apply (i_sz m I).
    + rewrite (filter_upd a p e0 ne' E0); [rewrite (i_pop m I); fold a; lia| |]; unfold nonempty, EMPTY; [rewrite Z0; reflexivity|].
      destruct (Z.eqb_spec (ehash _ _ ne') 0); [contradiction|reflexivity].
    + intros q e H N. unfold homep. rewrite upd_length. fold (homep a). destruct (At q e H) as [[-> ->]|[Nq H']].
      * exists k. split; [reflexivity|]. split; [reflexivity|]. apply chain_upd; assumption.
      * destruct (i_ent m I q e H' N) as (k' & Ek & Eh & C). exists k'. split; [exact Ek|]. split; [exact Eh|]. apply chain_upd; assumption.
    + intros q q' e e' k1 k2 H H' N N' Ek Ek' EQ. destruct (At q e H) as [[-> ->]|[Nq Hq]], (At q' e' H') as [[-> ->]|[Nq' Hq']]; [reflexivity| | |].
      * injection Ek as <-. exfalso. apply (Fresh (eval _ _ e')). exists q', e', k2. repeat split; auto.
      * injection Ek' as <-. exfalso. apply (Fresh (eval _ _ e)). exists q, e, k1. repeat split; auto.
      * eapply (i_uniq m I); eauto.
    + intros q e H N. destruct (At q e H) as [[-> ->]|[Nq H']]; [contradiction|]. eapply (i_fresh m I); eauto.
  - intros k' ov. cbn [ents]. split.
    + intros (q & e & k1 & H & N & Ek & EQ & Ev). destruct (At q e H) as [[-> ->]|[Nq H']].
      * cbn in Ek, Ev. injection Ek as <-. left. auto.
      * destruct (EQUAL k k') eqn:Ekk.
        -- exfalso. apply (Fresh (eval _ _ e)). exists q, e, k1. repeat split; auto. eapply eq_trans'; eauto.
        -- right. split; [reflexivity|]. exists q, e, k1. repeat split; auto.
    + intros [[EQ ->]|[NE (q & e & k1 & H & N & Ek & EQ & Ev)]].
      * exists p, ne', k. repeat split; auto. apply upd_same. exact Lp.
      * exists q, e, k1. repeat split; auto. rewrite upd_other; [exact H|]. intros ->. fold a in H. rewrite E0 in H. injection H as <-. contradiction.
Qed.

Lemma m_new_inv : forall n j, 2 <= j -> Z.of_nat n = 2 ^ j -> Inv (m_new K V n) /\ forall k ov, ~ content (ents _ _ (m_new K V n)) k ov.
Proof.
  intros n j Hj E.
  assert (R : forall p e, nth_error (repeat {| ekey := @None K; ehash := 0; eval := @None V |} n) p = Some e -> e = {| ekey := None; ehash := 0; eval := None |}).
  { intros p e H. apply nth_error_In in H. apply repeat_spec in H. exact H. }
  split.
  - constructor; unfold m_new; cbn [pop ents].
    + rewrite repeat_length. eauto.
    + clear. induction n; [reflexivity|]. cbn [repeat filter]. unfold nonempty at 1, EMPTY. cbn. exact IHn.
    + intros p e H N. apply R in H. subst e. cbn in N. contradiction.
    + intros p q e e' k k' H _ N. apply R in H. subst e. cbn in N. contradiction.
    + intros p e H _. apply R in H. subst e. reflexivity.
  - intros k ov (p & e & k' & H & N & _). apply R in H. subst e. cbn in N. contradiction.
Qed.

Lemma content_det : forall m k ov ov', Inv m -> content (ents _ _ m) k ov -> content (ents _ _ m) k ov' -> ov = ov'.
Proof.
  intros m k ov ov' I (p & e & k1 & E & N & Ek & Q & Ev) (p' & e' & k2 & E' & N' & Ek' & Q' & Ev').
  assert (p = p') by (eapply (i_uniq m I); eauto). subst p'. rewrite E in E'. injection E' as <-. congruence.
Qed.

Lemma dbl_ok : forall m, Inv m -> pop _ _ m <= Z.of_nat (length (ents _ _ m)) ->
  exists m', dbl _ _ m = Ok m' /\ Inv m' /\ length (ents _ _ m') = (length (ents _ _ m) * 2)%nat /\ pop _ _ m' = pop _ _ m /\
    forall k ov, content (ents _ _ m') k ov <-> content (ents _ _ m) k ov.
Proof.
  intros m I P. unfold dbl. destruct (i_sz m I) as (j & Hj & Ej). set (a := ents _ _ m) in *.
  assert (E2 : Z.of_nat (length a * 2) = 2 ^ (j + 1)) by (rewrite Z.pow_add_r, Nat2Z.inj_mul by lia; lia).
  destruct (m_new_inv (length a * 2) (j + 1) ltac:(lia) E2) as [I0 C0].
  assert (G : forall l pre nm, a = pre ++ l -> Inv nm -> length (ents _ _ nm) = (length a * 2)%nat -> pop _ _ nm = Z.of_nat (length (filter nonempty pre)) ->
    (forall k ov, content (ents _ _ nm) k ov <-> content pre k ov) ->
    exists m', dbl_loop _ _ l nm = Ok m' /\ Inv m' /\ length (ents _ _ m') = (length a * 2)%nat /\ pop _ _ m' = Z.of_nat (length (filter nonempty a)) /\
    forall k ov, content (ents _ _ m') k ov <-> content a k ov).
  { induction l as [|e l IH]; intros pre nm Ea In Ln Pn Cn.
    - exists nm. rewrite app_nil_r in Ea. subst pre. auto.
    - cbn [dbl_loop]. assert (Ea' : a = (pre ++ [e]) ++ l) by (rewrite <- app_assoc; exact Ea).
      assert (Ee : nth_error a (length pre) = Some e) by (rewrite Ea, nth_error_app2, Nat.sub_diag by lia; reflexivity).
      unfold EMPTY at 1. destruct (Z.eqb_spec (ehash _ _ e) 0) as [Ez|Nz].
      + cbn [bind]. apply (IH (pre ++ [e])); auto.
        * rewrite filter_app, app_length. cbn [filter]. unfold nonempty at 2, EMPTY. rewrite Ez. cbn [Z.eqb negb length]. lia.
        * intros k ov. rewrite Cn. split; intros (p & x & k' & H & N & R).
          -- exists p, x, k'. split; [|auto]. rewrite nth_error_app1; [exact H|eapply nth_error_Some_lt; eauto].
          -- destruct (Nat.lt_ge_cases p (length pre)) as [Lp|Gp]; [rewrite nth_error_app1 in H by exact Lp; exists p, x, k'; auto|].
             rewrite nth_error_app2 in H by exact Gp. destruct (p - length pre)%nat as [|q]; [injection H as <-; contradiction|destruct q; discriminate].
      + destruct (i_ent m I _ e Ee Nz) as (k & Ek & Eh & _).
        assert (Lf : (length (filter nonempty pre) <= length pre)%nat) by (clear; induction pre as [|x pre IH]; cbn [filter length]; [lia|destruct (nonempty x); cbn [length]; lia]).
        assert (Ll : (length pre < length a)%nat) by (rewrite Ea, app_length; cbn [length]; lia).
        assert (Rm : pop _ _ nm < Z.of_nat (length (ents _ _ nm))) by lia.
        unfold qins, mask, sz. fold (homep (ents _ _ nm) (ehash _ _ e)). rewrite Eh.
        pose proof (home_n nm In k) as Hh.
        destruct (qins_loop_ok nm In Rm (homep (ents _ _ nm) (H1 k)) (H1 k) (ekey _ _ e) (eval _ _ e) (S (length (ents _ _ nm))) 0 ltac:(lia) ltac:(lia) ltac:(intros; lia)) as (p & e0 & Q & E0 & Z0 & Ch).
        rewrite Nat.add_0_r, (Nat.mod_small _ _ Hh) in Q. rewrite Q. cbn [bind]. rewrite Ek.
        assert (Fr : forall ov, ~ content (ents _ _ nm) k ov).
        { intros ov HC. apply Cn in HC. destruct HC as (q & x & k' & Hq & Nq & Ekq & EQ & _). pose proof (nth_error_Some_lt _ _ _ Hq) as Lq.
          assert (q = length pre); [|lia]. eapply (i_uniq m I); [|exact Ee|exact Nq|exact Nz|exact Ekq|exact Ek|exact EQ]. fold a. rewrite Ea, nth_error_app1 by exact Lq. exact Hq. }
        destruct (add_inv nm p e0 k (eval _ _ e) In E0 Z0 Ch Fr) as [In' Cn']. cbn zeta in In', Cn'.
        apply (IH (pre ++ [e])); auto.
        * cbn [ents]. rewrite upd_length. exact Ln.
        * cbn [pop]. rewrite filter_app, app_length. cbn [filter]. unfold nonempty at 2, EMPTY. destruct (Z.eqb_spec (ehash _ _ e) 0); [contradiction|]. cbn [negb length]. lia.
        * intros k' ov. rewrite Cn'. rewrite Cn. split.
          -- intros [[EQ ->]|[_ (q & x & k1 & H & R)]].
             ++ exists (length pre), e, k. rewrite nth_error_app2, Nat.sub_diag by lia. repeat split; auto.
             ++ exists q, x, k1. rewrite nth_error_app1 by (eapply nth_error_Some_lt; eauto). auto.
          -- intros (q & x & k1 & H & Nx & Ex & EQ & Ev). destruct (Nat.lt_ge_cases q (length pre)) as [Lq|Gq].
             ++ rewrite nth_error_app1 in H by exact Lq. destruct (EQUAL k k') eqn:Ekk; [|right; split; [reflexivity|]; exists q, x, k1; auto].
                exfalso. assert (q = length pre); [|lia]. eapply (i_uniq m I); [|exact Ee|exact Nx|exact Nz|exact Ex|exact Ek|].
                { fold a. rewrite Ea, nth_error_app1 by exact Lq. exact H. } eapply eq_trans'; eauto.
             ++ rewrite nth_error_app2 in H by exact Gq. destruct (q - length pre)%nat as [|r]; [|destruct r; discriminate]. injection H as <-.
                rewrite Ek in Ex. injection Ex as <-. left. auto. }
  destruct (G a [] (m_new K V (length a * 2))) as (m' & D & I' & L' & P' & C').
  - reflexivity.
  - exact I0.
  - unfold m_new. cbn [ents]. apply repeat_length.
  - reflexivity.
  - intros k ov. split; [intro H; exfalso; eapply C0; exact H|]. intros (p & e & k' & H & _). destruct p; discriminate.
  - exists m'. split; [exact D|]. split; [exact I'|]. split; [exact L'|]. split; [|exact C']. rewrite P'. symmetry. apply (i_pop m I).
Qed.

(* between operations *)
Definition Good (m : map) : Prop := Inv m /\ pop _ _ m * 2 <= Z.of_nat (length (ents _ _ m)) + 2.
Lemma len4 : forall m, Inv m -> 4 <= Z.of_nat (length (ents _ _ m)).
Proof. intros m I. destruct (i_sz m I) as (j & Hj & E). rewrite E. change 4 with (2 ^ 2). apply Z.pow_le_mono_r; lia. Qed.

Lemma mk_ok : forall m k, Good m -> exists m' p had, mk _ _ EQUAL H1 m k = Ok (m', p, had) /\ Good m' /\
  (exists e k', nth_error (ents _ _ m') p = Some e /\ ehash _ _ e <> 0 /\ ekey _ _ e = Some k' /\ (k' = k \/ EQUAL k' k = true) /\ (had = true -> EQUAL k' k = true) /\ (had = false -> eval _ _ e = None)) /\
  (had = true -> (exists ov, content (ents _ _ m) k ov) /\ forall k' ov, content (ents _ _ m') k' ov <-> content (ents _ _ m) k' ov) /\
  (had = false -> (forall ov, ~ content (ents _ _ m) k ov) /\
     forall k' ov, content (ents _ _ m') k' ov <-> (EQUAL k k' = true /\ ov = None) \/ (EQUAL k k' = false /\ content (ents _ _ m) k' ov)).
Proof.
  intros m k [I P]. pose proof (len4 m I) as L4. unfold mk.
  assert (S1 : exists m1, (if sz _ _ m <? pop _ _ m * 2 then dbl _ _ m else Ok m) = Ok m1 /\ Inv m1 /\ pop _ _ m1 * 2 <= Z.of_nat (length (ents _ _ m1)) /\
    forall k ov, content (ents _ _ m1) k ov <-> content (ents _ _ m) k ov).
  { unfold sz. destruct (Z.ltb_spec (Z.of_nat (length (ents _ _ m))) (pop _ _ m * 2)) as [Lt|Ge].
    - destruct (dbl_ok m I ltac:(lia)) as (m1 & D & I1 & L1 & P1 & C1). exists m1. split; [exact D|]. split; [exact I1|]. split; [lia|exact C1].
    - exists m. split; [reflexivity|]. split; [exact I|]. split; [lia|]. intros; reflexivity. }
  destruct S1 as (m1 & -> & I1 & P1 & C1). cbn [bind]. pose proof (len4 m1 I1) as L41.
  destruct (find_ok m1 I1 ltac:(lia) k) as (p & had & -> & Lp & T & F). cbn [bind]. destruct had.
  - exists m1, p, true. split; [reflexivity|]. split; [split; [exact I1|lia]|]. destruct (T eq_refl) as (e & k' & Ee & Ne & Ek & EQ).
    split; [exists e, k'; repeat split; auto; discriminate|]. split; [|discriminate]. intros _. split; [|exact C1]. exists (eval _ _ e). apply C1. exists p, e, k'. auto.
  - destruct (F eq_refl) as ((e & Ee & Ez) & Ch & Fr). rewrite (rd_ok _ _ _ Ee). cbn [bind].
    destruct (add_inv m1 p e k (eval _ _ e) I1 Ee Ez Ch Fr) as [I2 C2]. cbn zeta in I2, C2.
    eexists _, p, false. split; [reflexivity|]. split; [split; [exact I2|cbn [pop ents]; rewrite upd_length; lia]|].
    rewrite (i_fresh m1 I1 p e Ee Ez) in *.
    split. { exists {| ekey := Some k; ehash := H1 k; eval := None |}, k. cbn [ents]. rewrite upd_same by exact Lp. pose proof (hash_pos k). repeat split; auto; [cbn; lia|discriminate]. }
    split; [discriminate|]. intros _. split; [intros ov H; apply C1 in H; eapply Fr; exact H|]. intros k' ov. rewrite C2, C1. reflexivity.
Qed.

Lemma set_val_ok : forall m p v e k, Good m -> nth_error (ents _ _ m) p = Some e -> ehash _ _ e <> 0 -> ekey _ _ e = Some k ->
  exists m', set_val _ _ m p v = Ok m' /\ Good m' /\ forall k' ov, content (ents _ _ m') k' ov <-> (EQUAL k k' = true /\ ov = Some v) \/ (EQUAL k k' = false /\ content (ents _ _ m) k' ov).
Proof.
  intros m p v e k [I P] Ee Ne Ek. unfold set_val. rewrite (rd_ok _ _ _ Ee). cbn [bind]. eexists. split; [reflexivity|].
  set (a := ents _ _ m) in *. set (e1 := {| ekey := ekey _ _ e; ehash := ehash _ _ e; eval := Some v |}). pose proof (nth_error_Some_lt _ _ _ Ee) as Lp.
  assert (At : forall q x, nth_error (upd a p e1) q = Some x -> (q = p /\ x = e1) \/ (q <> p /\ nth_error a q = Some x)).
  { intros q x H. rewrite nth_error_upd in H. destruct (Nat.eqb_spec p q) as [->|]; [|right; auto]. destruct (Nat.ltb_spec q (length a)); [|lia]. injection H as <-. auto. }
  split.
  - split; [|cbn [pop ents]; rewrite upd_length; exact P]. constructor; cbn [pop ents].
    + rewrite upd_length. apply (i_sz m I).
    + rewrite (filter_upd_same a p e e1 Ee eq_refl). apply (i_pop m I).
    + intros q x H N. unfold homep. rewrite upd_length. fold (homep a). destruct (At q x H) as [[-> ->]|[Nq H']].
      * destruct (i_ent m I p e Ee Ne) as (k' & Ek' & Eh' & C). exists k'. split; [exact Ek'|]. split; [exact Eh'|]. apply chain_upd; assumption.
      * destruct (i_ent m I q x H' N) as (k' & Ek' & Eh' & C). exists k'. split; [exact Ek'|]. split; [exact Eh'|]. apply chain_upd; [exact Ne|exact C].
    + intros q q' x x' k1 k2 H H' N N' Ek1 Ek2 EQ. destruct (At q x H) as [[-> ->]|[Nq Hq]], (At q' x' H') as [[-> ->]|[Nq' Hq']]; [reflexivity| | |].
      * eapply (i_uniq m I); [exact Ee|exact Hq'|exact Ne|exact N'|exact Ek1|exact Ek2|exact EQ].
      * eapply (i_uniq m I); [exact Hq|exact Ee|exact N|exact Ne|exact Ek1|exact Ek2|exact EQ].
      * eapply (i_uniq m I); eauto.
    + intros q x H N. destruct (At q x H) as [[-> ->]|[Nq H']]; [contradiction|]. eapply (i_fresh m I); eauto.
  - intros k' ov. cbn [ents]. split.
    + intros (q & x & k1 & H & N & Ek1 & EQ & Ev). destruct (At q x H) as [[-> ->]|[Nq H']].
      * cbn in Ek1, Ev. rewrite Ek in Ek1. injection Ek1 as <-. left. auto.
      * destruct (EQUAL k k') eqn:Ekk.
        -- exfalso. apply Nq. eapply (i_uniq m I); [exact H'|exact Ee|exact N|exact Ne|exact Ek1|exact Ek|]. eapply eq_trans'; eauto.
        -- right. split; [reflexivity|]. exists q, x, k1. repeat split; auto.
    + intros [[EQ ->]|[NE (q & x & k1 & H & N & Ek1 & EQ & Ev)]].
      * exists p, e1, k. repeat split; auto. apply upd_same. exact Lp.
      * exists q, x, k1. repeat split; auto. rewrite upd_other; [exact H|]. intros ->. fold a in H. rewrite Ee in H. injection H as <-. rewrite Ek in Ek1. injection Ek1 as <-. congruence.
Qed.
End HtabProof.
