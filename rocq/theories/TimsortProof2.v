(** Proofs for TimsortModel: the run stack and the whole sort. *)
From Verif Require Import Base TimsortModel TimsortSpec TimsortProof.

Section P.
Context {A : Type} (cmp : A -> A -> Z) (ok : A -> Prop).
Hypothesis CMP : comparison cmp ok.
Notation sorted := (sorted cmp).
Notation SP := (SP cmp ok).

(** [stk st d]: the runs on the stack are sorted and cover [d] *)
Inductive stk : list run -> list A -> Prop :=
| stk_nil : stk [] []
| stk_cons st d x : stk st d -> sorted x -> x <> [] -> stk ((length d, length x) :: st) (d ++ x).
Lemma stk_inv r st d : stk (r :: st) d -> exists d0 x, d = d0 ++ x /\ r = (length d0, length x) /\ sorted x /\ x <> [] /\ stk st d0.
Proof. intros H. inversion H; subst. eauto 10. Qed.
Lemma stk_push st d x s l : stk st d -> sorted x -> x <> [] -> s = length d -> l = length x -> stk ((s, l) :: st) (d ++ x).
Proof. intros. subst. now constructor. Qed.

Lemma merge_top (st : list run) lo hi d t alloc : stk (hi :: lo :: st) d -> Forall ok d ->
  exists d' alloc', tim_merge cmp (d ++ t) alloc lo hi = Ok (d' ++ t, alloc') /\ stk ((fst lo, (snd lo + snd hi)%nat) :: st) d' /\ SP d d'.
Proof.
  intros H F. apply stk_inv in H. destruct H as (d1&y& -> & -> &Sy&Ny&H). apply stk_inv in H. destruct H as (d0&x& -> & -> &Sx&Nx&H).
  apply Forall_app in F. destruct F as [F Fy]. apply Forall_app in F. destruct F as [F0 Fx].
  destruct (merge_ok cmp ok CMP d0 x y t alloc (length d0, length x) (length (d0 ++ x), length y)) as (r&al&E&P&S); auto.
  exists (d0 ++ r), al. split; [|split].
  - rewrite <- !app_assoc. exact E.
  - cbn [fst snd]. pose proof (SP_len cmp ok _ _ P) as L. rewrite app_length in L. apply stk_push; auto. destruct x; [congruence|]. intros ->. cbn in L. lia.
  - rewrite <- app_assoc. apply SP_app; [apply SP_refl|assumption].
Qed.
Lemma merge_below (st : list run) top lo hi d t alloc : stk (top :: hi :: lo :: st) d -> Forall ok d ->
  exists d' alloc', tim_merge cmp (d ++ t) alloc lo hi = Ok (d' ++ t, alloc') /\ stk (top :: (fst lo, (snd lo + snd hi)%nat) :: st) d' /\ SP d d'.
Proof.
  intros H F. apply stk_inv in H. destruct H as (d1&z& -> & -> &Sz&Nz&H). apply Forall_app in F. destruct F as [F Fz].
  destruct (merge_top st lo hi d1 (z ++ t) alloc H F) as (d'&al&E&K&P).
  exists (d' ++ z), al. split; [|split].
  - rewrite <- !app_assoc. exact E.
  - apply stk_push; auto. apply (SP_len cmp ok _ _ P).
  - apply SP_app; [assumption|apply SP_refl].
Qed.

(** every run is longer than the next two together *)
Fixpoint trip (l : list run) : Prop :=
  match l with
  | c :: l' => match l' with b :: a :: _ => (snd b + snd c < snd a)%nat | _ => True end /\ trip l'
  | [] => True
  end.
Lemma trip_tl c l : trip (c :: l) -> trip l.
Proof. cbn [trip]. tauto. Qed.

Lemma collapse_ok fuel : forall size d t alloc st, (length st <= fuel)%nat -> (1 <= fuel)%nat -> stk st d -> Forall ok d -> trip (tl (tl st)) ->
  exists d' alloc' st', tim_collapse cmp fuel size (d ++ t, alloc, st) = Ok (d' ++ t, alloc', st') /\ stk st' d' /\ SP d d' /\ trip st' /\ check_invariant st' = true.
Proof.
  induction fuel as [|fuel IH]; intros size d t alloc st Hf H1 K F T; [lia|]. cbn [tim_collapse].
  destruct st as [|r1 [|r2 [|r3 rest]]].
  - exists d, alloc, []. refine (conj eq_refl (conj _ (conj _ (conj _ _)))); cbn; auto using SP_refl.
  - exists d, alloc, [r1]. refine (conj eq_refl (conj _ (conj _ (conj _ _)))); cbn; auto using SP_refl. now destruct r1.
  - destruct ((snd r2 + snd r1 =? size)%nat || (snd r2 <=? snd r1)%nat) eqn:C.
    + destruct (merge_top [] r2 r1 d t alloc K F) as (d'&al&E&K'&P). rewrite E. cbn [bind].
      exists d', al, [(fst r2, (snd r2 + snd r1)%nat)]. refine (conj eq_refl (conj _ (conj _ (conj _ _)))); cbn; auto.
    + exists d, alloc, [r1; r2]. destruct r1, r2. cbn [snd] in *. apply orb_false_iff in C. destruct C as [_ C]. refine (conj eq_refl (conj _ (conj _ (conj _ _)))); [auto|apply SP_refl|cbn; tauto|].
      cbn [check_invariant]. now rewrite C.
  - cbn [tl] in T.
    set (ABC := match rest with [] => false | a :: _ => (snd a <=? snd r3 + snd r2)%nat end).
    set (BCD := (snd r3 <=? snd r2 + snd r1)%nat || ABC). destruct (snd r2 <=? snd r1)%nat eqn:CD.
    + cbn [negb]. rewrite !andb_false_r.
      destruct (merge_top (r3 :: rest) r2 r1 d t alloc K F) as (d'&al&E&K'&P). rewrite E. cbn [bind].
      destruct (IH size d' t al ((fst r2, (snd r2 + snd r1)%nat) :: r3 :: rest)) as (d2&al2&st2&E2&K2&P2&T2&C2); auto.
      * cbn [length] in *. lia.
      * cbn [length] in *. lia.
      * apply (SP_ok cmp ok d); auto.
      * cbn [tl]. apply trip_tl in T. exact T.
      * exists d2, al2, st2. split; [exact E2|]. split; [assumption|]. split; [|split; assumption]. apply (SP_trans cmp ok d d'); auto.
    + cbn [negb]. rewrite !andb_true_r. destruct BCD eqn:EB; cbn [negb].
      * destruct (merge_below rest r1 r3 r2 d t alloc K F) as (d'&al&E&K'&P). rewrite E. cbn [bind].
        destruct (IH size d' t al (r1 :: (fst r3, (snd r3 + snd r2)%nat) :: rest)) as (d2&al2&st2&E2&K2&P2&T2&C2); auto.
        -- cbn [length] in *. lia.
        -- cbn [length] in *. lia.
        -- apply (SP_ok cmp ok d); auto.
        -- cbn [tl]. apply trip_tl in T. exact T.
        -- exists d2, al2, st2. split; [exact E2|]. split; [assumption|]. split; [|split; assumption]. apply (SP_trans cmp ok d d'); auto.
      * exists d, alloc, (r1 :: r2 :: r3 :: rest). split; [reflexivity|]. split; [assumption|]. split; [apply SP_refl|].
        unfold BCD in EB. apply orb_false_iff in EB. destruct EB as [EB EA]. split.
        -- cbn [trip]. split; [lia|]. split; [|exact T]. destruct rest; [exact I|]. unfold ABC in EA. lia.
        -- destruct r1, r2, r3. cbn [check_invariant snd] in *. lia.
Qed.

Lemma merge_all_ok fuel : forall d alloc st, (length st <= fuel)%nat -> (1 <= fuel)%nat -> stk st d -> Forall ok d -> st <> [] ->
  exists d', merge_all cmp fuel (d, alloc, st) = Ok d' /\ SP d d' /\ sorted d'.
Proof.
  induction fuel as [|fuel IH]; intros d alloc st Hf H1 K F N; [lia|]. cbn [merge_all]. destruct st as [|hi [|lo rest]]; [congruence| |].
  - apply stk_inv in K. destruct K as (d0&x& -> & -> &Sx&Nx&K). inversion K; subst. exists x. split; [reflexivity|]. split; [apply SP_refl|assumption].
  - destruct (merge_top rest lo hi d [] alloc K F) as (d'&al&E&K'&P). rewrite !app_nil_r in E. rewrite E. cbn [bind].
    destruct (IH d' al ((fst lo, (snd lo + snd hi)%nat) :: rest)) as (d2&E2&P2&S2); auto.
    + cbn [length] in *. lia.
    + cbn [length] in *. lia.
    + apply (SP_ok cmp ok d); auto.
    + discriminate.
    + exists d2. split; [exact E2|]. split; [|assumption]. apply (SP_trans cmp ok d d'); auto.
Qed.

(** ** the stack never overflows *)
Lemma trip_nth l i a b c : trip l -> nth_error l i = Some c -> nth_error l (S i) = Some b -> nth_error l (S (S i)) = Some a -> (snd b + snd c < snd a)%nat.
Proof.
  revert i; induction l as [|x l IH]; intros i T Hc Hb Ha; [destruct i; discriminate|]. destruct i as [|i].
  - cbn [nth_error] in *. injection Hc as <-. destruct l as [|y l]; [discriminate|]. cbn [nth_error] in *. injection Hb as <-. destruct l as [|z l]; [discriminate|]. cbn in Ha. injection Ha as <-.
    apply T.
  - apply trip_tl in T. apply (IH i T); assumption.
Qed.
Lemma stk_pos st d r : stk st d -> In r st -> (1 <= snd r <= length d)%nat.
Proof.
  induction 1 as [|st d x K IH Sx Nx]; [intros []|]. rewrite app_length. intros [<-|I]; cbn [snd].
  - destruct x; [congruence|cbn; lia].
  - specialize (IH I). lia.
Qed.
Lemma trip_growth st d : stk st d -> trip st -> forall i r, nth_error st i = Some r -> 2 ^ Z.of_nat (i / 2) <= Z.of_nat (snd r).
Proof.
  intros K T.
  assert (P : forall i, (forall r, nth_error st i = Some r -> 2 ^ Z.of_nat (i / 2) <= Z.of_nat (snd r)) /\ (forall r, nth_error st (S i) = Some r -> 2 ^ Z.of_nat (i / 2) <= Z.of_nat (snd r) /\ 2 ^ Z.of_nat (S i / 2) <= Z.of_nat (snd r))).
  { induction i as [|i [I1 I2]].
    - split; intros r H; pose proof (stk_pos st d r K (nth_error_In _ _ H)); cbn; lia.
    - split; [intros r H; apply (I2 r H)|]. intros a Ha.
      destruct (nth_error_ex st (S i)) as [b Hb]; [apply nth_error_Some_lt in Ha; lia|].
      destruct (nth_error_ex st i) as [c Hc]; [apply nth_error_Some_lt in Ha; lia|].
      pose proof (trip_nth st i a b c T Hc Hb Ha) as L. specialize (I1 c Hc). destruct (I2 b Hb) as [J1 J2].
      replace (S (S i) / 2)%nat with (S (i / 2)) by (change (S (S i)) with (2 + i)%nat; change (S (i / 2)) with (1 + i / 2)%nat; symmetry; apply (Nat.div_add_l 1 2 i); lia).
      rewrite Nat2Z.inj_succ, Z.pow_succ_r by lia. split; lia. }
  intros i r H. apply (proj1 (P i) r H).
Qed.
Lemma stack_bound st d : stk st d -> trip st -> Z.of_nat (length d) < 2 ^ 63 -> (length st < STACK_SIZE)%nat.
Proof.
  intros K T L. destruct (Nat.lt_ge_cases (length st) STACK_SIZE) as [|G]; [assumption|]. exfalso. unfold STACK_SIZE in G.
  destruct (nth_error_ex st 127) as [r Hr]; [lia|]. pose proof (trip_growth st d K T 127 r Hr) as Q. pose proof (stk_pos st d r K (nth_error_In _ _ Hr)) as W.
  change (127 / 2)%nat with 63%nat in Q. change (Z.of_nat 63) with 63 in Q. lia.
Qed.

Lemma push_ok size minrun d s alloc st curr : curr = length d -> size = length (d ++ s) -> s <> [] -> stk st d -> Forall ok d -> Forall ok s -> (length st < STACK_SIZE)%nat ->
  exists p, push_next cmp size minrun (d ++ s, alloc, st) curr = Ok p /\
  match p with
  | inl r => SP (d ++ s) r /\ sorted r
  | inr ((dst, al, st'), curr') => exists x s' len, dst = (d ++ x) ++ s' /\ s' <> [] /\ curr' = length (d ++ x) /\ st' = (curr, len) :: st /\ stk st' (d ++ x) /\ SP (d ++ s) dst /\ (1 <= length x)%nat
  end.
Proof.
  intros Hc Hz N K Fd Fs Ls. unfold push_next.
  destruct (count_run_ok cmp ok CMP d s curr size Hc Hz N Fs) as (s1&s2&r&len&E&Es&Ll&L1&P&S). rewrite E. cbn [bind]. clear E.
  pose proof (SP_len cmp ok _ _ P) as Lr.
  set (rn := if (size - curr <? minrun)%nat then (size - curr)%nat else minrun).
  assert (Hrn : (rn <= size - curr)%nat) by (unfold rn; destruct (Nat.ltb_spec (size - curr) minrun); lia).
  assert (G : exists x s', (if (len <? rn)%nat then do d0 <- bins_sort_start cmp (d ++ r ++ s2) curr len rn; Ok (d0, rn) else Ok (d ++ r ++ s2, len)) = Ok ((d ++ x) ++ s', length x) /\
       (1 <= length x)%nat /\ SP s (x ++ s') /\ sorted x).
  { destruct (Nat.ltb_spec len rn) as [Q|Q].
    - rewrite Es in Hz. rewrite !app_length in Hz. destruct (split_at s2 (rn - len)) as (t&post&Et&Lt); [lia|]. unfold bins_sort_start.
      assert (F12 : Forall ok s1 /\ Forall ok s2) by (rewrite Es in Fs; apply Forall_app in Fs; exact Fs). destruct F12 as [F1 F2].
      destruct (bins_loop_ok cmp ok CMP t r d post curr len (rn - len)) as (x&E&Px&Sx); auto; try lia.
      + intros ->. cbn in Lr. lia.
      + apply (SP_ok cmp ok s1); auto.
      + rewrite Et in F2. apply Forall_app in F2. apply F2.
      + rewrite Et, E. cbn [bind]. exists x, post. pose proof (SP_len cmp ok _ _ Px) as Lx. rewrite app_length in Lx.
        split; [rewrite <- app_assoc; do 2 f_equal; lia|]. split; [lia|]. split; [|assumption].
        rewrite Es, Et, app_assoc. apply SP_app; [|apply SP_refl]. apply (SP_trans cmp ok _ (r ++ t)); [|assumption]. apply SP_app; [assumption|apply SP_refl].
    - cbn [bind]. exists r, s2. split; [rewrite <- app_assoc; do 2 f_equal; lia|]. split; [lia|]. split; [|assumption]. rewrite Es. apply SP_app; [assumption|apply SP_refl]. }
  destruct G as (x&s'&E&L&Px&Sx).
  rewrite E. cbn [bind]. clear E.
  destruct (Nat.leb_spec STACK_SIZE (length st)); [lia|].
  assert (K' : stk ((curr, length x) :: st) (d ++ x)) by (apply stk_push; auto; destruct x; [cbn in L; lia|discriminate]).
  assert (Pd : SP (d ++ s) ((d ++ x) ++ s')) by (rewrite <- app_assoc; apply SP_app; [apply SP_refl|assumption]).
  pose proof (SP_len cmp ok _ _ Pd) as Ld. rewrite !app_length in Ld. rewrite app_length in Hz.
  destruct (Nat.eqb_spec (curr + length x) size) as [Q|Q].
  - assert (s' = []) by (destruct s'; [reflexivity|cbn in Ld; lia]). subst s'. rewrite app_nil_r in *.
    destruct (merge_all_ok (length ((curr, length x) :: st)) (d ++ x) alloc ((curr, length x) :: st)) as (r2&E2&P2&S2); auto; try (cbn; lia).
    + apply (SP_ok cmp ok (d ++ s)); auto. apply Forall_app; auto.
    + discriminate.
    + cbn zeta. match goal with |- context [merge_all cmp ?f ?s] => replace (merge_all cmp f s) with (Ok r2) by (symmetry; exact E2) end. cbn [bind]. eexists. split; [reflexivity|]. split; [|assumption]. apply (SP_trans cmp ok _ (d ++ x)); auto.
  - eexists. split; [reflexivity|]. cbn. exists x, s', (length x). split; [reflexivity|]. split; [|].
    + intros ->. cbn in Ld. lia.
    + split; [rewrite app_length; lia|]. auto.
Qed.

Lemma tim_loop_ok fuel : forall size minrun d s alloc st curr, curr = length d -> size = length (d ++ s) -> s <> [] -> stk st d -> Forall ok d -> Forall ok s ->
  Z.of_nat size < 2 ^ 63 -> trip (tl st) -> (2 * (size - curr) + (if check_invariant st then 0 else 1) < fuel)%nat ->
  exists r, tim_loop cmp fuel size minrun (d ++ s, alloc, st) curr = Ok r /\ SP (d ++ s) r /\ sorted r.
Proof.
  induction fuel as [|fuel IH]; intros size minrun d s alloc st curr Hc Hz N K Fd Fs Lz T Hf; [lia|]. cbn [tim_loop snd].
  destruct (check_invariant st) eqn:CI; cbn [negb].
  - assert (T' : trip st).
    { destruct st as [|[? l1] [|[? l2] [|[? l3] rest]]]; try (cbn; tauto). cbn [tl] in T. cbn [check_invariant] in CI. cbn [trip] in *. cbn [snd]. split; [lia|exact T]. }
    destruct (push_ok size minrun d s alloc st curr Hc Hz N K Fd Fs) as (p&E&Hp).
    { apply (stack_bound st d K T'). rewrite app_length in Hz. lia. }
    rewrite E. cbn [bind]. destruct p as [r|[[[dst al] st'] curr']]; [exists r; auto|].
    destruct Hp as (x&s'&len& -> &Ns&Hc'&Hst&K'&P&Lx).
    pose proof (SP_len cmp ok _ _ P) as Ld.
    assert (F2 : Forall ok (d ++ x) /\ Forall ok s').
    { assert (F2 : Forall ok ((d ++ x) ++ s')) by (apply (SP_ok cmp ok (d ++ s)); auto; apply Forall_app; auto). apply Forall_app in F2. exact F2. }
    destruct (IH size minrun (d ++ x) s' al st' curr') as (r&E2&P2&S2); auto; try apply F2.
    + lia.
    + rewrite Hst. cbn [tl]. exact T'.
    + assert (length s' <> 0)%nat by (destruct s'; [congruence|cbn; lia]). rewrite !app_length in *. destruct (check_invariant st'); lia.
    + exists r. split; [assumption|]. split; [|assumption]. apply (SP_trans cmp ok _ ((d ++ x) ++ s')); auto.
  - assert (NE : (1 <= length st)%nat) by (destruct st; [discriminate|cbn; lia]).
    destruct (collapse_ok (length st) size d s alloc st (Nat.le_refl _) NE K Fd) as (d'&al&st'&E&K'&P&T'&C'); [destruct st as [|? [|? ?]]; cbn [tl] in *; auto; apply trip_tl in T; exact T|].
    rewrite E. cbn [bind]. pose proof (SP_len cmp ok _ _ P) as Ld.
    destruct (IH size minrun d' s al st' curr) as (r&E2&P2&S2); auto.
    + lia.
    + rewrite app_length in *. lia.
    + apply (SP_ok cmp ok d); auto.
    + destruct st'; [exact I|]. apply trip_tl in T'. exact T'.
    + rewrite C'. lia.
    + exists r. split; [assumption|]. split; [|assumption]. apply (SP_trans cmp ok _ (d' ++ s)); auto. apply SP_app; [assumption|apply SP_refl].
Qed.

Lemma push_step size minrun d s alloc st curr (k : tst * nat -> res (list A)) : curr = length d -> size = length (d ++ s) -> s <> [] -> stk st d -> Forall ok d -> Forall ok s -> (length st < 3)%nat ->
  (forall al d' s' st' curr', curr' = length d' -> size = length (d' ++ s') -> s' <> [] -> stk st' d' -> Forall ok d' -> Forall ok s' -> length st' = S (length st) -> 
     exists r, k ((d' ++ s', al, st'), curr') = Ok r /\ SP (d' ++ s') r /\ sorted r) ->
  exists r, (do p <- push_next cmp size minrun (d ++ s, alloc, st) curr; match p with inl d => Ok d | inr q => k q end) = Ok r /\ SP (d ++ s) r /\ sorted r.
Proof.
  intros Hc Hz N K Fd Fs Ls Hk. destruct (push_ok size minrun d s alloc st curr Hc Hz N K Fd Fs) as (p&E&Hp); [unfold STACK_SIZE; lia|].
  rewrite E. cbn [bind]. destruct p as [r|[[[dst al] st'] curr']]; [exists r; auto|].
  destruct Hp as (x&s'&len& -> &Ns&Hc'&Hst&K'&P&Lx).
  assert (F2 : Forall ok (d ++ x) /\ Forall ok s').
  { assert (F2 : Forall ok ((d ++ x) ++ s')) by (apply (SP_ok cmp ok (d ++ s)); auto; apply Forall_app; auto). apply Forall_app in F2. exact F2. }
  destruct (Hk al (d ++ x) s' st' curr') as (r&E2&P2&S2); auto; try apply F2.
  - rewrite Hz. apply (SP_len cmp ok _ _ P).
  - rewrite Hst. reflexivity.
  - exists r. split; [assumption|]. split; [|assumption]. apply (SP_trans cmp ok _ ((d ++ x) ++ s')); auto.
Qed.

Theorem tim_sort_ok l : Forall ok l -> Z.of_nat (length l) < 2 ^ 63 -> exists r, tim_sort cmp l = Ok r /\ stable_sort_of cmp ok l r.
Proof.
  intros F L.
  assert (G : exists r, tim_sort cmp l = Ok r /\ SP l r /\ sorted r).
  { unfold tim_sort. destruct (Nat.leb_spec (length l) 1) as [L1|L1].
    { exists l. split; [reflexivity|]. split; [apply SP_refl|]. destruct l as [|x [|y l]]; [constructor|repeat constructor|cbn in L1; lia]. }
    destruct (Nat.ltb_spec (length l) 64) as [L2|L2].
    - unfold bins_sort. destruct (Nat.leb_spec (length l) 1); [lia|]. unfold bins_sort_start. destruct l as [|x l]; [cbn in L1; lia|].
      destruct (bins_loop_ok cmp ok CMP l [x] [] [] 0 1 (length (x :: l) - 1)) as (r&E&P&S); auto; try (cbn; lia); try discriminate.
      + repeat constructor.
      + constructor; [apply (Forall_inv F)|constructor].
      + apply (Forall_inv_tail F).
      + rewrite !app_nil_r in E. cbn [app] in E. exists r. auto.
    - set (size := length l) in *. set (mr := compute_minrun size). clearbody mr.
      assert (NE : l <> []) by (intros E; subst size; rewrite E in L1; cbn in L1; lia).
      change l with ([] ++ l) at 1 2. apply push_step; auto; try (cbn; lia); [constructor|].
      intros al d s st curr Hc Hz N K Fd Fs Ls. apply push_step; auto; [cbn in Ls; lia|].
      intros al2 d2 s2 st2 curr2 Hc2 Hz2 N2 K2 Fd2 Fs2 Ls2. apply push_step; auto; [cbn in Ls, Ls2; lia|].
      intros al3 d3 s3 st3 curr3 Hc3 Hz3 N3 K3 Fd3 Fs3 Ls3. cbn [length] in Ls. apply tim_loop_ok; auto.
      + destruct st3 as [|a [|b [|c [|e st3]]]]; cbn [length] in *; try lia. cbn. tauto.
      + rewrite app_length in Hz3. destruct (check_invariant st3); lia. }
  destruct G as (r&E&[P1 P2]&S). exists r. split; [assumption|]. repeat split; auto.
Qed.
End P.
