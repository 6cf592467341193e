(** The monadic search functions compute earlier occurrences on every path. *)
From Verif Require Import Base ListLib BitsModel BitsSpec BitsProof BitsProof2 BitsThm TagModel TagSpec TagProof NumSpec NumProof ArrSpec DataSpec SqueezeModel SqueezeSpec SqueezeProof MatchModel MatchSpec MatchProof MatchProof2 CompareModel CompareSpec CompareThm HashModel HashSpec HashProof HtabModel HtabThm HtabMap SearchModel SearchSpec SearchProof SearchFlat SearchTab SearchMany SearchMany2 SearchThm SelfModel SelfSpec SelfProof SelfRadix SelfHash.
From Coq Require Import List Sorting.Sorted.

Lemma gocc_map0 {A B} (E : B -> B -> bool) (f : A -> B) l : gocc E [] (map f l) = gocc (fun a b => E (f a) (f b)) [] l. Proof. exact (gocc_map E f l []). Qed.
Lemma gcls_map0 {A B} (E : B -> B -> bool) (f : A -> B) l : gcls E [] (map f l) = gcls (fun a b => E (f a) (f b)) [] l. Proof. exact (gcls_map E f l []). Qed.
(** ** Flat arrays *)
Definition fl (t : elt) (z : Z) : hobj := HAtom (cv t z).
Lemma flat_eqb t l (f : Z -> Z) : t <> EB -> t <> EF64 -> Forall (raw_ok t) l -> (forall a b, raw_ok t a -> raw_ok t b -> f a = f b -> a = b) ->
  forall a b, In a l -> In b l -> EQH (fl t a) (fl t b) = (f a =? f b).
Proof.
  intros T1 T2 R Fi a b Ha Hb. rewrite Forall_forall in R. pose proof (R a Ha) as Ra. pose proof (R b Hb) as Rb. apply bool_eq_iff. unfold fl. rewrite EQH_flat by auto. rewrite Z.eqb_eq. split.
  - intros [E _]. f_equal. eapply raw_inj; eauto.
  - intros E. apply Fi in E; auto. subst b. split; auto. destruct t; try congruence; discriminate.
Qed.
Lemma gocc_flat t l f : t <> EB -> t <> EF64 -> Forall (raw_ok t) l -> (forall a b, raw_ok t a -> raw_ok t b -> f a = f b -> a = b) -> gocc EQH [] (map (fl t) l) = gocc Z.eqb [] (map f l).
Proof. intros A B C D. rewrite !gocc_map0. apply gocc_ext. intros a b Ha Hb. apply (flat_eqb t l f); auto. Qed.
Lemma gcls_flat t l f : t <> EB -> t <> EF64 -> Forall (raw_ok t) l -> (forall a b, raw_ok t a -> raw_ok t b -> f a = f b -> a = b) -> gcls EQH [] (map (fl t) l) = gcls Z.eqb [] (map f l).
Proof. intros A B C D. rewrite !gcls_map0. apply gcls_ext. intros a b Ha Hb. apply (flat_eqb t l f); auto. Qed.
Lemma mod_inj m lo a b : 0 < m -> lo <= a < lo + m -> lo <= b < lo + m -> a mod m = b mod m -> a = b.
Proof. intros M A B E. pose proof (Z.div_mod a m ltac:(lia)). pose proof (Z.div_mod b m ltac:(lia)). rewrite E in H. assert (a - b = m * (a / m - b / m)) by lia. assert (a / m - b / m = 0) by nia. lia. Qed.
Lemma width_inj t k : (width_log t = 3 /\ k = 8 \/ width_log t = 4 /\ k = 16 \/ width_log t = 5 /\ k = 32) -> forall a b, raw_ok t a -> raw_ok t b -> a mod 2 ^ k = b mod 2 ^ k -> a = b.
Proof.
  intros W a b A B E. destruct W as [[W ->]|[[W ->]|[W ->]]]; destruct t; try discriminate; cbn [raw_ok] in A, B; revert E.
  - change (2 ^ 8) with 256. apply mod_inj with (lo := -128); lia. - change (2 ^ 8) with 256. apply mod_inj with (lo := 0); lia.
  - change (2 ^ 16) with 65536. apply mod_inj with (lo := -32768); lia. - change (2 ^ 16) with 65536. apply mod_inj with (lo := 0); lia.
  - change (2 ^ 32) with 4294967296. apply mod_inj with (lo := -2147483648); lia. - change (2 ^ 32) with 4294967296. apply mod_inj with (lo := 0); lia.
Qed.
Lemma mods_ok k l : 0 <= k -> Forall (fun z => 0 <= z < 2 ^ k) (map (fun z => z mod 2 ^ k) l).
Proof. intros K. apply Forall_forall. intros z H. apply in_map_iff in H. destruct H as (a&<-&_). apply Z.mod_pos_bound. apply Z.pow_pos_nonneg; lia. Qed.
(** floats *)
Lemma norm_tail_ok l : forall r, norm_tail l = Some r -> r = map add0 l /\ Forall (fun z => is_nan z = false) l.
Proof.
  induction l as [|z l IH]; intros r E; cbn [norm_tail] in E. { injection E as <-. auto. } unfold feq in E. destruct (is_nan z) eqn:N; cbn [negb andb] in E; [discriminate|]. rewrite Z.eqb_refl in E. cbn [negb] in E.
  destruct (norm_tail l) as [t|]; try discriminate. injection E as <-. destruct (IH t eq_refl) as [-> F]. auto.
Qed.
Lemma norm64_ok l : forall r, norm64 l = Some r -> r = map add0 l /\ Forall (fun z => is_nan z = false) l.
Proof.
  induction l as [|z l IH]; intros r E; cbn [norm64] in E. { injection E as <-. auto. } destruct ((z =? 2 ^ 63) || negb (feq z z)) eqn:C; [apply norm_tail_ok; exact E|].
  apply orb_false_iff in C. destruct C as [C1 C2]. destruct (norm64 l) as [t|]; try discriminate. injection E as <-. destruct (IH t eq_refl) as [-> F]. split.
  - cbn [map]. f_equal. unfold add0. rewrite C1. reflexivity. - constructor; auto. unfold feq in C2. destruct (is_nan z); auto.
Qed.
Lemma add0_raw z : raw_ok EF64 z -> raw_ok EF64 (add0 z) /\ vof EF64 (add0 z) = vof EF64 z.
Proof.
  intros R. unfold add0. destruct (Z.eqb_spec z (2 ^ 63)) as [->|]; auto. split.
  - split; [split; [lia|reflexivity]|]. unfold ieee_signalling_nan. vm_compute. intros A. decompose [and] A; discriminate.
  - reflexivity.
Qed.
Lemma add0_eq a b : raw_ok EF64 a -> raw_ok EF64 b -> is_nan a = false -> is_nan b = false -> EQH (fl EF64 a) (fl EF64 b) = (add0 a =? add0 b).
Proof.
  intros A B Na Nb. apply bool_eq_iff. unfold fl. rewrite EQH_flat by (auto; discriminate). rewrite Z.eqb_eq. cbn [vof]. rewrite (raw_f64_den a A), (raw_f64_den b B), Na, Nb. split.
  - intros [E _]. apply VNum_inj in E. apply add0_det; auto; [apply A|apply B].
  - intros E. split; [|discriminate]. destruct (add0_raw a A) as [A1 A2], (add0_raw b B) as [B1 B2]. cbn [vof] in A2, B2. rewrite E in A2. assert (Q : den a = den b) by congruence. rewrite (raw_f64_den a A), (raw_f64_den b B), Na, Nb in Q. exact Q.
Qed.

(** ** Bits *)
Lemma bitv_eqb a b : EQH (bitv a) (bitv b) = Bool.eqb a b.
Proof.
  change (EQH (HAtom (cv EBit (b2z a))) (HAtom (cv EBit (b2z b))) = Bool.eqb a b). apply bool_eq_iff. rewrite EQH_flat by (try discriminate; destruct a, b; cbn; lia). split.
  - intros [E _]. destruct a, b; auto; discriminate. - intros E. apply eqb_prop in E. subst. split; [auto|destruct b; discriminate].
Qed.
Lemma gocc_bits bs : gocc EQH [] (map bitv bs) = gocc Bool.eqb [] bs.
Proof. rewrite gocc_map0. apply gocc_ext. intros. apply bitv_eqb. Qed.
Lemma gcls_bits bs : gcls EQH [] (map bitv bs) = gcls Bool.eqb [] bs.
Proof. rewrite gcls_map0. apply gcls_ext. intros. apply bitv_eqb. Qed.
Lemma count_bool_ok k n l : 0 < k -> n <= 2 ^ (k - 1) -> forall p i n1, i = Z.of_nat (length p) -> n1 = Z.of_nat (cnt_eq Bool.eqb p true) -> i + Z.of_nat (length l) <= n ->
  count_bool k i n1 (map (fun b : bool => if b then 1 else 0) l) = map Z.of_nat (gocc Bool.eqb p l).
Proof.
  intros K N. induction l as [|b l IH]; intros p i n1 Ei En L; cbn [map count_bool gocc]; auto. cbn [length] in L.
  assert (T : (cnt_eq Bool.eqb p true + cnt_eq Bool.eqb p false = length p)%nat) by (clear; unfold cnt_eq; induction p as [|c p IH]; auto; cbn [filter]; destruct c; cbn [Bool.eqb length]; lia).
  f_equal.
  - destruct b; cbn [Z.eqb negb]; rewrite to_s_id; lia.
  - apply IH; [rewrite app_length; cbn [length]; lia| |lia]. rewrite cnt_eq_app. unfold cnt_eq at 2. destruct b; cbn [filter Bool.eqb length]; lia.
Qed.
Lemma class_bits b0 l : forall U, U = [b0] \/ U = [b0; negb b0] -> gcls Bool.eqb U l = map (fun b => b2z (xorb b b0)) l.
Proof.
  induction l as [|b l IH]; intros U H; cbn [gcls map]; auto. destruct H as [->| ->]; cbn [scan length]; destruct b, b0; cbn -[gcls]; f_equal; apply IH; auto.
Qed.
Lemma mark_bits b0 l bs : bs = b0 :: l -> let i := first_index (negb b0) bs in let n := Z.of_nat (length bs) in only n (0 :: (if i <? n then [i] else [])) = map (fun c => (c =? 0)%nat) (gocc Bool.eqb [] bs).
Proof.
  intros Eb i n. unfold only, n. rewrite Nat2Z.id. pose proof (first_index_scan (negb b0) bs) as Fs. fold i in Fs. symmetry in Fs. clearbody i. pose proof (scan_range (fun b => Bool.eqb b (negb b0)) bs) as Rg. apply scan_spec in Fs as Sp. rewrite Fs in Rg.
  apply nth_error_ext. intros j. rewrite !nth_error_map, gocc_nth. destruct (nth_error bs j) as [b|] eqn:N.
  2: { rewrite (proj2 (nth_error_None (seq 0 (length bs)) j)) by (rewrite seq_length; apply nth_error_None; auto). reflexivity. }
  pose proof (nth_error_Some_lt _ _ _ N) as Lj. rewrite nth_error_seq' by auto. cbn [option_map app]. f_equal. rewrite cnt_zero. replace (0 + j)%nat with j by lia.
  destruct Sp as (Sp1&Sp2). assert (Sp3 : i = Z.of_nat (length bs) \/ exists a, nth_error bs (Z.to_nat i) = Some a /\ Bool.eqb a (negb b0) = true) by (destruct Sp2 as [Sp2|(k&a&->&Sp2&Sp3)]; [left; auto|right; exists a; rewrite Nat2Z.id; auto]). clear Sp2. rename Sp3 into Sp2.
  destruct j as [|j]. { reflexivity. } cbn [existsb]. destruct (Z.eqb_spec (Z.of_nat (S j)) 0); [lia|]. cbn [orb]. rewrite Eb at 2. cbn [firstn existsb].
  destruct (Bool.eqb b0 b) eqn:Q; cbn [orb negb].
  - apply eqb_prop in Q. subst b. destruct (Z.ltb_spec i (Z.of_nat (length bs))); cbn [existsb]; auto. rewrite orb_false_r. apply Z.eqb_neq. intros E. destruct Sp2 as [Sp2|(a&Sp2&Sp3)]; [lia|]. rewrite <- E, Nat2Z.id, N in Sp2. injection Sp2 as <-. destruct b0; discriminate.
  - assert (b = negb b0) by (destruct b, b0; auto; discriminate). subst b. destruct (Z.ltb_spec i (Z.of_nat (length bs))) as [Li|Li]; cbn [existsb].
    + rewrite orb_false_r. apply bool_eq_iff. rewrite Z.eqb_eq, negb_true_iff. split.
      * intros E. apply not_true_is_false. intros X. apply existsb_exists in X. destruct X as (c&I1&I2). apply In_nth_error in I1. destruct I1 as (k&I1). assert (Lk : (k < length (firstn j l))%nat) by (eapply nth_error_Some_lt; eauto). rewrite firstn_length in Lk.
        assert (F := Sp1 (S k) c). rewrite Eb in F. cbn [nth_error] in F. rewrite nth_error_firstn_lt in I1 by lia. specialize (F I1 ltac:(lia)). congruence.
      * intros X. destruct Sp2 as [Sp2|(a&Sp2&Sp3)]; [lia|]. destruct (Z.lt_trichotomy (Z.of_nat (S j)) i) as [H|[H|H]]; auto.
        { pose proof (Sp1 (S j) (negb b0) N H) as F. cbn beta in F. rewrite eqb_reflx in F. discriminate. }
        exfalso. rewrite Eb in Sp2. destruct (Z.to_nat i) as [|k] eqn:Ek; [cbn in Sp2; injection Sp2 as <-; destruct b0; discriminate|]. cbn [nth_error] in Sp2.
        assert (existsb (fun c => Bool.eqb c (negb b0)) (firstn j l) = true); [|congruence]. apply existsb_exists. exists a. split; auto. apply (nth_error_In _ k). rewrite nth_error_firstn_lt by lia. exact Sp2.
    + assert (Bool.eqb (negb b0) (negb b0) = false); [|rewrite eqb_reflx in *; discriminate]. apply (Sp1 (S j) (negb b0) N). lia.
Qed.

(** ** Sorted lists *)
Lemma ordered_antisym a b : ordered a b -> ordered b a -> a = b.
Proof.
  intros (w&x&c&W&X&<-&<-&C&L) (x'&w'&c'&X'&W'&Ex&Ew&C'&L').
  assert (Q1 : compare x x' = Ok 0) by (apply C15_compare_zero_iff_same; auto). assert (Q2 : compare w' w = Ok 0) by (apply C15_compare_zero_iff_same; auto).
  destruct (C15_compare_trans x x' w' 0 c' X X' W' Q1 ltac:(lia) C' L') as (d&D1&D2&_). destruct (C15_compare_trans x w' w d 0 X W' W D1 D2 Q2 ltac:(lia)) as (e&E1&E2&_).
  rewrite (C15_compare_antisym w x c W X C) in E1. apply Ok_inj in E1. apply C15_compare_zero_iff_same; auto. rewrite C. f_equal. lia.
Qed.
Definition dat (h : hobj) : data := oden (erase h).
Definition sortedl (l : list hobj) : Prop := StronglySorted ordered (map dat l) \/ StronglySorted (fun a b => ordered b a) (map dat l).
Lemma ss_nth {A} (R : A -> A -> Prop) l : StronglySorted R l -> forall i j a b, (i < j)%nat -> nth_error l i = Some a -> nth_error l j = Some b -> R a b.
Proof.
  induction 1 as [|x l S1 IH F]; intros i j a b L Na Nb; [destruct i; discriminate|]. destruct j as [|j]; [lia|]. cbn [nth_error] in Nb. destruct i as [|i]; [|apply (IH i j); auto; lia].
  cbn in Na. injection Na as <-. rewrite Forall_forall in F. apply F. eapply nth_error_In; eauto.
Qed.
(** the elements between two matching elements of a sorted list match them *)
Lemma sorted_between l i k j a b c : sortedl l -> Forall okh l -> (i < k < j)%nat -> nth_error l i = Some a -> nth_error l k = Some b -> nth_error l j = Some c -> EQH a c = true -> EQH b c = true.
Proof.
  intros S1 O L A B C E. rewrite Forall_forall in O. assert (Oa : okh a) by (apply O; eapply nth_error_In; eauto). assert (Ob : okh b) by (apply O; eapply nth_error_In; eauto). assert (Oc : okh c) by (apply O; eapply nth_error_In; eauto).
  apply (proj2 (EQH_ok a c Oa Oc)) in E. destruct E as [E Nf]. fold (dat a) in *. fold (dat c) in *.
  assert (Q : dat a = dat b).
  { apply (map_nth_error dat) in A, B, C. destruct S1 as [S1|S1]; pose proof (ss_nth _ _ S1 i k _ _ ltac:(lia) A B) as H1; pose proof (ss_nth _ _ S1 k j _ _ ltac:(lia) B C) as H2; cbn beta in H1, H2; rewrite <- E in H2; apply ordered_antisym; auto. }
  apply (proj2 (EQH_ok b c Ob Oc)). fold (dat b) (dat c). split; congruence.
Qed.
Fixpoint nes (prev : hobj) (q : list hobj) : list bool := match q with [] => [] | x :: t => negb (EQH prev x) :: nes x t end.
Lemma prev_first p prev x q : sortedl (p ++ prev :: x :: q) -> Forall okh (p ++ prev :: x :: q) -> EQH prev x = false -> forall a, In a (p ++ [prev]) -> EQH a x = false.
Proof.
  intros S1 O E a Ha. apply not_true_is_false. intros H. apply in_app_or in Ha. destruct Ha as [Ha|[<-|[]]]; [|congruence]. apply In_nth_error in Ha. destruct Ha as (i&Ni). pose proof (nth_error_Some_lt _ _ _ Ni).
  rewrite (sorted_between _ i (length p) (length p + 1) a prev x S1 O) in E; [discriminate|lia| | | |exact H].
  - rewrite nth_error_app1 by auto. exact Ni. - rewrite nth_error_app2, Nat.sub_diag by lia. reflexivity. - rewrite nth_error_app2 by lia. replace (length p + 1 - length p)%nat with 1%nat by lia. reflexivity.
Qed.
Lemma sorted_marks q : forall p prev, sortedl (p ++ prev :: q) -> Forall okh (p ++ prev :: q) -> map (fun c => (c =? 0)%nat) (gocc EQH (p ++ [prev]) q) = nes prev q.
Proof.
  induction q as [|x q IH]; intros p prev S1 O; cbn [gocc map nes]; auto. rewrite <- (IH (p ++ [prev]) x) by (rewrite <- app_assoc; auto). f_equal. rewrite cnt_zero, existsb_app. cbn [existsb]. rewrite orb_false_r.
  destruct (EQH prev x) eqn:E; [rewrite orb_true_r; auto|]. rewrite orb_false_r. cbn [negb]. rewrite negb_true_iff. apply not_true_is_false. intros X. apply existsb_exists in X. destruct X as (a&I1&I2). rewrite (prev_first p prev x q S1 O E a) in I2; [discriminate|apply in_or_app; auto].
Qed.
Fixpoint runs (c : nat) (l : list bool) : list nat := match l with [] => [] | b :: t => let c := if b then O else S c in c :: runs c t end.
Lemma sorted_counts q : forall p prev, sortedl (p ++ prev :: q) -> Forall okh (p ++ prev :: q) -> gocc EQH (p ++ [prev]) q = runs (cnt_eq EQH p prev) (nes prev q).
Proof.
  induction q as [|x q IH]; intros p prev S1 O; cbn [gocc nes runs]; auto.
  assert (Ox : okh prev /\ okh x /\ Forall okh p). { apply Forall_app in O. destruct O as [O1 O2]. inversion O2 as [|? ? O3 O4]; subst. inversion O4; auto. } destruct Ox as (Op&Ox&Opp).
  assert (C : cnt_eq EQH (p ++ [prev]) x = if negb (EQH prev x) then 0%nat else S (cnt_eq EQH p prev)).
  { destruct (EQH prev x) eqn:E; cbn [negb].
    - rewrite cnt_eq_app, <- (cnt_cong p prev x Opp Op Ox E). unfold cnt_eq at 2. cbn [filter]. rewrite E. cbn [length]. lia.
    - apply cnt_zero_iff. apply (prev_first p prev x q S1 O E). }
  rewrite C. f_equal. rewrite (IH (p ++ [prev]) x) by (rewrite <- app_assoc; auto). rewrite C. reflexivity.
Qed.
Lemma runs_scan b : forall c i m, m = i - Z.of_nat c -> 0 <= m -> map (fun im => fst im - snd im) (combine (map Z.of_nat (seq (Z.to_nat (i + 1)) (length b))) (max_scan m (map (fun ci => b2z (fst ci) * snd ci) (combine b (map Z.of_nat (seq (Z.to_nat (i + 1)) (length b))))))) = map Z.of_nat (runs c b).
Proof.
  induction b as [|x b IH]; intros c i m Em Hm; cbn [length seq map combine max_scan runs]; auto. cbn [fst snd].
  assert (Ei : Z.of_nat (Z.to_nat (i + 1)) = i + 1) by lia. rewrite Ei.
  assert (Mx : i + 1 - Z.max m (b2z x * (i + 1)) = Z.of_nat (if x then 0%nat else S c)) by (destruct x; cbn [b2z]; lia).
  rewrite Mx. f_equal. replace (S (Z.to_nat (i + 1))) with (Z.to_nat (i + 1 + 1)) by lia. apply IH; destruct x; cbn [b2z] in *; lia.
Qed.
Lemma sorted_class q : forall p prev U u, sortedl (p ++ prev :: q) -> Forall okh (p ++ prev :: q) -> (forall a, In a (U ++ [u]) -> In a (p ++ [prev])) -> (forall a, In a U -> EQH a u = false) -> (u = prev \/ EQH u prev = true) ->
  gcls EQH (U ++ [u]) q = sum_scan (Z.of_nat (length U)) (nes prev q).
Proof.
  induction q as [|x q IH]; intros p prev U u S1 O I1 D1 E1; cbn [gcls nes sum_scan]; auto. rewrite app_length. cbn [length].
  assert (Oa : forall a, In a (p ++ prev :: x :: q) -> okh a) by (rewrite Forall_forall in O; auto).
  assert (Ob : forall a, In a (p ++ [prev]) -> okh a) by (intros a Ha; apply Oa; apply in_or_app; apply in_app_or in Ha; destruct Ha as [Ha|[<-|[]]]; auto; right; left; auto).
  assert (Ox : okh x) by (apply Oa; apply in_or_app; right; right; left; auto). assert (Op : okh prev) by (apply Oa; apply in_or_app; right; left; auto). assert (Ou : okh u) by (apply Ob, I1, in_or_app; right; left; auto).
  destruct (EQH prev x) eqn:E; cbn [negb b2z].
  - assert (Eu : EQH u x = true) by (destruct E1 as [->|E1]; auto; apply (EQH_trans u prev x); auto).
    assert (Sc : scan (fun a => EQH a x) (U ++ [u]) = Z.of_nat (length U)).
    { assert (F : forall a, In a U -> EQH a x = false) by (intros a Ha; rewrite <- (EQH_cong a u x); auto; apply Ob, I1, in_or_app; auto). clear -F Eu. induction U as [|a U IHU]; cbn [app scan length]; [rewrite Eu; auto|]. rewrite (F a) by (left; auto). rewrite IHU by (intros; apply F; right; auto). lia. }
    rewrite Sc. destruct (Z.eqb_spec (Z.of_nat (length U)) (Z.of_nat (length U + 1))); [lia|]. f_equal; [lia|]. rewrite Z.add_0_r. apply (IH (p ++ [prev]) x); [rewrite <- app_assoc; auto|rewrite <- app_assoc; auto|intros a Ha; apply in_or_app; left; apply I1; auto|auto|auto].
  - assert (F : forall a, In a (U ++ [u]) -> EQH a x = false) by (intros a Ha; apply (prev_first p prev x q S1 O E); auto).
    assert (Sc : scan (fun a => EQH a x) (U ++ [u]) = Z.of_nat (length U + 1)) by (rewrite scan_const by (apply Forall_forall; auto); rewrite app_length; reflexivity).
    rewrite Sc, Z.eqb_refl. f_equal; [lia|]. replace (Z.of_nat (length U) + 1) with (Z.of_nat (length (U ++ [u]))) by (rewrite app_length; cbn [length]; lia).
    apply (IH (p ++ [prev]) x); [rewrite <- app_assoc; auto|rewrite <- app_assoc; auto|intros a Ha; apply in_app_or in Ha; apply in_or_app; destruct Ha as [Ha|[<-|[]]]; [left; auto|right; left; auto]|auto|auto].
Qed.
(** both flags: all elements are the same data *)
Lemma both_sorted l : StronglySorted ordered (map dat l) -> StronglySorted (fun a b => ordered b a) (map dat l) -> forall i j a b, nth_error l i = Some a -> nth_error l j = Some b -> dat a = dat b.
Proof.
  intros S1 S2 i j a b A B. apply (map_nth_error dat) in A, B. destruct (Nat.lt_trichotomy i j) as [L|[->|L]].
  - apply ordered_antisym; [apply (ss_nth _ _ S1 i j); auto|apply (ss_nth _ _ S2 i j _ _ L A B)]. - congruence.
  - apply ordered_antisym; [apply (ss_nth _ _ S2 j i _ _ L B A)|apply (ss_nth _ _ S1 j i); auto].
Qed.
