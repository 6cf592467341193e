(** C21: Mark Firsts, Occurrence Count, Classify and Deduplicate on lists. *)
From Verif Require Import Base ListLib BitsModel BitsProof TagModel TagSpec TagProof NumSpec NumProof ArrSpec DataSpec SqueezeModel SqueezeSpec SqueezeProof MatchModel MatchSpec MatchProof CompareModel CompareSpec CompareProof CompareThm HashModel HashSpec HashProof HtabModel SearchModel SearchSpec SearchProof SearchFlat SearchMany2 SearchTab SearchMany SearchMany2 SearchThm SelfModel SelfSpec SelfProof SelfRadix SelfPaths SelfMain.
From Coq Require Import List Sorting.Sorted.

Lemma filter_pos {A} (p : A -> bool) (l : list A) : length (filter p l) = length (filter (fun k => match nth_error l k with Some a => p a | None => false end) (seq 0 (length l))).
Proof.
  induction l as [|a l IH]; auto. cbn [length seq]. rewrite <- seq_shift. cbn [filter nth_error].
  assert (Q : length (filter (fun k => match nth_error (a :: l) k with Some a => p a | None => false end) (map S (seq 0 (length l)))) = length (filter p l)).
  { rewrite IH. generalize (seq 0 (length l)). intros s. induction s as [|k s IHs]; auto. cbn [map filter nth_error]. destruct (nth_error l k) as [b|]; auto. destruct (p b); cbn [length]; auto. }
  destruct (p a); cbn [length]; rewrite Q; auto.
Qed.
Lemma seen_iff xl j k x : Forall okh xl -> nth_error xl j = Some x -> (seen (map dat xl) j k <-> exists a, (k < j)%nat /\ nth_error xl k = Some a /\ EQH a x = true).
Proof.
  intros O N. rewrite Forall_forall in O. unfold seen. split.
  - intros (L&d&d'&N1&N2&Sm). rewrite nth_error_map in N1, N2. rewrite N in N2. cbn in N2. injection N2 as <-. destruct (nth_error xl k) as [a|] eqn:Nk; [|discriminate]. cbn in N1. injection N1 as <-. exists a. split; auto. split; auto.
    apply (proj2 (EQH_ok a x (O a (nth_error_In _ _ Nk)) (O x (nth_error_In _ _ N)))). exact Sm.
  - intros (a&L&Nk&Q). split; auto. exists (dat a), (dat x). rewrite !nth_error_map, Nk, N. split; auto. split; auto. apply (proj2 (EQH_ok a x (O a (nth_error_In _ _ Nk)) (O x (nth_error_In _ _ N)))). exact Q.
Qed.
Lemma firsts_marks xl : Forall okh xl -> mark_firsts (map dat xl) (firsts xl).
Proof.
  intros O. unfold firsts. split; [rewrite !map_length, gocc_length; auto|]. intros j b N. rewrite nth_error_map, gocc_nth in N. destruct (nth_error xl j) as [x|] eqn:Nx; [|discriminate]. cbn [option_map app] in N. injection N as <-.
  rewrite Nat.eqb_eq, cnt_zero_iff. split.
  - intros H k Sk. apply (seen_iff xl j k x O Nx) in Sk. destruct Sk as (a&L&Nk&Q). rewrite (H a) in Q; [discriminate|]. apply (nth_error_In _ k). rewrite nth_error_firstn_lt by auto. eauto.
  - intros H a Ia. apply not_true_is_false. intros Q. apply In_nth_error in Ia. destruct Ia as (k&Nk). assert (L : (k < j)%nat) by (pose proof (nth_error_Some_lt _ _ _ Nk) as L; rewrite firstn_length in L; lia). rewrite nth_error_firstn_lt in Nk by auto. apply (H k). apply (seen_iff xl j k x O Nx). eauto.
Qed.
Lemma gocc_occ xl : Forall okh xl -> occurrences (map dat xl) (map Z.of_nat (gocc EQH [] xl)).
Proof.
  intros O. split; [rewrite !map_length, gocc_length; auto|]. intros j c N. rewrite nth_error_map, gocc_nth in N. destruct (nth_error xl j) as [x|] eqn:Nx; [|discriminate]. cbn [option_map app] in N. injection N as <-.
  unfold cnt_eq. rewrite filter_pos. eexists. split; [|split; [|reflexivity]]; [apply NoDup_filter, seq_NoDup|]. assert (Lj : (j < length xl)%nat) by (eapply nth_error_Some_lt; eauto).
  intros k. rewrite filter_In, in_seq, firstn_length, Nat.min_l by lia. rewrite (seen_iff xl j k x O Nx). split.
  - intros [L Q]. destruct (nth_error (firstn j xl) k) as [a|] eqn:Nk; [|discriminate]. rewrite nth_error_firstn_lt in Nk by lia. exists a. split; [lia|auto].
  - intros (a&L&Nk&Q). split; [lia|]. rewrite nth_error_firstn_lt by auto. rewrite Nk. exact Q.
Qed.
Lemma next_snoc r c : 0 <= c -> Forall (fun z => 0 <= z) r -> next_number (r ++ [c]) = Z.max (next_number r) (c + 1).
Proof. intros C. unfold next_number. induction r as [|a r IH]; intros F; cbn [app fold_right]; [lia|]. inversion F; subst. rewrite IH by auto. lia. Qed.
Lemma gcls_run l : forall p U r, Forall okh (p ++ l) -> length r = length p -> Forall (fun z => 0 <= z) r -> next_number r = Z.of_nat (length U) -> (forall u, In u U -> In u p) ->
  (forall i j a b, (i < j)%nat -> nth_error U i = Some a -> nth_error U j = Some b -> EQH a b = false) ->
  (forall k a c, nth_error p k = Some a -> nth_error r k = Some c -> exists u, nth_error U (Z.to_nat c) = Some u /\ (u = a \/ EQH u a = true)) ->
  forall j c, nth_error (gcls EQH U l) j = Some c ->
  let R := r ++ gcls EQH U l in let X := map dat (p ++ l) in let J := (length p + j)%nat in
  (forall k, seen X J k -> nth_error R k = Some c) /\ ((forall k, ~ seen X J k) -> c = next_number (firstn J R)).
Proof.
  induction l as [|x l IH]; intros p U r O Lr Pr Nr Up Ud Un j c N; [destruct j; discriminate|]. cbn [gcls] in N. cbv zeta in N.
  set (s := scan (fun a => EQH a x) U) in *. set (U' := if s =? Z.of_nat (length U) then U ++ [x] else U) in *.
  assert (Os : forall a, In a (p ++ x :: l) -> okh a) by (rewrite Forall_forall in O; auto). assert (Ix : In x (p ++ x :: l)) by (apply in_or_app; right; left; auto). assert (Ip : forall a, In a p -> In a (p ++ x :: l)) by (intros; apply in_or_app; auto).
  pose proof (scan_range (fun a => EQH a x) U) as Sr. fold s in Sr. pose proof (proj1 (scan_spec (fun a => EQH a x) U s) eq_refl) as [Sp1 Sp2].
  assert (Hs : forall k a c, nth_error p k = Some a -> nth_error r k = Some c -> EQH a x = true -> c = s).
  { intros k a c' Nk Rk Q. destruct (Un k a c' Nk Rk) as (u&Nu&Hu). assert (C0 : 0 <= c') by (rewrite Forall_forall in Pr; apply Pr; eapply nth_error_In; eauto). assert (Iu : In u p) by (apply Up; eapply nth_error_In; eauto). assert (Ia : In a p) by (eapply nth_error_In; eauto).
    assert (Qu : EQH u x = true) by (destruct Hu as [->|Hu]; auto; apply (EQH_trans u a x); auto).
    destruct (Z.lt_trichotomy c' s) as [L|[L|L]]; auto; exfalso.
    - rewrite (Sp1 (Z.to_nat c') u Nu) in Qu; [discriminate|lia].
    - destruct Sp2 as [Sp2|(i&b&Ei&Ni&Qi)]; [apply nth_error_Some_lt in Nu; lia|]. assert (F : EQH b u = false) by (apply (Ud i (Z.to_nat c')); auto; lia). assert (Ib : In b p) by (apply Up; eapply nth_error_In; eauto).
      rewrite (EQH_trans b x u) in F; [discriminate| | | | |]; auto. apply EQH_sym; auto. }
  destruct j as [|j]; cbn [nth_error] in N.
  - injection N as <-. cbv zeta. rewrite Nat.add_0_r. assert (Nx : nth_error (p ++ x :: l) (length p) = Some x) by (rewrite nth_error_app2, Nat.sub_diag by lia; reflexivity). split.
    + intros k Sk. apply (seen_iff _ _ k x O Nx) in Sk. destruct Sk as (a&L&Nk&Q). rewrite nth_error_app1 in Nk by auto. rewrite nth_error_app1 by lia. destruct (nth_error r k) as [c'|] eqn:Rk; [|apply nth_error_None in Rk; lia]. f_equal. eapply Hs; eauto.
    + intros Ns. replace (firstn (length p) (r ++ gcls EQH U (x :: l))) with r by (rewrite <- Lr, firstn_app, firstn_all, Nat.sub_diag; cbn [firstn]; rewrite app_nil_r; auto). rewrite Nr. destruct Sp2 as [Sp2|(i&b&Ei&Ni&Qi)]; auto. exfalso.
      assert (Ib : In b p) by (apply Up; eapply nth_error_In; eauto). apply In_nth_error in Ib. destruct Ib as (k&Nk). apply (Ns k). apply (seen_iff _ _ k x O Nx). exists b. split; [eapply nth_error_Some_lt; eauto|]. split; auto. rewrite nth_error_app1 by (eapply nth_error_Some_lt; eauto). auto.
  - replace (p ++ x :: l) with ((p ++ [x]) ++ l) in * by (rewrite <- app_assoc; reflexivity). cbn [gcls]. cbv zeta. fold s. fold U'.
    replace (length p + S j)%nat with (length (p ++ [x]) + j)%nat by (rewrite app_length; cbn [length]; lia). replace (r ++ s :: gcls EQH U' l) with ((r ++ [s]) ++ gcls EQH U' l) by (rewrite <- app_assoc; reflexivity).
    apply (IH (p ++ [x]) U' (r ++ [s])); auto.
    + rewrite !app_length, Lr; auto.
    + apply Forall_app. split; auto. constructor; auto. lia.
    + rewrite next_snoc by (auto; lia). rewrite Nr. unfold U'. destruct (Z.eqb_spec s (Z.of_nat (length U))); [rewrite app_length; cbn [length]|]; lia.
    + intros u Iu. unfold U' in Iu. destruct (s =? _); [apply in_app_or in Iu; destruct Iu as [Iu|Iu]|]; apply in_or_app; auto.
    + unfold U'. destruct (Z.eqb_spec s (Z.of_nat (length U))) as [Es|Es]; auto. intros i k a b L Ni Nk. pose proof (nth_error_Some_lt _ _ _ Nk) as Lk. rewrite app_length in Lk. cbn [length] in Lk.
      destruct (Nat.eq_dec k (length U)) as [->|].
      * rewrite nth_error_app2, Nat.sub_diag in Nk by lia. cbn in Nk. injection Nk as <-. rewrite nth_error_app1 in Ni by auto. apply (Sp1 i a Ni). lia.
      * rewrite nth_error_app1 in Ni, Nk by lia. exact (Ud i k a b L Ni Nk).
    + intros k a c' Nk Rk. pose proof (nth_error_Some_lt _ _ _ Nk) as Lk. rewrite app_length in Lk. cbn [length] in Lk. destruct (Nat.eq_dec k (length p)) as [->|].
      * rewrite nth_error_app2, Nat.sub_diag in Nk by lia. rewrite nth_error_app2, Lr, Nat.sub_diag in Rk by lia. cbn in Nk, Rk. injection Nk as <-. injection Rk as <-. unfold U'.
        destruct (Z.eqb_spec s (Z.of_nat (length U))) as [Es|Es]; [exists x; rewrite nth_error_app2 by lia; replace (Z.to_nat s - length U)%nat with 0%nat by lia; split; auto|].
        destruct Sp2 as [Sp2|(i&b&Ei&Ni&Qi)]; [congruence|]. exists b. rewrite Ei, Nat2Z.id. auto.
      * rewrite nth_error_app1 in Nk, Rk by lia. destruct (Un k a c' Nk Rk) as (u&Nu&Hu). exists u. split; auto. unfold U'. destruct (s =? _); auto. rewrite nth_error_app1; auto. eapply nth_error_Some_lt; eauto.
Qed.
Lemma gcls_classes xl : Forall okh xl -> classes (map dat xl) (gcls EQH [] xl).
Proof.
  intros O. split; [rewrite gcls_length, map_length; auto|]. intros j c N. apply (gcls_run xl [] [] []); auto; try (intros; destruct k; discriminate); try (intros; destruct i; discriminate).
Qed.
Lemma compress_marks m (xl : list hobj) : map dat (compress m xl) = at_marks m (map dat xl).
Proof. revert xl. induction m as [|b m IH]; intros [|x xl]; cbn [compress at_marks map]; auto. destruct b; cbn [map]; rewrite IH; auto. Qed.

Section Thm.
(** The float conversion, the mixing functions and constants of the hash, and memory beyond the end of arrays, are arbitrary; lengths are less than M. *)
Context (cast : Z -> Z) (wyhash64 : Z -> Z -> Z) (wyhash : list Z -> Z -> list Z -> Z) (s0 s1 s2 s3 nan0 : Z) (junk : nat -> bool) (M : Z).
Notation memberOf_c1 := (memberOf_c1 cast wyhash64 wyhash s0 s1 s2 s3 nan0 junk M).
Notation count_c1 := (count_c1 cast wyhash64 wyhash s0 s1 s2 s3 nan0 junk M).
Notation indexOf_c1 := (indexOf_c1 cast wyhash64 wyhash s0 s1 s2 s3 nan0 junk).
Notation find_c1 := (find_c1 cast wyhash64 wyhash s0 s1 s2 s3 nan0 junk M).

(** ∊x: for a list x, each result tells whether no earlier element matches. Missing from C21: x of higher rank. *)
Theorem C21_mark_firsts_partial : cast_ok cast -> mixers wyhash64 wyhash s3 -> forall x, sval x -> sorted_flags x -> rank1 (oden (erase x)) -> Z.of_nat (length (els (oden (erase x)))) < M ->
  exists r, memberOf_c1 x = Ok r /\ mark_firsts (els (oden (erase x))) r.
Proof.
  intros CG MX x X F R Len. pose proof (rank1_arr x R) as A. pose proof (sval_okh x X) as Ox. destruct (elems_ok x A Ox) as (xl&Ex&_&Fx&_). rewrite <- (list_len x R Ox) in Len. exists (firsts xl). split; [apply memberOf_c1_ok; auto; pose proof (elems_len x xl A Ox Ex); lia|]. rewrite <- (data_elems x xl) by auto. apply firsts_marks; auto.
Qed.
(** ⊒x: each result is the number of earlier elements that match; lists of more than 2^31 elements are refused with an error. *)
Theorem C21_occurrence_count_partial : cast_ok cast -> mixers wyhash64 wyhash s3 -> forall x, sval x -> sorted_flags x -> rank1 (oden (erase x)) -> Z.of_nat (length (els (oden (erase x)))) < M ->
  (Z.of_nat (length (els (oden (erase x)))) <= 2 ^ 31 -> exists r, count_c1 x = Ok r /\ occurrences (els (oden (erase x))) r) /\
  (2 ^ 31 < Z.of_nat (length (els (oden (erase x)))) -> count_c1 x = Err).
Proof.
  intros CG MX x X F R Len. pose proof (rank1_arr x R) as A. pose proof (sval_okh x X) as Ox. destruct (elems_ok x A Ox) as (xl&Ex&_&Fx&_). rewrite <- (list_len x R Ox) in *. split; intros L.
  - exists (map Z.of_nat (gocc EQH [] xl)). split; [apply count_c1_ok; auto; pose proof (elems_len x xl A Ox Ex); lia|]. rewrite <- (data_elems x xl) by auto. apply gocc_occ; auto.
  - unfold SelfModel.count_c1. cbv zeta. destruct (Z.leb_spec (h_ia x) 1); [lia|]. destruct (Z.ltb_spec (2 ^ 31) (h_ia x)); [reflexivity|lia].
Qed.
(** ⊐x: matching elements get the same number, and numbers are given in order of first appearance, for lists of fewer than 2^31 elements; lists of more than 2^31 elements are refused with an error. *)
Theorem C21_classify_partial : cast_ok cast -> mixers wyhash64 wyhash s3 -> forall x, sval x -> sorted_flags x -> rank1 (oden (erase x)) ->
  (Z.of_nat (length (els (oden (erase x)))) < 2 ^ 31 -> exists r, indexOf_c1 x = Ok r /\ classes (els (oden (erase x))) r) /\
  (2 ^ 31 < Z.of_nat (length (els (oden (erase x)))) -> indexOf_c1 x = Err).
Proof.
  intros CG MX x X F R. pose proof (rank1_arr x R) as A. pose proof (sval_okh x X) as Ox. destruct (elems_ok x A Ox) as (xl&Ex&_&Fx&_). rewrite <- (list_len x R Ox) in *. split; intros L.
  - exists (gcls EQH [] xl). split; [apply indexOf_c1_ok; auto|]. rewrite <- (data_elems x xl) by auto. apply gcls_classes; auto.
  - unfold SelfModel.indexOf_c1. cbv zeta. destruct (Z.leb_spec (h_ia x) 1); [lia|]. destruct (Z.ltb_spec (2 ^ 31) (h_ia x)); [reflexivity|lia].
Qed.
(** ⍷x: the elements of x that no earlier element matches, in order. *)
Theorem C21_deduplicate_partial : cast_ok cast -> mixers wyhash64 wyhash s3 -> forall x, sval x -> sorted_flags x -> rank1 (oden (erase x)) -> Z.of_nat (length (els (oden (erase x)))) < M ->
  exists r, find_c1 x = Ok r /\ deduplicated (els (oden (erase x))) (map (fun h => oden (erase h)) r).
Proof.
  intros CG MX x X F R Len. pose proof (rank1_arr x R) as A. pose proof (sval_okh x X) as Ox. destruct (elems_ok x A Ox) as (xl&Ex&_&Fx&_). rewrite <- (list_len x R Ox) in Len. exists (compress (firsts xl) xl). split; [apply find_c1_ok; auto; pose proof (elems_len x xl A Ox Ex); lia|]. rewrite <- (data_elems x xl) by auto. exists (firsts xl). split; [apply firsts_marks; auto|]. apply compress_marks.
Qed.
End Thm.
Print Assumptions C21_mark_firsts_partial.
Print Assumptions C21_occurrence_count_partial.
Print Assumptions C21_classify_partial.
Print Assumptions C21_deduplicate_partial.

(** The bound on the length of Classify is needed: of 2^31 equal 8-bit numbers, all are given the number -2^31. *)
Definition long : hobj := HTyped nf [2 ^ 31] EI8 (repeat 0 (Z.to_nat (2 ^ 31))).
Lemma tget_repeat v n k : (k < n)%nat -> tget (repeat (Some v) n) k = Ok v.
Proof. intros L. apply tget_some. apply nth_error_repeat'. auto. Qed.
Lemma dotab_stuck v n tab : tget tab 0 = Ok v -> v mod 2 ^ 64 <> n -> forall m u r, 
  foldM (fun (st : list (option Z) * Z * list Z) k =>
      let '(tab, u, r) := st in
      do t <- tget tab k;
      do (tab, u) <- (if t mod 2 ^ 64 =? n then do tab <- wr tab k (Some u); Ok (tab, to_s 32 (u + 1)) else Ok (tab, u));
      do v <- tget tab k; Ok (tab, u, r ++ [v])) (repeat 0%nat m) (tab, u, r) = Ok (tab, u, r ++ repeat v m).
Proof.
  intros T N m. induction m as [|m IH]; intros u r; cbn [repeat]; [cbn; rewrite app_nil_r; auto|]. rewrite foldM_cons. rewrite T. cbn [bind]. destruct (Z.eqb_spec (v mod 2 ^ 64) n); [congruence|]. cbn [bind]. rewrite T. cbn [bind]. rewrite IH, <- app_assoc. reflexivity.
Qed.
Lemma set_all v n : exists tab, set_keys v (repeat None (S n)) (seq 0 (S n)) = Ok tab /\ tget tab 0 = Ok v.
Proof.
  destruct (set_keys_ready (fun v => v) v (repeat None (S n)) [0%nat] (seq 0 (S n))) as (tab&E&_&R).
  - intros k Hk. apply in_seq in Hk. rewrite repeat_length. lia.
  - intros k [<-|[]]. apply in_seq. lia.
  - exists tab. split; auto. apply tget_some. specialize (R 0%nat (or_introl eq_refl)). exact R.
Qed.
Lemma class_stuck m n : n = Z.of_nat m -> to_s 32 n mod 2 ^ 64 <> n -> class_lookup 8 (repeat 0 m) = Ok (repeat (to_s 32 n) m).
Proof.
  intros L N. unfold class_lookup. rewrite repeat_length, <- L. unfold tab_init. change (8 <? 8) with false. cbn [andb]. change (Z.to_nat (2 ^ 8)) with 256%nat. destruct (set_all (to_s 32 n) 255) as (tab&E&T). rewrite E. cbn [bind]. unfold dotab. rewrite map_repeat'. change (Z.to_nat 0) with 0%nat. rewrite (dotab_stuck (to_s 32 n)) by auto. reflexivity.
Qed.
Lemma raws_zero sh m : raws_of (HTyped nf sh EI8 (repeat 0 m)) = Ok (repeat 0 m). Proof. reflexivity. Qed.
Theorem C21_classify_length_refuted : exists x, sval x /\ sorted_flags x /\ rank1 (oden (erase x)) /\ Z.of_nat (length (els (oden (erase x)))) = 2 ^ 31 /\
  forall cast wyhash64 wyhash s0 s1 s2 s3 nan0 junk, exists r, indexOf_c1 cast wyhash64 wyhash s0 s1 s2 s3 nan0 junk x = Ok r /\ nth_error r 0 = Some (- 2 ^ 31) /\ ~ classes (els (oden (erase x))) r.
Proof.
  exists long. assert (X : sval long).
  { split; [split|split; [|exact Logic.I]]; cbn [long erase ovalid oden plain hflags_ok].
    - split; [repeat constructor; lia|]. split; [discriminate|]. split; [discriminate|]. split; [rewrite repeat_length, Z2Nat.id by lia; cbn [prod fold_right]; lia|]. apply Forall_forall. intros z Hz. apply repeat_spec in Hz. subst z. cbn. lia.
    - generalize (Z.to_nat (2 ^ 31)). intros m. induction m as [|m IH]; cbn [repeat map]; [exact Logic.I|]. split; [left; right; eexists; reflexivity|exact IH].
    - unfold flags_ok. cbn [with_fl nf a_sq a_asc a_dsc h_sq h_asc h_dsc]. split; [discriminate|split; discriminate]. }
  assert (R : rank1 (oden (erase long))) by (eexists; eexists; reflexivity). assert (L : Z.of_nat (length (els (oden (erase long)))) = 2 ^ 31) by (rewrite <- (list_len long R (sval_okh _ X)); reflexivity).
  split; [exact X|]. split; [split; discriminate|]. split; [exact R|]. split; [exact L|]. intros.
  assert (E : indexOf_c1 cast wyhash64 wyhash s0 s1 s2 s3 nan0 junk long = Ok (repeat (- 2 ^ 31) (Z.to_nat (2 ^ 31)))).
  { unfold indexOf_c1. change (h_ia long) with (2 ^ 31). cbv zeta. change (2 ^ 31 <=? 1) with false. change (2 ^ 31 <? 2 ^ 31) with false. change (use_sorted long) with false. change (width_log (h_elt long)) with 3. cbn [andb]. change (3 =? 0) with false. change (3 =? 3) with true. cbv iota.
    change (2 ^ 31 <? 12) with false. unfold uraws, long. rewrite raws_zero. cbn [bind]. rewrite map_repeat'. change (0 mod 2 ^ 8) with 0. cbv iota. rewrite (class_stuck _ (2 ^ 31)); [reflexivity|rewrite Z2Nat.id; [reflexivity|discriminate]|discriminate]. }
  eexists. split; [exact E|]. assert (N : nth_error (repeat (- 2 ^ 31) (Z.to_nat (2 ^ 31))) 0 = Some (- 2 ^ 31)) by (apply nth_error_repeat'; lia). split; [exact N|].
  intros [_ C]. destruct (C 0%nat _ N) as [_ C0]. specialize (C0 ltac:(intros k [Lk _]; lia)). cbn [firstn next_number fold_right] in C0. discriminate.
Qed.
Print Assumptions C21_classify_length_refuted.

(** Examples: nested elements stored in different ways; a sorted list of 16-bit numbers, whose flag is true; floats with both zeroes and a NaN. *)
Definition ex_n : hobj := HBox nf [5] [HTyped nf [2] EI16 [1; 1]; HAtom (of_int 5); ones; HAtom (of_int 5); HTyped nf [1] EC8 [97]].
Definition ex_s : hobj := HTyped {| h_sq := false; h_asc := true; h_dsc := false |} [3] EI16 [300; 300; 301].
Definition ex_nan : Z := 2047 * 2 ^ 52 + 2 ^ 51.
Definition ex_f : hobj := HTyped nf [4] EF64 [of_int 0; ex_nan; 2 ^ 63; ex_nan].
Lemma ordered_num a b c : Z.abs a < 2 ^ 53 -> Z.abs b < 2 ^ 53 -> compare (GAtom (of_int a)) (GAtom (of_int b)) = Ok c -> c <= 0 -> ordered (DAtom (vof EI16 a)) (DAtom (vof EI16 b)).
Proof.
  intros A B E C. exists (GAtom (of_int a)), (GAtom (of_int b)), c. split; [apply plain_G, of_int_G; auto|]. split; [apply plain_G, of_int_G; auto|]. cbn [gden]. destruct (of_int_den a A) as (_&->&_), (of_int_den b B) as (_&->&_). auto.
Qed.
Example C21_example : sval ex_s /\ sorted_flags ex_s /\ rank1 (oden (erase ex_s)) /\
  memberOf_c1 (fun z => z) mix64 mixl 1 2 3 5 0 (fun _ => false) (2 ^ 32) ex_s = Ok [true; false; true] /\
  memberOf_c1 (fun z => z) mix64 mixl 1 2 3 5 0 (fun _ => false) (2 ^ 32) ex_n = Ok [true; true; false; false; true] /\
  count_c1 (fun z => z) mix64 mixl 1 2 3 5 0 (fun _ => false) (2 ^ 32) ex_n = Ok [0; 0; 1; 1; 0] /\
  indexOf_c1 (fun z => z) mix64 mixl 1 2 3 5 0 (fun _ => false) ex_n = Ok [0; 1; 0; 1; 2] /\
  memberOf_c1 (fun z => z) mix64 mixl 1 2 3 5 0 (fun _ => false) (2 ^ 32) ex_f = Ok [true; true; false; true] /\
  find_c1 (fun z => z) mix64 mixl 1 2 3 5 0 (fun _ => false) (2 ^ 32) ex_s = Ok [HAtom (of_int 300); HAtom (of_int 301)].
Proof.
  split. { split; [split|split; [|exact Logic.I]]; cbn [ex_s erase ovalid oden plain hflags_ok].
    - split; [repeat constructor; lia|]. split; [discriminate|]. split; [discriminate|]. split; [reflexivity|]. repeat (constructor; [cbn [raw_ok]; lia|]). constructor.
    - cbn [map]. repeat split; left; right; eexists; reflexivity.
    - unfold flags_ok. cbn [with_fl a_sq a_asc a_dsc h_sq h_asc h_dsc]. split; [discriminate|]. split; [|discriminate]. intros _ _. cbn [a_els]. repeat constructor; lia. }
  split. { split; [|discriminate]. intros _. cbn [ex_s erase oden els map]. assert (Q : forall a b, In (a, b) [(300, 300); (300, 301)] -> ordered (DAtom (vof EI16 a)) (DAtom (vof EI16 b))).
    { intros a b [H|[H|[]]]; injection H as <- <-; [apply (ordered_num 300 300 0)|apply (ordered_num 300 301 (-1))]; try lia; vm_compute; reflexivity. }
    repeat constructor; apply Q; cbn; auto. }
  split; [eexists; eexists; reflexivity|]. repeat (split; [vm_compute; reflexivity|]). vm_compute. reflexivity.
Qed.
