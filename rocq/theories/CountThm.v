(** C23: the inverse of Indices counts how often each number occurs, so it undoes Indices. *)
From Verif Require Import Base ListLib BitsModel BitsSpec SqueezeModel SlashModel SlashModel2 SlashSpec SlashProof SlashThm CountModel CountSpec CountProof.
From Coq Require Import ZArith List Bool Lia Arith.
Import ListNotations.
Open Scope Z_scope.
Lemma nats_znum l : nats_of l = map znum l. Proof. reflexivity. Qed.
Lemma nats_some l : nats_of (map Some l) = l. Proof. unfold nats_of. rewrite map_map. apply map_id. Qed.
Lemma naturals_some l : naturals (map Some l) <-> Forall (fun z => 0 <= z) l.
Proof. unfold naturals. rewrite Forall_map. split; intros H; eapply Forall_impl; try exact H; cbn beta; [intros z (z' & E & P); congruence|intros z P; eauto]. Qed.
Lemma q_naturals l m : naturals l -> is_max (map znum l) m -> m < 2 ^ 32 -> forallb q_fusz l = true.
Proof. intros N [_ F] M. apply forallb_forall. intros e IE. unfold naturals in N. rewrite Forall_forall in N, F. destruct (N e IE) as (z & -> & Z0). specialize (F z). cbn beta in F. assert (z <= m) by (apply F; apply in_map_iff; exists (Some z); auto). cbn [q_fusz]. apply andb_true_iff. split; [apply Z.leb_le|apply Z.ltb_lt]; lia. Qed.
Lemma has_max l : l <> [] -> exists m, is_max l m.
Proof. induction l as [|a [|b l] IH]; intros NE; [congruence|exists a; split; [left; auto|repeat constructor; lia]|]. destruct IH as (m & I & F); [congruence|]. exists (Z.max a m). split; [destruct (Z.max_spec a m) as [[_ ->]|[_ ->]]; [right|left]; auto|]. constructor; [lia|]. eapply Forall_impl; [|exact F]. cbn beta. intros; lia. Qed.
Lemma neg_or l : ~ Forall (fun z => 0 <= z) l -> Exists (fun z => z < 0) l.
Proof. induction l as [|a l IH]; intros H; [exfalso; apply H; constructor|]. destruct (Z.lt_ge_cases a 0); [left; auto|right; apply IH; intros F; apply H; constructor; auto]. Qed.

(** natural numbers below 2^29-1000, fewer than 2^31 of them: the counts, whatever the storage *)
Theorem C23_counts : forall cv x m, cnts_ok x -> 0 < c_ia x < 2 ^ 31 -> naturals (counts x) -> In m (nats_of (counts x)) -> Forall (fun v => v <= m) (nats_of (counts x)) -> m + 1 < 2 ^ 29 - 1000 ->
  exists r, slash_im cv x = Ok r /\ counted (nats_of (counts x)) r.
Proof.
  intros cv x m OK IA NT IM FM MB. destruct x as [src n|k l|l]; cbn [cnts_ok c_ia counts] in *.
  - destruct OK as [W N]. unfold nats_of. rewrite map_map. apply im_bits_ok; auto; lia.
  - destruct OK as [K F]. rewrite nats_some in *. apply naturals_some in NT. unfold slash_im. cbn [c_ia]. destruct (Z.eqb_spec (Z.of_nat (length l)) 0); [lia|]. destruct (im_int_ok k l K F) as (_ & _ & H); [intros ->; cbn in *; lia|lia|]. apply (H NT m); auto; [split; auto|lia|lia].
  - rewrite nats_znum in *. unfold slash_im. cbn [c_ia]. destruct (Z.eqb_spec (Z.of_nat (length l)) 0); [lia|]. assert (IMX : is_max (map znum l) m) by (split; auto). assert (NE : l <> []) by (intros ->; cbn in *; lia). destruct (im_f64_ok cv l NE (q_naturals l m NT IMX ltac:(lia)) m IMX ltac:(lia)) as [[_ H]|H]; [lia|exact H].
Qed.
Print Assumptions C23_counts.
Example C23_counts_ex : slash_im 0 (CI 8 [3; 1; 1; 0]) = Ok [1; 2; 0; 1] /\ slash_im 0 (CF [Some 4; Some 2; Some 4]) = Ok [0; 0; 1; 0; 2] /\ slash_im 0 (CB [5] 4) = Ok [2; 2] /\ slash_im 0 (CF [Some 1; Some 3]) = Ok [0; 1; 0; 1].
Proof. vm_compute. auto. Qed.
(** anything but natural numbers is an error *)
Theorem C23_error : forall cv x, cnts_ok x -> 0 < c_ia x < 2 ^ 32 -> ~ naturals (counts x) -> slash_im cv x = Err.
Proof.
  intros cv x OK IA NT. destruct x as [src n|k l|l]; cbn [cnts_ok c_ia counts] in *.
  - exfalso. apply NT. apply Forall_map. apply Forall_forall. intros b _. eexists. split; [reflexivity|]. destruct b; lia.
  - destruct OK as [K F]. rewrite naturals_some in NT. apply neg_or in NT. unfold slash_im. cbn [c_ia]. destruct (Z.eqb_spec (Z.of_nat (length l)) 0); [lia|]. destruct (im_int_ok k l K F) as (H & _); [intros ->; cbn in *; lia|lia|]. auto.
  - unfold slash_im. cbn [c_ia]. destruct (Z.eqb_spec (Z.of_nat (length l)) 0); [lia|]. apply im_f64_err. destruct (forallb q_fusz l) eqn:Q; auto. exfalso. apply NT. rewrite forallb_forall in Q. apply Forall_forall. intros e IE. specialize (Q e IE). destruct e as [z|]; [|discriminate]. cbn [q_fusz] in Q. apply andb_true_iff in Q. destruct Q as [Q _]. apply Z.leb_le in Q. eauto.
Qed.
Print Assumptions C23_error.
Example C23_error_ex : slash_im 0 (CI 16 [3; -1; 0]) = Err /\ slash_im 0 (CF [Some 4; None]) = Err.
Proof. vm_compute. auto. Qed.
(** every argument: an error, or the counts; nothing outside of the result is ever written. The cast of 2^32 to a 32-bit type,
    undefined in C, is taken to be 0 as on x86-64 ([cv]) *)
Theorem C23_safe : forall x, cnts_ok x -> 0 < c_ia x < 2 ^ 32 -> slash_im 0 x = Err \/ exists r, slash_im 0 x = Ok r /\ naturals (counts x) /\ counted (nats_of (counts x)) r.
Proof.
  intros x OK IA. destruct x as [src n|k l|l]; cbn [cnts_ok c_ia counts] in *.
  - right. destruct OK as [W N]. destruct (im_bits_ok 0 src n W) as (r & E & C); [lia|lia|]. exists r. split; auto. split; [|unfold nats_of; rewrite map_map; exact C]. apply Forall_map. apply Forall_forall. intros b _. eexists. split; [reflexivity|]. destruct b; lia.
  - destruct OK as [K F]. unfold slash_im. cbn [c_ia]. destruct (Z.eqb_spec (Z.of_nat (length l)) 0); [lia|]. assert (NE : l <> []) by (intros ->; cbn in *; lia). destruct (im_int_ok k l K F NE) as (HE & HO & _); [lia|]. destruct (Forall_dec (fun z => 0 <= z) (fun z => Z_le_dec 0 z) l) as [N|N]; [|left; apply HE; apply neg_or; auto]. destruct (has_max l NE) as (m & IM). destruct (HO N m IM) as [[E _]|(r & E & C)]; auto. right. exists r. rewrite nats_some. split; auto. split; auto. apply naturals_some. auto.
  - unfold slash_im. cbn [c_ia]. destruct (Z.eqb_spec (Z.of_nat (length l)) 0); [lia|]. assert (NE : l <> []) by (intros ->; cbn in *; lia). destruct (forallb q_fusz l) eqn:Q; [|left; apply im_f64_err; auto]. destruct (has_max (map znum l)) as (m & IM); [destruct l; [congruence|discriminate]|]. destruct (im_f64_ok 0 l NE Q m IM) as [[E _]|(r & E & C)]; auto. right. exists r. split; auto. split; auto. rewrite forallb_forall in Q. apply Forall_forall. intros e IE. specialize (Q e IE). destruct e as [z|]; [|discriminate]. cbn [q_fusz] in Q. apply andb_true_iff in Q. destruct Q as [Q _]. apply Z.leb_le in Q. eauto.
Qed.
Print Assumptions C23_safe.
(** without that assumption /⁼⟨4294967295⟩ may write outside of the result *)
Theorem C23_cast_refuted : forall cv, 0 < cv < 2 ^ 32 - 66 -> slash_im cv (CF [Some (2 ^ 32 - 1)]) = UB.
Proof.
  intros cv C. unfold slash_im. cbn [c_ia length]. change (Z.of_nat 1 =? 0) with false. cbn iota. unfold im_f64. change (f64_asc [Some (2 ^ 32 - 1)] (-1)) with (Ok (2 ^ 32 - 1, @nil (option Z))). cbn [bind f64_max]. change (2 ^ 32 - 1 + 1 <? 2 ^ 32) with false. cbn iota. destruct (Z.eqb_spec cv 0); [lia|]. unfold alloc_bits. replace (2 ^ 32 - 1 - 65 <? cv) with false by (symmetry; apply Z.ltb_ge; lia). cbn [bind map znum mark]. unfold wrz. change (2 ^ 32 - 1 <? 0) with false. cbn iota. unfold wr.
  match goal with |- context [(?a <? ?b)%nat] => destruct (Nat.ltb_spec a b) as [L|L] end; [|reflexivity]. rewrite repeat_length in L. lia.
Qed.
Print Assumptions C23_cast_refuted.
(** * undoing Indices *)
Lemma occ_app a b i : occurrences (a ++ b) i = occurrences a i + occurrences b i.
Proof. unfold occurrences. rewrite count_occ_app. lia. Qed.
Lemma occ_repeat v n i : occurrences (repeat v n) i = if Z.eq_dec v i then Z.of_nat n else 0.
Proof. induction n; cbn [repeat]; [unfold occurrences; cbn; destruct (Z.eq_dec v i); lia|]. rewrite occ_cons, IHn. destruct (Z.eq_dec v i); lia. Qed.
Lemma occ_indices cs : forall s i, Forall (fun c => 0 <= c) cs -> occurrences (replicate cs (map Z.of_nat (seq s (length cs)))) i = if (i <? Z.of_nat s) then 0 else nth (Z.to_nat (i - Z.of_nat s)) cs 0.
Proof.
  induction cs as [|c cs IH]; intros s i F; [unfold occurrences; cbn; destruct (i <? Z.of_nat s); auto; destruct (Z.to_nat _); auto|]. pose proof (Forall_inv F) as C. cbn beta in C. unfold replicate. cbn [length seq map combine concat fst snd]. fold (replicate cs (map Z.of_nat (seq (S s) (length cs)))). rewrite occ_app, occ_repeat, IH by (eapply Forall_inv_tail; eauto).
  destruct (Z.eq_dec (Z.of_nat s) i) as [E|E].
  - subst i. replace (Z.of_nat s <? Z.of_nat (S s)) with true by (symmetry; apply Z.ltb_lt; lia). rewrite Z.ltb_irrefl, Z.sub_diag. cbn [nth Z.to_nat]. lia.
  - destruct (Z.ltb_spec i (Z.of_nat s)) as [L|L].
    + replace (i <? Z.of_nat (S s)) with true by (symmetry; apply Z.ltb_lt; lia). lia.
    + replace (i <? Z.of_nat (S s)) with false by (symmetry; apply Z.ltb_ge; lia). replace (Z.to_nat (i - Z.of_nat s)) with (S (Z.to_nat (i - Z.of_nat (S s)))) by lia. cbn [nth]. lia.
Qed.
Lemma occ_in l v : In v l <-> 0 < occurrences l v.
Proof. unfold occurrences. rewrite (count_occ_In Z.eq_dec). lia. Qed.
Lemma ind_max cs : Forall (fun c => 0 <= c) cs -> last cs 0 <> 0 -> is_max (indices cs) (Z.of_nat (length cs) - 1).
Proof.
  intros F L. assert (NE : cs <> []) by (intros ->; apply L; reflexivity). assert (LN : (0 < length cs)%nat) by (destruct cs; [congruence|cbn [length]; lia]). assert (EL : last cs 0 = nth (length cs - 1) cs 0). { clear -NE. induction cs as [|a [|b cs] IH]; [congruence|reflexivity|]. change (last (a :: b :: cs) 0) with (last (b :: cs) 0). rewrite IH by congruence. cbn [length]. replace (S (S (length cs)) - 1)%nat with (S (length cs)) by lia. replace (S (length cs) - 1)%nat with (length cs) by lia. reflexivity. }
  split.
  - apply occ_in. unfold indices, iota. rewrite occ_indices by auto. destruct (Z.ltb_spec (Z.of_nat (length cs) - 1) (Z.of_nat 0)); [lia|]. replace (Z.to_nat (Z.of_nat (length cs) - 1 - Z.of_nat 0)) with (length cs - 1)%nat by lia. rewrite <- EL. rewrite Forall_forall in F. assert (In (last cs 0) cs) by (rewrite EL; apply nth_In; lia). specialize (F _ H0). cbn beta in F. lia.
  - apply Forall_forall. intros v IV. apply occ_in in IV. unfold indices, iota in IV. rewrite occ_indices in IV by auto. destruct (Z.ltb_spec v (Z.of_nat 0)); [lia|]. destruct (Nat.lt_ge_cases (Z.to_nat (v - Z.of_nat 0)) (length cs)); [lia|]. rewrite nth_overflow in IV by auto. lia.
Qed.
(** /⁼ of the indices of a list of counts that does not end in 0, however these are stored, is that list *)
Theorem C23_undoes : forall cv cs x, Forall (fun c => 0 <= c) cs -> last cs 0 <> 0 -> Z.of_nat (length cs) < 2 ^ 29 - 1000 -> cnts_ok x -> naturals (counts x) -> nats_of (counts x) = indices cs -> c_ia x < 2 ^ 31 -> slash_im cv x = Ok cs.
Proof.
  intros cv cs x F L LB OK NT EX IA. destruct (ind_max cs F L) as [IM FM]. assert (I0 : 0 < c_ia x). { assert (length (nats_of (counts x)) <> 0%nat) by (rewrite EX; destruct (indices cs); [destruct IM|discriminate]). destruct x as [src n|k l|l]; cbn [counts c_ia cnts_ok] in *; unfold nats_of, bits_of in *; rewrite ?map_length, ?seq_length in *; lia. }
  destruct (C23_counts cv x (Z.of_nat (length cs) - 1)) as (r & E & (m & I1 & F1 & LR) & G); auto; try (rewrite EX; auto); try lia. rewrite E. f_equal. rewrite EX in *. assert (m = Z.of_nat (length cs) - 1) as -> by (eapply is_max_uniq; split; eauto). apply nth_error_ext. intros i. destruct (Nat.lt_ge_cases i (length cs)) as [LI|LI].
  - rewrite G by lia. unfold indices, iota. rewrite occ_indices by auto. replace (Z.of_nat i <? Z.of_nat 0) with false by (symmetry; apply Z.ltb_ge; lia). replace (Z.to_nat (Z.of_nat i - Z.of_nat 0)) with i by lia. symmetry. apply nth_error_nth'. auto.
  - rewrite (proj2 (nth_error_None cs i)) by auto. apply nth_error_None. lia.
Qed.
Print Assumptions C23_undoes.
(** the two functions together, the result of Indices kept as 32-bit integers *)
Theorem C23_roundtrip : forall junk sq cv c, keeps sq -> cnts_ok c -> c_ia c < 2 ^ 29 - 1000 -> naturals (counts c) -> total (nats_of (counts c)) < 2 ^ 31 -> last (nats_of (counts c)) 0 <> 0 ->
  exists ix, slash_c1 junk (2 ^ 32 - 1) sq c = Ok ix /\ slash_im cv (CI 32 ix) = Ok (nats_of (counts c)).
Proof.
  intros junk sq cv c K OK IA NT TB L. destruct (C22_indices junk (2 ^ 32 - 1) sq c) as [H _]; auto; [lia|]. exists (indices (nats_of (counts c))). split; [apply H; split; [auto|lia]|].
  assert (FN : Forall (fun z => 0 <= z) (nats_of (counts c))). { unfold nats_of. apply Forall_map. unfold naturals in NT. eapply Forall_impl; [|exact NT]. cbn beta. intros e (z & -> & Z0). auto. }
  assert (LC : Z.of_nat (length (nats_of (counts c))) = c_ia c). { destruct c as [src n|k l|l]; cbn [counts c_ia cnts_ok] in *; unfold nats_of, bits_of; rewrite ?map_length, ?seq_length; lia. }
  destruct (ind_max _ FN L) as [IM FM]. set (cs := nats_of (counts c)) in *.
  assert (RG : Forall (fun z => 0 <= z < Z.of_nat (length cs)) (indices cs)). { apply Forall_forall. intros v IV. split; [|rewrite Forall_forall in FM; specialize (FM v IV); cbn beta in FM; lia]. apply occ_in in IV. unfold indices, iota in IV. rewrite occ_indices in IV by auto. destruct (Z.ltb_spec v (Z.of_nat 0)); lia. }
  assert (LI : Z.of_nat (length (indices cs)) = total cs). { unfold indices, iota. clearbody cs. clear -FN. generalize 0%nat. induction FN as [|c0 cs C F IH]; intros s; [reflexivity|]. unfold replicate. cbn [length seq map combine concat fst snd]. fold (replicate cs (map Z.of_nat (seq (S s) (length cs)))). rewrite app_length, repeat_length, Nat2Z.inj_add, IH. cbn [total fold_right]. unfold total. lia. }
  apply C23_undoes; auto; try lia.
  - cbn [cnts_ok]. split; auto. eapply Forall_impl; [|exact RG]. cbn beta. intros; lia.
  - cbn [counts]. apply naturals_some. eapply Forall_impl; [|exact RG]. cbn beta. intros; lia.
  - cbn [counts]. apply nats_some.
  - cbn [c_ia]. lia.
Qed.
Print Assumptions C23_roundtrip.
Example C23_roundtrip_ex : slash_c1 77 (2 ^ 32 - 1) no_sq (CI 8 [0; 2; 1; 0; 3]) = Ok [1; 1; 2; 4; 4; 4] /\ slash_im 0 (CI 32 [1; 1; 2; 4; 4; 4]) = Ok [0; 2; 1; 0; 3].
Proof. vm_compute. auto. Qed.
