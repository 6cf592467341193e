From Verif Require Import Base ListLib BitsModel BitsSpec BitsProof BitsProof2 SqueezeModel SqueezeProof SelectModel SelectProof SelectProof2 ArithModel ArithSpec ArithProof ArithProof2 ArithProof3 FoldModel FoldSpec.
From Coq Require Import List Lia.
Open Scope Z_scope.

Lemma down_ok f xp : forall n c, (n <= length xp)%nat -> down n f xp c = Ok (fold_right f c (firstn n xp)).
Proof.
  induction n as [|n IH]; intros c L; [reflexivity|]. cbn [down]. unfold rd. destruct (nth_error xp n) as [e|] eqn:E; [|apply nth_error_None in E; lia]. cbn [bind]. rewrite IH by lia. f_equal.
  assert (firstn (S n) xp = firstn n xp ++ [e]) as ->; [|rewrite fold_right_app; reflexivity].
  clear - E. revert n E. induction xp as [|a xp IH]; intros [|n] E; try discriminate; [injection E as ->; reflexivity|]. cbn [nth_error] in E. change (a :: firstn (S n) xp = a :: firstn n xp ++ [e]). f_equal. apply IH, E.
Qed.
Lemma fold1_snoc {A} (f : A -> A -> A) l a : fold1 f (l ++ [a]) = Some (fold_right f a l).
Proof. induction l as [|b l IH]; [reflexivity|]. cbn [app fold1 fold_right]. rewrite IH. reflexivity. Qed.
Lemma fold_right_ext' {A B} (f g : B -> A -> A) c l : (forall a b, f a b = g a b) -> fold_right f c l = fold_right g c l.
Proof. intros H. induction l as [|a l IH]; [reflexivity|]. cbn. rewrite IH. apply H. Qed.
Lemma ok_inj {A} (a b : A) : Ok a = Ok b -> a = b. Proof. congruence. Qed.
Lemma snoc_case {A} (l : list A) : l = [] \/ exists m a, l = m ++ [a].
Proof. destruct l as [|a l] using rev_ind; [auto|right; eauto]. Qed.
Lemma base1_ok p x : arr_ok x -> vals x <> [] -> exists r, fold_base1 p x = Ok r /\ fold1 (prim_op p) (vals x) = Some r.
Proof.
  intros X N. unfold fold_base1. rewrite elems_ok by auto. cbn [bind]. destruct (snoc_case (vals x)) as [E|(m & a & E)]; [congruence|]. rewrite E, app_length. cbn [length]. replace (length m + 1)%nat with (S (length m)) by lia.
  unfold rd. rewrite nth_error_app2, Nat.sub_diag by lia. cbn [nth_error bind]. replace (S (length m) - 1)%nat with (length m) by lia. rewrite down_ok by (rewrite app_length; lia). rewrite firstn_app, Nat.sub_diag, firstn_all. cbn [firstn]. rewrite app_nil_r. eexists. split; [reflexivity|]. apply fold1_snoc.
Qed.
Lemma base2_ok p w x : arr_ok x -> fold_base2 p w x = Ok (fold_right (prim_op p) w (vals x)).
Proof. intros X. unfold fold_base2. rewrite elems_ok by auto. cbn [bind]. rewrite down_ok by lia. rewrite firstn_all. reflexivity. Qed.

(** * bits *)
Definition bop (p : prim) (a b : bool) : bool :=
  match p with
  | PO OMul | PO OAnd | PO OMin => a && b | PO OOr | PO OMax => a || b
  | PLt => negb a && b | PLe => negb a || b | PGt => a && negb b | PGe => a || negb b | PEq => Bool.eqb a b | PNe => xorb a b | PL => a | PR | PO OAdd | PO OSub => b
  end.
Lemma bop_ok p a b : p <> PO OAdd -> p <> PO OSub -> prim_op p (b2z a) (b2z b) = b2z (bop p a b).
Proof. intros A S. destruct p as [[]| | | | | | | |], a, b; try congruence; vm_compute; reflexivity. Qed.
Lemma fold_bits p w l : p <> PO OAdd -> p <> PO OSub -> fold_right (prim_op p) (b2z w) (map b2z l) = b2z (fold_right (bop p) w l).
Proof. intros A S. induction l as [|a l IH]; [reflexivity|]. cbn [map fold_right]. rewrite IH. apply bop_ok; auto. Qed.
Lemma fold1_bits p l : p <> PO OAdd -> p <> PO OSub -> fold1 (prim_op p) (map b2z l) = option_map b2z (fold1 (bop p) l).
Proof. intros A S. induction l as [|a l IH]; [reflexivity|]. cbn [map fold1]. rewrite IH. destruct (fold1 (bop p) l); [|reflexivity]. cbn. rewrite bop_ok; auto. Qed.
Lemma vals_bits xp n : vals (AB xp n) = map b2z (bits_of xp 0 n). Proof. reflexivity. Qed.

Lemma fold1_and l : l <> [] -> fold1 andb l = Some (forallb (fun b => b) l).
Proof. intros N. destruct (snoc_case l) as [E|(m & a & ->)]; [congruence|]. rewrite fold1_snoc. f_equal. rewrite forallb_app. cbn. rewrite andb_true_r. clear N. induction m as [|b m IH]; [reflexivity|]. cbn. rewrite IH. apply andb_assoc. Qed.
Lemma fold1_or l : l <> [] -> fold1 orb l = Some (existsb (fun b => b) l).
Proof. intros N. destruct (snoc_case l) as [E|(m & a & ->)]; [congruence|]. rewrite fold1_snoc. f_equal. rewrite existsb_app. cbn. rewrite orb_false_r. clear N. induction m as [|b m IH]; [reflexivity|]. cbn. rewrite IH. apply orb_assoc. Qed.
Lemma fold_and w l : fold_right andb w l = forallb (fun b => b) l && w.
Proof. induction l as [|a l IH]; [reflexivity|]. cbn. rewrite IH. apply andb_assoc. Qed.
Lemma fold_or w l : fold_right orb w l = existsb (fun b => b) l || w.
Proof. induction l as [|a l IH]; [reflexivity|]. cbn. rewrite IH. apply orb_assoc. Qed.
Lemma forall_in l : forallb (fun b : bool => b) l = true <-> ~ In false l.
Proof. rewrite forallb_forall. split; [intros H I; apply H in I; discriminate|]. intros H [|] I; [auto|contradiction]. Qed.
Lemma exists_in l : existsb (fun b : bool => b) l = true <-> In true l.
Proof. rewrite existsb_exists. split; [intros (b & I & ->); auto|]. intros I. exists true. auto. Qed.
Lemma has_false xp n : words xp -> 0 <= n <= 64 * len xp -> bit_has xp 0 n false = Ok (negb (forallb (fun b => b) (bits_of xp 0 n))).
Proof.
  intros W N. destruct (bit_has_spec xp 0 n false) as (b & E & H); auto; unfold len in *; try lia. rewrite E. f_equal. rewrite <- in_bits_of in H.
  destruct (forallb (fun b => b) (bits_of xp 0 n)) eqn:F; destruct b; try reflexivity; exfalso.
  - apply forall_in in F. apply F, H. reflexivity.
  - assert (~ In false (bits_of xp 0 n)) as G by (intros I; apply H in I; discriminate). apply forall_in in G. congruence.
Qed.
Lemma has_true xp n : words xp -> 0 <= n <= 64 * len xp -> bit_has xp 0 n true = Ok (existsb (fun b => b) (bits_of xp 0 n)).
Proof.
  intros W N. destruct (bit_has_spec xp 0 n true) as (b & E & H); auto; unfold len in *; try lia. rewrite E. f_equal. rewrite <- in_bits_of in H. rewrite <- exists_in in H.
  destruct (existsb (fun b => b) (bits_of xp 0 n)), b; try reflexivity; exfalso; destruct H as [H1 H2]; [discriminate H2|discriminate H1]; reflexivity.
Qed.
(** parity *)
Fixpoint xors (l : list bool) : bool := match l with [] => false | a :: l => xorb a (xors l) end.
Lemma xors_count l : b2z (xors l) = count_true l mod 2.
Proof.
  induction l as [|a l IH]; [reflexivity|]. cbn [xors]. change (count_true (a :: l)) with (b2z a + count_true l).
  destruct a, (xors l); cbn [xorb b2z] in *; lia.
Qed.
Lemma fold_ne_bits w l : fold_right (bop PNe) w l = xorb (xors l) w.
Proof. induction l as [|a l IH]; [destruct w; reflexivity|]. cbn [fold_right xors]. rewrite IH. cbn [bop]. rewrite xorb_assoc. reflexivity. Qed.
Lemma fold_eq_bits w l : fold_right (bop PEq) w l = xorb (xorb (xors l) w) (Nat.odd (length l)).
Proof. induction l as [|a l IH]; [destruct w; reflexivity|]. cbn [fold_right xors length]. rewrite IH. rewrite Nat.odd_succ, <- Nat.negb_odd. cbn [bop]. destruct a, (xors l), w, (Nat.odd (length l)); reflexivity. Qed.
Lemma xors_app l m : xors (l ++ m) = xorb (xors l) (xors m).
Proof. induction l as [|a l IH]; [cbn; destruct (xors m); reflexivity|]. cbn. rewrite IH, xorb_assoc. reflexivity. Qed.
Lemma fold1_ne l : l <> [] -> fold1 (bop PNe) l = Some (xors l).
Proof. intros N. destruct (snoc_case l) as [E|(m & a & ->)]; [congruence|]. rewrite fold1_snoc, fold_ne_bits, xors_app. cbn. rewrite xorb_false_r. reflexivity. Qed.
Lemma fold1_eq l : l <> [] -> fold1 (bop PEq) l = Some (xorb (xors l) (negb (Nat.odd (length l)))).
Proof. intros N. destruct (snoc_case l) as [E|(m & a & ->)]; [congruence|]. rewrite fold1_snoc, fold_eq_bits, xors_app, app_length. cbn [length]. rewrite Nat.add_1_r, Nat.odd_succ, <- Nat.negb_odd. cbn. f_equal. destruct (xors m), a, (Nat.odd (length m)); reflexivity. Qed.
(** first differing element *)
Lemma first_cons v a l : first_index v (a :: l) = if Bool.eqb a v then 0 else 1 + first_index v l.
Proof. reflexivity. Qed.

Lemma first_bounds v l : 0 <= first_index v l <= Z.of_nat (length l).
Proof. induction l as [|a l IH]; cbn [first_index length]; [lia|]. destruct (Bool.eqb a v); lia. Qed.
Lemma fold1_some {A} (f : A -> A -> A) l : l <> [] -> exists r, fold1 f l = Some r.
Proof. destruct l as [|a l]; [congruence|]. intros _. cbn. destruct (fold1 f l); eauto. Qed.
Lemma fold1_lt l : l <> [] -> fold1 (bop PLt) l = Some (first_index true l =? Z.of_nat (length l) - 1).
Proof.
  induction l as [|a l IH]; [congruence|]. intros _. cbn [fold1 length]. rewrite first_cons. destruct l as [|b l]; [destruct a; reflexivity|]. rewrite IH by congruence. pose proof (first_bounds true (b :: l)). cbn [length] in *. cbn [bop]. f_equal. destruct a; cbn [Bool.eqb negb andb].
  - lia.
  - lia.
Qed.
Lemma fold1_le l : l <> [] -> fold1 (bop PLe) l = Some (negb (first_index false l =? Z.of_nat (length l) - 1)).
Proof.
  induction l as [|a l IH]; [congruence|]. intros _. cbn [fold1 length]. rewrite first_cons. destruct l as [|b l]; [destruct a; reflexivity|]. rewrite IH by congruence. pose proof (first_bounds false (b :: l)). cbn [length] in *. cbn [bop]. f_equal. destruct a; cbn [Bool.eqb negb orb].
  - f_equal. lia.
  - lia.
Qed.
Lemma fold1_gt l : l <> [] -> option_map b2z (fold1 (bop PGt) l) = Some (first_index false l mod 2).
Proof.
  induction l as [|a l IH]; [congruence|]. intros _. cbn [fold1]. rewrite first_cons. destruct l as [|b l]; [destruct a; reflexivity|]. specialize (IH ltac:(congruence)). destruct (fold1 (bop PGt) (b :: l)) as [r|]; [|discriminate]. cbn [option_map] in *. generalize dependent (first_index false (b :: l)). intros f IH. injection IH as IH. cbn [bop]. f_equal. destruct a; cbn [Bool.eqb andb]; [|reflexivity]. destruct r; cbn [negb b2z] in *; lia.
Qed.
Lemma fold1_ge l : l <> [] -> option_map b2z (fold1 (bop PGe) l) = Some ((first_index true l + 1) mod 2).
Proof.
  induction l as [|a l IH]; [congruence|]. intros _. cbn [fold1]. rewrite first_cons. destruct l as [|b l]; [destruct a; reflexivity|]. specialize (IH ltac:(congruence)). destruct (fold1 (bop PGe) (b :: l)) as [r|]; [|discriminate]. cbn [option_map] in *. generalize dependent (first_index true (b :: l)). intros f IH. injection IH as IH. cbn [bop]. f_equal. destruct a; cbn [Bool.eqb orb]; [reflexivity|]. destruct r; cbn [negb b2z] in *; lia.
Qed.

(** fold_ne is the parity of the number of ones *)
Lemma POPC_alt x : POPC x = count_true (map (fun i => Z.testbit x (Z.of_nat i)) (seq 0 64)).
Proof. apply POPC_spec. Qed.
Lemma count_xor {A} (f g : A -> bool) l : (count_true (map (fun i => xorb (f i) (g i)) l)) mod 2 = (count_true (map f l) + count_true (map g l)) mod 2.
Proof. induction l as [|a l IH]; [reflexivity|]. cbn [map count_true]. destruct (f a), (g a); cbn [xorb]; lia. Qed.
Lemma POPC_xor a b : POPC (Z.lxor a b) mod 2 = (POPC a + POPC b) mod 2.
Proof. rewrite !POPC_alt. rewrite <- count_xor. do 2 f_equal. apply map_ext. intros i. apply Z.lxor_spec. Qed.
Lemma xor_sum x : forall n i r s, 0 <= i -> i + Z.of_nat n <= len x -> POPC r mod 2 = s mod 2 -> exists r', xor_words n x i r = Ok r' /\ exists s', sum_loop n x i s = Ok s' /\ POPC r' mod 2 = s' mod 2.
Proof.
  induction n as [|n IH]; intros i r s I L E; cbn [xor_words sum_loop]; [eauto|]. rewrite !rdz_ok by lia. cbn [bind]. apply IH; [lia|lia|]. rewrite POPC_xor. rewrite Z.add_mod, E, <- Z.add_mod by lia. reflexivity.
Qed.
Lemma fold_ne_ok x n : 0 <= n <= 64 * len x -> fold_ne x n = Ok (count_true (bits_of x 0 n) mod 2).
Proof.
  intros N. assert (S := bit_sum_spec x 0 n ltac:(lia) ltac:(lia) ltac:(unfold len in *; lia)). unfold bit_sum in S. unfold fold_ne. rewrite Z.shiftr_div_pow2 in S by lia. change (2 ^ 6) with 64 in S. change 63 with (Z.ones 6) in S. rewrite !Z.land_ones in S by lia. change (2 ^ 6) with 64 in S.
  destruct (xor_sum x (Z.to_nat (n / 64)) 0 0 0) as (r & -> & s & E & P); [lia|lia|reflexivity|]. rewrite E in S. cbn [bind] in *. destruct (n mod 64 =? 0) eqn:Q.
  - injection S as <-. cbn [bind]. rewrite P. reflexivity.
  - rewrite Z.add_0_l in S. rewrite rdz_ok in * by lia. cbn [bind] in *. apply ok_inj in S. rewrite <- S. rewrite POPC_xor, Z.add_mod, P, <- Z.add_mod by lia. reflexivity.
Qed.
(** bit_diff is the alternating sum *)
Lemma diff_sum x : forall n i r, 0 <= i -> i + Z.of_nat n <= len x -> diff_loop n x i r = sum_loop n (map (fun a => Z.lxor a AAAA) x) i r.
Proof.
  induction n as [|n IH]; intros i r I L; [reflexivity|]. cbn [diff_loop sum_loop]. rewrite !rdz_ok by (unfold len in *; rewrite ?map_length; lia). cbn [bind]. rewrite IH by lia. do 3 f_equal. unfold word. rewrite nth_indep with (d' := Z.lxor 0 AAAA) (l := map _ x) by (rewrite map_length; unfold len in L; lia). rewrite map_nth with (f := fun a => Z.lxor a AAAA). reflexivity.
Qed.
Lemma AAAA_bit i : 0 <= i < 64 -> Z.testbit AAAA i = Z.odd i.
Proof. intros I. assert (forallb (fun n => Bool.eqb (Z.testbit AAAA (Z.of_nat n)) (Z.odd (Z.of_nat n))) (seq 0 64) = true) as H by (vm_compute; reflexivity). rewrite forallb_forall in H. specialize (H (Z.to_nat i)). rewrite Z2Nat.id in H by lia. apply eqb_prop, H. apply in_seq. lia. Qed.
Lemma odd_mod64 j : Z.odd (Z.of_nat j mod 64) = Nat.odd j.
Proof.
  destruct (Nat.odd j) eqn:O.
  - apply Nat.odd_spec in O. destruct O as [m ->]. apply Z.odd_spec. exists ((Z.of_nat (2 * m + 1) mod 64) / 2). lia.
  - rewrite <- Nat.negb_even in O. apply negb_false_iff, Nat.even_spec in O. destruct O as [m ->]. rewrite <- Z.negb_even. apply negb_false_iff, Z.even_spec. exists ((Z.of_nat (2 * m) mod 64) / 2). lia.
Qed.
Fixpoint alt (l : list Z) (c : Z) : Z := match l with [] => c | a :: l => a - alt l c end.
Lemma alt_count (b : nat -> bool) : forall n i, Z.of_nat n / 2 * 0 + count_true (map (fun j => xorb (b j) (Nat.odd j)) (seq i n)) - (Z.of_nat n + (if Nat.odd i then 1 else 0)) / 2 = (if Nat.odd i then -1 else 1) * alt (map (fun j => b2z (b j)) (seq i n)) 0.
Proof.
  induction n as [|n IH]; intros i; [cbn; destruct (Nat.odd i); reflexivity|]. specialize (IH (S i)). rewrite Nat.odd_succ, <- Nat.negb_odd in IH. cbn [seq map count_true alt]. destruct (Nat.odd i), (b i); cbn [xorb negb b2z] in *; lia.
Qed.
Lemma alt_linear l c : alt l c = alt l 0 + (if Nat.odd (length l) then - c else c).
Proof. induction l as [|a l IH]; [reflexivity|]. cbn [alt length]. rewrite Nat.odd_succ, <- Nat.negb_odd, IH. destruct (Nat.odd (length l)); cbn [negb]; lia. Qed.
Lemma bit_diff_ok x n : 0 <= n <= 64 * len x -> bit_diff x n = Ok (alt (map b2z (bits_of x 0 n)) 0).
Proof.
  intros N. set (y := map (fun a => Z.lxor a AAAA) x). assert (LY : len y = len x) by (unfold len, y; rewrite map_length; reflexivity).
  assert (WY : forall i, 0 <= i < len x -> word y i = Z.lxor (word x i) AAAA). { intros i I. unfold word, y. rewrite nth_indep with (d' := Z.lxor 0 AAAA) by (rewrite map_length; unfold len in I; lia). rewrite map_nth with (f := fun a => Z.lxor a AAAA). reflexivity. }
  assert (S := bit_sum_spec y 0 n ltac:(lia) ltac:(lia) ltac:(unfold len in *; lia)). unfold bit_sum in S. unfold bit_diff. rewrite Z.shiftr_div_pow2 in S by lia. change (2 ^ 6) with 64 in S. change 63 with (Z.ones 6) in S. rewrite !Z.land_ones in S by lia. change (2 ^ 6) with 64 in S.
  rewrite diff_sum by lia. fold y. destruct (sum_loop (Z.to_nat (n / 64)) y 0 0) as [r| |] eqn:E; cbn [bind] in *; try discriminate.
  assert (C : count_true (bits_of y 0 n) - n / 2 = alt (map b2z (bits_of x 0 n)) 0).
  { pose proof (alt_count (fun j => mbit x (64 * 0 + Z.of_nat j)) (Z.to_nat n) 0) as A. cbn [Nat.odd Nat.even negb] in A. unfold bits_of. rewrite map_map. rewrite Z.mul_1_l in A. rewrite <- A. rewrite Z2Nat.id by lia. replace (n / 2 * 0) with 0 by lia. replace ((n + 0) / 2) with (n / 2) by (f_equal; lia). rewrite Z.add_0_l. f_equal. f_equal. apply map_ext_in. intros j J. apply in_seq in J.
    rewrite !mbit_split. rewrite WY by lia. rewrite Z.lxor_spec, AAAA_bit by lia. f_equal. rewrite Z.mul_0_r, Z.add_0_l. apply odd_mod64. }
  destruct (n mod 64 =? 0) eqn:Q.
  - injection S as S. cbn [bind]. rewrite <- C. f_equal. lia.
  - rewrite Z.add_0_l in S. rewrite rdz_ok in * by lia. cbn [bind] in *. apply ok_inj in S. rewrite WY in S by lia. rewrite <- C. f_equal. lia.
Qed.
