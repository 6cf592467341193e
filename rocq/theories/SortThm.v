(** C17: Sort gives an ordered rearrangement. C18: Grade gives the stable ordering permutation. *)
From Verif Require Import Base TagModel TagSpec TagProof NumSpec NumProof ArrSpec DataSpec SqueezeModel SqueezeProof CompareModel CompareSpec CompareProof CompareProof2 CompareThm
  BitsModel BitsSpec BitsProof TimsortModel TimsortSpec TimsortProof TimsortProof2 TimsortThm SortModel SortSpec SortTopModel RadixProof SortProof SortProof2 SortProof3 SortProof4.

(** Lists of the supported element types, with elements in the range of the type. *)
Definition flat_ok (x : flat) : Prop :=
  match x with
  | FBit m n => words m /\ 0 <= n <= 64 * Z.of_nat (length m)
  | FInt w xs => (w = 8 \/ w = 16 \/ w = 32) /\ Forall (int_ok w) xs
  | FChr xs => Forall (fun v => 0 <= v < 1114112) xs
  | FF64 xs => Forall (fun v => raw_ok EF64 v) xs
  | FGen xs => Forall plain_data xs
  end.
(** Fresh memory for the result has the size of the list: words of 64 for bits. *)
Definition fresh_for (x : flat) (rp : list Z) : Prop := Z.of_nat (length rp) = match x with FBit _ n => (n + 63) / 64 | _ => flen x end.

(** ** integers *)
Theorem C17_sort_ints up w xs rp cjunk junk : w = 8 \/ w = 16 \/ w = 32 -> Forall (int_ok w) xs -> Z.of_nat (length xs) < 2 ^ 32 ->
  length rp = length xs -> length junk = length xs -> exists r, sort_ints up w xs rp cjunk junk = Ok r /\ sorting up xs r.
Proof.
  intros W F B Lr Lj. change (2 ^ 32) with 4294967296 in B. unfold sort_ints. set (n := Z.of_nat (length xs)) in *. destruct (Z.leb_spec n 1) as [L1|L1].
  - exists xs. split; [reflexivity|]. split; [apply Permutation_refl|]. destruct xs as [|a [|b t]]; [constructor|constructor; constructor|]. unfold n in L1. cbn [length] in L1. lia.
  - assert (Ne : xs <> []) by (intros ->; unfold n in L1; cbn in L1; lia).
    assert (I : exists r, insertion_sort up xs rp = Ok r /\ sorting up xs r) by (apply insertion_sort_ok; auto).
    assert (R : forall M, n <= M -> exists r, radix_sort up w M xs cjunk junk = Ok r /\ sorting up xs r) by (intros M HM; apply radix_sort_ok; auto; lia).
    assert (Ct : w = 8 \/ w = 16 -> exists r, counting_sort up w xs rp = Ok r /\ sorting up xs r) by (intros Hw; apply counting_sort_ok; auto).
    assert (R8 : n < 256 -> n <= U8) by (unfold U8; change (2 ^ 8) with 256; lia). assert (R32 : n <= U32) by (unfold U32; change (2 ^ 32) with 4294967296; lia).
    destruct W as [ -> |[ -> | -> ]]; cbn [Z.eqb Pos.eqb].
    + destruct (n <? 16); [exact I|]. destruct (Z.ltb_spec n 256); [apply R; auto|]. apply Ct. auto.
    + destruct (n <? 20); [exact I|]. destruct (Z.ltb_spec n 256); [apply R; auto|]. destruct (n <? 2 ^ 15); [apply R; auto|]. apply Ct. auto.
    + destruct (n <? 32); [exact I|]. destruct (Z.ltb_spec n 256); apply R; auto.
Qed.
Print Assumptions C17_sort_ints.
(** ** bits *)
Theorem C17_sort_bits up xp n rp : 0 <= n <= 64 * Z.of_nat (length xp) -> Z.of_nat (length rp) = (n + 63) / 64 ->
  exists r, sort_bits up xp n rp = Ok r /\ length r = length rp /\ Permutation (bits_of xp 0 n) (bits_of r 0 n) /\ ordered (negb up) (bits_of r 0 n).
Proof. intros H L. destruct (sort_bits_ok up xp n rp) as (r&E&L'&P&O); unfold len; try lia. exists r. unfold len in L'. split; [exact E|]. split; [lia|auto]. Qed.
Print Assumptions C17_sort_bits.

(** ** comparison of elements through the generic getters *)
Lemma one_pos : 0 < one. Proof. unfold one. apply Z.pow_pos_nonneg; lia. Qed.
Lemma cmp_int a b : Z.abs a < 2 ^ 53 -> Z.abs b < 2 ^ 53 -> compare (GAtom (of_int a)) (GAtom (of_int b)) = Ok (ICMP a b).
Proof.
  intros A B. pose proof (of_int_G a A) as GA. pose proof (of_int_G b B) as GB. rewrite (atom_def _ _ (G_atom_inv _ GA) GB). rewrite (E1 _ _ (G_atom_inv _ GA) (G_atom_inv _ GB)). f_equal.
  assert (K : forall n, Z.abs n < 2 ^ 53 -> k1 (of_int n) = 0 /\ k2 (of_int n) = n * one).
  { intros n N. destruct (of_int_den n N) as (W&D&_). pose proof (den_k _ (G_atom_inv _ (of_int_G n N))) as Q. rewrite D in Q. unfold k1, k2. destruct (isC32 _); [discriminate|]. destruct (is_nan _); [discriminate|]. injection Q as Q. auto. }
  destruct (K a A) as [A1 A2]. destruct (K b B) as [B1 B2]. unfold catom. rewrite A1, B1, A2, B2. cbn [Z.eqb]. pose proof one_pos. unfold ICMP.
  assert (L : forall x y, (x * one <? y * one) = (x <? y)) by (intros x y; destruct (Z.ltb_spec x y), (Z.ltb_spec (x * one) (y * one)); auto; nia). rewrite !L. reflexivity.
Qed.
Lemma cmp_chr a b : 0 <= a < 1114112 -> 0 <= b < 1114112 -> compare (GAtom (m_c32 a)) (GAtom (m_c32 b)) = Ok (ICMP a b).
Proof.
  intros A B. pose proof (chr_G a A) as GA. pose proof (chr_G b B) as GB. rewrite (atom_def _ _ (G_atom_inv _ GA) GB). rewrite (E1 _ _ (G_atom_inv _ GA) (G_atom_inv _ GB)). f_equal.
  destruct (c32_roundtrip a ltac:(lia)) as (_&A1&A2&_). destruct (c32_roundtrip b ltac:(lia)) as (_&B1&B2&_). unfold catom, k1, k2. rewrite A1, B1, A2, B2. reflexivity.
Qed.
Lemma vcmp_ICMP up (f : Z -> Z) a b : compare (GAtom (f a)) (GAtom (f b)) = Ok (ICMP a b) ->
  (vcmp up (GAtom (f a)) (GAtom (f b)) < 0 <-> icmp up a b < 0) /\ (vcmp up (GAtom (f a)) (GAtom (f b)) = 0 <-> icmp up a b = 0) /\ (vcmp up (GAtom (f a)) (GAtom (f b)) <= 0 <-> icmp up a b <= 0).
Proof.
  intros E. unfold vcmp. rewrite E. unfold ICMP, b2z, icmp. destruct up; destruct (Z.ltb_spec a b), (Z.ltb_spec b a); lia.
Qed.
Lemma f64_G v : raw_ok EF64 v -> G (GAtom v).
Proof.
  intros [W N]. assert (F : isF64 v = true) by (apply isF64_iff; auto). constructor; auto. split; [exact W|]. intros n E.
  destruct (den_cases v W) as [(A&B&[C|[x C]])|[(A&B&C)|(A&B&C)]]; try congruence.
Qed.
Lemma vals_ok x : flat_ok x -> Forall plain_data (vals x).
Proof.
  intros H. rewrite Forall_forall. intros g Hg. apply plain_G. destruct x as [m n|w xs|xs|xs|xs]; cbn [vals flat_ok] in *.
  - apply in_map_iff in Hg. destruct Hg as (b & <- & _). apply of_int_G. destruct b; cbn; lia.
  - apply in_map_iff in Hg. destruct Hg as (v & <- & Hv). apply of_int_G. destruct H as [W F]. rewrite Forall_forall in F. specialize (F v Hv). unfold int_ok in F.
    change (2 ^ 53) with 9007199254740992. destruct W as [ -> |[ -> | -> ]]; [change (2 ^ (8 - 1)) with 128 in F|change (2 ^ (16 - 1)) with 32768 in F|change (2 ^ (32 - 1)) with 2147483648 in F]; lia.
  - apply in_map_iff in Hg. destruct Hg as (v & <- & Hv). apply chr_G. rewrite Forall_forall in H. exact (H v Hv).
  - apply in_map_iff in Hg. destruct Hg as (v & <- & Hv). apply f64_G. rewrite Forall_forall in H. exact (H v Hv).
  - apply plain_G. rewrite Forall_forall in H. exact (H g Hg).
Qed.
Lemma vals_len x : flat_ok x -> Z.of_nat (length (vals x)) = flen x.
Proof. intros H. destruct x; cbn [vals flen flat_ok] in *; rewrite ?map_length; auto. rewrite bits_of_length. lia. Qed.

(** Value [a] may stand before value [b] in the order of values, as that is given by the comparison of C15. *)
Definition may_precede (up : bool) (a b : gobj) : Prop := exists c, compare a b = Ok c /\ if up then c <= 0 else 0 <= c.
Lemma vcmp_precede up a b : plain_data a -> plain_data b -> vcmp up a b <= 0 -> may_precede up a b.
Proof. intros A B H. destruct (C15_compare_defined a b A B) as (c&E&_). exists c. split; [exact E|]. unfold vcmp in H. rewrite E in H. destruct up; lia. Qed.
Lemma sort_up_precede up l r : Permutation l r -> Forall plain_data l -> StronglySorted (fun a b => vcmp up a b <= 0) r -> StronglySorted (may_precede up) r.
Proof.
  intros P F Ss. assert (Fr : forall a, In a r -> plain_data a) by (intros a Ha; rewrite Forall_forall in F; apply F; apply (Permutation_in _ (Permutation_sym P)); exact Ha).
  clear P F. induction Ss as [|a r' Ss IH H]; constructor.
  - apply IH. intros b Hb. apply Fr. right. exact Hb.
  - rewrite Forall_forall in *. intros b Hb. apply vcmp_precede; [apply Fr; left; auto|apply Fr; right; auto|auto].
Qed.
Lemma ssorted_map {A B} (f : A -> B) (R : B -> B -> Prop) l : StronglySorted (fun a b => R (f a) (f b)) l -> StronglySorted R (map f l).
Proof. induction 1 as [|a l' Ss IH H]; cbn [map]; constructor; auto. rewrite Forall_forall in *. intros b Hb. apply in_map_iff in Hb. destruct Hb as (x & <- & Hx). auto. Qed.
Lemma ssorted_weak' {A} (R R' : A -> A -> Prop) l : (forall a b, In a l -> In b l -> R a b -> R' a b) -> StronglySorted R l -> StronglySorted R' l.
Proof.
  intros H Ss. induction Ss as [|a l' Ss IH F]; constructor.
  - apply IH. intros; apply H; auto; right; auto.
  - rewrite Forall_forall in *. intros b Hb. apply H; [left; auto|right; auto|auto].
Qed.
Lemma sorting_vals up (f : Z -> Z) l r : (forall a b, In a l -> In b l -> compare (GAtom (f a)) (GAtom (f b)) = Ok (ICMP a b)) -> sorting up l r ->
  Permutation (map (fun v => GAtom (f v)) l) (map (fun v => GAtom (f v)) r) /\ StronglySorted (may_precede up) (map (fun v => GAtom (f v)) r).
Proof.
  intros C [P Ss]. split; [apply Permutation_map; exact P|]. apply ssorted_map. apply ssorted_weak' with (2 := Ss). intros a b Ha Hb Hab.
  exists (ICMP a b). split; [apply C; apply (Permutation_in _ (Permutation_sym P)); auto|]. unfold before in Hab. unfold ICMP, b2z. destruct up, (Z.ltb_spec a b), (Z.ltb_spec b a); lia.
Qed.
Lemma ordered_sorting up (l : list bool) : ordered (negb up) l -> StronglySorted (before up) (map b2i l).
Proof.
  intros O. apply ssorted_map. apply ssorted_nth. intros i j a b Hij Ha Hb. specialize (O i j a b Hij Ha Hb). unfold before, b2i. destruct up; cbn [negb] in O; destruct a, b; try lia; specialize (O eq_refl); discriminate.
Qed.
Lemma vals_bits m n : vals (FBit m n) = map (fun v => GAtom (of_int v)) (map b2i (bits_of m 0 n)).
Proof. cbn [vals]. rewrite map_map. apply map_ext. intros []; reflexivity. Qed.

(** Sort of a list of any stored type returns, and the result holds the same values in order. *)
Theorem C17_sort up x rp cjunk junk : flat_ok x -> flen x < 2 ^ 32 -> fresh_for x rp -> Z.of_nat (length junk) = flen x ->
  exists r, sort_c1 up x rp cjunk junk = Ok r /\ flen r = flen x /\ Permutation (vals x) (vals r) /\ StronglySorted (may_precede up) (vals r).
Proof.
  intros Hx B Hr Hj. pose proof (vals_ok x Hx) as Fv. pose proof (vals_len x Hx) as Lv. unfold sort_c1. destruct (Z.leb_spec (flen x) 1) as [L|L].
  { exists x. split; [reflexivity|]. split; [reflexivity|]. split; [apply Permutation_refl|]. destruct (vals x) as [|a [|b t]]; [constructor|constructor; constructor|cbn [length] in Lv; lia]. }
  assert (Gen : exists r, tim_sort (vcmp up) (vals x) = Ok r /\ flen (FGen r) = flen x /\ Permutation (vals x) r /\ StronglySorted (may_precede up) r).
  { change (vcmp up) with (gcmp up). destruct (C39_boxed_sort up (vals x) Fv) as (r&E&P&Ss&_); [rewrite Lv; revert B; change (2 ^ 32) with 4294967296; change (2 ^ 63) with 9223372036854775808; lia|].
    exists r. split; [exact E|]. split; [cbn [flen]; rewrite <- (Permutation_length P); exact Lv|]. split; [exact P|]. apply (sort_up_precede up (vals x)); auto. }
  destruct x as [m n|w xs|xs|xs|xs]; cbn [flat_ok flen fresh_for] in *; unfold fresh_for in Hr; cbn [flen] in *.
  - destruct (C17_sort_bits up m n rp) as (r&E&Lr&P&O); [tauto|exact Hr|]. rewrite E. cbn [bind]. exists (FBit r n). split; [reflexivity|]. split; [reflexivity|].
    rewrite !vals_bits. apply sorting_vals.
    + intros a b Ha Hb. apply in_map_iff in Ha, Hb. destruct Ha as (p & <- & _). destruct Hb as (q & <- & _). apply cmp_int; destruct p, q; cbn; lia.
    + split; [apply Permutation_map; exact P|apply ordered_sorting; exact O].
  - destruct Hx as [W F]. destruct (C17_sort_ints up w xs rp cjunk junk W F B) as (r&E&So); [lia|lia|]. rewrite E. cbn [bind]. exists (FInt w r). split; [reflexivity|].
    split; [cbn [flen]; rewrite (Permutation_length (proj1 So)); reflexivity|]. cbn [vals]. apply sorting_vals; [|exact So].
    rewrite Forall_forall in F. intros a b Ha Hb. pose proof (F a Ha) as A1. pose proof (F b Hb) as B1. unfold int_ok in A1, B1. apply cmp_int; change (2 ^ 53) with 9007199254740992;
    destruct W as [ -> |[ -> | -> ]]; [change (2 ^ (8 - 1)) with 128 in *|change (2 ^ (16 - 1)) with 32768 in *|change (2 ^ (32 - 1)) with 2147483648 in *|change (2 ^ (8 - 1)) with 128 in *|change (2 ^ (16 - 1)) with 32768 in *|change (2 ^ (32 - 1)) with 2147483648 in *]; lia.
  - destruct Gen as (r&E&R). rewrite E. cbn [bind]. exists (FGen r). auto.
  - destruct Gen as (r&E&R). rewrite E. cbn [bind]. exists (FGen r). auto.
  - destruct Gen as (r&E&R). rewrite E. cbn [bind]. exists (FGen r). auto.
Qed.
Print Assumptions C17_sort.

Lemma gcmp_grade up xs : Forall plain_data xs -> Z.of_nat (length xs) < 2 ^ 63 -> exists g, generic_grade up xs = Ok g /\ grading (vcmp up) xs g.
Proof.
  intros F B. unfold generic_grade. destruct (tim_grade_ext (vcmp up) plain_data (fun p q : gobj * Z => vcmp up (fst p) (fst q)) xs) as (r&E&Gr); auto; [apply gcmp_comparison|].
  change (combine xs (map Z.of_nat (seq 0 (length xs)))) with (withidx xs). rewrite E. cbn [bind]. eauto.
Qed.
Lemma grading_vals up (f : Z -> Z) l g : (forall a b, In a l -> In b l -> compare (GAtom (f a)) (GAtom (f b)) = Ok (ICMP a b)) -> grading (icmp up) l g ->
  grading (vcmp up) (map (fun v => GAtom (f v)) l) g.
Proof.
  intros C H. apply grading_map with (f := fun v => GAtom (f v)). apply grading_ext with (2 := H). intros a b Ha Hb. destruct (vcmp_ICMP up f a b (C a b Ha Hb)) as (A&A'&_). tauto.
Qed.

(** Grade of a list of any stored type returns, and the result lists every index once, in the order of the values, equal values by index. *)
Theorem C18_grade up x rp cjunk junk : flat_ok x -> flen x < 2 ^ 31 -> Z.of_nat (length rp) = flen x -> Z.of_nat (length junk) = flen x ->
  exists g, grade_c1 up x rp cjunk junk = Ok g /\ grading (vcmp up) (vals x) g.
Proof.
  intros Hx B Hr Hj. pose proof (vals_ok x Hx) as Fv. pose proof (vals_len x Hx) as Lv. change (2 ^ 31) with 2147483648 in B. unfold grade_c1. cbn zeta. destruct (Z.leb_spec (flen x) 2) as [L|L].
  { destruct (Z.eqb_spec (flen x) 2) as [E2|E2].
    - destruct (vals x) as [|a [|b [|c t]]]; cbn [length] in Lv; try lia. cbn [rd nth_error bind Z.ltb Z.to_nat Pos.to_nat Pos.iter_op Nat.add]. unfold rd. cbn [Z.ltb nth_error Z.to_nat Z.compare].
      assert (A : plain_data a) by (exact (Forall_inv Fv)). assert (A2 : plain_data b) by (exact (Forall_inv (Forall_inv_tail Fv))).
      change (Pos.to_nat 1) with 1%nat. cbn [nth_error bind]. destruct (C15_compare_defined a b A A2) as (c&E&_). rewrite E. cbn [bind]. pose proof (C15_compare_antisym a b c A A2 E) as E'.
      destruct (if up then c <=? 0 else 0 <=? c) eqn:Q; eexists; (split; [reflexivity|]); split; cbn [length seq map]; try apply Permutation_refl; try apply perm_swap.
      + constructor; [constructor; constructor|]. constructor; [|constructor]. change (Z.to_nat 0) with 0%nat. change (Z.to_nat 1) with 1%nat. cbn [nth_error]. intros p q Hp Hq. injection Hp as <-. injection Hq as <-. unfold vcmp. rewrite E. destruct up; lia.
      + constructor; [constructor; constructor|]. constructor; [|constructor]. change (Z.to_nat 0) with 0%nat. change (Z.to_nat 1) with 1%nat. cbn [nth_error]. intros p q Hp Hq. injection Hp as <-. injection Hq as <-. unfold vcmp. rewrite E'. destruct up; lia.
    - destruct (Z.eqb_spec (flen x) 1) as [E1'|E1']; eexists; (split; [reflexivity|]); split.
      + destruct (vals x) as [|a [|b t]]; cbn [length] in Lv; try lia. apply Permutation_refl.
      + repeat constructor.
      + destruct (vals x) as [|a t]; cbn [length] in Lv; [apply Permutation_refl|]. lia.
      + constructor. }
  assert (Gen : exists g, generic_grade up (vals x) = Ok g /\ grading (vcmp up) (vals x) g) by (apply gcmp_grade; auto; rewrite Lv; change (2 ^ 63) with 9223372036854775808; lia).
  destruct x as [m n|w xs|xs|xs|xs]; cbn [flen flat_ok] in *; auto.
  - destruct (grade_bool_ok up m n rp) as (g&E&Gr); [lia|unfold len; lia|lia|]. rewrite E. exists g. split; [reflexivity|]. rewrite vals_bits. apply grading_vals; [|exact Gr].
    intros a b Ha Hb. apply in_map_iff in Ha, Hb. destruct Ha as (p & <- & _). destruct Hb as (q & <- & _). apply cmp_int; destruct p, q; cbn; lia.
  - destruct Hx as [W F].
    assert (C : forall a b, In a xs -> In b xs -> compare (GAtom (of_int a)) (GAtom (of_int b)) = Ok (ICMP a b)).
    { clear - W F. rewrite Forall_forall in F. intros a b Ha Hb. pose proof (F a Ha) as A1. pose proof (F b Hb) as B1. unfold int_ok in A1, B1. apply cmp_int; change (2 ^ 53) with 9007199254740992;
      destruct W as [ -> |[ -> | -> ]]; [change (2 ^ (8 - 1)) with 128 in *|change (2 ^ (16 - 1)) with 32768 in *|change (2 ^ (32 - 1)) with 2147483648 in *|change (2 ^ (8 - 1)) with 128 in *|change (2 ^ (16 - 1)) with 32768 in *|change (2 ^ (32 - 1)) with 2147483648 in *]; lia. }
    assert (Done : (exists g, (if w =? 32 then grade_32 up xs rp cjunk junk else radix_grade up w U32 xs cjunk junk) = Ok g /\ grading (icmp up) xs g)).
    { destruct W as [ -> |[ -> | -> ]]; cbn [Z.eqb Pos.eqb].
      - apply radix_grade_ok; auto; try lia; [unfold width; auto| |]; unfold U32; change (2 ^ 32) with 4294967296; lia.
      - apply radix_grade_ok; auto; try lia; [unfold width; auto| |]; unfold U32; change (2 ^ 32) with 4294967296; lia.
      - assert (Ne : xs <> []) by (intros ->; cbn in L; lia). apply grade_32_ok; auto; lia. }
    destruct Done as (g&E&Gr). assert (Res : grading (vcmp up) (map (fun v => GAtom (of_int v)) xs) g) by (apply grading_vals; auto).
    destruct W as [ -> |[ -> | -> ]]; cbn [Z.eqb Pos.eqb andb] in *.
    + destruct (8 <? _); [exists g; auto|exact Gen].
    + destruct (16 <? _); [exists g; auto|exact Gen].
    + exists g. auto.
  - destruct (grade_32_ok up xs rp cjunk junk) as (g&E&Gr); try lia; [intros ->; cbn in L; lia| |].
    { rewrite Forall_forall in *. intros v Hv. specialize (Hx v Hv). unfold int_ok. change (2 ^ (32 - 1)) with 2147483648. lia. }
    exists g. split; [exact E|]. cbn [vals]. apply grading_vals; [|exact Gr]. rewrite Forall_forall in Hx. intros a b Ha Hb. apply cmp_chr; auto.
Qed.
Print Assumptions C18_grade.

(** The grading of a list is unique, so the theorem above pins the result down completely. *)
Theorem C18_grading_unique {T} (cmp : T -> T -> Z) (xs : list T) g h : (forall a b, In a xs -> In b xs -> (cmp a b < 0 <-> 0 < cmp b a)) -> grading cmp xs g -> grading cmp xs h -> g = h.
Proof.
  intros C [P1 S1] [P2 S2].
  assert (P : Permutation g h) by (apply Permutation_trans with (1 := Permutation_sym P1); exact P2).
  assert (V : forall i, In i g -> exists a, nth_error xs (Z.to_nat i) = Some a /\ 0 <= i).
  { intros i Hi. apply (Permutation_in _ (Permutation_sym P1)) in Hi. apply in_map_iff in Hi. destruct Hi as (k & <- & Hk). apply in_seq in Hk. rewrite Nat2Z.id.
    destruct (nth_error xs k) eqn:E; [eexists; split; [reflexivity|lia]|]. apply nth_error_None in E. lia. }
  clear P1 P2. revert h P S2. induction S1 as [|i g S1 IH F]; intros h P S2; [apply Permutation_nil in P; auto|].
  destruct h as [|j h]; [apply Permutation_sym, Permutation_nil in P; discriminate|].
  assert (E : i = j).
  { destruct (Z.eq_dec i j) as [Q|Q]; [exact Q|exfalso]. assert (Hj : In j g) by (pose proof (Permutation_in _ (Permutation_sym P) (or_introl eq_refl)) as [R|R]; [congruence|exact R]).
    assert (Hi : In i h) by (pose proof (Permutation_in _ P (or_introl eq_refl)) as [R|R]; [congruence|exact R]).
    apply StronglySorted_inv in S2. destruct S2 as [_ F2]. rewrite Forall_forall in F, F2. specialize (F j Hj). specialize (F2 i Hi).
    destruct (V i (or_introl eq_refl)) as (a&Ea&_). destruct (V j (or_intror Hj)) as (b&Eb&_). specialize (F a b Ea Eb). specialize (F2 b a Eb Ea).
    pose proof (C a b (nth_error_In _ _ Ea) (nth_error_In _ _ Eb)). pose proof (C b a (nth_error_In _ _ Eb) (nth_error_In _ _ Ea)). lia. }
  subst j. f_equal. apply IH; [intros k Hk; apply V; right; exact Hk|apply Permutation_cons_inv with (1 := P)|apply StronglySorted_inv in S2; tauto].
Qed.
Print Assumptions C18_grading_unique.

(** Hypotheses are met; the results are computed. *)
Definition ex_ints : list Z := map (fun i => (Z.of_nat i * 7919 + 13) mod 251 - 100) (seq 0 40).
Example C17_example_ok : flat_ok (FInt 16 ex_ints) /\ flen (FInt 16 ex_ints) < 2 ^ 32 /\ fresh_for (FInt 16 ex_ints) (repeat 77 40) /\ Z.of_nat (length (repeat 5 40)) = flen (FInt 16 ex_ints).
Proof. split; [split; [auto|]|split; [vm_compute; reflexivity|split; vm_compute; reflexivity]].
  assert (B : forallb (fun v => (-100 <=? v) && (v <=? 150)) ex_ints = true) by (vm_compute; reflexivity). rewrite forallb_forall in B. rewrite Forall_forall. intros v Hv. specialize (B v Hv).
  unfold int_ok. change (2 ^ (16 - 1)) with 32768. lia.
Qed.
Example C17_example_run : sort_c1 true (FInt 8 [3; -1; 2; 3; 0]) (repeat 9 5) 0 (repeat 0 5) = Ok (FInt 8 [-1; 0; 2; 3; 3]) /\
  sort_c1 false (FBit [0x35; 0] 6) [99] 0 [] = Ok (FBit [0xf] 6) /\
  (exists r, sort_c1 false (FInt 16 ex_ints) (repeat 77 40) 3 (repeat 5 40) = Ok (FInt 16 r) /\ firstn 3 r = [150; 138; 137]).
Proof. split; [vm_compute; reflexivity|]. split; [vm_compute; reflexivity|]. eexists. split; vm_compute; reflexivity. Qed.
Example C18_example_run : grade_c1 true (FInt 32 [3; -1; 2; 3; 0]) (repeat 9 5) 0 (repeat (0, 0) 5) = Ok [1; 4; 2; 0; 3] /\
  grade_c1 false (FBit [0x35] 6) (repeat 9 6) 0 [] = Ok [0; 2; 4; 5; 1; 3] /\
  grade_c1 true (FChr [98; 97; 98; 97]) (repeat 9 4) 0 (repeat (0, 0) 4) = Ok [1; 3; 0; 2] /\
  grade_c1 false (FF64 [of_int 2; of_int 7; of_int 2]) (repeat 9 3) 0 (repeat (0, 0) 3) = Ok [1; 0; 2].
Proof. repeat split; vm_compute; reflexivity. Qed.
