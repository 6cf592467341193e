(** C19: Bins counts the elements of a sorted list that do not come after the argument. *)
From Verif Require Import Base TagModel TagSpec TagProof NumSpec NumProof ArrSpec DataSpec SqueezeModel SqueezeProof CompareModel CompareSpec CompareProof CompareProof2 CompareThm
  BitsModel BitsSpec BitsProof BitsProof2 TimsortModel TimsortSpec TimsortProof TimsortProof2 TimsortThm SortModel SortSpec SortTopModel RadixProof SortProof SortProof2 SortProof3 SortProof4 SortThm BinsModel BinsProof.

(** Number of values of [ws] that [c] does not come before: at most [c] for Bins Up, at least [c] for Bins Down. *)
Definition not_after (up : bool) (c v : gobj) : bool := match compare v c with Ok q => if up then q <=? 0 else 0 <=? q | _ => false end.
Definition bin_of (up : bool) (ws : list gobj) (c : gobj) : Z := Z.of_nat (length (filter (not_after up c) ws)).
Definition in_order (up : bool) (ws : list gobj) : Prop := StronglySorted (may_precede up) ws.

Section B.
Variable up : bool.
Lemma na_vcmp c v : plain_data c -> plain_data v -> not_after up c v = (vcmp up v c <=? 0).
Proof. intros C V. destruct (C15_compare_defined v c V C) as (q&E&_). unfold not_after, vcmp. rewrite E. destruct up, (Z.leb_spec q 0), (Z.leb_spec 0 q), (Z.leb_spec (- q) 0); auto; lia. Qed.
Lemma mp_vcmp a b : may_precede up a b -> vcmp up a b <= 0.
Proof. intros (c&E&H). unfold vcmp. rewrite E. destruct up; lia. Qed.
Lemma sorted_nth (ws : list gobj) i j a b : in_order up ws -> (i < j)%nat -> nth_error ws i = Some a -> nth_error ws j = Some b -> may_precede up a b.
Proof.
  intros O. revert i j. induction O as [|x ws O IH F]; intros i j L Ha Hb; [destruct i; discriminate|]. destruct j as [|j]; [lia|]. destruct i as [|i].
  - injection Ha as <-. rewrite Forall_forall in F. apply F. eapply nth_error_In; eauto.
  - apply (IH i j); [lia|exact Ha|exact Hb].
Qed.
Lemma na_mono (ws : list gobj) c : Forall plain_data ws -> plain_data c -> in_order up ws ->
  forall i j a b, (i < j)%nat -> nth_error ws i = Some a -> nth_error ws j = Some b -> not_after up c b = true -> not_after up c a = true.
Proof.
  intros F C O i j a b L Ha Hb. rewrite Forall_forall in F. pose proof (F a (nth_error_In _ _ Ha)) as Pa. pose proof (F b (nth_error_In _ _ Hb)) as Pb. rewrite !na_vcmp by auto.
  pose proof (mp_vcmp a b (sorted_nth ws i j a b O L Ha Hb)) as M. destruct (gcmp_comparison up) as [_ T]. intros H. apply Z.leb_le in H. apply Z.leb_le. apply (T a b c); auto.
Qed.
Lemma gen_ok (ws xs : list gobj) : Forall plain_data ws -> Forall plain_data xs -> in_order up ws -> bins_gen up ws xs = Ok (map (bin_of up ws) xs).
Proof.
  intros Fw Fx O. unfold bins_gen. rewrite (mapM_ok _ (bin_of up ws)); [reflexivity|]. rewrite Forall_forall in Fx. intros c Hc. specialize (Fx c Hc).
  apply gen_count; [|apply na_mono; auto]. rewrite Forall_forall in Fw. intros v Hv. specialize (Fw v Hv). destruct (C15_compare_defined v c Fw Fx) as (q&E&_). exists (- q).
  split; [apply C15_compare_antisym; auto|]. unfold not_after. rewrite E. unfold LT. destruct up; [destruct (Z.ltb_spec (- q) 0), (Z.leb_spec q 0)|destruct (Z.ltb_spec 0 (- q)), (Z.leb_spec 0 q)]; auto; lia.
Qed.
Lemma filter_map_len {A B} (f : A -> B) (P : B -> bool) (Q : A -> bool) l : (forall a, In a l -> P (f a) = Q a) -> length (filter P (map f l)) = length (filter Q l).
Proof. induction l as [|a l IH]; intros H; [reflexivity|]. cbn [map filter]. rewrite (H a) by (left; auto). destruct (Q a); cbn [length]; rewrite IH; auto; intros; apply H; right; auto. Qed.
Lemma na_int (f : Z -> Z) v c : compare (GAtom (f v)) (GAtom (f c)) = Ok (ICMP v c) -> not_after up (GAtom (f c)) (GAtom (f v)) = negb (LT up c v).
Proof. intros E. unfold not_after. rewrite E. unfold ICMP, b2z, LT. destruct up; destruct (Z.ltb_spec v c), (Z.ltb_spec c v); cbn; auto; lia. Qed.
(* lists of codes *)
Lemma int_ok' (f : Z -> Z) ws xs : (forall a b, In a (ws ++ xs) -> In b (ws ++ xs) -> compare (GAtom (f a)) (GAtom (f b)) = Ok (ICMP a b)) ->
  Forall plain_data (map (fun v => GAtom (f v)) ws) -> Forall plain_data (map (fun v => GAtom (f v)) xs) -> in_order up (map (fun v => GAtom (f v)) ws) ->
  bins_int up ws xs = Ok (map (bin_of up (map (fun v => GAtom (f v)) ws)) (map (fun v => GAtom (f v)) xs)).
Proof.
  intros C Fw Fx O. unfold bins_int. rewrite map_map. apply mapM_ok. intros c Hc.
  assert (Q : forall v, In v ws -> not_after up (GAtom (f c)) (GAtom (f v)) = negb (LT up c v)) by (intros v Hv; apply na_int; apply C; apply in_or_app; auto).
  rewrite bl_count.
  - f_equal. unfold bin_of. f_equal. symmetry. apply filter_map_len. exact Q.
  - intros i j a b L Ha Hb. rewrite <- (Q a), <- (Q b) by (eapply nth_error_In; eauto). apply (na_mono (map (fun v => GAtom (f v)) ws) (GAtom (f c))) with (i := i) (j := j); auto.
    + rewrite Forall_forall in Fx. apply Fx. apply in_map_iff. eauto.
    + rewrite nth_error_map, Ha. reflexivity.
    + rewrite nth_error_map, Hb. reflexivity.
Qed.
Lemma int_cmp w v xs a b : w = 8 \/ w = 16 \/ w = 32 -> v = 8 \/ v = 16 \/ v = 32 -> forall ws, Forall (int_ok w) ws -> Forall (int_ok v) xs -> In a (ws ++ xs) -> In b (ws ++ xs) -> compare (GAtom (of_int a)) (GAtom (of_int b)) = Ok (ICMP a b).
Proof.
  intros W V ws Fw Fx. rewrite Forall_forall in *.
  assert (K : forall t u, t = 8 \/ t = 16 \/ t = 32 -> int_ok t u -> - 2147483648 <= u < 2147483648).
  { intros t u T. unfold int_ok. destruct T as [ -> |[ -> | -> ]]; [change (2 ^ (8 - 1)) with 128|change (2 ^ (16 - 1)) with 32768|change (2 ^ (32 - 1)) with 2147483648]; lia. }
  assert (K' : forall u, In u (ws ++ xs) -> - 2147483648 <= u < 2147483648) by (intros u Hu; apply in_app_or in Hu; destruct Hu as [Hu|Hu]; [apply (K w u W)|apply (K v u V)]; auto).
  intros Ha Hb. pose proof (K' a Ha). pose proof (K' b Hb). apply cmp_int; change (2 ^ 53) with 9007199254740992; lia.
Qed.
Lemma num_ok w x : is_num w = true -> is_num x = true -> is_bit w = false -> is_bit x = false -> flat_ok w -> flat_ok x -> in_order up (vals w) ->
  bins_num up w x = Ok (map (bin_of up (vals w)) (vals x)).
Proof.
  intros Nw Nx Bw Bx Hw Hx O. pose proof (vals_ok w Hw) as Fw. pose proof (vals_ok x Hx) as Fx. destruct w as [m n|ww ws|ws|ws|ws]; try discriminate; destruct x as [m' n'|xw xs|xs|xs|xs]; try discriminate; cbn [bins_num]; try (apply gen_ok; auto).
  cbn [vals] in *. destruct Hw as [W1 W2], Hx as [X1 X2]. apply int_ok'; auto. intros a b Ha Hb. apply (int_cmp ww xw xs a b W1 X1 ws); auto.
Qed.

(* bits on the left *)
Lemma bool_filter {A} (f : bool -> A) (P : A -> bool) l : Z.of_nat (length (filter P (map f l))) = (if P (f true) then cnt true l else 0) + (if P (f false) then cnt false l else 0).
Proof.
  unfold cnt. induction l as [|b l IH]; cbn [map filter]; [destruct (P _), (P _); reflexivity|]. destruct b; cbn [Bool.eqb]; destruct (P (f true)), (P (f false)); cbn [length]; lia.
Qed.
Lemma cnt_sum e l : cnt e l + cnt (negb e) l = Z.of_nat (length l).
Proof. unfold cnt. induction l as [|b l IH]; [reflexivity|]. cbn [filter]. destruct e, b; cbn [Bool.eqb length negb] in *; lia. Qed.
Definition bg (b : bool) : gobj := GAtom (of_int (if b then 1 else 0)).
Lemma bg_plain b : plain_data (bg b). Proof. apply plain_G. apply of_int_G. destruct b; cbn; lia. Qed.
Lemma bg_cmp a b : compare (bg a) (bg b) = Ok (ICMP (b2i a) (b2i b)).
Proof. destruct a, b; apply cmp_int; cbn; lia. Qed.
Lemma bits_order m n : in_order up (vals (FBit m n)) -> ordered (negb up) (bits_of m 0 n).
Proof.
  intros O i j a b L Ha Hb. assert (M : may_precede up (bg a) (bg b)).
  { apply (sorted_nth (vals (FBit m n)) i j); auto; cbn [vals]; rewrite nth_error_map; [rewrite Ha|rewrite Hb]; reflexivity. }
  destruct M as (c&E&H). rewrite bg_cmp in E. injection E as <-. unfold ICMP, b2z, b2i in H. destruct up; cbn [negb]; destruct a, b; auto; cbn in H; try lia.
Qed.
Lemma bit_left m n c : plain_data c -> in_order up (vals (FBit m n)) -> 0 <= n ->
  bin_of up (vals (FBit m n)) c = (if not_after up c (bg (negb up)) then (if not_after up c (bg up) then n else cnt (negb up) (bits_of m 0 n)) else 0).
Proof.
  intros C O Hn. unfold bin_of. cbn [vals]. fold bg. rewrite (bool_filter bg). pose proof (cnt_sum up (bits_of m 0 n)) as Sm. rewrite bits_of_length in Sm.
  assert (I : not_after up c (bg up) = true -> not_after up c (bg (negb up)) = true).
  { assert (Fp : Forall plain_data [bg (negb up); bg up]) by (constructor; [apply bg_plain|constructor; [apply bg_plain|constructor]]).
    apply (na_mono [bg (negb up); bg up] c Fp C) with (i := 0%nat) (j := 1%nat); auto.
    constructor; [constructor; constructor|constructor; [|constructor]]. eexists. split; [apply bg_cmp|]. destruct up; cbn; lia. }
  destruct up; cbn [negb] in *; destruct (not_after _ c (bg true)) eqn:T, (not_after _ c (bg false)) eqn:F0; try lia; try (specialize (I eq_refl); discriminate).
Qed.
Lemma bit_ok w x : is_num w = true -> is_num x = true -> is_bit w || is_bit x = true -> flat_ok w -> flat_ok x -> 0 < flen w -> in_order up (vals w) ->
  bins_bit up w x = Ok (map (bin_of up (vals w)) (vals x)).
Proof.
  intros Nw Nx B Hw Hx Pw O. pose proof (vals_ok w Hw) as Fw. pose proof (vals_ok x Hx) as Fx.
  assert (Lb : forall m n c, plain_data c -> in_order up (vals (FBit m n)) -> 0 <= n -> bin_of up (vals (FBit m n)) c = (if not_after up c (bg (negb up)) then (if not_after up c (bg up) then n else cnt (negb up) (bits_of m 0 n)) else 0)) by (intros; apply bit_left; auto).
  destruct (is_bit w) eqn:Bw.
  - destruct w as [m n|ww ws|ws|ws|ws]; try discriminate. cbn [bins_bit]. cbn [flen flat_ok] in *. rewrite bit_boundary_ok; [|tauto|unfold len; lia|apply bits_order; auto]. cbn [bind].
    set (c1 := cnt (negb up) (bits_of m 0 n)).
    destruct (is_bit x) eqn:Bx.
    + destruct x as [m' n'|xw xs|xs|xs|xs]; try discriminate. f_equal. cbn [vals]. rewrite map_map. apply map_ext. intros b. fold (bg b).
      change (map (fun b0 : bool => GAtom (of_int (if b0 then 1 else 0))) (bits_of m 0 n)) with (vals (FBit m n)). rewrite Lb; [|apply bg_plain|exact O|lia].
      unfold not_after. rewrite !bg_cmp. fold c1. destruct up, b; reflexivity.
    + assert (E : match x with FBit xm xn => Ok (map (fun b : bool => if b then if up then n else c1 else if up then c1 else n) (bits_of xm 0 xn))
        | _ => do i <- bins_num up (FInt 8 (if up then [0; 1] else [1; 0])) x; mapM (fun k => rdz [0; c1; n] k) i end
        = do i <- bins_num up (FInt 8 (if up then [0; 1] else [1; 0])) x; mapM (fun k => rdz [0; c1; n] k) i) by (destruct x; [discriminate|..]; reflexivity).
      rewrite E. set (t := FInt 8 (if up then [0; 1] else [1; 0])).
      assert (Ht : flat_ok t) by (split; [auto|unfold int_ok; change (2 ^ (8 - 1)) with 128; destruct up; repeat constructor; lia]).
      assert (Vt : vals t = [bg (negb up); bg up]) by (unfold t; cbn [vals]; destruct up; reflexivity).
      rewrite (num_ok t x eq_refl Nx eq_refl Bx Ht Hx).
      * cbn [bind]. rewrite (mapM_ok _ (fun k => if k =? 0 then 0 else if k =? 1 then c1 else n)).
        -- f_equal. rewrite map_map. apply map_ext_in. intros c Hc. rewrite Forall_forall in Fx. rewrite Lb; [|apply Fx; auto|exact O|lia]. fold c1. unfold bin_of. rewrite Vt. cbn [filter].
           assert (I : not_after up c (bg up) = true -> not_after up c (bg (negb up)) = true).
           { assert (Fp : Forall plain_data [bg (negb up); bg up]) by (constructor; [apply bg_plain|constructor; [apply bg_plain|constructor]]). apply (na_mono [bg (negb up); bg up] c Fp (Fx c Hc)) with (i := 0%nat) (j := 1%nat); auto.
             constructor; [constructor; constructor|constructor; [|constructor]]. eexists. split; [apply bg_cmp|]. destruct up; cbn; lia. }
           destruct (not_after up c (bg (negb up))) eqn:T1, (not_after up c (bg up)) eqn:T2; cbn [length Z.of_nat Pos.of_succ_nat Pos.succ Z.eqb Pos.eqb]; try reflexivity. specialize (I eq_refl). discriminate.
        -- intros k Hk. apply in_map_iff in Hk. destruct Hk as (c & <- & Hc). unfold bin_of. rewrite Vt. cbn [filter]. destruct (not_after up c (bg (negb up))), (not_after up c (bg up)); reflexivity.
      * rewrite Vt. constructor; [constructor; constructor|constructor; [|constructor]]. eexists. split; [apply bg_cmp|]. destruct up; cbn; lia.
  - cbn [orb] in B. destruct x as [m' n'|xw xs|xs|xs|xs]; try discriminate.
    assert (E : bins_bit up w (FBit m' n') = do i <- bins_num up w (FInt 8 [0; 1]); do i0 <- rdz i 0; do i1 <- rdz i 1; Ok (map (fun b : bool => if b then i1 else i0) (bits_of m' 0 n'))) by (destruct w; [discriminate|..]; reflexivity).
    rewrite E. assert (Ht : flat_ok (FInt 8 [0; 1])) by (split; [auto|unfold int_ok; change (2 ^ (8 - 1)) with 128; repeat constructor; lia]).
    rewrite (num_ok w (FInt 8 [0; 1]) Nw eq_refl Bw eq_refl Hw Ht O). cbn [bind vals map]. unfold rdz, rd. cbn [Z.ltb Z.compare]. change (Z.to_nat 0) with 0%nat. change (Z.to_nat 1) with 1%nat. cbn [nth_error bind].
    f_equal. rewrite map_map. apply map_ext. intros []; reflexivity.
Qed.

(* one element on the left *)
Lemma na_atm c v : okatom c -> okatom v -> not_after up (GAtom v) (GAtom c) = (if up then catom c v <=? 0 else 0 <=? catom c v).
Proof. intros C V. assert (E : compare (GAtom c) (GAtom v) = Ok (catom c v)) by (rewrite <- E1 by auto; apply atom_def; [auto|constructor; [apply V|apply V]]). unfold not_after. rewrite E. reflexivity. Qed.
Lemma typed_vals x l : typed x = Some l -> vals x = map GAtom l.
Proof. destruct x; cbn [typed vals]; intros E; try discriminate; injection E as <-; rewrite ?map_map; reflexivity. Qed.
Lemma okatom_excl w : okatom w -> isF64 w = negb (isC32 w).
Proof.
  intros [R K]. destruct (den_cases w (den_word w R)) as [(A&B&C)|[(A&B&C)|(A&B&C)]]; rewrite A, B; auto. destruct K; congruence.
Qed.
Lemma typed_atoms x l v : flat_ok x -> typed x = Some l -> In v l -> okatom v /\ isC32 v = negb (is_num x) /\ (is_num x = true -> is_f64 x = false -> is_nan v = false).
Proof.
  intros Hx E Hv. assert (A : okatom v).
  { apply G_atom_inv. apply plain_G. pose proof (vals_ok x Hx) as F. rewrite (typed_vals x l E) in F. rewrite Forall_forall in F. apply F. apply in_map. exact Hv. }
  split; [exact A|].
  assert (K : forall n, Z.abs n < 2 ^ 53 -> v = of_int n -> isC32 v = false /\ is_nan v = false).
  { intros n N ->. pose proof (den_k _ (G_atom_inv _ (of_int_G n N))) as Q. destruct (of_int_den n N) as (_&D&_). rewrite D in Q. destruct (isC32 _); [discriminate|]. destruct (is_nan _); [discriminate|auto]. }
  destruct x as [m n|w xs|xs|xs|xs]; cbn [typed] in E; try discriminate; injection E as <-; cbn [is_num is_f64 negb].
  - apply in_map_iff in Hv. destruct Hv as (b&Eb&_). destruct (K (if b then 1 else 0)) as [K1 K2]; [destruct b; cbn; lia|auto|auto].
  - apply in_map_iff in Hv. destruct Hv as (b&Eb&Hb). destruct Hx as [W F]. rewrite Forall_forall in F. specialize (F b Hb). unfold int_ok in F. destruct (K b) as [K1 K2]; [|auto|auto].
    change (2 ^ 53) with 9007199254740992. destruct W as [ -> |[ -> | -> ]]; [change (2 ^ (8 - 1)) with 128 in F|change (2 ^ (16 - 1)) with 32768 in F|change (2 ^ (32 - 1)) with 2147483648 in F]; lia.
  - apply in_map_iff in Hv. destruct Hv as (b&Eb&Hb). cbn [flat_ok] in Hx. rewrite Forall_forall in Hx. specialize (Hx b Hb). cbn beta in Hx. destruct (c32_roundtrip b ltac:(lia)) as (_&A1&_). subst v. rewrite A1. split; [reflexivity|discriminate].
  - cbn [flat_ok] in Hx. rewrite Forall_forall in Hx. destruct (Hx v Hv) as [W N]. destruct (okatom_cases v A) as [[_ Q]|[Q _]]; [split; [exact Q|discriminate]|]. pose proof (proj2 (isF64_iff v W) N). congruence.
Qed.
Lemma one_typed c v : okatom c -> okatom v ->
  (is_nan c = true -> isC32 c = false -> isC32 v = false -> (if up then b2z (negb (feq v v)) else 1) = b2z (not_after up (GAtom v) (GAtom c))) /\
  ((isC32 c = false -> isC32 v = false -> is_nan c = false) -> isC32 v = false -> b2z (negb (lt_atm v c)) = b2z (if up then not_after up (GAtom v) (GAtom c) else negb (lt_atm v c))) /\
  ((isC32 c = false -> isC32 v = false -> is_nan c = false /\ (up = true -> is_nan v = false)) -> b2z (if up then le_atm c v else ge_atm c v) = b2z (not_after up (GAtom v) (GAtom c))).
Proof.
  intros C V. rewrite (na_atm c v C V). unfold catom, k1, k2, lt_atm, ge_atm, le_atm, feq, fle, flt, ICMP.
  split; [|split].
  - intros N -> ->. rewrite N. destruct up, (is_nan v); cbn [negb andb b2z Z.eqb Pos.eqb Z.ltb Z.compare Pos.compare Pos.compare_cont Z.sub Z.add Z.opp Z.leb]; try reflexivity. rewrite Z.eqb_refl. reflexivity.
  - intros H Cv. rewrite Cv in *. destruct up; [|reflexivity]. destruct (isC32 c) eqn:Cc.
    + destruct (is_nan v); reflexivity.
    + rewrite H by auto. destruct (is_nan v); cbn [negb andb b2z Z.eqb Pos.eqb Z.ltb Z.compare Pos.compare Pos.compare_cont Z.sub Z.add Z.opp Z.leb]; [reflexivity|].
      unfold b2z. destruct (Z.ltb_spec (fval v) (fval c)), (Z.ltb_spec (fval c) (fval v)); cbn [negb]; try lia; reflexivity.
  - intros H. destruct (isC32 c) eqn:Cc, (isC32 v) eqn:Cv.
    + destruct up; cbn [Z.eqb Pos.eqb]; unfold b2z; destruct (Z.leb_spec (o2cG c) (o2cG v)), (Z.leb_spec (o2cG v) (o2cG c)), (Z.ltb_spec (o2cG v) (o2cG c)), (Z.ltb_spec (o2cG c) (o2cG v)); cbn [andb]; try lia; reflexivity.
    + destruct up, (is_nan v); reflexivity.
    + destruct up, (is_nan c); reflexivity.
    + destruct (H eq_refl eq_refl) as [Nc Nv]. rewrite Nc. destruct up.
      * rewrite Nv by auto. cbn [negb andb Z.eqb]. unfold b2z. destruct (Z.leb_spec (fval c) (fval v)), (Z.ltb_spec (fval v) (fval c)), (Z.ltb_spec (fval c) (fval v)); try lia; reflexivity.
      * destruct (is_nan v); cbn [negb andb Z.eqb]; [reflexivity|]. unfold b2z. destruct (Z.leb_spec (fval v) (fval c)), (Z.ltb_spec (fval v) (fval c)), (Z.ltb_spec (fval c) (fval v)); try lia; reflexivity.
Qed.
Lemma bin_one g c : bin_of up [g] c = b2z (not_after up c g).
Proof. unfold bin_of. cbn [filter]. destruct (not_after up c g); reflexivity. Qed.
Lemma one_ok w x : flat_ok w -> flat_ok x -> flen w = 1 -> bins_one up w x = Ok (map (bin_of up (vals w)) (vals x)).
Proof.
  intros Hw Hx L. pose proof (vals_ok w Hw) as Fw. pose proof (vals_ok x Hx) as Fx. pose proof (vals_len w Hw) as Lw. rewrite L in Lw.
  assert (Gen : forall g, vals w = [g] -> (do c <- rdg (vals w) 0; mapM (fun v => do q <- compare v c; Ok (b2z (negb (LT up q 0)))) (vals x)) = Ok (map (bin_of up (vals w)) (vals x))).
  { intros g Eg. rewrite Eg in *. unfold rdg, rd. cbn [Z.ltb Z.compare Z.to_nat nth_error bind]. apply mapM_ok. intros v Hv. rewrite Forall_forall in Fx. specialize (Fx v Hv). pose proof (Forall_inv Fw) as Pg.
    destruct (C15_compare_defined g v Pg Fx) as (q&E&_). rewrite (C15_compare_antisym g v q Pg Fx E). cbn [bind]. rewrite bin_one. unfold not_after. rewrite E. unfold LT, b2z.
    destruct up; [destruct (Z.ltb_spec (- q) 0), (Z.leb_spec q 0)|destruct (Z.ltb_spec 0 (- q)), (Z.leb_spec 0 q)]; cbn; try lia; reflexivity. }
  destruct (vals w) as [|g [|g' t]] eqn:Ew; cbn [length] in Lw; try lia. unfold bins_one. rewrite Ew. destruct (typed w) as [ws|] eqn:Tw; [|apply (Gen g); auto]. destruct (typed x) as [xs|] eqn:Tx; [|apply (Gen g); auto]. clear Gen.
  pose proof (typed_vals w ws Tw) as Vw. rewrite Ew in Vw. destruct ws as [|c [|c' t]]; cbn [map] in Vw; try discriminate. injection Vw as ->.
  unfold rdz, rd. cbn [Z.ltb Z.compare Z.to_nat nth_error bind]. rewrite (typed_vals x xs Tx), map_map.
  destruct (typed_atoms w [c] c Hw Tw (or_introl eq_refl)) as (Oc&Cc&Nc).
  assert (El : forall v, In v xs -> _) by (intros v Hv; exact (typed_atoms x xs v Hx Tx Hv)).
  destruct (is_f64 w && is_num x && is_nan c) eqn:B1.
  - apply andb_prop in B1. destruct B1 as [B1 B2]. apply andb_prop in B1. destruct B1 as [B1 B3]. assert (isC32 c = false) by (rewrite Cc; destruct w; try discriminate; reflexivity).
    assert (Q : forall v, In v xs -> (if up then b2z (negb (feq v v)) else 1) = bin_of up [GAtom c] (GAtom v)).
    { intros v Hv. destruct (El v Hv) as (Ov&Cv&_). rewrite bin_one. apply one_typed; auto. rewrite Cv, B3. reflexivity. }
    destruct up; f_equal; apply map_ext_in; intros v Hv; rewrite <- (Q v Hv); reflexivity.
  - destruct (up && is_f64 x) eqn:B2.
    + apply andb_prop in B2. destruct B2 as [Up B2]. f_equal. apply map_ext_in. intros v Hv. destruct (El v Hv) as (Ov&Cv&_). rewrite bin_one. destruct (one_typed c v Oc Ov) as (_&K&_).
      assert (Nx : is_num x = true) by (destruct x; try discriminate; reflexivity). rewrite Nx in *.
      rewrite K; [rewrite Up; reflexivity| |exact Cv]. intros C1 _. destruct (is_f64 w) eqn:Fw'; [cbn [andb] in B1; exact B1|]. apply Nc; auto. rewrite Cc in C1. destruct (is_num w); auto; discriminate.
    + f_equal. apply map_ext_in. intros v Hv. destruct (El v Hv) as (Ov&Cv&Nv). rewrite bin_one. destruct (one_typed c v Oc Ov) as (_&_&K). apply K. intros C1 C2. rewrite Cc in C1. rewrite Cv in C2.
      assert (W1 : is_num w = true) by (destruct (is_num w); auto; discriminate). assert (X1 : is_num x = true) by (destruct (is_num x); auto; discriminate). rewrite X1 in *. split.
      * destruct (is_f64 w) eqn:Fw'; [cbn [andb] in B1; exact B1|auto].
      * intros ->. cbn [andb] in B2. auto.
Qed.
(* characters against numbers *)
Lemma mixed_ok w x ws xs : flat_ok w -> flat_ok x -> typed w = Some ws -> typed x = Some xs -> is_num w = negb (is_num x) ->
  map (bin_of up (vals w)) (vals x) = repeat (if Bool.eqb up (is_num w) then flen w else 0) (Z.to_nat (flen x)).
Proof.
  intros Hw Hx Tw Tx N. rewrite <- (vals_len w Hw), <- (vals_len x Hx), Nat2Z.id. rewrite (typed_vals w ws Tw), (typed_vals x xs Tx), !map_map, !map_length.
  assert (Q : forall v, In v xs -> bin_of up (map GAtom ws) (GAtom v) = if Bool.eqb up (is_num w) then Z.of_nat (length ws) else 0).
  { intros v Hv. unfold bin_of. rewrite (filter_map_len GAtom (not_after up (GAtom v)) (fun _ => Bool.eqb up (is_num w))).
    - destruct (Bool.eqb up (is_num w)); [|induction ws; auto]; [|clear; induction ws; auto]. f_equal. f_equal. clear. induction ws as [|a ws IH]; [reflexivity|]. cbn. f_equal. exact IH.
    - intros a Ha. destruct (typed_atoms w ws a Hw Tw Ha) as (Oa&Ca&_). destruct (typed_atoms x xs v Hx Tx Hv) as (Ov&Cv&_). rewrite na_atm by auto. unfold catom, k1. rewrite Ca, Cv, N. rewrite N in Ca.
      destruct up, (is_num x); cbn [negb Bool.eqb]; destruct (is_nan a), (is_nan v); reflexivity. }
  clear Tx Tw N. induction xs as [|v xs IH]; [reflexivity|]. cbn [map length repeat]. rewrite Q by (left; auto). f_equal. apply IH. intros; apply Q; right; auto.
Qed.
(* the check that the left argument is sorted *)
Lemma all_next_ok {A} (bad : A -> A -> res bool) (R : A -> A -> Prop) l : (forall a b, In a l -> In b l -> exists q, bad a b = Ok q /\ (q = false <-> R a b)) ->
  (forall a b c, In a l -> In b l -> In c l -> R a b -> R b c -> R a c) -> exists q, all_next bad l = Ok q /\ (q = true <-> StronglySorted R l).
Proof.
  intros B T. induction l as [|a l IH]; [exists true; split; [reflexivity|split; auto; constructor]|].
  destruct l as [|b l]; [exists true; split; [reflexivity|split; auto; repeat constructor]|]. change (all_next bad (a :: b :: l)) with (do q <- bad a b; if q then Ok false else all_next bad (b :: l)).
  destruct (B a b) as (q&E&Q); [left; auto|right; left; auto|]. rewrite E. cbn [bind]. destruct IH as (r&Er&Hr); [intros; apply B; right; auto|intros x y z Hx Hy Hz; apply T; right; auto|]. destruct q.
  - exists false. split; [reflexivity|]. split; [discriminate|]. intros H. apply StronglySorted_inv in H. destruct H as [_ F]. apply Forall_inv in F. apply Q in F. discriminate.
  - exists r. split; [exact Er|]. rewrite Hr. split.
    + intros Ss. constructor; [exact Ss|]. constructor; [apply Q; reflexivity|]. apply StronglySorted_inv in Ss. destruct Ss as [_ F]. rewrite Forall_forall in *. intros c Hc. apply T with b; [left; auto|right; left; auto|right; right; auto|apply Q; auto|auto].
    + intros H. apply StronglySorted_inv in H. tauto.
Qed.
Lemma mp_iff a b c : compare a b = Ok c -> (may_precede up a b <-> if up then c <= 0 else 0 <= c).
Proof. intros E. split; [intros (q&Eq&H); rewrite E in Eq; injection Eq as ->; exact H|intros H; exists c; auto]. Qed.
Lemma mp_trans a b c : plain_data a -> plain_data b -> plain_data c -> may_precede up a b -> may_precede up b c -> may_precede up a c.
Proof.
  intros A B C H1 H2. apply mp_vcmp in H1, H2. apply vcmp_precede; auto. destruct (gcmp_comparison up) as [_ T]. apply (T a b c); auto.
Qed.
Lemma is_sorted_ok w : flat_ok w -> (match w with FBit m n => n / 64 < len m | _ => True end) -> exists q, is_sorted up w = Ok q /\ (q = true <-> in_order up (vals w)).
Proof.
  intros Hw Pad. pose proof (vals_ok w Hw) as Fw. pose proof (vals_len w Hw) as Lw. rewrite Forall_forall in Fw. unfold is_sorted. destruct (Z.leb_spec (flen w) 1) as [L|L].
  { exists true. split; [reflexivity|]. split; [|reflexivity]. intros _. destruct (vals w) as [|a [|b t]]; [constructor|repeat constructor|cbn [length] in Lw; lia]. }
  assert (Codes : forall (f : Z -> Z) l, vals w = map (fun v => GAtom (f v)) l -> (forall a b, In a l -> In b l -> compare (GAtom (f a)) (GAtom (f b)) = Ok (ICMP a b)) ->
    exists q, all_next (fun a b => Ok (if up then b <? a else a <? b)) l = Ok q /\ (q = true <-> in_order up (vals w))).
  { intros f l V C. destruct (all_next_ok (fun a b => Ok (if up then b <? a else a <? b)) (before up) l) as (q&E&H).
    - intros a b _ _. eexists. split; [reflexivity|]. unfold before. destruct up; [destruct (Z.ltb_spec b a)|destruct (Z.ltb_spec a b)]; split; intros; auto; try lia; discriminate.
    - unfold before. intros a b c _ _ _. destruct up; lia.
    - exists q. split; [exact E|]. rewrite H, V. unfold in_order.
      assert (K : forall a b, In a l -> In b l -> (before up a b <-> may_precede up (GAtom (f a)) (GAtom (f b)))).
      { intros a b Ha Hb. rewrite (mp_iff _ _ _ (C a b Ha Hb)). unfold before, ICMP, b2z. destruct up; destruct (Z.ltb_spec a b), (Z.ltb_spec b a); lia. }
      split; intros Ss.
      + apply ssorted_map. apply ssorted_weak' with (2 := Ss). intros a b Ha Hb. apply K; auto.
      + apply ssorted_nth. intros i j a b Hij Ha Hb. apply K; [eapply nth_error_In; eauto|eapply nth_error_In; eauto|]. apply (sorted_nth (map (fun v => GAtom (f v)) l) i j); auto; rewrite nth_error_map; [rewrite Ha|rewrite Hb]; reflexivity. }
  destruct w as [m n|ww ws|ws|ws|ws]; cbn [flen] in *.
  - destruct (bit_isSorted_spec m 0 (negb up) (n - 1)) as (q&E&H); [apply Hw|lia|lia|replace (n - 1 + 1) with n by lia; lia|]. exists q. split; [exact E|]. rewrite H. replace (n - 1 + 1) with n by lia. split.
    + intros O. apply ssorted_nth. cbn [vals]. intros i j a b Hij Ha Hb. rewrite nth_error_map in Ha, Hb. destruct (nth_error _ i) as [p|] eqn:Ep in Ha; [|discriminate]. destruct (nth_error _ j) as [p'|] eqn:Ep' in Hb; [|discriminate].
      cbn in Ha, Hb. injection Ha as <-. injection Hb as <-. specialize (O i j p p' Hij Ep Ep'). eexists. split; [apply (bg_cmp p p')|]. destruct up; cbn [negb] in O; destruct p, p'; cbn; try lia; specialize (O eq_refl); discriminate.
    + apply bits_order.
  - apply (Codes of_int); [reflexivity|]. destruct Hw as [W F]. intros a b Ha Hb. apply (int_cmp ww ww [] a b W W ws); auto; rewrite app_nil_r; auto.
  - apply (Codes m_c32); [reflexivity|]. cbn [flat_ok] in Hw. rewrite Forall_forall in Hw. intros a b Ha Hb. apply cmp_chr; auto.
  - assert (Hc : forall a b, In a ws -> In b ws -> compare (GAtom a) (GAtom b) = Ok (floatCompare a b)).
    { intros a b Ha Hb. cbn [flat_ok] in Hw. rewrite Forall_forall in Hw. destruct (Hw a Ha) as [A1 A2]. destruct (Hw b Hb) as [B1 B2]. cbn [compare cmp_atom]. unfold cmp_atoms. rewrite (proj2 (isF64_iff a A1) A2), (proj2 (isF64_iff b B1) B2). reflexivity. }
    destruct (all_next_ok (fun a b => let c := floatCompare a b in Ok (if up then 0 <? c else c <? 0)) (fun a b => may_precede up (GAtom a) (GAtom b)) ws) as (q&E&H).
    + intros a b Ha Hb. eexists. split; [reflexivity|]. rewrite (mp_iff _ _ _ (Hc a b Ha Hb)). destruct up; [destruct (Z.ltb_spec 0 (floatCompare a b))|destruct (Z.ltb_spec (floatCompare a b) 0)]; split; intros; auto; try lia; discriminate.
    + intros a b c Ha Hb Hc'. apply mp_trans; apply Fw; cbn [vals]; apply in_map; auto.
    + exists q. split; [exact E|]. rewrite H. unfold in_order. cbn [vals]. split; [apply ssorted_map|]. intros O. apply ssorted_nth. intros i j a b Hij Ha Hb. apply (sorted_nth (map GAtom ws) i j); auto; rewrite nth_error_map; [rewrite Ha|rewrite Hb]; reflexivity.
  - apply (all_next_ok (fun a b => do c <- compare a b; Ok (if up then 0 <? c else c <? 0)) (may_precede up) ws).
    + intros a b Ha Hb. destruct (C15_compare_defined a b) as (c&E&_); [apply Fw; auto|apply Fw; auto|]. rewrite E. cbn [bind]. eexists. split; [reflexivity|]. rewrite (mp_iff _ _ _ E). destruct up; [destruct (Z.ltb_spec 0 c)|destruct (Z.ltb_spec c 0)]; split; intros; auto; try lia; discriminate.
    + intros a b c Ha Hb Hc. apply mp_trans; apply Fw; auto.
Qed.
End B.

(** Bits have at least one more word than whole words are used: the check for sortedness may look at the word after the last bit. *)
Definition padded (w : flat) : Prop := match w with FBit m n => n / 64 < Z.of_nat (length m) | _ => True end.

(** Bins of a sorted list: for every element of the right argument, the number of elements of the left one that may stand before it. *)
Theorem C19_bins up w x : flat_ok w -> padded w -> flat_ok x -> flen w <= 2 ^ 31 - 11 -> in_order up (vals w) ->
  bins_c2 up w x = Ok (map (bin_of up (vals w)) (vals x)).
Proof.
  intros Hw Pad Hx B O. pose proof (vals_len w Hw) as Lw. pose proof (vals_len x Hx) as Lx. unfold bins_c2. cbn zeta. destruct (Z.eqb_spec (flen w) 0) as [W0|W0]; cbn [orb].
  { f_equal. rewrite <- Lx, Nat2Z.id. rewrite W0 in Lw. destruct (vals w); [|cbn [length] in Lw; lia]. clear; induction (vals x) as [|a l IH]; [reflexivity|]. cbn [length repeat map]. f_equal. exact IH. }
  destruct (Z.eqb_spec (flen x) 0) as [X0|X0]; [rewrite X0 in *; destruct (vals x); [reflexivity|cbn [length] in Lx; lia]|].
  destruct (Z.eqb_spec (flen w) 1) as [W1|W1]; [apply one_ok; auto|]. destruct (Z.ltb_spec (2 ^ 31 - 1 - 10) (flen w)); [lia|].
  destruct (is_sorted_ok up w Hw) as (q&E&Q); [exact Pad|]. rewrite E. cbn [bind]. rewrite (proj2 Q O). cbn [negb].
  assert (G1 : bins_gen up (vals w) (vals x) = Ok (map (bin_of up (vals w)) (vals x))) by (apply gen_ok; auto; apply vals_ok; auto).
  destruct (typed w) as [ws|] eqn:Tw; [|exact G1]. destruct (typed x) as [xs|] eqn:Tx; [|exact G1]. clear G1.
  destruct (is_num w) eqn:Nw, (is_num x) eqn:Nx.
  - destruct (is_bit w || is_bit x) eqn:Bb; [apply bit_ok; auto; lia|]. apply orb_false_elim in Bb. apply num_ok; tauto.
  - f_equal. rewrite (mixed_ok up w x ws xs); auto; [|rewrite Nw, Nx; reflexivity]. rewrite Nw. destruct up; reflexivity.
  - f_equal. rewrite (mixed_ok up w x ws xs); auto; [|rewrite Nw, Nx; reflexivity]. rewrite Nw. destruct up; reflexivity.
  - destruct w as [m n|ww wl|wl|wl|wl]; try discriminate. destruct x as [m' n'|xw xl|xl|xl|xl]; try discriminate. cbn [vals] in *. apply int_ok'; auto; try (apply (vals_ok (FChr wl)); auto); try (apply (vals_ok (FChr xl)); auto).
    cbn [flat_ok] in *. rewrite Forall_forall in *. assert (K : forall u, In u (wl ++ xl) -> 0 <= u < 1114112) by (intros u Hu; apply in_app_or in Hu; destruct Hu; auto). intros a b Ha Hb. apply cmp_chr; auto.
Qed.
Print Assumptions C19_bins.

(** A left argument of two or more elements that is not sorted is an error. *)
Theorem C19_unsorted_errors up w x : flat_ok w -> padded w -> flen x <> 0 -> ~ in_order up (vals w) -> bins_c2 up w x = Err.
Proof.
  intros Hw Pad Hx O. pose proof (vals_len w Hw) as Lw. unfold bins_c2. cbn zeta. destruct (Z.eqb_spec (flen w) 0) as [W0|W0].
  { exfalso. apply O. destruct (vals w); [constructor|cbn [length] in Lw; lia]. }
  destruct (Z.eqb_spec (flen x) 0); [lia|]. cbn [orb]. destruct (Z.eqb_spec (flen w) 1) as [W1|W1].
  { exfalso. apply O. destruct (vals w) as [|a [|b t]]; [constructor|repeat constructor|cbn [length] in Lw; lia]. }
  destruct (2 ^ 31 - 1 - 10 <? flen w); [reflexivity|]. destruct (is_sorted_ok up w Hw) as (q&E&Q); [exact Pad|]. rewrite E. cbn [bind]. destruct q; [|reflexivity]. exfalso. apply O. apply Q. reflexivity.
Qed.
Print Assumptions C19_unsorted_errors.

(** The result is the last position where the element can be put so that the list stays in order. *)
Theorem C19_insertion up ws c : Forall plain_data ws -> plain_data c -> in_order up ws ->
  let k := Z.to_nat (bin_of up ws c) in in_order up (firstn k ws ++ c :: skipn k ws) /\ (forall v, In v (skipn k ws) -> ~ may_precede up v c).
Proof.
  intros F C O. cbn zeta. unfold bin_of. rewrite Nat2Z.id.
  assert (M := na_mono up ws c F C O).
  assert (H : filter (not_after up c) ws = firstn (length (filter (not_after up c) ws)) ws /\ forall v, In v (skipn (length (filter (not_after up c) ws)) ws) -> not_after up c v = false).
  { clear F O. induction ws as [|a ws IH]; [split; [reflexivity|intros v []]|]. cbn [filter]. destruct (not_after up c a) eqn:Q.
    - cbn [length firstn skipn]. destruct IH as [I1 I2]; [intros i j p q L Hp Hq; apply (M (S i) (S j)); [lia|exact Hp|exact Hq]|]. split; [f_equal; exact I1|exact I2].
    - assert (N : forall v, In v ws -> not_after up c v = false).
      { intros v Hv. apply In_nth_error in Hv. destruct Hv as [k Hk]. destruct (not_after up c v) eqn:Qv; [|reflexivity]. rewrite (M 0%nat (S k) a v) in Q; auto; lia. }
      assert (Z0 : filter (not_after up c) ws = []) by (clear - N; induction ws as [|b ws IH]; [reflexivity|]; cbn [filter]; rewrite N by (left; auto); apply IH; intros; apply N; right; auto).
      rewrite Z0. cbn [length firstn skipn]. split; [reflexivity|]. intros v [<-|Hv]; auto. }
  destruct H as [H1 H2]. set (k := length (filter (not_after up c) ws)) in *. rewrite Forall_forall in F.
  assert (Fs : forall v, In v (skipn k ws) -> In v ws) by (intros v Hv; rewrite <- (firstn_skipn k ws); apply in_or_app; auto).
  assert (Ff : forall v, In v (firstn k ws) -> In v ws) by (intros v Hv; rewrite <- (firstn_skipn k ws); apply in_or_app; auto).
  assert (Sp : forall v, plain_data v -> (not_after up c v = true <-> may_precede up v c)).
  { intros v V. destruct (C15_compare_defined v c V C) as (q&E&_). rewrite (mp_iff up _ _ _ E). unfold not_after. rewrite E. destruct up; lia. }
  split; [|intros v Hv Q; apply Sp in Q; [rewrite H2 in Q by exact Hv; discriminate|apply F; auto]].
  unfold in_order. assert (Bk : forall l, (forall v, In v l -> In v ws) -> StronglySorted (may_precede up) l -> (forall v, In v l -> may_precede up c v) -> StronglySorted (may_precede up) (c :: l)).
  { intros l _ Ss Hl. constructor; [exact Ss|]. rewrite Forall_forall. exact Hl. }
  assert (Ap : forall l1 l2, StronglySorted (may_precede up) (l1 ++ l2) -> StronglySorted (may_precede up) l1 /\ StronglySorted (may_precede up) l2 /\ forall a b, In a l1 -> In b l2 -> may_precede up a b).
  { induction l1 as [|a l1 IH]; intros l2 Ss; [cbn in Ss; repeat split; [constructor|exact Ss|intros ? ? []]|]. cbn [app] in Ss. apply StronglySorted_inv in Ss. destruct Ss as [Ss Fa]. destruct (IH l2 Ss) as (A1&A2&A3). rewrite Forall_forall in Fa. split; [|split; [exact A2|]].
    - constructor; [exact A1|]. rewrite Forall_forall. intros v Hv. apply Fa. apply in_or_app. auto.
    - intros p q [<-|Hp] Hq; [apply Fa; apply in_or_app; auto|auto]. }
  assert (App : forall l1 l2, StronglySorted (may_precede up) l1 -> StronglySorted (may_precede up) l2 -> (forall a b, In a l1 -> In b l2 -> may_precede up a b) -> StronglySorted (may_precede up) (l1 ++ l2)).
  { induction l1 as [|a l1 IH]; intros l2 S1 S2 H; [exact S2|]. cbn [app]. apply StronglySorted_inv in S1. destruct S1 as [S1 Fa]. constructor.
    - apply IH; auto. intros; apply H; auto. right; auto.
    - rewrite Forall_forall in *. intros v Hv. apply in_app_or in Hv. destruct Hv; [auto|]. apply H; [left; auto|auto]. }
  unfold in_order in O. rewrite <- (firstn_skipn k ws) in O. destruct (Ap _ _ O) as (A1&A2&A3).
  assert (Cv : forall v, In v (skipn k ws) -> may_precede up c v).
  { intros v Hv. specialize (H2 v Hv). assert (V : plain_data v) by (apply F; auto). destruct (C15_compare_defined v c V C) as (q&E&_). unfold not_after in H2. rewrite E in H2. exists (- q). split; [apply C15_compare_antisym; auto|]. destruct up; lia. }
  assert (Vc : forall v, In v (firstn k ws) -> may_precede up v c).
  { intros v Hv. apply Sp; [apply F; auto|]. rewrite <- H1 in Hv. apply filter_In in Hv. tauto. }
  apply App; [exact A1|apply Bk; auto|]. intros a b Ha [<-|Hb]; auto.
Qed.
Print Assumptions C19_insertion.

(** Hypotheses are met; results are computed. *)
Example C19_example_run : bins_c2 true (FInt 8 [1; 3; 3; 7]) (FInt 32 [0; 3; 100; -5]) = Ok [0; 3; 4; 0] /\
  bins_c2 false (FInt 8 [7; 3; 3; 1]) (FBit [5] 3) = Ok [4; 4; 4] /\
  bins_c2 true (FBit [14; 0] 4) (FF64 [of_int 0; of_int 1; of_int (-1)]) = Ok [1; 4; 0] /\
  bins_c2 true (FChr [97; 98]) (FInt 8 [5]) = Ok [0] /\ bins_c2 true (FInt 8 [2; 1]) (FInt 8 [5]) = Err.
Proof. repeat split; vm_compute; reflexivity. Qed.
Example C19_example_ok : flat_ok (FBit [14; 0] 4) /\ padded (FBit [14; 0] 4) /\ in_order true (vals (FBit [14; 0] 4)).
Proof.
  split; [split; [repeat constructor; lia|cbn; lia]|]. split; [cbn; lia|]. destruct (is_sorted_ok true (FBit [14; 0] 4)) as (q&E&Q); [split; [repeat constructor; lia|cbn; lia]|cbn; lia|].
  apply Q. assert (T : is_sorted true (FBit [14; 0] 4) = Ok true) by (vm_compute; reflexivity). congruence.
Qed.
