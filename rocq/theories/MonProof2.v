(** Atoms, arrays of one type, and all values *)
From Verif Require Import Base TagModel TagSpec TagProof NumSpec NumProof ArrSpec SqueezeModel SqueezeSpec SqueezeProof SqueezeProof2 HashModel PervModel PervSpec PervProof PervProof2 MonModel MonSpec MonProof.
From Verif Require ArithModel ArithSpec ArithProof.
From Coq Require Import List Lia.
Open Scope Z_scope.

Definition num (w : Z) : Prop := word w /\ isF64 w = true.
Lemma num_f64 w : raw_ok EF64 w <-> num w.
Proof. split; intros [W N]; (split; [exact W|]); apply (isF64_iff w W); exact N. Qed.
Lemma num_cases w : num w -> (is_nan w = true /\ 2 ^ 51 <= fraction w /\ den w = VNaN) \/ (is_nan w = false /\ den w = VNum (fval w)).
Proof.
  intros [W F]. destruct (f_num w W F) as [[N D]|[N D]]; [left|right; auto]. split; [exact N|]. split; [|exact D].
  unfold den in D. rewrite N in D. destruct (Z.leb_spec (2 ^ 51) (fraction w)); [assumption|]. destruct (_ =? _) in D; discriminate.
Qed.
Lemma num_of w v : word w -> is_nan w = false -> fval w = v -> num w /\ den w = VNum v.
Proof.
  intros W N V. assert (D : den w = VNum v) by (unfold den; rewrite N, V; reflexivity). split; [|exact D]. split; [exact W|].
  destruct (den_cases w W) as [(F & _)|[(_ & _ & E)|(_ & _ & E)]]; [exact F|rewrite E in D; discriminate|rewrite E in D; discriminate].
Qed.
Lemma num_same w u : num w -> is_nan w = true -> word u -> exponent u = exponent w -> fraction u = fraction w -> num u /\ den u = VNaN.
Proof.
  intros NW N W E F. destruct (num_cases w NW) as [(_ & B & _)|[N' _]]; [|congruence].
  assert (D : den u = VNaN). { unfold den, is_nan. rewrite E, F. unfold is_nan in N. rewrite N. destruct (Z.leb_spec (2 ^ 51) (fraction w)); [reflexivity|lia]. }
  split; [|exact D]. split; [exact W|]. destruct (den_cases u W) as [(G & _)|[(_ & _ & G)|(_ & _ & G)]]; [exact G|rewrite G in D; discriminate|rewrite G in D; discriminate].
Qed.
Lemma num_int n : Z.abs n < 2 ^ 53 -> num (of_int n) /\ den (of_int n) = VNum (n * one).
Proof. intros B. destruct (of_int_val n B) as (W & N & V). apply num_of; assumption. Qed.
Lemma num_eb w : num w -> raw_ok EB w.
Proof. intros NW. split; [apply NW|]. intros n D. destruct (num_cases w NW) as [(_ & _ & E)|(_ & E)]; rewrite E in D; discriminate. Qed.
Lemma fsgn_num w : is_nan w = false -> fsgn w = Z.sgn (fval w).
Proof.
  intros N. unfold fsgn, feq, flt. rewrite N. change (is_nan 0) with false. change (fval 0) with 0. cbn [negb andb].
  destruct (Z.eqb_spec (fval w) 0) as [->|]; [reflexivity|]. destruct (Z.ltb_spec 0 (fval w)); lia.
Qed.
Lemma fsgn_nan w : is_nan w = true -> fsgn w = -1.
Proof. intros N. unfold fsgn, feq, flt. rewrite N. cbn [negb andb]. change (is_nan 0) with false. reflexivity. Qed.
Lemma sgn_one x : Z.sgn (x * one) = Z.sgn x. Proof. rewrite Z.sgn_mul. change (Z.sgn one) with 1. lia. Qed.

(** ** Atoms *)
Definition sends (o : mop) (v : value) (u : value) : Prop := of_value o v = Some u.
Lemma atom_num o w : num w -> num (atom_fn o w) /\ sends o (den w) (den (atom_fn o w)).
Proof.
  intros NW. pose proof (proj1 NW) as W. unfold sends. destruct (num_cases w NW) as [(N & B & D)|(N & D)]; rewrite D; cbn [of_value].
  - destruct o; cbn [atom_fn].
    + rewrite D. auto.
    + destruct (fneg_ok w W) as (W' & _ & E & F). destruct (num_same w _ NW N W' E F) as [G H]. rewrite H. auto.
    + destruct (fabs_ok w W) as (W' & _ & E & F). destruct (num_same w _ NW N W' E F) as [G H]. rewrite H. auto.
    + unfold ffloor. rewrite N, D. auto.
    + unfold fceil. rewrite N, D. auto.
    + rewrite (fsgn_nan w N). destruct (num_int (-1)) as [G H]; [reflexivity|]. rewrite H. split; [exact G|]. do 2 f_equal.
    + unfold fsub. rewrite N, D. auto.
  - assert (K : forall u v, word u -> is_nan u = false -> fval u = v -> num u /\ Some (VNum v) = Some (den u)) by (intros u v A A' A''; destruct (num_of u v A A' A'') as [G H]; rewrite H; auto).
    assert (NN : forall u, exponent u = exponent w -> fraction u = fraction w -> is_nan u = false) by (intros u E F; unfold is_nan in *; rewrite E, F; exact N).
    destruct o; cbn [atom_fn of_num].
    + rewrite D. auto.
    + destruct (fneg_ok w W) as (W' & V & E & F). apply K; auto.
    + destruct (fabs_ok w W) as (W' & V & E & F). apply K; auto.
    + destruct (ffloor_ok w W N) as (W' & N' & V). apply K; auto.
    + destruct (fceil_ok w W N) as (W' & N' & V). apply K; auto.
    + rewrite (fsgn_num w N). destruct (num_int (Z.sgn (fval w))) as [G H]; [assert (Z.abs (Z.sgn (fval w)) <= 1) by lia; lia|]. rewrite H. auto.
    + destruct (fsub_ok 1 w (or_intror eq_refl) W N) as (W' & N' & V). rewrite Z.mul_1_l in V. apply K; auto.
Qed.
Lemma atom_ok o w : raw_ok EB w -> applied o (TA (den w)) (mon_atom o w).
Proof.
  intros [W C]. unfold mon_atom. destruct (isF64 w) eqn:F.
  - destruct (atom_num o w (conj W F)) as [N V]. split; [|apply num_eb, N]. cbn [tree_of]. constructor. exact V.
  - cbn [applied]. intros u M. inversion M as [v r V|]; subst. destruct (den_cases w W) as [(G & _)|[(_ & _ & D)|(_ & _ & D)]]; [congruence|rewrite D in V; discriminate|rewrite D in V; discriminate].
Qed.

(** ** Arrays of one type *)
Lemma read_all (mem : list Z) n : (n <= length mem)%nat -> mapM (rd mem) (seq 0 n) = Ok (firstn n mem).
Proof. intros L. rewrite firstn_nth by exact L. apply mapM_ok. intros i I. apply in_seq in I. apply rd_nth. lia. Qed.
Lemma typed_tree sh e l : length l = size sh -> tree_of (Ta sh e l) = TN sh (map (fun z => TA (vof e z)) l).
Proof. intros L. cbn [tree_of]. rewrite <- L, firstn_all. reflexivity. Qed.
Lemma F2_len {A B} (R : A -> B -> Prop) l r : Forall2 R l r -> length r = length l.
Proof. induction 1; cbn [length]; congruence. Qed.
Lemma typed_ok o sh e e' l r : length l = size sh -> e' <> EB -> Forall2 (fun z y => sends o (vof e z) (vof e' y) /\ raw_ok e' y) l r -> applied o (TN sh (map (fun z => TA (vof e z)) l)) (Ok (Ta sh e' r)).
Proof.
  intros L NB F. pose proof (F2_len _ _ _ F) as LR. cbn [applied]. split.
  - rewrite typed_tree by congruence. constructor. clear L LR. induction F as [|z y l r [V _] F IH]; cbn [map]; constructor; [constructor; exact V|exact IH].
  - cbn [wfm]. split; [exact NB|]. split; [lia|]. rewrite <- L, <- LR, firstn_all. clear L LR. induction F as [|z y l r [_ V] F IH]; constructor; assumption.
Qed.
Lemma map_ok o sh e e' f l : length l = size sh -> e' <> EB -> Forall (raw_ok e) l -> (forall z, raw_ok e z -> sends o (vof e z) (vof e' (f z)) /\ raw_ok e' (f z)) ->
  applied o (TN sh (map (fun z => TA (vof e z)) l)) (Ok (Ta sh e' (map f l))).
Proof. intros L NB R H. apply typed_ok; [exact L|exact NB|]. clear L. induction R as [|z l Z R IH]; cbn [map]; constructor; auto. Qed.
Lemma box_ok o sh l r : length l = size sh -> Forall2 (fun t a => maps o t (tree_of a) /\ wfm a) l r -> applied o (TN sh l) (Ok (Bx sh r)).
Proof.
  intros L F. pose proof (F2_len _ _ _ F) as LR. cbn [applied tree_of wfm]. split; [|split; [congruence|]].
  - constructor. clear L LR. induction F as [|t a l r [V _] F IH]; cbn [map]; constructor; assumption.
  - clear L LR. induction F as [|t a l r [_ V] F IH]; [exact Logic.I|]. split; assumption.
Qed.
Lemma each_ok o sh e f l : length l = size sh -> Forall (raw_ok e) l -> (forall v, raw_ok EB v -> applied o (TA (den v)) (f v)) ->
  applied o (TN sh (map (fun z => TA (vof e z)) l)) (each_typed f sh e l).
Proof.
  intros L R H. unfold each_typed. pose proof (mapM_cases (fun z => do v <- conv1 e EB z; f v) l) as MC.
  assert (G : forall z, In z l -> applied o (TA (vof e z)) (do v <- conv1 e EB z; f v)).
  { intros z I. rewrite Forall_forall in R. destruct (get_ok e z (R z I)) as (y & E & V & Y). rewrite E, <- V. apply H, Y. }
  destruct (mapM _ l) as [r| |]; cbn [bind].
  - apply box_ok; [rewrite map_length; exact L|]. clear L R. induction MC as [|z a l r E MC IH]; cbn [map]; constructor.
    + specialize (G z (or_introl eq_refl)). rewrite E in G. exact G.
    + apply IH. intros; apply G; right; assumption.
  - destruct MC as (z & I & E). specialize (G z I). rewrite E in G. cbn [applied] in *. intros u M. inversion M as [|s0 l0 r0 F]; subst.
    apply in_split in I. destruct I as (l1 & l2 & ->). rewrite map_app in F. cbn [map] in F. apply Forall2_app_inv_l in F. destruct F as (r1 & r2 & _ & F & _). inversion F; subst. eapply G; eassumption.
  - destruct MC as (z & I & E). specialize (G z I). rewrite E in G. exact G.
Qed.
(** ** Numbers of integer types *)
Definition int_t (e : elt) : Prop := e = EI8 \/ e = EI16 \/ e = EI32.
Lemma int_range e z : int_t e -> raw_ok e z <-> - 2 ^ (width e - 1) <= z < 2 ^ (width e - 1).
Proof. intros [ -> |[ -> | -> ]]; cbn [raw_ok width Z.sub Z.add Z.opp Z.pos_sub Pos.pred_double]; lia. Qed.
Lemma int_vof e z : int_t e \/ e = EBit -> vof e z = VNum (z * one).
Proof. intros [[ -> |[ -> | -> ]]| -> ]; reflexivity. Qed.
Lemma to_s_id k z : 0 < k -> - 2 ^ (k - 1) <= z < 2 ^ (k - 1) -> to_s k z = z.
Proof. intros K B. unfold to_s. assert (2 ^ k = 2 * 2 ^ (k - 1)) by (rewrite <- Z.pow_succ_r by lia; f_equal; lia). rewrite Z.mod_small; lia. Qed.
Lemma to_s_in k z : 0 < k -> - 2 ^ (k - 1) <= to_s k z < 2 ^ (k - 1).
Proof. intros K. unfold to_s. assert (E : 2 ^ k = 2 * 2 ^ (k - 1)) by (rewrite <- Z.pow_succ_r by lia; f_equal; lia). assert (0 < 2 ^ (k - 1)) by (apply Z.pow_pos_nonneg; lia). pose proof (Z.mod_pos_bound (z + 2 ^ (k - 1)) (2 ^ k) ltac:(lia)). lia. Qed.
Lemma sub_value c o z : (o = MNeg /\ c = 0 \/ o = MNot /\ c = 1) -> Z.abs z <= 2 ^ 31 -> sends o (VNum (z * one)) (VNum ((c - z) * one)).
Proof.
  intros [[ -> -> ]|[ -> -> ]] B; unfold sends; cbn [of_value of_num]; do 2 f_equal; [ring|]. replace (one - z * one) with ((1 - z) * one) by ring. apply rnd_id, one_double. lia.
Qed.
Lemma do_int_ok e c l : int_t e -> c = 0 \/ c = 1 -> Forall (raw_ok e) l -> forall r, do_int (width e) c l = Some r -> Forall2 (fun z y => y = c - z /\ raw_ok e y) l r.
Proof.
  intros I C R. induction R as [|z l Z R IH]; cbn [do_int]; intros r Q; [injection Q as <-; constructor|].
  assert (K : 0 < width e) by (destruct I as [ -> |[ -> | -> ]]; reflexivity).
  assert (D : to_s (2 * width e) (c - z) = c - z).
  { apply to_s_id; [lia|]. apply (int_range e z I) in Z. destruct I as [ -> |[ -> | -> ]]; cbn [width] in *; lia. }
  rewrite D in Q. destruct (Z.eqb_spec (to_s (width e) (c - z)) (c - z)) as [E|E]; [|discriminate]. destruct (do_int (width e) c l) as [r'|]; [|discriminate]. injection Q as <-.
  constructor; [|apply IH; reflexivity]. split; [reflexivity|]. apply (int_range e _ I). rewrite <- E. apply to_s_in. exact K.
Qed.
Lemma fsub_sends c o v : (o = MNeg /\ c = 0 \/ o = MNot /\ c = 1) -> num v -> num (fsub c v) /\ sends o (den v) (den (fsub c v)).
Proof.
  intros O NV. assert (C : c = 0 \/ c = 1) by (destruct O as [[_ H]|[_ H]]; auto). unfold sends. destruct (num_cases v NV) as [(N & B & D)|(N & D)].
  - unfold fsub. rewrite N, D. split; [exact NV|]. destruct O as [[ -> _]|[ -> _]]; reflexivity.
  - destruct (fsub_ok c v C (proj1 NV) N) as (W & N' & V). destruct (num_of _ _ W N' V) as [G H]. split; [exact G|]. rewrite H, D. cbn [of_value]. do 2 f_equal.
    destruct O as [[ -> -> ]|[ -> -> ]]; cbn [of_num]; [replace (0 * one - fval v) with (- fval v) by ring; symmetry; apply rnd_id, neg_double, fval_double, NV|replace (1 * one - fval v) with (one - fval v) by ring; reflexivity].
Qed.
Lemma sub_SA_ok c o sh e l : (o = MNeg /\ c = 0 \/ o = MNot /\ c = 1) -> int_t e \/ e = EF64 -> length l = size sh -> Forall (raw_ok e) l ->
  applied o (TN sh (map (fun z => TA (vof e z)) l)) (sub_SA c sh e l).
Proof.
  intros O T L R. assert (C : c = 0 \/ c = 1) by (destruct O as [[_ H]|[_ H]]; auto). destruct T as [I| -> ].
  - assert (G : applied o (TN sh (map (fun z => TA (vof e z)) l)) (match do_int (width e) c l with Some r => Ok (Ta sh e r) | None => each_typed (fun v => if isF64 v then Ok (At (fsub c v)) else Err) sh e l end)).
    { destruct (do_int (width e) c l) as [r|] eqn:Q.
      - apply typed_ok; [exact L|destruct I as [ -> |[ -> | -> ]]; discriminate|]. pose proof (do_int_ok e c l I C R r Q) as F. clear - F I O R. revert R. induction F as [|z y l r [ -> V] F IH]; intros R; constructor; [|apply IH; inversion R; assumption].
        split; [|exact V]. rewrite !int_vof by (left; exact I). apply sub_value; [exact O|]. inversion R as [|? ? RZ]; subst. apply (int_range e z I) in RZ. destruct I as [ -> |[ -> | -> ]]; cbn [width] in RZ; lia.
      - apply each_ok; [exact L|exact R|]. intros v [W Cv]. destruct (isF64 v) eqn:F.
        + destruct (fsub_sends c o v O (conj W F)) as [N V]. split; [constructor; exact V|apply num_eb, N].
        + cbn [applied]. intros u M. inversion M as [v0 r0 V|]; subst. destruct (den_cases v W) as [(G & _)|[(_ & _ & D)|(_ & _ & D)]]; [congruence|rewrite D in V; discriminate|rewrite D in V; discriminate]. }
    destruct I as [ -> |[ -> | -> ]]; exact G.
  - cbn [sub_SA]. apply map_ok; [exact L|discriminate|exact R|]. intros z Z. apply num_f64 in Z. destruct (fsub_sends c o z O Z) as [N V]. split; [exact V|apply num_f64, N].
Qed.
