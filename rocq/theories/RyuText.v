(** The printed text writes the chosen decimal. *)
From Verif Require Import Base SqueezeModel SqueezeProof RyuTable RyuModel RyuSpec RyuRound RyuDigits.
Open Scope Z_scope.

(** ** Buffers *)
Lemma wr_at {A} (a : list A) x y c : wr (a ++ x :: c) (length a) y = Ok (a ++ y :: c).
Proof.
  unfold wr. rewrite app_length. cbn [length]. destruct (Nat.ltb_spec (length a) (length a + S (length c))); [|lia].
  f_equal. induction a as [|h a IH]; [reflexivity|]. cbn [app length upd]. f_equal. apply IH. rewrite ?app_length; cbn [length]; lia.
Qed.
Lemma puts_at cs : forall (pre mid post : cbuf), length mid = length cs ->
  puts (pre ++ mid ++ post) (length pre) cs = Ok (pre ++ map Some cs ++ post).
Proof.
  induction cs as [|c cs IH]; intros pre mid post H.
  - destruct mid; [reflexivity|discriminate].
  - destruct mid as [|x mid]; [discriminate|]. cbn [puts]. cbn [app]. rewrite wr_at. cbn [bind].
    specialize (IH (pre ++ [Some c]) mid post ltac:(cbn [length] in H; lia)).
    rewrite app_length in IH. cbn [length] in IH. replace (length pre + 1)%nat with (S (length pre)) in IH by lia.
    rewrite <- !app_assoc in IH. cbn [app] in IH. rewrite IH. cbn [map app]. reflexivity.
Qed.
Lemma rd_at {A} (a : list A) x c : rd (a ++ x :: c) (length a) = Ok x.
Proof. unfold rd. rewrite nth_error_app2 by lia. rewrite Nat.sub_diag. reflexivity. Qed.
Lemma gets_at cs : forall (pre post : cbuf), gets (pre ++ map Some cs ++ post) (length pre) (length cs) = Ok cs.
Proof.
  induction cs as [|c cs IH]; intros pre post; [reflexivity|].
  cbn [gets map length app]. rewrite rd_at. cbn [bind].
  specialize (IH (pre ++ [Some c]) post). rewrite app_length in IH. cbn [length] in IH.
  replace (length pre + 1)%nat with (S (length pre)) in IH by lia. rewrite <- !app_assoc in IH. cbn [app] in IH. rewrite IH. reflexivity.
Qed.
Lemma filled_ok l : filled (map Some l) = Ok l.
Proof. induction l as [|c l IH]; [reflexivity|]. cbn [map filled]. rewrite IH. reflexivity. Qed.

(** the first characters of a text have been written *)
Definition part (done : list Z) (k : nat) : cbuf := map Some done ++ repeat None k.
Lemma part_puts done k cs p : (length cs <= k)%nat -> p = length done ->
  puts (part done k) p cs = Ok (part (done ++ cs) (k - length cs)).
Proof.
  intros H ->. unfold part. replace k with (length cs + (k - length cs))%nat at 1 by lia.
  rewrite repeat_app. rewrite <- (map_length Some done). rewrite puts_at by apply repeat_length.
  rewrite map_app, <- app_assoc. reflexivity.
Qed.
Lemma part_full l : filled (part l 0) = Ok l.
Proof. unfold part. cbn [repeat]. rewrite app_nil_r. apply filled_ok. Qed.
Lemma off_ok z n : z = Z.of_nat n -> off z = Ok n.
Proof. intros ->. unfold off. destruct (Z.ltb_spec (Z.of_nat n) 0); [lia|]. rewrite Nat2Z.id. reflexivity. Qed.

(** ** Numbers of digits *)
Lemma number_from ds : forall a, fold_left (fun a c => 10 * a + (c - 48)) ds a = a * 10 ^ Z.of_nat (length ds) + number ds.
Proof.
  unfold number. induction ds as [|c ds IH]; intros a; [cbn [fold_left length]; change (10 ^ Z.of_nat 0) with 1; lia|].
  cbn [fold_left length]. rewrite IH. rewrite (IH (10 * 0 + (c - 48))). rewrite Nat2Z.inj_succ, Z.pow_succ_r by lia. ring.
Qed.
Lemma number_app a b : number (a ++ b) = number a * 10 ^ Z.of_nat (length b) + number b.
Proof. unfold number at 1. rewrite fold_left_app. rewrite number_from. reflexivity. Qed.
Lemma number_zeros n : number (repeat 48 n) = 0.
Proof.
  induction n as [|n IH]; [reflexivity|]. change (repeat 48 (S n)) with ([48] ++ repeat 48 n). rewrite number_app, IH. reflexivity.
Qed.

Definition chk2 : bool := forallb (fun k => let n := Z.of_nat k in
  match w2d n with Ok [a; b] => (a =? 48 + n / 10) && (b =? 48 + n mod 10) | _ => false end) (seq 0 100).
Lemma chk2_ok : chk2 = true.
Proof. vm_compute. reflexivity. Qed.
Lemma w2d_ok n : 0 <= n < 100 -> w2d n = Ok [48 + n / 10; 48 + n mod 10].
Proof.
  intros H. pose proof chk2_ok as C. unfold chk2 in C. rewrite forallb_forall in C.
  specialize (C (Z.to_nat n) ltac:(apply in_seq; lia)). cbv zeta in C. rewrite Z2Nat.id in C by lia.
  destruct (w2d n) as [[|a [|b [|]]]| |]; try discriminate. apply andb_prop in C as [C1 C2].
  apply Z.eqb_eq in C1, C2. subst. reflexivity.
Qed.
Definition four (n : Z) : list Z := [48 + n / 100 / 10; 48 + n / 100 mod 10; 48 + n mod 100 / 10; 48 + (n mod 100) mod 10].
Lemma w4d_ok n : 0 <= n < 10000 -> w4d n = Ok (four n).
Proof. intros H. unfold w4d. rewrite !w2d_ok by lia. reflexivity. Qed.
Lemma four_digits n : 0 <= n < 10000 -> Forall digit (four n) /\ number (four n) = n.
Proof.
  intros H. split; [unfold four; repeat constructor; unfold digit; lia|].
  unfold number, four. cbn [fold_left]. lia.
Qed.
Lemma two_digits n : 0 <= n < 100 -> Forall digit [48 + n / 10; 48 + n mod 10] /\ number [48 + n / 10; 48 + n mod 10] = n.
Proof.
  intros H. split; [repeat constructor; unfold digit; lia|]. unfold number. cbn [fold_left]. lia.
Qed.

(** the digits already written behind [dec] *)
Definition tail_of (ds : list Z) (s : cbuf * nat) : Prop :=
  s = (repeat None (snd s) ++ map Some ds, snd s) /\ (snd s + length ds = 25)%nat /\ Forall digit ds.
Lemma push_ok ds s n cs : tail_of ds s -> (n <= snd s)%nat -> length cs = n -> Forall digit cs ->
  exists s', push s n (Ok cs) = Ok s' /\ tail_of (cs ++ ds) s'.
Proof.
  intros (Es & Hl & Hd) Hn Hc HF. rewrite Es. set (dec := snd s) in *. unfold push. cbn [snd].
  destruct (Nat.ltb_spec dec n); [lia|]. cbn [bind].
  exists (repeat None (dec - n) ++ map Some (cs ++ ds), (dec - n)%nat). split.
  - replace dec with ((dec - n) + n)%nat at 1 by lia. rewrite repeat_app, <- app_assoc.
    rewrite <- (repeat_length (@None Z) (dec - n)) at 2. rewrite puts_at by (rewrite repeat_length; lia). cbn [bind].
    rewrite map_app. reflexivity.
  - unfold tail_of. cbn [snd]. rewrite app_length. split; [reflexivity|]. split; [lia|apply Forall_app; auto].
Qed.

(** [o] is what is left of [m] *)
Definition left_of (m o : Z) (ds : list Z) (s : cbuf * nat) : Prop :=
  tail_of ds s /\ m = o * 10 ^ Z.of_nat (length ds) + number ds /\ 0 < o.
Lemma number_bound ds : Forall digit ds -> 0 <= number ds < 10 ^ Z.of_nat (length ds).
Proof.
  induction ds as [|c ds IH] using rev_ind; intros H; [cbn; lia|].
  apply Forall_app in H as [H1 H2]. specialize (IH H1). apply Forall_inv in H2. unfold digit in H2.
  rewrite number_app, app_length. cbn [length]. replace (Z.of_nat (length ds + 1)) with (Z.succ (Z.of_nat (length ds))) by lia.
  rewrite Z.pow_succ_r by lia. change (Z.of_nat 1) with 1. change (10 ^ 1) with 10.
  assert (number [c] = c - 48) by (unfold number; cbn [fold_left]; lia). lia.
Qed.
Lemma len_bound k o : 0 <= k -> 0 < o -> o * 10 ^ k < 2 ^ 57 -> k <= 17.
Proof.
  intros Hk Ho H. destruct (Z.le_gt_cases k 17); [assumption|exfalso].
  assert (10 ^ 18 <= 10 ^ k) by (apply Z.pow_le_mono_r; lia).
  assert (1 * 10 ^ k <= o * 10 ^ k) by (apply Z.mul_le_mono_nonneg_r; lia).
  assert (2 ^ 57 < 10 ^ 18) by (vm_compute; reflexivity). lia.
Qed.
Lemma left_len m o ds s : left_of m o ds s -> m < 2 ^ 57 -> (length ds <= 17)%nat.
Proof.
  intros ((Es & Hl & Hd) & Em & Ho) H. pose proof (number_bound ds Hd).
  pose proof (len_bound (Z.of_nat (length ds)) o ltac:(lia) Ho ltac:(lia)). lia.
Qed.
(** taking off [k] digits *)
Lemma left_push m o ds s k cs : left_of m o ds s -> m < 2 ^ 57 -> length cs = k -> (k <= 4)%nat -> Forall digit cs ->
  number cs = o mod 10 ^ Z.of_nat k -> 0 < o / 10 ^ Z.of_nat k ->
  exists s', push s k (Ok cs) = Ok s' /\ left_of m (o / 10 ^ Z.of_nat k) (cs ++ ds) s'.
Proof.
  intros HL Hm Hc Hk HF Hn Ho. pose proof (left_len _ _ _ _ HL Hm). destruct HL as (HT & Em & Hp).
  destruct (push_ok ds s k cs HT) as (s' & E & HT'); [destruct HT as (_ & Hl & _); lia|exact Hc|exact HF|].
  exists s'. split; [exact E|]. split; [exact HT'|]. split; [|exact Ho].
  rewrite number_app, app_length, Hc, Hn, Nat2Z.inj_add, Z.pow_add_r by lia. rewrite Em.
  assert (P : 10 ^ Z.of_nat k <> 0) by (assert (0 < 10 ^ Z.of_nat k) by (apply Z.pow_pos_nonneg; lia); lia).
  rewrite (Z.div_mod o (10 ^ Z.of_nat k) P) at 1. ring.
Qed.
Lemma dig_loop_ok fuel : forall m o ds s, left_of m o ds s -> m < 2 ^ 57 -> o < 10000 ^ Z.of_nat (S fuel) ->
  exists o' ds' s', dig_loop (S fuel) o s = Ok (o', s') /\ left_of m o' ds' s' /\ o' < 10000.
Proof.
  induction fuel as [|f IH]; intros m o ds s HL Hm Ho.
  - change (10000 ^ Z.of_nat 1) with 10000 in Ho. cbn [dig_loop]. destruct (Z.leb_spec 10000 o); [lia|].
    exists o, ds, s. auto.
  - remember (S f) as sf. cbn [dig_loop]. destruct (Z.leb_spec 10000 o) as [Hb|Hb]; [|exists o, ds, s; auto].
    rewrite w4d_ok by lia. destruct (four_digits (o mod 10000) ltac:(lia)) as [F1 F2].
    destruct (left_push m o ds s 4 (four (o mod 10000)) HL Hm eq_refl ltac:(lia) F1) as (s' & E & HL').
    { change (10 ^ Z.of_nat 4) with 10000. exact F2. }
    { change (10 ^ Z.of_nat 4) with 10000. apply Z.div_str_pos. lia. }
    change (10 ^ Z.of_nat 4) with 10000 in HL'.
    rewrite E. cbn [bind]. subst sf. eapply IH; [exact HL'|exact Hm|].
    rewrite Nat2Z.inj_succ, Z.pow_succ_r in Ho by lia. apply Z.div_lt_upper_bound; lia.
Qed.

(** the digits of the mantissa, without leading zeros *)
Lemma digits_buf_ok m : 0 < m < 2 ^ 57 -> exists dec ds,
  digits_buf m = Ok (repeat None dec ++ map Some ds, dec) /\ (dec + length ds = 25)%nat /\
  Forall digit ds /\ number ds = m /\ 10 ^ (Z.of_nat (length ds) - 1) <= m /\ (1 <= length ds <= 18)%nat.
Proof.
  intros Hm. unfold digits_buf.
  assert (L0 : left_of m m [] (repeat None 25, 25%nat)).
  { split; [|split; [unfold number; cbn [fold_left length]; change (10 ^ Z.of_nat 0) with 1; lia|lia]].
    split; [cbn [snd map]; rewrite app_nil_r; reflexivity|]. split; [reflexivity|constructor]. }
  set (s0 := (repeat None 25, 25%nat)) in *. clearbody s0.
  assert (S1 : exists o ds s, (if negb (m / 2 ^ 32 =? 0) then
       let q := m / 100000000 in
       let o32 := to_u 32 (to_u 32 m - to_u 32 (100000000 * to_u 32 q)) in
       do s <- push s0 4 (w4d (o32 mod 10000));
       do s <- push s 4 (w4d (o32 / 10000 mod 10000));
       Ok (q, s)
     else Ok (m, s0)) = Ok (o, s) /\ left_of m o ds s /\ o < 2 ^ 32).
  { destruct (Z.eqb_spec (m / 2 ^ 32) 0) as [E|E]; cbn [negb].
    - exists m, [], s0. split; [reflexivity|]. split; [exact L0|]. apply Z.div_small_iff in E; lia.
    - assert (2 ^ 32 <= m). { destruct (Z.lt_ge_cases m (2 ^ 32)); [rewrite Z.div_small in E by lia; lia|lia]. }
      cbv zeta. fold (low_mod 100000000 m). rewrite low_mod_ok by lia.
      set (v := m mod 100000000). assert (Hv : 0 <= v < 100000000) by (apply Z.mod_pos_bound; lia).
      rewrite !w4d_ok by lia.
      destruct (four_digits (v mod 10000) ltac:(lia)) as [F1 F2]. destruct (four_digits (v / 10000 mod 10000) ltac:(lia)) as [G1 G2].
      destruct (left_push m m [] s0 4 (four (v mod 10000)) L0 ltac:(lia) eq_refl ltac:(lia) F1) as (s1 & E1 & L1).
      { change (10 ^ Z.of_nat 4) with 10000. rewrite F2. unfold v. lia. }
      { change (10 ^ Z.of_nat 4) with 10000. apply Z.div_str_pos. lia. }
      rewrite E1. cbn [bind]. change (10 ^ Z.of_nat 4) with 10000 in L1.
      destruct (left_push m (m / 10000) _ s1 4 (four (v / 10000 mod 10000)) L1 ltac:(lia) eq_refl ltac:(lia) G1) as (s2 & E2 & L2).
      { change (10 ^ Z.of_nat 4) with 10000. rewrite G2. unfold v. lia. }
      { change (10 ^ Z.of_nat 4) with 10000. apply Z.div_str_pos. lia. }
      rewrite E2. cbn [bind]. change (10 ^ Z.of_nat 4) with 10000 in L2. rewrite Z.div_div in L2 by lia.
      change (10000 * 10000) with 100000000 in L2. do 3 eexists. split; [reflexivity|]. split; [exact L2|]. lia. }
  destruct S1 as (o1 & ds1 & s1 & ES1 & L1 & B1). cbv zeta in ES1. rewrite ES1. cbn [bind].
  assert (P1 : 0 < o1) by (destruct L1 as (_ & _ & ?); assumption).
  unfold to_u. rewrite Z.mod_small by lia.
  destruct (dig_loop_ok 9 m o1 ds1 s1 L1 ltac:(lia)) as (o2 & ds2 & s2 & -> & L2 & B2).
  { assert (2 ^ 32 < 10000 ^ Z.of_nat 10) by (vm_compute; reflexivity). lia. }
  cbn [bind]. assert (P2 : 0 < o2) by (destruct L2 as (_ & _ & ?); assumption).
  assert (S3 : exists o ds s, (if 100 <=? o2 then do s <- push s2 2 (w2d (o2 mod 100)); Ok (o2 / 100, s) else Ok (o2, s2)) = Ok (o, s) /\
     left_of m o ds s /\ o < 100).
  { destruct (Z.leb_spec 100 o2) as [Hb|Hb]; [|exists o2, ds2, s2; auto].
    rewrite w2d_ok by lia. destruct (two_digits (o2 mod 100) ltac:(lia)) as [F1 F2].
    destruct (left_push m o2 ds2 s2 2 [48 + o2 mod 100 / 10; 48 + (o2 mod 100) mod 10] L2 ltac:(lia) eq_refl ltac:(lia) F1) as (s3 & E3 & L3).
    { change (10 ^ Z.of_nat 2) with 100. exact F2. }
    { change (10 ^ Z.of_nat 2) with 100. apply Z.div_str_pos. lia. }
    rewrite E3. cbn [bind]. change (10 ^ Z.of_nat 2) with 100 in L3. do 3 eexists. split; [reflexivity|]. split; [exact L3|lia]. }
  destruct S3 as (o3 & ds3 & s3 & -> & L3 & B3). cbn [bind].
  pose proof (left_len _ _ _ _ L3 ltac:(lia)) as HL3. destruct L3 as (T3 & E3 & P3).
  assert (End : forall cs k, push s3 k (Ok cs) = push s3 k (Ok cs) -> length cs = k -> (1 <= k <= 2)%nat -> Forall digit cs -> number cs = o3 ->
     10 ^ (Z.of_nat k - 1) <= o3 -> exists dec ds,
      push s3 k (Ok cs) = Ok (repeat None dec ++ map Some ds, dec) /\ (dec + length ds = 25)%nat /\
      Forall digit ds /\ number ds = m /\ 10 ^ (Z.of_nat (length ds) - 1) <= m /\ (1 <= length ds <= 18)%nat).
  { intros cs k _ Hc Hk HF Hn Ho. destruct (push_ok ds3 s3 k cs T3) as (s' & -> & (Es & Hl & Hd)); [destruct T3 as (_ & Hl & _); lia|exact Hc|exact HF|].
    exists (snd s'), (cs ++ ds3). split; [rewrite Es at 1; reflexivity|]. split; [exact Hl|]. split; [exact Hd|].
    assert (N3 : number (cs ++ ds3) = m) by (rewrite number_app, Hn; symmetry; exact E3).
    pose proof (number_bound ds3 ltac:(destruct T3 as (_ & _ & ?); assumption)).
    assert (Lw : 10 ^ (Z.of_nat (length (cs ++ ds3)) - 1) <= m).
    { rewrite app_length, Hc, Nat2Z.inj_add. replace (Z.of_nat k + Z.of_nat (length ds3) - 1) with ((Z.of_nat k - 1) + Z.of_nat (length ds3)) by lia.
      rewrite Z.pow_add_r by lia. rewrite E3.
      assert (10 ^ (Z.of_nat k - 1) * 10 ^ Z.of_nat (length ds3) <= o3 * 10 ^ Z.of_nat (length ds3)) by (apply Z.mul_le_mono_nonneg_r; lia). lia. }
    split; [exact N3|]. split; [exact Lw|].
    assert (Z.of_nat (length (cs ++ ds3)) - 1 <= 17).
    { apply (len_bound _ 1); [rewrite app_length, Hc; lia|lia|lia]. }
    rewrite app_length, Hc in *. lia. }
  destruct (Z.leb_spec 10 o3) as [H10|H10].
  - rewrite w2d_ok by lia. destruct (two_digits o3 ltac:(lia)) as [F1 F2]. apply (End _ 2%nat); try reflexivity; try assumption; try lia.
  - apply (End _ 1%nat); try reflexivity; try lia.
    + repeat constructor; unfold digit; lia.
    + unfold number. cbn [fold_left]. lia.
Qed.

(** ** The text *)
Lemma gets_ds dec ds k n : (k + n <= length ds)%nat -> gets (repeat None dec ++ map Some ds) (dec + k) n = Ok (firstn n (skipn k ds)).
Proof.
  intros H. rewrite <- (firstn_skipn k ds) at 1. rewrite <- (firstn_skipn n (skipn k ds)) at 1. rewrite !map_app, app_assoc.
  assert (E1 : length (repeat (@None Z) dec ++ map Some (firstn k ds)) = (dec + k)%nat) by (rewrite app_length, repeat_length, map_length, firstn_length; lia).
  assert (E2 : length (firstn n (skipn k ds)) = n) by (rewrite firstn_length, skipn_length; lia).
  pose proof (gets_at (firstn n (skipn k ds)) (repeat None dec ++ map Some (firstn k ds)) (map Some (skipn n (skipn k ds)))) as H1.
  rewrite E1, E2 in H1. exact H1.
Qed.
Lemma gets_all dec ds : gets (repeat None dec ++ map Some ds) dec (length ds) = Ok ds.
Proof. pose proof (gets_ds dec ds 0 (length ds) ltac:(lia)) as H. rewrite Nat.add_0_r in H. cbn [skipn] in H. rewrite firstn_all in H. exact H. Qed.

Lemma exp_digits_text x : 0 <= x < 1000 -> exists es, exp_digits x = Ok es /\ Forall digit es /\ es <> [] /\ number es = x /\
  Z.of_nat (length es) = (if 100 <=? x then 4 else if 10 <=? x then 3 else 2) - 1.
Proof.
  intros H. unfold exp_digits. destruct (Z.leb_spec 100 x).
  - rewrite w2d_ok by lia. cbn [bind app]. eexists. split; [reflexivity|]. split; [repeat constructor; unfold digit; lia|].
    split; [discriminate|]. split; [unfold number; cbn [fold_left]; lia|reflexivity].
  - destruct (Z.leb_spec 10 x).
    + rewrite w2d_ok by lia. eexists. split; [reflexivity|]. destruct (two_digits x ltac:(lia)). split; [assumption|].
      split; [discriminate|]. split; [assumption|reflexivity].
    + eexists. split; [reflexivity|]. split; [repeat constructor; unfold digit; lia|]. split; [discriminate|].
      split; [unfold number; cbn [fold_left]; lia|reflexivity].
Qed.

Definition signt (sign : bool) : list Z := if sign then [175] else [].
Lemma ascii_digits ds : Forall digit ds -> map ascii ds = ds.
Proof.
  induction 1 as [|c ds Hc H IH]; [reflexivity|]. cbn [map]. rewrite IH. f_equal. unfold ascii, digit in *. destruct (Z.eqb_spec c 175); lia.
Qed.
Lemma ascii_sign sign : map ascii (signt sign) = if sign then [45] else [].
Proof. destruct sign; reflexivity. Qed.
Lemma repeat_digits n : Forall digit (repeat 48 n).
Proof. apply Forall_forall. intros c H. apply repeat_spec in H. unfold digit. lia. Qed.

Ltac lens := rewrite ?app_length, ?repeat_length, ?firstn_length, ?skipn_length; cbn [length].

Lemma to_chars_ok m x sign force : 0 < m < 2 ^ 57 -> -400 < x < 400 -> (0 < x -> 10 ^ 15 <= m * 10 ^ x) -> (force = true -> x = 0) ->
  exists t ds, to_chars m x sign force = Ok t /\ numeral (map ascii t) sign m x /\ Z.of_nat (length t) < 1000 /\
    (Forall digit ds /\ number ds = m /\ 10 ^ (Z.of_nat (length ds) - 1) <= m) /\ (force = true -> t = signt sign ++ ds).
Proof.
  intros Hm Hx Hbig Hforce. destruct (digits_buf_ok m Hm) as (dec & ds & E & Hlen & Hd & Hnum & Hlow & HL).
  unfold to_chars. rewrite E. cbn [bind].
  set (buf := repeat None dec ++ map Some ds). set (L := Z.of_nat (length ds)) in *.
  replace (25 - Z.of_nat dec) with L by (unfold L; lia).
  set (ex := x + L - 1).
  assert (Hpos : 0 < x -> 15 <= ex).
  { intros H. specialize (Hbig H). pose proof (number_bound ds Hd) as B. rewrite Hnum in B. fold L in B.
    assert (m * 10 ^ x < 10 ^ (L + x)).
    { rewrite Z.pow_add_r by lia. apply Z.mul_lt_mono_pos_r; [apply Z.pow_pos_nonneg; lia|lia]. }
    assert (10 ^ 15 < 10 ^ (L + x)) by lia. apply Z.pow_lt_mono_r_iff in H1; lia. }
  set (S := signt sign). set (ls := Z.of_nat (length S)).
  assert (AS : map ascii S = if sign then [45] else []) by apply ascii_sign.
  assert (Hs01 : 0 <= ls <= 1) by (unfold ls, S, signt; destruct sign; cbn [length]; lia).
  assert (Els : (if sign then 1 else 0) = ls) by (unfold ls, S, signt; destruct sign; reflexivity).
  assert (Sgn : forall rlen, (length S <= rlen)%nat ->
     (if sign then do r <- puts (repeat None rlen) 0 [175]; Ok (r, 1) else Ok (repeat None rlen, 0)) = Ok (part S (rlen - length S), ls)).
  { intros rlen H. rewrite <- Els. unfold S, signt in *. destruct sign.
    - change (repeat None rlen) with (part [] rlen). rewrite part_puts by (cbn [length] in *; lia). reflexivity.
    - cbn [length]. rewrite Nat.sub_0_r. reflexivity. }
  assert (G : forall k n, (k + n <= length ds)%nat -> gets buf (dec + k) n = Ok (firstn n (skipn k ds))) by (intros; apply gets_ds; assumption).
  assert (G0 : gets buf dec (length ds) = Ok ds) by apply gets_all.
  assert (G1 : forall n, (n <= length ds)%nat -> gets buf dec n = Ok (firstn n ds)).
  { intros n H. specialize (G 0%nat n ltac:(lia)). rewrite Nat.add_0_r in G. exact G. }
  destruct (is_positional force ex) eqn:EP.
  - assert (X0 : x <= 0).
    { unfold is_positional in EP. destruct force; [specialize (Hforce eq_refl); lia|]. cbn [orb] in EP. lia. }
    unfold result_len. destruct (Z.ltb_spec ex 0) as [Hneg|Hneg].
    + (* 0.00ddd *)
      set (nz := Z.to_nat (- ex - 1)).
      set (T := S ++ [48; 46] ++ repeat 48 nz ++ ds).
      assert (HT : L + (if sign then 1 else 0) + (1 - ex) = Z.of_nat (length T)) by (rewrite Els; unfold T, nz, ls, L; lens; lia).
      rewrite (off_ok _ (length T) HT). cbn [bind].
      rewrite Sgn by (unfold T; lens; lia). cbn [bind].
      rewrite (off_ok (ls + 0) (length S)) by (unfold ls; lia). cbn [bind].
      rewrite part_puts by (unfold T; lens; lia). cbn [bind].
      rewrite (off_ok (- ex - 1) nz) by (unfold nz; lia). cbn [bind].
      rewrite (off_ok (ls + 2) (length (S ++ [48; 46]))) by (unfold ls; lens; lia). cbn [bind].
      rewrite part_puts by (unfold T; lens; lia). cbn [bind].
      rewrite (off_ok L (length ds)) by reflexivity. cbn [bind]. rewrite G0. cbn [bind].
      rewrite (off_ok (ls + (- ex + 1)) (length ((S ++ [48; 46]) ++ repeat 48 nz))) by (unfold ls, nz; lens; lia). cbn [bind].
      rewrite part_puts by (unfold T; lens; lia). cbn [bind].
      replace (_ - _ - _ - _ - _)%nat with 0%nat by (unfold T; lens; lia).
      rewrite part_full. exists T, ds. split; [unfold T; rewrite <- !app_assoc; reflexivity|]. split; [|split].
      * exists ([48] ++ 46 :: (repeat 48 nz ++ ds)), [], ([48] ++ (repeat 48 nz ++ ds)), (Z.of_nat (length (repeat 48 nz ++ ds))), 0.
        split.
        { unfold T. rewrite !map_app, AS, (ascii_digits ds Hd), (ascii_digits _ (repeat_digits nz)).
          rewrite app_nil_r. f_equal. }
        split; [apply mant_frac; [discriminate|repeat constructor; unfold digit; lia|apply Forall_app; split; [apply repeat_digits|exact Hd]]|].
        split; [constructor|]. split.
        { rewrite !number_app, number_zeros, Hnum. change (number [48]) with 0. lia. }
        { lens. unfold nz. lia. }
      * unfold T, nz. lens. lia.
      * split; [auto|]. intros Hf. specialize (Hforce Hf). lia.
    + destruct (Z.eqb_spec x 0) as [Hx0|Hx0].
      * (* an integer *)
        set (T := S ++ ds).
        assert (HT : L + (if sign then 1 else 0) + 0 = Z.of_nat (length T)) by (rewrite Els; unfold T, ls, L; lens; lia).
        rewrite (off_ok _ (length T) HT). cbn [bind]. rewrite Sgn by (unfold T; lens; lia). cbn [bind].
        rewrite (off_ok (ex + 1) (length ds)) by (unfold ex, L; lia). cbn [bind]. rewrite G0. cbn [bind].
        rewrite (off_ok (ls + 0) (length S)) by (unfold ls; lia). cbn [bind].
        rewrite part_puts by (unfold T; lens; lia). cbn [bind].
        replace (_ - _ - _)%nat with 0%nat by (unfold T; lens; lia).
        rewrite part_full. exists T, ds. split; [reflexivity|]. split; [|split].
        -- exists ds, [], ds, 0, 0. split; [unfold T; rewrite map_app, AS, (ascii_digits ds Hd), app_nil_r; reflexivity|].
           split; [apply mant_int; [destruct ds; [cbn [length] in HL; lia|discriminate]|exact Hd]|]. split; [constructor|]. split; [auto|lia].
        -- unfold T. lens. lia.
        -- split; [auto|reflexivity].
      * (* dd.dd *)
        set (n1 := Z.to_nat (ex + 1)). assert (Hn1 : (n1 <= length ds)%nat) by (unfold n1, ex, L; lia).
        set (A := firstn n1 ds). set (B := skipn n1 ds).
        assert (LA : length A = n1) by (unfold A; rewrite firstn_length; lia).
        assert (LB : length B = (length ds - n1)%nat) by (unfold B; rewrite skipn_length; lia).
        assert (EAB : A ++ B = ds) by apply firstn_skipn.
        set (T := S ++ A ++ [46] ++ B).
        assert (LT : length T = (length S + length ds + 1)%nat) by (unfold T; rewrite !app_length; cbn [length]; lia).
        assert (HT : L + (if sign then 1 else 0) + 1 = Z.of_nat (length T)) by (rewrite Els, LT; unfold ls, L; lia).
        rewrite (off_ok _ (length T) HT). cbn [bind]. rewrite Sgn by lia. cbn [bind].
        rewrite (off_ok (ex + 1) n1) by (unfold n1; lia). cbn [bind]. rewrite (G1 n1 Hn1). fold A. cbn [bind].
        rewrite (off_ok (ls + 0) (length S)) by (unfold ls; lia). cbn [bind].
        rewrite part_puts by lia. cbn [bind].
        rewrite (off_ok (ls + (ex + 1)) (length (S ++ A))) by (unfold ls; rewrite app_length, LA; unfold n1; lia). cbn [bind].
        rewrite part_puts by (cbn [length]; lia). cbn [bind].
        rewrite (off_ok (L - ex - 1) (length B)) by (rewrite LB; unfold L, n1; lia). cbn [bind].
        rewrite (off_ok (Z.of_nat dec + ex + 1) (dec + n1)) by (unfold n1; lia). cbn [bind].
        rewrite (G n1 (length B)) by lia. fold B. rewrite firstn_all. cbn [bind].
        rewrite (off_ok (ls + (ex + 2)) (length ((S ++ A) ++ [46]))) by (unfold ls; rewrite !app_length, LA; cbn [length]; unfold n1; lia). cbn [bind].
        rewrite part_puts by (cbn [length]; lia). cbn [bind].
        replace (_ - _ - _ - _ - _)%nat with 0%nat by (cbn [length]; lia).
        rewrite part_full. exists T, ds. split; [unfold T; rewrite <- !app_assoc; reflexivity|]. split; [|split].
        -- assert (FA : Forall digit A /\ Forall digit B) by (apply Forall_app; rewrite EAB; exact Hd). destruct FA as [FA FB].
           exists (A ++ 46 :: B), [], (A ++ B), (Z.of_nat (length B)), 0. split.
           { unfold T. rewrite !map_app, AS, (ascii_digits A FA), (ascii_digits B FB), app_nil_r. reflexivity. }
           split; [apply mant_frac; [rewrite EAB; destruct ds; [cbn [length] in HL; lia|discriminate]|exact FA|exact FB]|].
           split; [constructor|]. rewrite EAB. split; [auto|]. rewrite LB. unfold n1, ex, L. lia.
        -- rewrite LT. lia.
        -- split; [auto|]. intros Hf. specialize (Hforce Hf). lia.
  - (* d.ddde¯xx *)
    assert (Hf : force = false) by (unfold is_positional in EP; destruct force; [discriminate|reflexivity]).
    unfold result_len.
    set (ax := if ex <? 0 then - ex else ex).
    assert (Hax : 0 <= ax < 1000) by (unfold ax, ex; destruct (Z.ltb_spec (x + L - 1) 0); lia).
    destruct (exp_digits_text ax Hax) as (es & Ees & Des & Nes & Vex & Les).
    assert (Cons : exists d0 dt, ds = d0 :: dt) by (destruct ds as [|d0 dt]; [cbn [length] in HL; lia|eauto]).
    destruct Cons as (d0 & dt & Eds).
    set (F := if L =? 1 then [] else 46 :: dt). set (Sx := signt (ex <? 0)).
    set (T := S ++ [d0] ++ F ++ [101] ++ Sx ++ es).
    assert (Ldt : length dt = (length ds - 1)%nat) by (rewrite Eds; cbn [length]; lia).
    assert (HL1 : (1 <= length ds)%nat) by (rewrite Eds; cbn [length]; lia).
    assert (LL : L = Z.of_nat (length dt) + 1) by (unfold L; lia).
    assert (LF : Z.of_nat (length F) = L - 1 + (if L =? 1 then 0 else 1)).
    { unfold F. destruct (Z.eqb_spec L 1); cbn [length]; lia. }
    assert (LSx : Z.of_nat (length Sx) = if ex <? 0 then 1 else 0) by (unfold Sx, signt; destruct (ex <? 0); reflexivity).
    assert (LT : length T = (length S + 1 + length F + 1 + length Sx + length es)%nat) by (unfold T; rewrite !app_length; cbn [length]; lia).
    rewrite (off_ok _ (length T)).
    2: { rewrite Els, LT. fold ax. unfold ls. lia. }
    cbn [bind]. rewrite Sgn by lia. cbn [bind].
    replace (gets buf dec 1) with (Ok [d0]) by (rewrite (G1 1%nat) by lia; rewrite Eds; reflexivity). cbn [bind].
    rewrite (off_ok (ls + 0) (length S)) by (unfold ls; lia). cbn [bind].
    rewrite part_puts by (cbn [length]; lia). cbn [bind]. cbn [length].
    assert (Fr : exists k, (if L =? 1 then Ok (part (S ++ [d0]) (length T - length S - 1), L)
          else do p <- off (ls + 1); do r <- puts (part (S ++ [d0]) (length T - length S - 1)) p [46];
               do n <- off (L - 1); do cs <- gets buf (Datatypes.S dec) n; do p <- off (ls + 2); do r <- puts r p cs;
               Ok (r, L + 1)) = Ok (part (S ++ [d0] ++ F) k, Z.of_nat (length F) + 1) /\ (k = 1 + length Sx + length es)%nat).
    { unfold F in *. destruct (Z.eqb_spec L 1) as [L1|L1].
      - exists (length T - length S - 1)%nat. cbn [length] in *. split; [|lia]. rewrite app_nil_r. do 2 f_equal. lia.
      - cbn [length] in LF, LT.
        rewrite (off_ok (ls + 1) (length (S ++ [d0]))) by (unfold ls; lens; lia). cbn [bind].
        rewrite part_puts by (cbn [length]; lia). cbn [bind length].
        rewrite (off_ok (L - 1) (length dt)) by (unfold L; lia). cbn [bind].
        replace (Datatypes.S dec) with (dec + 1)%nat by lia. rewrite (G 1%nat (length dt)) by lia.
        replace (firstn (length dt) (skipn 1 ds)) with dt by (rewrite Eds; cbn [skipn]; symmetry; apply firstn_all). cbn [bind].
        rewrite (off_ok (ls + 2) (length ((S ++ [d0]) ++ [46]))) by (unfold ls; lens; lia). cbn [bind].
        rewrite part_puts by lia. cbn [bind].
        eexists. split; [rewrite <- !app_assoc; cbn [app length]; do 2 f_equal; lia|lia]. }
    destruct Fr as (k & -> & Hk). cbn [bind].
    set (done := S ++ [d0] ++ F). assert (Ldone : Z.of_nat (length done) = ls + 1 + Z.of_nat (length F)) by (unfold done, ls; lens; lia).
    rewrite (off_ok (ls + (Z.of_nat (length F) + 1)) (length done)) by lia. cbn [bind].
    rewrite part_puts by (cbn [length]; lia). cbn [bind]. cbn [length].
    set (epos := Z.of_nat (length F) + 1) in *.
    assert (Ne : (if ex <? 0
         then do p <- off (ls + (epos + 1)); do r <- puts (part (done ++ [101]) (k - 1)) p [175]; Ok (r, epos + 1, - ex)
         else Ok (part (done ++ [101]) (k - 1), epos, ex)) = Ok (part (done ++ [101] ++ Sx) (length es), epos + Z.of_nat (length Sx), ax)).
    { unfold Sx, signt, ax in *. destruct (ex <? 0); cbn [length] in *.
      - rewrite (off_ok (ls + (epos + 1)) (length (done ++ [101]))) by (rewrite app_length; cbn [length]; lia). cbn [bind].
        rewrite part_puts by (cbn [length]; lia). cbn [bind length]. rewrite <- app_assoc. do 4 f_equal; lia.
      - rewrite app_nil_r. do 3 f_equal; [f_equal; lia|lia]. }
    rewrite Ne. cbn [bind]. rewrite Ees. cbn [bind].
    rewrite (off_ok _ (length (done ++ [101] ++ Sx))) by (rewrite !app_length; cbn [length]; lia). cbn [bind].
    rewrite part_puts by lia. cbn [bind]. rewrite Nat.sub_diag, part_full.
    exists T, ds. split; [unfold T, done; rewrite <- !app_assoc; reflexivity|]. split; [|split].
    + assert (D0 : digit d0 /\ Forall digit dt) by (rewrite Eds in Hd; split; [exact (Forall_inv Hd)|exact (Forall_inv_tail Hd)]).
      destruct D0 as [D0 Dt].
      assert (A0 : map ascii [d0] = [d0]) by (apply ascii_digits; repeat constructor; exact (proj1 D0) || exact (proj2 D0)).
      assert (AF : map ascii F = F).
      { unfold F. destruct (L =? 1); [reflexivity|]. cbn [map]. rewrite (ascii_digits dt Dt). reflexivity. }
      exists ([d0] ++ F), ([101] ++ map ascii Sx ++ es), ds, (L - 1), ex. split.
      { unfold T. rewrite !map_app, AS, A0, AF, (ascii_digits es Des). cbn [map]. change (ascii 101) with 101. rewrite <- !app_assoc. reflexivity. }
      split.
      { unfold F. destruct (Z.eqb_spec L 1) as [L1|L1].
        - rewrite app_nil_r. assert (dt = []) as -> by (destruct dt; [reflexivity|cbn [length] in Ldt; unfold L in L1; lia]).
          rewrite Eds, L1. apply mant_int; [discriminate|]. rewrite <- Eds. exact Hd.
        - rewrite Eds. replace (L - 1) with (Z.of_nat (length dt)) by (unfold L; lia). 
          apply (mant_frac [d0] dt); [discriminate|repeat constructor; apply D0|exact Dt]. }
      split.
      { unfold Sx, signt, ax in *. destruct (ex <? 0); cbn [map app].
        - change (ascii 175) with 45. replace ex with (- number es) by lia. apply exp_minus; auto.
        - rewrite <- Vex. apply exp_plain; auto. }
      split; [auto|]. unfold ex. lia.
    + rewrite LT. destruct (100 <=? ax), (10 <=? ax), (ex <? 0), (L =? 1); lia.
    + split; [auto|]. rewrite Hf. discriminate.
Qed.
