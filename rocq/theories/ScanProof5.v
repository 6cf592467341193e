From Verif Require Import SearchMany Base ListLib BitsModel BitsSpec BitsProof BitsProof2 SqueezeModel SqueezeProof WidenModel SelectModel SelectProof ArithModel ArithSpec ArithProof ArithProof2 ArithProof3 FoldModel FoldSpec FoldProof FoldProof2 FoldProof3 ScanModel ScanProof ScanProof2 ScanProof3 ScanProof4.
From Coq Require Import List Lia.
Open Scope Z_scope.

Lemma ne_ints_loop (l : list Z) (F : bool -> Z -> bool) : (forall c v, b2z (F c v) = prim_op PNe (b2z c) v) -> forall n i m c, words m -> 0 <= i -> i + Z.of_nat n = len l -> len l <= 64 * len m ->
  exists m' c', for_ n i (fun i (st : list Z * bool) => let '(m, c) := st in do v <- rdz l i; let c := F c v in do m <- bitp_set m 0 i c; Ok (m, c)) (m, c) = Ok (m', c') /\ words m' /\ length m' = length m /\ (forall k, 0 <= k < i -> mbit m' k = mbit m k) /\
  map (fun j => b2z (mbit m' (i + Z.of_nat j))) (seq 0 n) = scanl (prim_op PNe) (b2z c) (skipn (Z.to_nat i) l).
Proof.
  intros HF. induction n as [|n IH]; intros i m c W I E L.
  - exists m, c. split; [reflexivity|]. split; auto. split; auto. split; auto. cbn [seq map]. rewrite skipn_all2 by (unfold len in E; lia). reflexivity.
  - cbn [for_]. rewrite rdz_ok by lia. cbn [bind]. destruct (bitp_set_spec m 0 i (F c (word l i)) W) as (m1 & -> & L1 & W1 & H1); [lia|lia|lia|]. cbn [bind]. destruct (IH (i + 1) m1 (F c (word l i)) W1) as (m' & c' & E' & W' & Lm & H2 & H3); [lia|lia|lia|]. exists m', c'. split; [exact E'|]. split; auto. split; [unfold len in *; lia|]. split.
    + intros k K. rewrite H2 by lia. rewrite H1 by lia. replace (k =? 64 * 0 + i) with false by lia. reflexivity.
    + assert (SK : skipn (Z.to_nat i) l = word l i :: skipn (Z.to_nat (i + 1)) l). { replace (Z.to_nat (i + 1)) with (S (Z.to_nat i)) by lia. unfold word. assert (H : (Z.to_nat i < length l)%nat) by (unfold len in E; lia). clear - H. revert l H. induction (Z.to_nat i) as [|k IH]; intros [|a l] H; cbn [length] in H; try lia; [reflexivity|]. cbn [skipn nth]. rewrite IH by lia. reflexivity. }
      rewrite SK. cbn [seq map scanl]. rewrite Z.add_0_r. rewrite <- HF. f_equal; [rewrite H2 by lia; rewrite H1 by lia; rewrite Z.mul_0_r, Z.add_0_l, Z.eqb_refl; reflexivity|]. rewrite <- H3. rewrite <- seq_shift, map_map. apply map_ext. intros j. do 2 f_equal. lia.
Qed.
Lemma mem_words junk n : words (repeat (to_u 64 junk) n).
Proof. apply Forall_forall. intros z H. apply repeat_spec in H. subst z. apply Z.mod_pos_bound. lia. Qed.
Lemma vals_seq m n : map b2z (bits_of m 0 n) = map (fun j => b2z (mbit m (Z.of_nat j))) (seq 0 (Z.to_nat n)).
Proof. unfold bits_of. rewrite map_map. apply map_ext. intros j. do 2 f_equal. Qed.
Lemma nwords_ge n : 0 <= n -> n <= 64 * Z.of_nat (nwords n). Proof. intros. unfold nwords, BIT_N. rewrite shr6. lia. Qed.
Lemma ne_ints_w junk k l c : ik k -> inr k l -> sres PNe (Some (b2z c)) (AI k l) (do r <- ne_ints junk l false c; Ok (AB r (len l))).
Proof.
  intros K R. unfold ne_ints. cbv zeta. cbn [bind]. replace (length l - 0)%nat with (length l) by lia. fold (len l). pose proof (nwords_ge (len l)) as NG. assert (0 <= len l) by (unfold len; lia). specialize (NG H).
  destruct (ne_ints_loop l (fun c v => negb (Z.lxor (b2z c) v =? 0))) with (n := length l) (i := 0) (m := repeat (to_u 64 junk) (nwords (len l))) (c := c) as (m' & c' & E & W & Lm & _ & V).
  { intros b v. cbn [prim_op]. do 2 f_equal. destruct (Z.eqb_spec (Z.lxor (b2z b) v) 0) as [Q|Q], (Z.eqb_spec (b2z b) v) as [Q2|Q2]; auto; exfalso; rewrite Z.lxor_eq_0_iff in Q; contradiction. }
  { apply mem_words. } { lia. } { unfold len. lia. } { unfold len at 2. rewrite repeat_length. lia. }
  cbv zeta in E.   rewrite E. cbn [bind]. eexists. split; [reflexivity|]. rewrite repeat_length in Lm. split; [split; [auto|lia]|]. rewrite vals_bits, vals_seq. cbn [Z.to_nat skipn] in V. replace (Z.to_nat (len l)) with (length l) by (unfold len; lia). cbn [vals]. rewrite <- V. apply map_ext. intros j. do 2 f_equal.
Qed.
Lemma ne_ints_1 junk k l : ik k -> inr k l -> match l with x0 :: _ :: _ => x0 = 0 \/ x0 = 1 | _ => False end -> sres PNe None (AI k l) (do r <- ne_ints junk l true (nth 0 l 0 =? 1); Ok (AB r (len l))).
Proof.
  intros K R B. destruct l as [|x0 [|x1 t]]; try contradiction. cbn [nth]. set (l := x0 :: x1 :: t) in *. set (c := x0 =? 1). assert (C : b2z c = x0) by (unfold c; destruct B as [->| ->]; reflexivity).
  unfold ne_ints. cbv zeta. fold (len l). assert (L2 : 2 <= len l) by (unfold len, l; cbn [length]; lia). pose proof (nwords_ge (len l)) as NG. assert (H : 0 <= len l) by lia. specialize (NG H).
  set (m0 := repeat (to_u 64 junk) (nwords (len l))). assert (M0 : len m0 = Z.of_nat (nwords (len l))) by (unfold len at 1, m0; rewrite repeat_length; reflexivity). rewrite wrz_ok by lia. cbn [bind].
  set (m1 := upd m0 (Z.to_nat 0) (b2z c)). assert (W1 : words m1) by (apply words_upd; [apply mem_words|destruct c; cbn; lia]). assert (L1 : len m1 = len m0) by apply len_upd.
  destruct (ne_ints_loop l (fun c v => negb (b2z c =? v))) with (n := (length l - 1)%nat) (i := 1) (m := m1) (c := c) as (m' & c' & E & W & Lm & Hk & V).
  { intros b v. reflexivity. } { exact W1. } { lia. } { unfold len in *. lia. } { lia. }
  cbv zeta in E.   rewrite E. cbn [bind]. eexists. split; [reflexivity|]. split; [split; [auto|unfold len in *; lia]|]. rewrite vals_bits, vals_seq. cbn [vals]. unfold l at 2. cbn [scan1]. rewrite <- C at 1. change (skipn (Z.to_nat 1) l) with (x1 :: t) in V. rewrite C in V. rewrite <- V. replace (Z.to_nat (len l)) with (S (length l - 1)) by (unfold len in *; lia). cbn [seq map]. f_equal.
  - cbn [Z.of_nat]. rewrite Hk by lia. unfold m1. rewrite mbit_upd by lia. change (0 / 64 =? 0) with true. cbv iota. destruct c; reflexivity.
  - rewrite <- seq_shift, map_map. apply map_ext. intros j. do 2 f_equal. lia.
Qed.
(** running sums of bits moved by a number *)
Lemma scanl_shift w : forall l c, map (fun z => w + z) (scanl Z.add c l) = scanl Z.add (w + c) l.
Proof. induction l as [|a l IH]; intros c; [reflexivity|]. cbn [scanl map]. rewrite IH. rewrite Z.add_assoc. reflexivity. Qed.
Lemma scanl_neg w : forall l c, map (fun z => w - z) (scanl Z.add c l) = scanl Z.sub (w - c) l.
Proof. induction l as [|a l IH]; intros c; [reflexivity|]. cbn [scanl map]. rewrite IH. replace (w - (c + a)) with (w - c - a) by lia. reflexivity. Qed.
Lemma scanl_add_w : forall l c, Forall (fun z => z = 0 \/ z = 1) l -> - 2 ^ 53 <= c -> c + Z.of_nat (length l) <= 2 ^ 53 -> scanl (prim_op (PO OAdd)) c l = scanl Z.add c l.
Proof. induction l as [|a l IH]; intros c F C B; [reflexivity|]. inversion F as [|? ? A F']; subst. cbn [scanl length] in *. cbn [prim_op dbl_op]. rewrite rnd_exact by lia. rewrite IH; auto; lia. Qed.
Lemma scanl_sub_w : forall l c, Forall (fun z => z = 0 \/ z = 1) l -> c <= 2 ^ 53 -> - 2 ^ 53 <= c - Z.of_nat (length l) -> scanl (prim_op (PO OSub)) c l = scanl Z.sub c l.
Proof. induction l as [|a l IH]; intros c F C B; [reflexivity|]. inversion F as [|? ? A F']; subst. cbn [scanl length] in *. cbn [prim_op dbl_op]. rewrite rnd_exact by lia. rewrite IH; auto; lia. Qed.
Lemma map2_repeat {B C} (f : Z -> B -> C) w (l : list B) : map2 f (repeat w (length l)) l = map (f w) l.
Proof. unfold map2. induction l as [|a l IH]; [reflexivity|]. cbn [length repeat combine map fst snd]. rewrite IH. reflexivity. Qed.
Lemma map_Forall {A B} (f g : A -> B) (P : A -> Prop) l : Forall P l -> (forall a, P a -> f a = g a) -> map f l = map g l.
Proof. induction 1 as [|a l A1 F IH]; intros H; [reflexivity|]. cbn [map]. rewrite IH, H; auto. Qed.
Lemma zbits l : zsum (map b2z l) <= Z.of_nat (length l). Proof. induction l as [|[] l IH]; cbn [map zsum length b2z]; lia. Qed.
Lemma sums_in l : Forall (fun z => 0 <= z <= Z.of_nat (length l)) (scanl Z.add 0 (map b2z l)).
Proof. apply scanl_bounds; [lia| |pose proof (zbits l); lia]. apply Forall_forall. intros z H. apply in_map_iff in H. destruct H as ([] & <- & _); cbn; lia. Qed.

Section S.
Variables (junk umax : Z) (sq : arr -> arr) (cv64 cv32 : Z -> Z).
Hypothesis U : 0 < umax <= 2 ^ 48.
Hypothesis KS : keeps_arr sq.
Hypothesis C64 : conv 64 cv64.
Hypothesis C32 : conv 32 cv32.
Lemma minus_bits xp n : arr_ok (AB xp n) -> 0 < n < umax -> sres (PO OSub) None (AB xp n) (do a <- rdz xp 0; do r <- scan_add_bool junk umax xp n; arith_SA sq OSub (2 * Z.land a 1) r).
Proof using U KS.
  intros [W N] NU. fold (len xp) in N. rewrite rdz_ok by lia. cbn [bind]. destruct (add_bool_ok junk umax xp n U W N) as (a & -> & A & V); [lia|]. cbn [bind]. assert (B : Z.land (word xp 0) 1 = b2z (mbit xp 0)). { change 1 with (Z.ones 1) at 1. rewrite Z.land_ones by lia. change (2 ^ 1) with 2. rewrite Zmod_odd, <- Z.bit0_odd. reflexivity. }
  rewrite B. destruct (SA_result sq OSub (2 * b2z (mbit xp 0)) a KS) as (r & E & R & VR); auto. { exists (2 * b2z (mbit xp 0)), 0. destruct (mbit xp 0); cbn; lia. }
  exists r. split; auto. split; auto. rewrite VR, map2_repeat, V. pose proof (sums_in (bits_of xp 0 n)) as SI. pose proof (len_bits xp 0 n) as L. rewrite vals_bits. change (2 ^ 48) with 281474976710656 in U.
  rewrite (map_Forall _ (fun z => 2 * b2z (mbit xp 0) - z) _ _ SI). 2: { intros z Hz. cbv beta in Hz. cbn [dbl_op]. apply rnd_exact. destruct (mbit xp 0); cbn [b2z]; lia. }
  rewrite scanl_neg, Z.sub_0_r. pose proof (nth_bits xp n 0) as F0. destruct (bits_of xp 0 n) as [|b l]; [cbn in L; lia|]. cbn [nth Z.of_nat] in F0. cbn [map scanl scan1]. rewrite <- F0 by lia. replace (2 * b2z b - b2z b) with (b2z b) by lia. f_equal. symmetry. cbn [length] in L. apply scanl_sub_w; [apply bits01|destruct b; cbn; lia|rewrite map_length; destruct b; cbn [b2z]; lia].
Qed.
Lemma plus_bits_w xp n w : arr_ok (AB xp n) -> 0 <= n < umax -> is_double w -> - 2 ^ 53 < w -> w + n < 2 ^ 53 -> sres (PO OAdd) (Some w) (AB xp n) (do t <- scan_add_bool junk umax xp n; if w =? 0 then Ok t else arith_SA sq OAdd w t).
Proof using U KS.
  intros [W N] NU D WL WH. fold (len xp) in N. destruct (add_bool_ok junk umax xp n U W N) as (a & -> & A & V); [lia|]. cbn [bind]. pose proof (len_bits xp 0 n) as L. pose proof (sums_in (bits_of xp 0 n)) as SI. pose proof (bits01 (bits_of xp 0 n)) as B.
  assert (T : scanl (prim_op (PO OAdd)) w (vals (AB xp n)) = map (fun z => w + z) (scanl Z.add 0 (map b2z (bits_of xp 0 n)))). { rewrite vals_bits, scanl_shift, Z.add_0_r. apply scanl_add_w; auto; [lia|]. rewrite map_length. lia. }
  destruct (Z.eqb_spec w 0) as [->|NZ].
  - exists a. split; auto. split; auto. rewrite T, V. rewrite scanl_shift. reflexivity.
  - destruct (SA_result sq OAdd w a KS D A) as (r & E & R & VR). exists r. split; auto. split; auto. rewrite VR, map2_repeat, V, T. apply (map_Forall _ _ _ _ SI). intros z Hz. cbv beta in Hz. cbn [dbl_op]. apply rnd_exact. lia.
Qed.
Lemma vals_ne x : arr_ok x -> 0 < a_ia x -> vals x <> []. Proof. intros X N E. pose proof (vals_len x X) as L. rewrite E in L. cbn in L. lia. Qed.
Lemma scan_right : forall l c, scanl (prim_op PR) c l = l. Proof. induction l as [|a l IH]; intros c; [reflexivity|]. cbn [scanl prim_op]. rewrite IH. reflexivity. Qed.
Lemma scan_left : forall l c, scanl (prim_op PL) c l = repeat c (length l). Proof. induction l as [|a l IH]; intros c; [reflexivity|]. cbn [scanl prim_op length repeat]. rewrite IH. reflexivity. Qed.
Lemma rb_ok n r : rb n r = do r <- r; Ok (AB r n). Proof. reflexivity. Qed.
Lemma eq_bits xp n : arr_ok (AB xp n) -> sres PEq None (AB xp n) (rb n (scan_eq xp n)).
Proof. intros [W N]. destruct (scan_eq_ok xp n W N) as (r & E & L & Wr & H). unfold rb. rewrite E. cbn [bind]. apply (sres_bits1 PEq xp n r Bool.eqb); auto; try discriminate. split; auto. Qed.
Lemma le_bits xp n : arr_ok (AB xp n) -> sres PLe None (AB xp n) (rb n (do y <- negate xp n; do r <- scan_lt y 0 n; negate r n)).
Proof.
  intros [W N]. destruct (nwords_le xp n N) as [N1 N2]. unfold rb. destruct (negate_ok xp n W N) as (y & -> & Ly & Wy & Hy). cbn [bind]. destruct (scan_lt_ok y 0 n Wy) as (r & -> & Lr & Wr & Hr); [unfold len; lia|lia|]. cbn [bind]. destruct (negate_ok r n Wr) as (q & -> & Lq & Wq & Hq); [unfold len; lia|]. cbn [bind].
  apply (sres_bits1 PLe xp n q implb); auto; try discriminate; [split; auto| |intros [] []; reflexivity]. intros k K. rewrite Hq, Hr, Hy by lia. destruct (Z.eqb_spec k 0) as [->|NK]; [rewrite Z.bits_0; destruct (mbit xp 0); reflexivity|]. rewrite Hq by lia. destruct (mbit r (k - 1)), (mbit xp k); reflexivity.
Qed.
Lemma gt_bits xp n : arr_ok (AB xp n) -> 0 < n -> sres PGt None (AB xp n) (rb n (do y <- negate xp n; do y <- flip0 y; scan_and y n)).
Proof.
  intros [W N] N0. destruct (nwords_le xp n N) as [N1 N2]. unfold rb. destruct (negate_ok xp n W N) as (y & -> & Ly & Wy & Hy). cbn [bind]. destruct (flip0_ok y Wy) as (z & -> & Lz & Wz & Hz); [unfold len; lia|]. cbn [bind]. destruct (scan_and_ok z n Wz) as (r & -> & Lr & Wr & Hr); [unfold len; lia|]. cbn [bind].
  apply (sres_bits1 PGt xp n r (fun a b => a && negb b)); auto; try discriminate; [split; auto|]. intros k K. rewrite Hr, Hz, Hy by lia. destruct (Z.eqb_spec k 0) as [->|NK]; [destruct (mbit xp 0); reflexivity|]. destruct (mbit r (k - 1)), (mbit xp k); reflexivity.
Qed.
Lemma ge_bits xp n : arr_ok (AB xp n) -> 0 < n -> sres PGe None (AB xp n) (rb n (do y <- negate xp n; do y <- flip0 y; scan_or y n)).
Proof.
  intros [W N] N0. destruct (nwords_le xp n N) as [N1 N2]. unfold rb. destruct (negate_ok xp n W N) as (y & -> & Ly & Wy & Hy). cbn [bind]. destruct (flip0_ok y Wy) as (z & -> & Lz & Wz & Hz); [unfold len; lia|]. cbn [bind]. destruct (scan_or_ok z n Wz) as (r & -> & Lr & Wr & Hr); [unfold len; lia|]. cbn [bind].
  apply (sres_bits1 PGe xp n r (fun a b => a || negb b)); auto; try discriminate; [split; auto|]. intros k K. rewrite Hr, Hz, Hy by lia. destruct (Z.eqb_spec k 0) as [->|NK]; [destruct (mbit xp 0); reflexivity|]. destruct (mbit r (k - 1)), (mbit xp k); reflexivity.
Qed.
Lemma unit_bits p w xp n r : prim_op p w 0 = 0 -> prim_op p w 1 = 1 -> sres p (Some w) (AB xp n) r -> sres p None (AB xp n) r.
Proof. intros H0 H1. apply sres_unit. apply (bits_first (fun a => prim_op p w a = a)); auto. Qed.
Lemma sres_same p w x y r : vals x = vals y -> sres p w x r -> sres p w y r. Proof. unfold sres. intros ->. auto. Qed.
Theorem scan_c1_ok p x : arr_ok x -> a_ia x < umax -> sres p None x (scan_c1 junk umax sq cv32 p x).
Proof using U KS C32.
  intros X N. unfold scan_c1. pose proof (vals_len x X) as L. destruct (Z.leb_spec (a_ia x) 1) as [S1|S2].
  { exists x. split; auto. split; auto. destruct (vals x) as [|a [|b l]]; cbn [length] in L; try reflexivity. lia. }
  assert (NE : vals x <> []) by (apply vals_ne; auto; lia). pose proof (scan_base1_ok p x X NE) as BASE. rewrite !elems_ok by auto. cbn [bind].
  assert (HR : p = PR -> sres p None x (Ok x)). { intros ->. exists x. split; auto. split; auto. destruct (vals x) as [|a l]; [reflexivity|]. cbn [scan1]. rewrite scan_right. reflexivity. }
  assert (HL : p = PL -> sres p None x (do a <- rd (vals x) 0; Ok (all_w (a_ia x) a))). { intros ->. pose proof (vals_double x X) as D. destruct (vals x) as [|a l] eqn:E; [congruence|]. cbn [rd nth_error bind]. inversion D; subst. eexists. split; [reflexivity|]. split; [apply repeat_ok; auto|]. rewrite E. cbn [scan1]. rewrite scan_left. unfold all_w. cbn [vals]. rewrite <- L. rewrite Nat2Z.id. reflexivity. }
  destruct x as [xp n|k l|l]; cbn [a_ia] in *.
  - destruct p as [[]| | | | | | | |]; auto.
    + assert (XX := X). destruct X as [W NB]. destruct (add_bool_ok junk umax xp n U W NB N) as (a & E & A & V). exists a. split; auto. split; auto. rewrite V. rewrite vals_bits. pose proof (len_bits xp 0 n) as LB. change (2 ^ 48) with 281474976710656 in U. rewrite <- scanl_scan1 with (c := 0). { symmetry. apply scanl_add_exact; [lia|apply bits01|rewrite map_length; lia]. } destruct (bits_of xp 0 n) as [|[] t]; reflexivity.
    + apply minus_bits; auto. lia.
    + apply bits_and1; auto.
    + apply bits_and1; auto.
    + apply bits_or1; auto.
    + apply bits_and1; auto.
    + apply bits_or1; auto.
    + apply (unit_bits PLt 0); [reflexivity|reflexivity|]. apply (bits_lt false); auto.
    + apply le_bits; auto.
    + apply gt_bits; auto; lia.
    + apply ge_bits; auto; lia.
    + apply eq_bits; auto.
    + apply (unit_bits PNe 0); [reflexivity|reflexivity|]. apply (bits_ne false); auto.
  - assert (PLUS : p = PO OAdd -> sres p None (AI k l) (scan_plus cv32 0 (AI k l))). { intros ->. apply (sres_unit (PO OAdd) 0). - cbn [vals]. pose proof (vals_double _ X) as D. cbn [vals] in D. destruct l as [|a l]; auto. inversion D; subst. cbn [prim_op dbl_op]. rewrite Z.add_0_l. apply rnd_double_id. auto. - apply scan_plus_ok; auto; [discriminate|exists 0, 0; cbn; lia]. }
    destruct p as [[]| | | | | | | |]; auto.
    + destruct (KS _ X) as [SO SV]. destruct (sq (AI k l)) as [xp n|k' l'|l'] eqn:Q; rewrite <- ?Q; try (rewrite Q in *; apply (sres_same (PO OOr) None _ _ _ SV); apply scan_base1_ok; auto; rewrite SV; auto). apply (sres_same (PO OOr) None _ _ _ SV). apply bits_or1; auto.
    + apply (scan_mm_ok false); auto.
    + apply (scan_mm_ok true); auto.
    + destruct l as [|x0 [|x1 t]] eqn:EL; [cbn in S2; lia|cbn in S2; lia|]. cbn [rd nth_error bind]. destruct ((x0 =? 0) || (x0 =? 1)) eqn:B; auto. destruct X as [K R]. apply (ne_ints_1 junk k (x0 :: x1 :: t)); auto. lia.
  - assert (PLUS : p = PO OAdd -> sres p None (AF l) (scan_plus cv32 0 (AF l))). { intros ->. apply (sres_unit (PO OAdd) 0). - cbn [vals]. destruct l as [|a l]; auto. inversion X; subst. cbn [prim_op dbl_op]. rewrite Z.add_0_l. apply rnd_double_id. auto. - apply scan_plus_ok; auto; [discriminate|exists 0, 0; cbn; lia]. }
    destruct p as [[]| | | | | | | |]; auto.
    + destruct (KS _ X) as [SO SV]. destruct (sq (AF l)) as [xp n|k' l'|l'] eqn:Q; rewrite <- ?Q; try (rewrite Q in *; apply (sres_same (PO OOr) None _ _ _ SV); apply scan_base1_ok; auto; rewrite SV; auto). apply (sres_same (PO OOr) None _ _ _ SV). apply bits_or1; auto.
    + apply (scan_mm_ok false); auto.
    + apply (scan_mm_ok true); auto.
Qed.
Lemma const_bits p w v xp n : arr_ok (AB xp n) -> is_double v -> (forall a, a = 0 \/ a = 1 -> prim_op p v a = v) -> w = v -> sres p (Some w) (AB xp n) (Ok (all_w n v)).
Proof.
  intros X D H ->. eexists. split; [reflexivity|]. split; [apply repeat_ok; auto|]. rewrite vals_bits. pose proof (bits01 (bits_of xp 0 n)) as B. unfold all_w. cbn [vals]. rewrite <- (len_bits xp 0 n), <- (map_length b2z). induction B as [|a l A B IH]; [reflexivity|]. cbn [length repeat scanl]. rewrite H by auto. rewrite IH. reflexivity.
Qed.
Theorem scan_c2_ok p w x : arr_ok x -> is_double w -> a_ia x < umax -> sres p (Some w) x (scan_c2 junk umax sq cv64 cv32 p w x).
Proof using U KS C64 C32.
  intros X D N. unfold scan_c2. pose proof (vals_len x X) as L. destruct (Z.eqb_spec (a_ia x) 0) as [Z0|NZ].
  { exists x. split; auto. split; auto. destruct (vals x) as [|a l]; cbn [length] in L; try reflexivity. lia. }
  pose proof (scan_base2_ok p w x X D) as BASE.
  assert (HR : p = PR -> sres p (Some w) x (Ok x)). { intros ->. exists x. split; auto. split; auto. rewrite scan_right. reflexivity. }
  assert (HL : p = PL -> sres p (Some w) x (Ok (all_w (a_ia x) w))). { intros ->. eexists. split; [reflexivity|]. split; [apply repeat_ok; auto|]. rewrite scan_left. unfold all_w. cbn [vals]. rewrite <- L. rewrite Nat2Z.id. reflexivity. }
  assert (D0 : is_double 0) by (exists 0, 0; cbn; lia). assert (D1 : is_double 1) by (exists 1, 0; cbn; lia).
  assert (A01 : forall v, v = 0 \/ v = 1 -> is_double v) by (intros v [->| ->]; auto).
  assert (WB : forall b, (w =? 0) || (w =? 1) = b -> b = true -> exists c, w = b2z c /\ (w =? 1) = c /\ (w =? 0) = negb c). { intros b E ->. destruct (Z.eqb_spec w 0) as [->|]; [exists false; auto|]. cbn [orb] in E. destruct (Z.eqb_spec w 1) as [->|]; [exists true; auto|discriminate]. }
  destruct (p) as [[]| | | | | | | |] eqn:EP; auto.
  - destruct x as [xp n|k l|l]; auto; [|apply scan_plus_ok; auto; discriminate]. cbn [a_ia] in *. destruct (negb (rnd (cv64 w) =? w) || (cv64 w <=? - 2 ^ 53) || (2 ^ 53 <=? cv64 w) || (2 ^ 53 <=? cv64 w + n)) eqn:C; auto.
    apply orb_false_iff in C. destruct C as [C C4]. apply orb_false_iff in C. destruct C as [C C3]. apply orb_false_iff in C. destruct C as [C1 C2]. assert (CW : cv64 w = w) by (rewrite rnd_exact in C1 by lia; lia). rewrite CW in *. apply plus_bits_w; auto; [|lia|lia]. destruct X. lia.
  - destruct x as [xp n|k l|l]; auto. cbn [a_ia]. destruct ((w =? 0) || (w =? 1)) eqn:B; auto. destruct (WB true eq_refl eq_refl) as (c & -> & E1 & E0). rewrite E1. destruct c; [apply bits_and; auto|]. apply const_bits; auto; intros a [->| ->]; reflexivity.
  - destruct x as [xp n|k l|l]; auto. cbn [a_ia]. destruct ((w =? 0) || (w =? 1)) eqn:B; auto. destruct (WB true eq_refl eq_refl) as (c & -> & E1 & E0). rewrite E1. destruct c; [apply bits_and; auto|]. apply const_bits; auto; intros a [->| ->]; reflexivity.
  - destruct x as [xp n|k l|l]; auto. cbn [a_ia]. destruct ((w =? 0) || (w =? 1)) eqn:B; auto. destruct (WB true eq_refl eq_refl) as (c & -> & E1 & E0). rewrite E0. destruct c; cbn [negb]; [|apply bits_or; auto]. apply const_bits; auto; intros a [->| ->]; reflexivity.
  - apply (scan2_mm_ok cv32 C32 false); auto.
  - apply (scan2_mm_ok cv32 C32 true); auto.
  - destruct x as [xp n|k l|l]; auto. cbn [a_ia]. destruct ((w =? 0) || (w =? 1)) eqn:B; auto. destruct (WB true eq_refl eq_refl) as (c & -> & E1 & E0). rewrite E1. apply bits_lt; auto.
  - destruct x as [xp n|k l|l]; auto; cbn [a_ia] in *.
    + assert (W := X). destruct W as [W NB]. fold (len xp) in NB. rewrite rdz_ok by lia. cbn [bind]. destruct ((w =? 0) || (w =? 1)) eqn:B.
      * destruct (WB true eq_refl eq_refl) as (c & -> & E1 & E0). assert (EQ : neg64 (b2z c) = if c then Z.ones 64 else 0) by (destruct c; reflexivity). rewrite EQ. apply bits_ne; auto.
      * assert (BT : Z.land 1 (not64 (word xp 0)) = b2z (negb (mbit xp 0))). { rewrite Z.land_comm. change 1 with (Z.ones 1) at 1. rewrite Z.land_ones by lia. change (2 ^ 1) with 2. rewrite Zmod_odd, <- Z.bit0_odd, tb_not64 by lia. change (0 <? 64) with true. change (mbit xp 0) with (Z.testbit (word xp 0) 0). destruct (Z.testbit (word xp 0) 0); reflexivity. }
        rewrite BT. assert (EQ : neg64 (b2z (negb (mbit xp 0))) = if negb (mbit xp 0) then Z.ones 64 else 0) by (destruct (mbit xp 0); reflexivity). rewrite EQ. destruct (bits_ne (negb (mbit xp 0)) xp n X) as (a & E & A & V). exists a. split; [exact E|]. split; auto. rewrite V. rewrite vals_bits. pose proof (nth_bits xp n 0) as F0. destruct (bits_of xp 0 n) as [|b l] eqn:EB; [reflexivity|]. pose proof (len_bits xp 0 n) as LB. rewrite EB in LB. cbn [length] in LB. cbn [nth Z.of_nat] in F0. rewrite <- F0 by lia. cbn [map scanl]. assert (F1 : prim_op PNe (b2z (negb b)) (b2z b) = 1) by (destruct b; reflexivity). assert (F2 : prim_op PNe w (b2z b) = 1) by (cbn [prim_op]; destruct (Z.eqb_spec w (b2z b)); [destruct b; cbn [b2z] in *; lia|reflexivity]). rewrite F1, F2. reflexivity.
    + destruct ((w =? 0) || (w =? 1)) eqn:B; auto. destruct (WB true eq_refl eq_refl) as (c & -> & E1 & E0). rewrite E1. destruct X as [K R]. apply (ne_ints_w junk k l c); auto.
Qed.
End S.
