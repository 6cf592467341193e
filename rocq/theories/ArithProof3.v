From Coq Require Import QArith Qabs Qround.
From Verif Require Import Base BitsModel BitsSpec BitsProof BitsProof2 SqueezeModel SqueezeProof SelectModel SelectProof SelectProof2 ArithModel ArithModel2 ArithSpec ArithProof ArithProof2 ArithGcd ArithDiv.
From Coq Require Import List Lia.
Open Scope Z_scope.

Lemma rnd_double_id z : is_double z -> rnd z = z.
Proof. intros D. destruct (rnd_nearest z) as [_ N]. specialize (N z D). rewrite Z.sub_diag in N. cbn in N. lia. Qed.
Lemma neg_double z : is_double z -> is_double (- z).
Proof. intros (m & e & E & M & ->). exists (- m), e. split; auto. split; [lia|ring]. Qed.
Definition result1 (f : Z -> Z) (x : list Z) (r : res arr) : Prop := exists a, r = Ok a /\ arr_ok a /\ vals a = map f x.
Section M.
Variable sq : arr -> arr.
Hypothesis KS : keeps_arr sq.
Lemma neg_ok x : arr_ok x -> result1 Z.opp (vals x) (neg_c1 sq x).
Proof using KS.
  intros X. assert (G : result1 Z.opp (vals x) (arith_SA sq OSub 0 x)).
  { destruct (SA_result sq OSub 0 x KS) as (r & E & O & V); [apply small_double; lia|auto|]. exists r. split; auto. split; auto. rewrite V, map2_repeat_l. pose proof (vals_double x X) as D. apply map_ext_in. intros a A. rewrite Forall_forall in D. cbn [dbl_op]. rewrite rnd_double_id; [lia|]. apply neg_double. auto. }
  destruct x as [wp n|k l|l]; exact G.
Qed.
Lemma abs_ok x : arr_ok x -> result1 Z.abs (vals x) (abs_c1 sq x).
Proof using KS.
  intros X. destruct x as [wp n|k l|l]; cbn [abs_c1].
  - eexists. split; [reflexivity|]. split; auto. cbn [vals]. rewrite map_map. apply map_ext. intros [|]; reflexivity.
  - destruct X as [K R]. fold (inr k l) in R. destruct (existsb (fun c => c =? - 2 ^ (k - 1)) l) eqn:E.
    + assert (D : Forall is_double (map Z.abs l)). { apply Forall_forall. intros z H. apply in_map_iff in H. destruct H as (c & <- & C). unfold inr in R. rewrite Forall_forall in R. specialize (R c C). apply small_double. change (2 ^ 53) with 9007199254740992. destruct (half k K) as [H | [H | H]]; rewrite H in R; lia. }
      destruct (KS (AF _) D) as [K1 K2]. eexists. split; [reflexivity|]. split; auto.
    + assert (A : map (fun c => if 0 <=? c then c else to_s k (- c)) l = map Z.abs l /\ inr k (map Z.abs l)).
      { assert (F : forall c, In c l -> - 2 ^ (k - 1) < c < 2 ^ (k - 1)).
        { intros c C. unfold inr in R. rewrite Forall_forall in R. specialize (R c C). destruct (Z.eq_dec c (- 2 ^ (k - 1))) as [Ec|]; [|lia]. assert (existsb (fun c => c =? - 2 ^ (k - 1)) l = true) as T by (apply existsb_exists; exists c; split; auto; lia). congruence. }
        split.
        - apply map_ext_in. intros c C. specialize (F c C). destruct (0 <=? c) eqn:Ec; [lia|]. rewrite to_s_id; [lia|destruct K as [-> | [-> | ->]]; lia|lia].
        - apply Forall_forall. intros z H. apply in_map_iff in H. destruct H as (c & <- & C). specialize (F c C). lia. }
      destruct A as [-> A]. eexists. split; [reflexivity|]. split; [split; auto|reflexivity].
  - eexists. split; [reflexivity|]. split; [|reflexivity]. cbn [arr_ok] in *. apply Forall_forall. intros z H. apply in_map_iff in H. destruct H as (c & <- & C). rewrite Forall_forall in X. specialize (X c C). destruct (Z.abs_spec c) as [[_ ->]|[_ ->]]; [auto|apply neg_double; auto].
Qed.
Lemma sign_ok x : arr_ok x -> result1 Z.sgn (vals x) (sign_c1 x).
Proof using.
  intros X. assert (G : forall l, result1 Z.sgn l (Ok (AI 8 (map (fun c => if 0 <? c then 1 else if c =? 0 then 0 else -1) l)))).
  { clear. intros l. assert (map (fun c => if 0 <? c then 1 else if c =? 0 then 0 else -1) l = map Z.sgn l) as ->. { apply map_ext. intros c. destruct (0 <? c) eqn:?, (c =? 0) eqn:?; lia. }
    eexists. split; [reflexivity|]. split; [|reflexivity]. split; auto. apply Forall_forall. intros z H. apply in_map_iff in H. destruct H as (c & <- & C). change (2 ^ (8 - 1)) with 128. lia. }
  destruct x as [wp n|k l|l]; cbn [sign_c1]; try apply G. eexists. split; [reflexivity|]. split; auto. cbn [vals]. rewrite map_map. apply map_ext. intros [|]; reflexivity.
Qed.
Lemma negate_words_ok xp : forall n i, 0 <= i -> i + Z.of_nat n <= len xp -> exists r, negate_words n xp i = Ok r /\ length r = n /\ (forall j, (j < n)%nat -> nth j r 0 = not64 (word xp (i + Z.of_nat j))).
Proof using.
  induction n as [|n IH]; intros i I X; cbn [negate_words]; [exists []; repeat split; auto; intros; lia|].
  rewrite !rdz_ok by lia. cbn [bind]. destruct (IH (i + 1)) as (r & -> & L & N); [lia|lia|]. cbn [bind]. eexists. split; [reflexivity|]. split; [cbn; lia|].
  intros [|j] J; cbn [nth]; [rewrite Z.add_0_r; reflexivity|]. rewrite N by lia. do 2 f_equal; lia.
Qed.
Lemma not_ok x : arr_ok x -> result1 (fun e => rnd (1 - e)) (vals x) (not_c1 sq x).
Proof using KS.
  intros X. unfold not_c1. set (y := match x with AB _ _ => x | _ => sq x end).
  assert (Y : arr_ok y /\ vals y = vals x) by (destruct x; [split; auto| |]; apply KS; auto). destruct Y as [Y <-]. clearbody y. clear X x.
  assert (G : result1 (fun e => rnd (1 - e)) (vals y) (arith_SA sq OSub 1 y)).
  { destruct (SA_result sq OSub 1 y KS) as (r & E & O & V); [apply small_double; lia|auto|]. exists r. split; auto. split; auto. rewrite V, map2_repeat_l. reflexivity. }
  destruct y as [wp n|k l|l]; auto. destruct Y as [W N]. fold (len wp) in N.
  assert (BN : 0 <= BIT_N n /\ BIT_N n <= len wp /\ n <= 64 * BIT_N n). { unfold BIT_N. rewrite Z.shiftr_div_pow2 by lia. change (2 ^ 6) with 64. lia. }
  destruct (negate_words_ok wp (Z.to_nat (BIT_N n)) 0) as (r & -> & L & R); [lia|lia|]. cbn [bind]. eexists. split; [reflexivity|].
  assert (LR : len r = BIT_N n) by (unfold len; lia). split.
  - split; [|fold (len r); lia]. unfold words. apply Forall_forall. intros z Iz. apply In_nth with (d := 0) in Iz. destruct Iz as (j & J & <-). rewrite R by lia. apply not64_range, word_range; auto.
  - cbn [vals]. unfold bits_of. rewrite !map_map. apply map_ext_in. intros i I. apply in_seq in I. rewrite !mbit_split. unfold word at 1. rewrite R by lia. rewrite !Z.add_0_l, Z2Nat.id by lia.
    rewrite tb_not64 by lia. replace (Z.of_nat i mod 64 <? 64) with true by lia. destruct (Z.testbit (word wp (Z.of_nat i / 64)) (Z.of_nat i mod 64)); reflexivity.
Qed.
Variables (r32 r64 : Q -> Q).
Hypothesis E32 : rel_err (1 # 16777216) r32.
Hypothesis E64 : rel_err (1 # 9007199254740992) r64.
Lemma fd32 xv e : xv <> 0 -> Z.abs xv <= 2147483648 -> Z.abs e <= 32768 -> fd_elem r32 xv e = e / xv.
Proof using E32.
  intros X XB EB. apply (fd_elem_ok (1 # 16777216)); auto; try lia; try (unfold Qle; cbn; lia).
  assert (inject_Z (Z.abs e) <= inject_Z 32768)%Q by (rewrite <- Zle_Qle; lia). change (inject_Z 32768) with (32768#1)%Q in *. Lqa.lra.
Qed.
Lemma fd64 xv e : xv <> 0 -> Z.abs xv <= 2147483648 -> Z.abs e <= 2147483648 -> fd_elem r64 xv e = e / xv.
Proof using E64.
  intros X XB EB. apply (fd_elem_ok (1 # 9007199254740992)); auto; try lia; try (unfold Qle; cbn; lia).
  assert (inject_Z (Z.abs e) <= inject_Z 2147483648)%Q by (rewrite <- Zle_Qle; lia). change (inject_Z 2147483648) with (2147483648#1)%Q in *. Lqa.lra.
Qed.
(** arrays of integers *)
Definition ints (x : arr) : Prop := match x with AF _ => False | _ => True end.
Lemma ints_range x : arr_ok x -> ints x -> forall e, In e (vals x) -> - 2147483648 <= e <= 2147483647.
Proof using.
  intros X I e H. destruct x as [wp n|k l|l]; [| |destruct I]; cbn [vals] in H.
  - apply in_map_iff in H. destruct H as (b & <- & _). destruct b; lia.
  - destruct X as [K R]. rewrite Forall_forall in R. specialize (R e H). destruct (half k K) as [E | [E | E]]; rewrite E in R; lia.
Qed.
Lemma div_bound e x : x <> 0 -> x <> 1 -> x <> -1 -> forall p, 1 <= p -> - p <= e < p -> - p <= e / x < p.
Proof using.
  intros X X1 X2 p P E. assert (D := Z.div_mod e x X). destruct (Z_lt_ge_dec x 0).
  - pose proof (Z.mod_neg_bound e x ltac:(lia)). nia.
  - pose proof (Z.mod_pos_bound e x ltac:(lia)). nia.
Qed.
Lemma floordiv_AS_ok x xv : arr_ok x -> ints x -> xv <> 0 -> - 2147483648 <= xv < 2147483648 -> result1 (fun e => e / xv) (vals x) (floordiv_AS sq r32 r64 x xv).
Proof using KS E32 E64.
  intros X I X0 XB. unfold floordiv_AS. destruct (Z.eqb_spec xv 1) as [->|X1].
  - eexists. split; [reflexivity|]. split; auto. rewrite (map_ext _ (fun e => e)) by apply Z.div_1_r. symmetry. apply map_id.
  - destruct (Z.eqb_spec xv (-1)) as [->|X2].
    + destruct (neg_ok x X) as (a & E & O & V). exists a. split; auto. split; auto. rewrite V. apply map_ext. intros e. replace (-1) with (- (1)) by lia. rewrite Z.div_opp_r_z by (try lia; apply Z.mod_1_r). rewrite Z.div_1_r. reflexivity.
    + assert (G : forall k l (rr : Q -> Q), k = 16 \/ k = 32 -> inr k l -> (forall e, In e l -> fd_elem rr xv e = e / xv) -> result1 (fun e => e / xv) l (Ok (AI k (map (fun e => to_s k (fd_elem rr xv e)) l)))).
      { intros k l rr K R F. assert (P : 1 <= 2 ^ (k - 1)) by (destruct K as [-> | ->]; [change (2 ^ (16 - 1)) with 32768|change (2 ^ (32 - 1)) with 2147483648]; lia).
        assert (B : forall e, In e l -> - 2 ^ (k - 1) <= e / xv < 2 ^ (k - 1)). { intros e He. apply div_bound; auto. unfold inr in R. rewrite Forall_forall in R. apply R; auto. }
        assert (map (fun e => to_s k (fd_elem rr xv e)) l = map (fun e => e / xv) l) as ->. { apply map_ext_in. intros e He. rewrite F by auto. apply to_s_id; [lia|]. apply B; auto. }
        eexists. split; [reflexivity|]. split; [|reflexivity]. split; [lia|]. apply Forall_forall. intros z H. apply in_map_iff in H. destruct H as (e & <- & He). apply B; auto. }
      destruct x as [wp n|k l|l]; [| |destruct I].
      * rewrite elems_ok by auto. cbn [bind]. apply G; auto; [apply bits_in; right; left; auto|]. intros e He. apply fd32; auto; [lia|]. cbn [vals] in He. apply in_map_iff in He. destruct He as (b & <- & _). destruct b; lia.
      * destruct X as [K R]. cbn [vals]. destruct (Z.leb_spec k 16).
        -- apply G; auto; [apply (inr_wider k); auto|]. intros e He. apply fd32; auto; [lia|]. rewrite Forall_forall in R. specialize (R e He). destruct K as [-> | [-> | ->]]; [change (2 ^ (8 - 1)) with 128 in R|change (2 ^ (16 - 1)) with 32768 in R|]; lia.
        -- assert (k = 32) as -> by (destruct K as [-> | [-> | ->]]; lia). apply G; auto. intros e He. apply fd64; auto; [lia|]. rewrite Forall_forall in R. specialize (R e He). change (2 ^ (32 - 1)) with 2147483648 in R. lia.
Qed.
Hypothesis I32 : int_exact (1 # 16777216) r32.
Hypothesis I64 : int_exact (1 # 9007199254740992) r64.
Lemma fdv32 x e : x <> 0 -> Z.abs x <= 2147483648 -> Z.abs e <= 32768 -> fdiv_elem r32 e x = e / x.
Proof using E32 I32.
  intros X XB EB. apply (fdiv_elem_ok (1 # 16777216)); auto; try lia; try (unfold Qle, Qlt; cbn; lia).
  all: assert (inject_Z (Z.abs e) <= inject_Z 32768)%Q by (rewrite <- Zle_Qle; lia); change (inject_Z 32768) with (32768#1)%Q in *; Lqa.lra.
Qed.
Lemma fdv64 x e : x <> 0 -> Z.abs x <= 2147483648 -> Z.abs e <= 2147483648 -> fdiv_elem r64 e x = e / x.
Proof using E64 I64.
  intros X XB EB. apply (fdiv_elem_ok (1 # 9007199254740992)); auto; try lia; try (unfold Qle, Qlt; cbn; lia).
  all: assert (inject_Z (Z.abs e) <= inject_Z 2147483648)%Q by (rewrite <- Zle_Qle; lia); change (inject_Z 2147483648) with (2147483648#1)%Q in *; Lqa.lra.
Qed.
Lemma fdiv_all_ok rr : forall w x, length w = length x -> (forall a b, In a w -> In b x -> fdiv_elem rr a b = a / b) -> fdiv_all rr w x = Ok (map2 Z.div w x).
Proof using. induction w as [|a w IH]; intros [|b x] L H; try discriminate; [reflexivity|]. cbn [fdiv_all length] in *. rewrite IH; [|lia|intros; apply H; right; auto]. cbn [bind]. rewrite H by (left; auto). reflexivity. Qed.
Lemma div_i32 a b : - 2147483648 <= a <= 2147483647 -> b <> 0 -> - 2147483648 <= a / b <= 2147483648.
Proof using.
  intros A B. destruct (Z.eq_dec b 1) as [->|]; [rewrite Z.div_1_r; lia|]. destruct (Z.eq_dec b (-1)) as [->|].
  - replace (-1) with (- (1)) by lia. rewrite Z.div_opp_r_z by (try lia; apply Z.mod_1_r). rewrite Z.div_1_r. lia.
  - pose proof (div_bound a b B n n0 2147483648). lia.
Qed.
Lemma map2_in {A B C} (f : A -> B -> C) l m z : In z (map2 f l m) -> exists a b, z = f a b /\ In a l /\ In b m.
Proof using. intros H. apply in_map_iff in H. destruct H as ([a b] & <- & I). exists a, b. split; auto. split; [eapply in_combine_l|eapply in_combine_r]; eauto. Qed.
Lemma floordiv_AA_ok w x : arr_ok w -> arr_ok x -> ints w -> ints x -> length (vals w) = length (vals x) -> (forall b, In b (vals x) -> b <> 0) ->
  exists a, floordiv_AA sq r32 r64 w x = Ok a /\ arr_ok a /\ vals a = map2 Z.div (vals w) (vals x).
Proof using KS E32 E64 I32 I64.
  intros W X Iw Ix L NZ. unfold floordiv_AA. rewrite !elems_ok by auto. cbn [bind].
  assert (RX := ints_range x X Ix). assert (RW := ints_range w W Iw).
  set (k := match w with AB _ _ => 1 | AI k _ => k | AF _ => 64 end).
  rewrite fdiv_all_ok; auto.
  - cbn [bind]. assert (D : Forall is_double (map2 Z.div (vals w) (vals x))).
    { apply Forall_forall. intros z H. apply map2_in in H. destruct H as (a & b & -> & Ha & Hb). apply small_double. pose proof (div_i32 a b (RW a Ha) (NZ b Hb)). change (2 ^ 53) with 9007199254740992. lia. }
    destruct (KS (AF _) D) as [K1 K2]. eexists. split; [reflexivity|]. auto.
  - intros a b Ha Hb. specialize (RX b Hb). specialize (RW a Ha). destruct (Z.leb_spec k 16).
    + apply fdv32; auto; [lia|]. destruct w as [wp n|k' l|l]; [| |destruct Iw]; cbn [vals] in Ha.
      * apply in_map_iff in Ha. destruct Ha as (c & <- & _). destruct c; lia.
      * subst k. destruct W as [K R]. rewrite Forall_forall in R. specialize (R a Ha). destruct K as [-> | [-> | ->]]; [change (2 ^ (8 - 1)) with 128 in R|change (2 ^ (16 - 1)) with 32768 in R|]; lia.
    + apply fdv64; auto; lia.
Qed.
Lemma map2_map_r {A B C D} (f : A -> B -> C) (g : D -> B) l m : map2 f l (map g m) = map2 (fun a d => f a (g d)) l m.
Proof using. revert m. induction l as [|a l IH]; intros [|d m]; try reflexivity. cbn [map]. rewrite !map2_cons, IH. reflexivity. Qed.
Lemma map2_diag {A C} (f : A -> A -> C) l : map2 f l l = map (fun a => f a a) l.
Proof using. induction l as [|a l IH]; [reflexivity|]. rewrite map2_cons, IH. reflexivity. Qed.
Lemma mod_bound e m : m <> 0 -> Z.abs (e mod m) <= Z.abs m.
Proof using. intros M. destruct (Z_lt_ge_dec m 0); [pose proof (Z.mod_neg_bound e m ltac:(lia))|pose proof (Z.mod_pos_bound e m ltac:(lia))]; lia. Qed.
Lemma mod_elem e m : m <> 0 -> - 2147483648 <= m <= 2147483647 -> - 2147483648 <= e <= 2147483647 -> dbl_op OSub e (dbl_op OMul m (e / m)) = e mod m.
Proof using.
  intros M0 M E. pose proof (Z.div_mod e m M0) as D. pose proof (mod_bound e m M0) as B. cbn [dbl_op]. change (2 ^ 53) with 9007199254740992 in *. rewrite (rnd_exact (m * (e / m))) by (change (2 ^ 53) with 9007199254740992; lia). rewrite rnd_exact by (change (2 ^ 53) with 9007199254740992; lia). lia.
Qed.
Lemma modint_SA_ok wv x : arr_ok x -> ints x -> wv <> 0 -> - 2147483648 <= wv < 2147483648 -> result1 (fun e => e mod wv) (vals x) (modint_SA sq r32 r64 wv x).
Proof using KS E32 E64.
  intros X I W0 WB. unfold modint_SA. destruct (floordiv_AS_ok x wv X I W0 WB) as (q & -> & Oq & Vq). cbn [bind].
  destruct (SA_result sq OMul wv q KS) as (p & -> & Op & Vp); [apply small_double; change (2 ^ 53) with 9007199254740992; lia|auto|]. cbn [bind]. rewrite Vq, map_length in Vp.
  assert (LL : length (vals p) = length (vals x)). { rewrite Vp. unfold map2. rewrite map_length, combine_length, repeat_length, map_length. lia. }
  destruct (AA_result sq OSub x p KS X Op) as (r & -> & Or & Vr); [rewrite <- !vals_len by auto; lia|]. cbn [bind]. eexists. split; [reflexivity|]. destruct (KS r Or) as [K1 K2]. split; auto. rewrite K2, Vr, Vp.
  rewrite <- (map_length (fun e => e / wv)), map2_repeat_l, map_map, map2_map_r, map2_diag. apply map_ext_in. intros e He. apply mod_elem; auto; [lia|]. apply (ints_range x); auto.
Qed.
Lemma modint_AA_ok w x : arr_ok w -> arr_ok x -> ints w -> ints x -> length (vals w) = length (vals x) -> (forall b, In b (vals w) -> b <> 0) ->
  exists a, modint_AA sq r32 r64 w x = Ok a /\ arr_ok a /\ vals a = map2 (fun m e => e mod m) (vals w) (vals x).
Proof using KS E32 E64 I32 I64.
  intros W X Iw Ix L NZ. unfold modint_AA. destruct (floordiv_AA_ok x w X W Ix Iw (eq_sym L) NZ) as (q & -> & Oq & Vq). cbn [bind].
  assert (Lq : length (vals q) = length (vals w)) by (rewrite Vq; unfold map2; rewrite map_length, combine_length; lia).
  destruct (AA_result sq OMul w q KS W Oq) as (p & -> & Op & Vp); [rewrite <- !vals_len by auto; lia|]. cbn [bind].
  assert (Lp : length (vals p) = length (vals x)) by (rewrite Vp; unfold map2; rewrite map_length, combine_length; lia).
  destruct (AA_result sq OSub x p KS X Op) as (r & -> & Or & Vr); [rewrite <- !vals_len by auto; lia|]. cbn [bind]. eexists. split; [reflexivity|]. destruct (KS r Or) as [K1 K2]. split; auto. rewrite K2, Vr, Vp, Vq.
  assert (RX := ints_range x X Ix). assert (RW := ints_range w W Iw). clear - L NZ RX RW. revert L NZ RX RW. generalize (vals x) as l. generalize (vals w) as m. induction m as [|b m IH]; intros [|e l] L NZ RX RW; try discriminate; [reflexivity|].
  rewrite !map2_cons. f_equal; [apply mod_elem; [apply NZ|apply RW|apply RX]; left; auto|]. cbn [length] in L. apply IH; [lia|intros; apply NZ; right; auto|intros; apply RX; right; auto|intros; apply RW; right; auto].
Qed.
Lemma pow2_land m : 0 < m -> Z.land m (m - 1) = 0 -> m = 2 ^ Z.log2 m.
Proof using.
  intros M Z. destruct (Z.log2_spec m M) as [L U]. destruct (Z.eq_dec m (2 ^ Z.log2 m)) as [|N]; auto. exfalso.
  assert (L0 : 0 <= Z.log2 m) by apply Z.log2_nonneg.
  assert (T1 : Z.testbit m (Z.log2 m) = true) by (apply Z.bit_log2; lia). assert (T2 : Z.testbit (m - 1) (Z.log2 m) = true).
  { assert (E : Z.log2 (m - 1) = Z.log2 m) by (apply Z.log2_unique; lia). rewrite <- E. apply Z.bit_log2. assert (0 < 2 ^ Z.log2 m) by (apply Z.pow_pos_nonneg; lia). lia. }
  assert (T : Z.testbit (Z.land m (m - 1)) (Z.log2 m) = true) by (rewrite Z.land_spec, T1, T2; reflexivity). rewrite Z, Z.testbit_0_l in T. discriminate.
Qed.
Lemma stile_SA_ok wv x : arr_ok x -> ints x -> wv <> 0 -> - 2147483648 <= wv < 2147483648 -> result1 (fun e => e mod wv) (vals x) (stile_SA sq r32 r64 wv x).
Proof using KS E32 E64.
  intros X I W0 WB. unfold stile_SA. destruct ((0 <? wv) && (Z.land wv (wv - 1) =? 0)) eqn:P; [|apply modint_SA_ok; auto].
  apply andb_true_iff in P. destruct P as [P1 P2]. apply Z.ltb_lt in P1. apply Z.eqb_eq in P2. apply pow2_land in P2; auto.
  destruct (Z.eqb_spec wv 1) as [->|W1].
  - eexists. split; [reflexivity|]. split; [split; auto; apply repeat_all; change (2 ^ (8 - 1)) with 128; lia|]. cbn [vals]. rewrite <- vals_len, Nat2Z.id by auto. generalize (vals x). intros l. induction l as [|a l IH]; [reflexivity|]. cbn [length repeat map]. rewrite Z.mod_1_r, IH. reflexivity.
  - assert (J : 0 <= Z.log2 wv < 31). { split; [apply Z.log2_nonneg|]. apply Z.log2_lt_pow2; [lia|]. change (2 ^ 31) with 2147483648. lia. }
    destruct x as [wp n|k l|l]; [| |destruct I].
    + eexists. split; [reflexivity|]. split; auto. cbn [vals]. rewrite map_map. apply map_ext. intros [|]; [rewrite Z.mod_1_l by lia|rewrite Z.mod_0_l by lia]; reflexivity.
    + destruct X as [K R]. rewrite P2. apply stile_ok; auto.
Qed.
End M.
