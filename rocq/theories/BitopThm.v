(** Theorems about •bit: casts (C36), the bit operations (C43). *)
From Coq Require Znumtheory.
From Verif Require Import Base BitLemmas BitsModel BitsSpec BitsProof SqueezeModel WidenModel WidenProof BitopModel BitopSpec BitopProof BitopProof2 BitopProof3 BitopProof4.

(** ** casts *)
Lemma cast_width_ok e : (exists s, cast_width e = Ok s /\ castable e s) \/ cast_width e = Err /\ forall s, ~ castable e s.
Proof.
  destruct e as [s|s t]; cbn [cast_width castable]; unfold width.
  - destruct (Z.eqb_spec s 1), (Z.eqb_spec s 8), (Z.eqb_spec s 16), (Z.eqb_spec s 32), (Z.eqb_spec s 64); cbn [orb]; try (left; exists s; split; [reflexivity|lia]). right. split; [reflexivity|]. intros s' [-> H]. lia.
  - destruct (Z.eqb_spec t 99), (Z.eqb_spec t 105), (Z.eqb_spec t 117), (Z.eqb_spec t 102); cbn [orb]; try lia;
      destruct (Z.eqb_spec s 1), (Z.eqb_spec s 8), (Z.eqb_spec s 16), (Z.eqb_spec s 32), (Z.eqb_spec s 64); cbn [orb]; try lia;
      try (left; exists s; split; [reflexivity|lia]); right; (split; [reflexivity|]); intros s' [-> H]; lia.
Qed.
Lemma castable_fun e a b : castable e a -> castable e b -> a = b.
Proof. destruct e; cbn [castable]; intros [-> _] [-> _]; reflexivity. Qed.
Lemma cast_width_is e s : castable e s -> cast_width e = Ok s.
Proof. intros H. destruct (cast_width_ok e) as [[s' [E H']]|[_ N]]; [|destruct (N s H)]. rewrite (castable_fun e s s' H H'). exact E. Qed.
Lemma castable_width e s : castable e s -> width s.
Proof. destruct e; cbn [castable]; unfold width; intros [_ H]; lia. Qed.
Lemma data_width_is s : width s -> data_width s = Ok tt.
Proof. intros H. destruct (data_width_ok s) as [[E _]|[_ N]]; [exact E|contradiction]. Qed.
Lemma width_pos s : width s -> 0 < s. Proof. unfold width. lia. Qed.
Lemma cast_run e0 e1 xs rs x : castable e0 xs -> castable e1 rs -> b_sh x <> [] -> (rs | last (b_sh x) 0 * xs) -> last (b_sh x) 0 * xs / rs < 2^32 - 1 ->
  bitcast_impl e0 e1 x = Ok (set_bit_result (b_mem x) (b_sh x) (last (b_sh x) 0 * xs / rs)).
Proof.
  intros C0 C1 Nn D L. unfold bitcast_impl. pose proof (width_pos _ (castable_width _ _ C1)) as Hr.
  destruct (Z.ltb_spec (Z.of_nat (length (b_sh x))) 1) as [Z0|_]; [destruct (b_sh x); [congruence|cbn [length] in Z0; lia]|].
  rewrite (cast_width_is _ _ C0), (cast_width_is _ _ C1). cbn [bind]. rewrite (Z.mul_comm xs).
  destruct D as [q Eq]. rewrite Eq in *. rewrite Z.div_mul in * by lia. rewrite Z.eqb_refl. cbn [negb].
  destruct (Z.leb_spec (2^32-1) q); [lia|]. rewrite (data_width_is _ (castable_width _ _ C0)), (data_width_is _ (castable_width _ _ C1)). reflexivity.
Qed.

(** a cast keeps all bits of the data, gives the last axis the length for the new width, and both the inverse of the modifier and the opposite cast give back
    the argument; as long as the result has fewer than 2^32 elements *)
Theorem C36_cast : forall e0 e1 xs rs x, castable e0 xs -> castable e1 rs -> wf xs x -> b_sh x <> [] -> (rs | last (b_sh x) 0 * xs) ->
  last (b_sh x) 0 * xs / rs < 2^32 - 1 -> last (b_sh x) 0 < 2^32 - 1 -> size (reshaped (b_sh x) xs rs) < 2^32 ->
  exists r, bitcast_c1 [e0; e1] x = Ok r /\ wf rs r /\ b_sh r = reshaped (b_sh x) xs rs /\ total rs r = total xs x /\
    (forall p, 0 <= p < total xs x -> bitat (b_mem r) p = bitat (b_mem x) p) /\
    bitcast_im [e0; e1] r = Ok x /\ bitcast_c1 [e1; e0] r = Ok x.
Proof.
  intros e0 e1 xs rs x C0 C1 Hwf Nn D L Lx Hs. cbn [bitcast_c1 bitcast_im]. rewrite (cast_run e0 e1 xs rs x) by auto.
  pose proof (width_pos _ (castable_width _ _ C1)) as Hr. pose proof (width_pos _ (castable_width _ _ C0)) as Hx.
  destruct (wf_size _ _ Hwf) as [S0 [S1 [Wm [Sm Fs]]]]. pose proof (last_in _ Fs Nn) as Hl.
  destruct D as [q Eq]. assert (Hq : last (b_sh x) 0 * xs / rs = q) by (rewrite Eq; apply Z.div_mul; lia). unfold reshaped in *. rewrite Hq in *. assert (Hq0 : 0 <= q) by nia.
  destruct (set_bit_result_ok (b_mem x) (b_sh x) q Nn) as [A [B C]]; [lia|]. set (r := set_bit_result (b_mem x) (b_sh x) q) in *.
  assert (Fr : Forall (fun e => 0 <= e < 2^32) (removelast (b_sh x))). { rewrite (app_removelast_last 0 Nn) in Fs. apply Forall_app in Fs. tauto. }
  pose proof (size_nonneg _ Fr) as Hp. assert (E : size (b_sh r) = size (removelast (b_sh x)) * q). { rewrite A, size_app. unfold size at 2. cbn [fold_right]. lia. }
  rewrite A in E. rewrite E in Hs. rewrite Z.mod_small in C by nia.
  assert (ET : size (removelast (b_sh x)) * q * rs = size (b_sh x) * xs) by (rewrite (size_split _ Nn), <- !Z.mul_assoc, Eq; reflexivity).
  exists r. split; [reflexivity|]. split; [|split; [exact A|split; [|split; [intros; rewrite B; reflexivity|]]]].
  - unfold wf, total. rewrite A, B, C, E. split; [apply Forall_app; split; [exact Fr|constructor; [lia|constructor]]|]. split; [reflexivity|]. split; [exact Hs|]. split; [exact Wm|]. unfold len in *. lia.
  - unfold total. rewrite A, E. exact ET.
  - assert (BACK : bitcast_impl e1 e0 r = Ok x); [|auto]. assert (Nr : b_sh r <> []) by (rewrite A; destruct (removelast (b_sh x)); discriminate).
    assert (EL : last (b_sh r) 0 = q) by (rewrite A; apply last_last). assert (EQ : q * rs / xs = last (b_sh x) 0) by (rewrite <- Eq; apply Z.div_mul; lia).
    rewrite (cast_run e1 e0 rs xs r); auto; rewrite EL; rewrite ?EQ; [|exists (last (b_sh x) 0); lia|exact Lx]. f_equal.
    destruct (set_bit_result_ok (b_mem r) (b_sh r) (last (b_sh x) 0) Nr) as [A' [B' C']]; [lia|]. generalize dependent (set_bit_result (b_mem r) (b_sh r) (last (b_sh x) 0)). intros [sh' ia' m'] A' B' C'. rewrite A in A', C'. rewrite removelast_last in A', C'. cbn [b_sh b_ia b_mem] in *. rewrite A', B', C', B. rewrite <- (app_removelast_last 0 Nn). rewrite <- (size_split _ Nn), Z.mod_small by lia. rewrite <- S1. destruct x; reflexivity.
Qed.
Print Assumptions C36_cast.
(** and anything else is an error *)
Theorem C36_cast_errors : forall f x,
  (forall e0 e1 xs rs, f = [e0; e1] -> castable e0 xs -> castable e1 rs -> b_sh x <> [] -> (rs | last (b_sh x) 0 * xs) -> last (b_sh x) 0 * xs / rs < 2^32 - 1 -> False) ->
  bitcast_c1 f x = Err.
Proof.
  intros [|e0 [|e1 [|e2 f]]] x H; try reflexivity. cbn [bitcast_c1]. unfold bitcast_impl.
  destruct (Z.ltb_spec (Z.of_nat (length (b_sh x))) 1) as [Z0|Z1]; [reflexivity|]. assert (Nn : b_sh x <> []) by (intros E; rewrite E in Z1; cbn [length] in Z1; lia).
  destruct (cast_width_ok e0) as [[xs [-> C0]]|[-> _]]; [|reflexivity]. destruct (cast_width_ok e1) as [[rs [-> C1]]|[-> _]]; [|reflexivity]. cbn [bind]. rewrite (Z.mul_comm xs).
  pose proof (width_pos _ (castable_width _ _ C1)) as Hr.
  destruct (Z.eqb_spec (last (b_sh x) 0 * xs / rs * rs) (last (b_sh x) 0 * xs)) as [E|]; [|reflexivity]. cbn [negb]. destruct (Z.leb_spec (2^32-1) (last (b_sh x) 0 * xs / rs)); [reflexivity|].
  exfalso. eapply H; eauto. exists (last (b_sh x) 0 * xs / rs). lia.
Qed.
Print Assumptions C36_cast_errors.

Lemma nat_of z : 0 <= z -> exists n, Z.of_nat n = z.
Proof. intros H. exists (Z.to_nat z). lia. Qed.
Lemma words_zeros n : words (repeat 0 n).
Proof. apply Forall_forall. intros a Ha. apply repeat_spec in Ha. subst a. lia. Qed.
(** a result of 2^32 elements is not refused: its count becomes 0 although its shape says 1048576‿4096 *)
Theorem C36_cast_size_refuted : exists x, wf 8 x /\ exists r, bitcast_c1 [CNum 8; CNum 1] x = Ok r /\ b_sh r = [2^20; 2^12] /\ b_ia r = 0 /\ size (b_sh r) = 2^32.
Proof.
  destruct (nat_of (2^26)) as [n N]; [lia|]. exists (mkB [2^20; 2^9] (2^29) (repeat 0 n)). split.
  - unfold wf, total. cbn [b_sh b_ia b_mem]. rewrite repeat_length, N. split; [repeat constructor; lia|]. split; [reflexivity|]. split; [lia|]. split; [apply words_zeros|]. vm_compute. congruence.
  - eexists. split; [reflexivity|]. split; [reflexivity|]. split; reflexivity.
Qed.
Print Assumptions C36_cast_size_refuted.
Example C36_cast_ex : let x := mkB [2; 4] 8 [0x1122334455667788] in
  wf 8 x /\ bitcast_c1 [CNum 8; CTyped 32 99] x = Ok (mkB [2; 1] 2 [0x1122334455667788]) /\ field 32 (b_mem x) 1 = 0x11223344 /\ bitcast_c1 [CNum 8; CNum 64] x = Err.
Proof. split; [|vm_compute; auto]. unfold wf. cbn [b_sh b_ia b_mem]. repeat split; try lia; try (repeat constructor; lia). vm_compute. congruence. Qed.

(** ** operations *)
(** an operand that isn't 1 to 3 (4) powers of two is an error *)
Theorem C43_operand : forall f, Forall (fun s => 0 <= s < 2^32) f ->
  ((forall t, ~ given 3 f t) -> forall op reuse junk x, bitop1 op f reuse junk x = Err) /\
  ((forall t, ~ given 4 f t) -> forall op junk w x, bitop2 op f junk w x = Err).
Proof.
  intros f F. split; intros N; intros.
  - unfold bitop1. destruct (widths_ok 3 f F) as [[t [_ G]]|[-> _]]; [destruct (N t G)|reflexivity].
  - unfold bitop2. destruct (widths_ok 4 f F) as [[t [_ G]]|[-> _]]; [destruct (N t G)|reflexivity].
Qed.
Print Assumptions C43_operand.

(** _not flips every bit, _neg negates every group of the operation width, whether the argument is overwritten or not, and whatever the new memory held;
    everything that does not fit is an error. For fewer than 2^32 bits of data *)
Theorem C43_unary_partial : forall op f ow rw xw reuse junk x, given 3 f [ow; rw; xw] -> wf xw x -> total xw x < 2^32 ->
  (fitting ow rw xw (b_sh x) -> (op = Neg_ -> lanew ow) ->
    exists r, bitop1 op f reuse junk x = Ok r /\ sound rw r /\ b_sh r = reshaped (b_sh x) xw rw /\ unary op ow (total xw x) (b_mem x) (b_mem r)) /\
  (~ (fitting ow rw xw (b_sh x) /\ (op = Neg_ -> lanew ow)) -> bitop1 op f reuse junk x = Err).
Proof. exact bitop1_ok. Qed.
Print Assumptions C43_unary_partial.

(** _and, _or, _xor combine the bits, _add, _sub and _mul the groups of the operation width; a single group is combined with every one of the other argument.
    For fewer than 2^32 bits of data, and for _mul of 32- or 64-bit groups when the signed products don't overflow *)
Theorem C43_binary_partial : forall op f ow rw xw ww junk w x m, given 4 f [ow; rw; xw; ww] -> wf ww w -> wf xw x -> moded m ow ww xw (b_sh w) (b_sh x) ->
  let y := base m w x in let yw := base m ww xw in total yw y < 2^32 ->
  (fitting ow rw yw (b_sh y) -> width (other m ww xw) -> opw op m ow -> products_fit op m ow (total yw y) (b_mem w) (b_mem x) ->
   exists r, bitop2 op f junk w x = Ok r /\ sound rw r /\ b_sh r = reshaped (b_sh y) yw rw /\ combined op m ow (total yw y) (b_mem w) (b_mem x) (b_mem r)) /\
  (~ (fitting ow rw yw (b_sh y) /\ width (other m ww xw) /\ opw op m ow) -> bitop2 op f junk w x = Err).
Proof. exact bitop2_ok. Qed.
Print Assumptions C43_binary_partial.
(** arguments that neither match nor extend are an error *)
Theorem C43_binary_shapes : forall op f ow rw xw ww junk w x, given 4 f [ow; rw; xw; ww] -> (forall m, ~ moded m ow ww xw (b_sh w) (b_sh x)) -> bitop2 op f junk w x = Err.
Proof. exact bitop2_err. Qed.
Print Assumptions C43_binary_shapes.

(** 2^32 bits of data: the number of bits is computed as 0. A new result has no memory for its elements; an argument overwritten in place is returned unchanged *)
Theorem C43_size_refuted : exists x, wf 8 x /\ given 3 [8] [8; 8; 8] /\ fitting 8 8 8 (b_sh x) /\ forall junk,
  (exists r, bitop1 Not_ [8] false junk x = Ok r /\ b_ia r = 2^29 /\ b_mem r = [] /\ ~ sound 8 r) /\
  (exists r, bitop1 Not_ [8] true junk x = Ok r /\ b_mem r = b_mem x) /\
  (exists r, bitop2 Add_ [8] junk x x = Ok r /\ b_ia r = 2^29 /\ b_mem r = [] /\ ~ sound 8 r).
Proof.
  destruct (nat_of (2^26)) as [n N]; [lia|]. exists (mkB [2^29] (2^29) (repeat 0 n)). split; [|split; [|split]].
  - unfold wf, total. cbn [b_sh b_ia b_mem]. rewrite repeat_length, N. split; [repeat constructor; lia|]. split; [reflexivity|]. split; [lia|]. split; [apply words_zeros|]. vm_compute. congruence.
  - split; [cbn [length]; lia|]. split; [constructor; [exists 3; split; [lia|reflexivity]|constructor]|]. split; [reflexivity|]. intros [|[|[|i]]] Hi; try reflexivity. lia.
  - unfold fitting, width. cbn [b_sh last]. repeat split; try lia; try discriminate; try (exists (2^29); lia); vm_compute; congruence.
  - intros junk. split; [|split].
    + eexists. split; [reflexivity|]. split; [reflexivity|]. split; [reflexivity|]. intros [_ H]. vm_compute in H. apply H. reflexivity.
    + eexists. split; [reflexivity|]. reflexivity.
    + eexists. split; [reflexivity|]. split; [reflexivity|]. split; [reflexivity|]. intros [_ H]. vm_compute in H. apply H. reflexivity.
Qed.
Print Assumptions C43_size_refuted.
(** 32 •bit._mul of 65536 and 65536: the signed product overflows, which C leaves undefined *)
Theorem C43_mul_refuted : exists w x, wf 32 w /\ wf 32 x /\ given 4 [32] [32; 32; 32; 32] /\ moded Each 32 32 32 (b_sh w) (b_sh x) /\ fitting 32 32 32 (b_sh x) /\
  forall junk, bitop2 Mul_ [32] junk w x = UB.
Proof.
  exists (mkB [1] 1 [65536]), (mkB [1] 1 [65536]). assert (W : wf 32 (mkB [1] 1 [65536])).
  { unfold wf. cbn [b_sh b_ia b_mem]. repeat split; try lia; try (repeat constructor; lia). vm_compute. congruence. }
  split; [exact W|]. split; [exact W|]. split; [|split; [|split]].
  - split; [cbn [length]; lia|]. split; [constructor; [exists 5; split; [lia|reflexivity]|constructor]|]. split; [reflexivity|]. intros [|[|[|[|i]]]] Hi; try reflexivity. lia.
  - split; [split; reflexivity|]. split; [discriminate|reflexivity].
  - unfold fitting, width. cbn [b_sh last]. repeat split; try lia; try discriminate; try (exists 1; lia); vm_compute; congruence.
  - intros junk. reflexivity.
Qed.
Print Assumptions C43_mul_refuted.

Example C43_ex_not : bitop1 Not_ [1; 8; 8] false (fun _ => 0xAB00000000) (mkB [3] 3 [0x030201]) = Ok (mkB [3] 3 [0xAB00FCFDFE]).
Proof. reflexivity. Qed.
Example C43_ex_neg : bitop1 Neg_ [8; 16; 8] false (fun _ => 0) (mkB [2; 4] 8 [0x0102030405060708]) = Ok (mkB [2; 2] 4 [0xFFFEFDFCFBFAF9F8]).
Proof. reflexivity. Qed.
Example C43_ex_add : bitop2 Add_ [8] (fun _ => 0) (mkB [2] 2 [0x80FF]) (mkB [2] 2 [0x8002]) = Ok (mkB [2] 2 [0x0001]).
Proof. reflexivity. Qed.
Example C43_ex_sub : bitop2 Sub_ [8] (fun _ => 0) (mkB [3] 3 [0x050001]) (mkB [] 1 [2]) = Ok (mkB [3] 3 [0x03FEFF]).
Proof. reflexivity. Qed.
Example C43_ex_xor : bitop2 Xor_ [4; 8; 8; 1] (fun _ => 0) (mkB [4] 4 [0x5]) (mkB [2] 2 [0xF0A5]) = Ok (mkB [2] 2 [0xA5F0]).
Proof. reflexivity. Qed.
Example C43_ex_mul : bitop2 Mul_ [16] (fun _ => 0) (mkB [] 1 [0xFFFF]) (mkB [2] 2 [0x00030100]) = Ok (mkB [2] 2 [0xFFFDFF00]).
Proof. reflexivity. Qed.
