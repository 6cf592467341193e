(** The byte-counting method for sparse bits. *)
From Verif Require Import Base ListLib BitsModel BitsSpec BitsProof BitsProof2 SqueezeModel SqueezeProof WidenModel SearchModel SlashModel SlashProof.
From Coq Require Import List.

Lemma POPC_cnt x : POPC x = cnt (Z.testbit x) 0 64.
Proof.
  rewrite POPC_spec. unfold cnt, ons, zseq. generalize (seq 0 64). intros l. induction l as [|i l IH]; auto. cbn [map filter count_true]. rewrite Z.add_0_l. destruct (Z.testbit x (Z.of_nat i)); cbn [length]; rewrite IH; lia.
Qed.
Lemma ons_high v n m : 0 <= v < 2 ^ n -> 0 <= n -> n <= Z.of_nat m -> ons (Z.testbit v) 0 m = ons (Z.testbit v) 0 (Z.to_nat n).
Proof. intros V N M. apply cut; [lia|]. intros k Hk. apply (range_bits v n k); lia. Qed.
Lemma POPC_24 p : 0 <= p < 2 ^ 24 -> POPC p = cnt (Z.testbit p) 0 24.
Proof. intros H. rewrite POPC_cnt. unfold cnt. rewrite (ons_high p 24 64) by lia. reflexivity. Qed.
Definition popc (p : Z) : nat := Z.to_nat (POPC p).
Lemma popc_nonneg p : 0 <= POPC p. Proof. rewrite POPC_cnt. apply cnt_nonneg. Qed.
Lemma popc_pos p : 0 <= p < 2 ^ 24 -> p <> 0 -> exists n, popc p = S n /\ popc (Z.land p (p - 1)) = n.
Proof.
  intros P N. destruct (lowest 24 p ltac:(lia) P N) as (c&_&_&E&R). exists (popc (Z.land p (p - 1))). split; auto. unfold popc. rewrite !POPC_24 by auto. unfold cnt. change 24%nat with (Z.to_nat 24). rewrite E. cbn [length]. lia.
Qed.
Lemma popc_len p : 0 <= p < 2 ^ 24 -> length (ons (Z.testbit p) 0 24) = popc p.
Proof. intros P. unfold popc. rewrite POPC_24 by exact P. unfold cnt. rewrite Nat2Z.id. reflexivity. Qed.
Lemma popc_Z p n : popc p = n -> POPC p = Z.of_nat n.
Proof. intros <-. unfold popc. rewrite Z2Nat.id; [reflexivity|apply popc_nonneg]. Qed.
Lemma ons_z : ons (Z.testbit 0) 0 24 = []. Proof. reflexivity. Qed.
Lemma popc_0 : popc 0 = 0%nat. Proof. unfold popc. rewrite POPC_24 by lia. unfold cnt. rewrite ons_z. auto. Qed.
Lemma count_cnt src p n : count_true (bits_of src p n) = cnt (fun i => mbit src (64 * p + i)) 0 (Z.to_nat n).
Proof.
  unfold cnt, ons, zseq, bits_of. generalize (seq 0 (Z.to_nat n)). intros l. induction l as [|k l IH]; auto. cbn [map filter count_true]. rewrite Z.add_0_l. destruct (mbit src (64 * p + Z.of_nat k)); cbn [length]; rewrite IH; lia.
Qed.
Global Opaque POPC popc ons.

(** chunks: how many bytes they start after the one before, and their bits *)
Notation chunk := (Z * Z)%type.
Fixpoint evs (cs : list chunk) (a : Z) : list Z :=
  match cs with [] => [] | (b, p) :: cs => if p =? 0 then evs cs (a + b) else ((a + b) * 2 ^ 24 + p) :: repeat 0 (popc p - 1) ++ evs cs 0 end.
Fixpoint outs_of (cs : list chunk) (t : Z) : list Z :=
  match cs with [] => [] | (b, p) :: cs => map (fun k => 8 * (t + b) + k) (ons (Z.testbit p) 0 24) ++ outs_of cs (t + b) end.
Definition asum (cs : list chunk) : Z := fold_right (fun c s => fst c + s) 0 cs.
Definition cok (c : chunk) : Prop := 0 < fst c /\ 0 <= snd c < 2 ^ 24.
Lemma asum_nonneg cs : Forall cok cs -> 0 <= asum cs. Proof. induction 1 as [|c cs (C&_) F IH]; cbn [asum fold_right]; [lia|]. fold (asum cs). lia. Qed.
Lemma evs_len cs : forall a t, Forall cok cs -> length (evs cs a) = length (outs_of cs t).
Proof.
  induction cs as [|(b, p) cs IH]; intros a t F; auto. inversion F as [|? ? (_&P) F']; subst. cbn [evs outs_of snd] in *. rewrite app_length, map_length.
  destruct (Z.eqb_spec p 0) as [->|N]. - rewrite (IH (a + b) (t + b) F'). rewrite ons_z. auto.
  - cbn [length]. rewrite app_length, repeat_length, (IH 0 (t + b) F'). destruct (popc_pos p P N) as (n&E&_). assert (E2 : length (ons (Z.testbit p) 0 24) = popc p) by (apply popc_len; exact P). lia.
Qed.

Lemma lor_add a p n : 0 <= n -> 0 <= p < 2 ^ n -> Z.lor (a * 2 ^ n) p = a * 2 ^ n + p.
Proof.
  intros N P. rewrite <- Z.lxor_lor, <- Z.add_nocarry_lxor; auto.
  all: apply Z.bits_inj'; intros k Hk; rewrite Z.land_spec, Z.bits_0; destruct (Z.lt_ge_cases k n); [rewrite Z.mul_pow2_bits_low by lia; auto|rewrite (range_bits p n k) by lia; apply andb_false_r].
Qed.

(** filling *)
Section Fill.
Context (b : Z).
Fixpoint fillM (cs : list chunk) (st : list Z * Z) : res (list Z * Z) := match cs with [] => Ok st | (a, p) :: cs => do st <- bsp_add a p b st; fillM cs st end.
Lemma fillM_ok cs : forall a buf j, Forall cok cs -> 0 <= a -> a + asum cs <= 255 -> 0 <= b -> 0 <= j -> let n := Z.of_nat (length (evs cs a)) in b + j + n < len buf ->
  (0 < n -> word buf (b + j) = a * 2 ^ 24) -> (forall i, 1 <= i < n -> word buf (b + j + i) = 0) ->
  exists buf', fillM cs (buf, j) = Ok (buf', j + n) /\ length buf' = length buf /\ (forall i, 0 <= i < n -> word buf' (b + j + i) = word (evs cs a) i) /\ (forall k, 0 <= k -> k < b + j \/ b + j + n < k -> word buf' k = word buf k).
Proof.
  induction cs as [|(c, p) cs IH]; intros a buf j F A Sm B J n L W0 Wz; cbn [fillM].
  - exists buf. cbn [evs length] in n. subst n. rewrite Z.add_0_r. split; auto. split; auto. split; [intros; lia|auto].
  - inversion F as [|? ? (Hc&P) F']; subst. cbn [fst snd] in *. cbn [asum fold_right fst] in Sm. fold (asum cs) in Sm. pose proof (asum_nonneg cs F') as S0. unfold bsp_add at 1. cbn [evs] in n, W0, Wz |- *. rewrite rdz_ok by lia. cbn [bind]. rewrite wrz_ok by lia. cbn [bind]. rewrite lor_add by lia.
    destruct (Z.eqb_spec p 0) as [->|N].
    + rewrite (Z.add_0_r (c * 2 ^ 24)). assert (E0 : POPC 0 = 0) by (exact (popc_Z 0 0 popc_0)). rewrite E0, (Z.add_0_r j).
      set (buf1 := upd _ _ _). assert (W1 : forall k, 0 <= k -> word buf1 k = if k =? b + j then (word buf (b + j) + c * 2 ^ 24) mod 2 ^ 32 else word buf k) by (intros k Hk; unfold buf1; apply word_upd; lia).
      destruct (IH (a + c) buf1 j F' ltac:(lia) ltac:(lia) B J) as (buf'&E&Lb&Wi&Wo). { unfold buf1. rewrite len_upd. fold n. lia. } { intros Hn. fold n in Hn. rewrite W1, Z.eqb_refl, W0 by lia. rewrite Z.mod_small; lia. } { intros i Hi. fold n in Hi. rewrite W1 by lia. destruct (Z.eqb_spec (b + j + i) (b + j)); [lia|]. apply Wz. lia. }
      fold n in E, Wi, Wo. exists buf'. rewrite E. split; auto. split; [rewrite Lb; apply upd_length|]. split; [exact Wi|]. intros k Hk Hr. rewrite Wo, W1 by lia. destruct (Z.eqb_spec k (b + j)); [lia|auto].
    + destruct (popc_pos p P N) as (m&Em&_). assert (Ep : POPC p = Z.of_nat (S m)) by (exact (popc_Z p _ Em)). rewrite Em in *. replace (S m - 1)%nat with m in * by lia. rewrite Ep. set (buf1 := upd _ _ _).
      assert (W1 : forall k, 0 <= k -> word buf1 k = if k =? b + j then (a + c) * 2 ^ 24 + p else word buf k). { intros k Hk. unfold buf1. rewrite word_upd by lia. rewrite W0 by (unfold n; cbn [length]; lia). rewrite Z.mod_small by lia. replace (a * 2 ^ 24 + (c * 2 ^ 24 + p)) with ((a + c) * 2 ^ 24 + p) by lia. auto. }
      set (n' := Z.of_nat (length (evs cs 0))) in *. assert (Hn : n = Z.of_nat (S m) + n') by (unfold n, n'; cbn [length]; rewrite app_length, repeat_length; lia). clearbody n.
      destruct (IH 0 buf1 (j + Z.of_nat (S m)) F' ltac:(lia) ltac:(lia) B ltac:(lia)) as (buf'&E&Lb&Wi&Wo). { unfold buf1. rewrite len_upd. fold n'. lia. } { fold n'. intros Hn'. rewrite W1 by lia. destruct (Z.eqb_spec (b + (j + Z.of_nat (S m))) (b + j)); [lia|]. replace (b + (j + Z.of_nat (S m))) with (b + j + Z.of_nat (S m)) by lia. rewrite Wz by lia. lia. } { fold n'. intros i Hi. rewrite W1 by lia. destruct (Z.eqb_spec (b + (j + Z.of_nat (S m)) + i) (b + j)); [lia|]. replace (b + (j + Z.of_nat (S m)) + i) with (b + j + (Z.of_nat (S m) + i)) by lia. apply Wz. lia. }
      fold n' in E, Wi, Wo. exists buf'. rewrite E. split; [do 2 f_equal; lia|]. split; [rewrite Lb; apply upd_length|]. split.
      * intros i Hi. destruct (Z.lt_ge_cases i (Z.of_nat (S m))) as [Li|Gi].
        -- rewrite Wo, W1 by lia. destruct (Z.eqb_spec (b + j + i) (b + j)). { replace i with 0 by lia. reflexivity. } rewrite Wz by lia. unfold word. destruct (Z.to_nat i) as [|i'] eqn:Ei; [lia|]. cbn [nth]. rewrite app_nth1 by (rewrite repeat_length; lia). rewrite nth_repeat. auto.
        -- replace (b + j + i) with (b + (j + Z.of_nat (S m)) + (i - Z.of_nat (S m))) by lia. rewrite Wi by lia. unfold word. replace (Z.to_nat i) with (S (m + Z.to_nat (i - Z.of_nat (S m))))%nat by lia. cbn [nth]. rewrite app_nth2 by (rewrite repeat_length; lia). rewrite repeat_length. f_equal. lia.
      * intros k Hk Hr. rewrite Wo, W1 by lia. destruct (Z.eqb_spec k (b + j)); [lia|auto].
Qed.
End Fill.

(** writing *)
Section Write.
Context (tr : Z -> Z).
Fixpoint wl (es : list Z) (r : Z) (st : Z * list Z) : res (Z * list Z) :=
  match es with
  | [] => Ok st
  | a :: es => let '(t, dst) := st in
    let t := (t + a) mod 2 ^ 64 in
    do c <- CTZ (t mod 2 ^ 32);
    do dst <- wrz dst r (tr (8 * Z.shiftr t 24 + c));
    wl es (r + 1) (Z.land t (t - 1), dst)
  end.
Lemma wl_cons a es r t dst : wl (a :: es) r (t, dst) = (let t := (t + a) mod 2 ^ 64 in do c <- CTZ (t mod 2 ^ 32); do dst <- wrz dst r (tr (8 * Z.shiftr t 24 + c)); wl es (r + 1) (Z.land t (t - 1), dst)).
Proof. reflexivity. Qed.
Lemma for_wl buf b r es : forall k t dst, 0 <= b -> 0 <= k -> k + b + len es <= len buf -> (forall i, 0 <= i < len es -> word buf (b + (k + i)) = word es i) ->
  for_ (length es) k (fun j (st : Z * list Z) => let '(t, dst) := st in
    do a <- rdz buf (b + j);
    let t := (t + a) mod 2 ^ 64 in
    do c <- CTZ (t mod 2 ^ 32);
    do dst <- wrz dst (r + j) (tr (8 * Z.shiftr t 24 + c));
    Ok (Z.land t (t - 1), dst)) (t, dst) = wl es (r + k) (t, dst).
Proof.
  induction es as [|e es IH]; intros k t dst B K L W; auto. unfold len in L, W. cbn [length] in L, W. cbn [length for_ wl].
  rewrite rdz_ok by (unfold len; lia). cbn [bind]. replace (word buf (b + k)) with e by (symmetry; rewrite <- (Z.add_0_r k); apply (W 0); lia). destruct (CTZ _); cbn [bind]; auto. destruct (wrz _ _ _); cbn [bind]; auto. rewrite IH; auto; try (unfold len; lia).
  - rewrite Z.add_assoc. auto.
  - intros i Hi. unfold len in Hi. replace (b + (k + 1 + i)) with (b + (k + (1 + i))) by lia. rewrite W by lia. unfold word. replace (Z.to_nat (1 + i)) with (S (Z.to_nat i)) by lia. reflexivity.
Qed.
Lemma bsp_write_wl buf b es off dst r : 0 <= b -> b + len es <= len buf -> (forall i, 0 <= i < len es -> word buf (b + i) = word es i) ->
  bsp_write tr buf b (len es) off dst r = do st <- wl es r ((off * 2 ^ 21 - 2 * 2 ^ 24) mod 2 ^ 64, dst); Ok (snd st).
Proof.
  intros B L W. unfold bsp_write. generalize ((off * 2 ^ 21 - 2 * 2 ^ 24) mod 2 ^ 64). intros t. pose proof (for_wl buf b r es 0 t dst B ltac:(lia) ltac:(lia) W) as E. rewrite Z.add_0_r in E. rewrite <- E. unfold len. rewrite Nat2Z.id. reflexivity.
Qed.
Lemma ctz_low B p c : 0 <= p < 2 ^ 24 -> p <> 0 -> CTZ p = Ok c -> CTZ ((B * 2 ^ 24 + p) mod 2 ^ 32) = Ok c.
Proof.
  intros P N E. destruct (nonzero_bit 24 p) as (k&Hk&Tk); auto. destruct (CTZ_spec p k ltac:(lia) Tk) as (c0&E0&H0&T0&L0). rewrite E in E0. injection E0 as <-.
  assert (Tb : forall i, 0 <= i < 24 -> Z.testbit ((B * 2 ^ 24 + p) mod 2 ^ 32) i = Z.testbit p i). { intros i Hi. rewrite Z.mod_pow2_bits_low by lia. rewrite <- (lor_add B p 24) by lia. rewrite Z.lor_spec, Z.mul_pow2_bits_low by lia. auto. }
  destruct (CTZ_spec ((B * 2 ^ 24 + p) mod 2 ^ 32) c ltac:(lia)) as (c1&E1&H1&T1&L1); [rewrite Tb by lia; auto|]. rewrite E1. f_equal. destruct (Z.lt_trichotomy c c1) as [X|[X|X]]; auto; exfalso.
  - specialize (L1 c ltac:(lia)). rewrite Tb in L1 by lia. congruence.
  - specialize (L0 c1 ltac:(lia)). rewrite Tb in T1 by lia. congruence.
Qed.
Lemma land_low B p : 0 <= B -> 0 <= p < 2 ^ 24 -> p <> 0 -> Z.land (B * 2 ^ 24 + p) (B * 2 ^ 24 + p - 1) = B * 2 ^ 24 + Z.land p (p - 1).
Proof.
  intros HB P N. destruct (lowest 24 p ltac:(lia) P N) as (_&_&_&_&R). replace (B * 2 ^ 24 + p - 1) with (B * 2 ^ 24 + (p - 1)) by lia. rewrite <- !lor_add by lia. apply Z.bits_inj'. intros k Hk. rewrite ?Z.land_spec, ?Z.lor_spec, ?Z.land_spec.
  destruct (Z.lt_ge_cases k 24). - rewrite Z.mul_pow2_bits_low by lia. auto. - rewrite (range_bits p 24 k), (range_bits (p - 1) 24 k) by lia. rewrite !orb_false_r. destruct (Z.testbit (B * 2 ^ 24) k); auto.
Qed.
Lemma consume B n : forall p t e es r dst, 0 <= B < 2 ^ 40 -> 0 <= p < 2 ^ 24 -> popc p = S n -> (t + e) mod 2 ^ 64 = B * 2 ^ 24 + p -> 0 <= r -> r + Z.of_nat (S n) <= len dst ->
  exists d', wl (e :: repeat 0 n ++ es) r (t, dst) = wl es (r + Z.of_nat (S n)) (B * 2 ^ 24, d') /\ wrote dst r (map (fun k => tr (8 * B + k)) (ons (Z.testbit p) 0 24)) d'.
Proof.
  induction n as [|n IH]; intros p t e es r dst HB P Pc T R L; cbn [repeat app]; rewrite wl_cons; cbv zeta; rewrite T.
  all: assert (N : p <> 0) by (intros ->; rewrite popc_0 in Pc; discriminate); destruct (lowest 24 p ltac:(lia) P N) as (c&Ec&Hc&Eo&P'); destruct (popc_pos p P N) as (m&Em&Em'); rewrite Pc in Em; injection Em as <-; change (Z.to_nat 24) with 24%nat in Eo; rewrite Eo; cbn [map].
  all: rewrite (ctz_low B p c P N Ec); cbn [bind]; rewrite Z.shiftr_div_pow2, Z.div_add_l, (Z.div_small p) by lia; rewrite Z.add_0_r; destruct (wrote_one dst r (tr (8 * B + c)) ltac:(lia)) as (d1&E1&W1); rewrite E1; cbn [bind]; rewrite land_low by (auto; lia).
  - assert (Z0 : Z.land p (p - 1) = 0) by (destruct (Z.eq_dec (Z.land p (p - 1)) 0); auto; destruct (popc_pos _ P' n) as (?&?&_); congruence). rewrite Z0, Z.add_0_r. exists d1. split; [reflexivity|]. rewrite ons_z. exact W1.
  - destruct (IH (Z.land p (p - 1)) (B * 2 ^ 24 + Z.land p (p - 1)) 0 es (r + 1) d1 HB P' Em') as (d'&E2&W2). { rewrite Z.add_0_r. apply Z.mod_small. lia. } { lia. } { rewrite (wrote_len _ _ _ _ W1). lia. }
    exists d'. rewrite E2. split; [f_equal; lia|]. change (tr (8 * B + c) :: ?l) with ([tr (8 * B + c)] ++ l). eapply wrote_app2; [|exact W1|exact W2]. unfold len. cbn [length]. lia.
Qed.
Lemma wl_ok cs : forall a T t r dst, Forall cok cs -> 0 <= a -> t = (T * 2 ^ 24) mod 2 ^ 64 -> -2 <= T + a -> (T + a < 0 -> match cs with [] => True | c :: _ => 2 <= fst c end) -> T + a + asum cs < 2 ^ 40 -> 0 <= r -> let l := map tr (outs_of cs (T + a)) in r + len l <= len dst ->
  exists t' d', wl (evs cs a) r (t, dst) = Ok (t', d') /\ wrote dst r l d'.
Proof.
  induction cs as [|(c, p) cs IH]; intros a T t r dst F A Et TA T0 Tm R l L.
  - cbn [evs wl outs_of map] in *. exists t, dst. split; auto. subst l. apply wrote_nil. unfold len in L. cbn [length] in L. unfold len. lia.
  - inversion F as [|? ? (Hc&P) F']; subst. cbn [fst snd] in *. cbn [asum fold_right fst] in Tm. fold (asum cs) in Tm. pose proof (asum_nonneg cs F') as S0. cbn [evs outs_of] in l |- *. assert (TT : 0 <= T + a + c) by lia. subst l. rewrite map_app in L |- *. destruct (Z.eqb_spec p 0) as [->|N].
    + rewrite ons_z in *. cbn [map app] in *. replace (T + a + c) with (T + (a + c)) in * by lia. apply IH; auto; try lia.
    + destruct (popc_pos p P N) as (m&Em&_). rewrite Em. replace (S m - 1)%nat with m by lia. unfold len in L at 1. rewrite app_length, !map_length in L. assert (E2 : length (ons (Z.testbit p) 0 24) = S m) by (rewrite <- Em; apply popc_len; exact P).
      destruct (consume (T + a + c) m p ((T * 2 ^ 24) mod 2 ^ 64) ((a + c) * 2 ^ 24 + p) (evs cs 0) r dst ltac:(lia) P Em) as (d1&E1&W1). { rewrite Z.add_mod_idemp_l by lia. replace (T * 2 ^ 24 + ((a + c) * 2 ^ 24 + p)) with ((T + a + c) * 2 ^ 24 + p) by lia. apply Z.mod_small. lia. } { exact R. } { unfold len in *. lia. }
      rewrite E1. destruct (IH 0 (T + a + c) ((T + a + c) * 2 ^ 24) (r + Z.of_nat (S m)) d1 F') as (t'&d'&E3&W3); [lia|symmetry; apply Z.mod_small; lia|lia|intros; lia|lia|lia| |]. { rewrite (wrote_len _ _ _ _ W1). unfold len. rewrite map_length, Z.add_0_r. unfold len in L. lia. }
      rewrite Z.add_0_r in W3. exists t', d'. split; auto. rewrite map_map. eapply wrote_app2; [|exact W1|exact W3]. unfold len. rewrite map_length, E2. auto.
Qed.
End Write.
