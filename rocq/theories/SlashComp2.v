(** Replicate with bits: the start of [compress], the choice of method, and single bits. *)
From Verif Require Import Base ListLib BitsModel BitsSpec BitsProof BitsProof2 SqueezeModel SqueezeProof WidenModel SlashModel SlashModel2 SlashModel3 SlashSpec SlashProof SlashBsp SlashWhere SlashWhere2 SlashInd SlashComp.
From Coq Require Import List.

Lemma cnt_full g n : forall a, cnt g a n = Z.of_nat n -> forall k, a <= k < a + Z.of_nat n -> g k = true.
Proof.
  induction n as [|n IH]; intros a E k K; [lia|]. rewrite cnt_S in E. pose proof (cnt_le g (a + 1) n). destruct (g a) eqn:Ga; [|lia]. destruct (Z.eq_dec k a) as [->|]; auto. apply (IH (a + 1)); lia.
Qed.
Lemma cnt_ext f g a n : (forall k, a <= k < a + Z.of_nat n -> f k = g k) -> cnt f a n = cnt g a n.
Proof. intros H. unfold cnt. rewrite (ons_ext f g); auto. Qed.

Lemma last_ok wp n : words wp -> n <= 64 * len wp -> forall fuel we ie, 0 <= ie -> (Z.to_nat ie < fuel)%nat -> (we = 0 \/ (64 * ie < n /\ we = word wp ie)) -> (we = 0 -> forall i, 64 * ie <= i < n -> mbit wp i = false) -> (forall i, 64 * (ie + 1) <= i < n -> mbit wp i = false) -> 64 * ie <= n ->
  exists r, last_word fuel wp we ie = Ok r /\ match r with
    | None => forall i, 0 <= i < n -> mbit wp i = false
    | Some (we, ie) => 0 <= ie /\ 64 * ie < n /\ we = word wp ie /\ we <> 0 /\ (forall i, 64 * (ie + 1) <= i < n -> mbit wp i = false) end.
Proof.
  intros Ww Ln. induction fuel as [|f IH]; intros we ie I Fu We Z0 Hi Le; [lia|]. cbn [last_word]. destruct (Z.eqb_spec we 0) as [E|E]; cbn [negb].
  - destruct (Z.eqb_spec ie 0) as [Ez|Ez]. + exists None. split; auto. intros i Hi'. apply Z0; auto. lia.
    + rewrite rdz_ok by lia. cbn [bind]. apply IH; try lia.
      * intros W0 i Hi'. destruct (Z.lt_ge_cases i (64 * ie)); [|apply Z0; auto; lia]. replace i with (64 * (ie - 1) + (i - 64 * (ie - 1))) by lia. rewrite mbit_word by lia. rewrite W0. apply Z.bits_0.
      * intros i Hi'. apply Z0; auto. lia.
  - exists (Some (we, ie)). split; auto. destruct We as [We|[We1 We2]]; [lia|]. repeat split; auto; lia.
Qed.
Definition started (w : list Z) (n : Z) (st : start) : Prop :=
  match st with
  | SEmpty => forall i, 0 <= i < n -> mbit w i = false
  | SAll => forall i, 0 <= i < n -> mbit w i = true
  | SRest wp wia wsum => words wp /\ length wp = length w /\ 0 < wia <= n /\ (forall i, wia <= i < 64 * ((wia + 63) / 64) -> mbit wp i = false) /\ mbit wp (wia - 1) = true /\ wsum = cnt (fun i => mbit wp i) 0 (Z.to_nat wia) /\ (forall i, 0 <= i < wia -> mbit wp i = mbit w i) /\ (forall i, wia <= i < n -> mbit w i = false)
  end.
Lemma start_ok w n : words w -> 0 <= n <= 64 * len w -> exists st, compress_start w n = Ok st /\ started w n st.
Proof.
  intros Ww N. destruct (mask_tail_ok w n Ww N) as (wp&Em&Wp&Lp&Ag&Tz). assert (Lz : len wp = len w) by (unfold len; lia). unfold compress_start. rewrite Em. cbn [bind].
  assert (Q : exists we, (if n mod 64 =? 0 then Ok 0 else rdz wp (n / 64)) = Ok we /\ (we = 0 \/ (64 * (n / 64) < n /\ we = word wp (n / 64))) /\ (we = 0 -> forall i, 64 * (n / 64) <= i < n -> mbit wp i = false)).
  { destruct (Z.eqb_spec (n mod 64) 0). - exists 0. split; auto. split; auto. intros _ i Hi. lia. - exists (word wp (n / 64)). rewrite rdz_ok by lia. split; auto. split; [right; split; auto; lia|]. intros W0 i Hi. replace i with (64 * (n / 64) + (i - 64 * (n / 64))) by lia. rewrite mbit_word by lia. rewrite W0. apply Z.bits_0. }
  destruct Q as (we&Ew&W1&W2). rewrite Ew. cbn [bind]. destruct (last_ok wp n Wp ltac:(lia) (S (length wp)) we (n / 64) ltac:(lia) ltac:(unfold len in *; lia) W1 W2 ltac:(intros; lia) ltac:(lia)) as (r&Er&Hr). rewrite Er. cbn [bind]. destruct r as [[we' ie]|].
  - destruct Hr as (I&In&Ee&Ne&Hi). pose proof (word_range wp ie Wp) as Wr. rewrite <- Ee in Wr. assert (Lg : 0 <= Z.log2 we' < 64). { split; [apply Z.log2_nonneg|]. apply Z.log2_lt_pow2; lia. } unfold CLZ. replace (64 * (ie + 1) - (63 - Z.log2 we')) with (64 * ie + Z.log2 we' + 1) by lia. set (wia := 64 * ie + Z.log2 we' + 1).
    assert (Bt : mbit wp (wia - 1) = true). { unfold wia. replace (64 * ie + Z.log2 we' + 1 - 1) with (64 * ie + Z.log2 we') by lia. rewrite mbit_word by lia. rewrite <- Ee. apply Z.bit_log2. lia. }
    assert (Wn : wia <= n). { destruct (Z.lt_ge_cases n wia); [|lia]. exfalso. rewrite Tz in Bt; [discriminate|]. unfold wia in *. lia. }
    assert (T0 : forall i, wia <= i < 64 * ((wia + 63) / 64) -> mbit wp i = false). { intros i Hi'. unfold wia in Hi'. replace i with (64 * ie + (i - 64 * ie)) by lia. rewrite mbit_word by lia. rewrite <- Ee. apply Z.bits_above_log2; lia. }
    assert (W0 : 0 < wia) by (unfold wia; lia). assert (We : 64 * ((wia + 63) / 64) = 64 * (ie + 1)) by (unfold wia; lia). clearbody wia.
    rewrite bit_sum_spec by (unfold len in *; lia). rewrite count_cnt. rewrite (cnt_ext _ (fun i => mbit wp i)) by (intros; f_equal; lia). cbn [bind]. set (wsum := cnt (fun i => mbit wp i) 0 (Z.to_nat wia)). destruct (Z.eqb_spec wsum n) as [E|E].
    + exists SAll. split; auto. cbn [started]. pose proof (cnt_le (fun i => mbit wp i) 0 (Z.to_nat wia)) as Cl. fold wsum in Cl. assert (wia = n) by lia. subst wia. intros i Hi'. rewrite <- Ag by lia. apply (cnt_full (fun i => mbit wp i) (Z.to_nat n) 0); [fold wsum; lia|lia].
    + eexists. split; [reflexivity|]. cbn [started]. repeat (split; [solve [auto; lia]|]). split; [intros; apply Ag; lia|]. intros i Hi'. rewrite <- Ag by lia. destruct (Z.lt_ge_cases i (64 * (ie + 1))); [apply T0; lia|apply Hi; lia].
  - exists SEmpty. split; auto. cbn [started]. intros i Hi'. rewrite <- Ag by lia. apply Hr. lia.
Qed.
Lemma groups_in_ok wp n : forall i r prev, 0 <= i -> i + Z.of_nat n <= len wp -> exists q, groups_in n wp i r prev = Ok q.
Proof. induction n as [|n IH]; intros i r prev I L; cbn [groups_in]; [eexists; reflexivity|]. rewrite rdz_ok by lia. cbn [bind]. apply IH; lia. Qed.
Lemma groups_lt_ok wp n mx : 0 < n -> (n + 63) / 64 <= len wp -> exists b, groups_lt wp n mx = Ok b.
Proof.
  intros N L. unfold groups_lt. cbv zeta. set (l := (n - 1) / 64 + 1). assert (Ll : 0 < l <= len wp) by (unfold l; lia). clearbody l.
  assert (G : forall fuel i r prev, 0 <= i <= l -> l - i < Z.of_nat fuel -> exists b, groups_out fuel wp l i r prev mx = Ok b).
  { induction fuel as [|f IH]; intros i r prev I F; [lia|]. cbn [groups_out]. destruct (Z.leb_spec l i); [eexists; reflexivity|]. cbv zeta. assert (Q : i < (if l - i <? 2 ^ 8 then l else i + 2 ^ 8) <= l) by (destruct (Z.ltb_spec (l - i) (2 ^ 8)); lia). set (e := if l - i <? 2 ^ 8 then l else i + 2 ^ 8) in *. clearbody e.
    destruct (groups_in_ok wp (Z.to_nat (e - i)) i r prev ltac:(lia) ltac:(lia)) as ([r' p']&E). rewrite E. cbn [bind]. destruct (mx <? r'); [eexists; reflexivity|]. apply IH; lia. }
  apply G; lia.
Qed.
Lemma picks_replicate {A} (xs : list A) w m : forall k, (k + m <= length xs)%nat -> picks xs (ons (fun i => mbit w i) (Z.of_nat k) m) = replicate (map (fun i => if mbit w (Z.of_nat i) then 1 else 0) (seq k m)) (skipn k xs).
Proof.
  induction m as [|m IH]; intros k L. - rewrite ons_0. auto.
  - rewrite ons_S, picks_app. replace (Z.of_nat k + 1) with (Z.of_nat (S k)) by lia. rewrite IH by lia. destruct (nth_error xs k) as [v|] eqn:E; [|apply nth_error_None in E; lia]. rewrite (skipn_at _ _ _ E). cbn [seq map]. rewrite replicate_cons. f_equal. destruct (mbit w (Z.of_nat k)); auto. cbn [picks flat_map]. unfold pick. rewrite Nat2Z.id, E. auto.
Qed.
Definition b2z (b : bool) : Z := if b then 1 else 0.
Lemma picks_bits {A} (xs : list A) w n : Z.of_nat (length xs) = n -> picks xs (ons (fun i => mbit w i) 0 (Z.to_nat n)) = replicate (map b2z (bits_of w 0 n)) xs.
Proof. intros E. pose proof (picks_replicate xs w (Z.to_nat n) 0 ltac:(lia)) as H. change (Z.of_nat 0) with 0 in H. rewrite H. unfold bits_of. rewrite map_map. cbn [skipn]. f_equal. Qed.

Lemma P_ext {A} (xs : list A) f g n m : 0 <= m <= n -> (forall i, 0 <= i < m -> f i = g i) -> (forall i, m <= i < n -> g i = false) -> picks xs (ons f 0 (Z.to_nat m)) = picks xs (ons g 0 (Z.to_nat n)).
Proof.
  intros M F G. replace (Z.to_nat n) with (Z.to_nat m + Z.to_nat (n - m))%nat by lia. rewrite ons_app, picks_app. assert (E : ons g (0 + Z.of_nat (Z.to_nat m)) (Z.to_nat (n - m)) = []). { apply ons_none. unfold cnt. destruct (ons g (0 + Z.of_nat (Z.to_nat m)) (Z.to_nat (n - m))) as [|k l] eqn:E; auto. exfalso. assert (I : In k (ons g (0 + Z.of_nat (Z.to_nat m)) (Z.to_nat (n - m)))) by (rewrite E; left; auto). apply ons_in in I. destruct I as [I1 I2]. rewrite G in I2 by lia. discriminate. }
  rewrite E. cbn [picks flat_map]. rewrite app_nil_r. rewrite (ons_ext f g); auto. intros; apply F; lia.
Qed.
Lemma run_all {A} (xs : list A) g n : forall a, 0 <= a -> (forall k, a <= k < a + Z.of_nat n -> g k = true) -> a + Z.of_nat n <= Z.of_nat (length xs) -> picks xs (ons g a n) = firstn n (skipn (Z.to_nat a) xs).
Proof.
  induction n as [|n IH]; intros a H G L. - rewrite ons_0. auto.
  - rewrite ons_S. rewrite G by lia. rewrite picks_app. rewrite IH; [|lia|intros; apply G; lia|lia]. cbn [picks flat_map]. rewrite app_nil_r. unfold pick. replace (Z.to_nat (a + 1)) with (S (Z.to_nat a)) by lia. destruct (nth_error xs (Z.to_nat a)) as [v|] eqn:E; [|apply nth_error_None in E; lia]. rewrite (skipn_at _ _ _ E). auto.
Qed.
Lemma compress_ok {A} junk cl w (xs : list A) : words w -> Z.of_nat (length xs) <= 64 * len w -> let n := Z.of_nat (length xs) in
  compress junk cl w n xs = Ok (replicate (map b2z (bits_of w 0 n)) xs).
Proof.
  intros Ww N n. destruct (start_ok w n Ww ltac:(unfold n; lia)) as (st&E&S). unfold compress. rewrite E. cbn [bind]. rewrite <- picks_bits by reflexivity. destruct st as [| |wp wia wsum]; cbn [started] in S.
  - f_equal. symmetry. rewrite (P_ext xs _ (fun _ => false) n n); [|unfold n; lia|exact S|intros; lia]. rewrite ons_none; auto. unfold cnt. destruct (ons (fun _ => false) 0 (Z.to_nat n)) as [|k l] eqn:E2; auto. assert (I : In k (ons (fun _ => false) 0 (Z.to_nat n))) by (rewrite E2; left; auto). apply ons_in in I. destruct I as [_ I]. discriminate.
  - f_equal. symmetry. rewrite (run_all xs); [|lia|intros; apply S; unfold n in *; lia|unfold n; lia]. cbn [Z.to_nat skipn]. unfold n. rewrite Nat2Z.id. apply firstn_all.
  - destruct S as (Wp&Lp&Wi&T0&Lb&Sm&Ag&Rz). assert (Wl : (wia + 63) / 64 <= len wp) by (unfold len in *; lia). assert (Wx : 0 < wia <= Z.of_nat (length xs)) by (unfold n in Wi; lia).
    rewrite <- (P_ext xs (fun i => mbit wp i) (fun i => mbit w i) n wia) by (auto; lia).
    assert (Bl : compress_block (Datatypes.S (length wp)) junk wp xs wia wsum 0 [] = Ok (picks xs (ons (fun i => mbit wp i) 0 (Z.to_nat wia)))). { rewrite <- (P0 xs wp). apply (block_ok xs wp wia wsum Wp Wx Wl T0 Sm junk); [lia|right; reflexivity|unfold len in *; lia]. }
    pose proof (grouped_ok xs wp wia wsum Wp Wx Wl T0 Lb Sm) as Gr. pose proof (dense_ok xs wp wia wsum Wx Wl T0 Lb Sm) as De. pose proof (slow_ok xs wp wia wsum Wx Wl T0 Lb Sm) as Sl.
    destruct (groups_lt_ok wp wia (wia / 128) ltac:(lia) Wl) as (b1&G1). destruct (groups_lt_ok wp wia (wia / 16) ltac:(lia) Wl) as (b2&G2).
    destruct cl as [| |p|p]. + destruct (wsum <? wia / 2); [exact Bl|]. rewrite G1. cbn [bind]. destruct b1; auto. + destruct (wia / 8 <=? wsum); [|exact Bl]. rewrite G2. cbn [bind]. destruct b2; auto. + destruct p; auto. + destruct p; auto.
Qed.
