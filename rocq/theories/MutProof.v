From Verif Require Import Base BitsModel BitsSpec BitsProof BitsProof2 BitsThm SqueezeModel ReuseModel MutModel MutSpec.
From Coq Require Import List Lia ZArith.
Import ListNotations.
Open Scope Z_scope.

Definition look (s : store) (i : nat) : val :=
  match s with SBits w => VNum (if mbit w (Z.of_nat i) then 1 else 0) | SCells _ c => nth i c (VNum 0) end.

Lemma getU_ok s n i : room s n -> (i < n)%nat -> getU s i = Ok (look s i) /\ fits (st_el s) (look s i) = true.
Proof.
  destruct s as [w|e c]; cbn [room getU look st_el].
  - intros [Hw Hl] Hi. rewrite bitp_get_spec by (unfold len; lia). cbn [bind]. split; [f_equal; f_equal; f_equal; f_equal; lia|]. destruct (mbit w (Z.of_nat i)); reflexivity.
  - intros (_ & Hl & Hf) Hi. split.
    + unfold rd. rewrite (nth_error_nth' c (VNum 0)) by lia. reflexivity.
    + rewrite Forall_forall in Hf. apply Hf. apply nth_In. lia.
Qed.
Lemma to_s_id k z : 0 < k -> - 2 ^ (k - 1) <= z < 2 ^ (k - 1) -> to_s k z = z.
Proof.
  intros Hk Hz. unfold to_s. assert (2 ^ k = 2 * 2 ^ (k - 1)) by (rewrite <- Z.pow_succ_r by lia; f_equal; lia). rewrite Z.mod_small by lia. lia.
Qed.
Lemma conv_fit e v : e <> EBit -> fits e v = true -> conv e v = Ok v.
Proof.
  intros Hn H. destruct e, v; cbn [fits conv] in *; try discriminate; try contradiction; try reflexivity;
  apply andb_true_iff in H; destruct H as [H1 H2]; apply Z.leb_le in H1; apply Z.leb_le in H2.
  1-3: rewrite to_s_id by (cbn; lia); reflexivity.
  1: unfold to_u; rewrite Z.mod_small by (cbn; lia); reflexivity.
  1: unfold to_u; rewrite Z.mod_small by (cbn; lia); reflexivity.
Qed.
Lemma o2b_fit v : fits EBit v = true -> exists b : bool, o2b v = Ok b /\ v = VNum (if b then 1 else 0).
Proof.
  destruct v as [z| | |]; cbn [fits]; try discriminate. intros H. apply orb_true_iff in H. destruct H as [H|H]; apply Z.eqb_eq in H; subst z; cbn.
  - exists false. split; reflexivity.
  - exists true. split; reflexivity.
Qed.

Lemma nth_upd_eq {A} (l : list A) i v d : (i < length l)%nat -> nth i (upd l i v) d = v.
Proof. revert i. induction l as [|a l IH]; intros [|i] H; cbn [upd nth length] in *; try lia; [reflexivity|]. apply IH. lia. Qed.
Lemma nth_upd_neq {A} (l : list A) i j v d : i <> j -> nth j (upd l i v) d = nth j l d.
Proof. revert i j. induction l as [|a l IH]; intros [|i] [|j] H; cbn [upd nth] in *; try lia; try reflexivity. apply IH. lia. Qed.
(** [s'] is [s] with the n0 positions from p on replaced by f *)
Definition wrote_to (s s' : store) (n p l : nat) (f : nat -> val) : Prop :=
  st_el s' = st_el s /\ room s' n /\ (forall i, (i < l)%nat -> look s' (p + i) = f i) /\ (forall i, (i < n)%nat -> (i < p \/ p + l <= i)%nat -> look s' i = look s i).

Lemma room_upd e c n i v : room (SCells e c) n -> (i < n)%nat -> fits e v = true -> exists c', wr c i v = Ok c' /\ wrote_to (SCells e c) (SCells e c') n i 1 (fun _ => v) /\ length c' = length c.
Proof.
  intros (He & Hl & Hf) Hi Hv. exists (upd c i v). unfold wr. destruct (Nat.ltb_spec i (length c)) as [H|H]; [|lia]. split; [reflexivity|].
  assert (HL : length (upd c i v) = length c) by apply upd_length. split; [|exact HL].
  split; [reflexivity|]. split; [|split].
  - split; [exact He|]. split; [lia|]. apply Forall_forall. intros y Hy. apply (In_nth _ _ (VNum 0)) in Hy. destruct Hy as (k & Hk & Hy). rewrite Forall_forall in Hf.
    destruct (Nat.eq_dec k i) as [->|N].
    + rewrite nth_upd_eq in Hy by lia. subst y. exact Hv.
    + rewrite nth_upd_neq in Hy by lia. subst y. apply Hf. apply nth_In. lia.
  - intros j Hj. cbn [look]. replace (i + j)%nat with i by lia. apply nth_upd_eq. lia.
  - intros j Hj Hd. cbn [look]. apply nth_upd_neq. lia.
Qed.
Lemma words_room w w' n : words w' -> len w' = len w -> Z.of_nat n + 64 <= 64 * Z.of_nat (length w) -> room (SBits w') n.
Proof. unfold len. intros H1 H2 H3. split; [exact H1|lia]. Qed.

Lemma setG_ok s n i v : room s n -> (i < n)%nat -> fits (st_el s) v = true -> exists s', setG s i v = Ok s' /\ wrote_to s s' n i 1 (fun _ => v).
Proof.
  destruct s as [w|e c].
  - intros [Hw Hl] Hi Hv. cbn [st_el] in Hv. destruct (o2b_fit v Hv) as (b & Eb & Ev). cbn [setG]. rewrite Eb. cbn [bind].
    destruct (bitp_set_spec w 0 (Z.of_nat i) b Hw) as (w' & E & L & W & M); try (unfold len; lia). rewrite E. cbn [bind]. eexists. split; [reflexivity|].
    split; [reflexivity|]. split; [apply (words_room w); assumption|]. split.
    + intros j Hj. cbn [look]. rewrite M by lia. destruct (Z.eqb_spec (Z.of_nat (i + j)) (64 * 0 + Z.of_nat i)) as [_|N]; [congruence|lia].
    + intros j Hj Hd. cbn [look]. rewrite M by lia. destruct (Z.eqb_spec (Z.of_nat j) (64 * 0 + Z.of_nat i)) as [N|_]; [lia|reflexivity].
  - intros R Hi Hv. cbn [st_el] in Hv. cbn [setG]. rewrite conv_fit by (try exact Hv; apply R). cbn [bind].
    destruct (room_upd e c n i v R Hi Hv) as (c' & E & Wt & _). rewrite E. cbn [bind]. eexists. split; [reflexivity|exact Wt].
Qed.

(** writes one after the other *)
Lemma wrote_cons s s1 s2 n p l f : wrote_to s s1 n p 1 (fun _ => f O) -> wrote_to s1 s2 n (S p) l (fun i => f (S i)) -> (p + S l <= n)%nat -> wrote_to s s2 n p (S l) f.
Proof.
  intros (E1 & R1 & A1 & B1) (E2 & R2 & A2 & B2) Hn. split; [congruence|]. split; [exact R2|]. split.
  - intros i Hi. destruct i as [|i].
    + rewrite B2 by lia. rewrite (A1 O) by lia. reflexivity.
    + replace (p + S i)%nat with (S p + i)%nat by lia. apply A2. lia.
  - intros i Hi Hd. rewrite B2 by lia. apply B1; lia.
Qed.
Lemma fill_cells_ok l : forall e c n p v, room (SCells e c) n -> (p + l <= n)%nat -> fits e v = true -> exists c', fill_cells l c p v = Ok c' /\ wrote_to (SCells e c) (SCells e c') n p l (fun _ => v).
Proof.
  induction l as [|l IH]; intros e c n p v R Hp Hv; cbn [fill_cells].
  - exists c. split; [reflexivity|]. split; [reflexivity|]. split; [exact R|]. split; intros; [lia|reflexivity].
  - destruct (room_upd e c n p v R ltac:(lia) Hv) as (c1 & E1 & W1 & _). rewrite E1. cbn [bind].
    destruct (IH e c1 n (S p) v) as (c2 & E2 & W2); try assumption; [apply W1|lia|]. rewrite E2. exists c2. split; [reflexivity|].
    apply (wrote_cons _ (SCells e c1) _ n p l (fun _ => v)); assumption.
Qed.
Lemma fillG_ok s n i v l : room s n -> (i + l <= n)%nat -> fits (st_el s) v = true -> exists s', fillG s i v l = Ok s' /\ wrote_to s s' n i l (fun _ => v).
Proof.
  destruct s as [w|e c].
  - intros [Hw Hl] Hi Hv. cbn [st_el] in Hv. destruct (o2b_fit v Hv) as (b & Eb & Ev). cbn [fillG]. rewrite Eb. cbn [bind].
    destruct (bit_fill_spec w 0 (Z.of_nat i) b (Z.of_nat l) Hw) as (w' & E & L & W & M); try lia.
    { unfold len. assert ((Z.of_nat i + Z.of_nat l) / 64 <= Z.of_nat n / 64) by (apply Z.div_le_mono; lia). assert (64 * (Z.of_nat n / 64) <= Z.of_nat n) by (apply Z.mul_div_le; lia). lia. }
    rewrite E. cbn [bind]. eexists. split; [reflexivity|].
    split; [reflexivity|]. split; [apply (words_room w); assumption|]. split.
    + intros j Hj. cbn [look]. rewrite M by lia. destruct (Z.leb_spec (64 * 0 + Z.of_nat i) (Z.of_nat (i + j))); [|lia]. destruct (Z.ltb_spec (Z.of_nat (i + j)) (64 * 0 + Z.of_nat i + Z.of_nat l)); [|lia]. cbn [andb]. congruence.
    + intros j Hj Hd. cbn [look]. rewrite M by lia. destruct (Z.leb_spec (64 * 0 + Z.of_nat i) (Z.of_nat j)); cbn [andb]; [|reflexivity]. destruct (Z.ltb_spec (Z.of_nat j) (64 * 0 + Z.of_nat i + Z.of_nat l)); [lia|reflexivity].
  - intros R Hi Hv. cbn [st_el] in Hv. cbn [fillG]. rewrite conv_fit by (try exact Hv; apply R). cbn [bind].
    destruct (fill_cells_ok l e c n i v R Hi Hv) as (c' & E & Wt). rewrite E. cbn [bind]. eexists. split; [reflexivity|exact Wt].
Qed.

(** ** types *)
Lemma elc_inj a b : elc a = elc b -> a = b. Proof. destruct a, b; cbn; congruence. Qed.
Lemma fits_or e x v : fits e v = true -> fits (el_or e x) v = true.
Proof.
  destruct e, v; cbn [fits]; intros H; try discriminate; destruct x; cbn; try reflexivity; try exact H;
  try (apply orb_true_iff in H; destruct H as [H|H]; apply Z.eqb_eq in H; subst; reflexivity);
  try (apply andb_true_iff in H; destruct H as [H1 H2]; apply Z.leb_le in H1; apply Z.leb_le in H2; apply andb_true_iff; split; apply Z.leb_le; lia).
Qed.
Lemma fits_self v : fits (self_el v) v = true.
Proof.
  unfold self_el. destruct v as [z|b|c|o]; try reflexivity.
  - destruct (fits EBit (VNum z)) eqn:E1; [exact E1|]. destruct (fits EI8 (VNum z)) eqn:E2; [exact E2|]. destruct (fits EI16 (VNum z)) eqn:E3; [exact E3|]. destruct (fits EI32 (VNum z)) eqn:E4; [exact E4|reflexivity].
  - destruct (fits EC8 (VChr c)) eqn:E1; [exact E1|]. destruct (fits EC16 (VChr c)) eqn:E2; [exact E2|reflexivity].
Qed.
Lemma or_comm a b : el_or a b = el_or b a. Proof. destruct a, b; reflexivity. Qed.
Lemma fits_or_r e x v : fits x v = true -> fits (el_or e x) v = true.
Proof. rewrite or_comm. apply fits_or. Qed.
Lemma okcopy_or e x : el_or e x <> EBit -> okcopy (el_or e x) e = true.
Proof. destruct e, x; cbn; congruence. Qed.
Lemma okcopy_same e : e <> EBit -> okcopy e e = true. Proof. destruct e; cbn; congruence. Qed.
Lemma okcopy_absorb e x : el_or e x = e -> e <> EBit -> okcopy e x = true.
Proof. destruct e, x; cbn; congruence. Qed.
Lemma or_bit e x : el_or e x = EBit -> e = EBit /\ x = EBit.
Proof. destruct e, x; cbn; intros H; try discriminate; auto. Qed.
Lemma or_B e : el_or EB e = EB. Proof. destruct e; reflexivity. Qed.
Lemma or_assoc a b c : el_or (el_or a b) c = el_or a (el_or b c). Proof. destruct a, b, c; reflexivity. Qed.
Lemma or_same a : el_or a a = a. Proof. destruct a; reflexivity. Qed.
Lemma or_idem a b : el_or (el_or a b) b = el_or a b. Proof. destruct a, b; reflexivity. Qed.
Lemma fits_absorb e x v : el_or e x = e -> fits x v = true -> fits e v = true.
Proof. intros <-. apply fits_or_r. Qed.

(** ** copies *)
Lemma copy_cells_ok l : forall e c n p x xn xs, room (SCells e c) n -> (p + l <= n)%nat -> room x xn -> (xs + l <= xn)%nat -> el_or e (st_el x) = e ->
  exists c', copy_cells l e c p x xs = Ok c' /\ wrote_to (SCells e c) (SCells e c') n p l (fun i => look x (xs + i)).
Proof.
  induction l as [|l IH]; intros e c n p x xn xs R Hp Rx Hx He; cbn [copy_cells].
  - exists c. split; [reflexivity|]. split; [reflexivity|]. split; [exact R|]. split; intros; [lia|reflexivity].
  - destruct (getU_ok x xn xs Rx ltac:(lia)) as [-> Hf]. cbn [bind]. assert (Hfe : fits e (look x xs) = true) by (apply (fits_absorb e (st_el x)); assumption).
    rewrite conv_fit by (try exact Hfe; apply R). cbn [bind].
    destruct (room_upd e c n p (look x xs) R ltac:(lia) Hfe) as (c1 & E1 & W1 & _). rewrite E1. cbn [bind].
    destruct (IH e c1 n (S p) x xn (S xs)) as (c2 & E2 & W2); try assumption; [apply W1|lia|lia|]. rewrite E2. exists c2. split; [reflexivity|].
    assert (W2' : wrote_to (SCells e c1) (SCells e c2) n (S p) l (fun i => look x (xs + S i))).
    { destruct W2 as (A & B & C & D). split; [exact A|]. split; [exact B|]. split; [|exact D]. intros i Hi. rewrite C by exact Hi. f_equal. lia. }
    assert (W1' : wrote_to (SCells e c) (SCells e c1) n p 1 (fun _ => look x (xs + 0))) by (replace (xs + 0)%nat with xs by lia; exact W1).
    apply (wrote_cons _ (SCells e c1) _ n p l (fun i => look x (xs + i)) W1' W2'). lia.
Qed.
Lemma words_app a b : words a -> words b -> words (a ++ b). Proof. apply Forall_app_2 || (intros; apply Forall_app; split; assumption). Qed.
Lemma mbit_app_l a b k : 0 <= k < 64 * len a -> mbit (a ++ b) k = mbit a k.
Proof. intros H. unfold mbit. rewrite app_nth1; [reflexivity|]. unfold len in H. assert (k / 64 < Z.of_nat (length a)) by (apply Z.div_lt_upper_bound; lia). assert (0 <= k / 64) by (apply Z.div_pos; lia). lia. Qed.
Lemma mbit_app_r a b k : 64 * len a <= k -> mbit (a ++ b) k = mbit b (k - 64 * len a).
Proof.
  intros H. unfold mbit. unfold len in *. assert (Z.of_nat (length a) <= k / 64) by (apply Z.div_le_lower_bound; lia). rewrite app_nth2 by lia.
  replace (k - 64 * Z.of_nat (length a)) with (k + (- Z.of_nat (length a)) * 64) by lia. rewrite Z.div_add, Z.mod_add by lia. f_equal. f_equal. lia.
Qed.
Lemma copyG_ok s n p x xn xs l : room s n -> (p + l <= n)%nat -> room x xn -> (xs + l <= xn)%nat -> el_or (st_el s) (st_el x) = st_el s ->
  exists s', copyG s p x xs l = Ok s' /\ wrote_to s s' n p l (fun i => look x (xs + i)).
Proof.
  destruct s as [w|e c].
  - intros [Hw Hl] Hp Rx Hx He. cbn [st_el] in He. destruct (or_bit _ _ He) as [_ Ex]. destruct x as [xw|e c]; [|destruct Rx as (Ne & _); cbn [st_el] in Ex; congruence].
    destruct Rx as [Hxw Hxl]. cbn [copyG].
    destruct (C12_copy_exact (w ++ 0 :: xw) 0 (Z.of_nat p) (Z.of_nat (length w) + 1) (Z.of_nat xs) (Z.of_nat l)) as (m & E & L & W & M1 & M2); try lia.
    { apply words_app; [exact Hw|]. constructor; [cbn; lia|exact Hxw]. }
    { rewrite app_length. cbn [length]. lia. }
    { rewrite app_length. cbn [length]. lia. }
    rewrite E. cbn [bind]. eexists. split; [reflexivity|].
    assert (Hlm : (length w <= length m)%nat) by (rewrite L, app_length; lia).
    assert (Hfl : length (firstn (length w) m) = length w) by (rewrite firstn_length; lia).
    assert (Hbit : forall k, 0 <= k < 64 * Z.of_nat (length w) -> mbit (firstn (length w) m) k = mbit m k).
    { intros k Hk. rewrite <- (firstn_skipn (length w) m) at 2. symmetry. apply mbit_app_l. unfold len. rewrite Hfl. exact Hk. }
    split; [reflexivity|]. split; [|split].
    + split; [|rewrite Hfl; exact Hl]. unfold words in *. rewrite <- (firstn_skipn (length w) m) in W. apply Forall_app in W. apply W.
    + intros i Hi. cbn [look]. rewrite Hbit by lia. f_equal. replace (Z.of_nat (p + i)) with (64 * 0 + Z.of_nat p + Z.of_nat i) by lia. rewrite M1 by lia.
      rewrite mbit_app_r by (unfold len; lia). change (0 :: xw) with ([0] ++ xw). rewrite mbit_app_r by (unfold len; cbn [length]; lia). unfold len. cbn [length].
      replace (64 * (Z.of_nat (length w) + 1) + Z.of_nat xs + Z.of_nat i - 64 * Z.of_nat (length w) - 64 * Z.of_nat 1) with (Z.of_nat (xs + i)) by lia. reflexivity.
    + intros i Hi Hd. cbn [look]. rewrite Hbit by lia. rewrite M2 by lia. rewrite mbit_app_l by (unfold len; lia). reflexivity.
  - intros R Hp Rx Hx He. cbn [st_el] in He. cbn [copyG]. rewrite okcopy_absorb by (try exact He; apply R).
    destruct (copy_cells_ok l e c n p x xn xs R Hp Rx Hx He) as (c' & E & Wt). rewrite E. cbn [bind]. eexists. split; [reflexivity|exact Wt].
Qed.
