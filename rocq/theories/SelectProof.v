From Verif Require Import Base BitsModel BitsSpec BitsProof BitsProof2 SqueezeModel SqueezeProof WidenModel SlashModel SlashModel2 SlashModel3 SlashSpec SlashThm SelectModel SelectSpec.
From Coq Require Import List Lia.

Lemma all_some_app {A} (l m : list (option A)) : all_some (l ++ m) = match all_some l with Some r => match all_some m with Some s => Some (r ++ s) | None => None end | None => None end.
Proof. induction l as [|[a|] l IH]; cbn [app all_some]; [destruct (all_some m); reflexivity| |reflexivity]. rewrite IH. destruct (all_some l); [|reflexivity]. destruct (all_some m); reflexivity. Qed.
Lemma all_some_none {A} (l : list (option A)) : In None l -> all_some l = None.
Proof. induction l as [|[a|] l IH]; intros H; [destruct H| |reflexivity]. destruct H as [H|H]; [discriminate|]. cbn. rewrite IH by auto. reflexivity. Qed.
Lemma sel_app {A} (xs : list A) l m : selection xs (l ++ m) = match selection xs l with Some r => match selection xs m with Some s => Some (r ++ s) | None => None end | None => None end.
Proof. unfold selection. rewrite map_app. apply all_some_app. Qed.
Lemma sel_none {A} (xs : list A) l e : In e l -> cell_of xs e = None -> selection xs l = None.
Proof. intros H N. apply all_some_none. rewrite <- N. apply in_map; auto. Qed.
Lemma sel_cons {A} (xs : list A) e l : selection xs (e :: l) = match cell_of xs e with Some v => match selection xs l with Some r => Some (v :: r) | None => None end | None => None end.
Proof. unfold selection. cbn. destruct (cell_of xs e); reflexivity. Qed.

Lemma xat_ok {A} (xs : list A) i : 0 <= i < Z.of_nat (length xs) -> exists v, nth_error xs (Z.to_nat i) = Some v /\ xat xs i = Ok v.
Proof.
  intros H. unfold xat. destruct (i <? 0) eqn:E; [lia|]. destruct (nth_error xs (Z.to_nat i)) as [v|] eqn:N; [eauto|].
  apply nth_error_None in N. lia.
Qed.
Lemma xat_in {A} (xs : list A) z : 0 <= z < Z.of_nat (length xs) -> xat xs z = or_error (cell_at xs z).
Proof. intros H. unfold cell_at. replace ((0 <=? z) && (z <? Z.of_nat (length xs))) with true by lia. destruct (xat_ok xs z H) as (v & -> & ->). reflexivity. Qed.
Lemma xat_neg {A} (xs : list A) z : - Z.of_nat (length xs) <= z < 0 -> xat xs (Z.of_nat (length xs) + z) = or_error (cell_at xs z).
Proof.
  intros H. unfold cell_at. replace ((0 <=? z) && (z <? Z.of_nat (length xs))) with false by lia. replace ((- Z.of_nat (length xs) <=? z) && (z <? 0)) with true by lia.
  destruct (xat_ok xs (Z.of_nat (length xs) + z)) as (v & -> & ->); [lia|reflexivity].
Qed.
Lemma cell_in {A} (xs : list A) z : - Z.of_nat (length xs) <= z < Z.of_nat (length xs) -> exists v, cell_at xs z = Some v.
Proof.
  intros H. unfold cell_at. destruct ((0 <=? z) && (z <? Z.of_nat (length xs))) eqn:E.
  - destruct (xat_ok xs z) as (v & -> & _); [lia|eauto].
  - destruct ((- Z.of_nat (length xs) <=? z) && (z <? 0)) eqn:F; [|lia]. destruct (xat_ok xs (Z.of_nat (length xs) + z)) as (v & -> & _); [lia|eauto].
Qed.
Lemma cell_out {A} (xs : list A) z : ~ - Z.of_nat (length xs) <= z < Z.of_nat (length xs) -> cell_at xs z = None.
Proof.
  intros H. unfold cell_at. destruct ((0 <=? z) && (z <? Z.of_nat (length xs))) eqn:E; [lia|].
  destruct ((- Z.of_nat (length xs) <=? z) && (z <? 0)) eqn:F; [lia|reflexivity].
Qed.
Lemma WRAP_spec xn v : 0 <= xn < 2 ^ 62 -> - 2 ^ 63 <= v < 2 ^ 63 -> WRAP xn v = if (- xn <=? v) && (v <? xn) then Ok (if v <? 0 then xn + v else v) else Err.
Proof.
  intros X V. unfold WRAP, to_u. change (2 ^ 63) with 9223372036854775808 in *. change (2 ^ 62) with 4611686018427387904 in *. change (2 ^ 64) with 18446744073709551616.
  destruct (v <? 0) eqn:N.
  - assert (v mod 18446744073709551616 = v + 18446744073709551616) as -> by lia. destruct (xn <=? v + _) eqn:L; [|lia].
    destruct (- xn <=? v) eqn:G; cbn [andb].
    + assert ((v + xn) mod 18446744073709551616 = v + xn) as -> by lia. destruct (xn <=? v + xn) eqn:K; [lia|]. destruct (v <? xn) eqn:K2; [|lia]. f_equal; lia.
    + assert ((v + xn) mod 18446744073709551616 = v + xn + 18446744073709551616) as -> by lia. destruct (xn <=? v + xn + _) eqn:K; [reflexivity|lia].
  - assert (v mod 18446744073709551616 = v) as -> by lia. destruct (xn <=? v) eqn:L.
    + assert ((v + xn) mod 18446744073709551616 = v + xn) as -> by lia. destruct (xn <=? v + xn) eqn:K; [|lia]. destruct (v <? xn) eqn:K2; [lia|]. rewrite andb_false_r. reflexivity.
    + destruct (v <? xn) eqn:K; [|lia]. destruct (- xn <=? v) eqn:K2; [reflexivity|lia].
Qed.
Lemma WRAP_at {A} (xs : list A) v : Z.of_nat (length xs) < 2 ^ 62 -> - 2 ^ 63 <= v < 2 ^ 63 -> bind (WRAP (Z.of_nat (length xs)) v) (fun n => xat xs n) = or_error (cell_at xs v).
Proof.
  intros X V. rewrite WRAP_spec by lia. destruct ((- Z.of_nat (length xs) <=? v) && (v <? Z.of_nat (length xs))) eqn:E; cbn [bind].
  - destruct (v <? 0) eqn:N; [apply xat_neg|apply xat_in]; lia.
  - rewrite cell_out by lia. reflexivity.
Qed.
Lemma step {A} (xs : list A) v (k : A -> res (list A)) : Z.of_nat (length xs) < 2 ^ 62 -> - 2 ^ 63 <= v < 2 ^ 63 ->
  bind (WRAP (Z.of_nat (length xs)) v) (fun n => bind (xat xs n) k) = match cell_at xs v with Some a => k a | None => Err end.
Proof.
  intros X V. pose proof (WRAP_at xs v X V) as H. destruct (WRAP (Z.of_nat (length xs)) v) as [n| |]; cbn [bind] in *.
  - rewrite H. destruct (cell_at xs v); reflexivity.
  - destruct (cell_at xs v); [discriminate|reflexivity].
  - destruct (cell_at xs v); discriminate.
Qed.
Lemma rest_ok {A} (a : A) o : (do r <- or_error o; Ok (a :: r)) = or_error (match o with Some r => Some (a :: r) | None => None end).
Proof. destruct o; reflexivity. Qed.

Lemma sel_each_ok {A} (xs : list A) l : Z.of_nat (length xs) < 2 ^ 62 -> Forall (fun z => - 2 ^ 63 <= z < 2 ^ 63) l -> sel_each xs (Z.of_nat (length xs)) l = or_error (selection xs (map Some l)).
Proof.
  intros X. induction l as [|z l IH]; intros F; [reflexivity|]. inversion F; subst. cbn [sel_each map]. rewrite step by auto. rewrite sel_cons. cbn [cell_of].
  destruct (cell_at xs z); [|reflexivity]. rewrite IH by auto. apply rest_ok.
Qed.
Lemma sel_slow_ok {A} (xs : list A) l : Z.of_nat (length xs) < 2 ^ 62 -> sel_slow xs (Z.of_nat (length xs)) l = or_error (selection xs l).
Proof.
  intros X. induction l as [|[z|] l IH]; [reflexivity| |reflexivity]. cbn [sel_slow]. rewrite sel_cons. cbn [cell_of].
  destruct ((z <? - 2 ^ 63) || (2 ^ 63 <=? z)) eqn:E.
  - rewrite cell_out; [reflexivity|]. change (2 ^ 63) with 9223372036854775808 in *. change (2 ^ 62) with 4611686018427387904 in *. lia.
  - rewrite step by lia. destruct (cell_at xs z); [|reflexivity]. rewrite IH. apply rest_ok.
Qed.
Lemma sel_bits_ok {A} (xs : list A) l : Z.of_nat (length xs) < 2 ^ 62 -> sel_bits xs (Z.of_nat (length xs)) l = or_error (selection xs (map (fun b : bool => Some (if b then 1 else 0)) l)).
Proof.
  intros X. induction l as [|b l IH]; [reflexivity|]. cbn [sel_bits map]. rewrite sel_cons. cbn [cell_of].
  set (c := if b then 1 else 0). assert (0 <= c) by (unfold c; destruct b; lia). destruct (Z.of_nat (length xs) <=? c) eqn:E.
  - rewrite cell_out by lia. reflexivity.
  - rewrite xat_in by lia. destruct (cell_at xs c); [|reflexivity]. cbn [or_error bind]. rewrite IH. apply rest_ok.
Qed.

Lemma minmax_ok l : forall e a b, minmax l e = (a, b) -> (forall z, In z (e :: l) -> a <= z <= b) /\ In a (e :: l) /\ In b (e :: l).
Proof.
  unfold minmax. assert (G : forall l p q a b, p <= q -> fold_left (fun '(mn, mx) e => (if e <? mn then e else mn, if mx <? e then e else mx)) l (p, q) = (a, b) -> a <= p /\ q <= b /\ (forall z, In z l -> a <= z <= b) /\ (a = p \/ In a l) /\ (b = q \/ In b l)).
  { clear. induction l as [|e l IH]; intros p q a b PQ E; cbn [fold_left] in E.
    - injection E as -> ->. repeat split; try lia; try (now left); try contradiction; intros; contradiction.
    - apply IH in E; [|destruct (e <? p) eqn:?, (q <? e) eqn:?; lia]. destruct E as (E1 & E2 & E3 & E4 & E5).
      assert (a <= e <= b) by (destruct (e <? p) eqn:?, (q <? e) eqn:?; lia).
      repeat split; try (destruct (e <? p) eqn:?, (q <? e) eqn:?; lia).
      + destruct H0 as [->|H0]; [lia|]. apply E3 in H0. lia.
      + destruct H0 as [->|H0]; [lia|]. apply E3 in H0. lia.
      + destruct E4 as [E4|E4]; [|right; right; auto]. destruct (e <? p); [right; left; auto|left; auto].
      + destruct E5 as [E5|E5]; [|right; right; auto]. destruct (q <? e); [right; left; auto|left; auto]. }
  intros e a b E. apply G in E; [|lia]. destruct E as (E1 & E2 & E3 & E4 & E5). split.
  - intros z [->|H]; [lia|apply E3; auto].
  - split; [destruct E4 as [->|]; [left|right]|destruct E5 as [->|]; [left|right]]; auto.
Qed.
Lemma sel_off_ok {A} (xs : list A) off f l : Forall (fun z => xat xs (off + f z) = or_error (cell_at xs z) ) l -> sel_off xs off (map f l) = or_error (selection xs (map Some l)).
Proof.
  induction l as [|z l IH]; intros F; [reflexivity|]. inversion F; subst. cbn [sel_off map]. rewrite H1, sel_cons. cbn [cell_of].
  destruct (cell_at xs z); [|reflexivity]. cbn [or_error bind]. rewrite IH by auto. apply rest_ok.
Qed.
Lemma fix_ok k xn e : (k = 8 \/ k = 16) -> 0 <= xn <= 2 ^ (k - 1) -> - 2 ^ (k - 1) <= e < 2 ^ (k - 1) -> - xn <= e < xn -> sel_fix k xn e = if e <? 0 then xn + e else e.
Proof.
  intros K X E I. unfold sel_fix. assert (KK : 1 <= k) by lia. destruct (e <? 0) eqn:N.
  - rewrite Z.land_m1_r. unfold to_s. destruct K as [-> | ->]; [change (2 ^ (8 - 1)) with 128 in *; change (2 ^ 8) with 256|change (2 ^ (16 - 1)) with 32768 in *; change (2 ^ 16) with 65536]; lia.
  - rewrite Z.land_0_r, Z.add_0_r. apply to_s_id; lia.
Qed.
Definition inr (k : Z) (l : list Z) : Prop := Forall (fun z => - 2 ^ (k - 1) <= z < 2 ^ (k - 1)) l.
Lemma inr_63 k l : k = 8 \/ k = 16 \/ k = 32 -> inr k l -> Forall (fun z => - 2 ^ 63 <= z < 2 ^ 63) l.
Proof. intros K. apply Forall_impl. intros z H. change (2 ^ 63) with 9223372036854775808. destruct K as [-> | [-> | ->]]; [change (2 ^ (8 - 1)) with 128 in H|change (2 ^ (16 - 1)) with 32768 in H|change (2 ^ (32 - 1)) with 2147483648 in H]; lia. Qed.
Lemma sel_blocks_ok {A} k next (xs : list A) : (k = 8 \/ k = 16) -> forall f pre l out,
  (length l < f)%nat -> inr k l -> selection xs (map Some pre) = Some out -> next = or_error (selection xs (map Some (pre ++ l))) ->
  sel_blocks f k next xs (Z.of_nat (length xs)) l out = or_error (selection xs (map Some (pre ++ l))).
Proof.
  intros K. induction f as [|f IH]; intros pre l out L R P N; [lia|]. destruct l as [|e l]; [cbn [sel_blocks]; rewrite app_nil_r, P; reflexivity|].
  cbn [sel_blocks]. set (bl := Z.to_nat (2 ^ 14 / (k / 8))).
  assert (B : (1 <= bl)%nat). { unfold bl. destruct K as [-> | ->]; [change (2 ^ 14 / (8 / 8)) with 16384|change (2 ^ 14 / (16 / 8)) with 8192]; lia. }
  clearbody bl. set (b := firstn bl (e :: l)) in *. assert (Eb : e :: tl b = b). { unfold b. destruct bl; [lia|reflexivity]. }
  assert (Rb : inr k b). { unfold inr in *. rewrite Forall_forall in *. intros z H. apply R. rewrite <- (firstn_skipn bl (e :: l)). apply in_or_app. left; exact H. }
  assert (Rs : inr k (skipn bl (e :: l))). { unfold inr in *. rewrite Forall_forall in *. intros z H. apply R. rewrite <- (firstn_skipn bl (e :: l)). apply in_or_app. right; exact H. }
  destruct (minmax (tl b) e) as [mn mx] eqn:M. apply minmax_ok in M. rewrite Eb in M. destruct M as (M & In1 & In2).
  assert (OUT : forall z, In z b -> ~ - Z.of_nat (length xs) <= z < Z.of_nat (length xs) -> or_error (selection xs (map Some (pre ++ e :: l))) = Err).
  { intros z I O. rewrite (sel_none xs _ (Some z)); [reflexivity| |apply cell_out; auto]. apply in_map, in_or_app; right. rewrite <- (firstn_skipn bl (e :: l)). apply in_or_app; left; exact I. }
  destruct (mn <? - Z.of_nat (length xs)) eqn:C1; [symmetry; apply (OUT mn); auto; lia|].
  destruct (Z.of_nat (length xs) <=? mx) eqn:C2; [symmetry; apply (OUT mx); auto; lia|].
  destruct ((0 <=? mx) && (mn <? 0) && (2 ^ (k - 1) <? Z.of_nat (length xs))) eqn:C3; [exact N|].
  assert (S1 : (if 0 <=? mx then if mn <? 0 then sel_off xs 0 (map (sel_fix k (Z.of_nat (length xs))) b) else sel_off xs 0 b else sel_off xs (Z.of_nat (length xs)) b) = or_error (selection xs (map Some b))).
  { assert (I : forall z, In z b -> - 2 ^ (k - 1) <= z < 2 ^ (k - 1)) by (apply Forall_forall; exact Rb).
    destruct (0 <=? mx) eqn:D1; [destruct (mn <? 0) eqn:D2|].
    - apply sel_off_ok. apply Forall_forall. intros z Hz. rewrite fix_ok; auto; [|cbn [andb] in C3; lia|specialize (M z Hz); lia].
      specialize (M z Hz). destruct (z <? 0) eqn:Z0; rewrite Z.add_0_l; [apply xat_neg|apply xat_in]; lia.
    - rewrite <- (map_id b) at 1. apply sel_off_ok. apply Forall_forall. intros z Hz. specialize (M z Hz). rewrite Z.add_0_l. apply xat_in; lia.
    - rewrite <- (map_id b) at 1. apply sel_off_ok. apply Forall_forall. intros z Hz. specialize (M z Hz). apply xat_neg; lia. }
  rewrite S1. assert (S2 : exists r, selection xs (map Some b) = Some r).
  { clear - M C1 C2. induction b as [|z b IHb]; [eexists; reflexivity|]. destruct IHb as [r Hr]; [intros; apply M; right; auto|]. cbn [map]. rewrite sel_cons. cbn [cell_of].
    destruct (cell_in xs z) as [v ->]; [specialize (M z (or_introl eq_refl)); lia|]. rewrite Hr. eauto. }
  destruct S2 as [r S2]. rewrite S2. cbn [or_error bind].
  assert (SP : pre ++ e :: l = (pre ++ b) ++ skipn bl (e :: l)). { rewrite <- app_assoc. unfold b. rewrite firstn_skipn. reflexivity. }
  rewrite SP in *. apply IH; auto.
  - rewrite skipn_length. cbn [length] in *. lia.
  - rewrite map_app, sel_app, P, S2. reflexivity.
Qed.
Lemma inr_wider k k' l : k <= k' -> inr k l -> inr k' l.
Proof. intros K. apply Forall_impl. intros z H. assert (2 ^ (k - 1) <= 2 ^ (k' - 1)) by (apply Z.pow_le_mono_r; lia). lia. Qed.
Section K.
Context {A : Type}.
Variable xs : list A.
Hypothesis X : Z.of_nat (length xs) < 2 ^ 62.
Lemma sel32_ok l : inr 32 l -> sel32 xs (Z.of_nat (length xs)) l = or_error (selection xs (map Some l)).
Proof using X. intros R. apply sel_each_ok; auto. apply (inr_63 32); auto. Qed.
Lemma sel16_ok l : inr 16 l -> sel16 xs (Z.of_nat (length xs)) l = or_error (selection xs (map Some l)).
Proof using X. intros R. apply (sel_blocks_ok 16 _ xs (or_intror eq_refl) _ []); auto. apply sel32_ok. apply (inr_wider 16); auto; lia. Qed.
Lemma sel8_ok l : inr 8 l -> sel8 xs (Z.of_nat (length xs)) l = or_error (selection xs (map Some l)).
Proof using X. intros R. apply (sel_blocks_ok 8 _ xs (or_introl eq_refl) _ []); auto. apply sel16_ok. apply (inr_wider 8); auto; lia. Qed.
Lemma sel_ints_ok k l : k = 8 \/ k = 16 \/ k = 32 -> inr k l -> sel_ints k xs (Z.of_nat (length xs)) l = or_error (selection xs (map Some l)).
Proof using X. intros [-> | [-> | ->]] R; unfold sel_ints; cbn [Z.eqb Pos.eqb]; [apply sel8_ok|apply sel16_ok|apply sel32_ok]; auto. Qed.
End K.
