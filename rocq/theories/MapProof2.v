(** Each with two arguments, Table. *)
From Verif Require Import Base SqueezeModel TransSpec JoinProof JoinProof4 JoinProof2 MapModel MapSpec MapProof.
Open Scope nat_scope.
Section P.
Context {V S : Type}.
Lemma shaped_bind {A} sh (r : res (list A * S)) : (do (r, s) <- r; Ok (Ar sh r, s)) = shaped sh r.
Proof. destruct r as [[a b]| |]; reflexivity. Qed.
Lemma each1_ok zero own (f : op1 V S) (x : arg V) s : each_c1 zero own f x s = shaped (fst (arr_of x)) (calls (do1 f) (snd (arr_of x)) s).
Proof.
  destruct x as [v|sh d]; cbn [each_c1 arr_of fst snd calls].
  - change (call1 f v s) with (do1 f v s). destruct (do1 f v s) as [[r t]| |]; reflexivity.
  - destruct f as [f| | |c].
    + unfold eachm_fn. destruct (Nat.eqb_spec (length d) 0) as [E|E]; [destruct d; [reflexivity|discriminate]|].
      rewrite shaped_bind. f_equal. destruct own.
      * apply (inplace_all zero (do1 (F1 f)) d d); auto. intros j a v Ha Hv s0. rewrite Ha in Hv. injection Hv as ->. reflexivity.
      * apply (collect_calls (do1 (F1 f)) d). intros j a Ha s0. cbn [Nat.add]. rewrite (rd_nth _ _ _ Ha). reflexivity.
    + assert (C : forall s0, calls (do1 (@Tack V S)) d s0 = Ok (d, s0)) by (induction d as [|a d IH]; intros; [reflexivity|]; cbn [calls do1]; rewrite IH; reflexivity).
      rewrite C. reflexivity.
    + destruct d; reflexivity.
    + assert (C : forall s0, calls (do1 (@Const1 V S c)) d s0 = Ok (repeat c (length d), s0)) by (induction d as [|a d IH]; intros; [reflexivity|]; cbn [calls do1]; rewrite IH; reflexivity).
      rewrite C. reflexivity.
Qed.
Lemma const_calls {A} (c : V) (l : list A) (f : A -> S -> res (V * S)) : (forall a s, f a s = Ok (c, s)) -> forall s, calls f l s = Ok (repeat c (length l), s).
Proof. intros H. induction l as [|a l IH]; intros s; [reflexivity|]. cbn [calls length repeat]. rewrite H, IH. reflexivity. Qed.
(** 𝕨 or 𝕩 after units are replaced with their elements *)
Lemma unit_of_ok (a : arg V) : valid_arg a -> exists b, unit_of a = Ok (length (fst (arr_of a)), b) /\ sh_of b = fst (arr_of a) /\ ia_of b = length (snd (arr_of a)) /\
  (forall i v, nth_error (snd (arr_of a)) i = Some v -> get b i = Ok v) /\ (fst (arr_of a) <> [] -> b = a).
Proof.
  destruct a as [v|[|n sh] d]; unfold valid_arg, array; cbn [arr_of fst snd unit_of]; intros H.
  - eexists. split; [reflexivity|]. split; [reflexivity|]. split; [reflexivity|]. split; [|congruence].
    intros [|[|i]] u; cbn [nth_error]; intros [= <-]. reflexivity.
  - destruct d as [|v [|]]; cbn [size fold_right length] in H; try lia. exists (At v). split; [reflexivity|]. split; [reflexivity|]. split; [reflexivity|]. split; [|congruence].
    intros [|[|i]] u; cbn [nth_error]; intros [= <-]. reflexivity.
  - exists (Ar (n :: sh) d). split; [reflexivity|]. split; [reflexivity|]. split; [reflexivity|]. split; [|reflexivity]. intros i v Hi. cbn [get]. apply rd_nth. exact Hi.
Qed.
Lemma eqShPart_app (a t : list nat) : eqShPart a (a ++ t) (length a) = true.
Proof.
  unfold eqShPart. rewrite firstn_all. rewrite firstn_app, firstn_all, Nat.sub_diag. cbn [firstn]. rewrite app_nil_r.
  induction a as [|x a IH]; [reflexivity|]. cbn [combine forallb fst snd]. rewrite Nat.eqb_refl. exact IH.
Qed.
Lemma eqShPart_iff (a b : list nat) n : n <= length a -> n <= length b -> eqShPart a b n = true <-> firstn n a = firstn n b.
Proof.
  revert a b. induction n as [|n IH]; intros [|x a] [|y b] Ha Hb; cbn [length] in *; try lia; try (cbn; tauto).
  unfold eqShPart. cbn [firstn combine forallb fst snd]. rewrite andb_true_iff, Nat.eqb_eq. change (x = y /\ eqShPart a b n = true <-> x :: firstn n a = y :: firstn n b).
  rewrite IH by lia. split; [intros [-> ->]; reflexivity|intros [= -> ->]; auto].
Qed.
Definition pairs_of (wd xd : list V) (ew ex : nat) : list (V * V) := combine (flat_map (fun v => repeat v ew) wd) (flat_map (fun v => repeat v ex) xd).
Lemma pairs_nth wd xd ew ex n a b : length wd * ew = length xd * ex -> nth_error (pairs_of wd xd ew ex) n = Some (a, b) ->
  nth_error wd (n / ew) = Some a /\ nth_error xd (n / ex) = Some b.
Proof.
  intros E H. assert (L : n < length wd * ew).
  { assert (n < length (pairs_of wd xd ew ex)) by (apply nth_error_Some; rewrite H; discriminate). unfold pairs_of in *. rewrite combine_length, !spread_len in *. lia. }
  apply combine_nth_inv in H. rewrite !spread_nth in H by lia. exact H.
Qed.
Lemma pairs_len wd xd ew ex : length wd * ew = length xd * ex -> length (pairs_of wd xd ew ex) = length wd * ew.
Proof. intros E. unfold pairs_of. rewrite combine_length, !spread_len. lia. Qed.
Lemma paired_w (w x : arg V) t : fst (arr_of w) = fst (arr_of x) ++ t -> valid_arg w -> valid_arg x ->
  paired w x (fst (arr_of w)) (pairs_of (snd (arr_of w)) (snd (arr_of x)) 1 (size t)).
Proof.
  unfold paired, valid_arg. destruct (arr_of w) as [wsh wd], (arr_of x) as [xsh xd]. cbn [fst snd]. intros -> Vw Vx. unfold array in *. rewrite size_app in Vw.
  assert (E : length wd * 1 = length xd * size t) by lia.
  split; [unfold longer; rewrite app_length; destruct (Nat.ltb_spec (length xsh) (length xsh + length t)); [reflexivity|destruct t; [rewrite app_nil_r; reflexivity|cbn [length] in *; lia]]|].
  split; [rewrite pairs_len, size_app by exact E; lia|]. intros I HI. destruct (inb_app _ _ _ HI) as [P Q].
  destruct (elt_some (xsh ++ t) wd I ltac:(unfold array; rewrite size_app; lia) HI) as [a Ha]. destruct (elt_some xsh xd _ Vx P) as [b Hb]. exists a, b.
  assert (F : firstn (length (xsh ++ t)) I = I) by (apply firstn_all2; rewrite (inb_len _ _ HI); lia). rewrite F.
  split; [|auto]. unfold elt at 1, pairs_of. apply nth_combine.
  - rewrite spread_1. exact Ha.
  - change (elt (xsh ++ t) (flat_map (fun v => repeat v (size t)) xd) I = Some b). rewrite spread_elt by assumption. exact Hb.
Qed.
Lemma paired_x (w x : arg V) t : fst (arr_of x) = fst (arr_of w) ++ t -> valid_arg w -> valid_arg x ->
  paired w x (fst (arr_of x)) (pairs_of (snd (arr_of w)) (snd (arr_of x)) (size t) 1).
Proof.
  unfold paired, valid_arg. destruct (arr_of w) as [wsh wd], (arr_of x) as [xsh xd]. cbn [fst snd]. intros -> Vw Vx. unfold array in *. rewrite size_app in Vx.
  assert (E : length wd * size t = length xd * 1) by lia.
  split; [unfold longer; rewrite app_length; destruct (Nat.ltb_spec (length wsh + length t) (length wsh)); [lia|reflexivity]|].
  split; [rewrite pairs_len, size_app by exact E; lia|]. intros I HI. destruct (inb_app _ _ _ HI) as [P Q].
  destruct (elt_some (wsh ++ t) xd I ltac:(unfold array; rewrite size_app; lia) HI) as [b Hb]. destruct (elt_some wsh wd _ Vw P) as [a Ha]. exists a, b.
  assert (F : firstn (length (wsh ++ t)) I = I) by (apply firstn_all2; rewrite (inb_len _ _ HI); lia). rewrite F.
  split; [|auto]. unfold elt at 1, pairs_of. apply nth_combine.
  - change (elt (wsh ++ t) (flat_map (fun v => repeat v (size t)) wd) I = Some a). rewrite spread_elt by assumption. exact Ha.
  - rewrite spread_1. exact Hb.
Qed.
End P.
