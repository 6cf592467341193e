From Verif Require Import Base ListLib BitsModel SqueezeModel SqueezeProof GroupModel GroupSpec.
From Coq Require Import List Lia.
Open Scope Z_scope.

(** * The first pass *)
Definition cnt (n : Z) (w : list Z) : Z := Z.of_nat (length (filter (fun a => a =? n) w)).
Fixpoint srt (prev : Z) (w : list Z) : bool := match w with [] => true | n :: w => (prev <=? n) && srt n w end.
Lemma cnt_cons n a w : cnt n (a :: w) = (if a =? n then 1 else 0) + cnt n w.
Proof. unfold cnt. cbn [filter]. destruct (a =? n); cbn [length]; lia. Qed.
Lemma cnt_app n a b : cnt n (a ++ b) = cnt n a + cnt n b. Proof. unfold cnt. rewrite filter_app, app_length. lia. Qed.
Lemma cnt_nn n w : 0 <= cnt n w. Proof. unfold cnt. lia. Qed.
Lemma accum_ok : forall w prev s, let r := accum w prev s in
  g_bad r = g_bad s || existsb (fun n => n <? -1) w /\ g_neg r = g_neg s + cnt (-1) w /\ g_sort r = g_sort s && srt prev w /\ g_max r = fold_right Z.max (g_max s) w.
Proof.
  induction w as [|n w IH]; intros prev s r; subst r; cbn [accum].
  - cbn. rewrite orb_false_r, andb_true_r, Z.add_0_r. auto.
  - specialize (IH n {| g_bad := g_bad s || (n <? -1); g_neg := g_neg s + (if n =? -1 then 1 else 0); g_sort := g_sort s && (prev <=? n); g_change := g_change s + (if negb (prev =? n) then 1 else 0); g_max := if g_max s <? n then n else g_max s |}). cbv zeta in IH. destruct IH as (B & N & S & M). cbn [g_bad g_neg g_sort g_max] in *. rewrite B, N, S, M. cbn [existsb srt fold_right]. rewrite cnt_cons. repeat split.
    + rewrite <- orb_assoc. reflexivity.
    + lia.
    + rewrite <- andb_assoc. reflexivity.
    + replace (if g_max s <? n then n else g_max s) with (Z.max n (g_max s)) by (destruct (Z.ltb_spec (g_max s) n); lia). clear. induction w as [|a w IH]; cbn [fold_right]; [lia|]. rewrite IH. lia.
Qed.
(** * The table of lengths *)
Definition sumof (j : Z) (l : list (Z * Z)) : Z := fold_right (fun p s => (if fst p =? j then snd p else 0) + s) 0 l.
Lemma nth_rd {B} (l : list B) i d : (i < length l)%nat -> rd l i = Ok (nth i l d).
Proof. intros H. unfold rd. rewrite (nth_error_nth' l d) by auto. reflexivity. Qed.
Lemma wr_ok {B} (l : list B) i v : (i < length l)%nat -> wr l i v = Ok (upd l i v).
Proof. intros H. unfold wr. destruct (Nat.ltb_spec i (length l)); [reflexivity|lia]. Qed.
Lemma upd_len {B} (l : list B) i v : length (upd l i v) = length l.
Proof. revert i. induction l as [|a l IH]; intros [|i]; cbn [upd length]; auto. Qed.
Lemma upd_nth {B} (l : list B) i j v d : (i < length l)%nat -> nth j (upd l i v) d = if (j =? i)%nat then v else nth j l d.
Proof. revert i j. induction l as [|a l IH]; intros [|i] [|j] H; cbn [upd nth length] in *; try lia; auto. rewrite IH by lia. reflexivity. Qed.
Lemma upd_nth_error {B} (l : list B) i j v : (i < length l)%nat -> nth_error (upd l i v) j = if (j =? i)%nat then Some v else nth_error l j.
Proof. revert i j. induction l as [|a l IH]; intros [|i] [|j] H; cbn [upd nth_error length] in *; try lia; auto. rewrite IH by lia. reflexivity. Qed.
Lemma bumps_ok ria : 0 <= ria -> forall l t, length t = Z.to_nat (2 * ria + 1) -> Forall (fun p => -1 <= fst p < ria) l ->
  exists t', bumps t ria l = Ok t' /\ length t' = length t /\ firstn (Z.to_nat ria) t' = firstn (Z.to_nat ria) t /\ forall j, 0 <= j < ria -> nth (Z.to_nat (ria + 1 + j)) t' 0 = nth (Z.to_nat (ria + 1 + j)) t 0 + sumof j l.
Proof.
  intros R. induction l as [|[w v] l IH]; intros t L F; cbn [bumps].
  - exists t. repeat split; auto. intros j J. cbn. lia.
  - inversion F as [|? ? W F']; subst. cbn [fst] in W. unfold bump. replace (ria + 1 + w <? 0) with false by lia. rewrite (nth_rd t _ 0) by lia. cbn [bind]. rewrite wr_ok by lia. cbn [bind].
    destruct (IH (upd t (Z.to_nat (ria + 1 + w)) (nth (Z.to_nat (ria + 1 + w)) t 0 + v))) as (t' & E & L' & P & S); auto; [rewrite upd_len; auto|]. exists t'. split; auto. split; [rewrite L', upd_len; auto|]. split.
    + rewrite P. clear - W R. assert (H : (Z.to_nat ria <= Z.to_nat (ria + 1 + w))%nat) by lia. revert H. generalize (Z.to_nat ria) (Z.to_nat (ria + 1 + w)) (nth (Z.to_nat (ria + 1 + w)) t 0 + v). clear. intros a b v. revert a b. induction t as [|c t IH]; intros a b H; destruct b, a; cbn [upd firstn]; auto; try lia. rewrite IH by lia. reflexivity.
    + intros j J. rewrite S by auto. rewrite upd_nth by lia. cbn [sumof fold_right fst snd]. fold (sumof j l). destruct (Nat.eqb_spec (Z.to_nat (ria + 1 + j)) (Z.to_nat (ria + 1 + w))) as [H|H]; [replace w with j in * by lia; rewrite Z.eqb_refl; lia|]. replace (w =? j) with false by lia. lia.
Qed.
Lemma nth_skip {B} (l : list B) k i d : nth i (skipn k l) d = nth (k + i) l d.
Proof. revert l. induction k as [|k IH]; intros [|a l]; cbn [skipn Nat.add nth]; auto. destruct i; reflexivity. Qed.
Definition zs (n : Z) : list Z := map Z.of_nat (seq 0 (Z.to_nat n)).
Lemma table_lens ria t (f : Z -> Z) : 0 <= ria -> length t = Z.to_nat (2 * ria + 1) -> (forall j, 0 <= j < ria -> nth (Z.to_nat (ria + 1 + j)) t 0 = f j) -> lens t ria = map f (zs ria).
Proof.
  intros R L H. unfold lens, zs. rewrite map_map. assert (LL : length (skipn (Z.to_nat (ria + 1)) t) = Z.to_nat ria) by (rewrite skipn_length; lia). apply (nth_ext _ _ 0 0); [rewrite map_length, seq_length; auto|]. rewrite LL. intros i I.
  rewrite (nth_indep (map _ _) 0 ((fun x => f (Z.of_nat x)) O)) by (rewrite map_length, seq_length; auto). rewrite (map_nth (fun x => f (Z.of_nat x))), seq_nth by auto. rewrite <- H by lia. rewrite nth_skip. f_equal. lia.
Qed.
Lemma sumof_ones j w : sumof j (map (fun n => (n, 1)) w) = cnt j w.
Proof. induction w as [|a w IH]; [reflexivity|]. rewrite cnt_cons. cbn [map sumof fold_right fst snd]. fold (sumof j (map (fun n => (n, 1)) w)). rewrite IH. reflexivity. Qed.

(** * Runs *)
Definition expand (l : list (Z * Z)) : list Z := concat (map (fun p => repeat (fst p) (Z.to_nat (snd p))) l).
Lemma filter_rep n m k : filter (fun a => a =? n) (repeat m k) = if m =? n then repeat m k else [].
Proof. induction k as [|k IH]; cbn [repeat filter]; [destruct (m =? n); reflexivity|]. rewrite IH. destruct (m =? n); reflexivity. Qed.
Lemma cnt_rep n m k : cnt n (repeat m k) = if m =? n then Z.of_nat k else 0. Proof. unfold cnt. rewrite filter_rep. destruct (m =? n); cbn; rewrite ?repeat_length; lia. Qed.
Lemma sumof_expand j l : Forall (fun p => 0 <= snd p) l -> sumof j l = cnt j (expand l).
Proof.
  induction 1 as [|[n c] l C F IH]; [reflexivity|]. cbn [sumof fold_right fst snd expand map concat] in *. fold (sumof j l). fold (expand l). rewrite cnt_app, cnt_rep, IH. destruct (n =? j); lia.
Qed.
Lemma changes_ge : forall w prev i, Forall (fun p => i <= snd p < i + Z.of_nat (length w)) (changes prev w i).
Proof. induction w as [|n w IH]; intros prev i; cbn [changes]; [constructor|]. assert (H : Forall (fun p => i <= snd p < i + Z.of_nat (length (n :: w))) (changes n w (i + 1))) by (eapply Forall_impl; [|apply (IH n (i + 1))]; cbn [length]; intros; lia). destruct (prev =? n); auto. constructor; auto. cbn [snd length]. lia. Qed.
Lemma runs_ok : forall w prev i, match changes prev w i with
  | [] => w = repeat prev (length w)
  | (n, i0) :: _ => let rl := run_lens (changes prev w i) (i + Z.of_nat (length w)) in i <= i0 < i + Z.of_nat (length w) /\ Forall (fun p => 0 <= snd p) rl /\ w = repeat prev (Z.to_nat (i0 - i)) ++ expand rl
  end.
Proof.
  induction w as [|n w IH]; intros prev i; cbn [changes]; [reflexivity|]. specialize (IH n (i + 1)). replace (i + 1 + Z.of_nat (length w)) with (i + Z.of_nat (length (n :: w))) in IH by (cbn [length]; lia). destruct (Z.eqb_spec prev n) as [->|NE].
  - destruct (changes n w (i + 1)) as [|[m i0] t] eqn:E; [cbn [length repeat]; congruence|]. cbv zeta in *. destruct IH as (I & F & W). split; [lia|]. split; auto. replace (Z.to_nat (i0 - i)) with (S (Z.to_nat (i0 - (i + 1)))) by lia. cbn [repeat app]. congruence.
  - cbv zeta. split; [cbn [length]; lia|]. replace (Z.to_nat (i - i)) with O by lia. cbn [repeat app]. destruct (changes n w (i + 1)) as [|[m i0] t] eqn:E.
    + cbn [run_lens]. split; [repeat constructor; cbn [snd length]; lia|]. unfold expand. cbn [map concat fst snd]. rewrite app_nil_r. replace (Z.to_nat (i + Z.of_nat (length (n :: w)) - i)) with (S (length w)) by (cbn [length]; lia). cbn [repeat]. congruence.
    + cbv zeta in IH. destruct IH as (I & F & W). remember ((m, i0) :: t) as ch. cbn [run_lens]. rewrite Heqch at 1. rewrite Heqch at 2. split; [constructor; [cbn [snd]; lia|auto]|]. unfold expand. cbn [map concat fst snd]. replace (Z.to_nat (i0 - i)) with (S (Z.to_nat (i0 - (i + 1)))) by lia. cbn [repeat app]. f_equal. exact W.
Qed.
Lemma run_lens_fst : forall l xn, map fst (run_lens l xn) = map fst l. Proof. induction l as [|[n i] l IH]; intros xn; [reflexivity|]. cbn [run_lens map fst]. rewrite IH. reflexivity. Qed.
Lemma run_lens_le : forall l xn, Forall (fun p => 0 <= snd p <= xn) l -> Forall (fun p => snd p <= xn) (run_lens l xn).
Proof. induction l as [|[n i] l IH]; intros xn F; cbn [run_lens]; [constructor|]. inversion F as [|? ? A F']; subst. cbn [snd] in A. constructor; [|apply IH; auto]. cbn [snd]. destruct l as [|[m j] l]; [lia|]. inversion F'; subst. cbn [snd] in *. lia. Qed.
Lemma changes_in : forall w prev i, incl (map fst (changes prev w i)) w.
Proof. induction w as [|n w IH]; intros prev i; cbn [changes]; [intros a []|]. destruct (prev =? n); [apply incl_tl, IH|]. cbn [map fst]. apply incl_cons; [left; reflexivity|apply incl_tl, IH]. Qed.
