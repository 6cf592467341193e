From Verif Require Import Base ListLib TransModel TransSpec TransProof TransProof2 TransProof3.
From Coq Require Import List Arith Lia.
Open Scope nat_scope.
(** * which method: all the same *)
Lemma find1_spec st k i : find1 st k = Some i -> i < k /\ nth i st 0 = 1.
Proof. induction k as [|k IH]; cbn [find1]; [discriminate|]. destruct (Nat.eqb_spec (nth k st 0) 1). - intros [= <-]. auto. - intros E. destruct (IH E). split; auto. Qed.
Lemma F1 rl n : F 1 rl n = offr rl n. Proof. unfold F. rewrite Nat.mod_1_r, Nat.div_1_r. reflexivity. Qed.
Lemma mark_ok (k : nat) : forall (a : list (nat * nat)) n, (k < n \/ n + length a <= k) -> map (fun '(k0, (l, s)) => (k0 =? k, (l, s, 0))) (combine (seq n (length a)) a) = map (pair false) (map (fun '(l, s) => (l, s, 0)) a).
Proof. induction a as [|[l s] a IH]; intros n H; auto. cbn [length seq combine map] in *. replace (n =? k) with false by (symmetry; apply Nat.eqb_neq; lia). f_equal. apply IH. lia. Qed.
Lemma combine_app' {B C} (a1 : list B) (b1 : list C) a2 b2 : length a1 = length b1 -> combine (a1 ++ a2) (b1 ++ b2) = combine a1 b1 ++ combine a2 b2.
Proof. revert b1. induction a1 as [|u a1 IH]; intros [|v b1] H; cbn in *; try discriminate; auto. f_equal. apply IH. lia. Qed.
Section M.
Context {A : Type}.
Variables (x : list A) (csz : nat) (ax : list (nat * nat)).
Hypotheses (C0 : 0 < csz) (PA : pos ax) (NE : ax <> []).
Let N := csz * P ax.
Let f := F csz (rev ax).
Hypothesis fb : forall n, n < N -> f n < length x.
Hypothesis DV : Forall (fun a => exists q, snd a = q * csz) ax.
Lemma reorder_2d_ok xai : csz = 1 -> xai < length ax - 1 -> nth xai (map snd ax) 0 = 1 -> exists l, reorder_2d csz ax x xai = Ok l /\ moved x f N l.
Proof.
  intros C1 XB S1. assert (exists A1 w B1 h ws, ax = A1 ++ (w, 1) :: B1 ++ [(h, ws)] /\ length A1 = xai) as (A1 & w & B1 & h & ws & EA & LA).
  { destruct (exists_last NE) as (ax0 & [h ws] & EA). rewrite EA in *. rewrite app_length in XB. cbn [length] in XB. destruct (nth_error ax0 xai) as [[w s]|] eqn:EN; [|apply nth_error_None in EN; lia]. pose proof EN as EN'. apply nth_error_split in EN. destruct EN as (A1 & B1 & -> & LA). exists A1, w, B1, h, ws. rewrite <- app_assoc. split; auto. rewrite !map_app, <- app_assoc, app_nth2 in S1 by (rewrite map_length; lia). rewrite map_length, LA, Nat.sub_diag in S1. cbn in S1. subst s. reflexivity. }
  unfold reorder_2d. rewrite C1. cbn [Nat.eqb negb]. assert (RA : length ax - 1 = length A1 + S (length B1)) by (rewrite EA, app_length; cbn [length]; rewrite app_length; cbn [length]; lia). rewrite RA.
  assert (NW : nth xai (map fst ax) 0 = w) by (rewrite EA, map_app, app_nth2, map_length, LA, Nat.sub_diag by (rewrite map_length; lia); reflexivity).
  assert (NH : nth (length A1 + S (length B1)) (map fst ax) 0 = h). { rewrite EA, map_app, app_nth2, map_length by (rewrite map_length; lia). replace (length A1 + S (length B1) - length A1) with (S (length B1)) by lia. cbn [map nth]. rewrite map_app, app_nth2, map_length, Nat.sub_diag by (rewrite map_length; lia). reflexivity. }
  assert (NS : nth (length A1 + S (length B1)) (map snd ax) 0 = ws). { rewrite EA, map_app, app_nth2, map_length by (rewrite map_length; lia). replace (length A1 + S (length B1) - length A1) with (S (length B1)) by lia. cbn [map nth]. rewrite map_app, app_nth2, map_length, Nat.sub_diag by (rewrite map_length; lia). reflexivity. }
  assert (HS : shProd (firstn (length A1 + S (length B1) - (xai + 1)) (skipn (xai + 1) (map fst ax))) = P (rev B1)). { rewrite P_rev. unfold P. f_equal. rewrite EA, map_app, skipn_app, skipn_all2 by (rewrite map_length; lia). rewrite map_length. replace (xai + 1 - length A1) with 1 by lia. cbn [app skipn map]. rewrite map_app, firstn_app, map_length. replace (length A1 + S (length B1) - (xai + 1)) with (length B1) by lia. rewrite Nat.sub_diag, firstn_O, app_nil_r, firstn_all2 by (rewrite map_length; lia). reflexivity. }
  rewrite NW, NH, NS, HS. assert (RV : rev ax = (h, ws) :: rev B1 ++ (w, 1) :: rev A1) by (rewrite EA; rewrite rev_app_distr; cbn [rev]; rewrite rev_app_distr; cbn [rev app]; rewrite <- app_assoc; reflexivity).
  assert (POS : 0 < h /\ 0 < w /\ pos (rev B1) /\ pos (rev A1)). { rewrite EA in PA. apply Forall_app in PA. destruct PA as [PA1 PA2]. pose proof (Forall_inv PA2) as W0. apply Forall_inv_tail in PA2. apply Forall_app in PA2. destruct PA2 as [PB PH]. pose proof (Forall_inv PH) as H0. repeat split; auto; apply Forall_rev; auto. } destruct POS as (H0 & W0 & PB & PO).
  fold (P ax). rewrite <- (P_rev ax), RV. assert (NN : N = P ((h, ws) :: rev B1 ++ (w, 1) :: rev A1)) by (unfold N; rewrite C1, Nat.mul_1_l, <- RV, P_rev; reflexivity).
  assert (FF : forall n, f n = offr ((h, ws) :: rev B1 ++ (w, 1) :: rev A1) n) by (intros n; unfold f; rewrite C1, F1, RV; reflexivity).
  assert (fb' : forall n, n < P ((h, ws) :: rev B1 ++ (w, 1) :: rev A1) -> offr ((h, ws) :: rev B1 ++ (w, 1) :: rev A1) n < length x) by (intros n H; rewrite <- FF; apply fb; rewrite NN; auto).
  assert (FIN : forall r, inv x (P ((h, ws) :: rev B1 ++ (w, 1) :: rev A1)) (offr ((h, ws) :: rev B1 ++ (w, 1) :: rev A1)) r (fun _ => True) -> exists l, done r = Ok l /\ moved x f N l). { intros r IV. destruct (done_ok _ _ _ r IV) as (lst & -> & LL & H). exists lst. split; auto. split; [rewrite NN; auto|]. intros n NB. rewrite FF. apply H. rewrite <- NN. auto. }
  destruct (Nat.eqb_spec (length ax) 2) as [L2|L2].
  - assert (A1 = [] /\ B1 = []) as [-> ->] by (destruct A1, B1; cbn [length] in RA; try lia; auto). cbn [rev app] in *.
    destruct (tran_ok x _ _ fb' (repeat None (P [(h, ws); (w, 1)])) (fun _ => False) 0 0 w h ws (P [] * h)) as (r & E & IV).
    + apply inv0. auto.
    + intros xi y XI YI. pose proof (iK_row x h ws w [] [] H0 W0 (Forall_nil _) fb' 0 y xi) as Q. cbn [app] in Q. change (iK h w [] 0) with 0 in Q. apply Q; auto; change (P []) with 1; cbn; lia.
    + rewrite E. cbn [bind]. apply FIN. eapply inv_weak; [|exact IV]. intros m MB _. right. change (P []) with 1 in *. rewrite !P_cons in MB. change (P []) with 1 in MB. exists (m / h), (m mod h). split; [apply Nat.div_lt_upper_bound; lia|]. split; [apply Nat.mod_upper_bound; lia|]. pose proof (Nat.div_mod m h ltac:(lia)). rewrite Nat.mul_1_l. lia.
  - match goal with |- context [rev (map ?g ?c)] => replace (rev (map g c)) with (map (pair false) (dg (rev B1) 0) ++ (true, (w, 1, 0)) :: map (pair false) (dg (rev A1) 0)) end.
    + pose proof (loop2d_ok x h ws w (rev B1) (rev A1) H0 W0 PB PO fb' ((w - 1) * (P (rev B1) * h)) eq_refl (S (P ((h, ws) :: rev B1 ++ (w, 1) :: rev A1))) 0 (repeat None (P ((h, ws) :: rev B1 ++ (w, 1) :: rev A1)))) as Q. pose proof (P_pos _ PB). pose proof (P_pos _ PO). destruct Q as (r & E & IV).
      * rewrite P_cons, P_app, P_cons. assert (P (rev B1) * P (rev A1) <= h * (P (rev B1) * (w * P (rev A1)))); [|lia]. transitivity (P (rev B1) * (w * P (rev A1))); [apply Nat.mul_le_mono_l; nia|nia].
      * nia.
      * apply inv0. intros n _. lia.
      * rewrite Nat.mod_0_l, Nat.div_0_l, !offr0 in E by lia. unfold iK in E. rewrite Nat.mod_0_l, Nat.div_0_l in E by lia. cbn [Nat.mul Nat.add] in E. rewrite E. cbn [bind]. apply FIN, IV.
    + symmetry. rewrite EA. rewrite app_comm_cons, app_assoc, firstn_app. assert (LL : length (A1 ++ (w, 1) :: B1) = length A1 + S (length B1)) by (rewrite app_length; reflexivity). rewrite LL, Nat.sub_diag, firstn_O, app_nil_r, firstn_all2 by lia. rewrite seq_app, combine_app' by (rewrite seq_length; auto). rewrite map_app, rev_app_distr. cbn [seq combine map rev Nat.add]. rewrite (mark_ok xai A1 0) by lia. rewrite (mark_ok xai B1 (S (length A1))) by lia. rewrite LA, Nat.eqb_refl, !dg0, <- !map_rev, <- app_assoc. reflexivity.
Qed.
Lemma move_ok lw isB : exists l, move lw isB csz ax x = Ok l /\ moved x f N l.
Proof.
  pose proof (select_path_ok x csz ax C0 PA NE fb DV) as SEL. unfold move. destruct (_ <=? csz); [apply reorder_copy_ok; auto|]. destruct (_ && _ && _ && _ && _); [|exact SEL]. destruct (find1 (map snd ax) (length ax - 1)) as [xai|] eqn:EF; [|exact SEL]. destruct (_ <? _); [exact SEL|]. apply find1_spec in EF. destruct EF as [XB S1]. apply reorder_2d_ok; auto. rewrite Forall_forall in DV. destruct (DV (nth xai ax (0, 0))) as (q & Q); [apply nth_In; lia|]. change 0 with (snd (0, 0)) in S1 at 1. rewrite map_nth in S1. rewrite S1 in Q. symmetry in Q. apply Nat.eq_mul_1 in Q. tauto.
Qed.
End M.
(** * Transpose *)
Lemma noshape_ok {A} (x : list A) w h : 0 < h -> length x = w * h -> exists l, transpose_noshape x w h = Ok l /\ moved x (fun n => (n mod h) * w + n / h) (w * h) l.
Proof.
  intros H0 LX. unfold transpose_noshape. rewrite LX. set (f := fun n => (n mod h) * w + n / h).
  assert (fb : forall n, n < w * h -> f n < length x). { intros n NB. unfold f. rewrite LX. pose proof (Nat.mod_upper_bound n h ltac:(lia)). assert (n / h < w) by (apply Nat.div_lt_upper_bound; lia). nia. }
  destruct (tran_ok x (w * h) f fb (repeat None (w * h)) (fun _ => False) 0 0 w h w h) as (r & E & IV).
  - apply inv0. auto.
  - intros xi y XB YB. cbn [Nat.add]. split; [nia|]. unfold f. destruct (divmod_digit h xi y H0 YB) as [-> ->]. reflexivity.
  - rewrite E. cbn [bind]. destruct (done_ok x (w * h) f r) as (l & -> & LL & H); [|exists l; split; auto; split; auto]. eapply inv_weak; [|exact IV]. intros m MB _. right. exists (m / h), (m mod h). split; [apply Nat.div_lt_upper_bound; lia|]. split; [apply Nat.mod_upper_bound; lia|]. pose proof (Nat.div_mod m h ltac:(lia)). lia.
Qed.
