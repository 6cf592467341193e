From Verif Require Import Base ListLib ReuseModel ReuseSpec ReuseProof ReuseProof2.
From Coq Require Import List Lia Permutation.
Open Scope Z_scope.
Lemma perm_without {B} (R : list B) i a : nth_error R i = Some a -> Permutation R (a :: without i R).
Proof. intros E. apply nth_error_split in E. destruct E as (l1 & l2 & -> & <-). unfold without. rewrite firstn_app, firstn_all, Nat.sub_diag. cbn [firstn]. rewrite app_nil_r. replace (skipn (S (length l1)) (l1 ++ a :: l2)) with l2; [symmetry; apply Permutation_middle|]. rewrite skipn_app, skipn_all2 by lia. replace (S (length l1) - length l1)%nat with 1%nat by lia. reflexivity. Qed.
Lemma Forall2_nth {B C} (P : B -> C -> Prop) R E i a : Forall2 P R E -> nth_error R i = Some a -> exists l, nth_error E i = Some l /\ P a l /\ Forall2 P (without i R) (without i E).
Proof.
  intros F. revert i. induction F as [|x y R E H F IH]; intros [|i] N; cbn [nth_error] in *; try discriminate.
  - injection N as ->. exists y. auto.
  - destruct (IH i N) as (l & NE & PL & FW). exists l. split; auto. split; auto. unfold without in *. cbn [firstn skipn app]. constructor; auto.
Qed.
Lemma Forall2_none {B C} (P : B -> C -> Prop) R E i : Forall2 P R E -> nth_error R i = None -> nth_error E i = None.
Proof. intros F N. assert (length R = length E) by (clear N; induction F; cbn [length]; auto). apply nth_error_None in N. apply nth_error_None. lia. Qed.
Section P.
Variables (vle : val -> val -> bool) (chk clears : bool).
Hypothesis total : chk = true -> forall a b, vle a b = true \/ vle b a = true.
Notation wf := (wf vle chk).
Definition holds (h : heap) (a : nat) (l : list val) : Prop := exists e, elems h a = Ok (e, l).
Definition rel (s : state) (p : pstate) : Prop := let '(h, R, out) := s in wf h R /\ Forall2 (holds h) R (fst p) /\ out = snd p.
Definition cond (o : op) : Prop :=
  match o with
  | ONew f e l => forallb (fits e) l = true /\ (f = true -> e = EB)
  | OSort _ | OCheck _ => chk = true
  | OPut _ _ _ => chk = true -> clears = true
  | _ => True
  end.
Lemma holds_pres h h' R E : pres h h' R -> Forall2 (holds h) R E -> Forall2 (holds h') R E.
Proof. intros P F. induction F as [|a l R E [e H] F IH]; constructor. - exists e. rewrite P by (left; auto). auto. - apply IH. intros b I. apply P. right. auto. Qed.
Lemma wf_app h R a : wf h (a :: R) -> wf h (R ++ [a]). Proof. apply wf_perm, Permutation_cons_append. Qed.
Lemma trans_rel h R E l l' r i a out : wf h R -> Forall2 (holds h) R E -> nth_error R i = Some a -> nth_error E i = Some l -> trans vle chk h (without i R) l' r -> exists s', (do (h, r) <- r; Ok (h, without i R ++ [r], out)) = Ok s' /\ rel s' (without i E ++ [l'], out).
Proof.
  intros W F N NE (h' & b & e' & -> & W' & E' & P). cbn [bind]. eexists. split; [reflexivity|]. split; [apply wf_app, W'|]. split; auto. cbn [fst]. destruct (Forall2_nth _ _ _ _ _ F N) as (l0 & _ & _ & FW). apply Forall2_app; [eapply holds_pres; eauto|]. constructor; [exists e'; auto|constructor].
Qed.
Lemma step_sim s p o : rel s p -> cond o -> exists s', step clears vle s o = Ok s' /\ rel s' (pstep vle p o).
Proof.
  destruct s as [[h R] out], p as [E out']. intros (W & F & OE) C. cbn [fst snd] in F, OE. subst out'.
  assert (SAME : rel (h, R, out) (E, out)) by (split; auto).
  assert (HD : forall i a, nth_error R i = Some a -> exists l e, nth_error E i = Some l /\ wf h (a :: without i R) /\ elems h a = Ok (e, l)).
  { intros i a N. destruct (Forall2_nth _ _ _ _ _ F N) as (l & NE & (e & H) & _). exists l, e. split; auto. split; auto. eapply wf_perm; [apply perm_without; eauto|auto]. }
  destruct o as [f e l|i|i|i off len|i n|i j|i v|i|i|i pos v]; cbn [step pstep].
  - destruct C as [C1 C2]. destruct (new_arr_spec vle chk h R f e l W C1 C2) as (h' & r & E1 & W1 & EL & P & _). rewrite E1. cbn [bind]. eexists. split; [reflexivity|]. split; [apply wf_app, W1|]. split; auto. apply Forall2_app; [eapply holds_pres; eauto|]. constructor; [exists e; auto|constructor].
  - destruct (nth_error R i) as [a|] eqn:N; [|rewrite (Forall2_none _ _ _ _ F N); eauto]. destruct (HD i a N) as (l & e & NE & W0 & EL). rewrite NE. destruct (proj2 W a) as (o & G); [eapply nth_error_In; eauto|]. destruct (inc_spec vle chk h R a o W G) as (h' & E1 & W1 & V & _). rewrite E1. cbn [bind]. eexists. split; [reflexivity|]. assert (P : forall b, elems h' b = elems h b) by (intros b; apply elems_view, V). split; [apply wf_app, W1|]. split; auto. apply Forall2_app; [eapply holds_pres; [intros b _; apply P|auto]|]. constructor; [exists e; rewrite P; auto|constructor].
  - destruct (nth_error R i) as [a|] eqn:N; [|rewrite (Forall2_none _ _ _ _ F N); eauto]. destruct (HD i a N) as (l & e & NE & W0 & EL). rewrite NE. destruct (dec_spec vle chk h a _ W0) as (h' & E1 & W1 & P). rewrite E1. cbn [bind]. eexists. split; [reflexivity|]. split; auto. split; auto. destruct (Forall2_nth _ _ _ _ _ F N) as (l0 & _ & _ & FW). eapply holds_pres; eauto.
  - destruct (nth_error R i) as [a|] eqn:N; [|rewrite (Forall2_none _ _ _ _ F N); eauto]. destruct (HD i a N) as (l & e & NE & W0 & EL). rewrite NE. unfold len_of. rewrite EL. cbn [bind]. destruct (Nat.leb_spec (off + len) (length l)); [|eauto]. eapply trans_rel; eauto. eapply do_slice_spec; eauto.
  - destruct (nth_error R i) as [a|] eqn:N; [|rewrite (Forall2_none _ _ _ _ F N); eauto]. destruct (HD i a N) as (l & e & NE & W0 & EL). rewrite NE. unfold len_of. rewrite EL. cbn [bind]. destruct (Nat.leb_spec n (length l)); [|eauto]. eapply trans_rel; eauto. eapply take_spec; eauto.
  - destruct (nth_error R i) as [w|] eqn:N; [|rewrite (Forall2_none _ _ _ _ F N); eauto]. destruct (Forall2_nth _ _ _ _ _ F N) as (l & NE & (e & H) & FW). rewrite NE. destruct (nth_error (without i R) j) as [x|] eqn:N2; [|rewrite (Forall2_none _ _ _ _ FW N2); eauto]. destruct (Forall2_nth _ _ _ _ _ FW N2) as (l2 & NE2 & (e2 & H2) & FW2). rewrite NE2. destruct (join_spec vle chk h w x (without j (without i R)) e l e2 l2) as (h' & b & e' & E' & W' & EL & P); auto. { eapply wf_perm; [|exact W]. etransitivity; [apply perm_without; exact N|]. apply perm_skip, perm_without, N2. } rewrite E'. cbn [bind]. eexists. split; [reflexivity|]. split; [apply wf_app, W'|]. split; auto. cbn [fst]. apply Forall2_app; [eapply holds_pres; eauto|]. constructor; [exists e'; auto|constructor].
  - destruct (nth_error R i) as [a|] eqn:N; [|rewrite (Forall2_none _ _ _ _ F N); eauto]. destruct (HD i a N) as (l & e & NE & W0 & EL). rewrite NE. eapply trans_rel; eauto. eapply add_spec; eauto.
  - destruct (nth_error R i) as [a|] eqn:N; [|rewrite (Forall2_none _ _ _ _ F N); eauto]. destruct (HD i a N) as (l & e & NE & W0 & EL). rewrite NE. eapply trans_rel; eauto. eapply sort_spec; eauto.
  - destruct (nth_error R i) as [a|] eqn:N; [|rewrite (Forall2_none _ _ _ _ F N); eauto]. destruct (HD i a N) as (l & e & NE & W0 & EL). rewrite NE. destruct (check_spec vle chk h a R e l C W) as (h' & E1 & W1 & P); auto; [eapply nth_error_In; eauto|]. rewrite E1. cbn [bind]. eexists. split; [reflexivity|]. split; auto. split; auto. eapply holds_pres; [intros b _; apply P|auto].
  - destruct (nth_error R i) as [a|] eqn:N; [|rewrite (Forall2_none _ _ _ _ F N); eauto]. destruct (HD i a N) as (l & e & NE & W0 & EL). rewrite NE. unfold len_of. rewrite EL. cbn [bind]. destruct (Nat.ltb_spec pos (length l)); [|eauto]. eapply trans_rel; eauto. eapply put_spec; eauto.
Qed.
Lemma run_sim ops : forall s p, rel s p -> Forall cond ops -> exists s', run clears vle s ops = Ok s' /\ rel s' (prun vle p ops).
Proof. induction ops as [|o ops IH]; intros s p RL C; cbn [run prun]; [eauto|]. destruct (step_sim s p o RL (Forall_inv C)) as (s1 & -> & R1). cbn [bind]. apply IH; auto. apply (Forall_inv_tail C). Qed.
Lemma look_ok h R E : Forall2 (holds h) R E -> look h R = Ok E.
Proof. induction 1 as [|a l R E [e H] F IH]; auto. cbn [look]. rewrite H. cbn [bind]. rewrite IH. reflexivity. Qed.
Lemma history ops : Forall cond ops -> exists h R, run clears vle ([], [], []) ops = Ok (h, R, snd (prun vle ([], []) ops)) /\ look h R = Ok (fst (prun vle ([], []) ops)).
Proof.
  intros C. destruct (run_sim ops ([], [], []) ([], [])) as ([[h R] out] & E & W & F & ->); auto.
  - split; [|split; constructor]. split; [|intros a []]. intros a o G. unfold get in G. destruct a; discriminate.
  - exists h, R. split; auto. apply look_ok, F.
Qed.
Lemma freed ops h out : Forall cond ops -> run clears vle ([], [], []) ops = Ok (h, [], out) -> Forall (fun c => c = None) h.
Proof.
  intros C E. destruct (run_sim ops ([], [], []) ([], [])) as ([[h' R] out'] & E' & W & F & _); auto.
  - split; [|split; constructor]. split; [|intros a []]. intros a o G. unfold get in G. destruct a; discriminate.
  - rewrite E in E'. injection E' as <- <- <-. destruct W as [W _]. assert (PC : forall p, pc h p = 0).
    { intros p. unfold pc. destruct (filter (is_par p) h) as [|c l] eqn:EF; auto. exfalso. assert (IN : In c (filter (is_par p) h)) by (rewrite EF; left; auto). apply filter_In in IN. destruct IN as [IN IP]. destruct c as [x|]; [|discriminate]. apply In_nth_error in IN. destruct IN as (s & NS). assert (GS : get h s = Ok x) by (unfold get; rewrite NS; reflexivity). destruct (W s x GS) as (OX & RX & PX). cbn [cnt count_occ] in RX. unfold pc in RX. destruct (filter (is_par s) h) as [|c2 l2] eqn:EF2; [cbn in RX; lia|]. assert (IN2 : In c2 (filter (is_par s) h)) by (rewrite EF2; left; auto). apply filter_In in IN2. destruct IN2 as [IN2 IP2]. destruct c2 as [y|]; [|discriminate]. apply In_nth_error in IN2. destruct IN2 as (t & NT). assert (GT : get h t = Ok y) by (unfold get; rewrite NT; reflexivity). destruct (W t y GT) as (OY & _). unfold okobj in OY. unfold is_par in IP, IP2. destruct (o_body y) as [|f p' off len]; [discriminate|]. apply Nat.eqb_eq in IP2. subst p'. destruct OY as (q & fq & eq & m & size & GQ & BQ & _). rewrite GS in GQ. injection GQ as <-. rewrite BQ in IP. discriminate. }
    apply Forall_forall. intros [x|] IN; auto. exfalso. apply In_nth_error in IN. destruct IN as (s & NS). assert (GS : get h s = Ok x) by (unfold get; rewrite NS; reflexivity). destruct (W s x GS) as (_ & RX & PX). rewrite PC in RX. cbn in RX. lia.
Qed.
End P.
