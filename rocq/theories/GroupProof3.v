From Verif Require Import Base ListLib BitsModel SqueezeModel SqueezeProof GroupModel GroupSpec GroupProof GroupProof2.
From Coq Require Import List Lia.
Open Scope Z_scope.

Section S.
Context {A : Type}.
Implicit Types c : list (Z * list A).
Lemma keep_fst f c : keep (map f (map fst c)) (map fst c) = map fst (filter (fun p => f (fst p)) c).
Proof. unfold keep. induction c as [|p c IH]; [reflexivity|]. cbn [map combine filter fst]. destruct (f (fst p)); cbn [map snd]; congruence. Qed.
Lemma keep_snd f c : keep (map f (map fst c)) (map snd c) = map snd (filter (fun p => f (fst p)) c).
Proof. unfold keep. induction c as [|p c IH]; [reflexivity|]. cbn [map combine filter fst]. destruct (f (fst p)); cbn [map snd]; congruence. Qed.
Lemma cnt_sel n c : cnt n (map fst c) = L A c n.
Proof. unfold L, sel. rewrite map_length. induction c as [|p c IH]; [reflexivity|]. cbn [map filter]. rewrite cnt_cons, IH. destruct (fst p =? n); cbn [length]; lia. Qed.
Lemma srt_weak q p w : q <= p -> srt p w = true -> srt q w = true.
Proof. destruct w; cbn [srt]; auto. intros H S. apply andb_true_iff in S. destruct S as [S1 S2]. rewrite S2. lia. Qed.
Lemma srt_filter f : forall c prev, srt prev (map fst c) = true -> srt prev (map fst (filter f c)) = true.
Proof. induction c as [|p c IH]; intros prev S; [reflexivity|]. cbn [map srt filter] in *. apply andb_true_iff in S. destruct S as [S1 S2]. destruct (f p); cbn [map srt]; [rewrite S1; cbn [andb]; auto|]. apply (srt_weak prev (fst p)); [lia|auto]. Qed.
Lemma sel_filter n c : n <> -1 -> sel A n (filter (fun p => negb (fst p =? -1)) c) = sel A n c.
Proof. intros N. unfold sel. f_equal. induction c as [|p c IH]; [reflexivity|]. cbn [filter]. destruct (Z.eqb_spec (fst p) (-1)) as [E|E]; cbn [negb filter]; rewrite IH; [|reflexivity]. replace (fst p =? n) with false by lia. reflexivity. Qed.
Lemma below_neg c : Forall (fun n => -1 <= n) (map fst c) -> Z.of_nat (below A 0 c) = cnt (-1) (map fst c).
Proof. unfold below. induction c as [|p c IH]; intros F; [reflexivity|]. cbn [map filter] in *. pose proof (Forall_inv F). specialize (IH (Forall_inv_tail F)). cbv beta in *. rewrite cnt_cons. destruct (Z.ltb_spec (fst p) 0), (Z.eqb_spec (fst p) (-1)); cbn [length]; lia. Qed.
End S.

Section P.
Variables (A : Type) (junk : A).
Definition enc (g : list (list A)) : group A := (Z.of_nat (length g), concat g).
Lemma spec_enc c n : spec A c n = enc (sel A n c). Proof. reflexivity. Qed.
Lemma zero_table ria : Forall (fun z => z = 0) (firstn (Z.to_nat ria) (repeat 0 (Z.to_nat (2 * ria + 1)))) /\ (0 <= ria -> length (firstn (Z.to_nat ria) (repeat 0 (Z.to_nat (2 * ria + 1)))) = Z.to_nat ria).
Proof. split; [apply Forall_firstn, Forall_forall; intros z Hz; apply repeat_spec in Hz; auto|]. intros R. rewrite firstn_length, repeat_length. lia. Qed.
Lemma nth_rep0 n i : nth i (repeat 0 n) 0 = 0. Proof. revert i. induction n; destruct i; cbn; auto. Qed.
(** the table after counting pairs l *)
Lemma table ria l c : 0 <= ria -> Forall (fun p => -1 <= fst p < ria) l -> (forall j, 0 <= j < ria -> sumof j l = L A c j) ->
  exists t, bumps (repeat 0 (Z.to_nat (2 * ria + 1))) ria l = Ok t /\ lens t ria = map (L A c) (zs ria) /\ length (firstn (Z.to_nat ria) t) = Z.to_nat ria /\ Forall (fun z => z = 0) (firstn (Z.to_nat ria) t).
Proof.
  intros R F S. destruct (bumps_ok ria R l (repeat 0 (Z.to_nat (2 * ria + 1)))) as (t & E & TL & P & N); auto; [rewrite repeat_length; auto|]. exists t. split; auto. rewrite repeat_length in TL. destruct (zero_table ria) as [Z1 Z2]. rewrite P. split; [|auto]. apply table_lens; auto. intros j J. rewrite N, nth_rep0, S by auto. lia.
Qed.
Variables (notB : bool) (xl0 csz : Z) (hi : bool).
Hypothesis X0 : 0 <= xl0.
Hypothesis C0 : 0 <= csz.
Hypothesis H1 : hi = false -> csz = 1.
Let uc := units notB xl0 csz hi.
Lemma width_nn : 0 <= width xl0 csz hi.
Proof using X0 C0. clear uc H1. unfold width. cbv zeta. assert (0 <= (if xl0 =? 0 then 1 else 2 ^ (xl0 - 3)) * (if hi then csz else 1)). { apply Z.mul_nonneg_nonneg; [destruct (xl0 =? 0); [lia|apply Z.pow_nonneg; lia]|destruct hi; lia]. } destruct (_ && _ && _); [apply Z.div_pos; lia|auto]. Qed.
Lemma uc_nn : 0 <= uc. Proof using X0 C0. unfold uc, units. destruct notB; [apply width_nn|auto]. Qed.
Lemma uc_zero : notB = true -> csz = 0 -> uc = 0.
Proof using H1. intros N Z0. unfold uc, units, width. rewrite N. cbv zeta. rewrite Z0. destruct hi; [|specialize (H1 eq_refl); lia]. rewrite Z.mul_0_r. destruct (_ && _ && _); reflexivity. Qed.
(** one method or the other on cells c *)
Lemma tail_ok c ria neg srtd : 0 <= ria -> Forall (fun p => Z.of_nat (length (snd p)) = uc) c -> Forall (fun n => -1 <= n < ria) (map fst c) -> neg = cnt (-1) (map fst c) -> (srtd = true -> srt (-1) (map fst c) = true) ->
  (do t <- bumps (repeat 0 (Z.to_nat (2 * ria + 1))) ria (map (fun n => (n, 1)) (map fst c));
   if notB && (csz =? 0) then Ok (map (fun l => (l, [])) (lens t ria))
   else if notB && srtd then sorted_loop A junk (lens t ria) (X A c) (width xl0 csz hi) (neg * width xl0 csz hi)
   else cells_loop A (map fst c) (X A c) uc 0 (firstn (Z.to_nat ria) t) (alloc A junk uc (lens t ria))) = Ok (map (spec A c) (zs ria)).
Proof using X0 C0 H1.
  intros R CU F N S. pose proof uc_nn as UC. destruct (table ria (map (fun n => (n, 1)) (map fst c)) c R) as (t & E & TL & P1 & P2).
  { apply Forall_forall. intros p P. apply in_map_iff in P. destruct P as (n & <- & I). rewrite Forall_forall in F. cbn [fst]. auto. }
  { intros j J. rewrite sumof_ones. apply cnt_sel. }
  rewrite E. cbn [bind]. rewrite TL. destruct (notB && (csz =? 0)) eqn:Z0.
  - apply andb_true_iff in Z0. destruct Z0 as [NB Z0]. apply Z.eqb_eq in Z0. f_equal. rewrite map_map. apply map_ext. intros n. unfold spec. f_equal. symmetry. apply length_zero_iff_nil. assert (HH : Z.of_nat (length (concat (sel A n c))) = Z.of_nat (length (sel A n c)) * uc) by (apply concat_len, sel_uniform, CU). rewrite (uc_zero NB Z0) in HH. lia.
  - destruct (notB && srtd) eqn:Q.
    + apply andb_true_iff in Q. destruct Q as [NB SR]. assert (UW : width xl0 csz hi = uc) by (unfold uc, units; rewrite NB; reflexivity). rewrite UW, N, <- below_neg by (eapply Forall_impl; [|exact F]; cbv beta; intros; lia). pose proof (sorted_ok A junk uc c UC CU (-1) (S SR) (Z.to_nat ria) 0 ltac:(lia)) as SO. unfold zs. rewrite !map_map. exact SO.
    + change 0 with (Z.of_nat 0) at 1. apply cells_ok; auto; try lia.
      * eapply Forall_impl; [|exact F]; cbv beta; intros; lia.
      * apply rinv_alloc; auto.
      * apply pinv_zero; auto.
Qed.
Lemma chunk_ok c ria : 0 <= ria -> notB = true -> Forall (fun p => Z.of_nat (length (snd p)) = uc) c -> Forall (fun n => -1 <= n < ria) (map fst c) -> Z.of_nat (length c) < 2 ^ 31 -> cnt (-1) (map fst c) <> Z.of_nat (length c) ->
  match changes (-1) (map fst c) 0 with
  | [] => UB
  | (_, i0) :: _ =>
    if existsb (fun p => 2147483648 <=? snd p) (changes (-1) (map fst c) 0) then UB else
    let rl := map (fun p => (fst p, to_s 32 (snd p))) (run_lens (changes (-1) (map fst c) 0) (Z.of_nat (length c))) in
    do t <- bumps (repeat 0 (Z.to_nat (2 * ria + 1))) ria rl;
    chunks A rl (X A c) (width xl0 csz hi) (i0 * width xl0 csz hi) (firstn (Z.to_nat ria) t) (alloc A junk (width xl0 csz hi) (lens t ria))
  end = Ok (map (spec A c) (zs ria)).
Proof using X0 C0 H1.
  intros R NB CU F XN NE. pose proof uc_nn as UC. assert (UW : width xl0 csz hi = uc) by (unfold uc, units; rewrite NB; reflexivity). rewrite UW. set (W := map fst c) in *. assert (WL : length W = length c) by (unfold W; apply map_length). pose proof (changes_ge W (-1) 0) as CG. pose proof (runs_ok W (-1) 0) as RO. pose proof (changes_in W (-1) 0) as CI. destruct (changes (-1) W 0) as [|[n0 i0] ch] eqn:CH.
  { exfalso. apply NE. rewrite RO, cnt_rep. change (-1 =? -1) with true. cbv iota. rewrite WL. reflexivity. }
  remember ((n0, i0) :: ch) as chs. cbv zeta in RO. destruct RO as (I0 & RN & RW). rewrite Z.add_0_l, WL in *. rewrite Z.sub_0_r in RW. assert (EX : existsb (fun p => 2147483648 <=? snd p) chs = false). { apply not_true_iff_false. intros EX. apply existsb_exists in EX. destruct EX as (p & PI & PH). rewrite Forall_forall in CG. specialize (CG p PI). change (2 ^ 31) with 2147483648 in XN. lia. }
  rewrite EX. cbv zeta. assert (LE : Forall (fun p => snd p <= Z.of_nat (length c)) (run_lens chs (Z.of_nat (length c)))) by (apply run_lens_le; eapply Forall_impl; [|exact CG]; cbv beta; intros; lia).
  assert (ID : map (fun p => (fst p, to_s 32 (snd p))) (run_lens chs (Z.of_nat (length c))) = run_lens chs (Z.of_nat (length c))). { rewrite <- (map_id (run_lens chs (Z.of_nat (length c)))) at 2. apply map_ext_in. intros [a b] I. cbn [fst snd]. f_equal. rewrite Forall_forall in LE, RN. specialize (LE _ I). specialize (RN _ I). cbn [snd] in *. apply to_s_id; [lia|]. change (2 ^ (32 - 1)) with 2147483648. change (2 ^ 31) with 2147483648 in XN. lia. }
  rewrite ID. set (rl := run_lens chs (Z.of_nat (length c))) in *. assert (FR : Forall (fun p => -1 <= fst p < ria) rl). { apply Forall_forall. intros p I. apply (in_map fst) in I. unfold rl in I. rewrite run_lens_fst in I. apply CI in I. rewrite Forall_forall in F. apply F. exact I. }
  destruct (table ria rl c R FR) as (t & E & TL & P1 & P2). { intros j J. rewrite sumof_expand by auto. rewrite <- cnt_sel. fold W. rewrite RW, cnt_app, cnt_rep. replace (-1 =? j) with false by lia. lia. }
  rewrite E. cbn [bind]. rewrite TL. clear ID. assert (SK : firstn (Z.to_nat i0) W = repeat (-1) (Z.to_nat i0) /\ skipn (Z.to_nat i0) W = expand rl). { rewrite RW. rewrite firstn_app, skipn_app, !repeat_length, Nat.sub_diag. cbn [firstn skipn]. rewrite app_nil_r. rewrite firstn_all2, skipn_all2 by (rewrite repeat_length; lia). auto. }
  destruct SK as [SK1 SK2]. assert (SG : Forall (fun p => fst p = -1) (firstn (Z.to_nat i0 - 0) (skipn 0 c))). { cbn [skipn]. rewrite Nat.sub_0_r. apply Forall_forall. intros p P. apply (in_map fst) in P. rewrite <- firstn_map in P. fold W in P. rewrite SK1 in P. apply repeat_spec in P. exact P. }
  replace i0 with (Z.of_nat (Z.to_nat i0)) by lia. apply chunks_ok; auto.
  - lia.
  - eapply Forall_impl; [|exact FR]; cbv beta; intros; lia.
  - apply (skip_seg A uc ria c 0 (Z.to_nat i0) (-1)); auto; try lia. apply rinv_alloc; auto.
  - apply (pinv_skip A ria c uc 0 (Z.to_nat i0) (-1)); auto; try lia. apply pinv_zero; auto.
Qed.
End P.
