(** An array and an atom; pervasion of results *)
From Verif Require Import Base TagModel TagSpec TagProof NumSpec NumProof ArrSpec SqueezeModel SqueezeProof SqueezeProof2 HashModel CompareModel SearchFlat PervModel PervSpec PervProof.
From Coq Require Import List Lia.
Open Scope Z_scope.
Lemma not_oth e a : e <> EB -> raw_ok e a -> forall p, vof e a <> VOth p.
Proof.
  intros NB R p. destruct e; cbn [vof raw_ok] in *; try discriminate; [|congruence]. destruct R as [W R]. destruct (den_cases a W) as [(_ & _ & [N|[x N]])|[(F & _)|(F & _)]]; try congruence; apply isF64_iff in R; congruence.
Qed.
Lemma diff_says s a v : (forall p, a <> VOth p) -> (a = v -> a = VNaN) -> says s OEq a v false /\ says s ONe a v true.
Proof.
  intros NO D. destruct a as [x| |x|p]; [| | |exfalso; exact (NO p eq_refl)]; destruct v as [y| |y|q]; split.
  all: try (apply s_mix_r; [intros; discriminate|unfold ordered; intuition congruence|split; congruence]).
  all: try (apply s_num_chr; [first [left; reflexivity|right; eexists; reflexivity]|split; intuition congruence]).
  all: try (apply s_chr_num; [first [left; reflexivity|right; eexists; reflexivity]|split; intuition congruence]).
  all: try (apply s_nan; [first [left; reflexivity|right; eexists; reflexivity]|first [left; reflexivity|right; eexists; reflexivity]|first [left; reflexivity|right; reflexivity]|split; congruence]).
  1,2: apply s_num; cbn [holds]; assert (x <> y) by (intros ->; discriminate (D eq_refl)); split; congruence.
  1,2: apply s_chr; cbn [holds]; assert (x <> y) by (intros ->; discriminate (D eq_refl)); split; congruence.
Qed.
Lemma chr_word x n : word x -> n < 1114112 -> den x = VChr n -> isC32 x = true /\ o2cG x = n /\ 0 <= n /\ (q_c8 x = true <-> n <= 255) /\ (q_c16 x = true <-> n <= 65535).
Proof.
  intros W B D. destruct (den_chr x n W D) as (C & _ & M & E). destruct (o2c_chr x n W D B) as [N O]. repeat split; auto; unfold q_c8, q_c16, shr64, shl64, C32_TAG, u64, M64; rewrite Z.eqb_eq, E.
  all: try (intros H; Z.div_mod_to_equations; lia).
Qed.
Lemma c32_den x : raw_ok EB x -> isC32 x = true -> exists n, den x = VChr n /\ 0 <= n < 1114112.
Proof. intros [W B] C. destruct (den_cases x W) as [(_ & F & _)|[(_ & _ & D)|(_ & F & _)]]; try congruence. exists (x mod 2 ^ 48). split; [exact D|]. split; [apply Z.mod_pos_bound; reflexivity|apply B; exact D]. Qed.
Lemma q_is_c32 x : q_c8 x = true \/ q_c16 x = true -> isC32 x = true.
Proof. unfold q_c8, q_c16, isC32, hasTag, shr64, shl64, C32_TAG, u64, M64. rewrite !Z.eqb_eq. intros H. Z.div_mod_to_equations. lia. Qed.
Lemma as_says s o e a x xv : e <> EB -> raw_ok e a -> raw_ok EB x -> as_q e x = Some xv -> says s o (vof e a) (den x) (as_op o e a xv).
Proof.
  intros NB A X Q. destruct e; cbn [as_q] in Q; try (apply q_int_Some in Q; destruct Q as [D R]; rewrite D).
  - exact (aa_says s o EBit a xv NB A R).
  - exact (aa_says s o EI8 a xv NB A R).
  - exact (aa_says s o EI16 a xv NB A R).
  - exact (aa_says s o EI32 a xv NB A R).
  - destruct (isF64 x) eqn:F; [|discriminate]. inversion Q; subst xv. destruct A as [W R], X as [W' _]. apply fop_says; auto. apply isF64_iff; auto.
  - destruct (q_c8 x) eqn:F; [|discriminate]. inversion Q; subst xv. destruct (c32_den x X (q_is_c32 x (or_introl F))) as (n & D & R). rewrite D. destruct (chr_word x n (proj1 X) (proj2 R) D) as (_ & -> & _). apply s_chr. apply iop_holds.
  - destruct (q_c16 x) eqn:F; [|discriminate]. inversion Q; subst xv. destruct (c32_den x X (q_is_c32 x (or_intror F))) as (n & D & R). rewrite D. destruct (chr_word x n (proj1 X) (proj2 R) D) as (_ & -> & _). apply s_chr. apply iop_holds.
  - destruct (isC32 x) eqn:F; [|discriminate]. inversion Q; subst xv. destruct (c32_den x X F) as (n & D & R). rewrite D. destruct (chr_word x n (proj1 X) (proj2 R) D) as (_ & -> & _). apply s_chr. apply iop_holds.
  - congruence.
Qed.
Lemma as_none e a x : e <> EB -> raw_ok e a -> raw_ok EB x -> as_q e x = None -> vof e a <> den x.
Proof.
  intros NB A X Q D. destruct X as [W X]. destruct e; cbn [as_q vof raw_ok] in *; try (eapply q_int_None; [exact Q| |symmetry; exact D]; lia).
  - destruct (isF64 x) eqn:F; [discriminate|]. destruct A as [W' R]. destruct (den_cases a W') as [(_ & _ & N)|[(F' & _)|(F' & _)]]; try (apply isF64_iff in R; congruence). destruct (den_cases x W) as [(F' & _)|[(_ & _ & E)|(_ & _ & E)]]; try congruence; destruct N as [N|[y N]]; congruence.
  - symmetry in D. destruct (chr_word x a W (X a D) D) as (_ & _ & _ & H & _). destruct (q_c8 x); [discriminate|]. destruct H as [_ H]. discriminate (H ltac:(lia)).
  - symmetry in D. destruct (chr_word x a W (X a D) D) as (_ & _ & _ & _ & H). destruct (q_c16 x); [discriminate|]. destruct H as [_ H]. discriminate (H ltac:(lia)).
  - symmetry in D. destruct (chr_word x a W (X a D) D) as (C & _). rewrite C in Q. discriminate.
  - congruence.
Qed.
Lemma firstn_nth (m : list Z) l : (l <= length m)%nat -> firstn l m = map (fun i => nth i m 0) (seq 0 l).
Proof.
  revert m. induction l as [|l IH]; intros [|a m] H; cbn [length] in H; try lia; try reflexivity. cbn [firstn seq map nth]. f_equal. rewrite IH by lia. rewrite <- seq_shift, map_map. reflexivity.
Qed.
Lemma Forall2_maps {A B C} (R : B -> C -> Prop) (f : A -> B) (g : A -> C) l : (forall a, In a l -> R (f a) (g a)) -> Forall2 R (map f l) (map g l).
Proof. induction l as [|a l IH]; intros H; cbn [map]; constructor; [apply H; left; reflexivity|apply IH; intros; apply H; right; assumption]. Qed.
Lemma Forall2_map_l' {A B C} (R : B -> C -> Prop) (f : A -> B) : forall l r, Forall2 R (map f l) r <-> Forall2 (fun a => R (f a)) l r.
Proof. induction l as [|a l IH]; intros r; split; intros H; inversion H; subst; constructor; auto; apply IH; assumption. Qed.
Lemma get_ok e z : raw_ok e z -> exists y, conv1 e EB z = Ok y /\ den y = vof e z /\ raw_ok EB y.
Proof. intros R. destruct (conv1_ok e EB z R Logic.I) as (y & E & V & R'). exists y. auto. Qed.
Lemma kAS_ok decomp o e mem x l : e <> EB -> (l + 64 <= length mem)%nat -> Forall (raw_ok e) (firstn l mem) -> raw_ok EB x ->
  match cmp_kAS decomp o e mem x l with
  | Ok r => Forall2 (fun z c => says (same decomp) o (vof e z) (den x) c) (firstn l mem) r
  | Err => exists z, In z (firstn l mem) /\ forall c, ~ says (same decomp) o (vof e z) (den x) c
  | UB => False
  end.
Proof.
  intros NB L R X. unfold cmp_kAS. assert (RN : forall i, (i < l)%nat -> raw_ok e (nth i mem 0)).
  { intros i I. rewrite firstn_nth in R by lia. rewrite Forall_forall in R. apply R. apply in_map_iff. exists i. split; [reflexivity|]. apply in_seq. lia. }
  rewrite firstn_nth by lia. destruct (as_q e x) as [xv|] eqn:Q.
  - assert (K : (if isbit e then word_loop else cmp_loop) (fun i => do a <- rd mem i; Ok (as_op o e a xv)) l = Ok (map (fun i => as_op o e (nth i mem 0) xv) (seq 0 l))).
    { destruct (isbit e); [apply wloop_ok|apply loop_ok]; intros i I; rewrite rd_nth by lia; reflexivity. }
    rewrite K. apply Forall2_maps. intros i I. apply in_seq in I. apply as_says; auto. apply RN. lia.
  - assert (D : forall i, (i < l)%nat -> says (same decomp) OEq (vof e (nth i mem 0)) (den x) false /\ says (same decomp) ONe (vof e (nth i mem 0)) (den x) true).
    { intros i I. apply diff_says; [apply not_oth; auto|]. intros E. exfalso. exact (as_none e _ x NB (RN i I) X Q E). }
    assert (REP : forall b : bool, repeat b l = map (fun _ => b) (seq 0 l)) by (intros b; rewrite <- (seq_length l 0) at 1; generalize (seq 0 l); induction l0 as [|? ? IH]; cbn [length repeat map]; congruence).
    assert (SLOW : match mapM (fun i => do z <- rd mem i; do v <- conv1 e EB z; cmp_atom decomp o v x) (seq 0 l) with
      | Ok r => Forall2 (fun z c => says (same decomp) o (vof e z) (den x) c) (map (fun i => nth i mem 0) (seq 0 l)) r
      | Err => exists z, In z (map (fun i => nth i mem 0) (seq 0 l)) /\ forall c, ~ says (same decomp) o (vof e z) (den x) c
      | UB => False end).
    { assert (ST : forall i, In i (seq 0 l) -> match (do z <- rd mem i; do v <- conv1 e EB z; cmp_atom decomp o v x) with Ok c => says (same decomp) o (vof e (nth i mem 0)) (den x) c | Err => forall c, ~ says (same decomp) o (vof e (nth i mem 0)) (den x) c | UB => False end).
      { intros i I. apply in_seq in I. rewrite rd_nth by lia. cbn [bind]. destruct (get_ok e (nth i mem 0) (RN i ltac:(lia))) as (y & E & V & RY). rewrite E. cbn [bind]. rewrite <- V. apply atom_ok; auto. }
      pose proof (mapM_cases (fun i => do z <- rd mem i; do v <- conv1 e EB z; cmp_atom decomp o v x) (seq 0 l)) as MC. destruct (mapM _ (seq 0 l)) as [r| |].
      - apply Forall2_map_l'. clear - MC ST. induction MC as [|i c li lr E F IH]; constructor; [specialize (ST i (or_introl eq_refl)); rewrite E in ST; exact ST|apply IH; intros; apply ST; right; assumption].
      - destruct MC as (i & I & E). specialize (ST i I). rewrite E in ST. exists (nth i mem 0). split; [apply (in_map (fun i => nth i mem 0)); exact I|exact ST].
      - destruct MC as (i & I & E). specialize (ST i I). rewrite E in ST. exact ST. }
    destruct o; try exact SLOW; rewrite REP; apply Forall2_maps; intros i I; apply in_seq in I; apply D; lia.
Qed.
