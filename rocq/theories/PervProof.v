(** The comparison of atoms and the loops over typed arrays *)
From Verif Require Import Base TagModel TagSpec TagProof NumSpec NumProof ArrSpec SqueezeModel SqueezeProof SqueezeProof2 HashModel CompareModel SearchFlat PervModel PervSpec.
From Coq Require Import List Lia.
Open Scope Z_scope.
Lemma iop_holds o a b : iop o a b = true <-> holds o a b.
Proof. destruct o; cbn [iop holds]; rewrite ?negb_true_iff; lia. Qed.
Lemma chr_not_val w : word w -> isC32 w = true -> isVal w = false.
Proof. intros W C. apply direct_not_val; [exact W|]. rewrite C. reflexivity. Qed.
Lemma f_num w : word w -> isF64 w = true -> (is_nan w = true /\ den w = VNaN) \/ (is_nan w = false /\ den w = VNum (fval w)).
Proof.
  intros W F. destruct (den_cases w W) as [(_ & _ & N)|[(E & _)|(E & _)]]; [|congruence|congruence]. unfold den in *. destruct (is_nan w); [left|right; auto]. split; [reflexivity|]. destruct N as [N|[x N]]; [exact N|].
  destruct (_ <=? _); [reflexivity|]. destruct (_ =? _); discriminate.
Qed.
Lemma fop_says s o a b : word a -> word b -> isF64 a = true -> isF64 b = true -> says s o (den a) (den b) (fop o a b).
Proof.
  intros A B FA FB. assert (NA : is_number (den a)) by (destruct (f_num a A FA) as [[_ E]|[_ E]]; rewrite E; [left; reflexivity|right; eauto]).
  assert (NB : is_number (den b)) by (destruct (f_num b B FB) as [[_ E]|[_ E]]; rewrite E; [left; reflexivity|right; eauto]).
  destruct (f_num a A FA) as [[N E]|[N E]]; [apply s_nan; auto; destruct o; cbn [fop]; unfold feq, flt, fle; rewrite N; cbn [negb andb]; rewrite ?andb_false_r; cbn [negb andb]; split; congruence|].
  destruct (f_num b B FB) as [[N' E']|[N' E']]; [apply s_nan; auto; destruct o; cbn [fop]; unfold feq, flt, fle; rewrite N'; cbn [negb andb]; rewrite ?andb_false_r; cbn [negb andb]; split; congruence|].
  rewrite E, E'. apply s_num. destruct o; cbn [fop holds]; unfold feq, flt, fle; rewrite N, N'; cbn [negb andb]; rewrite ?negb_true_iff; lia.
Qed.
Lemma says_obj_none s o p b c : ordered o -> ~ says s o (VOth p) b c.
Proof. intros [H1 H2] S. inversion S; subst; try congruence; try (unfold ordered in *; tauto); match goal with H : is_number (VOth _) |- _ => destruct H as [H|[? H]]; discriminate end. Qed.
Lemma says_none_obj s o a p c : ordered o -> ~ says s o a (VOth p) c.
Proof. intros [H1 H2] S. inversion S; subst; try congruence; try (unfold ordered in *; tauto); match goal with H : is_number (VOth _) |- _ => destruct H as [H|[? H]]; discriminate end. Qed.
Lemma atom_ok decomp o a b : raw_ok EB a -> raw_ok EB b -> match cmp_atom decomp o a b with Ok c => says (same decomp) o (den a) (den b) c | Err => forall c, ~ says (same decomp) o (den a) (den b) c | UB => False end.
Proof.
  intros [A CA] [B CB]. unfold cmp_atom, cmp_atoms, atomEqual.
  destruct (den_cases a A) as [(FA & HA & NA)|[(FA & HA & NA)|(FA & HA & NA)]], (den_cases b B) as [(FB & HB & NB)|[(FB & HB & NB)|(FB & HB & NB)]]; rewrite ?FA, ?FB, ?HA, ?HB; cbn [andb].
  - apply fop_says; auto.
  - assert (Q : forall c, (c = true <-> o = ONe \/ o = OLt \/ o = OLe) -> says (same decomp) o (den a) (den b) c) by (intros c H; rewrite NB; apply s_num_chr; auto).
    destruct o; apply Q; cbn [negb]; split; intuition congruence.
  - assert (Q : ~ ordered o -> forall c, (c = true <-> o = ONe) -> says (same decomp) o (den a) (den b) c).
    { intros O c H. rewrite NB. apply s_mix_r; auto. intros p E. destruct NA as [NA|[x NA]]; congruence. }
    destruct o; cbn [bind]; try (apply Q; [unfold ordered; intuition congruence|cbn [negb]; split; congruence]); rewrite NB; intros c; apply says_none_obj; split; discriminate.
  - assert (Q : forall c, (c = true <-> o = ONe \/ o = OGt \/ o = OGe) -> says (same decomp) o (den a) (den b) c) by (intros c H; rewrite NA; apply s_chr_num; auto).
    rewrite (chr_not_val a A HA). cbn [negb orb]. assert (NE : (a =? b) = false) by (apply Z.eqb_neq; congruence). rewrite NE. destruct o; apply Q; cbn [negb]; split; intuition congruence.
  - destruct (den_chr a _ A NA) as (_ & _ & _ & EA), (den_chr b _ B NB) as (_ & _ & _ & EB'). rewrite NA, NB. apply s_chr. rewrite iop_holds. destruct o; cbn [holds]; lia.
  - rewrite NA, NB, (chr_not_val a A HA). cbn [negb orb]. assert (NE : (a =? b) = false) by (apply Z.eqb_neq; congruence). rewrite NE.
    destruct o; cbn [bind negb]; try (apply s_mix_r; [congruence|unfold ordered; intuition congruence|split; congruence]); intros c; apply says_none_obj; split; discriminate.
  - assert (NE : (a =? b) = false) by (apply Z.eqb_neq; congruence). assert (VB : isVal b = false) by (apply number_only; auto). rewrite NE, VB, NA. cbn [negb]. rewrite orb_true_r.
    assert (NO : forall q, den b <> VOth q) by (intros q E; destruct NB as [NB|[x NB]]; congruence).
    destruct o; cbn [bind negb]; try (apply s_mix_l; [exact NO|unfold ordered; intuition congruence|split; congruence]); intros c; apply says_obj_none; split; discriminate.
  - rewrite NA, NB, (chr_not_val b B HB). cbn [negb]. rewrite orb_true_r. assert (NE : (a =? b) = false) by (apply Z.eqb_neq; congruence). rewrite NE.
    destruct o; cbn [bind negb]; try (apply s_mix_l; [congruence|unfold ordered; intuition congruence|split; congruence]); intros c; apply says_obj_none; split; discriminate.
  - rewrite NA, NB. assert (Q : (if a =? b then true else if negb (isVal a) || negb (isVal b) then false else decomp a b) = same decomp a b).
    { unfold same. destruct (a =? b); [reflexivity|]. destruct (isVal a), (isVal b); reflexivity. }
    rewrite Q. destruct o; cbn [bind]; try (apply s_obj; reflexivity); try (apply s_obj'; reflexivity); intros c; apply says_obj_none; split; discriminate.
Qed.

(** ** The loops *)
Lemma mapM_ok {A B} (f : A -> res B) (g : A -> B) l : (forall a, In a l -> f a = Ok (g a)) -> mapM f l = Ok (map g l).
Proof. induction l as [|a l IH]; intros H; [reflexivity|]. cbn [mapM map]. rewrite (H a (or_introl eq_refl)), IH by (intros; apply H; right; assumption). reflexivity. Qed.
Lemma mapM_cases {A B} (f : A -> res B) l : match mapM f l with Ok r => Forall2 (fun a b => f a = Ok b) l r | Err => exists a, In a l /\ f a = Err | UB => exists a, In a l /\ f a = UB end.
Proof.
  induction l as [|a l IH]; cbn [mapM]; [constructor|]. destruct (f a) as [b| |] eqn:E; cbn [bind]; [|exists a; split; [left; reflexivity|exact E]|exists a; split; [left; reflexivity|exact E]].
  destruct (mapM f l) as [r| |]; cbn [bind]; [constructor; auto| |]; destruct IH as (a' & I & E'); exists a'; (split; [right; exact I|exact E']).
Qed.
Lemma byte_bits b0 b1 b2 b3 b4 b5 b6 b7 : bits8 (fold_left (fun c kb => Z.lor c (Z.shiftl (b2z (snd kb)) (Z.of_nat (fst kb)))) (combine (seq 0 8) [b0; b1; b2; b3; b4; b5; b6; b7]) 0) = [b0; b1; b2; b3; b4; b5; b6; b7].
Proof. destruct b0, b1, b2, b3, b4, b5, b6, b7; reflexivity. Qed.
Lemma byte_ok f g j : (forall k, (k < 8)%nat -> f (j * 8 + k)%nat = Ok (g (j * 8 + k)%nat)) -> exists c, byte f j = Ok c /\ bits8 c = map (fun k => g (j * 8 + k)%nat) (seq 0 8).
Proof.
  intros H. unfold byte. rewrite (mapM_ok _ (fun k => g (j * 8 + k)%nat)) by (intros k I; apply in_seq in I; apply H; lia). cbn [bind]. eexists. split; [reflexivity|]. cbn [seq map]. apply byte_bits.
Qed.
Lemma seq_8 : forall m a, flat_map (fun j => map (fun k => (j * 8 + k)%nat) (seq 0 8)) (seq a m) = seq (a * 8) (8 * m).
Proof.
  induction m as [|m IH]; intros a; [rewrite Nat.mul_0_r; reflexivity|]. cbn [seq flat_map]. change (flat_map _ (seq (S a) m)) with (flat_map (fun j => map (fun k => (j * 8 + k)%nat) (seq 0 8)) (seq (S a) m)). rewrite IH.
  replace (8 * S m)%nat with (8 + 8 * m)%nat by lia. rewrite seq_app. f_equal; [cbn [seq map]; repeat (f_equal; try lia)|f_equal; lia].
Qed.
Lemma firstn_seq a n m : (n <= m)%nat -> firstn n (seq a m) = seq a n.
Proof. intros H. replace m with (n + (m - n))%nat by lia. rewrite seq_app, firstn_app, seq_length, Nat.sub_diag. cbn [firstn]. rewrite app_nil_r, firstn_all2; [reflexivity|rewrite seq_length; lia]. Qed.
Lemma loop_ok f g l : (forall i, (i < l + 8)%nat -> f i = Ok (g i)) -> cmp_loop f l = Ok (map g (seq 0 l)).
Proof.
  intros H. unfold cmp_loop. set (m := ((l + 7) / 8)%nat). assert (M : (l <= 8 * m < l + 8)%nat) by (unfold m; pose proof (Nat.div_mod (l + 7) 8 ltac:(lia)); pose proof (Nat.mod_upper_bound (l + 7) 8 ltac:(lia)); lia).
  assert (BS : forall n a, (8 * (a + n) <= 8 * m)%nat -> exists bs, mapM (byte f) (seq a n) = Ok bs /\ flat_map bits8 bs = map g (flat_map (fun j => map (fun k => (j * 8 + k)%nat) (seq 0 8)) (seq a n))).
  { induction n as [|n IH]; intros a B; [exists []; split; reflexivity|]. cbn [seq mapM flat_map]. destruct (byte_ok f g a) as (c & E & Q); [intros k K; apply H; lia|]. rewrite E. cbn [bind]. destruct (IH (S a)) as (bs & E' & Q'); [lia|]. cbn [seq] in E', Q'. rewrite E'. cbn [bind]. exists (c :: bs). split; [reflexivity|].
    cbn [flat_map]. rewrite Q, Q', map_app, (map_map _ g). reflexivity. }
  destruct (BS m 0%nat ltac:(lia)) as (bs & E & Q). rewrite E. cbn [bind]. rewrite Q, seq_8, firstn_map, Nat.mul_0_l, firstn_seq by lia. reflexivity.
Qed.
Lemma wloop_ok f g l : (forall i, (i < l + 64)%nat -> f i = Ok (g i)) -> word_loop f l = Ok (map g (seq 0 l)).
Proof.
  intros H. unfold word_loop. set (m := ((l + 63) / 64)%nat). assert (M : (l <= 64 * m < l + 64)%nat) by (unfold m; pose proof (Nat.div_mod (l + 63) 64 ltac:(lia)); pose proof (Nat.mod_upper_bound (l + 63) 64 ltac:(lia)); lia).
  rewrite (mapM_ok f g) by (intros i I; apply in_seq in I; apply H; lia). cbn [bind]. rewrite firstn_map, firstn_seq by lia. reflexivity.
Qed.
Lemma rd_nth (m : list Z) i : (i < length m)%nat -> rd m i = Ok (nth i m 0).
Proof. intros H. unfold rd. rewrite (nth_error_nth' m 0 H). reflexivity. Qed.
Lemma kAA_ok o e wm xm l : (l + 64 <= length wm)%nat -> (l + 64 <= length xm)%nat -> cmp_kAA o e wm xm l = Ok (map (fun i => aa_op o e (nth i wm 0) (nth i xm 0)) (seq 0 l)).
Proof. intros W X. unfold cmp_kAA. destruct (isbit e); [apply wloop_ok|apply loop_ok]; intros i I; rewrite !rd_nth by lia; reflexivity. Qed.
Lemma scale_holds o a b : holds o (a * one) (b * one) <-> holds o a b.
Proof. assert (0 < one) by (unfold one; lia). destruct o; cbn [holds]; nia. Qed.
Lemma aa_says s o e a b : e <> EB -> raw_ok e a -> raw_ok e b -> says s o (vof e a) (vof e b) (aa_op o e a b).
Proof.
  intros NB A B. destruct e; cbn [raw_ok vof aa_op] in *; try (apply s_num; rewrite iop_holds, scale_holds; reflexivity).
  - apply s_num. rewrite scale_holds. assert (a = 0 \/ a = 1) as [-> | ->] by lia; assert (b = 0 \/ b = 1) as [-> | ->] by lia; destruct o; cbn; split; intros H; try discriminate; try reflexivity; lia.
  - destruct A as [A SA], B as [B SB]. apply fop_says; auto; apply isF64_iff; auto.
  - apply s_chr. destruct o; try (rewrite iop_holds; reflexivity); unfold to_s; change (2 ^ 8) with 256; change (2 ^ (8 - 1)) with 128; rewrite iop_holds; cbn [holds]; Z.div_mod_to_equations; lia.
  - apply s_chr. destruct o; try (rewrite iop_holds; reflexivity); unfold to_s; change (2 ^ 16) with 65536; change (2 ^ (16 - 1)) with 32768; rewrite iop_holds; cbn [holds]; Z.div_mod_to_equations; lia.
  - apply s_chr. rewrite !to_s_id by (cbn; lia). apply iop_holds.
  - congruence.
Qed.
