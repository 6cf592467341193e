(** Pervasion: arrays whose shapes agree *)
From Verif Require Import Base TagModel TagSpec TagProof NumSpec NumProof ArrSpec SqueezeModel SqueezeProof SqueezeProof2 HashModel CompareModel SearchFlat PervModel PervSpec PervProof PervProof2.
From Coq Require Import List Lia.
Open Scope nat_scope.
Section W.
Variable s : Z -> Z -> bool.
Notation perv := (perv s).
Definition pw (o : op) (l m : list tree) (r : list rv) : Prop := Forall2 (fun p => perv o (fst p) (snd p)) (combine l m) r.
Definition okres (o : op) (t u : tree) (r : res rv) : Prop := compares s o t u r.
Lemma copies_1 {A} (l : list A) : copies 1 l = l.
Proof. unfold copies. induction l as [|a l IH]; [reflexivity|]. change (a :: flat_map (fun v => repeat v 1) l = a :: l). rewrite IH. reflexivity. Qed.
Lemma copies_len {A} k (l : list A) : length (copies k l) = length l * k.
Proof. unfold copies. induction l as [|a l IH]; [reflexivity|]. cbn [flat_map length]. rewrite app_length, repeat_length, IH. lia. Qed.
Lemma copies_nth {A} k (l : list A) d : 0 < k -> forall i, i < length l * k -> nth i (copies k l) d = nth (i / k) l d.
Proof.
  intros K. unfold copies. induction l as [|a l IH]; intros i I; cbn [length] in I; [lia|]. cbn [flat_map]. destruct (Nat.lt_ge_cases i k) as [L|L].
  - rewrite app_nth1 by (rewrite repeat_length; lia). rewrite Nat.div_small by lia. cbn [nth]. clear - L. revert i L. induction k as [|k IH]; intros i L; [lia|]. destruct i as [|i]; [reflexivity|]. cbn [repeat nth]. apply IH. lia.
  - rewrite app_nth2 by (rewrite repeat_length; lia). rewrite repeat_length, IH by lia. replace (i / k) with (S ((i - k) / k)); [reflexivity|]. replace i with (i - k + 1 * k) at 2 by lia. rewrite Nat.div_add by lia. lia.
Qed.
Lemma list_nth {A} (l : list A) d : l = map (fun i => nth i l d) (seq 0 (length l)).
Proof. induction l as [|a l IH]; [reflexivity|]. cbn [length seq map nth]. f_equal. rewrite <- seq_shift, map_map. exact IH. Qed.
Lemma combine_idx k (l m : list tree) d : 0 < k -> length m = length l * k -> combine (copies k l) m = map (fun i => (nth (i / k) l d, nth i m d)) (seq 0 (length m)).
Proof.
  intros K L. rewrite (list_nth (combine (copies k l) m) (d, d)) at 1. rewrite combine_length, copies_len, <- L, Nat.min_id. apply map_ext_in. intros i I. apply in_seq in I. rewrite combine_nth by (rewrite copies_len; auto). rewrite copies_nth by lia. reflexivity.
Qed.
Lemma swap_combine {A B} : forall (l : list A) (m : list B), combine m l = map (fun p => (snd p, fst p)) (combine l m).
Proof. induction l as [|a l IH]; intros [|b m]; [reflexivity..|]. cbn [combine map fst snd]. rewrite IH. reflexivity. Qed.
Lemma size_app a b : size (a ++ b) = size a * size b.
Proof. unfold size. induction a as [|n a IH]; cbn [app fold_right]; [lia|]. rewrite IH. lia. Qed.
(** ** Inversion *)
Lemma perv_inv o a b l m r : perv o (TN a l) (TN b m) r -> (exists e rs, b = a ++ e /\ r = RArr b rs /\ pw o (copies (size e) l) m rs) \/ (exists e rs, a = b ++ e /\ r = RArr a rs /\ pw o l (copies (size e) m) rs).
Proof. intros H. inversion H; subst; [left|right]; eexists _, _; (split; [reflexivity|]); (split; [reflexivity|]); assumption. Qed.
Lemma app_self {A} (a e : list A) : a = a ++ e -> e = [].
Proof. intros H. rewrite <- (app_nil_r a) in H at 1. apply app_inv_head in H. auto. Qed.
Lemma perv_less o sh e l m r : perv o (TN sh l) (TN (sh ++ e) m) r <-> exists rs, r = RArr (sh ++ e) rs /\ pw o (copies (size e) l) m rs.
Proof.
  split.
  - intros H. destruct (perv_inv _ _ _ _ _ _ H) as [(e' & rs & E & R & F)|(e' & rs & E & R & F)].
    + apply app_inv_head in E. subst e'. exists rs. auto.
    + rewrite <- app_assoc in E. apply app_self in E. apply app_eq_nil in E. destruct E as [-> ->]. exists rs. rewrite app_nil_r. change (size []) with 1 in *. rewrite copies_1 in *. auto.
  - intros (rs & -> & F). apply p_less. exact F.
Qed.
Lemma perv_more o sh e l m r : perv o (TN (sh ++ e) l) (TN sh m) r <-> exists rs, r = RArr (sh ++ e) rs /\ pw o l (copies (size e) m) rs.
Proof.
  split.
  - intros H. destruct (perv_inv _ _ _ _ _ _ H) as [(e' & rs & E & R & F)|(e' & rs & E & R & F)].
    + rewrite <- app_assoc in E. apply app_self in E. apply app_eq_nil in E. destruct E as [-> ->]. exists rs. rewrite app_nil_r. change (size []) with 1 in *. rewrite copies_1 in *. auto.
    + apply app_inv_head in E. subst e'. exists rs. auto.
  - intros (rs & -> & F). apply p_more. exact F.
Qed.
Lemma perv_shapes o a b l m r : perv o (TN a l) (TN b m) r -> (exists e, b = a ++ e) \/ (exists e, a = b ++ e).
Proof. intros H. inversion H; subst; eauto. Qed.
(** an atom acts as an array of no axes *)
Definition unit_tree (t : tree) : tree := match t with TA v => TN [] [TA v] | _ => t end.
Lemma combine_repeat {A B} (a : A) : forall (m : list B), combine (repeat a (length m)) m = map (fun b => (a, b)) m.
Proof. induction m as [|b m IH]; [reflexivity|]. cbn [length repeat combine map]. rewrite IH. reflexivity. Qed.
Definition sized (t : tree) : Prop := match t with TA _ => True | TN sh l => length l = size sh end.
Lemma perv_unit o t u r : sized t -> sized u -> (forall a b, t = TA a -> u = TA b -> False) -> perv o t u r <-> perv o (unit_tree t) (unit_tree u) r.
Proof.
  intros T U N. destruct t as [a|sh l], u as [b|sh' m]; cbn [unit_tree sized] in *; [exfalso; eapply N; reflexivity| | |reflexivity].
  - rewrite (perv_less o [] sh' [TA a] m r). unfold pw, copies. cbn [flat_map app]. rewrite app_nil_r, <- U, combine_repeat. split.
    + intros H. inversion H; subst. eexists. split; [reflexivity|]. apply Forall2_map_l'. assumption.
    + intros (rs & -> & F). apply p_right. apply Forall2_map_l' in F. exact F.
  - rewrite (perv_more o [] sh l [TA b] r). unfold pw, copies. cbn [flat_map app]. rewrite app_nil_r, <- T, swap_combine, combine_repeat, map_map. cbn [fst snd]. split.
    + intros H. inversion H; subst. eexists. split; [reflexivity|]. apply Forall2_map_l'. assumption.
    + intros (rs & -> & F). apply p_left. apply Forall2_map_l' in F. exact F.
Qed.
(** ** Exchange of the arguments *)
Lemma flip_flip o : flip (flip o) = o. Proof. destruct o; reflexivity. Qed.
Lemma holds_flip o x y : holds o x y <-> holds (flip o) y x. Proof. destruct o; cbn [holds flip]; lia. Qed.
Lemma says_flip (SY : forall p q, s p q = s q p) o a b c : says s o a b c -> says s (flip o) b a c.
Proof.
  intros H. inversion H; subst.
  - apply s_num. rewrite H0. apply holds_flip.
  - apply s_nan; auto; [tauto|]. rewrite H3. destruct o; cbn [flip]; intuition congruence.
  - apply s_chr. rewrite H0. apply holds_flip.
  - apply s_chr_num; auto. rewrite H1. destruct o; cbn [flip]; intuition congruence.
  - apply s_num_chr; auto. rewrite H1. destruct o; cbn [flip]; intuition congruence.
  - rewrite SY. apply s_obj. reflexivity.
  - rewrite SY. apply s_obj'. reflexivity.
  - apply s_mix_r; auto; [unfold ordered in *; destruct o; cbn [flip]; intuition congruence|]. rewrite H2. destruct o; cbn [flip]; intuition congruence.
  - apply s_mix_l; auto; [unfold ordered in *; destruct o; cbn [flip]; intuition congruence|]. rewrite H2. destruct o; cbn [flip]; intuition congruence.
Qed.
Fixpoint rv_ind' (P : rv -> Prop) (HB : forall b, P (RBit b)) (HA : forall sh l, Forall P l -> P (RArr sh l)) (r : rv) : P r :=
  match r with RBit b => HB b | RArr sh l => HA sh l ((fix go l : Forall P l := match l with [] => Forall_nil P | a :: l => Forall_cons a (rv_ind' P HB HA a) (go l) end) l) end.
Lemma Forall2_imp {A B} (P : B -> Prop) (R Q : A -> B -> Prop) : forall l r, Forall P r -> (forall a b, P b -> R a b -> Q a b) -> Forall2 R l r -> Forall2 Q l r.
Proof. intros l r FP I F. revert FP. induction F; intros FP; constructor; inversion FP; subst; auto. Qed.
Lemma perv_flip (SY : forall p q, s p q = s q p) o : forall r t u, perv o t u r -> perv (flip o) u t r.
Proof.
  induction r as [b|sh l IH] using rv_ind'; intros t u H; inversion H; subst.
  - apply p_atoms. apply says_flip; assumption.
  - apply p_left. eapply Forall2_imp; [exact IH| |eassumption]. cbv beta. intros; auto.
  - apply p_right. eapply Forall2_imp; [exact IH| |eassumption]. cbv beta. intros; auto.
  - apply p_more. rewrite swap_combine. apply Forall2_map_l'. cbn [fst snd]. eapply Forall2_imp; [exact IH| |eassumption]. cbv beta. intros; auto.
  - apply p_less. rewrite swap_combine. apply Forall2_map_l'. cbn [fst snd]. eapply Forall2_imp; [exact IH| |eassumption]. cbv beta. intros; auto.
Qed.
Lemma okres_flip (SY : forall p q, s p q = s q p) o t u r : okres (flip o) u t r -> okres o t u r.
Proof. unfold okres, compares. destruct r as [r| |]; auto; [intros H; rewrite <- (flip_flip o); apply perv_flip; auto|]. intros H r P. apply (H r). apply perv_flip; auto. Qed.
End W.
