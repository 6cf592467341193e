From Verif Require Import Base ListLib TransModel TransProof.
From Coq Require Import List Arith Lia.
Open Scope nat_scope.
Lemma mod_mod_mul a b n : 0 < a -> 0 < b -> (n mod (a * b)) mod b = n mod b.
Proof. intros. rewrite (Nat.mul_comm a b), mod_split by lia. rewrite Nat.mul_comm, Nat.mod_add, Nat.mod_mod by lia. reflexivity. Qed.
Definition offi (ax : list (nat * nat)) (K : nat) : nat := offr (rev ax) K.
Lemma offi_cons l s t K : pos t -> K < l * P t -> 0 < l -> offi ((l, s) :: t) K = (K / P t) * s + offi t (K mod P t).
Proof.
  intros PT KB L. unfold offi. cbn [rev]. rewrite offr_app by (apply Forall_rev; auto). rewrite P_rev. cbn [offr]. rewrite (Nat.mod_small (K / P t)) by (apply Nat.div_lt_upper_bound; [pose proof (P_pos _ PT); lia|lia]). assert (offr (rev t) K = offr (rev t) (K mod P t)); [|lia]. clear KB.
  rewrite <- (P_rev t). assert (PT' : pos (rev t)) by (apply Forall_rev; auto). generalize dependent (rev t). intros u PU. clear - PU. revert K. induction PU as [|[a b] u U PU IH]; intros K; auto. cbn [fst] in U. pose proof (P_pos _ PU). cbn [offr]. rewrite P_cons. f_equal. - rewrite (Nat.mul_comm a (P u)), mod_mod_mul by lia. reflexivity. - rewrite IH. f_equal. rewrite mod_split by lia. rewrite (Nat.mul_comm a ((K / a) mod P u)), Nat.div_add by lia. rewrite (Nat.div_small (K mod a) a) by (apply Nat.mod_upper_bound; lia). reflexivity.
Qed.
Lemma indices_ok c : 0 < c -> forall ax, pos ax -> Forall (fun a => exists q, snd a = q * c) ax -> ax <> [] -> length (indices c ax) = P ax /\ forall K, K < P ax -> exists v, nth_error (indices c ax) K = Some v /\ v * c = offi ax K.
Proof.
  intros C. induction ax as [|[l s] ax IH]; intros PA DV NE; [contradiction|]. pose proof (Forall_inv PA) as L. cbn [fst] in L. pose proof (Forall_inv_tail PA) as PA'. destruct (Forall_inv DV) as (q & DQ). cbn [snd] in DQ. pose proof (Forall_inv_tail DV) as DV'. assert (SQ : s / c = q) by (rewrite DQ; apply Nat.div_mul; lia).
  assert (SV : length (map (fun k => s / c * k) (seq 0 l)) = l /\ forall k, k < l -> nth_error (map (fun k => s / c * k) (seq 0 l)) k = Some (q * k)). { rewrite map_length, seq_length. split; auto. intros k KL. rewrite nth_error_map. rewrite (nth_error_nth' _ 0) by (rewrite seq_length; auto). rewrite seq_nth by auto. cbn [option_map Nat.add]. rewrite SQ. reflexivity. }
  destruct SV as [SV1 SV2]. destruct ax as [|a ax].
  - cbn [indices]. rewrite P_cons. change (P []) with 1. rewrite Nat.mul_1_r. split; auto. intros K KL. exists (q * K). split; auto. unfold offi. cbn [rev app offr]. rewrite Nat.mod_small by auto. rewrite DQ. ring.
  - destruct IH as [IH1 IH2]; auto; [discriminate|]. change (indices c ((l, s) :: a :: ax)) with (flat_map (fun v => map (fun u => v + u) (indices c (a :: ax))) (map (fun k => s / c * k) (seq 0 l))). rewrite P_cons. set (I := indices c (a :: ax)) in *. set (Q := P (a :: ax)) in *. assert (Q0 : 0 < Q) by (apply P_pos; auto). generalize dependent (map (fun k => s / c * k) (seq 0 l)). intros V SV1 SV2.
    assert (G : forall (V : list nat), length (flat_map (fun v => map (fun u => v + u) I) V) = length V * Q /\ forall K, K < length V * Q -> exists v u, nth_error V (K / Q) = Some v /\ nth_error I (K mod Q) = Some u /\ nth_error (flat_map (fun v => map (fun u => v + u) I) V) K = Some (v + u)).
    { clear - IH1 Q0. induction V as [|v V IH]; cbn [flat_map length]; [split; [auto|intros; lia]|]. destruct IH as [I1 I2]. split; [rewrite app_length, map_length, IH1, I1; lia|]. intros K KB. destruct (Nat.lt_ge_cases K Q) as [KQ|KQ].
      - rewrite Nat.div_small, Nat.mod_small by auto. destruct (nth_error I K) as [u|] eqn:EU; [|apply nth_error_None in EU; lia]. exists v, u. split; auto. split; auto. rewrite nth_error_app1 by (rewrite map_length; lia). rewrite nth_error_map, EU. reflexivity.
      - destruct (I2 (K - Q)) as (v' & u & E1 & E2 & E3); [lia|]. exists v', u. assert (EK : K = (K - Q) + 1 * Q) by lia. assert (D : K / Q = S ((K - Q) / Q)) by (rewrite EK at 1; rewrite Nat.div_add by lia; lia). assert (M : K mod Q = (K - Q) mod Q) by (rewrite EK at 1; rewrite Nat.mod_add by lia; auto). rewrite D, M. cbn [nth_error]. split; auto. split; auto. rewrite nth_error_app2 by (rewrite map_length; lia). rewrite map_length, IH1. auto. }
    destruct (G V) as [G1 G2]. rewrite SV1 in G1, G2. split; auto. intros K KB. destruct (G2 K KB) as (v & u & E1 & E2 & E3). exists (v + u). split; auto. assert (KD : K / Q < l) by (apply Nat.div_lt_upper_bound; lia). rewrite SV2 in E1 by auto. injection E1 as <-. destruct (IH2 (K mod Q)) as (u' & E4 & E5); [apply Nat.mod_upper_bound; lia|]. rewrite E2 in E4. injection E4 as <-. rewrite offi_cons by auto. fold Q. rewrite <- E5, DQ. ring.
Qed.
Section M.
Context {A : Type}.
Variables (x : list A).
Definition moved (f : nat -> nat) (N : nat) (l : list A) : Prop := length l = N /\ forall n, n < N -> nth_error l n = nth_error x (f n).
(** ** large cells *)
Section C.
Variables (csz l str : nat) (outer : list (nat * nat)).
Hypotheses (C0 : 0 < csz) (L0 : 0 < l) (PO : pos outer).
Let N := csz * (l * P outer).
Let f := F csz ((l, str) :: outer).
Hypothesis fb : forall n, n < N -> f n < length x.
Lemma F_row K k c : k < l -> c < csz -> F csz ((l, str) :: outer) (K * (l * csz) + k * csz + c) = c + k * str + offr outer K.
Proof. intros KL CL. unfold F. replace (K * (l * csz) + k * csz + c) with ((K * l + k) * csz + c) by ring. destruct (divmod_digit csz (K * l + k) c C0 CL) as [-> ->]. cbn [offr]. destruct (divmod_digit l K k L0 KL) as [-> ->]. lia. Qed.
Lemma axis_loop_ok : forall fuel K r, P outer - K < fuel -> K < P outer -> inv x N f r (fun m => m < K * (l * csz)) ->
  exists r', axis_loop fuel (fun i j0 r => loop l 0 (fun k r => copy r (i + k * csz) x (j0 + k * str) csz) r) (l * csz) N (K * (l * csz)) (offr outer K) (dg outer K) r = Ok r' /\ inv x N f r' (fun _ => True).
Proof.
  induction fuel as [|fuel IH]; intros K r FU KB IV; [lia|]. cbn [axis_loop].
  assert (RB : (K + 1) * (l * csz) <= N) by (unfold N; nia).
  destruct (loop_inv (fun k r => inv x N f r (fun m => m < K * (l * csz) + k * csz)) (fun k r => copy r (K * (l * csz) + k * csz) x (offr outer K + k * str) csz) l 0 r) as (r1 & E1 & IV1).
  - intros k r0 KL IV0. destruct (copy_ok x N f fb r0 _ (K * (l * csz) + k * csz) (offr outer K + k * str) csz IV0) as (r1 & E1 & IV1).
    + nia.
    + intros c CL. unfold f. rewrite F_row by lia. lia.
    + exists r1. split; auto. eapply inv_weak; [|exact IV1]. intros m _ MB. cbn beta. lia.
  - eapply inv_weak; [|exact IV]. intros m _ MB. cbn beta in *. rewrite Nat.mul_0_l in MB. lia.
  - rewrite E1. cbn [bind]. replace (K * (l * csz) + l * csz) with ((K + 1) * (l * csz)) by ring. destruct (Nat.eqb_spec ((K + 1) * (l * csz)) N) as [EN|NE].
    + exists r1. split; auto. eapply inv_weak; [|exact IV1]. intros m MN _. cbn beta. cbn [Nat.add]. lia.
    + assert (K + 1 < P outer) by (destruct (Nat.eq_dec (K + 1) (P outer)) as [EQ|]; [exfalso; apply NE; unfold N; rewrite EQ; ring|lia]). rewrite bump_ok by auto. cbn [bind]. apply IH; [lia|auto|]. eapply inv_weak; [|exact IV1]. intros m _ MB. cbn beta in *. cbn [Nat.add]. lia.
Qed.
End C.
Variables (csz : nat) (ax : list (nat * nat)).
Hypotheses (C0 : 0 < csz) (PA : pos ax) (NE : ax <> []).
Let N := csz * P ax.
Let f := F csz (rev ax).
Hypothesis fb : forall n, n < N -> f n < length x.
Lemma reorder_copy_ok : exists l, reorder_copy csz ax x = Ok l /\ moved f N l.
Proof.
  unfold reorder_copy. assert (PR : pos (rev ax)) by (apply Forall_rev; auto). pose proof (P_rev ax) as PE. fold (P ax). destruct (rev ax) as [|[l str] outer] eqn:ER; [apply (f_equal (@rev _)) in ER; rewrite rev_involutive in ER; contradiction|]. pose proof (Forall_inv PR) as L0. cbn [fst] in L0. pose proof (Forall_inv_tail PR) as PO. rewrite P_cons in PE. assert (NE' : N = csz * (l * P outer)) by (unfold N; rewrite <- PE; reflexivity). change (csz * P ax) with N. rewrite NE'.
  assert (fb' : forall n, n < csz * (l * P outer) -> F csz ((l, str) :: outer) n < length x) by (rewrite <- NE'; intros n H; apply fb; auto).
  destruct (axis_loop_ok csz l str outer C0 L0 PO fb' (S (csz * (l * P outer))) 0 (repeat None (csz * (l * P outer)))) as (r & E & IV).
  - pose proof (P_pos _ PO). nia.
  - apply P_pos; auto.
  - apply inv0. intros n _. lia.
  - rewrite dg0, offr0, Nat.mul_0_l in E. rewrite E. cbn [bind]. destruct (done_ok _ _ _ r IV) as (lst & -> & LL & H). exists lst. split; auto. split; auto.
Qed.
(** ** selecting cells *)
Lemma select_ok c I n : 0 < c -> n * c <= length x -> Forall (fun k => k < n) I -> exists l, select_cells I n c x = Ok l /\ length l = length I * c /\ forall K k r, nth_error I K = Some k -> r < c -> nth_error l (K * c + r) = nth_error x (k * c + r).
Proof.
  intros C NB. induction I as [|k I IH]; intros FI; cbn [select_cells]; [exists []; split; auto; split; auto; intros [|K]; discriminate|]. pose proof (Forall_inv FI) as KB. cbn beta in KB. replace (k <? n) with true by (symmetry; apply Nat.ltb_lt; auto). destruct (IH (Forall_inv_tail FI)) as (l & -> & LL & H). cbn [bind]. eexists. split; [reflexivity|]. assert (KC : k * c + c <= length x) by (pose proof (Nat.mul_le_mono_r (k + 1) n c ltac:(lia)) as Q; rewrite Nat.mul_add_distr_r in Q; lia). assert (LC : length (firstn c (skipn (k * c) x)) = c) by (rewrite firstn_length, skipn_length; lia). split; [rewrite app_length, LC, LL; cbn [length]; lia|]. intros [|K] k' r E R; cbn [nth_error] in E.
  - injection E as <-. rewrite Nat.mul_0_l, Nat.add_0_l, nth_error_app1 by lia. rewrite <- (firstn_skipn (k * c) x) at 2. assert (LF : length (firstn (k * c) x) = k * c) by (rewrite firstn_length; lia). rewrite nth_error_app2 by lia. rewrite LF. replace (k * c + r - k * c) with r by lia. clear - R. revert r R. generalize (skipn (k * c) x). induction c as [|c IH]; intros l r R; [lia|]. destruct l; [destruct r; reflexivity|]. destruct r; auto. cbn. apply IH. lia.
  - rewrite nth_error_app2 by lia. rewrite LC. replace (S K * c + r - c) with (K * c + r) by lia. apply H; auto.
Qed.
Hypothesis DV : Forall (fun a => exists q, snd a = q * csz) ax.
Lemma select_path_ok : exists l, select_cells (indices csz ax) (length x / csz) csz x = Ok l /\ moved f N l.
Proof.
  destruct (indices_ok csz C0 ax PA DV NE) as [IL IN]. destruct (select_ok csz (indices csz ax) (length x / csz) C0) as (l & E & LL & H).
  - pose proof (Nat.div_mod (length x) csz ltac:(lia)). lia.
  - apply Forall_forall. intros k IK. apply In_nth_error in IK. destruct IK as (K & EK). assert (KB : K < P ax) by (rewrite <- IL; apply nth_error_Some; congruence). destruct (IN K KB) as (v & EV & EO). rewrite EK in EV. injection EV as <-. assert (B : f (K * csz + (csz - 1)) < length x) by (apply fb; unfold N; nia). unfold f, F in B. destruct (divmod_digit csz K (csz - 1) C0 ltac:(lia)) as [D1 D2]. rewrite D1, D2 in B. fold (offi ax K) in B. rewrite <- EO in B. apply Nat.div_le_lower_bound; [lia|]. lia.
  - exists l. split; auto. split; [rewrite LL, IL; unfold N; lia|]. intros n NB. assert (KB : n / csz < P ax) by (apply Nat.div_lt_upper_bound; [lia|exact NB]). destruct (IN _ KB) as (v & EV & EO). pose proof (Nat.div_mod n csz ltac:(lia)) as DM. pose proof (Nat.mod_upper_bound n csz ltac:(lia)) as MB. rewrite DM at 1. rewrite (Nat.mul_comm csz). rewrite (H _ v _ EV MB). unfold f, F. fold (offi ax (n / csz)). rewrite <- EO. f_equal. lia.
Qed.
End M.
