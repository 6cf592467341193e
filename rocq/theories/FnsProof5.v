From Verif Require Import Base BitsModel SqueezeModel SqueezeProof ReuseModel TransSpec TransProof5 FnsModel FnsSpec FnsProof FnsProof2 FnsProof3 FnsProof4.
From Coq Require Import List.
Open Scope nat_scope.
Notation dot := FnsProof3.dot.
Definition starts (xw ws : list nat) : list nat := map (fun '(h, m) => h + 1 - m) (combine xw ws).
Lemma starts_len xw ws : length xw = length ws -> length (starts xw ws) = length ws.
Proof. intros H. unfold starts. rewrite map_length, combine_length. lia. Qed.
Lemma starts_nth xw : forall ws a, length xw = length ws -> a < length ws -> nth a (starts xw ws) 0 = nth a xw 0 + 1 - nth a ws 0.
Proof. induction xw as [|h xw IH]; intros [|m ws] [|a] L A; cbn [length] in *; try lia; [reflexivity|]. cbn [starts combine map nth]. apply IH; lia. Qed.
Lemma plus_in xw ws P Q : Forall2 (fun h m => m <= h + 1) xw ws -> inb (starts xw ws) P -> inb ws Q -> inb xw (plus P Q).
Proof.
  intros F. revert P Q. induction F as [|h m xw ws H F IH]; intros P Q HP HQ.
  - inversion HP; subst. constructor.
  - cbn [starts combine map] in HP. inversion HP as [|? p ? P' Hp HP']; subst. inversion HQ as [|? q ? Q' Hq HQ']; subst. cbn [plus]. constructor; [lia|]. apply IH; auto.
Qed.
Lemma wstarts_eq xw : forall ws rest, length xw = length ws -> window_starts ws (xw ++ rest) = starts xw ws.
Proof. induction xw as [|h xw IH]; intros [|m ws] rest L; cbn [length] in L; try lia; [destruct rest; reflexivity|]. unfold window_starts, starts in *. cbn [app combine map]. rewrite IH by lia. reflexivity. Qed.
Lemma wrest_eq (xw ws rest : list nat) : length xw = length ws -> skipn (length ws) (xw ++ rest) = rest.
Proof. intros L. rewrite skipn_app, skipn_all2 by lia. replace (length ws - length xw) with 0 by lia. reflexivity. Qed.
Lemma wshape_eq xw ws rest : length xw = length ws -> window_shape ws (xw ++ rest) = starts xw ws ++ ws ++ rest.
Proof. intros L. unfold window_shape. rewrite wstarts_eq, wrest_eq by exact L. reflexivity. Qed.
Section W.
Context {A : Type}.
Variables (x : list A) (xw rest ws : list nat).
Hypothesis AX : array (xw ++ rest) x.
Hypothesis LW : length xw = length ws.
Hypothesis FIT : Forall2 (fun h m => m <= h + 1) xw ws.
Hypothesis W1 : ws <> [].
Let cia := size rest.
Let G := removelast (starts xw ws ++ ws).
Let mlast := last ws 0.
Lemma frame : starts xw ws ++ ws = G ++ [mlast].
Proof. unfold G, mlast. rewrite (app_removelast_last 0) at 1 by (destruct (starts xw ws); [exact W1|discriminate]). f_equal. f_equal. destruct (exists_last W1) as (l & v & E). rewrite E. rewrite app_assoc. rewrite !last_last. reflexivity. Qed.
Lemma G_len : length G + 1 = 2 * length xw.
Proof. pose proof (f_equal (@length nat) frame) as H. rewrite !app_length, starts_len in H by exact LW. cbn [length] in H. lia. Qed.
Lemma split_idx u q : inb G u -> q < mlast -> exists P Q, u ++ [q] = P ++ Q /\ inb (starts xw ws) P /\ inb ws Q.
Proof.
  intros U q0. assert (H : inb (starts xw ws ++ ws) (u ++ [q])) by (rewrite frame; apply Forall2_app; [exact U|constructor; [exact q0|constructor]]).
  apply Forall2_app_inv_l in H. destruct H as (P & Q & H1 & H2 & E). exists P, Q. auto.
Qed.
Lemma dot_idx u q P Q : inb G u -> u ++ [q] = P ++ Q -> inb (starts xw ws) P -> inb ws Q -> dot u (FS xw cia) + q * cia = ravel xw (plus P Q) * cia.
Proof.
  intros U E HP HQ. pose proof (inb_len' _ _ HP) as LP. pose proof (inb_len' _ _ HQ) as LQ. rewrite starts_len in LP by exact LW. pose proof G_len as GL. pose proof (inb_len' _ _ U) as UL.
  rewrite ravel_plus by lia. rewrite Nat.mul_add_distr_r. rewrite <- !(dot_sts cia xw) by lia. rewrite <- dot_app by (rewrite sts_len; lia). rewrite <- E.
  change (sts cia xw ++ sts cia xw) with (FS xw cia).
  assert (L0 : 0 < length xw) by (destruct ws; [congruence|rewrite LW; cbn; lia]).
  assert (FL : FS xw cia = firstn (length G) (FS xw cia) ++ [cia]).
  { rewrite <- (firstn_skipn (length G) (FS xw cia)) at 1. f_equal. pose proof (FS_hi xw cia (length G) ltac:(lia)) as H. replace (length G - length xw) with (length xw - 1) in H by lia. rewrite sts_last in H by lia.
    assert (SL : length (skipn (length G) (FS xw cia)) = 1) by (rewrite skipn_length; unfold FS; rewrite app_length, sts_len; lia).
    rewrite <- (firstn_skipn (length G) (FS xw cia)), app_nth2 in H by (rewrite firstn_length; lia). rewrite firstn_length in H.
    assert (LF : length (FS xw cia) = 2 * length xw) by (unfold FS; rewrite app_length, sts_len; lia). rewrite LF in H. replace (length G - Nat.min (length G) (2 * length xw)) with 0 in H by lia.
    destruct (skipn (length G) (FS xw cia)) as [|c [|d t]]; cbn [length] in SL; try lia. cbn [nth] in H. subst c. reflexivity. }
  rewrite FL. assert (LF : length (firstn (length G) (FS xw cia)) = length u) by (rewrite firstn_length; unfold FS; rewrite app_length, sts_len; lia).
  rewrite dot_app by lia. rewrite <- (app_nil_r u) at 1. rewrite dot_app by lia. cbn [FnsProof3.dot]. lia.
Qed.
Lemma x_bound u : inb G u -> 0 < mlast -> dot u (FS xw cia) + mlast * cia <= length x.
Proof.
  intros U M. destruct (split_idx u (mlast - 1) U ltac:(lia)) as (P & Q & E & HP & HQ). pose proof (dot_idx u _ P Q U E HP HQ) as D. pose proof (ravel_lt' _ _ (plus_in xw ws P Q FIT HP HQ)) as R.
  unfold array in AX. rewrite AX, size_app'. fold cia. assert (S (ravel xw (plus P Q)) * cia <= size xw * cia) by (apply Nat.mul_le_mono_r; lia). replace mlast with (mlast - 1 + 1) at 1 by lia. lia.
Qed.
Lemma assemble l : length l = size G * (mlast * cia) -> (forall u t, inb G u -> t < mlast * cia -> nth_error l (ravel G u * (mlast * cia) + t) = nth_error x (dot u (FS xw cia) + t)) ->
  windows_of ws (xw ++ rest) x l.
Proof.
  intros L H. unfold windows_of. rewrite wshape_eq, wstarts_eq, wrest_eq by exact LW.
  rewrite app_assoc, frame, <- app_assoc. cbn [app]. split; [unfold array; rewrite size_app', size_cons; exact L|].
  intros P Q R HP HQ HR. unfold elt.
  assert (HU : inb (G ++ [mlast]) (P ++ Q)) by (rewrite <- frame; apply Forall2_app; auto). apply Forall2_app_inv_l in HU. destruct HU as (u & v & U & V & E). inversion V as [|? q ? ? Hq V']; subst. inversion V'; subst.
  rewrite app_assoc, E, <- app_assoc. cbn [app]. rewrite ravel_app2 by (apply inb_len'; exact U). cbn [ravel]. rewrite size_cons. fold cia.
  pose proof (ravel_lt' _ _ HR) as RL. fold cia in RL. rewrite H; [|exact U|].
  - f_equal. pose proof (dot_idx u q P Q U (eq_sym E) HP HQ) as D. rewrite ravel_app2 by (apply inb_len', (plus_in xw ws); auto). fold cia. lia.
  - assert (S q * cia <= mlast * cia) by (apply Nat.mul_le_mono_r; lia). cbn [Nat.mul] in *. lia.
Qed.
End W.
