(** Lines of a file *)
From Verif Require Import Base SqueezeModel UtfModel UtfSpec UtfProof FileModel FileSpec.
From Coq Require Import List Lia.
Open Scope nat_scope.
Lemma eol_plain l : plain l <-> Forall (fun b => is_eol b = false) l.
Proof.
  unfold plain. rewrite Forall_forall. unfold is_eol. split.
  - intros [A B] b I. destruct (Z.eqb_spec b 10); [subst; tauto|]. destruct (Z.eqb_spec b 13); [subst; tauto|]. reflexivity.
  - intros H. split; intros I; specialize (H _ I); cbn in H; discriminate.
Qed.
Lemma cut_line : forall b, plain b \/ exists l c r, b = l ++ c :: r /\ plain l /\ is_eol c = true.
Proof.
  induction b as [|c b IH]; [left; split; intros []|]. destruct (is_eol c) eqn:E; [right; exists [], c, b; split; [reflexivity|split; [split; intros []|exact E]]|].
  destruct IH as [P|(l & d & r & -> & P & D)].
  - left. apply eol_plain. constructor; [exact E|apply eol_plain; exact P].
  - right. exists (c :: l), d, r. split; [reflexivity|]. split; [|exact D]. apply eol_plain. constructor; [exact E|apply eol_plain; exact P].
Qed.
Lemma is_eol_cases c : is_eol c = true -> c = 10%Z \/ c = 13%Z.
Proof. unfold is_eol. rewrite orb_true_iff, !Z.eqb_eq. tauto. Qed.
Lemma lines_exist : forall n b, length b <= n -> exists ls, lines b ls.
Proof.
  induction n as [|n IH]; intros b L; [destruct b; [exists []; constructor|cbn [length] in L; lia]|]. destruct (cut_line b) as [P|(l & c & r & -> & P & E)].
  - destruct b as [|c b]; [exists []; constructor|]. exists [c :: b]. apply l_last; [exact P|discriminate].
  - rewrite app_length in L. cbn [length] in L. destruct (is_eol_cases c E) as [->| ->].
    + destruct (IH r) as [ls H]; [lia|]. exists (l :: ls). apply (l_lf l r ls P H).
    + destruct r as [|d r].
      * exists [l]. apply (l_cr l [] [] P); [discriminate|constructor].
      * destruct (Z.eq_dec d 10) as [->|ND].
        { cbn [length] in L. destruct (IH r) as [ls H]; [lia|]. exists (l :: ls). apply (l_crlf l r ls P H). }
        { destruct (IH (d :: r)) as [ls H]; [lia|]. exists (l :: ls). apply (l_cr l (d :: r) ls P); [cbn [hd_error]; congruence|exact H]. }
Qed.
Lemma cut_unique : forall l l' c c' r r', plain l -> plain l' -> is_eol c = true -> is_eol c' = true -> l ++ c :: r = l' ++ c' :: r' -> l = l' /\ c = c' /\ r = r'.
Proof.
  induction l as [|a l IH]; intros [|a' l'] c c' r r' P P' E E' Q; cbn [app] in Q; inversion Q; subst; auto.
  - apply eol_plain in P'. inversion P'; congruence.
  - apply eol_plain in P. inversion P; congruence.
  - apply eol_plain in P, P'. inversion P; inversion P'; subst. destruct (IH l' c c' r r') as (-> & -> & ->); auto; apply eol_plain; assumption.
Qed.
Lemma cut_plain l c r b : plain b -> is_eol c = true -> b <> l ++ c :: r.
Proof. intros P E Q. subst b. apply eol_plain in P. apply Forall_app in P. destruct P as [_ P]. inversion P; congruence. Qed.
Lemma lines_unique b ls : lines b ls -> forall ls', lines b ls' -> ls = ls'.
Proof.
  assert (T : is_eol 10 = true) by reflexivity. assert (T' : is_eol 13 = true) by reflexivity.
  induction 1 as [|l P NE|l b ls P H IH|l b ls P H IH|l b ls P NE H IH]; intros ls' H'.
  - inversion H' as [|? P' NE'|? ? ? P' H1 Q|? ? ? P' H1 Q|? ? ? P' NE' H1 Q]; subst; [reflexivity|congruence|destruct l; discriminate..].
  - remember l as x eqn:Ex in H'. inversion H' as [|? P' NE'|? ? ? P' H1 Q|? ? ? P' H1 Q|? ? ? P' NE' H1 Q]; subst; [congruence|reflexivity|exfalso; eapply cut_plain; try exact P; [|cbn [app]; reflexivity]; assumption..].
  - remember (l ++ [10%Z] ++ b) as x eqn:Ex. cbn [app] in Ex. inversion H' as [Q|? P' NE' Q|? ? ? P' H1 Q|? ? ? P' H1 Q|? ? ? P' NE' H1 Q]; rewrite Ex in Q; cbn [app] in Q.
    + destruct l; discriminate.
    + subst. exfalso. eapply cut_plain; [exact P'| |reflexivity]; assumption.
    + apply cut_unique in Q; auto. destruct Q as (-> & _ & ->). f_equal. auto.
    + apply cut_unique in Q; auto. destruct Q as (_ & Q & _). discriminate.
    + apply cut_unique in Q; auto. destruct Q as (_ & Q & _). discriminate.
  - remember (l ++ [13%Z; 10%Z] ++ b) as x eqn:Ex. cbn [app] in Ex. inversion H' as [Q|? P' NE' Q|? ? ? P' H1 Q|? ? ? P' H1 Q|? ? ? P' NE' H1 Q]; rewrite Ex in Q; cbn [app] in Q.
    + destruct l; discriminate.
    + subst. exfalso. eapply cut_plain; [exact P'| |reflexivity]; assumption.
    + apply cut_unique in Q; auto. destruct Q as (_ & Q & _). discriminate.
    + apply cut_unique in Q; auto. destruct Q as (-> & _ & Q). inversion Q; subst. f_equal. auto.
    + apply cut_unique in Q; auto. destruct Q as (_ & _ & ->). cbn [hd_error] in NE'. congruence.
  - remember (l ++ [13%Z] ++ b) as x eqn:Ex. cbn [app] in Ex. inversion H' as [Q|? P' NE' Q|? ? ? P' H1 Q|? ? ? P' H1 Q|? ? ? P' NE' H1 Q]; rewrite Ex in Q; cbn [app] in Q.
    + destruct l; discriminate.
    + subst. exfalso. eapply cut_plain; [exact P'| |reflexivity]; assumption.
    + apply cut_unique in Q; auto. destruct Q as (_ & Q & _). discriminate.
    + apply cut_unique in Q; auto. destruct Q as (_ & _ & <-). cbn [hd_error] in NE. congruence.
    + apply cut_unique in Q; auto. destruct Q as (-> & _ & ->). f_equal. auto.
Qed.
(** ** The loops *)
Lemma rd_mid {A} (pre l : list A) c r : rd (pre ++ l ++ c :: r) (length pre + length l) = Ok c.
Proof. unfold rd. rewrite nth_error_app2 by lia. rewrite nth_error_app2 by lia. replace (_ - _) with 0 by lia. reflexivity. Qed.
Lemma rd_at {A} (pre : list A) c r : rd (pre ++ c :: r) (length pre) = Ok c.
Proof. unfold rd. rewrite nth_error_app2, Nat.sub_diag by lia. reflexivity. Qed.
Definition open_end (b : list Z) : bool := negb (is_eol (last b 10%Z)).
Lemma last_mid l c b : is_eol c = true -> is_eol (last (l ++ c :: b) 10%Z) = is_eol (last b 10%Z).
Proof.
  intros E. induction l as [|a l IH].
  - destruct b as [|d b]; [exact E|reflexivity].
  - cbn [app]. rewrite <- IH. destruct (l ++ c :: b) eqn:Q; [destruct l; discriminate|]. reflexivity.
Qed.
Lemma count_plain : forall l fuel pre r n, plain l -> length l < fuel -> line_count fuel (pre ++ l ++ r) (length pre) n = line_count (fuel - length l) (pre ++ l ++ r) (length pre + length l) n.
Proof.
  induction l as [|c l IH]; intros fuel pre r n P L; cbn [length] in *; [rewrite Nat.sub_0_r, Nat.add_0_r; reflexivity|]. destruct fuel as [|fuel]; [lia|]. apply eol_plain in P. inversion P as [|? ? E P']; subst. unfold is_eol in E. apply orb_false_iff in E. destruct E as [E1 E2].
  cbn [line_count]. replace (length pre <? length (pre ++ (c :: l) ++ r)) with true by (symmetry; apply Nat.ltb_lt; rewrite app_length; cbn [app length]; lia). cbn [app]. rewrite rd_at. cbn [bind]. rewrite E1, E2. specialize (IH fuel (pre ++ [c]) r n). rewrite app_length, <- app_assoc in IH. cbn [length app] in IH. rewrite IH; [|apply eol_plain; exact P'|lia]. f_equal; lia.
Qed.
Lemma count_ok b ls : lines b ls -> forall fuel pre n, length b < fuel -> line_count fuel (pre ++ b) (length pre) n = Ok (n + (length ls - (if open_end b then 1 else 0))).
Proof.
  assert (T : is_eol 10 = true) by reflexivity. assert (T' : is_eol 13 = true) by reflexivity. unfold open_end.
  induction 1 as [|l P NE|l b ls P H IH|l b ls P H IH|l b ls P NE H IH]; intros fuel pre n L.
  - destruct fuel as [|fuel]; [cbn [length] in L; lia|]. cbn [line_count]. rewrite app_nil_r, Nat.ltb_irrefl. cbn. f_equal. lia.
  - rewrite <- (app_nil_r l) at 1. rewrite count_plain by (auto; lia). rewrite app_nil_r. destruct (fuel - length l) as [|f] eqn:F; [lia|]. cbn [line_count]. rewrite app_length, Nat.ltb_irrefl. replace (is_eol (last l 10%Z)) with false; [cbn [negb length]; f_equal; lia|].
    symmetry. apply eol_plain in P. destruct (exists_last NE) as (l' & c & ->). rewrite last_last. apply Forall_app in P. destruct P as [_ P]. inversion P; assumption.
  - cbn [app] in *. rewrite app_length in L. cbn [length] in L. rewrite count_plain by (auto; lia). destruct (fuel - length l) as [|f] eqn:F; [lia|]. cbn [line_count]. rewrite (proj2 (Nat.ltb_lt _ _)) by (rewrite !app_length; cbn [length]; lia). rewrite rd_mid. cbn [bind]. rewrite Z.eqb_refl, last_mid by exact T.
    specialize (IH f (pre ++ l ++ [10%Z]) (n + 1)). rewrite !app_length, <- !app_assoc in IH. cbn [length app] in IH. rewrite <- Nat.add_assoc, IH by lia. f_equal. cbn [length]. destruct H; cbn [length]; destruct (negb _) eqn:Q; try lia. discriminate Q.
  - cbn [app] in *. rewrite app_length in L. cbn [length] in L. rewrite count_plain by (auto; lia). destruct (fuel - length l) as [|f] eqn:F; [lia|]. cbn [line_count]. rewrite (proj2 (Nat.ltb_lt _ _)) by (rewrite !app_length; cbn [length]; lia). rewrite rd_mid. cbn [bind]. rewrite (proj2 (Z.eqb_neq 13 10)) by lia. rewrite Z.eqb_refl. rewrite (proj2 (Nat.ltb_lt _ _)) by (rewrite !app_length; cbn [length]; lia).
    replace (rd (pre ++ l ++ 13%Z :: 10%Z :: b) (length pre + length l + 1)) with (Ok 10%Z) by (symmetry; pose proof (rd_mid pre (l ++ [13%Z]) 10%Z b) as R; rewrite <- app_assoc, app_length in R; cbn [app length] in R; rewrite Nat.add_assoc in R; exact R). cbn [bind]. rewrite Z.eqb_refl, last_mid by exact T'. change (10%Z :: b) with ([] ++ 10%Z :: b) at 2. rewrite last_mid by exact T.
    specialize (IH f (pre ++ l ++ [13%Z; 10%Z]) (n + 1)). rewrite !app_length, <- !app_assoc in IH. cbn [length app] in IH. rewrite <- Nat.add_assoc, IH by lia. f_equal. cbn [length]. destruct H; cbn [length]; destruct (negb _) eqn:Q; try lia. discriminate Q.
  - cbn [app] in *. rewrite app_length in L. cbn [length] in L. rewrite count_plain by (auto; lia). destruct (fuel - length l) as [|f] eqn:F; [lia|]. cbn [line_count]. rewrite (proj2 (Nat.ltb_lt _ _)) by (rewrite !app_length; cbn [length]; lia). rewrite rd_mid. cbn [bind]. rewrite (proj2 (Z.eqb_neq 13 10)) by lia. rewrite Z.eqb_refl, last_mid by exact T'.
    specialize (IH f (pre ++ l ++ [13%Z]) (n + 1)). rewrite !app_length, <- !app_assoc in IH. cbn [length app] in IH.
    assert (G : line_count f (pre ++ l ++ 13%Z :: b) (length pre + length l + 1) (n + 1) = Ok (n + (length (l :: ls) - (if negb (is_eol (last b 10%Z)) then 1 else 0)))) by (rewrite <- Nat.add_assoc, IH by lia; f_equal; cbn [length]; destruct H; cbn [length]; destruct (negb _) eqn:Q; try lia; discriminate Q).
    destruct (Nat.ltb_spec (length pre + length l + 1) (length (pre ++ l ++ 13%Z :: b))) as [LT|GE]; [|exact G]. destruct b as [|d b]; [rewrite !app_length in LT; cbn [length] in LT; lia|].
    replace (rd (pre ++ l ++ 13%Z :: d :: b) (length pre + length l + 1)) with (Ok d) by (symmetry; pose proof (rd_mid pre (l ++ [13%Z]) d b) as R; rewrite <- app_assoc, app_length in R; cbn [app length] in R; rewrite Nat.add_assoc in R; exact R). cbn [bind]. destruct (Z.eqb_spec d 10) as [->|_]; [cbn [hd_error] in NE; congruence|exact G].
Qed.
Lemma end_ok : forall l fuel pre r, plain l -> length l < fuel -> (r = [] \/ exists c r', r = c :: r' /\ is_eol c = true) -> line_end fuel (pre ++ l ++ r) (length pre) = Ok (length pre + length l).
Proof.
  induction l as [|c l IH]; intros fuel pre r P L R; destruct fuel as [|fuel]; cbn [length] in L; try lia; cbn [line_end].
  - destruct R as [->|(c & r' & -> & E)].
    + cbn [app]. rewrite app_nil_r, Nat.ltb_irrefl. cbn [length]. f_equal. lia.
    + rewrite (proj2 (Nat.ltb_lt _ _)) by (rewrite app_length; cbn [length app]; lia). cbn [app]. rewrite rd_at. cbn [bind]. rewrite E. cbn [length]. f_equal. lia.
  - apply eol_plain in P. inversion P as [|? ? E P']; subst. rewrite (proj2 (Nat.ltb_lt _ _)) by (rewrite app_length; cbn [length app]; lia). cbn [app]. rewrite rd_at. cbn [bind]. rewrite E. specialize (IH fuel (pre ++ [c]) r). rewrite app_length, <- app_assoc in IH. cbn [length app] in IH. rewrite IH; [f_equal; cbn [length]; lia|apply eol_plain; exact P'|lia|exact R].
Qed.
Lemma seg_ok (pre l r : list Z) : firstn (length pre + length l - length pre) (skipn (length pre) (pre ++ l ++ r)) = l.
Proof. rewrite skipn_app, skipn_all, Nat.sub_diag. cbn [app skipn]. replace (_ - _) with (length l) by lia. rewrite firstn_app, Nat.sub_diag, firstn_all. cbn [firstn]. apply app_nil_r. Qed.
Lemma loop_lines b ls : lines b ls -> forall pre, line_loop (length ls) (pre ++ b) (length pre) = mapM utf8Decode ls.
Proof.
  induction 1 as [|l P NE|l b ls P H IH|l b ls P H IH|l b ls P NE H IH]; intros pre.
  - reflexivity.
  - cbn [length line_loop mapM]. replace (pre ++ l) with (pre ++ l ++ []) by (rewrite app_nil_r; reflexivity). rewrite end_ok by (auto; rewrite !app_length; lia). cbn [bind]. rewrite seg_ok. destruct (utf8Decode l); cbn [bind]; try reflexivity. rewrite app_nil_r, app_length, Nat.ltb_irrefl. reflexivity.
  - cbn [length line_loop mapM app]. rewrite end_ok by (solve [assumption|rewrite !app_length; lia|right; eauto]). cbn [bind]. rewrite seg_ok. destruct (utf8Decode l); cbn [bind]; try reflexivity. rewrite (proj2 (Nat.ltb_lt _ _)) by (rewrite !app_length; cbn [length]; lia). rewrite rd_mid. cbn [bind]. rewrite (proj2 (Z.eqb_neq 10 13)) by lia. cbn [andb bind].
    specialize (IH (pre ++ l ++ [10%Z])). rewrite !app_length, <- !app_assoc in IH. cbn [length app] in IH. rewrite <- Nat.add_assoc, IH. reflexivity.
  - cbn [length line_loop mapM app]. rewrite end_ok by (solve [assumption|rewrite !app_length; lia|right; eauto]). cbn [bind]. rewrite seg_ok. destruct (utf8Decode l); cbn [bind]; try reflexivity. rewrite (proj2 (Nat.ltb_lt _ _)) by (rewrite !app_length; cbn [length]; lia). rewrite rd_mid. cbn [bind]. rewrite Z.eqb_refl. rewrite (proj2 (Nat.ltb_lt _ _)) by (rewrite !app_length; cbn [length]; lia). cbn [andb].
    replace (rd (pre ++ l ++ 13%Z :: 10%Z :: b) (length pre + length l + 1)) with (Ok 10%Z) by (symmetry; pose proof (rd_mid pre (l ++ [13%Z]) 10%Z b) as R; rewrite <- app_assoc, app_length in R; cbn [app length] in R; rewrite Nat.add_assoc in R; exact R). cbn [bind]. rewrite Z.eqb_refl.
    specialize (IH (pre ++ l ++ [13%Z; 10%Z])). rewrite !app_length, <- !app_assoc in IH. cbn [length app] in IH. rewrite <- Nat.add_assoc, IH. reflexivity.
  - cbn [length line_loop mapM app]. rewrite end_ok by (solve [assumption|rewrite !app_length; lia|right; eauto]). cbn [bind]. rewrite seg_ok. destruct (utf8Decode l); cbn [bind]; try reflexivity. rewrite (proj2 (Nat.ltb_lt _ _)) by (rewrite !app_length; cbn [length]; lia). rewrite rd_mid. cbn [bind]. rewrite Z.eqb_refl. cbn [andb].
    specialize (IH (pre ++ l ++ [13%Z])). rewrite !app_length, <- !app_assoc in IH. cbn [length app] in IH. rewrite Nat.add_assoc in IH.
    destruct (Nat.ltb_spec (length pre + length l + 1) (length (pre ++ l ++ 13%Z :: b))) as [LT|GE]; cbn [bind]; [|rewrite IH; reflexivity]. destruct b as [|d b]; [rewrite !app_length in LT; cbn [length] in LT; lia|].
    replace (rd (pre ++ l ++ 13%Z :: d :: b) (length pre + length l + 1)) with (Ok d) by (symmetry; pose proof (rd_mid pre (l ++ [13%Z]) d b) as R; rewrite <- app_assoc, app_length in R; cbn [app length] in R; rewrite Nat.add_assoc in R; exact R). cbn [bind]. destruct (Z.eqb_spec d 10) as [->|_]; [cbn [hd_error] in NE; congruence|]. rewrite IH. reflexivity.
Qed.
Lemma split_ok b ls : lines b ls -> split_lines b = mapM utf8Decode ls.
Proof.
  intros H. unfold split_lines. pose proof (count_ok b ls H (S (length b)) [] 0 ltac:(lia)) as C. cbn [app length] in C. rewrite C. cbn [bind Nat.add]. pose proof (loop_lines b ls H []) as L. cbn [app length] in L. rewrite <- L. unfold open_end. destruct (Nat.eqb_spec (length b) 0) as [Z0|NZ]; cbn [bind].
  - destruct b; [|discriminate]. cbn [last is_eol]. cbn. rewrite Nat.sub_0_r. reflexivity.
  - assert (NE : b <> []) by (intros ->; cbn in NZ; lia). destruct (exists_last NE) as (b' & c & ->). rewrite last_last, app_length. cbn [length]. replace (length b' + 1 - 1) with (length b') by lia. rewrite rd_at. cbn [bind]. destruct (is_eol c); cbn [negb]; [rewrite Nat.sub_0_r; reflexivity|]. f_equal. clear - H. remember (b' ++ [c]) as q eqn:Q. destruct H; cbn [length]; try lia. destruct b'; discriminate.
Qed.
