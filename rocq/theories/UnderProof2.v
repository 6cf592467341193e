From Verif Require Import Base SqueezeModel ReuseModel TransSpec SqueezeProof FnsModel FnsProof UnderModel UnderSpec UnderProof.
From Coq Require Import List.
Open Scope nat_scope.
Lemma eqsh_ok a b : reflect (a = b) (eqsh a b).
Proof. unfold eqsh. destruct (list_eq_dec Nat.eq_dec a b); constructor; auto. Qed.
Lemma call_ok {A} (o : oper A) sh arg : match call o sh arg with
  | Ok (RArr s rep) => if eqsh s sh then gives o sh arg rep else forall rep, ~ gives o sh arg rep
  | Ok RAtm | Err => forall rep, ~ gives o sh arg rep
  | UB => exists f, o = OFun f /\ f sh arg = UB end.
Proof.
  destruct o as [f|s l|c]; cbn [call gives].
  - destruct (f sh arg) as [[|s rep]| |] eqn:E; try (intros rep' H; discriminate); [|eauto]. destruct (eqsh_ok s sh) as [->|N]; [reflexivity|]. intros rep' H. inversion H. auto.
  - destruct (eqsh_ok s sh) as [->|N]; [auto|]. intros rep [H _]. auto.
  - destruct (eqsh_ok sh sh) as [_|N]; [reflexivity|congruence].
Qed.
Lemma gives_len {A} (o : oper A) sh arg rep : wf_op o -> array sh arg -> gives o sh arg rep -> array sh rep.
Proof. destruct o as [f|s l|c]; cbn [wf_op gives]; intros W AR G; [eapply W; [exact AR|exact G]|destruct G as [<- <-]; exact W|]. subst rep. unfold array in *. rewrite repeat_length. exact AR. Qed.
Lemma wholes_ok : forall w, match wholes w with Some z => w = map VNum z | None => forall z, w <> map VNum z end.
Proof.
  induction w as [|v w IH]; cbn [wholes]; [reflexivity|]. destruct v as [y|y|y|y]; try (intros [|? ?] H; discriminate). destruct (wholes w) as [z|]; [subst w; reflexivity|]. intros [|a z] H; [discriminate|]. inversion H. eapply IH. eassumption.
Qed.
Lemma index_wrap n z : in_range n z = true -> index_of n (VNum z) (wrapz n z).
Proof. unfold in_range, index_of, wrapz. intros H. destruct (Z.ltb_spec z 0); (split; [lia|]); [right|left]; f_equal; lia. Qed.
Lemma index_inv n v k : index_of n v k -> exists z, v = VNum z /\ in_range n z = true /\ wrapz n z = k.
Proof.
  intros (K & [-> | ->]); (eexists; split; [reflexivity|]); unfold in_range, wrapz; (split; [lia|]); match goal with |- context [(?a <? 0)%Z] => destruct (Z.ltb_spec a 0); lia end.
Qed.
Lemma indices_ok n w : match wholes w with Some z => if forallb (in_range n) z then Forall (fun z => in_range n z = true) z /\ Forall2 (index_of n) w (map (wrapz n) z) else forall idx, ~ Forall2 (index_of n) w idx | None => forall idx, ~ Forall2 (index_of n) w idx end.
Proof.
  pose proof (wholes_ok w) as H. destruct (wholes w) as [z|].
  - subst w. destruct (forallb (in_range n) z) eqn:F.
    + rewrite forallb_forall in F. split; [apply Forall_forall; exact F|]. induction z as [|a z IH]; [constructor|]. cbn [map]. constructor; [apply index_wrap; apply F; left; reflexivity|apply IH; intros y Y; apply F; right; exact Y].
    + intros idx FI. assert (forallb (in_range n) z = true); [|congruence]. apply forallb_forall. intros a I. clear F. revert idx FI. induction z as [|b z IH]; intros idx FI; [destruct I|]. cbn [map] in FI. inversion FI as [|? k ? ? HK FT]; subst. destruct I as [->|I]; [|eapply IH; eauto]. destruct (index_inv _ _ _ HK) as (y & E & R & _). inversion E; subst. exact R.
  - intros idx FI. assert (exists z, w = map VNum z) as [z E]; [|apply (H z E)]. clear H. induction FI as [|v k w idx HK FT IH]; [exists []; reflexivity|]. destruct IH as [z ->]. destruct (index_inv _ _ _ HK) as (y & -> & _). exists (y :: z). reflexivity.
Qed.
Lemma index_fun n v a b : index_of n v a -> index_of n v b -> a = b.
Proof. intros (A1 & [-> | ->]) (B1 & [B2 | B2]); inversion B2; lia. Qed.
Lemma indices_fun n w : forall a b, Forall2 (index_of n) w a -> Forall2 (index_of n) w b -> a = b.
Proof. induction w as [|v w IH]; intros a b HA HB; inversion HA; inversion HB; subst; [reflexivity|]. f_equal; [eapply index_fun; eauto|apply IH; auto]. Qed.
Lemma picked_len {A} csz n idx (x : list A) : length x = n * csz -> Forall (fun k => k < n) idx -> length (picked csz idx x) = length idx * csz.
Proof. intros L F. unfold picked. induction F as [|k idx K F IH]; [reflexivity|]. cbn [flat_map]. rewrite app_length, IH, (cell_len csz n) by auto. reflexivity. Qed.
Lemma cells_all {A} csz : forall m (l : list A) s, length l = (s + m) * csz -> flat_map (cell csz l) (seq s m) = skipn (s * csz) l.
Proof.
  induction m as [|m IH]; intros l s L; cbn [seq flat_map]; [rewrite skipn_all2 by (rewrite L, Nat.add_0_r; lia); reflexivity|]. rewrite IH by (rewrite L; f_equal; lia). unfold cell. rewrite <- (firstn_skipn csz (skipn (s * csz) l)) at 2. f_equal. rewrite skskip. f_equal. lia.
Qed.
Lemma picked_back {A} csz n idx (x rep r : list A) : length rep = length idx * csz -> replaced csz n idx x rep r -> picked csz idx r = rep.
Proof.
  intros L (_ & H & _). rewrite <- (cells_all csz (length idx) rep 0) at 1 by exact L. unfold picked. clear L.
  assert (G : forall m s, (forall i k, nth_error m i = Some k -> cell csz r k = cell csz rep (s + i)) -> flat_map (cell csz r) m = flat_map (cell csz rep) (seq s (length m))).
  { induction m as [|k m IH]; intros s HM; [reflexivity|]. cbn [flat_map length seq]. rewrite (HM 0 k eq_refl), Nat.add_0_r. f_equal. apply IH. intros i q E. rewrite (HM (S i) q E). f_equal. lia. }
  apply G. exact H.
Qed.
Lemma cell1 {A} (l : list A) k : cell 1 l k = match nth_error l k with Some v => [v] | None => [] end.
Proof. unfold cell. rewrite Nat.mul_1_r. revert k. induction l as [|a l IH]; intros [|k]; try reflexivity. apply IH. Qed.
Lemma each_ok {A} n (c : A) : forall z r, length r = n -> Forall (fun z => in_range n z = true) z -> exists r', each_impl n c z r = Ok r' /\ length r' = n /\ forall k, nth_error r' k = if in_dec Nat.eq_dec k (map (wrapz n) z) then Some c else nth_error r k.
Proof.
  induction z as [|a z IH]; intros r L F; cbn [each_impl map]; [exists r; split; [reflexivity|]; split; [exact L|]; intros k; destruct (in_dec Nat.eq_dec k []) as [[]|]; reflexivity|].
  inversion F; subst. rewrite H1. unfold wr. change (Z.to_nat (if (a <? 0)%Z then (a + Z.of_nat (length r))%Z else a)) with (wrapz (length r) a). pose proof (index_wrap _ _ H1) as [W _]. replace (wrapz (length r) a <? length r) with true by (symmetry; apply Nat.ltb_lt; exact W). cbn [bind].
  destruct (IH (upd r (wrapz (length r) a) c)) as (r' & E & L' & H); [apply upd_length|exact H2|]. exists r'. split; [exact E|]. split; [exact L'|]. intros k. rewrite H, nth_error_upd. replace (wrapz (length r) a <? length r) with true by (symmetry; apply Nat.ltb_lt; exact W).
  destruct (in_dec Nat.eq_dec k (map (wrapz (length r)) z)) as [Y|N], (in_dec Nat.eq_dec k (wrapz (length r) a :: map (wrapz (length r)) z)) as [Y'|N']; auto; try (exfalso; apply N'; right; exact Y).
  - destruct Y' as [->|Y']; [rewrite Nat.eqb_refl; reflexivity|contradiction].
  - destruct (Nat.eqb_spec (wrapz (length r) a) k) as [E1|E1]; [exfalso; apply N'; left; exact E1|reflexivity].
Qed.
Lemma each_err {A} n (c : A) : forall z r, length r = n -> forallb (in_range n) z = false -> each_impl n c z r = Err.
Proof.
  induction z as [|a z IH]; intros r L F; cbn [each_impl forallb] in *; [discriminate|]. destruct (in_range n a) eqn:R; [|reflexivity]. unfold wr. change (Z.to_nat (if (a <? 0)%Z then (a + Z.of_nat n)%Z else a)) with (wrapz n a). pose proof (index_wrap _ _ R) as [W _]. rewrite L. replace (wrapz n a <? n) with true by (symmetry; apply Nat.ltb_lt; exact W). cbn [bind]. apply IH; [rewrite upd_length; exact L|exact F].
Qed.
Lemma size_app2 a b : size (a ++ b) = size a * size b.
Proof. unfold size. induction a as [|h a IH]; cbn [app fold_right]; [lia|]. rewrite IH. lia. Qed.
Lemma select_ok {A} (compat : A -> A -> bool) (CE : forall a b, compat a b = true <-> a = b) junk wf64 re (o : oper A) wsh w n cs x : array (n :: cs) x -> array wsh w -> wf_op o -> size cs <> 0 -> narrow wf64 re (size cs) -> length junk = n -> forallb isnum w = true ->
  let csz := size cs in
  match select_ucw compat junk wf64 re o wsh w (n :: cs) x with
  | Ok (Some (rsh, r)) => rsh = n :: cs /\ exists idx rep, Forall2 (index_of n) w idx /\ gives o (wsh ++ cs) (picked csz idx x) rep /\ consistent csz idx rep /\ replaced csz n idx x rep r /\ picked csz idx r = rep
  | Ok None => False
  | Err => forall idx rep, Forall2 (index_of n) w idx -> gives o (wsh ++ cs) (picked csz idx x) rep -> ~ consistent csz idx rep
  | UB => exists f idx, o = OFun f /\ Forall2 (index_of n) w idx /\ f (wsh ++ cs) (picked csz idx x) = UB
  end.
Proof.
  intros AX AW WF CZ NR LJ NUM csz. fold csz in CZ, NR. unfold select_ucw. rewrite NUM. cbn [negb]. fold csz. assert (LX : length x = n * csz) by exact AX. pose proof (indices_ok n w) as IX.
  assert (PUT : forall z rep, wholes w = Some z -> Forall (fun z => in_range n z = true) z -> Forall2 (index_of n) w (map (wrapz n) z) -> gives o (wsh ++ cs) (picked csz (map (wrapz n) z) x) rep -> length rep = length z * csz ->
    match (if csz =? 0 then Ok (Some (n :: cs, x)) else do r <- select_replace compat junk wf64 re n csz z x rep; Ok (Some (n :: cs, r))) with
    | Ok (Some (rsh, r)) => rsh = n :: cs /\ exists idx rep, Forall2 (index_of n) w idx /\ gives o (wsh ++ cs) (picked csz idx x) rep /\ consistent csz idx rep /\ replaced csz n idx x rep r /\ picked csz idx r = rep
    | Ok None => False
    | Err => forall idx rep, Forall2 (index_of n) w idx -> gives o (wsh ++ cs) (picked csz idx x) rep -> ~ consistent csz idx rep
    | UB => exists f idx, o = OFun f /\ Forall2 (index_of n) w idx /\ f (wsh ++ cs) (picked csz idx x) = UB end).
  { intros z rep EZ FZ F2 G LR. replace (csz =? 0) with false by (symmetry; apply Nat.eqb_neq; exact CZ). pose proof (replace_ok compat CE junk wf64 re csz n z x rep LJ NR LX LR FZ) as R. cbv zeta in R. destruct (select_replace _ _ _ _ _ _ _ _ _) as [r| |]; cbn [bind].
    - destruct R as [R C]. split; [reflexivity|]. exists (map (wrapz n) z), rep. repeat (split; [assumption|]). apply (picked_back csz n _ x); [rewrite map_length; exact LR|exact R].
    - intros idx rep' F2' G' C'. rewrite (indices_fun n w _ _ F2' F2) in *. assert (rep' = rep); [|subst; auto]. destruct o as [f|s l|c]; cbn [gives] in G, G'; [rewrite G in G'; inversion G'; reflexivity|destruct G, G'; congruence|congruence].
    - destruct R. }
  assert (LEN : forall z, wholes w = Some z -> size (wsh ++ cs) = length z * csz). { intros z E. pose proof (wholes_ok w) as H. rewrite E in H. subst w. unfold array in AW. rewrite map_length in AW. rewrite size_app2, <- AW. reflexivity. }
  assert (LENP : forall z, wholes w = Some z -> Forall (fun z => in_range n z = true) z -> array (wsh ++ cs) (picked csz (map (wrapz n) z) x)).
  { intros z E FZ. unfold array. rewrite (LEN z E), (picked_len csz n), map_length; [reflexivity|exact LX|]. apply Forall_forall. intros k K. apply in_map_iff in K. destruct K as (y & <- & Y). rewrite Forall_forall in FZ. apply (index_wrap n y (FZ y Y)). }
  assert (GEN : match (do (z, a) <- selected n csz w x; do p <- call o (wsh ++ cs) a; do l <- (match p with RArr s l => if eqsh s (wsh ++ cs) then Ok l else Err | RAtm => Err end); if csz =? 0 then Ok (Some (n :: cs, x)) else do r <- select_replace compat junk wf64 re n csz z x l; Ok (Some (n :: cs, r))) with
    | Ok (Some (rsh, r)) => rsh = n :: cs /\ exists idx rep, Forall2 (index_of n) w idx /\ gives o (wsh ++ cs) (picked csz idx x) rep /\ consistent csz idx rep /\ replaced csz n idx x rep r /\ picked csz idx r = rep
    | Ok None => False
    | Err => forall idx rep, Forall2 (index_of n) w idx -> gives o (wsh ++ cs) (picked csz idx x) rep -> ~ consistent csz idx rep
    | UB => exists f idx, o = OFun f /\ Forall2 (index_of n) w idx /\ f (wsh ++ cs) (picked csz idx x) = UB end).
  { unfold selected. destruct (wholes w) as [z|] eqn:EZ; cbn [bind]; [|intros idx rep F2; exfalso; eapply IX; exact F2]. destruct (forallb (in_range n) z); cbn [bind]; [|intros idx rep F2; exfalso; eapply IX; exact F2]. destruct IX as [FZ F2].
    assert (EP : flat_map (fun z0 => firstn csz (skipn (Z.to_nat (if z0 <? 0 then z0 + Z.of_nat n else z0)%Z * csz) x)) z = picked csz (map (wrapz n) z) x) by (unfold picked; rewrite flat_map_concat_map, flat_map_concat_map, map_map; reflexivity). rewrite EP.
    pose proof (call_ok o (wsh ++ cs) (picked csz (map (wrapz n) z) x)) as CO. destruct (call o (wsh ++ cs) _) as [[|s rep]| |]; cbn [bind].
    - intros idx rep' F2' G'. rewrite (indices_fun n w _ _ F2' F2) in *. exfalso. eapply CO. exact G'.
    - destruct (eqsh s (wsh ++ cs)); cbn [bind].
      + apply PUT; auto. rewrite <- (LEN z eq_refl). eapply gives_len; eauto.
      + intros idx rep' F2' G'. rewrite (indices_fun n w _ _ F2' F2) in *. exfalso. eapply CO. exact G'.
    - intros idx rep' F2' G'. rewrite (indices_fun n w _ _ F2' F2) in *. exfalso. eapply CO. exact G'.
    - destruct CO as (f & -> & E). exists f, (map (wrapz n) z). auto. }
  destruct o as [f|s l|c]; [exact GEN| |].
  - destruct (wholes w) as [z|] eqn:EZ; [|intros idx rep F2; exfalso; eapply IX; exact F2]. destruct (forallb (in_range n) z); [|intros idx rep F2; exfalso; eapply IX; exact F2]. destruct IX as [FZ F2].
    destruct (eqsh_ok s (wsh ++ cs)) as [->|NE]; cbn [bind].
    + apply PUT; auto; [split; reflexivity|]. rewrite <- (LEN z eq_refl). exact WF.
    + intros idx rep _ [E _]. contradiction.
  - destruct cs as [|c0 cs]; [|exact GEN]. destruct (wholes w) as [z|] eqn:EZ; [|intros idx rep F2; exfalso; eapply IX; exact F2]. assert (LN : length x = n) by (rewrite LX; unfold csz; cbn [size fold_right]; lia).
    destruct (forallb (in_range n) z) eqn:FB; [|rewrite (each_err n c z x LN FB); cbn [bind]; intros idx rep F2; exfalso; eapply IX; exact F2]. destruct IX as [FZ F2]. destruct (each_ok n c z x LN FZ) as (r & E & L & H). rewrite E. cbn [bind].
    split; [reflexivity|]. exists (map (wrapz n) z), (repeat c (length (picked csz (map (wrapz n) z) x))). split; [exact F2|]. split; [reflexivity|]. change csz with 1 in *. pose proof (LENP z eq_refl FZ) as LP. unfold array in LP. rewrite (LEN z eq_refl), Nat.mul_1_r in LP. rewrite LP.
    assert (CR : forall i, i < length z -> cell 1 (repeat c (length z)) i = [c]). { intros i I. rewrite cell1, (nth_error_nth' _ c) by (rewrite repeat_length; exact I). rewrite nth_repeat. reflexivity. }
    assert (IB : forall i k, nth_error (map (wrapz n) z) i = Some k -> i < length z) by (intros i k Q; rewrite <- (map_length (wrapz n) z); apply nth_error_Some; congruence).
    assert (RP : replaced 1 n (map (wrapz n) z) x (repeat c (length z)) r).
    { split; [lia|]. split.
      - intros i k Q. rewrite (CR i (IB i k Q)). rewrite cell1, H. destruct (in_dec Nat.eq_dec k (map (wrapz n) z)) as [_|N]; [reflexivity|]. exfalso. apply N. eapply nth_error_In. exact Q.
      - intros k K N. rewrite !cell1, H. destruct (in_dec Nat.eq_dec k (map (wrapz n) z)) as [Y|_]; [contradiction|reflexivity]. }
    split; [|split; [exact RP|]].
    + intros i i' k Q Q'. rewrite (CR i (IB i k Q)), (CR i' (IB i' k Q')). reflexivity.
    + apply (picked_back 1 n _ x); [rewrite repeat_length, map_length; lia|exact RP].
Qed.
