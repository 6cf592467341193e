From Verif Require Import Base BitsModel SqueezeModel SqueezeProof ReuseModel TransSpec FnsModel FnsSpec FnsProof FnsProof2 FnsProof3 FnsProof4 FnsProof5.
From Coq Require Import List.
Open Scope Z_scope.
Lemma axes_ok : forall ws xw rest e, length xw = length ws -> Forall (fun h => Z.of_nat h + 1 < 2 ^ 32) xw ->
  (Forall2 (fun h m => m <= h + 1)%nat xw ws /\ exists e', win_axes (map Z.of_nat (xw ++ rest)) (map Z.of_nat ws) e = Ok (map Z.of_nat (starts xw ws), e') /\ (e' = true <-> e = true \/ size (starts xw ws ++ ws) = 0%nat)) \/
  (~ Forall2 (fun h m => m <= h + 1)%nat xw ws /\ win_axes (map Z.of_nat (xw ++ rest)) (map Z.of_nat ws) e = Err).
Proof.
  induction ws as [|m ws IH]; intros [|h xw] rest e L B; cbn [length] in L; try lia.
  - left. split; [constructor|]. exists e. split; [reflexivity|]. cbn. split; [auto|]. intros [H|H]; [exact H|discriminate].
  - cbn [app map win_axes]. pose proof (Forall_inv B) as B0. cbv beta in B0. rewrite to_u_id by lia. cbv zeta.
    destruct (Z.ltb_spec (Z.of_nat h + 1) (Z.of_nat m)) as [LT|GE].
    + right. split; [|reflexivity]. intros F. inversion F; subst. lia.
    + destruct (IH xw rest (e || (Z.of_nat m =? 0) || (Z.of_nat m =? Z.of_nat h + 1)) ltac:(lia) (Forall_inv_tail B)) as [(F & e' & E & H)|(F & E)]; rewrite E; cbn [bind].
      * left. split; [constructor; [lia|exact F]|]. exists e'. split; [cbn [starts combine map]; do 3 f_equal; lia|]. rewrite H. cbn [starts combine map app]. fold (starts xw ws). rewrite size_cons, !size_app', size_cons.
        rewrite !orb_true_iff. split.
        -- intros [[[H1|H1]|H1]|H1]; [left; exact H1| | |]; right; try (assert (m = 0)%nat by lia; subst m; lia). { replace (h + 1 - m)%nat with 0%nat by lia. lia. } nia.
        -- intros [H1|H1]; [left; left; left; exact H1|]. apply Nat.mul_eq_0 in H1. destruct H1 as [H1|H1]; [left; right; lia|]. apply Nat.mul_eq_0 in H1. destruct H1 as [H1|H1]; [right; nia|]. apply Nat.mul_eq_0 in H1. destruct H1 as [H1|H1]; [left; left; right; lia|right; nia].
      * right. split; [|reflexivity]. intros F'. inversion F'; subst. contradiction.
Qed.
Lemma mul_all_ok l : Forall (fun c => 0 < c)%nat l -> forall p, (0 < p)%nat -> Z.of_nat p < 2 ^ 32 ->
  mul_all (Z.of_nat p) (map Z.of_nat l) = if Z.of_nat (p * size l) <? 2 ^ 32 then Ok (Z.of_nat (p * size l)) else Err.
Proof.
  induction 1 as [|c l H F IH]; intros p P B; cbn [map mul_all].
  - change (size []) with 1%nat. rewrite Nat.mul_1_r. replace (Z.of_nat p <? 2 ^ 32) with true by lia. reflexivity.
  - pose proof (size_pos' l F) as SP. rewrite size_cons. rewrite Nat.mul_assoc, <- Nat2Z.inj_mul. destruct (Z.leb_spec (2 ^ 32) (Z.of_nat (p * c))) as [G|G].
    + replace (Z.of_nat (p * c * size l) <? 2 ^ 32) with false; [reflexivity|]. symmetry. apply Z.ltb_ge. assert (p * c * 1 <= p * c * size l)%nat by (apply Nat.mul_le_mono_l; lia). lia.
    + apply IH; [nia|exact G].
Qed.
Lemma fit_eq ws xw rest : length xw = length ws -> (fit ws (xw ++ rest) <-> Forall2 (fun h m => m <= h + 1)%nat xw ws).
Proof.
  intros L. unfold fit. rewrite app_length. split.
  - intros [_ H]. revert ws L H. induction xw as [|h xw IH]; intros [|m ws] L H; cbn [length] in L; try lia; constructor.
    + apply (H 0%nat). cbn; lia.
    + apply IH; [lia|]. intros a HA. apply (H (S a)). cbn [length]; lia.
  - intros F. split; [lia|]. clear L. induction F as [|h m xw ws H F IH]; intros [|a] HA; cbn [length app nth] in *; try lia. apply IH. lia.
Qed.
Lemma dup_len {A} (x : list A) : length (flat_map (fun v => [v; v]) x) = (2 * length x)%nat.
Proof. induction x as [|v x IH]; [reflexivity|]. cbn [flat_map app length]. lia. Qed.
Lemma dup_nth {A} (x : list A) : forall p q, (q < 2)%nat -> nth_error (flat_map (fun v => [v; v]) x) (2 * p + q) = nth_error x p.
Proof.
  induction x as [|v x IH]; intros p q Q; [destruct p, q; reflexivity|]. cbn [flat_map app]. destruct p as [|p].
  - destruct q as [|[|q]]; [reflexivity|reflexivity|lia].
  - replace (2 * S p + q)%nat with (S (S (2 * p + q))) by lia. cbn [nth_error]. apply IH. exact Q.
Qed.
Lemma nth_error_firstn_lt {A} (l : list A) : forall n i, (i < n)%nat -> nth_error (firstn n l) i = nth_error l i.
Proof. induction l as [|a l IH]; intros [|n] [|i] H; cbn; try lia; auto. apply IH. lia. Qed.
Lemma pairs_ok {A} (x : list A) h : length x = h -> (1 <= h)%nat -> windows_of [2%nat] [h] x (firstn (length (flat_map (fun v => [v; v]) x) - 2) (skipn 1 (flat_map (fun v => [v; v]) x))).
Proof.
  intros L H. set (t := flat_map (fun v => [v; v]) x). assert (TL : length t = (2 * h)%nat) by (unfold t; rewrite dup_len; lia).
  assert (SN : window_shape [2%nat] [h] = [(h + 1 - 2)%nat; 2%nat]) by reflexivity. assert (SS : window_starts [2%nat] [h] = [(h + 1 - 2)%nat]) by reflexivity.
  unfold windows_of. rewrite SN, SS. change (skipn (length [2%nat]) [h]) with (@nil nat). split.
  - unfold array. rewrite firstn_length, skipn_length, TL. cbn [size fold_right]. lia.
  - intros P Q R HP HQ HR. inversion HP as [|? p ? ? Hp HP']; subst. inversion HP'; subst. inversion HQ as [|? q ? ? Hq HQ']; subst. inversion HQ'; subst. inversion HR; subst. unfold elt. cbn [app plus ravel size fold_right].
    rewrite nth_error_firstn_lt by lia.
    assert (E : forall i, nth_error (skipn 1 t) i = nth_error t (S i)) by (intros i; destruct t; [destruct i; reflexivity|reflexivity]). rewrite E. 
    replace (S (p * (2 * 1) + (q * 1 + 0)))%nat with (2 * (p + q) + (1 - q))%nat by lia. unfold t. rewrite dup_nth by lia. f_equal. lia.
Qed.
Lemma removelast_1 (a b : nat) : removelast ([a] ++ [b]) = [a]. Proof. reflexivity. Qed.
Definition win_fits (ws xsh : list nat) : Prop := fit ws xsh /\ (length xsh + length ws <= 255)%nat /\ Z.of_nat (size (window_shape ws xsh)) < 2 ^ 32.
Definition wf' (xw rest ws : list nat) : Prop := Forall2 (fun h m => m <= h + 1)%nat xw ws /\ (length xw + length rest + length ws <= 255)%nat /\ Z.of_nat (size (starts xw ws ++ ws ++ rest)) < 2 ^ 32.
Lemma windows_ok' {A} (x : list A) (xw rest ws : list nat) w : length xw = length ws -> let xsh := xw ++ rest in w_list w = map VNum (map Z.of_nat ws) -> (match w with WArr r _ => r <= 1 | WAtom _ => True end)%nat ->
  array xsh x -> Z.of_nat (size xsh) < 2 ^ 32 -> ws <> [] -> Forall (fun m => Z.of_nat m < 2 ^ 32) ws -> Forall (fun h => Z.of_nat h + 1 < 2 ^ 32) (firstn (length ws) xsh) ->
  (ws = [2%nat] -> 2 * Z.of_nat (length x) < 2 ^ 32) ->
  match windows w false (map Z.of_nat xsh) x with
  | Ok (rsh, r) => wf' xw rest ws /\ rsh = map Z.of_nat (starts xw ws ++ ws ++ rest) /\ windows_of ws xsh x r
  | Err => ~ wf' xw rest ws
  | UB => False
  end.
Proof.
  intros LW xsh. unfold xsh. clear xsh. intros EW WR AX XB NE WB HB P2. unfold windows. rewrite EW, !map_length.
  replace (match w with WAtom _ => false | WArr r _ => (1 <? r)%nat end) with false by (destruct w; [reflexivity|symmetry; apply Nat.ltb_ge; exact WR]).
  assert (L0 : (0 < length ws)%nat) by (destruct ws; [congruence|cbn; lia]).
  replace (Z.of_nat (length ws) =? 0) with false by lia. cbn [orb].
  rewrite !app_length. destruct (Z.ltb_spec (Z.of_nat (length xw + length rest)) (Z.of_nat (length ws))) as [LT|GE]; [lia|].
  destruct (Z.ltb_spec 255 (Z.of_nat (length xw + length rest) + Z.of_nat (length ws))) as [RK|RK]; [intros (_ & H & _); lia|].
  rewrite o2s_all_ok by (apply Forall_map; eapply Forall_impl; [|exact WB]; cbv beta; lia). cbn [bind]. rewrite map_length.
  assert (FX : firstn (length ws) (xw ++ rest) = xw) by (apply firstn_app_l; exact LW). rewrite FX in HB.
  assert (SX : skipn (length ws) (map Z.of_nat (xw ++ rest)) = map Z.of_nat rest) by (rewrite map_app, skipn_app, skipn_all2 by (rewrite map_length; lia); rewrite map_length; replace (length ws - length xw)%nat with 0%nat by lia; reflexivity).
  rewrite SX. unfold wf'.
  destruct (axes_ok ws xw rest (Z.of_nat (length x) =? 0) LW HB) as [(F & e' & E & HE)|(F & E)]; rewrite E; cbn [bind]; [|intros (H & _); contradiction].
  rewrite <- !map_app.
  destruct e'.
  - assert (Z0 : size (starts xw ws ++ ws ++ rest) = 0%nat).
    { destruct HE as [HE _]. specialize (HE eq_refl). rewrite !size_app' in *. destruct HE as [HE|HE]; [|nia]. unfold array in AX. rewrite size_app' in AX. assert (size xw * size rest = 0)%nat by lia.
      apply Nat.mul_eq_0 in H. destruct H as [H|H]; [|nia].
      assert (size (starts xw ws) * size ws = 0)%nat; [|nia]. clear -F H. induction F as [|h m xw ws Hm F IH]; [discriminate|]. cbn [starts combine map]. fold (starts xw ws). rewrite !size_cons in *. apply Nat.mul_eq_0 in H. destruct H as [->|H]; [|specialize (IH H); nia].
      assert (m = 0 \/ m = 1)%nat as [->| ->] by lia; lia. }
    split; [split; [exact F|split; [lia|rewrite Z0; lia]]|]. split; [reflexivity|].
    unfold windows_of. rewrite wshape_eq, wstarts_eq, wrest_eq by exact LW. split; [unfold array; rewrite Z0; reflexivity|].
    intros P Q R HP HQ HR. assert (HI : inb (starts xw ws ++ ws ++ rest) (P ++ Q ++ R)) by (apply Forall2_app; [exact HP|apply Forall2_app; [exact HQ|exact HR]]). apply ravel_lt' in HI. lia.
  - assert (NZ : size (xw ++ rest) <> 0%nat /\ size (starts xw ws ++ ws) <> 0%nat). { unfold array in AX. rewrite <- AX. destruct HE as [_ HE]. split; intros Q; assert (false = true) by (apply HE; (left; lia) || (right; exact Q)); discriminate. }
    destruct NZ as [NX NF]. pose proof (size_pos _ NX) as PX. pose proof (size_pos _ NF) as PF. apply Forall_app in PX. destruct PX as [PXW PR].
    destruct ((Z.of_nat (length ws) =? 1) && match map Z.of_nat ws with [h] => h =? 2 | _ => false end && (Z.of_nat (length xw + length rest) =? 1)) eqn:C2.
    + apply andb_true_iff in C2. destruct C2 as [C2 C3]. apply andb_true_iff in C2. destruct C2 as [C1 C2]. destruct ws as [|m [|m2 ws]]; cbn [length] in *; try lia. cbn [map] in C2. assert (m = 2)%nat by lia. subst m.
      destruct xw as [|h [|h2 xw]]; cbn [length] in *; try lia. destruct rest; cbn [length] in *; try lia. cbn [app] in *. specialize (P2 eq_refl).
      replace (2 ^ 32 <=? 2 * Z.of_nat (length x)) with false by lia. assert (LX : length x = h) by (unfold array in AX; cbn [size fold_right] in AX; lia).
      split; [|split; [reflexivity|apply pairs_ok; [exact LX|pose proof (Forall_inv PXW) as Q; cbv beta in Q; lia]]]. split; [exact F|]. split; [lia|]. cbn [starts combine map app size fold_right]. lia.
    + change 1 with (Z.of_nat 1). pose proof (size_pos' rest PR) as SR. assert (SB : (size rest <= size (xw ++ rest))%nat) by (rewrite size_app'; pose proof (size_pos' xw PXW); nia).
      rewrite (mul_all_ok rest PR 1) by lia. rewrite Nat.mul_1_l. replace (Z.of_nat (size rest) <? 2 ^ 32) with true by lia. cbn [bind].
      rewrite (mul_all_ok _ PF (size rest)) by lia. 
      assert (SZ : (size rest * size (starts xw ws ++ ws) = size (starts xw ws ++ ws ++ rest))%nat) by (rewrite !size_app'; lia). rewrite SZ.
      destruct (Z.ltb_spec (Z.of_nat (size (starts xw ws ++ ws ++ rest))) (2 ^ 32)) as [RB|RB]; cbn [bind]; [|intros (_ & _ & H); lia].
      pose proof (frame xw ws NE) as FR. pose proof (G_len xw rest ws LW NE) as GL. set (G := removelast (starts xw ws ++ ws)) in *. set (mlast := last ws 0%nat) in *.
      assert (RS : starts xw ws ++ ws ++ rest = G ++ mlast :: rest) by (rewrite app_assoc, FR, <- app_assoc; reflexivity).
      assert (HK : rd (map Z.of_nat (starts xw ws ++ ws ++ rest)) (Z.to_nat (2 * Z.of_nat (length ws) - Z.of_nat 1)) = Ok (Z.of_nat mlast)).
      { replace (Z.to_nat (2 * Z.of_nat (length ws) - Z.of_nat 1)) with (length G) by lia. rewrite RS. rewrite rd_map by (rewrite app_length; cbn [length]; lia). rewrite app_nth2 by lia. rewrite Nat.sub_diag. reflexivity. }
      rewrite HK. cbn [bind]. rewrite FR in PF. apply Forall_app in PF. destruct PF as [PG PM]. apply Forall_inv in PM. cbv beta in PM. pose proof (size_pos' G PG) as SG.
      assert (RIA : size (starts xw ws ++ ws ++ rest) = (size G * (mlast * size rest))%nat) by (rewrite RS, size_app', size_cons; reflexivity). rewrite RIA in *.
      set (k := (mlast * size rest)%nat) in *. assert (K0 : (0 < k)%nat) by (unfold k; nia).
      assert (EK : to_u 32 (Z.of_nat (size rest) * Z.of_nat mlast) = Z.of_nat k). { rewrite <- Nat2Z.inj_mul, Nat.mul_comm. fold k. apply to_u_id. assert (1 * k <= size G * k)%nat by (apply Nat.mul_le_mono_r; lia). lia. }
      cbv zeta. rewrite EK. rewrite Nat2Z.id.
      pose proof (x_bound x xw rest ws AX LW F NE) as XBD. fold G mlast in XBD. 
      assert (XBD' : forall u, inb G u -> (FnsProof3.dot u (FS xw (size rest)) + k <= length x)%nat) by (intros u U; apply XBD; auto).
      assert (I0 : Inv G (FS xw (size rest)) k x (size G * k) 0 (repeat None (size G * k))) by (split; [apply repeat_length|intros; lia]).
      assert (FIN : forall r, Inv G (FS xw (size rest)) k x (size G * k) (size G) r -> exists l, all_set r = Ok l /\ windows_of ws (xw ++ rest) x l).
      { intros r I. destruct (inv_end G _ k x r I XBD') as (l & El & Ll & Nl). exists l. split; [exact El|]. apply (assemble x xw rest ws LW F NE l); fold G mlast; [exact Ll|exact Nl]. }
      assert (OKK : forall (res_ : res (list (option A))), (exists r, res_ = Ok r /\ Inv G (FS xw (size rest)) k x (size G * k) (size G) r) ->
        match (do r <- res_; do l <- all_set r; Ok (map Z.of_nat (starts xw ws ++ ws ++ rest), l)) with
        | Ok (rsh, r) => (Forall2 (fun h m => m <= h + 1)%nat xw ws /\ (length xw + length rest + length ws <= 255)%nat /\ Z.of_nat (size G * k) < 2 ^ 32) /\ rsh = map Z.of_nat (starts xw ws ++ ws ++ rest) /\ windows_of ws (xw ++ rest) x r
        | Err => ~ (Forall2 (fun h m => m <= h + 1)%nat xw ws /\ (length xw + length rest + length ws <= 255)%nat /\ Z.of_nat (size G * k) < 2 ^ 32) | UB => False end).
      { intros rr (r & -> & I). cbn [bind]. destruct (FIN r I) as (l & El & Wl). rewrite El. cbn [bind]. split; [split; [exact F|split; [lia|exact RB]]|]. split; [reflexivity|exact Wl]. }
      apply OKK. clear OKK. change (Z.of_nat 1) with 1. destruct (Z.eqb_spec (Z.of_nat (length ws)) 1) as [W1|W1].
      * destruct xw as [|h [|h2 xw]]; cbn [length] in LW, GL; try lia. destruct G as [|n [|? ?]] eqn:EG; cbn [length] in GL; try lia.
        assert (SG1 : size [n] = n) by (cbn; lia). rewrite SG1 in *.
        assert (FSE : FS [h] (size rest) = [size rest; size rest]) by (unfold FS; cbn [sts app]; change (size []) with 1%nat; rewrite Nat.mul_1_r; reflexivity). rewrite FSE in *.
        assert (NK : (n * 1 <= n * k)%nat) by (apply Nat.mul_le_mono_l; lia). assert (NC : (n * size rest <= n * k)%nat) by (apply Nat.mul_le_mono_l; unfold k; nia).
        assert (BX : forall K, (K < n)%nat -> (K * size rest + k <= length x)%nat) by (intros K HK'; specialize (XBD' [K] ltac:(constructor; [exact HK'|constructor])); cbn [FnsProof3.dot] in XBD'; lia).
        exact (loop1_ok x n k (size rest) [size rest] K0 ltac:(lia) ltac:(lia) BX (S (n * k)) 0 (repeat None (n * k)) ltac:(lia) ltac:(lia) I0).
      * destruct (zeros_in G PG) as [ZI ZR]. replace (Z.to_nat (2 * Z.of_nat (length ws) - 1)) with (length G) by lia.
        assert (DZ : FnsProof3.dot (repeat 0%nat (length G)) (FS xw (size rest)) = 0%nat). { clear. generalize (FS xw (size rest)). induction (length G) as [|n IH]; intros [|s l]; cbn [repeat FnsProof3.dot]; auto. rewrite IH. lia. }
        pose proof (loop_ok (xw ++ rest) xw rest G (starts xw ws ++ ws ++ rest) (size rest) mlast x eq_refl ltac:(lia) GL RS PXW) as LO.
        assert (B1 : Z.of_nat (size rest * size xw) < 2 ^ 32) by (rewrite size_app' in XB; lia). assert (B2 : Z.of_nat (length x) < 2 ^ 32) by (unfold array in AX; lia).
        specialize (LO B1 B2 k K0 RB XBD' (size G * k)%nat (repeat 0%nat (length G)) (repeat None (size G * k)) ZI).
        rewrite ZR, DZ in LO. rewrite LW in LO. replace (map Z.of_nat (repeat 0%nat (length G))) with (repeat 0 (length G)) in LO by (clear; induction (length G) as [|n IH]; [reflexivity|]; cbn [repeat map]; rewrite IH; reflexivity).
        apply LO; [|exact I0]. assert (size G * 1 <= size G * k)%nat by (apply Nat.mul_le_mono_l; lia). lia.
Qed.
Lemma windows_ok {A} (x : list A) (xsh ws : list nat) w : w_list w = map VNum (map Z.of_nat ws) -> (match w with WArr r _ => r <= 1 | WAtom _ => True end)%nat ->
  array xsh x -> Z.of_nat (size xsh) < 2 ^ 32 -> ws <> [] -> Forall (fun m => Z.of_nat m < 2 ^ 32) ws -> Forall (fun h => Z.of_nat h + 1 < 2 ^ 32) (firstn (length ws) xsh) ->
  (ws = [2%nat] -> 2 * Z.of_nat (length x) < 2 ^ 32) ->
  match windows w false (map Z.of_nat xsh) x with
  | Ok (rsh, r) => win_fits ws xsh /\ rsh = map Z.of_nat (window_shape ws xsh) /\ windows_of ws xsh x r
  | Err => ~ win_fits ws xsh
  | UB => False
  end.
Proof.
  intros EW WR AX XB NE WB HB P2. destruct (Nat.ltb_spec (length xsh) (length ws)) as [LT|GE].
  - assert (E : windows w false (map Z.of_nat xsh) x = Err); [|rewrite E; intros ((H & _) & _); lia].
    unfold windows. rewrite EW, !map_length. replace (match w with WAtom _ => false | WArr r _ => (1 <? r)%nat end) with false by (destruct w; [reflexivity|symmetry; apply Nat.ltb_ge; exact WR]).
    assert (L0 : (0 < length ws)%nat) by lia. replace (Z.of_nat (length ws) =? 0) with false by lia. replace (Z.of_nat (length xsh) <? Z.of_nat (length ws)) with true by lia. reflexivity.
  - set (xw := firstn (length ws) xsh). set (rest := skipn (length ws) xsh). assert (EX : xsh = xw ++ rest) by (symmetry; apply firstn_skipn). assert (LW : length xw = length ws) by (unfold xw; rewrite firstn_length; lia).
    clearbody xw rest. subst xsh.
    assert (WF : win_fits ws (xw ++ rest) <-> wf' xw rest ws) by (unfold win_fits, wf'; rewrite (fit_eq ws xw rest LW), wshape_eq, app_length by exact LW; tauto).
    pose proof (windows_ok' x xw rest ws w LW EW WR AX XB NE WB HB P2) as W. destruct (windows w false (map Z.of_nat (xw ++ rest)) x) as [[rsh r]| |]; [|tauto|exact W].
    rewrite wshape_eq by exact LW. tauto.
Qed.
