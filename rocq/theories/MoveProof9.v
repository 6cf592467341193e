(** Proofs about MoveModel: Rotate with a list; Reverse; shifts; Prefixes and Suffixes. *)
From Coq Require Import List Arith ZArith Bool Lia.
Import ListNotations.
From Verif Require Import Base ListLib SqueezeModel SqueezeProof TransModel TransSpec TransProof TransProof2 TransProof5 MoveModel MoveSpec MoveProof MoveProof2 MoveProof4 MoveProof7 MoveProof8.
Open Scope nat_scope.
Lemma comb_fst {B C} (a : list B) : forall (b : list C), length a <= length b -> map fst (combine a b) = a.
Proof. induction a as [|x a IH]; intros [|y b] H; cbn [length] in H; try lia; auto. cbn [combine map fst]. f_equal. apply IH. lia. Qed.
Lemma comb_snd {B C} (a : list B) : forall (b : list C), length a <= length b -> map snd (combine a b) = firstn (length a) b.
Proof. induction a as [|x a IH]; intros [|y b] H; cbn [length] in H; try lia; auto. cbn [combine map snd length firstn]. f_equal. apply IH. lia. Qed.
Section R9.
Context {A : Type}.
Lemma rotate_one_ok inv w xsh (x : list A) : (Z.abs w < 2 ^ 63)%Z -> xsh <> [] -> array xsh x -> exists r, rotate_one inv w xsh x = Ok (xsh, r) /\ rotated [sg inv w] xsh x r.
Proof. intros B NE AX. unfold rotate_one. change (if inv then - w else w)%Z with (sg inv w). replace (2 ^ 63 <=? sg inv w)%Z with false by (symmetry; apply Z.leb_gt; unfold sg; destruct inv; lia). apply rotate_num_ok; auto. Qed.
Lemma rotate_list_ok inv ws xsh (x : list A) : array xsh x -> length ws <= length xsh -> Forall (fun w => (Z.abs w < 2 ^ 63)%Z) ws -> exists r, rotate_list inv ws xsh x = Ok (xsh, r) /\ rotated (map (sg inv) ws) xsh x r.
Proof.
  intros AX LW WB. unfold rotate_list. destruct xsh as [|s0 sh] eqn:EX; [destruct ws; [|cbn [length] in LW; lia]; exists x; split; auto; split; auto|]. rewrite <- EX in *. assert (NE : xsh <> []) by (rewrite EX; discriminate).
  destruct ws as [|w0 [|w1 ws']] eqn:EW.
  - exists x. split; auto. split; auto.
  - apply rotate_one_ok; auto. apply (Forall_inv WB).
  - rewrite <- EW in *. replace (length xsh <? length ws) with false by (symmetry; apply Nat.ltb_ge; lia). destruct (Nat.eqb_spec (length x) 0) as [Z0|NZ].
    + exists x. split; auto. split; auto. intros I B. apply inb_pos in B. unfold array in AX. change (size xsh) with (shProd xsh) in AX. lia.
    + cbv zeta. assert (SP : 0 < shProd xsh) by (unfold array in AX; change (size xsh) with (shProd xsh) in AX; lia).
      assert (PX : Forall (fun l => 0 < l) xsh). { clear -SP. induction xsh as [|l s IH]; constructor; rewrite shProd_cons in SP; destruct (shProd s) eqn:E; try lia; apply IH; lia. }
      pose proof (comb_fst ws xsh LW) as CF. pose proof (comb_snd ws xsh LW) as CS. set (axs := combine ws xsh) in *.
      assert (PA : Forall (fun p : Z * nat => 0 < snd p) axs). { apply Forall_forall. intros [a b] IA. apply in_combine_r in IA. rewrite Forall_forall in PX. apply PX. auto. }
      assert (HD : exists t, axs = (w0, s0) :: t) by (unfold axs; rewrite EW, EX; cbn [combine]; eauto). destruct HD as (t & ET). rewrite ET. cbn [tl]. pose proof (Forall_inv_tail (eq_ind _ (Forall _) PA _ ET)) as PT.
      destruct (all_still t) eqn:AS.
      * apply all_still_iff in AS; auto. destruct (rotate_one_ok inv w0 xsh x) as (r & ER & RR); auto; [rewrite EW in WB; apply (Forall_inv WB)|]. exists r. split; auto. destruct RR as [R1 R2]. split; auto. intros I B. rewrite R2 by auto. f_equal. assert (EXS : xsh = s0 :: map snd t ++ skipn (length ws) xsh). { rewrite <- (firstn_skipn (length ws) xsh) at 1. rewrite <- CS, ET. reflexivity. } assert (EWS : ws = w0 :: map fst t) by (rewrite <- CF at 1; rewrite ET; reflexivity). set (tl0 := skipn (length ws) xsh) in *. clearbody tl0. rewrite EXS in B |- *. rewrite EWS. inversion B as [|? i ? I' Bi BI]; subst I. cbn [map turn]. f_equal. symmetry. apply turn_still; auto.
      * rewrite <- ET. destruct (rot_skip_ok inv (rev axs) 1) as (st & w & l0 & rest & ER & FS & E).
        { apply Forall_rev. auto. } { intros F. assert (Forall stillp t); [|apply all_still_iff in H; congruence]. apply Forall_rev in F. rewrite rev_involutive, ET in F. eapply Forall_inv_tail; eauto. }
        rewrite E. cbn [bind]. rewrite Nat.mul_1_l. assert (EA : axs = rev rest ++ (w, l0) :: rev st). { rewrite <- (rev_involutive axs), ER, rev_app_distr. cbn [rev]. rewrite <- app_assoc. reflexivity. }
        assert (EC : shProd (map snd st) * shProd (skipn (length ws) xsh) = shProd (map snd (rev st) ++ skipn (length ws) xsh)) by (rewrite shProd_app, map_rev, shProd_rev; auto). rewrite EC.
        assert (EXS : xsh = map snd (rev rest) ++ l0 :: map snd (rev st) ++ skipn (length ws) xsh). { rewrite <- (firstn_skipn (length ws) xsh) at 1. rewrite <- CS, EA, map_app. cbn [map snd]. rewrite <- app_assoc. reflexivity. }
        assert (EWS : map (sg inv) ws = map (sg inv) (map fst (rev rest ++ (w, l0) :: rev st))) by (rewrite <- EA, CF; reflexivity).
        set (tail := skipn (length ws) xsh) in *. rewrite rot_init_ok by (rewrite EA in PA; apply Forall_app in PA; destruct PA as [PA _]; apply Forall_rev in PA; rewrite rev_involutive in PA; auto).
        assert (L0 : 0 < l0) by (rewrite EXS in PX; apply Forall_app in PX; destruct PX as [_ PX]; apply (Forall_inv PX)).
        replace (l0 <? amt (sg inv w) l0) with false by (symmetry; apply Nat.ltb_ge; pose proof (amt_lt (sg inv w) l0 L0); lia).
        destruct (gen_rot inv x (rev rest) w l0 (rev st) tail) as (r & EG & RG); [rewrite <- EXS; exact AX|lia|apply Forall_rev; auto|]. rewrite rev_involutive in EG. exists r.
        destruct (rot_loop _ _ _ _ _ _ _ _ _) as [rr| |]; cbn [bind] in EG |- *; try discriminate. rewrite EG. cbn [bind]. split; auto. rewrite EWS, EXS. exact RG.
Qed.
Lemma rotate_list_err inv ws xsh (x : list A) : length xsh < length ws -> rotate_list inv ws xsh x = Err.
Proof. intros L. unfold rotate_list. destruct xsh as [|s0 sh]; [destruct ws; [cbn [length] in L; lia|reflexivity]|]. destruct ws as [|w0 [|w1 ws']]; cbn [length] in L; try lia. replace (length (s0 :: sh) <? length (w0 :: w1 :: ws')) with true by (symmetry; apply Nat.ltb_lt; cbn [length]; lia). reflexivity. Qed.
(** * Reverse *)
Lemma reverse_ok one xsh (x : list A) : xsh <> [] -> array xsh x -> (one = true -> shProd (tl xsh) = 1) -> exists r, reverse1 one xsh x = Ok (xsh, r) /\ reversed xsh x r.
Proof.
  intros NE AX O. destruct xsh as [|n sh]; [congruence|]. unfold reverse1. cbn [tl] in O. unfold array in AX. change (size (n :: sh)) with (n * shProd sh) in AX. destruct (Nat.leb_spec n 1) as [N1|N1].
  - exists x. split; auto. split; [exact AX|]. intros i I n' B E. cbn [nth_error] in E. injection E as <-. inversion B; subst. replace (n - 1 - i) with i by lia. reflexivity.
  - set (c := shProd sh) in *. set (wn := fun p => nth_error x ((n - 1 - p / c) * c + p mod c)).
    assert (FIN : forall r, length r = n * c -> (forall p, p < n * c -> nth_error r p = wn p) -> reversed (n :: sh) x r).
    { intros r LR G. split; [exact LR|]. intros i I n' B E. cbn [nth_error] in E. injection E as <-. inversion B as [|? ? ? ? Bi BI]; subst. pose proof (ravel_lt _ _ BI) as RB. unfold elt. cbn [ravel]. change (size sh) with c. fold c in RB. rewrite G by nia. unfold wn. destruct (divmod_digit c i (ravel sh I) ltac:(lia) RB) as [-> ->]. reflexivity. }
    destruct one.
    + specialize (O eq_refl). unfold reverse_elts. destruct (loop_inv (fun k r => winv n wn r (fun p => p < k)) (fun i r => do v <- rd x (n - i - 1); wr r i (Some v)) n 0 (repeat None n)) as (r & -> & IV).
      * intros k s KB IV. unfold rd. destruct (nth_error x (n - k - 1)) as [v|] eqn:EV; [|apply nth_error_None in EV; nia]. cbn [bind]. destruct (ww n wn s _ k v IV) as (r1 & E1 & I1); [lia| |]. { unfold wn. rewrite O, Nat.div_1_r, Nat.mod_1_r. rewrite <- EV. f_equal. lia. } exists r1. split; auto. eapply winv_weak; [|exact I1]. intros p PB PL. cbn beta. lia.
      * apply winv0. lia.
      * cbn [bind Nat.add]. destruct (wdone n wn r) as (l & EL & LL & G); [eapply winv_weak; [|exact IV]; intros; cbn beta; lia|]. rewrite EL. cbn [bind]. exists l. split; auto. apply FIN; [rewrite O; lia|]. rewrite O, Nat.mul_1_r. auto.
    + unfold reverse_cells, mem. match goal with |- context [loop n 0 ?ff ?ss] => destruct (loop_inv (fun k '(r, (rp, ip)) => winv (length x) wn r (fun p => p < k * c) /\ rp = k * c /\ ip = (n - k) * c) ff n 0 ss) as ([r [rp ip]] & E0 & IV & _ & _) end; [| |rewrite E0].
      * intros k [s [rp ip]] KB (IV & -> & ->). assert (E0 : (n - k) * c = c + (n - 1 - k) * c) by (replace (n - k) with (S (n - 1 - k)) by lia; lia). assert (E2 : n * c = k * c + (c + (n - 1 - k) * c)) by (rewrite <- E0, <- Nat.mul_add_distr_r; f_equal; lia). replace ((n - k) * c <? c) with false by (symmetry; apply Nat.ltb_ge; rewrite E0; apply Nat.le_add_r). assert (E1 : (n - k) * c - c = (n - 1 - k) * c) by (rewrite E0, Nat.add_comm; apply Nat.add_sub). rewrite E1. destruct (wcopy (length x) wn s _ (k * c) x ((n - 1 - k) * c) c IV) as (r1 & -> & I1); [rewrite AX, E2, Nat.add_assoc; apply Nat.le_add_r|rewrite AX, E2; set (z := k * c); set (y := (n - 1 - k) * c); clearbody z y; lia| |].
        { intros j J. unfold wn. destruct (divmod_digit c k j ltac:(lia) J) as [-> ->]. reflexivity. }
        cbn [bind]. eexists. split; [reflexivity|]. cbn beta iota. split; [|split; [lia|replace (n - (k + 1)) with (n - 1 - k) by lia; reflexivity]]. eapply winv_weak; [|exact I1]. intros p PB PL. cbn beta. lia.
      * split; [apply winv0; lia|]. split; [lia|]. rewrite Nat.sub_0_r. exact AX.
      * cbn [bind Nat.add]. destruct (wdone (length x) wn r) as (l & EL & LL & G); [eapply winv_weak; [|exact IV]; intros; cbn beta; lia|]. rewrite EL. cbn [bind]. exists l. split; auto. apply FIN; [lia|]. intros p PB. apply G. lia.
Qed.
(** * shifts *)
Lemma shift1_ok (after : bool) xsh (x : list A) f : xsh <> [] -> array xsh x -> exists r, (if after then shift_after1 xsh x (Some f) else shift_before1 xsh x (Some f)) = Ok (xsh, r) /\ moved ((if after then 1 else -1)%Z :: map (fun _ => 0%Z) (tl xsh)) xsh x xsh (Some f) r.
Proof.
  intros NE AX. destruct xsh as [|n sh]; [congruence|]. cbn [tl]. assert (LX : length x = n * shProd sh) by exact AX. set (d := (if after then 1 else -1)%Z). set (c := shProd sh) in *.
  assert (FIN : forall r, windowed x (d * Z.of_nat c) (Some f) (n * c) r -> moved (d :: map (fun _ => 0%Z) sh) (n :: sh) x (n :: sh) (Some f) r) by (intros; apply num_moved; auto).
  assert (G : exists r, (if length x =? 0 then Ok (n :: sh, x) else if length x =? c then Ok (n :: sh, repeat f (length x)) else if length x <? c then UB else do r <- (if after then do r <- copy (repeat None (length x)) 0 x c (length x - c); fillm r (length x - c) f c else do r <- copy (repeat None (length x)) c x 0 (length x - c); fillm r 0 f c); do l <- done r; Ok (n :: sh, l)) = Ok (n :: sh, r) /\ moved (d :: map (fun _ => 0%Z) sh) (n :: sh) x (n :: sh) (Some f) r).
  { destruct (Nat.eqb_spec (length x) 0) as [Z0|NZ]. { exists x. split; auto. apply FIN. split; auto. intros. lia. }
    destruct (Nat.eqb_spec (length x) c) as [E1|N1]. { exists (repeat f (length x)). split; auto. apply FIN. split; [rewrite repeat_length; auto|]. intros p PB. rewrite nth_error_repeat by lia. symmetry. apply win_out. unfold d. destruct after; lia. }
    assert (CL : c <= length x) by (destruct n; [lia|rewrite LX; lia]). replace (length x <? c) with false by (symmetry; apply Nat.ltb_ge; lia). set (wn := win x (d * Z.of_nat c) (Some f)). unfold d in *. destruct after.
    - destruct (wcopy (length x) wn (repeat None (length x)) (fun _ => False) 0 x c (length x - c)) as (r1 & -> & I1); [apply winv0; auto|lia|lia|intros k K; apply win_in; lia|]. cbn [bind]. destruct (wfill (length x) wn r1 _ (length x - c) f c I1) as (r2 & -> & I2); [lia|intros k K; apply win_out; lia|]. cbn [bind]. destruct (wdone (length x) wn r2) as (l & -> & LL & G); [eapply winv_weak; [|exact I2]; intros; cbn beta; lia|]. cbn [bind]. exists l. split; auto. apply FIN. rewrite <- LX. split; auto.
    - destruct (wcopy (length x) wn (repeat None (length x)) (fun _ => False) c x 0 (length x - c)) as (r1 & -> & I1); [apply winv0; auto|lia|lia|intros k K; apply win_in; lia|]. cbn [bind]. destruct (wfill (length x) wn r1 _ 0 f c I1) as (r2 & -> & I2); [lia|intros k K; apply win_out; lia|]. cbn [bind]. destruct (wdone (length x) wn r2) as (l & -> & LL & G); [eapply winv_weak; [|exact I2]; intros; cbn beta; lia|]. cbn [bind]. exists l. split; auto. apply FIN. rewrite <- LX. split; auto. }
  destruct G as (r & E & M). exists r. split; auto. destruct after; unfold shift_after1, shift_before1; cbn [need bind]; fold c; rewrite <- E; destruct (length x =? 0); auto; destruct (length x =? c); auto; destruct (length x <? c); auto; destruct (copy _ _ _ _ _); reflexivity.
Qed.
Lemma shift1_err (after : bool) xsh (x : list A) : xsh <> [] -> x <> [] -> (if after then shift_after1 xsh x None else shift_before1 xsh x None) = Err.
Proof. intros NE NX. destruct xsh; [congruence|]. destruct x; [congruence|]. destruct after; reflexivity. Qed.
Lemma shift_check_ok wsh xsh : xsh <> [] -> (shift_check wsh xsh = Ok tt /\ (wsh = tl xsh \/ exists k, wsh = k :: tl xsh)) \/ (shift_check wsh xsh = Err /\ wsh <> tl xsh /\ forall k, wsh <> k :: tl xsh).
Proof.
  intros NE. destruct xsh as [|n sh]; [congruence|]. cbn [tl]. unfold shift_check. cbn [length].
  destruct (Nat.eqb_spec (length wsh + 1) (S (length sh))) as [E1|N1]; [|destruct (Nat.eqb_spec (length wsh) (S (length sh))) as [E2|N2]]; cbn [negb andb].
  - assert (EL : length wsh = length sh) by lia. destruct (forallb _ _) eqn:F.
    + left. split; auto. left. rewrite forallb_forall in F. apply nth_error_ext. intros i. destruct (Nat.lt_ge_cases i (length sh)) as [L|L]; [|rewrite (proj2 (nth_error_None wsh i)), (proj2 (nth_error_None sh i)) by lia; auto]. specialize (F (S i)). replace (S i + length wsh - S (length sh)) with i in F by lia. cbn [nth_error] in F. assert (IS : In (S i) (seq 1 (S (length sh) - 1))) by (apply in_seq; lia). specialize (F IS). destruct (nth_error wsh i), (nth_error sh i); try discriminate. apply Nat.eqb_eq in F. congruence.
    + right. split; auto. split; [|intros k ->; cbn [length] in EL; lia]. intros ->. assert (F2 : forallb (fun i => match nth_error sh (i + length sh - S (length sh)), nth_error (n :: sh) i with Some a, Some b => a =? b | _, _ => false end) (seq 1 (S (length sh) - 1)) = true); [|congruence]. apply forallb_forall. intros i II. apply in_seq in II. destruct i as [|i]; [lia|]. replace (S i + length sh - S (length sh)) with i by lia. cbn [nth_error]. destruct (nth_error sh i) eqn:EN; [apply Nat.eqb_refl|apply nth_error_None in EN; lia].
  - destruct wsh as [|k wsh]; [cbn [length] in E2; lia|]. cbn [length] in E2. assert (EL : length wsh = length sh) by lia. cbn [length]. destruct (forallb _ _) eqn:F.
    + left. split; auto. right. exists k. f_equal. rewrite forallb_forall in F. apply nth_error_ext. intros i. destruct (Nat.lt_ge_cases i (length sh)) as [L|L]; [|rewrite (proj2 (nth_error_None wsh i)), (proj2 (nth_error_None sh i)) by lia; auto]. specialize (F (S i)). replace (S i + S (length wsh) - S (length sh)) with (S i) in F by lia. cbn [nth_error] in F. assert (IS : In (S i) (seq 1 (S (length sh) - 1))) by (apply in_seq; lia). specialize (F IS). destruct (nth_error wsh i), (nth_error sh i); try discriminate. apply Nat.eqb_eq in F. congruence.
    + right. split; auto. split; [intros E; apply (f_equal (@length nat)) in E; cbn [length] in E; lia|]. intros k' E. injection E as -> ->. assert (F2 : forallb (fun i => match nth_error (k' :: sh) (i + S (length sh) - S (length sh)), nth_error (n :: sh) i with Some a, Some b => a =? b | _, _ => false end) (seq 1 (S (length sh) - 1)) = true); [|congruence]. apply forallb_forall. intros i II. apply in_seq in II. destruct i as [|i]; [lia|]. replace (S i + S (length sh) - S (length sh)) with (S i) by lia. cbn [nth_error]. destruct (nth_error sh i) eqn:EN; [apply Nat.eqb_refl|apply nth_error_None in EN; lia].
  - right. split; auto. split; [intros ->; lia|intros k ->; cbn [length] in *; lia].
Qed.
Lemma shift_before2_ok wsh (w : list A) xsh x : xsh <> [] -> wsh = tl xsh \/ (exists k, wsh = k :: tl xsh) -> shift_before2 wsh w xsh x = Ok (xsh, firstn (length x) (w ++ x)).
Proof.
  intros NE H. destruct (shift_check_ok wsh xsh NE) as [[E _]|(_ & N1 & N2)]; [|exfalso; destruct H as [H|(k & H)]; [auto|eapply N2; eauto]]. unfold shift_before2. destruct xsh as [|n sh]; [congruence|]. rewrite E. cbn [bind]. cbv zeta. set (mid := if length w <? length x then length w else length x). assert (MD : mid = Nat.min (length w) (length x)) by (unfold mid; destruct (Nat.ltb_spec (length w) (length x)); lia).
  set (wn := nth_error (w ++ x)). destruct (wcopy (length x) wn (repeat None (length x)) (fun _ => False) 0 w 0 mid) as (r1 & -> & I1); [apply winv0; auto|lia|lia|intros k K; unfold wn; cbn [Nat.add]; rewrite nth_error_app1 by lia; auto|]. cbn [bind].
  destruct (wcopy (length x) wn r1 _ mid x 0 (length x - mid) I1) as (r2 & -> & I2); [lia|lia|intros k K; unfold wn; cbn [Nat.add]; rewrite nth_error_app2 by lia; f_equal; lia|]. cbn [bind].
  destruct (wdone (length x) wn r2) as (l & -> & LL & G); [eapply winv_weak; [|exact I2]; intros; cbn beta; lia|]. cbn [bind]. do 2 f_equal. apply nth_error_ext. intros i. destruct (Nat.lt_ge_cases i (length x)). - rewrite G by auto. rewrite nth_error_firstn_lt by auto. reflexivity. - rewrite (proj2 (nth_error_None l i)) by lia. symmetry. apply nth_error_None. rewrite firstn_length. lia.
Qed.
Lemma shift_after2_ok wsh (w : list A) xsh x : xsh <> [] -> wsh = tl xsh \/ (exists k, wsh = k :: tl xsh) -> shift_after2 wsh w xsh x = Ok (xsh, skipn (length w) (x ++ w)).
Proof.
  intros NE H. destruct (shift_check_ok wsh xsh NE) as [[E _]|(_ & N1 & N2)]; [|exfalso; destruct H as [H|(k & H)]; [auto|eapply N2; eauto]]. unfold shift_after2. destruct xsh as [|n sh]; [congruence|]. rewrite E. cbn [bind]. cbv zeta.
  set (wn := fun p => nth_error (x ++ w) (length w + p)). assert (FIN : forall r, winv (length x) wn r (fun _ => True) -> (do l <- done r; Ok (n :: sh, l)) = Ok (n :: sh, skipn (length w) (x ++ w))).
  { intros r IV. destruct (wdone _ _ _ IV) as (l & -> & LL & G). cbn [bind]. do 2 f_equal. apply nth_error_ext. intros i. rewrite nth_error_skipn'. destruct (Nat.lt_ge_cases i (length x)). - apply G. auto. - rewrite (proj2 (nth_error_None l i)) by lia. symmetry. apply nth_error_None. rewrite app_length. lia. }
  destruct (Nat.ltb_spec (length w) (length x)) as [L|L].
  - destruct (wcopy (length x) wn (repeat None (length x)) (fun _ => False) 0 x (length w) (length x - length w)) as (r1 & -> & I1); [apply winv0; auto|lia|lia|intros k K; unfold wn; cbn [Nat.add]; rewrite nth_error_app1 by lia; auto|]. cbn [bind].
    destruct (wcopy (length x) wn r1 _ (length x - length w) w 0 (length w) I1) as (r2 & -> & I2); [lia|lia|intros k K; unfold wn; cbn [Nat.add]; rewrite nth_error_app2 by lia; f_equal; lia|]. cbn [bind]. apply FIN. eapply winv_weak; [|exact I2]; intros; cbn beta; lia.
  - destruct (wcopy (length x) wn (repeat None (length x)) (fun _ => False) 0 w (length w - length x) (length x)) as (r1 & -> & I1); [apply winv0; auto|lia|lia|intros k K; unfold wn; cbn [Nat.add]; rewrite nth_error_app2 by lia; f_equal; lia|]. cbn [bind]. apply FIN. eapply winv_weak; [|exact I1]; intros; cbn beta; lia.
Qed.
Lemma shift2_err wsh (w : list A) xsh x : xsh <> [] -> wsh <> tl xsh -> (forall k, wsh <> k :: tl xsh) -> shift_before2 wsh w xsh x = Err /\ shift_after2 wsh w xsh x = Err.
Proof. intros NE N1 N2. destruct (shift_check_ok wsh xsh NE) as [[_ [H|(k & H)]]|(E & _)]; [congruence|exfalso; eapply N2; eauto|]. unfold shift_before2, shift_after2. destruct xsh; [congruence|]. rewrite E. auto. Qed.
(** * Prefixes and Suffixes *)
Lemma affixes_ok (post : bool) n sh (x : list A) : array (n :: sh) x -> affixes post (n :: sh) x = Ok (map (fun i => if post then (n - i :: sh, skipn (i * shProd sh) x) else (i :: sh, firstn (i * shProd sh) x)) (seq 0 (n + 1))).
Proof.
  intros AX. assert (LX : length x = n * shProd sh) by exact AX. unfold affixes. cbv zeta. set (c := shProd sh) in *. assert (H : forall l, Forall (fun i => i <= n) l -> fold_right (fun i acc => do l <- acc; do e <- slice x (if post then i * c else 0) ((if post then n - i else i) * c); Ok (((if post then n - i else i) :: sh, e) :: l)) (Ok []) l = Ok (map (fun i => if post then (n - i :: sh, skipn (i * c) x) else (i :: sh, firstn (i * c) x)) l)).
  { induction 1 as [|i l L F IH]; auto. cbn [fold_right map]. rewrite IH. cbn [bind]. unfold slice. destruct post.
    - replace (i * c + (n - i) * c <=? length x) with true by (symmetry; apply Nat.leb_le; rewrite LX, <- Nat.mul_add_distr_r; apply Nat.mul_le_mono_r; lia). cbn [bind]. do 3 f_equal. apply firstn_all2. rewrite skipn_length, LX. rewrite <- Nat.mul_sub_distr_r. lia.
    - replace (0 + i * c <=? length x) with true by (symmetry; apply Nat.leb_le; rewrite LX; cbn [Nat.add]; apply Nat.mul_le_mono_r; lia). cbn [bind skipn]. reflexivity. }
  apply H. apply Forall_forall. intros i II. apply in_seq in II. lia.
Qed.
End R9.
