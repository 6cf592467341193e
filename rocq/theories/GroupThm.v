(** C25: Group with a list of integers. *)
From Verif Require Import Base ListLib BitsModel SqueezeModel SqueezeProof GroupModel GroupSpec GroupProof GroupProof2 GroupProof3.
From Coq Require Import List Lia.
Open Scope Z_scope.

Lemma fold_max_succ w b : fold_right Z.max 0 (map Z.succ w ++ b) = Z.max (fold_right Z.max (-1) w + 1) (fold_right Z.max 0 b).
Proof. induction w as [|n w IH]; cbn [map app fold_right]; [|rewrite IH; lia]. induction b as [|m b IH]; cbn [fold_right]; lia. Qed.
Lemma fold_max_ub w : Forall (fun n => n < fold_right Z.max (-1) w + 1) w.
Proof. induction w as [|n w IH]; cbn [fold_right]; [constructor|]. constructor; [lia|]. eapply Forall_impl; [|exact IH]. cbv beta. intros; lia. Qed.
Lemma fold_max_lb w : -1 <= fold_right Z.max (-1) w. Proof. induction w; cbn [fold_right]; lia. Qed.
Lemma fold_max_nn w : 0 <= fold_right Z.max 0 w. Proof. induction w; cbn [fold_right]; lia. Qed.

Section M.
Variables (A : Type) (junk : A) (notB : bool) (xl0 csz : Z) (hi : bool).
Hypothesis X0 : 0 <= xl0.
Hypothesis C0 : 0 <= csz.
Hypothesis H1 : hi = false -> csz = 1.
Variables (w : list Z) (x : list (list A)).
Hypothesis CU : Forall (fun p => Z.of_nat (length p) = units notB xl0 csz hi) x.
Hypothesis XN : Z.of_nat (length x) < 2 ^ 31.
Hypothesis WL : (length x <= length w <= length x + 1)%nat.
Let c := combine (firstn (length x) w) x.
Lemma wl : length (firstn (length x) w) = length x. Proof. rewrite firstn_length. lia. Qed.
Lemma c_fst : map fst c = firstn (length x) w. Proof. unfold c. pose proof wl. revert H. generalize (firstn (length x) w). clear. intros l. revert x. induction l; intros [|b x] H; cbn in *; try lia; f_equal; auto. Qed.
Lemma c_snd : map snd c = x. Proof. unfold c. pose proof wl. revert H. generalize (firstn (length x) w). clear. intros l. revert x. induction l; intros [|b x] H; cbn in *; try lia; f_equal; auto. Qed.
Lemma c_len : length c = length x. Proof. unfold c. rewrite combine_length, wl. lia. Qed.
Lemma c_X : X A c = concat x. Proof. unfold X. rewrite c_snd. reflexivity. Qed.
Lemma c_u : Forall (fun p => Z.of_nat (length (snd p)) = units notB xl0 csz hi) c.
Proof. apply Forall_forall. intros p I. rewrite Forall_forall in CU. apply CU. rewrite <- c_snd. apply in_map. auto. Qed.
Lemma members_sel j : members w x j = sel A j c. Proof. unfold members, sel, c. rewrite combine_firstn_r. reflexivity. Qed.
Definition answer : list (group A) := map (fun g => (Z.of_nat (length g), concat g)) (groups w x).
Lemma answer_spec ria : ria = ngroups w (length x) -> map (spec A c) (zs ria) = answer.
Proof. intros ->. unfold answer, groups, zs. rewrite !map_map. apply map_ext. intros j. rewrite members_sel. reflexivity. Qed.
Lemma all_zero : Forall (fun n => n = 0) (firstn (length x) w) -> ngroups w (length x) = 1 -> answer = [(Z.of_nat (length x), concat x)].
Proof.
  intros F N. rewrite <- (answer_spec 1) by auto. unfold zs. change (Z.to_nat 1) with 1%nat. cbn [seq map Z.of_nat]. unfold spec, L. rewrite (sel_all A 0), c_snd; [reflexivity|]. apply Forall_forall. intros p I. rewrite Forall_forall in F. apply F. rewrite <- c_fst. apply in_map. auto.
Qed.
Lemma skip_last : skipn (length x) w = if Z.of_nat (length x) <? Z.of_nat (length w) then [nth (length x) w 0] else [].
Proof.
  destruct (Z.ltb_spec (Z.of_nat (length x)) (Z.of_nat (length w))); [|apply skipn_all2; lia]. assert (HL : length (skipn (length x) w) = 1%nat) by (rewrite skipn_length; lia). pose proof (nth_skip w (length x) 0 0) as N. rewrite Nat.add_0_r in N. destruct (skipn (length x) w) as [|a [|b l]]; cbn in HL; try lia. cbn [nth] in N. rewrite N. reflexivity.
Qed.
Lemma existsb_bad l : existsb (fun n => n <? -1) l = negb (forallb (fun n => -1 <=? n) l).
Proof. induction l as [|n l IH]; [reflexivity|]. cbn [existsb forallb]. rewrite IH, negb_andb. f_equal. lia. Qed.
Lemma simple_int : group_simple A junk notB xl0 csz hi false w x = if forallb (fun n => -1 <=? n) w then Ok answer else Err.
Proof.
  unfold group_simple. cbv zeta. set (W := firstn (length x) w). destruct (accum_ok W (-1) stat0) as (B & N & S & M). cbn [stat0 g_bad g_neg g_sort g_max] in B, N, S, M. change (false || _) with (existsb (fun n => n <? -1) W) in B. change (true && srt (-1) W) with (srt (-1) W) in S. rewrite Z.add_0_l in N. set (st := accum W (-1) stat0) in *. clearbody st. rewrite B, N, S, M. cbn [negb andb].
  pose proof skip_last as SL. assert (NG : ngroups w (length x) = Z.max (fold_right Z.max (-1) W + 1) (fold_right Z.max 0 (skipn (length x) w))) by apply fold_max_succ. assert (FB : forallb (fun n => -1 <=? n) w = forallb (fun n => -1 <=? n) W && forallb (fun n => -1 <=? n) (skipn (length x) w)) by (rewrite <- forallb_app; unfold W; rewrite firstn_skipn; reflexivity).
  assert (LAST : exists last, (if Z.of_nat (length x) <? Z.of_nat (length w) then rd w (length x) else Ok 0) = Ok last /\ (Z.of_nat (length x) <? Z.of_nat (length w) = true -> skipn (length x) w = [last])).
  { destruct (Z.ltb_spec (Z.of_nat (length x)) (Z.of_nat (length w))); [|exists 0; split; [reflexivity|discriminate]]. exists (nth (length x) w 0). split; [apply nth_rd; lia|auto]. }
  destruct LAST as (last & LE & LS). rewrite LE. cbn [bind]. rewrite existsb_bad. assert (GOODB : negb (forallb (fun n => -1 <=? n) W) || (Z.of_nat (length x) <? Z.of_nat (length w)) && (last <? -1) = negb (forallb (fun n => -1 <=? n) w)). { rewrite FB, negb_andb. f_equal. destruct (Z.ltb_spec (Z.of_nat (length x)) (Z.of_nat (length w))) as [LT|GE]; [rewrite LS by auto; cbn [forallb andb]; lia|rewrite SL; reflexivity]. }
  rewrite GOODB. destruct (forallb (fun n => -1 <=? n) w) eqn:GOOD; cbn [negb]; [|reflexivity]. symmetry in FB. apply andb_true_iff in FB. destruct FB as [FW FS].
  pose proof (fold_max_lb W) as LB. set (ria := if (if Z.of_nat (length x) <? Z.of_nat (length w) then last else 0) <? fold_right Z.max (-1) W + 1 then fold_right Z.max (-1) W + 1 else (if Z.of_nat (length x) <? Z.of_nat (length w) then last else 0)) in *.
  assert (RIA : ria = ngroups w (length x)). { rewrite NG. unfold ria. destruct (Z.ltb_spec (Z.of_nat (length x)) (Z.of_nat (length w))) as [LT|GE]; [rewrite LS by auto|rewrite SL]; cbn [fold_right]; destruct (Z.ltb_spec (if Z.of_nat (length x) <? Z.of_nat (length w) then last else 0) (fold_right Z.max (-1) W + 1)) as [H|H]; try (destruct (Z.ltb_spec last (fold_right Z.max (-1) W + 1))); try (destruct (Z.ltb_spec 0 (fold_right Z.max (-1) W + 1))); lia. }
  clearbody ria. assert (RG : fold_right Z.max (-1) W + 1 <= ria) by lia. assert (R0 : 0 <= ria) by lia. assert (WR : Forall (fun n => -1 <= n < ria) W). { apply Forall_forall. intros n I. rewrite forallb_forall in FW. pose proof (FW n I). pose proof (fold_max_ub W) as U. rewrite Forall_forall in U. specialize (U n I). cbv beta in *. lia. }
  destruct (Z.eqb_spec ria 0) as [Z0|NZ]. { rewrite <- (answer_spec ria) by auto. rewrite Z0. reflexivity. }
  assert (C1 : forall n l, cnt n l = 0 -> Forall (fun m => m <> n) l). { clear. intros n. induction l as [|a l IH]; intros H; constructor; rewrite cnt_cons in H; pose proof (cnt_nn n l); destruct (Z.eqb_spec a n); auto; try lia. all: apply IH; lia. }
  destruct ((ria <=? 1) && (cnt (-1) W =? 0)) eqn:ONE.
  { apply andb_true_iff in ONE. destruct ONE as [O1 O2]. rewrite all_zero; [reflexivity| |lia]. fold W. apply Z.eqb_eq, C1 in O2. apply Forall_forall. intros n I. rewrite Forall_forall in O2, WR. specialize (O2 n I). specialize (WR n I). cbv beta in *. lia. }
  assert (CF : map fst c = W) by apply c_fst. assert (CL : length c = length x) by apply c_len. pose proof c_u as CUc. rewrite <- (answer_spec ria RIA).
  destruct (Z.eqb_spec (cnt (-1) W) (Z.of_nat (length x))) as [ALL|NALL].
  { f_equal. assert (AN : forall l, cnt (-1) l = Z.of_nat (length l) -> Forall (fun m => m = -1) l). { clear. induction l as [|a l IH]; intros H; constructor; rewrite cnt_cons in H; cbn [length] in H; assert (cnt (-1) l <= Z.of_nat (length l)) by (unfold cnt; pose proof (flen (fun a => a =? -1) l); lia); destruct (Z.eqb_spec a (-1)); try lia. all: apply IH; lia. }
    assert (WN : Forall (fun m => m = -1) W) by (apply AN; rewrite ALL; unfold W; rewrite wl; reflexivity). unfold zs. rewrite map_map. assert (SP : forall i, spec A c (Z.of_nat i) = (0, [])). { intros i. unfold spec, L. rewrite (sel_none A (Z.of_nat i) (-1)) by (try lia; apply Forall_forall; intros p I; rewrite Forall_forall in WN; apply WN; rewrite <- CF; apply in_map; auto). reflexivity. } rewrite (map_ext _ _ SP). assert (ML : forall {B} (v : B) (l : list nat), map (fun _ => v) l = repeat v (length l)) by (clear; induction l; cbn; congruence). rewrite ML, seq_length. reflexivity. }
  pose proof c_X as CX. rewrite <- CX. destruct (_ && notB && _) eqn:CHK.
  - apply andb_true_iff in CHK. destruct CHK as [CHK _]. apply andb_true_iff in CHK. destruct CHK as [_ NB]. rewrite <- CF, <- CL. rewrite <- CL in NALL, XN. apply (chunk_ok A junk notB xl0 csz hi X0 C0 H1 c ria); auto; rewrite CF; auto.
  - match goal with |- context [if ?b then keep _ W else w] => destruct b eqn:FL end.
    + pose proof (keep_fst (fun n => negb (n =? -1)) c) as K1. pose proof (keep_snd (fun n => negb (n =? -1)) c) as K2. rewrite CF in K1, K2. rewrite c_snd in K2. rewrite K1, K2. set (c' := filter (fun p => negb (fst p =? -1)) c) in *. rewrite map_length. rewrite <- (map_length fst c'), firstn_all. change (concat (map snd c')) with (X A c'). assert (INC : incl c' c) by (intros p I; apply filter_In in I; tauto). rewrite (tail_ok A junk notB xl0 csz hi X0 C0 H1 c' ria 0 (srt (-1) W)); auto.
      * f_equal. apply map_ext_in. intros n I. unfold zs in I. apply in_map_iff in I. destruct I as (i & <- & _). unfold spec, L. unfold c'. rewrite sel_filter by lia. reflexivity.
      * apply Forall_forall. intros p I. rewrite Forall_forall in CUc. apply CUc, INC, I.
      * apply Forall_forall. intros n I. apply in_map_iff in I. destruct I as (p & <- & I). rewrite Forall_forall in WR. apply WR. rewrite <- CF. apply in_map, INC, I.
      * clear. subst c'. unfold cnt. generalize c. intros l. induction l as [|p l IH]; [reflexivity|]. cbn [filter]. destruct (Z.eqb_spec (fst p) (-1)) as [E|E]; cbn [negb]; auto. cbn [map filter]. replace (fst p =? -1) with false by lia. auto.
      * intros SS. unfold c'. apply srt_filter. rewrite CF. auto.
    + rewrite <- CX. fold W. rewrite <- CF. apply (tail_ok A junk notB xl0 csz hi X0 C0 H1 c ria); auto. rewrite CF. auto.
Qed.
Lemma simple_bit : Forall (fun n => n = 0 \/ n = 1) w -> group_simple A junk notB xl0 csz hi true w x = Ok answer.
Proof.
  intros B. unfold group_simple. cbv zeta. cbn [negb andb stat0 g_neg]. set (W := firstn (length x) w). pose proof skip_last as SL. assert (NG : ngroups w (length x) = Z.max (fold_right Z.max (-1) W + 1) (fold_right Z.max 0 (skipn (length x) w))) by apply fold_max_succ.
  assert (LAST : exists last, (if Z.of_nat (length x) <? Z.of_nat (length w) then rd w (length x) else Ok 0) = Ok last). { destruct (Z.ltb_spec (Z.of_nat (length x)) (Z.of_nat (length w))); [|exists 0; reflexivity]. exists (nth (length x) w 0). apply nth_rd; lia. }
  destruct LAST as (last & LE). rewrite LE. cbn [bind]. clear last LE. assert (BW : Forall (fun n => n = 0 \/ n = 1) W) by (apply Forall_firstn; auto). assert (BS : 0 <= fold_right Z.max 0 (skipn (length x) w) <= 1). { apply (Forall_skipn _ (length x)) in B. revert B. generalize (skipn (length x) w). clear. intros q B. induction B as [|n l H F IH]; cbn [fold_right]; lia. }
  assert (MX : W <> [] -> fold_right Z.max (-1) W = if existsb (fun n => n =? 1) W then 1 else 0). { clear - BW. induction BW as [|n l H F IH]; [congruence|]. intros _. cbn [fold_right existsb]. destruct l as [|m l]; [destruct H; subst; reflexivity|]. rewrite IH by discriminate. destruct H; subst; destruct (existsb (fun n => n =? 1) (m :: l)); reflexivity. }
  assert (RIA : (if Z.of_nat (length x) =? 0 then if Z.of_nat (length w) =? 0 then 0 else hd 0 w else 1 + (if existsb (fun n => n =? 1) W then 1 else 0)) = ngroups w (length x)).
  { rewrite NG. pose proof wl as WLn. fold W in WLn. destruct (Z.eqb_spec (Z.of_nat (length x)) 0) as [X1|X1].
    - replace (length x) with O in * by lia. apply length_zero_iff_nil in WLn. replace (fold_right Z.max (-1) W) with (-1) by (rewrite WLn; reflexivity). cbn [skipn]. destruct w as [|a w']; [reflexivity|]. change (Z.of_nat (length (a :: w')) =? 0) with false. cbn [hd]. cbn [length] in WL. destruct w'; [|cbn [length] in WL; lia]. cbn [fold_right]. inversion B as [|? ? HB ?]; subst. destruct HB; subst; reflexivity.
    - rewrite MX by (intros E; rewrite E in WLn; cbn in WLn; lia). destruct (existsb (fun n => n =? 1) W); lia. }
  rewrite RIA. set (ria := ngroups w (length x)) in *. destruct (Z.eqb_spec ria 0) as [Z0|NZ]. { rewrite <- (answer_spec ria) by reflexivity. rewrite Z0. reflexivity. } change (0 =? 0) with true. rewrite andb_true_r. assert (CF : map fst c = W) by apply c_fst.
  pose proof (fold_max_ub W) as U. destruct (Z.leb_spec ria 1) as [O|T].
  - rewrite all_zero; [reflexivity| |fold ria; lia]. fold W. apply Forall_forall. intros n I. rewrite Forall_forall in U, BW. specialize (U n I). specialize (BW n I). cbv beta in *. lia.
  - assert (R2 : ria = 2). { destruct W as [|a l]; [cbn [fold_right] in NG; lia|]. rewrite MX in NG by discriminate. destruct (existsb _ (a :: l)); lia. } f_equal. rewrite <- (answer_spec ria) by reflexivity. rewrite R2. unfold zs. change (Z.to_nat 2) with 2%nat. cbn [seq map Z.of_nat]. change (Z.of_nat 1) with 1. change (Z.of_nat 0) with 0. pose proof (keep_snd (fun n => n =? 1) c) as K1. pose proof (keep_snd (fun n => negb (n =? 1)) c) as K2. rewrite CF, c_snd in K1, K2. rewrite map_map, K1, K2. unfold spec, L, sel.
    assert (EQ : filter (fun p => negb (fst p =? 1)) c = filter (fun p => fst p =? 0) c). { rewrite <- CF in BW. clear - BW. revert BW. generalize c. intros l. induction l as [|p l IH]; intros BW; [reflexivity|]. cbn [map] in BW. pose proof (Forall_inv BW) as BP. cbv beta in BP. specialize (IH (Forall_inv_tail BW)). cbn [filter]. rewrite IH. destruct BP as [E|E]; rewrite E; reflexivity. } rewrite EQ. reflexivity.
Qed.
End M.

(** Group with a list of integers 𝕨 (one more element than 𝕩 at most) and an 𝕩 of fewer than 2^31 cells: every method gives exactly the specified lists, each cell once, in order, ¯1 dropped; an element below ¯1 or a wrong length is an error. No access is out of bounds.
    Missing: nested 𝕨; 2^31 cells or more (see below). *)
Theorem C25_group_partial A (junk : A) notB xl0 csz hi wbit w x :
  0 <= xl0 -> 0 <= csz -> (hi = false -> csz = 1) -> Forall (fun p => Z.of_nat (length p) = units notB xl0 csz hi) x -> Z.of_nat (length x) < 2 ^ 31 -> (wbit = true -> Forall (fun n => n = 0 \/ n = 1) w) ->
  group_c2 A junk notB xl0 csz hi wbit w x =
    if ((length x =? length w)%nat || (S (length x) =? length w)%nat) && forallb (fun n => -1 <=? n) w
    then Ok (map (fun g => (Z.of_nat (length g), concat g)) (groups w x)) else Err.
Proof.
  intros X0 C0 H1 CU XN WB. unfold group_c2. cbv zeta. destruct (_ || (S (length x) =? length w)%nat) eqn:LL.
  - assert (WL : (length x <= length w <= length x + 1)%nat) by (apply orb_true_iff in LL; destruct LL as [LL|LL]; apply Nat.eqb_eq in LL; lia). replace ((_ <? 0) || _) with false by lia. cbn [andb]. destruct wbit.
    + rewrite simple_bit by auto. replace (forallb (fun n => -1 <=? n) w) with true; [reflexivity|]. symmetry. apply forallb_forall. intros n I. specialize (WB eq_refl). rewrite Forall_forall in WB. specialize (WB n I). lia.
    + apply simple_int; auto.
  - cbn [andb]. apply orb_false_iff in LL. destruct LL as [L1 L2]. apply Nat.eqb_neq in L1, L2. replace ((_ <? 0) || _) with true by lia. reflexivity.
Qed.
Print Assumptions C25_group_partial.

(** With more cells, a run of 2^31 or more equal numbers has a length that does not fit the 32-bit type used for it: 𝕨 = 1‿0‿0‿… fails. *)
Lemma accum_zeros : forall n s, g_change (accum (repeat 0 n) 0 s) = g_change s.
Proof. induction n as [|n IH]; intros s; [reflexivity|]. cbn [repeat accum]. rewrite IH. cbn. lia. Qed.
Lemma changes_zeros : forall n i, changes 0 (repeat 0 n) i = []. Proof. induction n as [|n IH]; intros i; [reflexivity|]. cbn [repeat changes]. apply IH. Qed.
Theorem C25_group_large_refuted A (junk : A) (N : nat) (x : list (list A)) : 2 ^ 31 <= Z.of_nat N < 2 ^ 32 -> length x = S N ->
  group_c2 A junk true 3 1 false false (1 :: repeat 0 N) x = UB.
Proof.
  intros NB XL. change (2 ^ 31) with 2147483648 in NB. change (2 ^ 32) with 4294967296 in NB. assert (NP : (0 < N)%nat) by lia. unfold group_c2. cbv zeta. cbn [length]. rewrite repeat_length. rewrite XL. rewrite Z.sub_diag. cbn [Z.ltb Z.compare orb]. unfold group_simple. cbv zeta. cbn [length]. rewrite repeat_length, XL, Z.ltb_irrefl. cbn [negb bind andb]. rewrite firstn_all2 by (cbn [length]; rewrite repeat_length; lia).
  set (W := 1 :: repeat 0 N). destruct (accum_ok W (-1) stat0) as (B & Ng & S & M). cbn [stat0 g_bad g_neg g_sort g_max] in B, Ng, S, M. assert (CH : g_change (accum W (-1) stat0) = 2). { destruct N as [|N']; [lia|]. unfold W. cbn [repeat accum]. rewrite accum_zeros. reflexivity. } set (st := accum W (-1) stat0) in *. clearbody st. rewrite B, Ng, M, CH.
  assert (C1 : cnt (-1) W = 0). { unfold W. rewrite cnt_cons, cnt_rep. reflexivity. } rewrite C1. assert (E1 : existsb (fun n => n <? -1) W = false). { unfold W. cbn [existsb]. clear. induction N as [|N IH]; [reflexivity|]. exact IH. } rewrite E1. assert (M1 : fold_right Z.max (-1) W = 1). { unfold W. cbn [fold_right]. assert (H : fold_right Z.max (-1) (repeat 0 N) <= 0) by (clear; induction N; cbn [repeat fold_right]; lia). lia. } rewrite M1. cbn [orb andb Z.ltb Z.eqb Z.leb Z.compare Z.add Z.mul Pos.add Pos.mul Pos.succ Pos.compare Pos.compare_cont].
  replace (0 =? Z.of_nat (Datatypes.S N)) with false by lia. change (width 3 1 false) with 1. rewrite !Z.mul_1_r. replace (64 <? Z.of_nat (Datatypes.S N)) with true by lia. replace (2 <? Z.of_nat (Datatypes.S N) / 32) with true by lia. cbn [andb]. assert (CC : changes (-1) W 0 = [(1, 0); (0, 1)]). { destruct N as [|N']; [lia|]. unfold W. cbn [repeat changes Z.eqb Pos.eqb]. rewrite changes_zeros. reflexivity. } rewrite CC. cbn [existsb snd Z.leb Z.compare orb run_lens map fst]. replace (1 - 0) with 1 by lia. replace (Z.of_nat (Datatypes.S N) - 1) with (Z.of_nat N) by lia. change (to_s 32 1) with 1.
  assert (TS : to_s 32 (Z.of_nat N) < 0). { unfold to_s. change (2 ^ (32 - 1)) with 2147483648. change (2 ^ 32) with 4294967296. lia. }
  set (v := to_s 32 (Z.of_nat N)) in *. clearbody v. assert (BU : bumps (repeat 0 (Z.to_nat 5)) 2 [(1, 1); (0, v)] = Ok [0; 0; 0; v; 1]). { change (Z.to_nat 5) with 5%nat. cbn [repeat bumps]. unfold bump. change (2 + 1 + 1 <? 0) with false. change (2 + 1 + 0 <? 0) with false. change (Z.to_nat (2 + 1 + 1)) with 4%nat. change (Z.to_nat (2 + 1 + 0)) with 3%nat. cbv iota. unfold rd, wr. cbn. reflexivity. }
  rewrite BU. cbn [bind]. unfold lens. change (Z.to_nat (2 + 1)) with 3%nat. change (Z.to_nat 2) with 2%nat. cbn [firstn skipn]. unfold alloc. cbn [map]. replace (v =? 0) with false by lia. change (1 =? 0) with false. cbv iota. cbn [chunks]. cbv zeta. change (1 <? 0) with false. change (0 <? 0) with false. cbv iota. change (Z.to_nat 1) with 1%nat. change (Z.to_nat 0) with O. unfold rd at 1. cbn [nth_error bind]. unfold put at 1. change (1 <? 0) with false. cbv iota. change (Z.to_nat 1) with 1%nat. unfold rd at 1. cbn [nth_error bind snd fst].
  destruct (blit A _ _ _ _ _) as [d| |] eqn:BL; cbn [bind]; [|unfold blit in BL; destruct (_ && _ && _ && _ && _); discriminate|reflexivity].
  unfold wr. cbn [length Nat.ltb Nat.leb]. cbn [bind upd]. unfold rd at 1. cbn [nth_error bind]. unfold put. change (0 <? 0) with false. cbv iota. change (Z.to_nat 0) with O. unfold rd. cbn [nth_error bind snd fst]. unfold blit. replace (0 <=? v * 1) with false by lia. rewrite andb_false_r. cbn [andb]. reflexivity.
Qed.
Print Assumptions C25_group_large_refuted.

(** examples: the simple method with ¯1 and an extra element; the few-changes method *)
Example C25_ex1 : group_c2 Z 99 true 3 1 false false [2; 0; -1; 2; 4] [[10]; [11]; [12]; [13]] = Ok [(1, [11]); (0, []); (2, [10; 13]); (0, [])].
Proof. reflexivity. Qed.
Example C25_ex2 : group_c2 Z 99 true 5 3 true false ([1; 1; -1; -1] ++ repeat 0 60 ++ repeat 1 6) (map (fun i => repeat (Z.of_nat i) 12) (seq 0 70))
  = Ok [(60, concat (map (fun i => repeat (Z.of_nat i) 12) (seq 4 60))); (8, concat (map (fun i => repeat (Z.of_nat i) 12) ([0; 1] ++ seq 64 6)%nat))].
Proof. vm_compute. reflexivity. Qed.
Example C25_ex3 : group_c2 Z 99 true 3 1 false false [0; -2] [[1]; [2]] = Err /\ group_c2 Z 99 true 3 1 false false [0] [[1]; [2]] = Err. Proof. split; reflexivity. Qed.
