(** Proofs about MoveModel: Take and Drop along several axes, index by index. *)
From Coq Require Import List Arith ZArith Bool Lia.
Import ListNotations.
From Verif Require Import Base ListLib SqueezeModel TransModel TransSpec TransProof TransProof2 TransProof5 MoveModel MoveSpec MoveProof MoveProof2 MoveProof3.
Open Scope nat_scope.
Fixpoint unravel (sh : list nat) (n : nat) : list nat := match sh with [] => [] | _ :: sh => n / shProd sh :: unravel sh (n mod shProd sh) end.
Lemma unravel_ok sh : forall n, n < shProd sh -> inb sh (unravel sh n) /\ ravel sh (unravel sh n) = n.
Proof.
  induction sh as [|l sh IH]; intros n NB; [split; [constructor|cbn in *; lia]|]. rewrite shProd_cons in NB. assert (0 < shProd sh) by (destruct (shProd sh); lia). destruct (IH (n mod shProd sh)) as [B E]; [apply Nat.mod_upper_bound; lia|]. cbn [unravel]. split; [constructor; auto; apply Nat.div_lt_upper_bound; lia|]. cbn [ravel]. change (size sh) with (shProd sh). rewrite E. pose proof (Nat.div_mod n (shProd sh) ltac:(lia)). lia.
Qed.
Lemma unravel_ravel sh I : inb sh I -> unravel sh (ravel sh I) = I.
Proof. intros B. pose proof (ravel_lt _ _ B) as L. destruct (unravel_ok sh _ L) as [B' E]. eapply ravel_inj; eauto. Qed.
Lemma shProd_le a : forall b, Forall2 (fun x y => x <= y) a b -> shProd a <= shProd b.
Proof. induction 1; auto. rewrite !shProd_cons. nia. Qed.
Lemma tdbump_le dr dx (cw : nat) ts : forall K o a b, Forall (fun e : ent => cw <= snd (fst (fst e))) ts -> tdbump dr dx false (stK ts K) = Ok (Some (o, a, b)) -> cw <= a.
Proof.
  induction ts as [|[[[t rc] xc] e] ts IH]; intros K o a b H E; [discriminate|]. cbn [stK tdbump] in E. pose proof (Forall_inv H) as HH. cbn [fst snd] in HH. destruct (_ =? 0); [discriminate|]. destruct (_ =? 1).
  - destruct (tdbump dr dx false (stK ts (K / t))) as [[[[o' a'] b']|]| |] eqn:E2; cbn [bind] in E; try discriminate. injection E as <- <- <-. eapply IH; eauto. eapply Forall_inv_tail; eauto.
  - injection E as <- <- <-. exact HH.
Qed.
Section G.
Context {A : Type}.
Variables (take anyFill : bool) (cs : nat) (outer inner : list axis) (a : axis) (x : list A) (fill : option A).
Notation rest := (a :: inner).
Notation l := (outer ++ rest).
Notation d := (map (dz take) l).
Hypothesis CS : length outer = cs.
Hypothesis HI : Forall (fun a => xl a = rl a) inner.
Hypothesis AX : length x = shProd (xsh_ l).
Hypothesis RP : Forall (fun a => 0 < rl a) l.
Hypothesis XP : Forall (fun a => 0 < xl a) l.
Hypothesis AF : anyFill = existsb (fun a => xl a <? rl a) l.
Hypothesis FF : anyFill = true -> fill <> None.
Notation N := (shProd (rsh_ l)).
Definition want (p : nat) : option A := match source d (xsh_ l) (unravel (rsh_ l) p) with Some J => elt (xsh_ l) x J | None => fill end.
Definition ts := rev (rents take cs outer rest).
Definition CW := mn a * shProd (rsh_ inner).
Lemma mpos : Forall (fun a => 0 < mn a) l. Proof. apply Forall_forall. intros e IE. rewrite Forall_forall in RP, XP. specialize (RP e IE). specialize (XP e IE). unfold mn. lia. Qed.
Lemma mpos_o : Forall (fun a => 0 < mn a) outer. Proof. pose proof mpos as H. apply Forall_app in H. tauto. Qed.
Lemma inner_m : msh_ inner = rsh_ inner /\ xsh_ inner = rsh_ inner.
Proof. split; apply map_ext_in; intros e IE; rewrite Forall_forall in HI; specialize (HI e IE); unfold mn; lia. Qed.
Lemma CW_pos : 0 < CW. Proof. unfold CW. pose proof mpos as H. apply Forall_app in H. destruct H as [_ H]. pose proof (Forall_inv H) as H0. pose proof (Forall_inv_tail H) as H1. cbn beta in H0. assert (0 < shProd (rsh_ inner)); [|nia]. rewrite <- (proj1 inner_m). apply shProd_pos. apply Forall_map. exact H1. Qed.
(** strides *)
Lemma rents_len o : length (rents take cs o rest) = length o. Proof. induction o; cbn [rents length]; auto. Qed.
Lemma tr_eq : tr ts = rev (combine (msh_ outer) (map (fun e => fst (snd e)) (rents take cs outer rest))).
Proof. unfold ts, tr. rewrite map_rev. f_equal. clear. unfold msh_. induction outer as [|b o IH]; auto. cbn [rents map combine fst snd]. f_equal. exact IH. Qed.
Lemma tx_eq : tx ts = rev (combine (msh_ outer) (map (fun e => snd (snd e)) (rents take cs outer rest))).
Proof. unfold ts, tx. rewrite map_rev. f_equal. clear. unfold msh_. induction outer as [|b o IH]; auto. cbn [rents map combine fst snd]. f_equal. exact IH. Qed.
Lemma PP_eq : P (tr ts) = shProd (msh_ outer).
Proof. rewrite tr_eq, P_rev. apply P_combine. unfold msh_. rewrite !map_length. apply rents_len. Qed.
Lemma dot_r o : forall J I2, length J = length o -> dot J (map (fun e => fst (snd e)) (rents take cs o rest)) + ravel (rsh_ rest) I2 = ravel (rsh_ (o ++ rest)) (J ++ I2).
Proof. induction o as [|b o IH]; intros [|j J] I2 H; cbn [length] in H; try lia; auto. change (rsh_ ((b :: o) ++ rest)) with (rl b :: rsh_ (o ++ rest)). cbn [rents map fst snd dot app ravel]. rewrite <- IH by lia. change (size (rsh_ (o ++ rest))) with (shProd (rsh_ (o ++ rest))). lia. Qed.
Lemma dot_x o : forall J I2, length J = length o -> dot J (map (fun e => snd (snd e)) (rents take cs o rest)) + ravel (xsh_ rest) I2 = ravel (xsh_ (o ++ rest)) (J ++ I2).
Proof. induction o as [|b o IH]; intros [|j J] I2 H; cbn [length] in H; try lia; auto. change (xsh_ ((b :: o) ++ rest)) with (xl b :: xsh_ (o ++ rest)). cbn [rents map fst snd dot app ravel]. rewrite <- IH by lia. change (size (xsh_ (o ++ rest))) with (shProd (xsh_ (o ++ rest))). lia. Qed.
Notation ri0 := (ravel (rsh_ l) (map (ro take) l)).
Notation xi0 := (ravel (xsh_ l) (map (xo take) l)).
Lemma at_J J I2 : inb (msh_ outer) J -> inb (msh_ rest) I2 ->
  rpos ri0 ts (ravel (msh_ outer) J) + ravel (msh_ rest) I2 = ravel (rsh_ l) (zadd (J ++ I2) (map (ro take) l)) /\
  xpos xi0 ts (ravel (msh_ outer) J) + ravel (msh_ rest) I2 = ravel (xsh_ l) (zadd (J ++ I2) (map (xo take) l)).
Proof.
  intros BJ BI. pose proof (inb_len _ _ BJ) as LJ. pose proof (inb_len _ _ BI) as LI. unfold msh_ in LJ, LI. rewrite map_length in LJ, LI. unfold rpos, xpos. rewrite tr_eq, tx_eq.
  assert (LL : length (J ++ I2) = length l) by (rewrite !app_length; lia).
  fold (offi (combine (msh_ outer) (map (fun e => fst (snd e)) (rents take cs outer rest))) (ravel (msh_ outer) J)). fold (offi (combine (msh_ outer) (map (fun e => snd (snd e)) (rents take cs outer rest))) (ravel (msh_ outer) J)).
  rewrite !offi_dot by (auto; unfold msh_; rewrite !map_length; apply rents_len).
  assert (E1 : ravel (msh_ rest) I2 = ravel (rsh_ rest) I2 /\ ravel (msh_ rest) I2 = ravel (xsh_ rest) I2). { unfold msh_, rsh_, xsh_. cbn [map]. destruct I2 as [|i2 I2]; [cbn [length] in LI; lia|]. cbn [ravel]. destruct inner_m as [M1 M2]. unfold msh_, rsh_, xsh_ in M1, M2. rewrite M1, M2. auto. }
  destruct E1 as [E1 E2]. split; rewrite ravel_add by (unfold rsh_, xsh_; rewrite !map_length; auto).
  - rewrite E1. pose proof (dot_r outer J I2 LJ). lia.
  - rewrite E2. pose proof (dot_x outer J I2 LJ). lia.
Qed.
Lemma msh_app : msh_ l = msh_ outer ++ msh_ rest. Proof. apply map_app. Qed.
Lemma rest_m : shProd (msh_ rest) = CW. Proof. unfold msh_. cbn [map]. rewrite shProd_cons. fold (msh_ inner). rewrite (proj1 inner_m). reflexivity. Qed.
Lemma want_J J : inb (msh_ l) J -> want (ravel (rsh_ l) (zadd J (map (ro take) l))) = nth_error x (ravel (xsh_ l) (zadd J (map (xo take) l))).
Proof. intros B. unfold want. rewrite unravel_ravel by (apply m_in_r; auto). rewrite source_in by auto. reflexivity. Qed.
Lemma gHC K : K < P (tr ts) -> rpos ri0 ts K + CW <= N /\ xpos xi0 ts K + CW <= length x /\ forall t, t < CW -> want (rpos ri0 ts K + t) = nth_error x (xpos xi0 ts K + t).
Proof.
  intros KB. rewrite PP_eq in KB. destruct (ravel_surj _ _ KB) as (J & BJ & <-).
  assert (G : forall t, t < CW -> exists I2, inb (msh_ rest) I2 /\ ravel (msh_ rest) I2 = t /\ inb (msh_ l) (J ++ I2)). { intros t T. rewrite <- rest_m in T. destruct (ravel_surj _ _ T) as (I2 & B2 & E). exists I2. split; auto. split; auto. rewrite msh_app. apply Forall2_app; auto. }
  pose proof CW_pos as CP. destruct (G (CW - 1) ltac:(lia)) as (I2 & B2 & E & BB). destruct (at_J J I2 BJ B2) as [R X]. rewrite E in R, X. pose proof (ravel_lt _ _ (m_in_r take l _ BB)) as L1. pose proof (ravel_lt _ _ (m_in_x take l _ BB)) as L2. split; [lia|]. split; [lia|].
  intros t T. destruct (G t T) as (I3 & B3 & <- & BB3). destruct (at_J J I3 BJ B3) as [-> ->]. apply want_J. auto.
Qed.
Lemma cov_all p : p < N -> source d (xsh_ l) (unravel (rsh_ l) p) <> None -> exists K, K < P (tr ts) /\ cov CW ri0 ts K p.
Proof.
  intros PB S. destruct (unravel_ok _ _ PB) as [BI EI]. destruct (source_some take l _ BI S) as (J & BJ & E). rewrite E in EI. rewrite msh_app in BJ. apply Forall2_app_inv_l in BJ. destruct BJ as (J1 & J2 & B1 & B2 & ->). change (inb (msh_ outer) J1) in B1. change (inb (msh_ rest) J2) in B2. exists (ravel (msh_ outer) J1). split; [rewrite PP_eq; apply ravel_lt; auto|]. destruct (at_J J1 J2 B1 B2) as [R _]. pose proof (ravel_lt _ _ B2) as L2. rewrite rest_m in L2. unfold cov. lia.
Qed.
Lemma gHG : anyFill = true -> exists f, fill = Some f /\ forall p, p < N -> (forall K, K < P (tr ts) -> ~ cov CW ri0 ts K p) -> want p = Some f.
Proof.
  intros E. specialize (FF E). destruct fill as [f|] eqn:EF; [|congruence]. exists f. split; auto. intros p PB NC. unfold want. destruct (source d (xsh_ l) (unravel (rsh_ l) p)) eqn:S; auto. exfalso. destruct (cov_all p PB) as (K & KB & C); [rewrite S; discriminate|]. eapply NC; eauto.
Qed.
Lemma gD : dl 0 0 ts. Proof. apply (rents_dl take cs outer a inner HI mpos_o). lia. Qed.
Lemma ge_cw o : length o <= cs -> Forall (fun a => 0 < mn a) o -> Forall (fun e : ent => CW <= snd (fst (fst e))) (rents take cs o rest).
Proof.
  induction o as [|b o IH]; intros L H; [constructor|]. cbn [length] in L. cbn [rents]. constructor; [|apply IH; [lia|eapply Forall_inv_tail; eauto]]. cbn [fst snd]. destruct (rents_dl take cs o a inner HI (Forall_inv_tail H)) as (_ & _ & _ & E); [lia|]. destruct (ci_at take cs a inner HI) as (E1 & _). rewrite E1 in E. exact E.
Qed.
Lemma gHM K : K + 1 < P (tr ts) -> rpos ri0 ts K + CW <= rpos ri0 ts (K + 1).
Proof.
  intros KB. destruct (tdbump_ok 0 0 ts 0 0 K gD ltac:(lia)) as [(Q & _)|(_ & da & db & E & Ea & _)]; [lia|]. assert (CW <= da). { eapply tdbump_le; [|exact E]. apply Forall_rev. apply ge_cw; [lia|apply mpos_o]. } unfold rpos. lia.
Qed.
Lemma gH1 : match ts with [] => True | ((_, rc, xc), _) :: _ => rl a * shProd (rsh_ inner) = rc /\ xl a * shProd (rsh_ inner) = xc end.
Proof.
  destruct (ci_at take cs a inner HI) as (_ & _ & _ & EX & ER). rewrite <- EX, <- ER. unfold ts. clear. induction outer as [|b o IH]; [exact I|]. cbn [rents rev]. destruct (rev (rents take cs o rest)) as [|e t] eqn:E; [|exact IH]. cbn [app]. assert (LO : length o = 0). { rewrite <- (rents_len o). rewrite <- rev_length, E. reflexivity. } destruct o; [|discriminate]. cbn [length app]. rewrite Nat.sub_0_r. auto.
Qed.
Lemma stK0 tss : forall Br Bx, dl Br Bx tss -> stK tss 0 = map (fun '(lt, rc, xc) => (lt, (lt, rc, xc))) (map fst tss).
Proof. induction tss as [|[[[t rc] xc] [sr sx]] tss IH]; intros Br Bx H; auto. cbn [dl] in H. destruct H as (T & _ & _ & H). cbn [stK map fst]. rewrite Nat.mod_0_l, Nat.div_0_l, Nat.sub_0_r by lia. f_equal. eapply IH; eauto. Qed.
Lemma generic_moved : exists r, td_generic take anyFill cs N l x fill = Ok r /\ moved d (xsh_ l) x (rsh_ l) fill r.
Proof.
  unfold td_generic. assert (LX : 0 < length x). { rewrite AX. apply shProd_pos. apply Forall_map. exact XP. } replace (length x =? 0) with false by (symmetry; apply Nat.eqb_neq; lia). cbn zeta.
  destruct (ci_skips take cs outer rest 0 ltac:(lia)) as (E1 & E2 & E3). rewrite E1, E2, E3. destruct (ci_at take cs a inner HI) as (F1 & F2 & F3 & _). rewrite F1, F2, F3. fold CW. destruct (ci_i take cs 0 l) as [G1 G2]. rewrite G1, G2. pose proof (ci_ax take cs outer rest 0 ltac:(lia)) as CA. rewrite CS in CA. rewrite CA. rewrite <- map_rev. fold ts. rewrite <- (stK0 ts 0 0 gD).
  assert (R0 : forall i, i = rpos i ts 0) by (intros i; unfold rpos; rewrite offr0; lia). assert (X0 : forall i, i = xpos i ts 0) by (intros i; unfold xpos; rewrite offr0; lia).
  destruct (tdloop_ok x N CW (rl a * shProd (rsh_ inner)) (xl a * shProd (rsh_ inner)) ri0 xi0 want anyFill fill ts gD gH1 gHC gHM gHG (S N) 0 0 (repeat None N)) as (r & pri & E & IV & HP).
  - rewrite PP_eq. apply shProd_pos. apply Forall_map. apply mpos_o.
  - rewrite PP_eq. assert (shProd (msh_ outer) <= N); [|lia]. unfold rsh_. rewrite map_app, shProd_app. assert (shProd (msh_ outer) <= shProd (map rl outer)). { apply shProd_le. clear. induction outer; constructor; auto. unfold mn. lia. } assert (0 < shProd (map rl rest)). { apply shProd_pos. apply Forall_map. apply Forall_app in RP. tauto. } nia.
  - apply winv0. intros n _ [(K & L & _)|[_ L]]; lia.
  - intros _. split; [lia|]. intros K' L. lia.
  - rewrite <- R0, <- X0 in E. rewrite E. cbn [bind].
    assert (STEP : exists r2, (if anyFill && negb (pri =? N) then (if N <? pri then UB else do f <- need fill; fillm r pri f (N - pri)) else Ok r) = Ok r2 /\ winv N want r2 (fun _ => True)).
    { pose proof gHG as GG. destruct anyFill eqn:EF; cbn [andb].
      - destruct (HP eq_refl) as [HP1 HP2]. destruct (GG eq_refl) as (f & -> & GF). destruct (Nat.eqb_spec pri N) as [EP|NE]; cbn [negb].
        + exists r. split; auto. eapply winv_weak; [|exact IV]. intros n NB _. right. split; auto. lia.
        + replace (N <? pri) with false by (symmetry; apply Nat.ltb_ge; lia). cbn [need bind]. destruct (wfill N want r _ pri f (N - pri) IV) as (r2 & -> & IV2); [lia| |]. * intros k KK. apply GF; [lia|]. intros K KB [C1 C2]. specialize (HP2 K KB). lia. * exists r2. split; auto. eapply winv_weak; [|exact IV2]. intros n NB _. destruct (Nat.lt_ge_cases n pri); [left; right; auto|right; lia].
      - exists r. split; auto. eapply winv_weak; [|exact IV]. intros n NB _. left. apply cov_all; auto. destruct (unravel_ok _ _ NB) as [BI _].
        assert (LE : Forall (fun a => rl a <= xl a) l). { apply Forall_forall. intros e IE. destruct (Nat.le_gt_cases (rl e) (xl e)); auto. exfalso. assert (existsb (fun a => xl a <? rl a) l = true); [|congruence]. apply existsb_exists. exists e. split; auto. apply Nat.ltb_lt. lia. }
        set (Iu := unravel (rsh_ l) n) in *. assert (Iu = zadd Iu (map (ro take) l) /\ inb (msh_ l) Iu) as [EZ B].
        { clearbody Iu. clear - BI LE. revert Iu BI LE. unfold rsh_, msh_. induction (outer ++ rest) as [|e q IH]; intros Iu B LE; inversion B as [|? i ? I' Bi BI']; subst; [split; [auto|constructor]|]. destruct (IH _ BI' (Forall_inv_tail LE)) as [E1 E2]. pose proof (Forall_inv LE) as L. cbn beta in L. cbn [map zadd]. split; [f_equal; auto; unfold ro; destruct (uo take e); lia|constructor; auto; unfold mn; lia]. }
        rewrite EZ, source_in by auto. discriminate. }
    destruct STEP as (r2 & -> & IV2). cbn [bind]. destruct (wdone N want r2 IV2) as (q & EQ & LQ & GQ). exists q. split; auto. split; [exact LQ|]. intros J BJ. unfold elt at 1. rewrite GQ by (apply ravel_lt; auto). unfold want. rewrite unravel_ravel by auto. reflexivity.
Qed.
End G.
