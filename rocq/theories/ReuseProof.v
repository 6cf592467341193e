From Verif Require Import Base ListLib ReuseModel ReuseSpec.
From Coq Require Import List Lia Permutation.
Open Scope Z_scope.

(** * element types *)
Lemma fits_le a b v : (elc a <= elc b <= 4 \/ 5 <= elc a <= elc b /\ elc b <= 7 \/ b = EB) -> fits a v = true -> fits b v = true.
Proof. intros H. destruct H as [H|[H|H]]; [| |subst; destruct v; reflexivity]; destruct a, b; cbn [elc] in H; try lia; destruct v; cbn [fits]; intros; try discriminate; auto; lia. Qed.
Lemma fits_or_l a b v : fits a v = true -> fits (el_or a b) v = true.
Proof. apply fits_le. destruct a, b; cbn; lia || auto. Qed.
Lemma fits_or_r a b v : fits b v = true -> fits (el_or a b) v = true.
Proof. apply fits_le. destruct a, b; cbn; lia || auto. Qed.
Lemma fits_self v : fits (self_el v) v = true.
Proof. destruct v as [z| | c|]; try reflexivity; unfold self_el. - destruct (fits EBit (VNum z)) eqn:A; auto. destruct (fits EI8 (VNum z)) eqn:B; auto. destruct (fits EI16 (VNum z)) eqn:C; auto. destruct (fits EI32 (VNum z)) eqn:D; auto. - destruct (fits EC8 (VChr c)) eqn:A; auto. destruct (fits EC16 (VChr c)) eqn:B; auto. Qed.
Lemma stores_fits we xe v : stores we xe = true -> fits xe v = true -> fits we v = true.
Proof. intros S. apply fits_le. destruct we, xe; cbn in *; try discriminate; lia || auto. Qed.
Lemma forallb_imp {B} (f g : B -> bool) l : (forall v, f v = true -> g v = true) -> forallb f l = true -> forallb g l = true.
Proof. intros H F. rewrite forallb_forall in *. auto. Qed.
Lemma forallb_EB l : forallb (fits EB) l = true. Proof. apply forallb_forall. intros v _. destruct v; reflexivity. Qed.
Lemma forallb_upd {B} (f : B -> bool) l i v : f v = true -> forallb f l = true -> forallb f (upd l i v) = true.
Proof. intros V. revert i. induction l as [|a l IH]; intros [|i] F; cbn [upd forallb] in *; auto; apply andb_true_iff in F; destruct F as [F1 F2]; apply andb_true_iff; auto. Qed.
Lemma forallb_firstn {B} (f : B -> bool) n l : forallb f l = true -> forallb f (firstn n l) = true.
Proof. intros F. rewrite <- (firstn_skipn n l), forallb_app in F. apply andb_true_iff in F. tauto. Qed.
Lemma forallb_skipn {B} (f : B -> bool) n l : forallb f l = true -> forallb f (skipn n l) = true.
Proof. intros F. rewrite <- (firstn_skipn n l), forallb_app in F. apply andb_true_iff in F. tauto. Qed.
Lemma upd_split {B} (l : list B) i v : (i < length l)%nat -> upd l i v = firstn i l ++ v :: skipn (S i) l.
Proof. revert i. induction l as [|a l IH]; intros [|i] H; cbn [length upd firstn skipn app] in *; try lia; auto. rewrite IH by lia. reflexivity. Qed.
Lemma upd_length {B} (l : list B) i v : length (upd l i v) = length l.
Proof. revert i. induction l as [|a l IH]; intros [|i]; cbn; auto. Qed.
Lemma bytes_nn e n : 0 <= bytes e n. Proof. unfold bytes. cbv zeta. destruct e; lia. Qed.
Lemma bytes_mono e n m : (n <= m)%nat -> bytes e n <= bytes e m. Proof. unfold bytes. cbv zeta. destruct e; lia. Qed.
Lemma SZ_mono f e n m : (n <= m)%nat -> SZ f e n <= SZ f e m. Proof. intros H. unfold SZ. pose proof (bytes_mono e n m H). lia. Qed.
Lemma SZ_round f e n : SZ f e n <= mm_round (SZ f e n).
Proof. unfold mm_round. pose proof (bytes_nn e n). assert (1 < SZ f e n) by (unfold SZ; destruct f; lia). pose proof (Z.log2_up_spec _ H0). lia. Qed.

(** * heap access *)
Lemma get_lt h a o : get h a = Ok o -> (a < length h)%nat.
Proof. unfold get. destruct (nth_error h a) as [[]|] eqn:E; try discriminate. intros _. apply nth_error_Some. congruence. Qed.
Lemma nth_error_upd {B} (l : list B) i j v : (i < length l)%nat -> nth_error (upd l i v) j = if (j =? i)%nat then Some v else nth_error l j.
Proof. revert i j. induction l as [|a l IH]; intros [|i] [|j] H; cbn in *; try lia; auto. apply IH. lia. Qed.
Lemma get_upd h a c b : (a < length h)%nat -> get (upd h a c) b = if (b =? a)%nat then match c with Some o => Ok o | None => UB end else get h b.
Proof. intros H. unfold get. rewrite nth_error_upd by auto. destruct (b =? a)%nat; [destruct c|]; reflexivity. Qed.
Lemma get_new h o : get (h ++ [Some o]) (length h) = Ok o. Proof. unfold get. rewrite nth_error_app2, Nat.sub_diag by lia. reflexivity. Qed.
Lemma get_app h o b : (b < length h)%nat -> get (h ++ [o]) b = get h b. Proof. intros H. unfold get. rewrite nth_error_app1 by auto. reflexivity. Qed.
Lemma get_app_inv h o b q : get (h ++ [Some o]) b = Ok q -> (b < length h)%nat /\ get h b = Ok q \/ b = length h /\ q = o.
Proof. intros E. destruct (Nat.lt_ge_cases b (length h)); [left; rewrite get_app in E; auto|]. right. pose proof (get_lt _ _ _ E) as L. rewrite app_length in L. cbn in L. assert (b = length h) by lia. subst. rewrite get_new in E. split; congruence. Qed.

Definition is_par (a : nat) (c : option obj) : bool := match c with Some o => match o_body o with Slc _ p _ _ => (p =? a)%nat | _ => false end | None => false end.
Definition pc (h : heap) (a : nat) : Z := Z.of_nat (length (filter (is_par a) h)).
Definition b2z (b : bool) : Z := if b then 1 else 0.
Lemma pc_nn h a : 0 <= pc h a. Proof. unfold pc. lia. Qed.
Lemma pc_app h c a : pc (h ++ [c]) a = pc h a + b2z (is_par a c).
Proof. unfold pc. rewrite filter_app, app_length. cbn [filter]. destruct (is_par a c); cbn; lia. Qed.
Lemma pc_upd h i o c a : nth_error h i = Some o -> pc (upd h i c) a = pc h a - b2z (is_par a o) + b2z (is_par a c).
Proof. unfold pc. revert i. induction h as [|q h IH]; intros [|i] E; cbn in E; try discriminate. - injection E as ->. cbn [upd filter]. destruct (is_par a o), (is_par a c); cbn [length b2z]; lia. - specialize (IH i E). cbn [upd filter]. destruct (is_par a q); cbn [length]; lia. Qed.
Lemma get_nth h a o : get h a = Ok o -> nth_error h a = Some (Some o). Proof. unfold get. destruct (nth_error h a) as [[]|]; congruence. Qed.
Lemma pc_in h a s o : get h s = Ok o -> is_par a (Some o) = true -> 1 <= pc h a.
Proof. intros G P. apply get_nth in G. unfold pc. assert (In (Some o) (filter (is_par a) h)) by (apply filter_In; split; auto; eapply nth_error_In; eauto). destruct (filter (is_par a) h); [contradiction|cbn [length]; lia]. Qed.

Section P.
Variables (vle : val -> val -> bool) (chk : bool).
Definition ok_plain (f : bool) (e : el) (m : list val) (size : Z) (asc : bool) : Prop := forallb (fits e) m = true /\ SZ f e (length m) <= size /\ (f = true -> e = EB) /\ (chk = true -> asc = true -> ascending vle m = true).
Definition okobj (h : heap) (o : obj) : Prop :=
  match o_body o with
  | Plain f e m size => ok_plain f e m size (o_asc o)
  | Slc f p off len => exists q fq eq m size, get h p = Ok q /\ o_body q = Plain fq eq m size /\ (off + len <= length m)%nat /\ (f = true -> eq = EB) /\ (chk = true -> o_asc o = true -> ascending vle (firstn len (skipn off m)) = true)
  end.
Definition cnt (R : list nat) (a : nat) : Z := Z.of_nat (count_occ Nat.eq_dec R a).
Definition wf (h : heap) (R : list nat) : Prop := (forall a o, get h a = Ok o -> okobj h o /\ o_rc o = cnt R a + pc h a /\ 0 < o_rc o) /\ forall a, In a R -> exists o, get h a = Ok o.
Definition pres (h h' : heap) (R : list nat) : Prop := forall b, In b R -> elems h' b = elems h b.
Lemma pres_trans h1 h2 h3 R : pres h1 h2 R -> pres h2 h3 R -> pres h1 h3 R. Proof. intros P Q b B. rewrite Q, P; auto. Qed.
Lemma pres_incl h h' R R' : incl R' R -> pres h h' R -> pres h h' R'. Proof. intros I P b B. apply P, I, B. Qed.
Lemma cnt_nn R a : 0 <= cnt R a. Proof. unfold cnt. lia. Qed.
Lemma cnt_cons R a b : cnt (a :: R) b = b2z (a =? b)%nat + cnt R b.
Proof. unfold cnt. cbn [count_occ]. destruct (Nat.eq_dec a b); [subst; rewrite Nat.eqb_refl|replace (a =? b)%nat with false by (symmetry; apply Nat.eqb_neq; auto)]; cbn [b2z]; lia. Qed.
Lemma cnt_in R a : In a R -> 1 <= cnt R a. Proof. intros H. apply (count_occ_In Nat.eq_dec) in H. unfold cnt. lia. Qed.
Lemma in_cnt R a : 1 <= cnt R a -> In a R. Proof. unfold cnt. intros H. apply (count_occ_In Nat.eq_dec). lia. Qed.
Lemma wf_perm h R R' : Permutation R R' -> wf h R -> wf h R'.
Proof. intros P [W1 W2]. split. - intros a o G. destruct (W1 a o G) as (A & B & C). split; auto. split; auto. rewrite B. f_equal. unfold cnt. f_equal. apply (Permutation_count_occ Nat.eq_dec); auto. - intros a I. apply W2. eapply Permutation_in; [symmetry; exact P|auto]. Qed.
(** elements are there *)
Lemma live_elems h R a o : wf h R -> get h a = Ok o -> exists e l, elems h a = Ok (e, l) /\ forallb (fits e) l = true /\ (chk = true -> o_asc o = true -> ascending vle l = true) /\ (is_fill o = true -> e = EB).
Proof.
  intros [W _] G. unfold elems. rewrite G. cbn [bind]. destruct (W a o G) as (O & _). unfold okobj in O. unfold is_fill. destruct (o_body o) as [f e m size|f p off len].
  - destruct O as (F & _ & FE & A). eauto 10.
  - destruct O as (q & fq & eq & m & size & GQ & BQ & LE & FE & A). rewrite GQ. cbn [bind]. rewrite BQ. unfold slice_of. replace (off + len <=? length m)%nat with true by (symmetry; apply Nat.leb_le; auto). cbn [bind]. do 2 eexists. split; [reflexivity|]. split; auto. destruct (W p q GQ) as (OQ & _). unfold okobj in OQ. rewrite BQ in OQ. apply forallb_firstn, forallb_skipn, OQ.
Qed.
(** what elements depend on *)
Definition view (h : heap) (a : nat) : option body := match get h a with Ok o => Some (o_body o) | _ => None end.
Lemma elems_view h h' a : (forall b, view h' b = view h b) -> elems h' a = elems h a.
Proof.
  intros V. unfold elems. pose proof (V a) as VA. unfold view in VA. destruct (get h a) as [o| |] eqn:G, (get h' a) as [o'| |] eqn:G'; cbn [bind]; try discriminate; auto; try (unfold get in *; destruct (nth_error h a) as [[]|]; destruct (nth_error h' a) as [[]|]; congruence).
  injection VA as ->. destruct (o_body o) as [|f p off len]; auto. pose proof (V p) as VP. unfold view in VP. destruct (get h p) as [q| |] eqn:GQ, (get h' p) as [q'| |] eqn:GQ'; cbn [bind]; try discriminate; auto; try (unfold get in *; destruct (nth_error h p) as [[]|]; destruct (nth_error h' p) as [[]|]; congruence). injection VP as ->. reflexivity.
Qed.
Lemma okobj_ext h h' o : (forall f p off len, o_body o = Slc f p off len -> forall q, get h p = Ok q -> exists q', get h' p = Ok q' /\ o_body q' = o_body q) -> okobj h o -> okobj h' o.
Proof. intros H O. unfold okobj in *. destruct (o_body o) as [|f p off len] eqn:B; auto. destruct O as (q & fq & eq & m & size & GQ & BQ & R). destruct (H f p off len eq_refl q GQ) as (q' & G' & B'). exists q', fq, eq, m, size. rewrite B'. auto. Qed.
Lemma is_par_rc a o r : is_par a (Some (set_rc o r)) = is_par a (Some o). Proof. reflexivity. Qed.
(** changing a count *)
Lemma rc_view h a o r : get h a = Ok o -> forall b, view (upd h a (Some (set_rc o r))) b = view h b.
Proof. intros G b. unfold view. rewrite get_upd by (eapply get_lt; eauto). destruct (Nat.eqb_spec b a); [subst; rewrite G|]; reflexivity. Qed.
Lemma rc_wf h a o r R R' : wf h R -> get h a = Ok o -> 0 < r -> (forall b, In b R' -> In b R \/ b = a) -> (forall b, cnt R' b = cnt R b + if (b =? a)%nat then r - o_rc o else 0) -> wf (upd h a (Some (set_rc o r))) R'.
Proof.
  intros [W1 W2] G RP I C. pose proof (get_lt _ _ _ G) as L. split.
  - intros b q GB. rewrite get_upd in GB by auto. assert (OK : forall x, okobj h x -> okobj (upd h a (Some (set_rc o r))) x). { intros x. apply okobj_ext. intros f p off len _ y GY. rewrite get_upd by auto. destruct (Nat.eqb_spec p a); [subst; rewrite G in GY; exists (set_rc o r); split; [reflexivity|cbn; congruence]|eauto]. }
    rewrite (pc_upd _ _ _ _ _ (get_nth _ _ _ G)), is_par_rc, C. destruct (Nat.eqb_spec b a) as [->|NE].
    + injection GB as <-. destruct (W1 a o G) as (O & RC & _). split; [apply OK; exact O|]. cbn [set_rc o_rc]. lia.
    + destruct (W1 b q GB) as (O & RC & P). split; auto. lia.
  - intros b B. rewrite get_upd by auto. destruct (Nat.eqb_spec b a); [eauto|]. destruct (I b B); [auto|contradiction].
Qed.
Lemma inc_spec h R a o : wf h R -> get h a = Ok o -> exists h', inc h a = Ok h' /\ wf h' (a :: R) /\ (forall b, view h' b = view h b) /\ h' = upd h a (Some (set_rc o (o_rc o + 1))).
Proof.
  intros W G. unfold inc. rewrite G. cbn [bind]. eexists. split; [reflexivity|]. split; [|split; [apply rc_view; auto|reflexivity]]. apply (rc_wf h a o _ R); auto. - destruct (proj1 W a o G) as (_ & _ & P). lia. - intros b [<-|B]; auto. - intros b. rewrite cnt_cons, Nat.eqb_sym. destruct (b =? a)%nat; cbn [b2z]; lia.
Qed.
(** freeing an array that is not anyone's parent *)
Lemma free_plain h a o R : wf h (a :: R) -> get h a = Ok o -> o_rc o = 1 -> (match o_body o with Plain _ _ _ _ => True | _ => False end) -> wf (upd h a None) R /\ pres h (upd h a None) R.
Proof.
  intros [W1 W2] G R1 BP. pose proof (get_lt _ _ _ G) as L. destruct (W1 a o G) as (_ & RC & _). rewrite cnt_cons, Nat.eqb_refl in RC. pose proof (cnt_nn R a). pose proof (pc_nn h a). assert (PC : pc h a = 0) by (cbn [b2z] in RC; lia). assert (CR : cnt R a = 0) by (cbn [b2z] in RC; lia).
  assert (PAR : forall s x f p off len, get h s = Ok x -> o_body x = Slc f p off len -> p <> a). { intros s x f p off len GS B ->. pose proof (pc_in h a s x GS) as Q. unfold is_par in Q. rewrite B, Nat.eqb_refl in Q. specialize (Q eq_refl). lia. }
  assert (NIN : forall b, In b R -> b <> a) by (intros b B ->; apply cnt_in in B; lia). split; [split|].
  - intros b q GB. rewrite get_upd in GB by auto. destruct (Nat.eqb_spec b a) as [->|NE]; [discriminate|]. destruct (W1 b q GB) as (O & RC' & P). split. { revert O. apply okobj_ext. intros f p off len BQ y GY. rewrite get_upd by auto. replace (p =? a)%nat with false by (symmetry; apply Nat.eqb_neq; apply (PAR b q f p off len GB BQ)). eauto. } rewrite (pc_upd _ _ _ _ _ (get_nth _ _ _ G)). replace (is_par b (Some o)) with false by (unfold is_par; destruct (o_body o); [reflexivity|contradiction]). cbn [is_par b2z]. rewrite cnt_cons in RC'. replace (a =? b)%nat with false in RC' by (symmetry; apply Nat.eqb_neq; auto). cbn [b2z] in RC'. lia.
  - intros b B. rewrite get_upd by auto. replace (b =? a)%nat with false by (symmetry; apply Nat.eqb_neq; auto). apply W2. right. auto.
  - intros b B. unfold elems. rewrite get_upd by auto. replace (b =? a)%nat with false by (symmetry; apply Nat.eqb_neq; auto). destruct (W2 b (or_intror B)) as (q & GB). rewrite GB. cbn [bind]. destruct (o_body q) as [|f p off len] eqn:BQ; auto. rewrite get_upd by auto. replace (p =? a)%nat with false by (symmetry; apply Nat.eqb_neq; eapply PAR; eauto). reflexivity.
Qed.
(** freeing a slice: its reference to the parent becomes free *)
Lemma free_slice h a o R f p off len : wf h (a :: R) -> get h a = Ok o -> o_rc o = 1 -> o_body o = Slc f p off len -> wf (upd h a None) (p :: R) /\ pres h (upd h a None) (p :: R) /\ p <> a.
Proof.
  intros [W1 W2] G R1 BS. pose proof (get_lt _ _ _ G) as L. destruct (W1 a o G) as (O & RC & _). rewrite cnt_cons, Nat.eqb_refl in RC. pose proof (cnt_nn R a). pose proof (pc_nn h a). assert (PC : pc h a = 0) by (cbn [b2z] in RC; lia). assert (CR : cnt R a = 0) by (cbn [b2z] in RC; lia). unfold okobj in O. rewrite BS in O. destruct O as (q & fq & eq & m & size & GQ & BQ & _). assert (NP : p <> a) by (intros ->; rewrite G in GQ; injection GQ as ->; congruence).
  assert (PAR : forall s x f p off len, get h s = Ok x -> o_body x = Slc f p off len -> p <> a). { intros s x f' p' off' len' GS B ->. pose proof (pc_in h a s x GS) as Q. unfold is_par in Q. rewrite B, Nat.eqb_refl in Q. specialize (Q eq_refl). lia. }
  assert (NIN : forall b, In b (p :: R) -> b <> a) by (intros b [<-|B]; [auto|intros ->; apply cnt_in in B; lia]). split; [split|split; auto].
  - intros b x GB. rewrite get_upd in GB by auto. destruct (Nat.eqb_spec b a) as [->|NE]; [discriminate|]. destruct (W1 b x GB) as (O & RC' & P). split. { revert O. apply okobj_ext. intros f' p' off' len' BQ' y GY. rewrite get_upd by auto. replace (p' =? a)%nat with false by (symmetry; apply Nat.eqb_neq; apply (PAR b x f' p' off' len' GB BQ')). eauto. } rewrite (pc_upd _ _ _ _ _ (get_nth _ _ _ G)). replace (is_par b (Some o)) with (p =? b)%nat by (unfold is_par; rewrite BS; reflexivity). cbn [is_par]. rewrite cnt_cons in *. replace (a =? b)%nat with false in RC' by (symmetry; apply Nat.eqb_neq; auto). unfold b2z in *. destruct (p =? b)%nat; lia.
  - intros b B. rewrite get_upd by auto. replace (b =? a)%nat with false by (symmetry; apply Nat.eqb_neq; auto). destruct B as [<-|B]; [eauto|]. apply W2. right. auto.
  - intros b B. unfold elems. rewrite get_upd by auto. replace (b =? a)%nat with false by (symmetry; apply Nat.eqb_neq; auto). assert (exists q, get h b = Ok q) as (x & GB) by (destruct B as [<-|B]; [eauto|apply W2; right; auto]). rewrite GB. cbn [bind]. destruct (o_body x) as [|f' p' off' len'] eqn:BX; auto. rewrite get_upd by auto. replace (p' =? a)%nat with false by (symmetry; apply Nat.eqb_neq; eapply PAR; eauto). reflexivity.
Qed.
Lemma dec1_plain h a o R : wf h (a :: R) -> get h a = Ok o -> (match o_body o with Plain _ _ _ _ => True | _ => False end \/ o_rc o <> 1) -> exists h', dec1 h a = Ok h' /\ wf h' R /\ pres h h' R.
Proof.
  intros W G BP. unfold dec1. rewrite G. cbn [bind]. destruct (Z.eqb_spec (o_rc o) 1) as [R1|R1].
  - destruct BP as [BP|BP]; [|contradiction]. eexists. split; [reflexivity|]. apply (free_plain h a o R); auto.
  - eexists. split; [reflexivity|]. destruct (proj1 W a o G) as (_ & RC & P). split. + apply (rc_wf h a o _ (a :: R)); auto; [lia|intros b B; left; right; auto|]. intros b. rewrite cnt_cons, Nat.eqb_sym. destruct (b =? a)%nat; cbn [b2z]; lia. + intros b B. apply elems_view, rc_view, G.
Qed.
Lemma dec_spec h a R : wf h (a :: R) -> exists h', dec h a = Ok h' /\ wf h' R /\ pres h h' R.
Proof.
  intros W. destruct (proj2 W a (or_introl eq_refl)) as (o & G). unfold dec. rewrite G. cbn [bind]. destruct (o_body o) as [f e m size|f p off len] eqn:B.
  - destruct (dec1_plain h a o R W G) as (h' & E & W' & P); [left; rewrite B; auto|]. rewrite E. cbn [bind]. eauto.
  - destruct (Z.eqb_spec (o_rc o) 1) as [R1|R1].
    + destruct (free_slice h a o R f p off len W G R1 B) as (W1 & P1 & NP). unfold dec1 at 1. rewrite G. cbn [bind]. replace (o_rc o =? 1) with true by (symmetry; apply Z.eqb_eq; auto). cbn [bind]. destruct (proj1 W a o G) as (O & _). unfold okobj in O. rewrite B in O. destruct O as (q & fq & eq & m & size & GQ & BQ & _). assert (GQ' : get (upd h a None) p = Ok q) by (rewrite get_upd by (eapply get_lt; eauto); replace (p =? a)%nat with false by (symmetry; apply Nat.eqb_neq; auto); auto). rewrite GQ'. cbn [bind]. rewrite BQ. destruct (dec1_plain _ p q R W1 GQ') as (h' & E & W' & P); [left; rewrite BQ; auto|]. exists h'. rewrite E. split; auto. split; auto. eapply pres_trans; [eapply pres_incl; [|exact P1]; apply incl_tl, incl_refl|exact P].
    + destruct (dec1_plain h a o R W G) as (h' & E & W' & P); [right; auto|]. rewrite E. cbn [bind]. eauto.
Qed.
(** a new object *)
Lemma alloc_spec h R R' o : wf h R -> okobj h o -> o_rc o = 1 -> (forall b, In b R' -> b = length h \/ In b R) -> (forall b, cnt R' b + b2z (is_par b (Some o)) = cnt R b + b2z (b =? length h)%nat) -> wf (h ++ [Some o]) R' /\ (forall R0, incl R0 R -> pres h (h ++ [Some o]) R0) /\ get (h ++ [Some o]) (length h) = Ok o.
Proof.
  intros W O R1 I C. pose proof W as [W1 W2]. assert (OK : forall x, okobj h x -> okobj (h ++ [Some o]) x). { intros x. apply okobj_ext. intros f p off len _ q GQ. exists q. rewrite get_app by (eapply get_lt; eauto). auto. } split; [split|split; [|apply get_new]].
  - intros b q GB. rewrite pc_app. destruct (get_app_inv _ _ _ _ GB) as [[L GB']|[-> ->]].
    + destruct (W1 b q GB') as (OB & RC & P). split; auto. specialize (C b). replace (b =? length h)%nat with false in C by (symmetry; apply Nat.eqb_neq; lia). cbn [b2z] in C. lia.
    + split; auto. specialize (C (length h)). rewrite Nat.eqb_refl in C. cbn [b2z] in C. assert (CN : cnt R (length h) = 0). { destruct (Z.eq_dec (cnt R (length h)) 0); auto. pose proof (cnt_nn R (length h)). destruct (W2 (length h)) as (x & GX); [apply in_cnt; lia|]. apply get_lt in GX. lia. } assert (PN : pc h (length h) = 0). { unfold pc. assert (E : filter (is_par (length h)) h = []); [|rewrite E; reflexivity]. destruct (filter (is_par (length h)) h) as [|c l] eqn:E; auto. exfalso. assert (IN : In c (filter (is_par (length h)) h)) by (rewrite E; left; auto). apply filter_In in IN. destruct IN as [IN IP]. destruct c as [x|]; [|discriminate]. apply In_nth_error in IN. destruct IN as (s & NS). assert (GS : get h s = Ok x) by (unfold get; rewrite NS; reflexivity). destruct (W1 s x GS) as (OX & _). unfold okobj in OX. unfold is_par in IP. destruct (o_body x) as [|f p off len]; [discriminate|]. apply Nat.eqb_eq in IP. subst p. destruct OX as (q & fq & eq & m & size & GQ & _). apply get_lt in GQ. lia. } lia.
  - intros b B. destruct (I b B) as [->|B']; [rewrite get_new; eauto|]. destruct (W2 b B') as (q & GQ). exists q. rewrite get_app by (eapply get_lt; eauto). auto.
  - intros R0 IN b B. destruct (W2 b (IN b B)) as (q & GQ). unfold elems. rewrite get_app by (eapply get_lt; eauto). rewrite GQ. cbn [bind]. destruct (o_body q) as [|f p off len] eqn:BQ; auto. destruct (W1 b q GQ) as (OB & _). unfold okobj in OB. rewrite BQ in OB. destruct OB as (y & fq & eq & m & size & GY & _). rewrite get_app by (eapply get_lt; eauto). reflexivity.
Qed.
Lemma new_arr_spec h R f e l : wf h R -> forallb (fits e) l = true -> (f = true -> e = EB) -> exists h' r, new_arr h f e l = Ok (h', r) /\ wf h' (r :: R) /\ elems h' r = Ok (e, l) /\ pres h h' R /\ (exists o, get h' r = Ok o).
Proof.
  intros W F FE. unfold new_arr, alloc. rewrite F. set (o := {| o_rc := 1; o_body := Plain f e l (mm_round (SZ f e (length l))); o_asc := false |}). exists (h ++ [Some o]), (length h). split; [reflexivity|]. destruct (alloc_spec h R (length h :: R) o W) as (W' & P & G); auto.
  - unfold okobj. cbn. split; auto. split; [apply SZ_round|]. split; auto. discriminate.
  - intros b [<-|B]; auto.
  - intros b. rewrite cnt_cons, Nat.eqb_sym. cbn [is_par o_body o b2z]. lia.
  - split; auto. split; [|split; [apply P, incl_refl|eauto]]. unfold elems. rewrite G. reflexivity.
Qed.
(** changing an array in place *)
Lemma upd_plain h R a o o' f e m size : wf h (a :: R) -> get h a = Ok o -> o_rc o = 1 -> (match o_body o with Plain _ _ _ _ => True | _ => False end) -> o_rc o' = 1 -> o_body o' = Plain f e m size -> ok_plain f e m size (o_asc o') ->
  wf (upd h a (Some o')) (a :: R) /\ elems (upd h a (Some o')) a = Ok (e, m) /\ pres h (upd h a (Some o')) R /\ get (upd h a (Some o')) a = Ok o'.
Proof.
  intros W G R1 BP R1' B' OK. pose proof W as [W1 W2]. pose proof (get_lt _ _ _ G) as L. destruct (W1 a o G) as (_ & RC & _). pose proof RC as RC0. rewrite cnt_cons, Nat.eqb_refl in RC0. pose proof (cnt_nn R a). pose proof (pc_nn h a). assert (PC : pc h a = 0) by (cbn [b2z] in RC0; lia). assert (CR : cnt R a = 0) by (cbn [b2z] in RC0; lia).
  assert (PAR : forall s x f p off len, get h s = Ok x -> o_body x = Slc f p off len -> p <> a). { intros s x f' p off len GS B ->. pose proof (pc_in h a s x GS) as Q. unfold is_par in Q. rewrite B, Nat.eqb_refl in Q. specialize (Q eq_refl). lia. }
  assert (NIN : forall b, In b R -> b <> a) by (intros b B ->; apply cnt_in in B; lia). assert (GA : get (upd h a (Some o')) a = Ok o') by (rewrite get_upd, Nat.eqb_refl by auto; reflexivity).
  assert (PE : forall b, pc (upd h a (Some o')) b = pc h b). { intros b. rewrite (pc_upd _ _ _ _ _ (get_nth _ _ _ G)). unfold is_par. rewrite B'. destruct (o_body o); [cbn [b2z]; lia|contradiction]. } split; [split|split; [|split; auto]].
  - intros b q GB. rewrite PE. rewrite get_upd in GB by auto. destruct (Nat.eqb_spec b a) as [->|NE].
    + injection GB as <-. split; [unfold okobj; rewrite B'; exact OK|]. lia.
    + destruct (W1 b q GB) as (O & RC' & P). split; auto. revert O. apply okobj_ext. intros f' p off len BQ y GY. rewrite get_upd by auto. replace (p =? a)%nat with false by (symmetry; apply Nat.eqb_neq; apply (PAR b q f' p off len GB BQ)). eauto.
  - intros b B. rewrite get_upd by auto. destruct (b =? a)%nat; [eauto|auto].
  - unfold elems. rewrite GA. cbn [bind]. rewrite B'. reflexivity.
  - intros b B. unfold elems. rewrite get_upd by auto. replace (b =? a)%nat with false by (symmetry; apply Nat.eqb_neq; auto). destruct (W2 b (or_intror B)) as (q & GB). rewrite GB. cbn [bind]. destruct (o_body q) as [|f' p off len] eqn:BQ; auto. rewrite get_upd by auto. replace (p =? a)%nat with false by (symmetry; apply Nat.eqb_neq; eapply PAR; eauto). reflexivity.
Qed.
Lemma set_asc_spec h R a o e l : wf h R -> get h a = Ok o -> elems h a = Ok (e, l) -> (chk = true -> ascending vle l = true) -> exists h', set_asc h a = Ok h' /\ wf h' R /\ forall b, elems h' b = elems h b.
Proof.
  intros W G E A. pose proof W as [W1 W2]. pose proof (get_lt _ _ _ G) as L. unfold set_asc. rewrite G. cbn [bind]. set (o' := {| o_rc := o_rc o; o_body := o_body o; o_asc := true |}). assert (V : forall b, view (upd h a (Some o')) b = view h b). { intros b. unfold view. rewrite get_upd by auto. destruct (Nat.eqb_spec b a); [subst; rewrite G|]; reflexivity. } eexists. split; [reflexivity|]. split; [split|intros b; apply elems_view, V].
  - intros b q GB. rewrite get_upd in GB by auto. assert (OK : forall x, okobj h x -> okobj (upd h a (Some o')) x). { intros x. apply okobj_ext. intros f p off len _ y GY. rewrite get_upd by auto. destruct (Nat.eqb_spec p a); [subst; rewrite G in GY; exists o'; split; [reflexivity|cbn; congruence]|eauto]. } rewrite (pc_upd _ _ _ _ _ (get_nth _ _ _ G)). change (is_par b (Some o')) with (is_par b (Some o)). destruct (Nat.eqb_spec b a) as [->|NE].
    + injection GB as <-. destruct (W1 a o G) as (O & RC & P). split; [|cbn [o_rc o']; lia]. apply OK. unfold elems in E. rewrite G in E. cbn [bind] in E. unfold okobj in *. cbn [o_body o_asc o']. destruct (o_body o) as [f e' m size|f p off len].
      * injection E as -> ->. destruct O as (F & S & FE & _). repeat split; auto.
      * destruct O as (q & fq & eq & m & size & GQ & BQ & LE & FE & _). rewrite GQ in E. cbn [bind] in E. rewrite BQ in E. unfold slice_of in E. destruct (off + len <=? length m)%nat; [|discriminate]. cbn [bind] in E. injection E as -> <-. exists q, fq, e, m, size. repeat split; auto.
    + destruct (W1 b q GB) as (O & RC & P). split; auto. lia.
  - intros b B. rewrite get_upd by auto. destruct (b =? a)%nat; [eauto|auto].
Qed.
End P.
