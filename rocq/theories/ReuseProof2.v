From Verif Require Import Base ListLib ReuseModel ReuseSpec ReuseProof.
From Coq Require Import List Lia Permutation.
Open Scope Z_scope.
Section P.
Variables (vle : val -> val -> bool) (chk : bool).
Hypothesis total : chk = true -> forall a b, vle a b = true \/ vle b a = true.
Notation wf := (wf vle chk).
Definition trans (h : heap) (R0 : list nat) (l' : list val) (r : res (heap * nat)) : Prop := exists h' b e', r = Ok (h', b) /\ wf h' (b :: R0) /\ elems h' b = Ok (e', l') /\ pres h h' R0.
Lemma pres_hd h h' a R : pres h h' (a :: R) -> elems h' a = elems h a /\ pres h h' R.
Proof. intros P. split; [apply P; left; auto|]. eapply pres_incl; [|exact P]. apply incl_tl, incl_refl. Qed.
(** ** sorting *)
Lemma asc_tl a l : ascending vle (a :: l) = true -> ascending vle l = true.
Proof. destruct l; cbn [ascending]; auto. intros H. apply andb_true_iff in H. tauto. Qed.
Lemma asc_firstn n l : ascending vle l = true -> ascending vle (firstn n l) = true.
Proof. revert n. induction l as [|a l IH]; intros [|n] A; auto. cbn [firstn]. pose proof (IH n (asc_tl _ _ A)) as B. destruct l as [|b l]; [destruct n; reflexivity|]. destruct n as [|n]; [reflexivity|]. cbn [firstn ascending] in *. apply andb_true_iff in A. apply andb_true_iff. tauto. Qed.
Lemma isort_id l : ascending vle l = true -> isort vle l = l.
Proof. induction l as [|a l IH]; intros A; auto. cbn [isort fold_right]. change (insert vle a (isort vle l) = a :: l). rewrite IH by (eapply asc_tl; eauto). destruct l as [|b l]; auto. cbn [ascending] in A. apply andb_true_iff in A. destruct A as [A _]. cbn [insert]. rewrite A. reflexivity. Qed.
Lemma insert_asc v l : (forall a b, vle a b = true \/ vle b a = true) -> ascending vle l = true -> ascending vle (insert vle v l) = true.
Proof.
  intros T. induction l as [|a l IH]; intros A; auto. cbn [insert]. destruct (vle v a) eqn:E; [cbn [ascending]; rewrite E; exact A|]. specialize (IH (asc_tl _ _ A)). destruct l as [|b l].
  - cbn. destruct (T a v) as [H|H]; rewrite H in *; [reflexivity|discriminate].
  - cbn [insert] in *. cbn [ascending] in A. apply andb_true_iff in A. destruct A as [AB A]. destruct (vle v b) eqn:E2.
    + cbn [ascending] in *. rewrite IH. destruct (T a v) as [H|H]; [rewrite H; reflexivity|congruence].
    + cbn [ascending] in *. rewrite AB. exact IH.
Qed.
Lemma isort_asc l : (forall a b, vle a b = true \/ vle b a = true) -> ascending vle (isort vle l) = true.
Proof. intros T. induction l as [|a l IH]; auto. apply insert_asc; auto. Qed.
Lemma insert_all f v l : f v = true -> forallb f l = true -> forallb f (insert vle v l) = true.
Proof. intros V. induction l as [|a l IH]; intros F; cbn [insert forallb] in *; [rewrite V; auto|]. apply andb_true_iff in F. destruct F as [F1 F2]. destruct (vle v a); cbn [forallb]; rewrite ?V, ?F1, ?F2, ?IH by auto; reflexivity. Qed.
Lemma isort_all f l : forallb f l = true -> forallb f (isort vle l) = true.
Proof. induction l as [|a l IH]; intros F; auto. cbn [forallb] in F. apply andb_true_iff in F. destruct F. apply insert_all; auto. Qed.
(** ** a fresh copy *)
Lemma copy_spec h a R0 f e l' : wf h (a :: R0) -> forallb (fits e) l' = true -> (f = true -> e = EB) -> trans h R0 l' (do (h, r) <- new_arr h f e l'; do h <- dec h a; Ok (h, r)).
Proof.
  intros W F FE. destruct (new_arr_spec vle chk h (a :: R0) f e l' W F FE) as (h1 & r & E1 & W1 & EL & P1 & _). rewrite E1. cbn [bind]. destruct (dec_spec vle chk h1 a (r :: R0)) as (h2 & E2 & W2 & P2); [eapply wf_perm; [apply perm_swap|exact W1]|]. rewrite E2. cbn [bind]. destruct (pres_hd _ _ _ _ P2) as [P2r P2']. destruct (pres_hd _ _ _ _ P1) as [_ P1']. exists h2, r, e. split; auto. split; auto. split; [congruence|]. eapply pres_trans; eauto.
Qed.
Lemma slice_ok (m : list val) off len : (off + len <= length m)%nat -> slice_of m off len = Ok (firstn len (skipn off m)).
Proof. intros H. unfold slice_of. replace (off + len <=? length m)%nat with true by (symmetry; apply Nat.leb_le; auto). reflexivity. Qed.
Lemma skipn2 {B} (m : list B) a b : skipn b (skipn a m) = skipn (a + b) m.
Proof. revert m. induction a as [|a IH]; intros m; auto. destruct m; cbn [skipn Nat.add]; [apply skipn_nil|apply IH]. Qed.
Lemma firstn_skipn_slice (m : list val) off0 len0 off len : (off + len <= len0)%nat -> firstn len (skipn off (firstn len0 (skipn off0 m))) = firstn len (skipn (off0 + off) m).
Proof. intros H. rewrite skipn_firstn_comm, firstn_firstn, skipn2. f_equal. lia. Qed.
Lemma do_slice_spec h a R0 e l off len : wf h (a :: R0) -> elems h a = Ok (e, l) -> (off + len <= length l)%nat -> trans h R0 (firstn len (skipn off l)) (do_slice h a off len).
Proof.
  intros W E LE. destruct (proj2 W a (or_introl eq_refl)) as (o & G). unfold do_slice. rewrite G. cbn [bind]. pose proof E as E0. unfold elems in E. rewrite G in E. cbn [bind] in E. destruct (proj1 W a o G) as (O & RC & _). unfold okobj in O. destruct (o_body o) as [f e' m size|f p off0 len0] eqn:B.
  - injection E as -> ->. destruct O as (F & _ & FE & _).
    assert (SL : trans h R0 (firstn len (skipn off l)) (Ok (alloc h {| o_rc := 1; o_body := Slc f a off len; o_asc := false |}))).
    { unfold alloc. set (o1 := {| o_rc := 1; o_body := Slc f a off len; o_asc := false |}). destruct (alloc_spec vle chk h (a :: R0) (length h :: R0) o1 W) as (W' & P & G'); auto.
      - unfold okobj. cbn. exists o, f, e, l, size. repeat split; auto. discriminate.
      - intros b [<-|I]; [left|right; right]; auto.
      - intros b. rewrite !cnt_cons. cbn [is_par o_body o1]. rewrite (Nat.eqb_sym b). lia.
      - exists (h ++ [Some o1]), (length h), e. split; auto. split; auto. split; [|apply P; apply incl_tl, incl_refl]. unfold elems. rewrite G'. cbn [bind o_body o1]. rewrite get_app by (eapply get_lt; eauto). rewrite G. cbn [bind]. rewrite B, slice_ok by auto. reflexivity. }
    destruct e; try exact SL. rewrite slice_ok by auto. cbn [bind]. apply copy_spec; auto; [apply forallb_firstn, forallb_skipn, F|discriminate].
  - destruct O as (q & fq & eq & m & size & GQ & BQ & LE0 & FE & _). rewrite GQ in E. cbn [bind] in E. rewrite BQ, slice_ok in E by auto. cbn [bind] in E. injection E as -> <-. rewrite firstn_length, skipn_length in LE. destruct (inc_spec vle chk h (a :: R0) p q W GQ) as (h1 & E1 & W1 & V1 & H1). rewrite E1. cbn [bind]. unfold alloc. set (o1 := {| o_rc := 1; o_body := Slc f p (off0 + off) len; o_asc := false |}).
    assert (GQ1 : get h1 p = Ok (set_rc q (o_rc q + 1))) by (subst h1; rewrite get_upd, Nat.eqb_refl by (eapply get_lt; eauto); reflexivity).
    destruct (alloc_spec vle chk h1 (p :: a :: R0) (a :: length h1 :: R0) o1 W1) as (W2 & P2 & G2); auto.
    + unfold okobj. cbn. exists (set_rc q (o_rc q + 1)), fq, e, m, size. repeat split; auto; [lia|discriminate].
    + intros b [<-|[<-|I]]; [right; right; left|left|right; right; right]; auto.
    + intros b. rewrite !cnt_cons. cbn [is_par o_body o1]. rewrite (Nat.eqb_sym b). lia.
    + destruct (dec_spec vle chk _ a (length h1 :: R0) W2) as (h3 & E3 & W3 & P3). rewrite E3. cbn [bind]. destruct (pres_hd _ _ _ _ P3) as [P3r P3']. exists h3, (length h1), e. split; auto. split; auto. split.
      * rewrite P3r. unfold elems. rewrite G2. cbn [bind o_body o1]. rewrite get_app by (eapply get_lt; eauto). rewrite GQ1. cbn [bind]. change (o_body (set_rc q (o_rc q + 1))) with (o_body q). rewrite BQ, slice_ok by lia. cbn [bind]. rewrite firstn_skipn_slice by lia. reflexivity.
      * eapply pres_trans; [|exact P3']. eapply pres_trans; [|apply P2; intros b I; right; right; exact I]. intros b _. apply elems_view, V1.
Qed.
Lemma take_spec h a R0 e l n : wf h (a :: R0) -> elems h a = Ok (e, l) -> (n <= length l)%nat -> trans h R0 (firstn n l) (take_head h a n).
Proof.
  intros W E LE. destruct (proj2 W a (or_introl eq_refl)) as (o & G). unfold take_head. rewrite G. cbn [bind]. assert (SL : trans h R0 (firstn n l) (do_slice h a 0 n)) by (apply (do_slice_spec h a R0 e l 0 n); auto). destruct (o_body o) as [f e' m size|f p off0 len0] eqn:B; auto. destruct (Z.eqb_spec (o_rc o) 1) as [R1|R1]; auto. unfold elems in E. rewrite G in E. cbn [bind] in E. rewrite B in E. injection E as -> ->. destruct (proj1 W a o G) as (O & _ & _). unfold okobj in O. rewrite B in O. destruct O as (F & S & FE & A). destruct (SZ f e n <? size / 4).
  - apply copy_spec; auto. apply forallb_firstn, F.
  - set (o1 := {| o_rc := 1; o_body := Plain f e (firstn n l) size; o_asc := o_asc o |}). destruct (upd_plain vle chk h R0 a o o1 f e (firstn n l) size W G R1) as (W' & E' & P & _); auto; [rewrite B; auto| |do 3 eexists; split; [reflexivity|]; eauto]. split; [apply forallb_firstn, F|]. split; [|split; auto; intros C D; apply asc_firstn, A; auto]. rewrite firstn_length. pose proof (SZ_mono f e (Nat.min n (length l)) (length l)). lia.
Qed.
(** ** appending *)
Lemma extend_spec h R0 a o f e m size l : wf h (a :: R0) -> get h a = Ok o -> o_rc o = 1 -> o_body o = Plain f e m size -> SZ f e (length m + length l) < size -> forallb (fits e) l = true -> exists h', extend h a l = Ok h' /\ wf h' (a :: R0) /\ elems h' a = Ok (e, m ++ l) /\ pres h h' R0.
Proof.
  intros W G R1 B S F. unfold extend. rewrite G. cbn [bind]. rewrite B, F. replace (SZ f e (length m + length l) <=? size) with true by (symmetry; apply Z.leb_le; lia). cbn [andb]. rewrite R1. set (o1 := {| o_rc := 1; o_body := Plain f e (m ++ l) size; o_asc := false |}). destruct (proj1 W a o G) as (O & _ & _). unfold okobj in O. rewrite B in O. destruct O as (F0 & S0 & FE & A). destruct (upd_plain vle chk h R0 a o o1 f e (m ++ l) size W G R1) as (W' & E' & P & _); auto; [rewrite B; auto| |eexists; split; [reflexivity|]; eauto]. split; [rewrite forallb_app, F0, F; auto|]. split; [rewrite app_length; lia|]. split; auto. discriminate.
Qed.
Lemma add_spec h a R0 e l v : wf h (a :: R0) -> elems h a = Ok (e, l) -> trans h R0 (l ++ [v]) (add h a v).
Proof.
  intros W E. destruct (proj2 W a (or_introl eq_refl)) as (o & G). destruct (live_elems vle chk h _ a o W G) as (e0 & l0 & E0 & F & _). rewrite E in E0. injection E0 as <- <-. unfold add. rewrite G. cbn [bind]. rewrite E. cbn [bind]. cbv zeta.
  assert (OT : trans h R0 (l ++ [v]) (do (h, r) <- new_arr h false (el_or e (self_el v)) (l ++ [v]); do h <- dec h a; Ok (h, r))).
  { apply copy_spec; auto; [|discriminate]. rewrite forallb_app. apply andb_true_iff. split; [eapply forallb_imp; [|exact F]; intros; apply fits_or_l; auto|]. cbn [forallb]. rewrite andb_true_r. apply fits_or_r, fits_self. }
  destruct (o_body o) as [[] e' m size|f p off0 len0] eqn:B; auto. destruct (Z.eqb_spec (o_rc o) 1) as [R1|R1]; cbn [andb]; auto. destruct (SZ false e' (length m + 1) <? size) eqn:S; cbn [andb]; auto. destruct (fits e' v) eqn:FV; auto. unfold elems in E. rewrite G in E. cbn [bind] in E. rewrite B in E. injection E as -> ->. apply Z.ltb_lt in S.
  destruct (extend_spec h R0 a o false e l size [v] W G R1 B S) as (h' & E' & W' & EL & P); [cbn; rewrite FV; auto|]. rewrite E'. cbn [bind]. do 3 eexists. split; [reflexivity|]. eauto.
Qed.
Lemma join_no_spec h w x R0 we wl xe xl : wf h (w :: x :: R0) -> elems h w = Ok (we, wl) -> elems h x = Ok (xe, xl) -> trans h R0 (wl ++ xl) (join_no h w x).
Proof.
  intros W EW EX. unfold join_no. rewrite EW. cbn [bind]. rewrite EX. cbn [bind]. destruct (proj2 W w (or_introl eq_refl)) as (o & G). destruct (live_elems vle chk h _ w o W G) as (e0 & l0 & E0 & FW & _). rewrite EW in E0. injection E0 as <- <-. destruct (proj2 W x (or_intror (or_introl eq_refl))) as (o' & G'). destruct (live_elems vle chk h _ x o' W G') as (e0 & l0 & E0 & FX & _). rewrite EX in E0. injection E0 as <- <-.
  destruct (new_arr_spec vle chk h _ false (el_or we xe) (wl ++ xl) W) as (h1 & r & E1 & W1 & EL & P1 & _); [|discriminate|].
  { rewrite forallb_app. apply andb_true_iff. split; [eapply forallb_imp; [|exact FW]; intros; apply fits_or_l|eapply forallb_imp; [|exact FX]; intros; apply fits_or_r]; auto. }
  rewrite E1. cbn [bind]. destruct (dec_spec vle chk h1 x (w :: r :: R0)) as (h2 & E2 & W2 & P2). { eapply wf_perm; [|exact W1]. transitivity (w :: r :: x :: R0); [apply perm_swap|]. transitivity (w :: x :: r :: R0); [apply perm_skip, perm_swap|apply perm_swap]. } rewrite E2. cbn [bind]. destruct (dec_spec vle chk h2 w (r :: R0) W2) as (h3 & E3 & W3 & P3). rewrite E3. cbn [bind]. destruct (pres_hd _ _ _ _ P3) as [P3r P3']. destruct (pres_hd _ _ _ _ P2) as [_ P2']. destruct (pres_hd _ _ _ _ P2') as [P2r P2'']. exists h3, r, (el_or we xe). split; auto. split; auto. split; [congruence|]. eapply pres_trans; [eapply pres_incl; [|exact P1]; intros b I; right; right; exact I|]. eapply pres_trans; eauto.
Qed.
Lemma wf_swap h a b R : wf h (a :: b :: R) -> wf h (b :: a :: R). Proof. apply wf_perm, perm_swap. Qed.
Lemma join_spec h w x R0 we wl xe xl : wf h (w :: x :: R0) -> elems h w = Ok (we, wl) -> elems h x = Ok (xe, xl) -> trans h R0 (wl ++ xl) (join h w x).
Proof.
  intros W EW EX. pose proof (join_no_spec h w x R0 we wl xe xl W EW EX) as NO. unfold join. rewrite EX. cbn [bind]. destruct (proj2 W w (or_introl eq_refl)) as (o & G). rewrite G. cbn [bind]. destruct (Z.eqb_spec (o_rc o) 1) as [R1|R1]; cbn [negb]; auto. destruct (proj2 W x (or_intror (or_introl eq_refl))) as (o' & G'). destruct (live_elems vle chk h _ x o' W G') as (e0 & l0 & E0 & FX & _). rewrite EX in E0. injection E0 as <- <-. destruct (o_body o) as [f e m size|f p off len] eqn:B.
  - destruct ((SZ f e (length m + length xl) <? size) && stores e xe) eqn:C; auto. apply andb_true_iff in C. destruct C as [S ST]. apply Z.ltb_lt in S. unfold elems in EW. rewrite G in EW. cbn [bind] in EW. rewrite B in EW. injection EW as -> ->. destruct (extend_spec h (x :: R0) w o f we wl size xl W G R1 B S) as (h1 & E1 & W1 & EL & P1); [eapply forallb_imp; [|exact FX]; intros v; apply stores_fits; auto|]. rewrite E1. cbn [bind]. destruct (dec_spec vle chk h1 x (w :: R0) (wf_swap _ _ _ _ W1)) as (h2 & E2 & W2 & P2). rewrite E2. cbn [bind]. destruct (pres_hd _ _ _ _ P2) as [P2r P2']. destruct (pres_hd _ _ _ _ P1) as [_ P1']. exists h2, w, we. split; auto. split; auto. split; [congruence|]. eapply pres_trans; eauto.
  - destruct f; auto. destruct (proj1 W w o G) as (O & _). unfold okobj in O. rewrite B in O. destruct O as (q & fq & eq & m & size & GQ & BQ & LE & FE & _). specialize (FE eq_refl). subst eq. rewrite GQ. cbn [bind]. rewrite BQ. destruct ((o_rc q =? 1) && (off =? 0)%nat && (length m =? len)%nat && (SZ fq EB (len + length xl) <? size)) eqn:C; auto. apply andb_true_iff in C. destruct C as [C S]. apply andb_true_iff in C. destruct C as [C LN]. apply andb_true_iff in C. destruct C as [RQ OF]. apply Z.ltb_lt in S. apply Nat.eqb_eq in LN. apply Nat.eqb_eq in OF. apply Z.eqb_eq in RQ. subst off len.
    unfold elems in EW. rewrite G in EW. cbn [bind] in EW. rewrite B, GQ in EW. cbn [bind] in EW. rewrite BQ, slice_ok in EW by lia. cbn [bind skipn] in EW. rewrite firstn_all in EW. injection EW as <- <-.
    assert (NP : p <> w) by (intros ->; rewrite G in GQ; injection GQ as ->; congruence). assert (NPb : (p =? w)%nat = false) by (apply Nat.eqb_neq; auto). assert (NWb : (w =? p)%nat = false) by (apply Nat.eqb_neq; auto).
    destruct (inc_spec vle chk h _ p q W GQ) as (h1 & E1 & W1 & V1 & H1). rewrite E1. cbn [bind].
    assert (L1 : length h1 = length h) by (subst h1; apply upd_length). pose proof (get_lt _ _ _ G) as LW. pose proof (get_lt _ _ _ GQ) as LP.
    assert (G1 : get h1 w = Ok o) by (subst h1; rewrite get_upd, NWb by auto; auto). assert (GQ1 : get h1 p = Ok (set_rc q 2)) by (subst h1; rewrite get_upd, Nat.eqb_refl by auto; rewrite RQ; reflexivity).
    destruct (dec_spec vle chk h1 w (p :: x :: R0) (wf_swap _ _ _ _ W1)) as (h2 & E2 & W2 & P2).
    assert (GQ2 : exists q2, get h2 p = Ok q2 /\ o_rc q2 = 1 /\ o_body q2 = Plain fq EB m size).
    { unfold dec in E2. rewrite G1 in E2. cbn [bind] in E2. rewrite B in E2. unfold dec1 at 1 in E2. rewrite G1 in E2. cbn [bind] in E2. rewrite R1 in E2. cbn [Z.eqb Pos.eqb bind] in E2. rewrite get_upd, NPb, GQ1 in E2 by lia. cbn [bind] in E2. change (o_body (set_rc q 2)) with (o_body q) in E2. rewrite BQ in E2. unfold dec1 in E2. rewrite get_upd, NPb, GQ1 in E2 by lia. cbn [bind set_rc o_rc Z.eqb Pos.eqb] in E2. injection E2 as <-. rewrite get_upd, Nat.eqb_refl by (rewrite upd_length; lia). eexists. split; [reflexivity|]. split; [reflexivity|exact BQ]. }
    destruct GQ2 as (q2 & GQ2 & RQ2 & BQ2). rewrite E2. cbn [bind]. destruct (extend_spec h2 (x :: R0) p q2 fq EB m size xl W2 GQ2 RQ2 BQ2 S (forallb_EB xl)) as (h3 & E3 & W3 & EL & P3). rewrite E3. cbn [bind]. destruct (dec_spec vle chk h3 x (p :: R0) (wf_swap _ _ _ _ W3)) as (h4 & E4 & W4 & P4). rewrite E4. cbn [bind]. destruct (pres_hd _ _ _ _ P4) as [P4r P4']. destruct (pres_hd _ _ _ _ P3) as [_ P3']. destruct (pres_hd _ _ _ _ P2) as [_ P2']. destruct (pres_hd _ _ _ _ P2') as [_ P2'']. exists h4, p, EB. split; auto. split; auto. split; [congruence|]. eapply pres_trans; [|exact P4']. eapply pres_trans; [|exact P3']. eapply pres_trans; [|exact P2'']. intros b _. apply elems_view, V1.
Qed.
(** ** sorting, order test, replacing one element *)
Lemma sort_spec h a R0 e l : chk = true -> wf h (a :: R0) -> elems h a = Ok (e, l) -> trans h R0 (isort vle l) (sort vle h a).
Proof.
  intros CH W E. destruct (proj2 W a (or_introl eq_refl)) as (o & G). destruct (live_elems vle chk h _ a o W G) as (e0 & l0 & E0 & F & A & FE). rewrite E in E0. injection E0 as <- <-. unfold sort. rewrite G. cbn [bind]. rewrite E. cbn [bind]. destruct ((length l <=? 1)%nat || o_asc o) eqn:C.
  - assert (AL : ascending vle l = true). { apply orb_true_iff in C. destruct C as [C|C]; auto. apply Nat.leb_le in C. destruct l as [|u [|u' l]]; auto; cbn [length] in C; lia. } exists h, a, e. rewrite isort_id by auto. split; auto. split; auto. split; auto. intros b _. reflexivity.
  - destruct (new_arr_spec vle chk h _ (is_fill o) e (isort vle l) W) as (h1 & r & E1 & W1 & EL & P1 & (q & GQ)); auto. { apply isort_all, F. } rewrite E1. cbn [bind]. destruct (set_asc_spec vle chk h1 _ r q _ _ W1 GQ EL) as (h2 & E2 & W2 & P2); [intros _; apply isort_asc; auto|]. rewrite E2. cbn [bind]. destruct (dec_spec vle chk h2 a (r :: R0) (wf_swap _ _ _ _ W2)) as (h3 & E3 & W3 & P3). rewrite E3. cbn [bind]. destruct (pres_hd _ _ _ _ P3) as [P3r P3']. destruct (pres_hd _ _ _ _ P1) as [_ P1']. exists h3, r, e. split; auto. split; auto. split; [rewrite P3r, P2; auto|]. eapply pres_trans; [exact P1'|]. eapply pres_trans; [|exact P3']. intros b _. apply P2.
Qed.
Lemma check_spec h a R e l : chk = true -> wf h R -> In a R -> elems h a = Ok (e, l) -> exists h', check vle h a = Ok (h', ascending vle l) /\ wf h' R /\ forall b, elems h' b = elems h b.
Proof.
  intros CH W I E. destruct (proj2 W a I) as (o & G). destruct (live_elems vle chk h _ a o W G) as (e0 & l0 & E0 & F & A & FE). rewrite E in E0. injection E0 as <- <-. unfold check. rewrite G. cbn [bind]. rewrite E. cbn [bind]. destruct (o_asc o) eqn:AS; [rewrite A by auto; eauto|]. destruct (ascending vle l) eqn:AL; [|eauto]. destruct (set_asc_spec vle chk h R a o e l W G E) as (h' & E' & W' & P); auto. rewrite E'. cbn [bind]. eauto.
Qed.
Lemma put_spec clears h a R0 e l pos v : (chk = true -> clears = true) -> wf h (a :: R0) -> elems h a = Ok (e, l) -> (pos < length l)%nat -> trans h R0 (firstn pos l ++ v :: skipn (S pos) l) (put clears h a pos v).
Proof.
  intros CH W E LT. destruct (proj2 W a (or_introl eq_refl)) as (o & G). destruct (live_elems vle chk h _ a o W G) as (e0 & l0 & E0 & F & _ & FE). rewrite E in E0. injection E0 as <- <-. unfold put. rewrite G. cbn [bind]. rewrite E. cbn [bind]. replace (pos <? length l)%nat with true by (symmetry; apply Nat.ltb_lt; auto). cbn [negb]. cbv zeta. rewrite <- (upd_split l pos v) by auto.
  assert (OT : trans h R0 (upd l pos v) (do (h, r) <- new_arr h false (el_or e (self_el v)) (upd l pos v); do h <- dec h a; Ok (h, r))).
  { apply copy_spec; auto; [|discriminate]. apply forallb_upd; [apply fits_or_r, fits_self|]. eapply forallb_imp; [|exact F]; intros; apply fits_or_l; auto. }
  assert (IP : forall f e' m size asc, o_body o = Plain f e' m size -> o_rc o = 1 -> fits e' v = true -> (chk = true -> asc = false) -> trans h R0 (upd l pos v) (Ok (upd h a (Some {| o_rc := 1; o_body := Plain f e' (upd l pos v) size; o_asc := asc |}), a))).
  { intros f e' m size asc B R1 FV AS. unfold elems in E. rewrite G in E. cbn [bind] in E. rewrite B in E. injection E as -> ->. destruct (proj1 W a o G) as (O & _ & _). unfold okobj in O. rewrite B in O. destruct O as (F0 & S0 & FE0 & A). destruct (upd_plain vle chk h R0 a o {| o_rc := 1; o_body := Plain f e (upd l pos v) size; o_asc := asc |} f e (upd l pos v) size W G R1) as (W' & E' & P & _); auto; [rewrite B; auto| |do 3 eexists; split; [reflexivity|]; eauto]. split; [apply forallb_upd; auto|]. split; [rewrite upd_length; auto|]. split; auto. intros C D. cbn [o_asc] in D. rewrite AS in D by auto. discriminate. }
  destruct e; try (destruct (o_body o) as [f e' m size|f p off0 len0] eqn:B; auto; destruct (Z.eqb_spec (o_rc o) 1) as [R1|R1]; cbn [andb]; auto; destruct (fits e' v) eqn:FV; auto; destruct e'; auto; eapply IP; eauto; fail).
  destruct (o_body o) as [f e' m size|f p off0 len0] eqn:B; [|apply copy_spec; auto; apply forallb_EB].
  assert (e' = EB) as -> by (unfold elems in E; rewrite G in E; cbn [bind] in E; rewrite B in E; congruence).
  destruct (Z.eqb_spec (o_rc o) 1) as [R1|R1]; [|apply copy_spec; auto; apply forallb_EB]. eapply IP; eauto. intros C. rewrite (CH C). reflexivity.
Qed.
End P.
