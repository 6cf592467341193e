(** C33: collection sees every live variable. *)
From Verif Require Import Base ListLib ScopeModel.

(** * Specification: a scope is a list of variables and a list of further (variable, name) pairs added by later REPL lines. *)
Record sscope := { svars : list Z; sx : list (Z * Z) }.
Definition sstep (s : sscope) (o : op) : sscope :=
  match o with
  | Line vam nn _ =>
    let have := (length (svars s) + length (sx s))%nat in
    if (vam <? 65536) && (Z.of_nat have <? vam) then
      {| svars := svars s; sx := sx s ++ List.map (fun n => (noVar, n)) (skipn (length (sx s)) (firstn (Z.to_nat vam - length (svars s)) nn)) |}
    else s
  | SetV p v => {| svars := upd (svars s) p v; sx := sx s |}
  | SetE p v => {| svars := svars s; sx := upd (sx s) p (v, match nth_error (sx s) p with Some (_, n) => n | None => 0 end) |}
  end.
Definition held (s : sscope) : list Z := svars s ++ List.map fst (sx s) ++ List.map snd (sx s).
Fixpoint srun (s : sscope) (l : list op) : sscope := match l with [] => s | o :: l => srun (sstep s o) l end.
(** Requests fit: positions exist, a line names all its variables, memory has the size asked for. *)
Definition wfop (s : sscope) (o : op) : Prop :=
  match o with
  | Line vam nn junk => 0 <= vam /\ (Z.to_nat vam - length (svars s) <= length nn)%nat /\ length junk = ((Z.to_nat vam - length (svars s)) * 2)%nat
  | SetV p v => (p < length (svars s))%nat
  | SetE p v => (p < length (sx s))%nat
  end.
Fixpoint wfops (s : sscope) (l : list op) : Prop := match l with [] => True | o :: l => wfop s o /\ wfops (sstep s o) l end.
(** Everything the collector visits from a scope. *)
Definition visited (s : scope) : list Z := scope_visit s ++ match sext s with Some e => scExt_visit e | None => [] end.

(** * Proof *)
Record Rel (s : scope) (t : sscope) : Prop := {
  r_am : varAm s = Z.of_nat (length (svars t));
  r_lt : Z.of_nat (length (svars t)) + Z.of_nat (length (sx t)) < 65536;
  r_vars : vars s = svars t;
  r_ext : match sext s with
          | None => sx t = []
          | Some e => eAm e = Z.of_nat (length (sx t)) /\ evars e = List.map fst (sx t) ++ List.map snd (sx t)
          end
}.
Lemma memcpy_ok : forall n src dst sp dp, (sp + n <= length src)%nat -> (dp + n <= length dst)%nat ->
  memcpy src dst sp dp n = Ok (firstn dp dst ++ firstn n (skipn sp src) ++ skipn (dp + n) dst).
Proof.
  induction n as [|n IH]; intros src dst sp dp H1 H2; cbn [memcpy].
  - cbn [firstn app]. rewrite Nat.add_0_r, firstn_skipn. reflexivity.
  - unfold rd. destruct (nth_error src sp) as [v|] eqn:E; [|apply nth_error_None in E; lia]. cbn [bind]. unfold wr. destruct (Nat.ltb_spec dp (length dst)); [|lia]. cbn [bind].
    rewrite IH by (rewrite ?upd_length; lia). f_equal.
    assert (Sk : skipn sp src = v :: skipn (S sp) src) by (clear - E; revert src E; induction sp; intros [|x src] E; cbn in *; try discriminate; [congruence|apply IHsp; exact E]).
    rewrite Sk.
    assert (F : firstn (S dp) (upd dst dp v) = firstn dp dst ++ [v]).
    { clear - H. revert dst H. induction dp; intros [|x dst] H; cbn in *; try lia; [reflexivity|]. f_equal. apply IHdp. lia. }
    assert (K : skipn (S dp + n) (upd dst dp v) = skipn (dp + S n) dst).
    { replace (S dp + n)%nat with (dp + S n)%nat by lia. clear. revert dst. induction dp; intros [|x dst]; cbn; auto; try (destruct (dp + S n)%nat; reflexivity). }
    rewrite F, K, <- app_assoc. reflexivity.
Qed.
Lemma set_new_ok : forall n i nSZ nn l, (i + n = nSZ)%nat -> (nSZ <= length nn)%nat -> length l = (nSZ * 2)%nat ->
  set_new n i nSZ nn l = Ok (firstn i l ++ repeat noVar n ++ firstn i (skipn nSZ l) ++ firstn n (skipn i nn)).
Proof.
  induction n as [|n IH]; intros i nSZ nn l E Ln Ll; cbn [set_new].
  - assert (i = nSZ) as -> by lia. cbn [repeat firstn app]. rewrite app_nil_r. rewrite (firstn_all2 (skipn nSZ l)) by (rewrite skipn_length; lia). rewrite firstn_skipn. reflexivity.
  - unfold wr at 1. destruct (Nat.ltb_spec i (length l)); [|lia]. cbn [bind]. unfold rd. destruct (nth_error nn i) as [nm|] eqn:En; [|apply nth_error_None in En; lia]. cbn [bind].
    unfold wr. rewrite upd_length. destruct (Nat.ltb_spec (i + nSZ) (length l)); [|lia]. cbn [bind]. rewrite IH by (rewrite ?upd_length; lia). f_equal.
    assert (Sk : skipn i nn = nm :: skipn (S i) nn) by (clear - En; revert nn En; induction i; intros [|x nn] En; cbn in *; try discriminate; [congruence|apply IHi; exact En]).
    rewrite Sk.
    assert (F1 : firstn (S i) (upd (upd l i noVar) (i + nSZ) nm) = firstn i l ++ [noVar]).
    { apply nth_error_ext. intro j. destruct (Nat.lt_ge_cases j (S i)) as [Lt|Ge].
      - rewrite nth_error_firstn_lt by lia. rewrite !nth_error_upd, upd_length. destruct (Nat.eqb_spec (i + nSZ) j); [lia|]. destruct (Nat.eqb_spec i j) as [->|].
        + destruct (Nat.ltb_spec j (length l)); [|lia]. rewrite nth_error_app2; rewrite firstn_length, Nat.min_l by lia; [rewrite Nat.sub_diag; reflexivity|lia].
        + rewrite nth_error_app1 by (rewrite firstn_length; lia). rewrite nth_error_firstn_lt by lia. reflexivity.
      - rewrite nth_error_firstn_ge by lia. symmetry. apply nth_error_None. rewrite app_length, firstn_length. cbn [length]. lia. }
    assert (F2 : firstn (S i) (skipn nSZ (upd (upd l i noVar) (i + nSZ) nm)) = firstn i (skipn nSZ l) ++ [nm]).
    { apply nth_error_ext. intro j. destruct (Nat.lt_ge_cases j (S i)) as [Lt|Ge].
      - rewrite nth_error_firstn_lt by lia. rewrite nth_error_skipn', !nth_error_upd, upd_length. destruct (Nat.eqb_spec (i + nSZ) (nSZ + j)).
        + assert (j = i) as -> by lia. destruct (Nat.ltb_spec (i + nSZ) (length l)); [|lia]. rewrite nth_error_app2; rewrite firstn_length, skipn_length, Nat.min_l by lia; [rewrite Nat.sub_diag; reflexivity|lia].
        + destruct (Nat.eqb_spec i (nSZ + j)); [lia|]. rewrite nth_error_app1 by (rewrite firstn_length, skipn_length; lia). rewrite nth_error_firstn_lt by lia. rewrite nth_error_skipn'. reflexivity.
      - rewrite nth_error_firstn_ge by lia. symmetry. apply nth_error_None. rewrite app_length, firstn_length. cbn [length]. lia. }
    rewrite F1, F2. cbn [repeat firstn]. rewrite <- !app_assoc. cbn [app]. reflexivity.
Qed.
Lemma extend_ok : forall s t vam nn junk, Rel s t -> wfop t (Line vam nn junk) ->
  exists r, extend s vam nn junk = Ok r /\ Rel (match r with Some s' => s' | None => s end) (sstep t (Line vam nn junk)).
Proof.
  intros s t vam nn junk R (W0 & W1 & W2). pose proof R as [A B C D]. unfold extend, u16. cbn [sstep].
  destruct (Z.eqb_spec vam (vam mod 65536)) as [E1|E1]; cbn [negb].
  2: { exists None. split; [reflexivity|]. destruct (Z.ltb_spec vam 65536); [lia|]. cbn [andb]. exact R. }
  destruct (Z.ltb_spec vam 65536); [|lia]. cbn [andb]. destruct (Z.leb_spec vam (varAm s)) as [L1|L1].
  { exists (Some s). split; [reflexivity|]. destruct (Z.ltb_spec (Z.of_nat (length (svars t) + length (sx t))) vam); [lia|]. exact R. }
  set (oSZ := match sext s with Some e => eAm e | None => 0 end).
  assert (Ho : oSZ = Z.of_nat (length (sx t))) by (unfold oSZ; destruct (sext s); [apply D|rewrite D; reflexivity]).
  destruct (Z.leb_spec vam (varAm s + oSZ)) as [L2|L2].
  - destruct (sext s) as [e|] eqn:Ee.
    + cbn [andb]. exists (Some s). split; [reflexivity|]. destruct (Z.ltb_spec (Z.of_nat (length (svars t) + length (sx t))) vam); [lia|]. exact R.
    + rewrite D in Ho. cbn in Ho. lia.
  - replace (_ && false) with false by (destruct (sext s); reflexivity). destruct (Z.ltb_spec (Z.of_nat (length (svars t) + length (sx t))) vam); [|lia].
    set (nSZ := Z.to_nat (vam - varAm s)). assert (Hn : nSZ = (Z.to_nat vam - length (svars t))%nat) by (unfold nSZ; lia). rewrite <- Hn in *.
    rewrite (proj2 (Nat.eqb_eq _ _) W2). cbn [negb]. set (o := Z.to_nat oSZ). assert (Hoo : o = length (sx t)) by (unfold o; lia).
    set (a := List.map fst (sx t)). set (b := List.map snd (sx t)). assert (La : length a = o) by (unfold a; rewrite map_length; auto). assert (Lb : length b = o) by (unfold b; rewrite map_length; auto).
    assert (Hl : exists l, match sext s with None => Ok junk | Some e => do l <- memcpy (evars e) junk 0 0 o; memcpy (evars e) l o nSZ o end = Ok l /\ length l = (nSZ * 2)%nat /\ firstn o l = a /\ firstn o (skipn nSZ l) = b).
    { destruct (sext s) as [e|] eqn:Ee.
      - destruct D as [_ De]. fold a b in De. rewrite De. rewrite memcpy_ok by (rewrite ?app_length; lia). cbn [bind firstn skipn app Nat.add]. rewrite firstn_app, firstn_all2 by lia.
        rewrite La, Nat.sub_diag. cbn [firstn]. rewrite app_nil_r. rewrite memcpy_ok by (rewrite ?app_length, ?skipn_length; lia).
        rewrite (skipn_app o a b), (skipn_all2 a) by lia. rewrite La, Nat.sub_diag. cbn [skipn app]. rewrite (firstn_all2 b) by lia. eexists. split; [reflexivity|].
        set (j1 := a ++ skipn o junk). assert (Lj : length j1 = (nSZ * 2)%nat) by (unfold j1; rewrite app_length, skipn_length; lia). split; [|split].
        + rewrite !app_length, firstn_length, skipn_length. lia.
        + rewrite firstn_app, firstn_length, Nat.min_l by lia. replace (o - nSZ)%nat with 0%nat by lia. cbn [firstn]. rewrite app_nil_r, firstn_firstn, Nat.min_l by lia.
          unfold j1. rewrite firstn_app, firstn_all2 by lia. rewrite La, Nat.sub_diag. cbn. apply app_nil_r.
        + rewrite skipn_app, skipn_all2 by (rewrite firstn_length; lia). rewrite firstn_length, Nat.min_l by lia. rewrite Nat.sub_diag. cbn [skipn app].
          rewrite firstn_app, firstn_all2 by lia. rewrite Lb, Nat.sub_diag. cbn. apply app_nil_r.
      - exists junk. split; [reflexivity|]. split; [exact W2|]. unfold a, b. rewrite D in *. cbn [length] in Hoo. rewrite Hoo. split; reflexivity. }
    destruct Hl as (l & -> & Ll & Fa & Fb). cbn [bind]. rewrite set_new_ok by lia. cbn [bind]. eexists. split; [reflexivity|]. rewrite Fa, Fb.
    set (nw := skipn (length (sx t)) (firstn nSZ nn)). assert (Lw : length nw = (nSZ - o)%nat) by (unfold nw; rewrite skipn_length, firstn_length; lia).
    constructor; cbn [varAm vars sext svars sx eAm evars]; auto.
    + rewrite app_length, map_length. lia.
    + rewrite app_length, map_length. split; [unfold u16; rewrite Z.mod_small; lia|]. rewrite !map_app, !map_map. cbn [fst snd]. rewrite map_id. rewrite <- app_assoc. fold a b. f_equal. f_equal.
      * replace (nSZ - o)%nat with (length nw). clear. induction nw; cbn; congruence.
      * f_equal. unfold nw. rewrite <- Hoo. rewrite skipn_firstn_comm. reflexivity.
Qed.
Lemma step_ok : forall s t o, Rel s t -> wfop t o -> exists r, step s o = Ok r /\ Rel (match r with Some s' => s' | None => s end) (sstep t o).
Proof.
  intros s t o R W. destruct o as [vam nn junk|p v|p v]; cbn [step].
  - apply extend_ok; assumption.
  - destruct R as [A B C D]. cbn in W. unfold set_var. rewrite C, wr_ok' by exact W. cbn [bind]. eexists. split; [reflexivity|]. constructor; cbn [varAm vars sext sstep svars sx]; rewrite ?upd_length; auto.
  - destruct R as [A B C D]. cbn in W. unfold set_ext. destruct (sext s) as [e|] eqn:Ee; [|rewrite D in W; cbn in W; lia]. destruct D as [D1 D2].
    destruct (Z.ltb_spec (Z.of_nat p) (eAm e)); [|lia]. cbn [negb]. rewrite wr_ok' by (rewrite D2, app_length, !map_length; lia). cbn [bind]. eexists. split; [reflexivity|].
    constructor; cbn [varAm vars sext sstep svars sx eAm evars]; rewrite ?upd_length; auto. split; [exact D1|]. rewrite D2, upd_app_l by (rewrite map_length; lia). rewrite !map_upd'. cbn [fst snd]. f_equal.
    destruct (nth_error_ex (sx t) p W) as [[x y] Ex]. rewrite Ex. apply nth_error_ext. intro j. rewrite nth_error_upd. destruct (Nat.eqb_spec p j) as [->|]; [|reflexivity].
    rewrite map_length. destruct (Nat.ltb_spec j (length (sx t))); [|lia]. rewrite nth_error_map, Ex. reflexivity.
Qed.
Lemma run_ok : forall l s t, Rel s t -> wfops t l -> exists s', run s l = Ok s' /\ Rel s' (srun t l).
Proof.
  induction l as [|o l IH]; intros s t R W; cbn [run srun wfops] in *; [exists s; auto|]. destruct W as [W1 W2]. destruct (step_ok s t o R W1) as (r & -> & R'). cbn [bind]. apply IH; assumption.
Qed.

(** A new scope: m_scopeI initialises every variable. *)
Lemma copy_init_ok : forall init l p, (p + length init <= length l)%nat -> copy_init init l p = Ok (firstn p l ++ init ++ skipn (p + length init) l).
Proof.
  induction init as [|v t IH]; intros l p H; cbn [copy_init length] in *.
  - rewrite Nat.add_0_r. cbn. rewrite firstn_skipn. reflexivity.
  - rewrite wr_ok' by lia. cbn [bind]. rewrite IH by (rewrite upd_length; lia). f_equal. rewrite (firstn_snoc (upd l p v) p v) by (apply upd_same; lia). rewrite <- app_assoc. cbn [app]. f_equal; [|f_equal; f_equal].
    + apply nth_error_ext. intro j. destruct (Nat.lt_ge_cases j p); [rewrite !nth_error_firstn_lt by lia; apply upd_other; lia|rewrite !nth_error_firstn_ge by lia; reflexivity].
    + apply nth_error_ext. intro j. rewrite !nth_error_skipn'. replace (p + S (length t))%nat with (S p + length t)%nat by lia. apply upd_other. lia.
Qed.
Lemma fill2_ok : forall n l p, (p + 2 * n <= length l)%nat -> fill2 n l p = Ok (firstn p l ++ repeat noVar (2 * n) ++ skipn (p + 2 * n) l).
Proof.
  induction n as [|n IH]; intros l p H; cbn [fill2].
  - rewrite Nat.mul_0_r, Nat.add_0_r. cbn. rewrite firstn_skipn. reflexivity.
  - rewrite wr_ok' by lia. cbn [bind]. rewrite wr_ok' by (rewrite upd_length; lia). cbn [bind]. rewrite IH by (rewrite !upd_length; lia). f_equal.
    replace (p + 2)%nat with (S (S p)) by lia. rewrite (firstn_snoc _ (S p) noVar) by (replace (p + 1)%nat with (S p) by lia; apply upd_same; rewrite upd_length; lia).
    rewrite (firstn_snoc _ p noVar) by (rewrite upd_other by lia; apply upd_same; lia). rewrite <- !app_assoc. cbn [app]. replace (2 * S n)%nat with (S (S (2 * n))) by lia. cbn [repeat app].
    f_equal; [|f_equal; f_equal; f_equal].
    + apply nth_error_ext. intro j. destruct (Nat.lt_ge_cases j p); [rewrite !nth_error_firstn_lt by lia; rewrite !upd_other by lia; reflexivity|rewrite !nth_error_firstn_ge by lia; reflexivity].
    + apply nth_error_ext. intro j. rewrite !nth_error_skipn'. rewrite !upd_other by lia. f_equal. lia.
Qed.
Lemma m_scope_ok : forall am init junk, 0 <= am < 65536 -> (length init <= Z.to_nat am)%nat -> length junk = Z.to_nat am ->
  exists s, m_scope am init junk = Ok s /\ Rel s {| svars := init ++ repeat noVar (Z.to_nat am - length init); sx := [] |}.
Proof.
  intros am init junk Ha Hi Hj. unfold m_scope, u16. rewrite Z.mod_small by lia. destruct (Z.eqb_spec (Z.of_nat (length junk)) am); [|lia]. cbn [negb].
  rewrite copy_init_ok by lia. cbn [bind firstn app Nat.add]. set (i := length init) in *. set (left := Z.to_nat (am - Z.of_nat i)). assert (Hl : left = (Z.to_nat am - i)%nat) by (unfold left; lia).
  set (l0 := init ++ skipn i junk). assert (L0 : length l0 = (i + left)%nat) by (unfold l0, i; rewrite app_length, skipn_length; fold i; lia).
  assert (F0 : firstn i l0 = init) by (unfold l0, i; rewrite firstn_app, firstn_all, Nat.sub_diag; apply app_nil_r).
  assert (Fl : exists l, (if (left =? 1)%nat then wr l0 i noVar else if (2 <=? left)%nat then do l <- fill2 (left / 2) l0 i; (if (left mod 2 =? 1)%nat then wr l (i + 2 * (left / 2)) noVar else Ok l) else Ok l0) = Ok l
    /\ l = init ++ repeat noVar left).
  { pose proof (Nat.div_mod_eq left 2) as Dm. pose proof (Nat.mod_upper_bound left 2 ltac:(lia)) as Mu. set (h := (left / 2)%nat) in *. set (m := (left mod 2)%nat) in *. clearbody h m.
    destruct (Nat.eqb_spec left 1) as [->|N1].
    - rewrite wr_ok' by lia. eexists. split; [reflexivity|]. unfold l0. rewrite upd_app_r by (fold i; lia). fold i. rewrite Nat.sub_diag. f_equal.
      assert (length (skipn i junk) = 1%nat) by (rewrite skipn_length; lia). destruct (skipn i junk) as [|x [|y t]]; cbn in *; try lia. reflexivity.
    - destruct (Nat.leb_spec 2 left).
      + rewrite fill2_ok by lia. cbn [bind]. rewrite F0. destruct (Nat.eqb_spec m 1) as [->|N2].
        * rewrite wr_ok' by (rewrite !app_length, repeat_length, skipn_length; fold i; lia). eexists. split; [reflexivity|].
          rewrite app_assoc, upd_app_r by (rewrite app_length, repeat_length; fold i; lia). rewrite app_length, repeat_length. fold i. rewrite Nat.sub_diag.
          assert (Ls : length (skipn (i + 2 * h) l0) = 1%nat) by (rewrite skipn_length; lia). destruct (skipn (i + 2 * h) l0) as [|x [|y t]]; cbn in Ls; try lia. cbn [upd].
          rewrite <- app_assoc. f_equal. rewrite Dm, repeat_app. reflexivity.
        * eexists. split; [reflexivity|]. rewrite skipn_all2 by lia. rewrite app_nil_r. f_equal. f_equal. lia.
      + assert (left = 0)%nat as E0 by lia. eexists. split; [reflexivity|]. rewrite E0. unfold l0. rewrite skipn_all2 by lia. reflexivity. }
  destruct Fl as (l & -> & ->). cbn [bind]. eexists. split; [reflexivity|]. constructor; cbn [varAm vars sext svars sx length]; auto; try (rewrite app_length, repeat_length; fold i; lia). rewrite Hl. reflexivity.
Qed.

Lemma visited_ok : forall s t, Rel s t -> Z.of_nat (length (sx t)) < 32768 -> visited s = held t.
Proof.
  intros s t [A B C D] L. unfold visited, held, scope_visit, u16. rewrite A, C, Z.mod_small, Nat2Z.id, firstn_all by lia. f_equal.
  destruct (sext s) as [e|]; [|rewrite D; reflexivity]. destruct D as [D1 D2]. unfold scExt_visit, u16. rewrite D1, D2, Z.mod_small by lia. apply firstn_all2. rewrite app_length, !map_length. lia.
Qed.

(** After any REPL session with fewer than 32768 added variables, the references visited from the scope are exactly those held: its variables, the added ones and their names. *)
Theorem C33_visits_all : forall am init junk l, 0 <= am < 65536 -> (length init <= Z.to_nat am)%nat -> length junk = Z.to_nat am ->
  let t0 := {| svars := init ++ repeat noVar (Z.to_nat am - length init); sx := [] |} in
  wfops t0 l -> Z.of_nat (length (sx (srun t0 l))) < 32768 ->
  exists s0 s, m_scope am init junk = Ok s0 /\ run s0 l = Ok s /\ visited s = held (srun t0 l).
Proof.
  intros am init junk l Ha Hi Hj t0 W L. destruct (m_scope_ok am init junk Ha Hi Hj) as (s0 & E & R). destruct (run_ok l s0 t0 R W) as (s & E2 & R2). exists s0, s.
  split; [exact E|]. split; [exact E2|]. apply visited_ok; assumption.
Qed.
Print Assumptions C33_visits_all.

(** With 32768 or more added variables some held references are not visited (and not released when the scope is freed), because twice the count is stored in 16 bits. *)
Theorem C33_large_extension_refuted : forall am init junk l, 0 <= am < 65536 -> (length init <= Z.to_nat am)%nat -> length junk = Z.to_nat am ->
  let t0 := {| svars := init ++ repeat noVar (Z.to_nat am - length init); sx := [] |} in
  wfops t0 l -> 32768 <= Z.of_nat (length (sx (srun t0 l))) ->
  exists s0 s e, m_scope am init junk = Ok s0 /\ run s0 l = Ok s /\ sext s = Some e /\ (length (visited s) < length (held (srun t0 l)))%nat /\ (length (scExt_free e) < length (evars e))%nat.
Proof.
  intros am init junk l Ha Hi Hj t0 W L. destruct (m_scope_ok am init junk Ha Hi Hj) as (s0 & E & R). destruct (run_ok l s0 t0 R W) as (s & E2 & R2). exists s0, s.
  destruct R2 as [A B C D]. destruct (sext s) as [e|] eqn:Ee; [|rewrite D in L; cbn in L; lia]. destruct D as [D1 D2]. exists e. split; [exact E|]. split; [exact E2|]. split; [reflexivity|].
  assert (Q : (length (firstn (Z.to_nat (u16 (eAm e * 2))) (evars e)) < length (evars e))%nat).
  { rewrite firstn_length. rewrite D2, app_length, !map_length. unfold u16. rewrite D1. lia. }
  split; [|exact Q]. unfold visited, held. rewrite Ee, !app_length. unfold scope_visit. rewrite firstn_length, C. unfold scExt_visit. rewrite D2 in Q at 2. rewrite app_length in Q. lia.
Qed.
Print Assumptions C33_large_extension_refuted.
(** Likewise for blocks that directly contain 65536 or more blocks. *)
Theorem C33_many_blocks_refuted : forall b, 65536 <= bam b -> bam b = Z.of_nat (length (ba b)) -> (length (bBlks_visit b) < length (ba b))%nat.
Proof. intros b H E. unfold bBlks_visit, u16. rewrite firstn_length. lia. Qed.
Print Assumptions C33_many_blocks_refuted.

(* a scope of two variables, a line adding two, assignments, a line adding three more, one adding none *)
Example C33_example :
  let t0 := {| svars := [5; noVar]; sx := [] |} in
  let l := [Line 4 [91; 92] [7; 7; 7; 7]; SetE 1 33; SetV 1 44; Line 7 [91; 92; 93; 94; 95] [8; 8; 8; 8; 8; 8; 8; 8; 8; 8]; SetE 4 55; Line 3 [91] [1; 1]] in
  wfops t0 l /\ held (srun t0 l) = [5; 44; noVar; 33; noVar; noVar; 55; 91; 92; 93; 94; 95]
  /\ exists s0 s, m_scope 2 [5] [6; 6] = Ok s0 /\ run s0 l = Ok s /\ visited s = held (srun t0 l).
Proof.
  cbv zeta. split; [vm_compute; repeat split; try (intro; discriminate); repeat constructor|]. split; [reflexivity|]. eexists _, _. split; [reflexivity|]. split; reflexivity.
Qed.
