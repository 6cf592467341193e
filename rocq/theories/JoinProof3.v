From Verif Require Import Base SqueezeModel TransSpec JoinModel JoinSpec JoinProof JoinProof2.
Open Scope Z_scope.
Section J.
Context {A : Type}.
Notation arr := (list nat * list A)%type.

(** ** Join To *)
Lemma skipn_cons {B} (l : list B) i a : nth_error l i = Some a -> skipn i l = a :: skipn (S i) l.
Proof. revert i. induction l; intros [|i] N; cbn in *; try discriminate; [congruence|auto]. Qed.
Lemma trail_ok wsh xsh c : let wr := length wsh in let xr := length xsh in
  (wr <= c)%nat -> (xr <= c)%nat -> (c - wr <= 1)%nat -> (c - xr <= 1)%nat -> (1 <= c)%nat ->
  let tw := skipn (1 + wr - c) wsh in let tx := skipn (1 + xr - c) xsh in
  forall n i, (1 <= i)%nat -> (i + n = c)%nat ->
  (skipn (i - 1) tw = skipn (i - 1) tx /\ join_trail wsh xsh wr xr c n i = Ok (skipn (i - 1) tx)) \/
  (skipn (i - 1) tw <> skipn (i - 1) tx /\ join_trail wsh xsh wr xr c n i = Err).
Proof.
  intros wr xr H1 H2 H3 H4 H5 tw tx.
  assert (Lw : length tw = (c - 1)%nat) by (unfold tw; rewrite skipn_length; unfold wr in *; lia).
  assert (Lx : length tx = (c - 1)%nat) by (unfold tx; rewrite skipn_length; unfold xr in *; lia).
  induction n as [|n IH]; intros i Hi HC; cbn [join_trail].
  - left. rewrite !skipn_all2 by lia. split; reflexivity.
  - destruct (Nat.ltb_spec (i + xr) c); [lia|]. destruct (Nat.ltb_spec (i + wr) c); [lia|].
    destruct (nth_error tw (i - 1)) as [a|] eqn:Na; [|apply nth_error_None in Na; lia].
    destruct (nth_error tx (i - 1)) as [b|] eqn:Nb; [|apply nth_error_None in Nb; lia].
    pose proof (skipn_cons _ _ _ Na) as Sa. pose proof (skipn_cons _ _ _ Nb) as Sb. replace (S (i - 1)) with (S i - 1)%nat in * by lia.
    unfold tw in Na. unfold tx in Nb. rewrite nth_skipn in Na, Nb.
    replace (1 + wr - c + (i - 1))%nat with (i + wr - c)%nat in Na by lia. replace (1 + xr - c + (i - 1))%nat with (i + xr - c)%nat in Nb by lia.
    rewrite (rd_nth _ _ _ Na), (rd_nth _ _ _ Nb). cbn [bind]. rewrite Sa, Sb.
    destruct (Nat.eqb_spec a b) as [->|D]; [|right; split; [congruence|reflexivity]].
    destruct (IH (S i) ltac:(lia) ltac:(lia)) as [[E1 E2]|[E1 E2]]; [left|right]; rewrite E2; cbn [bind]; (split; [congruence|reflexivity]).
Qed.

Lemma join_to_cases amax (w x : arr) : valid_arr w -> valid_arr x -> (fst w <> [] \/ fst x <> []) ->
  (exists t, joinable t [w; x] /\ join_to amax w x =
     if amax <? Zcap t [w; x] then Err else Ok ((if (length t =? 0)%nat then count t [w; x] else Z.to_nat (to_u 32 (Z.of_nat (count t [w; x])))) :: t, concat (map snd [w; x])))
  \/ ((forall t, ~ joinable t [w; x]) /\ join_to amax w x = Err).
Proof.
  intros Vw Vx NE. unfold join_to. destruct w as [wsh wl], x as [xsh xl]. cbn [fst snd] in *.
  set (c := if (length xsh <? length wsh)%nat then length wsh else length xsh).
  assert (HC : c = Nat.max (length wsh) (length xsh)) by (unfold c; destruct (Nat.ltb_spec (length xsh) (length wsh)); lia).
  clearbody c. assert (C1 : (1 <= c)%nat).
  { destruct NE as [NE|NE]; [destruct wsh|destruct xsh]; try congruence; cbn [length] in HC; lia. }
  destruct (Nat.eqb_spec c 0) as [?|_]; [lia|].
  assert (JL : forall t, joinable t [(wsh, wl); (xsh, xl)] -> c = S (length t)).
  { intros t [F E]. inversion F as [|? ? F1 F2]; subst. inversion F2 as [|? ? F3 _]; subst. apply fits_len in F1, F3. cbn [fst] in *.
    apply Exists_exists in E. destruct E as (a & Ia & l & Ea). destruct Ia as [<-|[<-|[]]]; cbn [fst] in Ea; rewrite Ea in *; cbn [length] in *; lia. }
  destruct (Nat.ltb_spec 1 (c - length wsh)) as [G|G].
  { right. split; [|reflexivity]. intros t J. pose proof (JL t J). destruct J as [F _]. inversion F as [|? ? F1 F2]; subst. apply fits_len in F1. cbn [fst] in F1. lia. }
  destruct (Nat.ltb_spec 1 (c - length xsh)) as [G'|G'].
  { right. split; [|reflexivity]. intros t J. pose proof (JL t J). destruct J as [F _]. inversion F as [|? ? F1 F2]; subst. inversion F2 as [|? ? F3 _]; subst. apply fits_len in F3. cbn [fst] in F3. lia. }
  cbn [orb].
  assert (TOT : forall t, joinable t [(wsh, wl); (xsh, xl)] -> Z.of_nat (length wl + length xl) = Zcap t [(wsh, wl); (xsh, xl)]).
  { intros t [F _]. pose proof (concat_size t [(wsh, wl); (xsh, xl)]) as S. cbn [map snd concat] in S. rewrite app_nil_r, app_length in S.
    unfold Zcap. rewrite S; [lia| |exact F]. repeat constructor; assumption. }
  destruct (Nat.eqb_spec c 1) as [E1|N1].
  - left. exists []. 
    assert (JB : joinable [] [(wsh, wl); (xsh, xl)]).
    { split.
      - constructor; [|constructor; [|constructor]]; unfold fits; cbn [fst].
        + destruct wsh as [|a [|]]; cbn [length] in *; [left; reflexivity|right; exists a; reflexivity|lia].
        + destruct xsh as [|a [|]]; cbn [length] in *; [left; reflexivity|right; exists a; reflexivity|lia].
      - destruct wsh as [|a [|]]; cbn [length] in *; [|apply Exists_cons_hd; exists a; reflexivity|lia].
        destruct xsh as [|b [|]]; cbn [length] in *; [lia|apply Exists_cons_tl, Exists_cons_hd; exists b; reflexivity|lia]. }
    split; [exact JB|]. rewrite (TOT [] JB). destruct (amax <? _); [reflexivity|]. cbn [length Nat.eqb map snd concat]. rewrite app_nil_r.
    do 3 f_equal. rewrite app_length. pose proof (TOT [] JB) as T. unfold Zcap in T. change (size []) with 1%nat in T. lia.
  - set (tw := skipn (1 + length wsh - c) wsh). set (tx := skipn (1 + length xsh - c) xsh).
    assert (EW : (if (length wsh <=? 1)%nat then [length wl] else wsh) = wsh).
    { destruct (Nat.leb_spec (length wsh) 1); [|reflexivity]. destruct wsh as [|a [|]]; cbn [length] in *; try lia.
      unfold valid_arr, array in Vw. cbn [fst snd size fold_right] in Vw. rewrite Vw. f_equal. lia. }
    rewrite EW.
    assert (FW : fits tw (wsh, wl)).
    { unfold fits, tw; cbn [fst]. destruct (Nat.eq_dec (length wsh) c) as [E|E].
      - replace (1 + length wsh - c)%nat with 1%nat by lia. destruct wsh as [|a wsh]; [cbn [length] in E; lia|]. right. exists a. reflexivity.
      - replace (1 + length wsh - c)%nat with 0%nat by lia. left. reflexivity. }
    assert (FX : fits tx (xsh, xl)).
    { unfold fits, tx; cbn [fst]. destruct (Nat.eq_dec (length xsh) c) as [E|E].
      - replace (1 + length xsh - c)%nat with 1%nat by lia. destruct xsh as [|a xsh]; [cbn [length] in E; lia|]. right. exists a. reflexivity.
      - replace (1 + length xsh - c)%nat with 0%nat by lia. left. reflexivity. }
    assert (Lw : length tw = (c - 1)%nat) by (unfold tw; rewrite skipn_length; lia).
    assert (Lx : length tx = (c - 1)%nat) by (unfold tx; rewrite skipn_length; lia).
    pose proof (trail_ok wsh xsh c) as T. cbv zeta in T. fold tw tx in T. 
    specialize (T ltac:(lia) ltac:(lia) ltac:(lia) ltac:(lia) ltac:(lia) (c - 1)%nat 1%nat ltac:(lia) ltac:(lia)).
    cbn [Nat.sub skipn] in T. destruct T as [[T1 T2]|[T1 T2]]; rewrite T2; cbn [bind].
    + assert (JB : joinable tx [(wsh, wl); (xsh, xl)]).
      { split.
        - constructor; [rewrite <- T1; exact FW|constructor; [exact FX|constructor]].
        - destruct (Nat.eq_dec (length wsh) c) as [E|E].
          + apply Exists_cons_hd. rewrite <- T1. destruct FW as [F|F]; [|exact F]. cbn [fst] in F. rewrite <- F in Lw. lia.
          + apply Exists_cons_tl, Exists_cons_hd. destruct FX as [F|F]; [|exact F]. cbn [fst] in F. rewrite <- F in Lx. lia. }
      left. exists tx. split; [exact JB|]. rewrite (TOT tx JB). destruct (amax <? _); [reflexivity|].
      assert (CE : count tx [(wsh, wl); (xsh, xl)] = ((if (length wsh =? c)%nat then hd 0%nat wsh else 1%nat) + (if (length xsh =? c)%nat then hd 0%nat xsh else 1%nat))%nat).
      { cbn [count fold_right]. unfold ncells. cbn [fst]. rewrite Lx.
        destruct (Nat.eqb_spec (length wsh) (c - 1)), (Nat.eqb_spec (length wsh) c); try lia;
        destruct (Nat.eqb_spec (length xsh) (c - 1)), (Nat.eqb_spec (length xsh) c); try lia. }
      rewrite CE. cbn [map snd concat]. rewrite app_nil_r.
      destruct (Nat.eqb_spec (length tx) 0) as [?|_]; [lia|].
      assert (D1 : (if (length wsh =? c)%nat then rd wsh 0 else Ok 1%nat) = Ok (if (length wsh =? c)%nat then hd 0%nat wsh else 1%nat)).
      { destruct (Nat.eqb_spec (length wsh) c); [|reflexivity]. destruct wsh; [cbn [length] in *; lia|reflexivity]. }
      assert (D2 : (if (length xsh =? c)%nat then rd xsh 0 else Ok 1%nat) = Ok (if (length xsh =? c)%nat then hd 0%nat xsh else 1%nat)).
      { destruct (Nat.eqb_spec (length xsh) c); [|reflexivity]. destruct xsh; [cbn [length] in *; lia|reflexivity]. }
      rewrite D1, D2. cbn [bind]. rewrite Nat2Z.inj_add. reflexivity.
    + right. split; [|destruct (amax <? _); reflexivity].
      intros t J. pose proof (JL t J) as LT. destruct J as [F _]. pose proof (Forall_inv F) as F1. pose proof (Forall_inv (Forall_inv_tail F)) as F3.
      apply T1.
      assert (Q : forall sh (l : list A), fits t (sh, l) -> skipn (1 + length sh - c) sh = t).
      { intros sh l [Fs|[k Fs]]; cbn [fst] in Fs; subst sh.
        - replace (1 + length t - c)%nat with 0%nat by lia. reflexivity.
        - cbn [length]. replace (1 + S (length t) - c)%nat with 1%nat by lia. reflexivity. }
      unfold tw, tx. rewrite (Q wsh wl F1), (Q xsh xl F3). reflexivity.
Qed.
End J.
