(** Repeat. *)
From Verif Require Import Base SqueezeModel MapModel MapSpec MapProof.
Open Scope Z_scope.
Section G.
Variable P : gv -> Prop.
Hypothesis Hn : forall z, P (GNum z).
Hypothesis Ho : P GOther.
Hypothesis Ha : forall num sh gs, Forall P gs -> P (GArr num sh gs).
Fixpoint gv_ind' (g : gv) : P g :=
  match g with
  | GNum z => Hn z
  | GOther => Ho
  | GArr num sh gs => Ha num sh gs ((fix go gs := match gs return Forall P gs with [] => Forall_nil P | g :: gs => Forall_cons g (gv_ind' g) (go gs) end) gs)
  end.
End G.
(** b' is b widened to contain all the counts C *)
Definition widened (C : Z -> Prop) (b b' : Z * Z) : Prop :=
  (fst b' <= fst b /\ (fst b' = fst b \/ C (fst b')) /\ forall z, C z -> fst b' <= z) /\
  (snd b <= snd b' /\ (snd b' = snd b \/ C (snd b')) /\ forall z, C z -> z <= snd b').
Definition outcome (g : gv) (b : Z * Z) (r : res (Z * Z)) : Prop :=
  match r with Ok b' => ~ bad g /\ widened (counts g) b b' | Err => bad g | UB => False end.
Lemma range_from_ok : forall gs lo hi, Forall (fun g => exists z, g = GNum z) gs ->
  match range_from gs lo hi with
  | Some b => (forall g, In g gs -> ~ bad g) /\ widened (fun z => exists g, In g gs /\ counts g z) (lo, hi) b
  | None => exists g, In g gs /\ bad g
  end.
Proof.
  induction gs as [|g gs IH]; intros lo hi F; cbn [range_from].
  - split; [intros g []|]. repeat split; cbn; try lia; try (left; reflexivity); intros z (g&[]&_).
  - pose proof (Forall_inv F) as (z&->). apply Forall_inv_tail in F. cbn [num_of]. destruct z as [c|]; [|eexists; split; [left; reflexivity|constructor]].
    set (lo1 := if c <? lo then c else lo). set (hi1 := if hi <? c then c else hi). specialize (IH lo1 hi1 F). destruct (range_from gs lo1 hi1) as [[l h]|].
    + destruct IH as (NB&(A1&A2&A3)&(B1&B2&B3)). cbn [fst snd] in *. split; [intros g [<-|I]; [intros B; inversion B|auto]|].
      assert (C0 : counts (GNum (Some c)) c) by constructor.
      assert (X : lo1 <= lo /\ lo1 <= c /\ (lo1 = lo \/ lo1 = c)) by (unfold lo1; destruct (Z.ltb_spec c lo); lia).
      assert (Y : hi <= hi1 /\ c <= hi1 /\ (hi1 = hi \/ hi1 = c)) by (unfold hi1; destruct (Z.ltb_spec hi c); lia).
      clearbody lo1 hi1. split; cbn [fst snd].
      * split; [lia|]. split.
        -- destruct A2 as [A2|(g&I&G)]; [|right; exists g; split; [right; exact I|exact G]]. destruct X as (_&_&[X|X]); [left; lia|right; exists (GNum (Some c)); split; [left; reflexivity|]; rewrite A2, X; exact C0].
        -- intros z (g&[<-|I]&G); [inversion G; subst; lia|apply A3; eauto].
      * split; [lia|]. split.
        -- destruct B2 as [B2|(g&I&G)]; [|right; exists g; split; [right; exact I|exact G]]. destruct Y as (_&_&[Y|Y]); [left; lia|right; exists (GNum (Some c)); split; [left; reflexivity|]; rewrite B2, Y; exact C0].
        -- intros z (g&[<-|I]&G); [inversion G; subst; lia|apply B3; eauto].
    + destruct IH as (g&I&B). exists g. split; [right; exact I|exact B].
Qed.
Lemma widened_trans C D b b1 b2 : widened C b b1 -> widened D b1 b2 -> widened (fun z => C z \/ D z) b b2.
Proof.
  intros ((A1&A2&A3)&(B1&B2&B3)) ((C1&C2&C3)&(D1&D2&D3)). split.
  - split; [lia|]. split; [destruct C2 as [->|]; [destruct A2 as [->|]|]; auto|]. intros z [H|H]; [specialize (A3 z H); lia|auto].
  - split; [lia|]. split; [destruct D2 as [->|]; [destruct B2 as [->|]|]; auto|]. intros z [H|H]; [specialize (B3 z H); lia|auto].
Qed.
Lemma widened_iff C D b b' : (forall z, C z <-> D z) -> widened C b b' -> widened D b b'.
Proof. intros E ((A1&A2&A3)&(B1&B2&B3)). repeat split; auto; try (destruct A2; [left|right; apply E]; assumption); try (destruct B2; [left|right; apply E]; assumption); intros z H; apply E in H; auto. Qed.
Lemma counts_cons num sh g gs z : counts (GArr num sh (g :: gs)) z <-> counts g z \/ counts (GArr num sh gs) z.
Proof.
  split.
  - intros H. inversion H as [|n s l g' z' I G]; subst. destruct I as [<-|I]; [left; exact G|right; econstructor; eauto].
  - intros [H|H]; [econstructor; [left; reflexivity|exact H]|]. inversion H as [|n s l g' z' I G]; subst. econstructor; [right; exact I|exact G].
Qed.
Lemma bounds_ok : forall g, wf_g g -> forall b, outcome g b (bounds g b).
Proof.
  apply (gv_ind' (fun g => wf_g g -> forall b, outcome g b (bounds g b))).
  - intros [c|] _ [lo hi]; cbn [bounds outcome]; [|constructor]. split; [intros B; inversion B|]. assert (C0 : counts (GNum (Some c)) c) by constructor.
    split; cbn [fst snd].
    + destruct (Z.ltb_spec c lo); (split; [lia|]); (split; [auto|]); intros z H1; inversion H1; subst; lia.
    + destruct (Z.ltb_spec hi c); (split; [lia|]); (split; [auto|]); intros z H1; inversion H1; subst; lia.
  - intros _ b. cbn [bounds outcome]. constructor.
  - intros num sh gs IH W b. inversion W as [| |n s l WF NU]; subst. cbn [bounds]. destruct gs as [|g0 gs].
    { cbn [outcome]. split; [intros B; inversion B as [| |n s l g I G]; subst; destruct I|]. repeat split; try lia; auto; intros z H; inversion H as [|n s l g z' I G]; subst; destruct I. }
    destruct num.
    + specialize (NU eq_refl). pose proof (Forall_inv NU) as (z0&->). apply Forall_inv_tail in NU. cbn [get_range num_of]. destruct z0 as [c|]; [|cbn [outcome]; econstructor; [left; reflexivity|constructor]].
      pose proof (range_from_ok gs c c NU) as R. destruct (range_from gs c c) as [[lo hi]|].
      * destruct R as (NB&(A1&A2&A3)&(B1&B2&B3)). cbn [fst snd] in *. cbn [outcome]. split.
        { intros B. inversion B as [| |n s l g I G]; subst. destruct I as [<-|I]; [inversion G|exact (NB _ I G)]. }
        assert (LO : counts (GArr true sh (GNum (Some c) :: gs)) lo) by (destruct A2 as [->|(g&I&G)]; [econstructor; [left; reflexivity|constructor]|econstructor; [right; exact I|exact G]]).
        assert (HI : counts (GArr true sh (GNum (Some c) :: gs)) hi) by (destruct B2 as [->|(g&I&G)]; [econstructor; [left; reflexivity|constructor]|econstructor; [right; exact I|exact G]]).
        assert (ALL : forall z, counts (GArr true sh (GNum (Some c) :: gs)) z -> lo <= z <= hi).
        { intros z H. inversion H as [|n s l g z' I G]; subst. destruct I as [<-|I]; [inversion G; subst; lia|]. specialize (A3 z ltac:(eauto)). specialize (B3 z ltac:(eauto)). lia. }
        destruct b as [bl bh]. split; cbn [fst snd].
        -- destruct (Z.ltb_spec lo bl); (split; [lia|]); (split; [auto|]); intros z H1; specialize (ALL z H1); lia.
        -- destruct (Z.ltb_spec bh hi); (split; [lia|]); (split; [auto|]); intros z H1; specialize (ALL z H1); lia.
      * destruct R as (g&I&B). cbn [outcome]. econstructor; [right; exact I|exact B].
    + assert (X : exists l, l = g0 :: gs) by eauto. destruct X as (l&EL).
      change (outcome (GArr false sh (g0 :: gs)) b ((fix go gs b := match gs with [] => Ok b | g :: gs => do b <- bounds g b; go gs b end) (g0 :: gs) b)).
      rewrite <- EL in *. clear NU W EL g0 gs. revert IH WF b. induction l as [|g gs IHl]; intros IH WF b.
      { cbn [outcome]. split; [intros B; inversion B as [| |n s l g I G]; subst; destruct I|]. repeat split; try lia; auto; intros z H; inversion H as [|n s l g z' I G]; subst; destruct I. }
      pose proof (Forall_inv IH (Forall_inv WF) b) as O1. destruct (bounds g b) as [b1| |]; cbn [outcome bind] in *; [|econstructor; [left; reflexivity|exact O1]|exact O1].
      destruct O1 as [NB W1]. specialize (IHl (Forall_inv_tail IH) (Forall_inv_tail WF) b1). set (go := _ : list gv -> Z * Z -> res (Z * Z)) in *. destruct (go gs b1) as [b2| |]; cbn [outcome] in *; [|inversion IHl as [| |n s l g' I G]; subst; econstructor; [right; exact I|exact G]|exact IHl].
      destruct IHl as [NB2 W2]. split.
      * intros B. inversion B as [| |n s l g' I G]; subst. destruct I as [<-|I]; [exact (NB G)|]. apply NB2. econstructor; [exact I|exact G].
      * eapply widened_iff; [|eapply widened_trans; [exact W1|exact W2]]. intros z. symmetry. apply counts_cons.
Qed.
Section P.
Context {V S : Type}.
Lemma times_chain n : forall (f : V -> S -> res (V * S)) x s, times n f x s = do (ys, s) <- chain n f x s; Ok (last ys x, s).
Proof.
  induction n as [|n IH]; intros f x s; [reflexivity|]. cbn [times chain]. destruct (f x s) as [[y s1]| |]; [|reflexivity..]. cbn [bind]. rewrite IH.
  destruct (chain n f y s1) as [[ys s2]| |] eqn:E; [|reflexivity..]. cbn [bind]. f_equal. f_equal. clear. revert y. destruct ys as [|a ys]; intros y; [reflexivity|]. cbn [last].
  revert a. induction ys as [|b ys IH]; intros a; [reflexivity|]. cbn [last] in *. apply IH.
Qed.
Lemma chain_len n : forall (f : V -> S -> res (V * S)) x s ys t, chain n f x s = Ok (ys, t) -> length ys = n.
Proof.
  induction n as [|n IH]; intros f x s ys t; cbn [chain]; [intros [= <- _]; reflexivity|]. destruct (f x s) as [[y s1]| |]; [|discriminate..]. destruct (chain n f y s1) as [[l s2]| |] eqn:E; [|discriminate..].
  intros [= <- _]. cbn [length]. f_equal. eapply IH. exact E.
Qed.
Lemma nth_upd {A} (l : list A) i v j : nth_error (upd l i v) j = if (j =? i)%nat then match nth_error l i with Some _ => Some v | None => None end else nth_error l j.
Proof.
  revert i j. induction l as [|a l IH]; intros [|i] [|j]; cbn [upd nth_error Nat.eqb]; try reflexivity; [destruct (j =? i)%nat; reflexivity|]. apply IH.
Qed.
Lemma upd_len {A} (l : list A) i v : length (upd l i v) = length l.
Proof. revert i. induction l as [|a l IH]; intros [|i]; cbn [upd length]; auto. Qed.
(** step is 1 or -1 *)
Lemma fill_ok (f : V -> S -> res (V * S)) st (ST : st = 1 \/ st = -1) : forall n at_ all x s,
  0 <= at_ + st * Z.of_nat n < Z.of_nat (length all) -> 0 <= at_ < Z.of_nat (length all) ->
  match chain n f x s with
  | Ok (ys, t) => exists all', fill_calls n f st at_ all x s = Ok (all', t) /\ length all' = length all /\
      (forall i y, nth_error ys i = Some y -> nth_error all' (Z.to_nat (at_ + st * (1 + Z.of_nat i))) = Some (Some y)) /\
      (forall j, (j < length all)%nat -> (st * (Z.of_nat j - at_) <= 0) -> nth_error all' j = nth_error all j)
  | Err => fill_calls n f st at_ all x s = Err
  | UB => fill_calls n f st at_ all x s = UB
  end.
Proof.
  induction n as [|n IH]; intros at_ all x s B0 B1; cbn [chain fill_calls].
  - exists all. split; [reflexivity|]. split; [reflexivity|]. split; [intros [|i] y; discriminate|reflexivity].
  - destruct (f x s) as [[y s1]| |]; [|reflexivity..]. cbn [bind].
    assert (B2 : 0 <= at_ + st < Z.of_nat (length all)) by (destruct ST as [-> | ->]; lia).
    destruct (Z.ltb_spec (at_ + st) 0) as [|_]; [lia|]. unfold wr. destruct (Nat.ltb_spec (Z.to_nat (at_ + st)) (length all)) as [_|BB]; [|lia]. cbn [bind].
    specialize (IH (at_ + st) (upd all (Z.to_nat (at_ + st)) (Some y)) y s1). rewrite upd_len in IH. specialize (IH ltac:(destruct ST as [-> | ->]; lia) B2).
    destruct (chain n f y s1) as [[ys t]| |]; [|exact IH..]. destruct IH as (all'&E&L&G&K). exists all'. split; [exact E|]. split; [exact L|]. split.
    + intros [|i] z; cbn [nth_error].
      * intros [= ->]. rewrite K by (rewrite ?upd_len; destruct ST as [-> | ->]; lia). rewrite nth_upd. replace (at_ + st * (1 + Z.of_nat 0)) with (at_ + st) by lia. rewrite Nat.eqb_refl.
        destruct (nth_error all (Z.to_nat (at_ + st))) eqn:NE; [reflexivity|]. apply nth_error_None in NE. lia.
      * intros H. rewrite <- (G i z H). f_equal. lia.
    + intros j Lj Hj. rewrite K by (rewrite ?upd_len; destruct ST as [-> | ->]; lia). rewrite nth_upd. destruct (Nat.eqb_spec j (Z.to_nat (at_ + st))); [destruct ST as [-> | ->]; lia|reflexivity].
Qed.
Lemma replace_ok (all : list (option V)) min at_ : 0 <= min -> forall g, ~ bad g -> (forall z, counts g z -> exists v, at_ z = Some v /\ 0 <= min + z /\ nth_error all (Z.to_nat (min + z)) = Some (Some v)) ->
  exists r, replace all min g = Ok r /\ substituted at_ g r.
Proof.
  intros M. apply (gv_ind' (fun g => ~ bad g -> (forall z, counts g z -> exists v, at_ z = Some v /\ 0 <= min + z /\ nth_error all (Z.to_nat (min + z)) = Some (Some v)) -> exists r, replace all min g = Ok r /\ substituted at_ g r)).
  - intros [z|] NB H; [|exfalso; apply NB; constructor]. destruct (H z ltac:(constructor)) as (v&A&P&N). cbn [replace]. rewrite (proj2 (Z.ltb_ge _ _)) by lia. unfold rd. rewrite N. cbn [bind]. eexists. split; [reflexivity|]. constructor. exact A.
  - intros NB _. exfalso. apply NB. constructor.
  - intros num sh gs IH NB H. cbn [replace].
    assert (X : exists rs, (fix go gs := match gs with [] => Ok [] | g :: gs => do r <- replace all min g; do rs <- go gs; Ok (r :: rs) end) gs = Ok rs /\ Forall2 (substituted at_) gs rs).
    { assert (NB' : forall g, In g gs -> ~ bad g) by (intros g I B; apply NB; econstructor; eauto).
      assert (H' : forall g z, In g gs -> counts g z -> exists v, at_ z = Some v /\ 0 <= min + z /\ nth_error all (Z.to_nat (min + z)) = Some (Some v)) by (intros g z I C; apply H; econstructor; eauto).
      clear H NB. induction gs as [|g gs IHl]; [exists []; split; [reflexivity|constructor]|].
      destruct (Forall_inv IH) as (r&E&Q); [apply NB'; left; reflexivity|intros z C; eapply H'; [left; reflexivity|exact C]|].
      destruct IHl as (rs&E2&Q2); [exact (Forall_inv_tail IH)|intros; apply NB'; right; assumption|intros g' z I C; eapply H'; [right; exact I|exact C]|].
      exists (r :: rs). rewrite E. cbn [bind]. rewrite E2. split; [reflexivity|constructor; assumption]. }
    destruct X as (rs&E&Q). rewrite E. cbn [bind]. eexists. split; [reflexivity|]. constructor. exact Q.
Qed.
Lemma shift_small a b : 0 <= a -> 0 <= b -> (Z.shiftr (Z.lor a b) 48 =? 0) = true <-> a < 2 ^ 48 /\ b < 2 ^ 48.
Proof.
  intros A B. rewrite Z.eqb_eq. assert (N : 0 <= Z.lor a b) by (apply Z.lor_nonneg; lia). rewrite Z.shiftr_div_pow2 by lia.
  assert (E : Z.lor a b / 2 ^ 48 = Z.lor (a / 2 ^ 48) (b / 2 ^ 48)) by (rewrite <- !Z.shiftr_div_pow2 by lia; apply Z.shiftr_lor). rewrite E, Z.lor_eq_0_iff.
  rewrite !Z.div_small_iff by lia. lia.
Qed.
End P.
