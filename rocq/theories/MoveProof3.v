(** Proofs about MoveModel: the copying loop of Take and Drop along several axes, continued. *)
From Coq Require Import List Arith ZArith Bool Lia.
Import ListNotations.
From Verif Require Import Base ListLib SqueezeModel TransModel TransSpec TransProof TransProof2 TransProof5 MoveModel MoveSpec MoveProof MoveProof2.
Open Scope nat_scope.
Notation ent := ((nat * nat * nat) * (nat * nat))%type.
Definition tr (ts : list ent) : list (nat * nat) := map (fun e => (fst (fst (fst e)), fst (snd e))) ts.
Definition tx (ts : list ent) : list (nat * nat) := map (fun e => (fst (fst (fst e)), snd (snd e))) ts.
Fixpoint stK (ts : list ent) (K : nat) : list (nat * (nat * nat * nat)) :=
  match ts with [] => [] | ((t, rc, xc), _) :: ts => (t - K mod t, (t, rc, xc)) :: stK ts (K / t) end.
Lemma tdbump_ok dr dx ts : forall Br Bx K, dl Br Bx ts -> K < P (tr ts) ->
  (K + 1 = P (tr ts) /\ tdbump dr dx false (stK ts K) = Ok None) \/
  (K + 1 < P (tr ts) /\ exists a b, tdbump dr dx false (stK ts K) = Ok (Some (stK ts (K + 1), a, b)) /\ a + Br + offr (tr ts) K = offr (tr ts) (K + 1) /\ b + Bx + offr (tx ts) K = offr (tx ts) (K + 1)).
Proof.
  induction ts as [|[[[t rc] xc] [sr sx]] ts IH]; intros Br Bx K D KB.
  - left. split; auto. unfold P in *. cbn in *. lia.
  - cbn [dl] in D. destruct D as (T & E1 & E2 & D). cbn [tr tx map fst snd] in *. fold (tr ts) in *. fold (tx ts) in *. rewrite P_cons in *. cbn [stK tdbump offr]. pose proof (Nat.mod_upper_bound K t ltac:(lia)) as MB. replace (t - K mod t =? 0) with false by (symmetry; apply Nat.eqb_neq; lia).
    assert (KD : K / t < P (tr ts)) by (apply Nat.div_lt_upper_bound; lia). destruct (succ_digit t K T) as [(A1 & A2 & A3)|(A1 & A2 & A3)]; rewrite A2, A3.
    + right. replace (t - K mod t =? 1) with false by (symmetry; apply Nat.eqb_neq; lia). split. { pose proof (Nat.div_mod K t ltac:(lia)). nia. } exists rc, xc. replace (t - K mod t - 1) with (t - (K mod t + 1)) by lia. split; auto. split; lia.
    + replace (t - K mod t =? 1) with true by (symmetry; apply Nat.eqb_eq; lia). pose proof (Nat.div_mod K t ltac:(lia)) as DM. assert (EM : K mod t = t - 1) by lia. destruct (IH _ _ (K / t) D KD) as [(Q & ->)|(Q & a & b & -> & Qa & Qb)]; cbn [bind].
      * left. split; auto. nia.
      * right. split; [nia|]. exists a, b. rewrite Nat.sub_0_r. split; auto. rewrite EM. split; lia.
Qed.
(** the first step is taken with rSkip and xSkip, which are the steps of the innermost axis *)
Lemma tdbump_first dr dx ts K : match ts with [] => True | ((_, rc, xc), _) :: _ => dr = rc /\ dx = xc end -> tdbump dr dx true (stK ts K) = tdbump dr dx false (stK ts K).
Proof. destruct ts as [|[[[t rc] xc] e] ts]; auto. intros [-> ->]. reflexivity. Qed.
Section Loop.
Context {A : Type}.
Variables (x : list A) (N cw dr dx ri0 xi0 : nat) (want : nat -> option A) (anyFill : bool) (fill : option A) (ts : list ent).
Notation PP := (P (tr ts)).
Definition rpos (K : nat) : nat := ri0 + offr (tr ts) K.
Definition xpos (K : nat) : nat := xi0 + offr (tx ts) K.
Definition cov (K p : nat) : Prop := rpos K <= p < rpos K + cw.
Hypothesis D : dl 0 0 ts.
Hypothesis H1 : match ts with [] => True | ((_, rc, xc), _) :: _ => dr = rc /\ dx = xc end.
Hypothesis HC : forall K, K < PP -> rpos K + cw <= N /\ xpos K + cw <= length x /\ forall t, t < cw -> want (rpos K + t) = nth_error x (xpos K + t).
Hypothesis HM : forall K, K + 1 < PP -> rpos K + cw <= rpos (K + 1).
Hypothesis HG : anyFill = true -> exists f, fill = Some f /\ forall p, p < N -> (forall K, K < PP -> ~ cov K p) -> want p = Some f.
Lemma mono K K' : K <= K' -> K' < PP -> rpos K <= rpos K' /\ (K < K' -> rpos K + cw <= rpos K').
Proof.
  intros L B. induction K' as [|K' IH]; [replace K with 0 by lia; split; lia|]. destruct (Nat.eq_dec K (S K')) as [->|NE]; [split; lia|]. destruct IH as [I1 I2]; [lia|lia|]. pose proof (HM K') as M. replace (K' + 1) with (S K') in M by lia. specialize (M B). destruct (Nat.eq_dec K K') as [->|]; split; lia.
Qed.
Lemma tdloop_ok fuel : forall K pri r, K < PP -> PP - K <= fuel -> winv N want r (fun p => (exists K', K' < K /\ cov K' p) \/ anyFill = true /\ p < pri) ->
  (anyFill = true -> pri <= rpos K /\ forall K', K' < K -> rpos K' + cw <= pri) ->
  exists r' pri', tdloop fuel anyFill fill x cw dr dx (stK ts K) (rpos K) (xpos K) pri r = Ok (r', pri') /\ winv N want r' (fun p => (exists K', K' < PP /\ cov K' p) \/ anyFill = true /\ p < pri') /\
    (anyFill = true -> pri' <= N /\ forall K', K' < PP -> rpos K' + cw <= pri').
Proof.
  induction fuel as [|fuel IH]; intros K pri r KB FB IV HP; [lia|]. cbn [tdloop]. destruct (HC K KB) as (B1 & B2 & EQ).
  assert (STEP : exists r1 pri1, (if anyFill then do r <- (if negb (rpos K =? pri) then (if rpos K <? pri then UB else do f <- need fill; fillm r pri f (rpos K - pri)) else Ok r); Ok (r, rpos K + cw) else Ok (r, pri)) = Ok (r1, pri1) /\ winv N want r1 (fun p => (exists K', K' < K /\ cov K' p) \/ anyFill = true /\ p < rpos K) /\ (anyFill = true -> pri1 = rpos K + cw)).
  { destruct anyFill eqn:AF.
    - destruct (HP eq_refl) as [HP1 HP2]. destruct (HG eq_refl) as (f & -> & GF). destruct (Nat.eqb_spec (rpos K) pri) as [EP|NE]; cbn [negb].
      + exists r, (rpos K + cw). split; auto. split; auto. rewrite EP. exact IV.
      + replace (rpos K <? pri) with false by (symmetry; apply Nat.ltb_ge; lia). cbn [need bind]. destruct (wfill N want r _ pri f (rpos K - pri) IV) as (r1 & -> & IV1); [lia| |].
        * intros k KK. apply GF; [lia|]. intros K' KB' [C1 C2]. destruct (Nat.lt_ge_cases K' K) as [L|L]; [specialize (HP2 K' L); lia|]. destruct (mono K K' L KB') as [M _]. lia.
        * cbn [bind]. exists r1, (rpos K + cw). split; auto. split; auto. eapply winv_weak; [|exact IV1]. intros p PB [Q|[_ Q]]; [left; left; auto|]. destruct (Nat.lt_ge_cases p pri); [left; right; auto|right; lia].
    - exists r, pri. split; auto. split; [|discriminate]. eapply winv_weak; [|exact IV]. intros p PB [Q|[Q _]]; [left; auto|discriminate]. }
  destruct STEP as (r1 & pri1 & -> & IV1 & E1). cbn [bind].
  destruct (wcopy N want r1 _ (rpos K) x (xpos K) cw IV1 B1 B2 EQ) as (r2 & -> & IV2). cbn [bind]. rewrite tdbump_first by exact H1.
  assert (IV3 : winv N want r2 (fun p => (exists K', K' < K + 1 /\ cov K' p) \/ anyFill = true /\ p < pri1)).
  { eapply winv_weak; [|exact IV2]. intros p PB [(K' & L & C)|[AF Q]]. - destruct (Nat.eq_dec K' K) as [->|]; [right; auto|left; left; exists K'; split; [lia|auto]]. - rewrite E1 in Q by auto. destruct (Nat.lt_ge_cases p (rpos K)); [left; right; auto|right; lia]. }
  assert (HP' : anyFill = true -> forall K', K' < K + 1 -> rpos K' + cw <= pri1). { intros AF K' L. rewrite E1 by auto. destruct (mono K' K) as [M _]; [lia|auto|lia]. }
  destruct (tdbump_ok dr dx ts 0 0 K D KB) as [(Q & ->)|(Q & a & b & -> & Qa & Qb)]; cbn [bind].
  - exists r2, pri1. rewrite <- Q. split; auto. split; auto. intros AF. rewrite E1 at 1 by auto. split; auto.
  - replace (rpos K + a) with (rpos (K + 1)) by (unfold rpos; lia). replace (xpos K + b) with (xpos (K + 1)) by (unfold xpos; lia). apply IH; [lia|lia|exact IV3|]. intros AF. rewrite E1 at 1 by auto. split; [apply HM; auto|apply HP'; auto].
Qed.
End Loop.
