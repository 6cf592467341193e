From Verif Require Import Base BitsModel BitsSpec SqueezeModel ReuseModel MutModel MutSpec MutProof.
From Coq Require Import List Lia ZArith.
Import ListNotations.
Open Scope Z_scope.

Section Sim.
Variable mk : el -> nat -> store.
Hypothesis Hmk : fresh mk.

Definition sim (n : nat) (e0 : option el) (m : mut) (t : list (option val)) : Prop :=
  m_ia m = n /\ length t = n /\
  match m_st m with
  | None => e0 = None /\ forall i v, nth_error t i <> Some (Some v)
  | Some s => room s n /\ match e0 with Some e => el_or (st_el s) e = st_el s | None => True end /\ forall i v, nth_error t i = Some (Some v) -> look s i = v
  end.

Lemma mut_to_ok n e0 m t x : sim n e0 m t -> match m_st m with Some s => el_or (st_el s) x <> st_el s | None => True end ->
  exists m' s', mut_to mk m (or_max m x) = Ok m' /\ sim n e0 m' t /\ m_st m' = Some s' /\ st_el s' = or_max m x.
Proof.
  intros (Hia & Ht & H) Hx. unfold mut_to, or_max. destruct (m_st m) as [s|] eqn:Em.
  - destruct H as (R & He & Hl). rewrite Hia.
    assert (Hc : exists s', copyG (mk (el_or (st_el s) x) n) 0 s 0 n = Ok s' /\ wrote_to (mk (el_or (st_el s) x) n) s' n 0 n (fun i => look s (0 + i))).
    { apply (copyG_ok _ n 0 s n 0 n); try lia; try assumption; [apply Hmk|]. destruct (Hmk (el_or (st_el s) x) n) as [-> _]. rewrite (or_comm (st_el s) x), or_assoc, or_same. reflexivity. }
    destruct Hc as (s' & Ec & W1 & W2 & W3 & W4). destruct (Hmk (el_or (st_el s) x) n) as [Ek _]. rewrite Ek in W1.
    exists {| m_ia := n; m_st := Some s' |}, s'. split.
    + destruct (st_el s) eqn:Es; try (rewrite Ec; reflexivity). rewrite or_B in Hx. congruence.
    + split; [|split; [reflexivity|exact W1]]. split; [reflexivity|]. split; [exact Ht|]. cbn [m_st]. split; [exact W2|]. split.
      * destruct e0 as [e|]; [|exact I]. rewrite W1. rewrite (or_comm (st_el s) x), or_assoc, He. reflexivity.
      * intros i v Hi. assert (i < n)%nat by (rewrite <- Ht; apply nth_error_Some; congruence). specialize (W3 i ltac:(assumption)). cbn [Nat.add] in W3. rewrite W3. apply Hl. exact Hi.
  - destruct H as (He & Hl). eexists. exists (mk x n). rewrite Hia. split; [reflexivity|]. split; [|split; [reflexivity|apply Hmk]].
    split; [reflexivity|]. split; [exact Ht|]. cbn [m_st]. split; [apply Hmk|]. subst e0. split; [exact I|]. intros i v Hi. destruct (Hl i v Hi).
Qed.
(** room for a value *)
Lemma make_fit n e0 m t v : sim n e0 m t -> exists m' s, (if holds m v then Ok m else mut_to mk m (or_max m (self_el v))) = Ok m' /\ sim n e0 m' t /\ m_st m' = Some s /\ fits (st_el s) v = true.
Proof.
  intros S. destruct (holds m v) eqn:Hh.
  - unfold holds in Hh. destruct (m_st m) as [s|] eqn:Em; [|discriminate]. exists m, s. auto.
  - destruct (mut_to_ok n e0 m t (self_el v) S) as (m' & s' & E & S' & Em & Es).
    + unfold holds in Hh. destruct (m_st m) as [s|]; [|exact I]. intros Heq. rewrite <- Heq in Hh. rewrite fits_or_r in Hh by apply fits_self. discriminate.
    + exists m', s'. split; [exact E|]. split; [exact S'|]. split; [exact Em|]. rewrite Es. unfold or_max. destruct (m_st m); [apply fits_or_r|]; apply fits_self.
Qed.
Lemma nth_put (t : list (option val)) p l i : (p + length l <= length t)%nat ->
  nth_error (put t p l) i = if (i <? p)%nat then nth_error t i else if (i <? p + length l)%nat then option_map Some (nth_error l (i - p)) else nth_error t i.
Proof.
  intros H. unfold put. assert (Hf : length (firstn p t) = p) by (rewrite firstn_length; lia). destruct (Nat.ltb_spec i p) as [A|A].
  - rewrite nth_error_app1 by lia. rewrite <- (firstn_skipn p t) at 2. rewrite nth_error_app1 by lia. reflexivity.
  - rewrite nth_error_app2 by lia. rewrite Hf. destruct (Nat.ltb_spec i (p + length l)) as [B|B].
    + rewrite nth_error_app1 by (rewrite map_length; lia). apply nth_error_map.
    + rewrite nth_error_app2 by (rewrite map_length; lia). rewrite map_length. rewrite <- (firstn_skipn (p + length l) t) at 2.
      rewrite nth_error_app2 by (rewrite firstn_length; lia). f_equal. rewrite firstn_length. lia.
Qed.
Lemma put_length (t : list (option val)) p l : (p + length l <= length t)%nat -> length (put t p l) = length t.
Proof. intros H. unfold put. rewrite !app_length, map_length, firstn_length, skipn_length. lia. Qed.
Lemma write_sim n e0 m t s s' p xl f : sim n e0 m t -> m_st m = Some s -> wrote_to s s' n p (length xl) f -> (p + length xl <= n)%nat -> (forall i v, nth_error xl i = Some v -> f i = v) ->
  sim n e0 {| m_ia := m_ia m; m_st := Some s' |} (put t p xl).
Proof.
  intros (Hia & Ht & H) Em (W1 & W2 & W3 & W4) Hp Hf. rewrite Em in H. destruct H as (R & He & Hl). split; [exact Hia|]. split; [rewrite put_length; lia|]. cbn [m_st].
  split; [exact W2|]. split; [rewrite W1; exact He|]. intros i v Hi. rewrite nth_put in Hi by lia. destruct (Nat.ltb_spec i p) as [A|A].
  - rewrite W4 by lia. apply Hl. exact Hi.
  - destruct (Nat.ltb_spec i (p + length xl)) as [B|B].
    + replace i with (p + (i - p))%nat by lia. rewrite W3 by lia. apply Hf. destruct (nth_error xl (i - p)) as [y|]; cbn in Hi; congruence.
    + assert (i < n)%nat by (rewrite <- Ht; apply nth_error_Some; congruence). rewrite W4 by lia. apply Hl. exact Hi.
Qed.
Lemma src_look x xl i v : source x xl -> nth_error xl i = Some v -> look x i = v.
Proof.
  intros [R C] Hi. assert (i < length xl)%nat by (apply nth_error_Some; congruence). destruct (getU_ok x (length xl) i R) as [E _]; [assumption|]. rewrite (C i v Hi) in E. congruence.
Qed.
Lemma slice_nth {A} (l : list A) xs k i v : nth_error (firstn k (skipn xs l)) i = Some v -> nth_error l (xs + i) = Some v.
Proof.
  intros H. assert (Hi : (i < length (firstn k (skipn xs l)))%nat) by (apply nth_error_Some; congruence). rewrite firstn_length, skipn_length in Hi.
  rewrite <- (firstn_skipn xs l). rewrite nth_error_app2 by (rewrite firstn_length; lia). rewrite firstn_length. replace (xs + i - Nat.min xs (length l))%nat with i by lia.
  rewrite <- (firstn_skipn k (skipn xs l)). rewrite nth_error_app1 by (rewrite firstn_length, skipn_length; lia). exact H.
Qed.
Lemma fits_sim n e0 m t v : sim n e0 m t -> fits_start e0 v -> exists s, m_st m = Some s /\ fits (st_el s) v = true.
Proof.
  intros (_ & _ & H) Hf. destruct e0 as [e|]; [|contradiction]. destruct (m_st m) as [s|]; [|destruct H; discriminate]. destruct H as (_ & He & _).
  exists s. split; [reflexivity|]. apply (fits_absorb _ e); assumption.
Qed.

Lemma step_sim n e0 m t o : sim n e0 m t -> legal n e0 o -> exists m', step mk m o = Ok m' /\ sim n e0 m' (wrote t o).
Proof.
  assert (HS : forall m s i v, sim n e0 m t -> m_st m = Some s -> (i < n)%nat -> fits (st_el s) v = true -> exists m', with_st m (fun s => setG s i v) = Ok m' /\ sim n e0 m' (put t i [v])).
  { intros m0 s i v S Em Hi Hf. unfold with_st. rewrite Em. assert (R : room s n) by (destruct S as (_ & _ & S); rewrite Em in S; apply S).
    destruct (setG_ok s n i v R Hi Hf) as (s' & E & W). rewrite E. cbn [bind]. eexists. split; [reflexivity|]. apply (write_sim n e0 m0 t s s' i [v] (fun _ => v)); try assumption.
    - cbn [length]. lia.
    - intros [|[|j]] y Hy; cbn in Hy; congruence. }
  assert (HF : forall m s i v l, sim n e0 m t -> m_st m = Some s -> (i + l <= n)%nat -> fits (st_el s) v = true -> exists m', with_st m (fun s => fillG s i v l) = Ok m' /\ sim n e0 m' (put t i (repeat v l))).
  { intros m0 s i v l S Em Hi Hf. unfold with_st. rewrite Em. assert (R : room s n) by (destruct S as (_ & _ & S); rewrite Em in S; apply S).
    destruct (fillG_ok s n i v l R Hi Hf) as (s' & E & W). rewrite E. cbn [bind]. eexists. split; [reflexivity|]. apply (write_sim n e0 m0 t s s' i (repeat v l) (fun _ => v)); try assumption; rewrite ?repeat_length; try assumption.
    intros j y Hy. apply nth_error_In in Hy. apply repeat_spec in Hy. congruence. }
  assert (HC : forall m s ms x xl xs l, sim n e0 m t -> m_st m = Some s -> source x xl -> (ms + l <= n)%nat -> (xs + l <= length xl)%nat -> el_or (st_el s) (st_el x) = st_el s ->
            exists m', with_st m (fun s => copyG s ms x xs l) = Ok m' /\ sim n e0 m' (put t ms (firstn l (skipn xs xl)))).
  { intros m0 s ms x xl xs l S Em Hs Hi Hx He. unfold with_st. rewrite Em. assert (R : room s n) by (destruct S as (_ & _ & S); rewrite Em in S; apply S).
    destruct (copyG_ok s n ms x (length xl) xs l R Hi (proj1 Hs) Hx He) as (s' & E & W). rewrite E. cbn [bind]. eexists. split; [reflexivity|].
    assert (Hl : length (firstn l (skipn xs xl)) = l) by (rewrite firstn_length, skipn_length; lia).
    apply (write_sim n e0 m0 t s s' ms _ (fun i => look x (xs + i))); try assumption; rewrite ?Hl; try assumption.
    intros j y Hy. apply (src_look x xl); [exact Hs|]. apply (slice_nth xl xs l). exact Hy. }
  intros S L. destruct o as [i v|i v l|ms x xl xs l|i v|i v l|ms x xl xs l]; cbn [step wrote legal] in *.
  - unfold mut_set. destruct (make_fit n e0 m t v S) as (m1 & s & E & S1 & Em & Hf). rewrite E. cbn [bind]. apply (HS m1 s); assumption.
  - unfold mut_fill. destruct (make_fit n e0 m t v S) as (m1 & s & E & S1 & Em & Hf). rewrite E. cbn [bind]. apply (HF m1 s); assumption.
  - destruct L as (Hs & Hi & Hx). unfold mut_copy.
    assert (A : exists m1 s, match m_st m with Some s => if elc (or_max m (st_el x)) =? elc (st_el s) then Ok m else mut_to mk m (or_max m (st_el x)) | None => mut_to mk m (or_max m (st_el x)) end = Ok m1 /\
               sim n e0 m1 t /\ m_st m1 = Some s /\ el_or (st_el s) (st_el x) = st_el s).
    { destruct (m_st m) as [s|] eqn:Em.
      - destruct (Z.eqb_spec (elc (or_max m (st_el x))) (elc (st_el s))) as [Q|Q].
        + exists m, s. split; [reflexivity|]. split; [exact S|]. split; [exact Em|]. apply elc_inj in Q. unfold or_max in Q. rewrite Em in Q. exact Q.
        + destruct (mut_to_ok n e0 m t (st_el x) S) as (m' & s' & E & S' & Em' & Es).
          * rewrite Em. intros Q'. apply Q. unfold or_max. rewrite Em. congruence.
          * exists m', s'. split; [exact E|]. split; [exact S'|]. split; [exact Em'|]. rewrite Es. unfold or_max. rewrite Em. apply or_idem.
      - destruct (mut_to_ok n e0 m t (st_el x) S) as (m' & s' & E & S' & Em' & Es); [rewrite Em; exact I|].
        exists m', s'. split; [exact E|]. split; [exact S'|]. split; [exact Em'|]. rewrite Es. unfold or_max. rewrite Em. apply or_same. }
    destruct A as (m1 & s & -> & S1 & Em1 & He). cbn [bind]. apply (HC m1 s); assumption.
  - destruct L as (Hi & Hf). destruct (fits_sim n e0 m t v S Hf) as (s & Em & F). apply (HS m s); assumption.
  - destruct L as (Hi & Hf). destruct (fits_sim n e0 m t v S Hf) as (s & Em & F). apply (HF m s); assumption.
  - destruct L as (Hs & Hi & Hx & He). destruct e0 as [e|]; [|contradiction]. pose proof S as (_ & _ & S3). destruct (m_st m) as [s|] eqn:Em; [|destruct S3; discriminate]. destruct S3 as (_ & Q & _).
    apply (HC m s); try assumption. rewrite <- Q, <- He at 1. rewrite <- or_assoc, or_idem, or_assoc, He. exact Q.
Qed.
Lemma run_sim n e0 os : forall m t, sim n e0 m t -> Forall (legal n e0) os -> exists m', run mk m os = Ok m' /\ sim n e0 m' (fold_left wrote os t).
Proof.
  induction os as [|o os IH]; intros m t S L; cbn [run fold_left]; [exists m; auto|].
  inversion L as [|? ? L1 L2]; subst. destruct (step_sim n e0 m t o S L1) as (m1 & E & S1). rewrite E. cbn [bind]. apply IH; assumption.
Qed.
Lemma start_sim n e0 : sim n e0 (start mk n e0) (repeat None n).
Proof.
  assert (H : forall i (v : val), nth_error (repeat None n) i <> Some (Some v)) by (intros i v Hi; apply nth_error_In in Hi; apply repeat_spec in Hi; discriminate).
  split; [reflexivity|]. split; [apply repeat_length|]. cbn [start m_st]. destruct e0 as [e|].
  - destruct (Hmk e n) as [E R]. split; [exact R|]. split; [rewrite E; apply or_same|]. intros i v Hi. destruct (H i v Hi).
  - split; [reflexivity|exact H].
Qed.
Lemma writes n e0 os : Forall (legal n e0) os -> exists m, run mk (start mk n e0) os = Ok m /\ m_ia m = n /\
  forall i v, nth_error (fold_left wrote os (repeat None n)) i = Some (Some v) -> exists s, m_st m = Some s /\ getU s i = Ok v.
Proof.
  intros L. destruct (run_sim n e0 os _ _ (start_sim n e0) L) as (m & E & Hia & Ht & H). exists m. split; [exact E|]. split; [exact Hia|].
  intros i v Hi. destruct (m_st m) as [s|]; [|destruct H as [_ H]; destruct (H i v Hi)]. destruct H as (R & _ & Hl). exists s. split; [reflexivity|].
  assert (i < n)%nat by (rewrite <- Ht; apply nth_error_Some; congruence). destruct (getU_ok s n i R) as [-> _]; [assumption|]. f_equal. apply Hl. exact Hi.
Qed.
End Sim.
