(** C05, C06: a collection keeps exactly the reachable objects. *)
From Verif Require Import Base GcModel GcSpec GcProof.

Definition held_outside (ext : nat -> Z) (x : nat) : Prop := 0 < ext x.
(** Collections at the top level happen when nothing but the registered roots (and scratch memory) is in use; other collections happen at any time. *)
Definition may_collect (toplevel : bool) (roots : list nat) (h : gheap) (ext : nat -> Z) : Prop :=
  (forall r, In r roots -> held_outside ext r) /\
  (toplevel = true -> forall x o, held_outside ext x -> nth_error h x = Some o -> In x roots \/ o_kind o = GSkip).

Lemma collect (top : bool) roots h ext : consistent h ext -> may_collect top roots h ext ->
  exists h', gc_run top roots h = Ok h' /\ length h' = length h /\ consistent h' ext /\
    forall x, (x < length h)%nat -> (reach h (held_outside ext) x -> kindof h' x = kindof h x /\ refsof h' x = refsof h x) /\
                    (kindof h' x <> GEmpty -> reach h (held_outside ext) x).
Proof.
  intros C (R&T). apply gc_spec; auto. intros Et x Ex. destruct C as (_&_&C). destruct (C x Ex) as (o&E&_). unfold kindof. rewrite E. eapply T; eauto.
Qed.

(** C05: a collection, at any time, ends normally (it never visits or frees a free block, and never frees a block twice), and every object
    reachable from what is held outside of the heap keeps its type and its pointers; its count is again exactly the number of references to it. *)
Theorem C05_reachable_survive : forall toplevel roots h ext, consistent h ext -> may_collect toplevel roots h ext ->
  exists h', gc_run toplevel roots h = Ok h' /\ consistent h' ext /\
    forall x o, nth_error h x = Some o -> reach h (held_outside ext) x ->
      exists o', nth_error h' x = Some o' /\ o_kind o' = o_kind o /\ o_refs o' = o_refs o /\ o_refc o' = ext x + pointers_to h' x.
Proof.
  intros top roots h ext C M. destruct (collect top roots h ext C M) as (h'&E&L&C'&K). exists h'. split; auto. split; auto.
  intros x o Ex R. assert (Lx := some_lt _ _ _ Ex). destruct (K x Lx) as (K1&_). destruct (K1 R) as (K2&K3).
  destruct (lt_some h' x) as (o'&E'); [lia|]. exists o'. unfold kindof, refsof in *. rewrite Ex, E' in *. split; auto. split; auto. split; auto.
  destruct C' as (_&C'&_). apply (C' x o' E'). unfold allocated. rewrite K2.
  assert (G : exists p, nth_error h x = Some p /\ allocated p).
  { destruct C as (_&C1&C2). clear - R C1 C2. induction R as [x S0|x p y R IH Ep I]; [apply C2; auto|]. destruct IH as (q&Eq&Aq). rewrite Ep in Eq. injection Eq as <-. destruct (C1 x p Ep Aq) as (_&_&Q&_). auto. }
  destruct G as (p&Ep&Ap). rewrite Ex in Ep. injection Ep as <-. exact Ap.
Qed.
Print Assumptions C05_reachable_survive.

(** C06: after a collection no block outside of the reachable ones is allocated, cyclic or not. *)
Theorem C06_garbage_freed : forall toplevel roots h ext, consistent h ext -> may_collect toplevel roots h ext ->
  exists h', gc_run toplevel roots h = Ok h' /\ length h' = length h /\
    forall x o', nth_error h' x = Some o' -> ~ reach h (held_outside ext) x -> o_kind o' = GEmpty.
Proof.
  intros top roots h ext C M. destruct (collect top roots h ext C M) as (h'&E&L&C'&K). exists h'. split; auto. split; auto.
  intros x o' E' R. destruct (K x) as (_&K1); [apply some_lt in E'; lia|]. unfold kindof in K1. rewrite E' in K1. destruct (o_kind o'); auto; exfalso; apply R, K1; discriminate.
Qed.
Print Assumptions C06_garbage_freed.

(** C05: the two together, stated on the result only: a block is allocated afterwards exactly if it was reachable. *)
Theorem C05_exactly_reachable : forall toplevel roots h ext, consistent h ext -> may_collect toplevel roots h ext ->
  exists h', gc_run toplevel roots h = Ok h' /\
    forall x, (exists o', nth_error h' x = Some o' /\ allocated o') <-> reach h (held_outside ext) x.
Proof.
  intros top roots h ext C M. destruct (collect top roots h ext C M) as (h'&E&L&C'&K). exists h'. split; auto.
  assert (G : forall x, reach h (held_outside ext) x -> exists p, nth_error h x = Some p /\ allocated p).
  { intros x R. destruct C as (_&C1&C2). clear - R C1 C2. induction R as [x S0|x p y R IH Ep I]; [apply C2; auto|]. destruct IH as (q&Eq&Aq). rewrite Ep in Eq. injection Eq as <-. destruct (C1 x p Ep Aq) as (_&_&Q&_). auto. }
  intros x. split.
  - intros (o'&E'&A'). assert (Lx := some_lt _ _ _ E'). rewrite L in Lx. apply (K x Lx). unfold kindof. rewrite E'. exact A'.
  - intros R. destruct (G x R) as (p&Ep&Ap). destruct (K x (some_lt _ _ _ Ep)) as (K1&_). destruct (K1 R) as (K2&_).
    destruct (lt_some h' x) as (o'&E'); [apply some_lt in Ep; lia|]. exists o'. split; auto. unfold allocated. unfold kindof in K2. rewrite E', Ep in K2. rewrite K2. exact Ap.
Qed.
Print Assumptions C05_exactly_reachable.

(** Non-vacuity: 0 is a root holding the live cycle 1 <-> 2 (2 twice); 3 and 4 form a garbage cycle that points at 5, at the shape 7 and at the live 2;
    6 is free; 8 is a scratch object. *)
Definition ex_heap : gheap := [
  mkObj GLive 1 true [1; 2]%nat; mkObj GLive 2 false [2]%nat; mkObj GLive 3 false [1]%nat; mkObj GLive 1 true [4; 5; 7]%nat;
  mkObj GLive 1 false [3; 2]%nat; mkObj GLive 1 false []; mkObj GEmpty 17 false [3]%nat; mkObj GSkip 1 false []; mkObj GSkip 1 false []].
Definition ex_ext (x : nat) : Z := if (x =? 0)%nat then 1 else if (x =? 8)%nat then 1 else 0.
Lemma ex_consistent : consistent ex_heap ex_ext.
Proof.
  split; [intros y; unfold ex_ext; destruct (y =? 0)%nat; [lia|]; destruct (y =? 8)%nat; lia|]. split.
  - intros x o E A. do 9 (destruct x as [|x]; [injection E as <-; (exfalso; apply A; reflexivity) || (split; [reflexivity|]; split; [reflexivity|]; split;
      [intros y I; cbn in I; repeat (destruct I as [<-|I]; [eexists; split; [reflexivity|discriminate]|]); destruct I|split; [intros; first [reflexivity|discriminate]|discriminate]])|]).
    destruct x; discriminate.
  - intros y E. destruct (Nat.eq_dec y 0) as [e|n]; [subst; eexists; split; [reflexivity|discriminate]|].
    destruct (Nat.eq_dec y 8) as [e|n8]; [subst; eexists; split; [reflexivity|discriminate]|].
    exfalso. unfold ex_ext in E. apply Nat.eqb_neq in n, n8. rewrite n, n8 in E. lia.
Qed.
Example gc_example : consistent ex_heap ex_ext /\ may_collect true [0%nat] ex_heap ex_ext /\ may_collect false [0%nat] ex_heap ex_ext /\
  gc_run true [0%nat] ex_heap = Ok [
  mkObj GLive 1 true [1; 2]%nat; mkObj GLive 2 true [2]%nat; mkObj GLive 2 true [1]%nat; mkObj GEmpty 0 false [4; 5; 7]%nat;
  mkObj GEmpty 0 false [3; 2]%nat; mkObj GEmpty 0 false []; mkObj GEmpty 17 false [3]%nat; mkObj GEmpty 0 false []; mkObj GSkip 1 false []].
Proof.
  split; [apply ex_consistent|]. split; [|split; [|reflexivity]].
  - split; [intros r [<-|[]]; reflexivity|]. intros _ x o H E. unfold held_outside, ex_ext in H.
    destruct (Nat.eq_dec x 0) as [e|n]; [subst; left; left; auto|]. destruct (Nat.eq_dec x 8) as [e|n8]; [subst; right; injection E as <-; reflexivity|].
    exfalso. apply Nat.eqb_neq in n, n8. rewrite n, n8 in H. lia.
  - split; [intros r [<-|[]]; reflexivity|discriminate].
Qed.
