(** C54: trains and combinators call their operands as defined. *)
From Verif Require Import Base TrainModel TrainSpec TrainProof.
From Coq Require Import List Lia PeanoNat.
Import ListNotations.
Open Scope Z_scope.
(** what is assumed of the opaque parts: they give values or errors, and set pointers of forks as calls of forks do *)
Definition opaque_ok {W} (obj : nat -> val * val * val) (prim : Z -> option val -> val -> err -> W -> out * W) (warm : Z -> option val -> val -> W -> cache -> cache) (pick : val -> val -> out) : Prop :=
  (forall p w x e s, sane (fst (prim p w x e s))) /\ (forall r g, sane (pick r g)) /\ (forall p w x s c, ptrs_ok obj c -> ptrs_ok obj (warm p w x s c)).

(** Every call that ends gives the value or the error that the definition of the function gives, after the same effects in the same order, and no code is used that
    does not fit its operands; 3-trains of a modifier and two functions are taken as they are. *)
Theorem C54_calls : forall W obj prim warm pick, opaque_ok obj prim warm pick ->
  forall n e f w x c (s : W) o c' s', ptrs_ok obj c -> run W obj prim warm pick n e f w x (c, s) = Some (o, (c', s')) ->
  o <> Bad /\ ap W prim pick (body_as_is obj) e f w x s o s' /\ ptrs_ok obj c'.
Proof. intros W obj prim warm pick (PS & KS & WO) n. exact (call_sound W obj prim warm pick PS KS WO n). Qed.
Print Assumptions C54_calls.
(** Whatever the definition gives is also computed, from whatever pointers earlier calls have left. *)
Theorem C54_calls_return : forall W obj prim warm pick, opaque_ok obj prim warm pick ->
  forall e f w x (s : W) o s', ap W prim pick (body_as_is obj) e f w x s o s' ->
  exists N, forall n c, (N <= n)%nat -> ptrs_ok obj c -> exists c', run W obj prim warm pick n e f w x (c, s) = Some (o, (c', s')) /\ ptrs_ok obj c'.
Proof. intros W obj prim warm pick (PS & KS & WO) e f w x s o s'. exact (call_complete W obj prim warm pick PS KS WO e f w x s o s'). Qed.
Print Assumptions C54_calls_return.
(** With the definitions of BQN: for both directions. Missing: forks whose left operand is a modifier, where this is false (below). *)
Theorem C54_calls_as_defined_partial : forall W obj prim warm pick, no_mod obj -> opaque_ok obj prim warm pick ->
  forall n e f w x c (s : W) o c' s', ptrs_ok obj c -> run W obj prim warm pick n e f w x (c, s) = Some (o, (c', s')) ->
  o <> Bad /\ ap W prim pick (body obj) e f w x s o s' /\ ptrs_ok obj c'.
Proof.
  intros W obj prim warm pick NM OK n e f w x c s o c' s' I R. destruct (C54_calls W obj prim warm pick OK n e f w x c s o c' s' I R) as (N & A & I'). split; [exact N|]. split; [|exact I']. eapply ap_ext; [|exact A]. exact (as_is obj NM).
Qed.
Print Assumptions C54_calls_as_defined_partial.
Theorem C54_calls_return_partial : forall W obj prim warm pick, no_mod obj -> opaque_ok obj prim warm pick ->
  forall e f w x (s : W) o s', ap W prim pick (body obj) e f w x s o s' ->
  exists N, forall n c, (N <= n)%nat -> ptrs_ok obj c -> exists c', run W obj prim warm pick n e f w x (c, s) = Some (o, (c', s')) /\ ptrs_ok obj c'.
Proof.
  intros W obj prim warm pick NM OK e f w x s o s' A. apply (C54_calls_return W obj prim warm pick OK). eapply ap_ext; [|exact A]. intros f' w' x'. symmetry. apply (as_is obj NM).
Qed.
Print Assumptions C54_calls_return_partial.

Definition new : cache := fun _ => (PInit, PInit).
Lemma new_ok obj : ptrs_ok obj new.
Proof. intros id. destruct (obj id) as [[f g] h]. cbn. auto. Qed.
(** The definitions give at most one result. *)
Theorem C54_one_meaning : forall W obj prim pick, (forall p w x e s, sane (fst (prim p w x e s))) -> (forall r g, sane (pick r g)) ->
  forall e f w x (s : W) o1 s1 o2 s2, ap W prim pick (body_as_is obj) e f w x s o1 s1 -> ap W prim pick (body_as_is obj) e f w x s o2 s2 -> o1 = o2 /\ s1 = s2.
Proof.
  intros W obj prim pick PS KS e f w x s o1 s1 o2 s2 A B.
  destruct (call_complete W obj prim (fun _ _ _ _ c => c) pick PS KS (fun _ _ _ _ c H => H) e f w x s o1 s1 A) as [N1 H1]. destruct (call_complete W obj prim (fun _ _ _ _ c => c) pick PS KS (fun _ _ _ _ c H => H) e f w x s o2 s2 B) as [N2 H2].
  destruct (H1 (N1 + N2)%nat new ltac:(lia) (new_ok obj)) as (c1 & Q1 & _). destruct (H2 (N1 + N2)%nat new ltac:(lia) (new_ok obj)) as (c2 & Q2 & _). rewrite Q1 in Q2. injection Q2 as -> _ ->. auto.
Qed.
Print Assumptions C54_one_meaning.

(** Any number of calls, one after the other: what earlier calls of the forks have set makes no difference to results, errors or effects. *)
Theorem C54_earlier_calls_invisible : forall W obj prim warm pick, opaque_ok obj prim warm pick ->
  forall l n e c1 (s : W) r o c1' s' c2, ptrs_ok obj c1 -> ptrs_ok obj c2 -> history W obj prim warm pick n e l (c1, s) = Some (r, o, (c1', s')) ->
  exists N, forall n2, (N <= n2)%nat -> exists c2', history W obj prim warm pick n2 e l (c2, s) = Some (r, o, (c2', s')) /\ ptrs_ok obj c2'.
Proof.
  intros W obj prim warm pick OK l n e. induction l as [|[[f w] x] l IH]; intros c1 s r o c1' s' c2 I1 I2 H; cbn [history] in H.
  - injection H as <- <- <- <-. exists O. intros n2 _. exists c2. split; [reflexivity|exact I2].
  - destruct (run W obj prim warm pick n e f w x (c1, s)) as [[o1 [d1 t1]]|] eqn:R; [|discriminate]. destruct (C54_calls W obj prim warm pick OK n e f w x c1 s o1 d1 t1 I1 R) as (_ & A & J1).
    destruct (C54_calls_return W obj prim warm pick OK e f w x s o1 t1 A) as [N1 H1]. destruct o1 as [v|t|]; [| |discriminate].
    + destruct (history W obj prim warm pick n e l (d1, t1)) as [[[r' o'] [e1 u1]]|] eqn:HL; [|discriminate]. injection H as <- <- <- <-.
      assert (K : exists N, forall n2 d2, (N <= n2)%nat -> ptrs_ok obj d2 -> exists c2', history W obj prim warm pick n2 e l (d2, t1) = Some (r', o', (c2', u1)) /\ ptrs_ok obj c2').
      { clear - OK HL J1. revert d1 t1 r' o' e1 u1 J1 HL. induction l as [|[[f w] x] l IH]; intros d1 t1 r' o' e1 u1 J1 HL; cbn [history] in HL.
        - injection HL as <- <- <- <-. exists O. intros n2 d2 _ I. exists d2. split; [reflexivity|exact I].
        - destruct (run W obj prim warm pick n e f w x (d1, t1)) as [[o1 [d3 t3]]|] eqn:R; [|discriminate]. destruct (C54_calls W obj prim warm pick OK n e f w x d1 t1 o1 d3 t3 J1 R) as (_ & A & J3).
          destruct (C54_calls_return W obj prim warm pick OK e f w x t1 o1 t3 A) as [N1 H1]. destruct o1 as [v|t|]; [| |discriminate].
          + destruct (history W obj prim warm pick n e l (d3, t3)) as [[[r3 o3] [e3 u3]]|] eqn:H3; [|discriminate]. injection HL as <- <- <- <-. destruct (IH d3 t3 r3 o3 e3 u3 J3 H3) as [N2 H2].
            exists (N1 + N2)%nat. intros n2 d2 L I. destruct (H1 n2 d2 ltac:(lia) I) as (d4 & Q4 & J4). destruct (H2 n2 d4 ltac:(lia) J4) as (d5 & Q5 & J5). exists d5. split; [|exact J5]. cbn [history]. rewrite Q4, Q5. reflexivity.
          + injection HL as <- <- <- <-. exists N1. intros n2 d2 L I. destruct (H1 n2 d2 L I) as (d4 & Q4 & J4). exists d4. split; [|exact J4]. cbn [history]. rewrite Q4. reflexivity. }
      destruct K as [N2 H2]. exists (N1 + N2)%nat. intros n2 L. destruct (H1 n2 c2 ltac:(lia) I2) as (d4 & Q4 & J4). destruct (H2 n2 d4 ltac:(lia) J4) as (d5 & Q5 & J5). exists d5. split; [|exact J5]. cbn [history]. rewrite Q4, Q5. reflexivity.
    + injection H as <- <- <- <-. exists N1. intros n2 L. destruct (H1 n2 c2 L I2) as (d4 & Q4 & J4). exists d4. split; [|exact J4]. cbn [history]. rewrite Q4. reflexivity.
Qed.
Print Assumptions C54_earlier_calls_invisible.

(** ** Concrete cases. The world is the list of calls made, the latest first. *)
Definition world := list (Z * option val * val).
Definition num (v : val) : Z := match v with Num z => z | _ => 0 end.
(* 1: +, 2: -, 3: throws 𝕩, 4: 𝕩-1, 5: 0<𝕩, 6: the error being handled *)
Definition prims (p : Z) (w : option val) (x : val) (e : err) (s : world) : out * world :=
  (match p with
   | 1 => Ret (Num (match w with Some w => num w + num x | None => num x end))
   | 2 => Ret (Num (match w with Some w => num w - num x | None => - num x end))
   | 3 => Thr (EOth (num x))
   | 4 => Ret (Num (num x - 1))
   | 5 => Ret (Num (if 0 <? num x then 1 else 0))
   | 6 => Ret (Num (match e with EOth k => k | _ => -1 end))
   | _ => Ret x
   end, (p, w, x) :: s).
Definition objs (id : nat) : val * val * val :=
  match id with
  | 0%nat => (Prim 2, Prim 1, Prim 4)
  | 1%nat => (Num 100, Prim 2, Prim 4)
  | 2%nat => (Arr [1%nat] [Num 7], Prim 8, Prim 4)
  | 3%nat => (Prim 2, Num 9, Fork 0)
  | _ => (Prim 1, Prim 1, Prim 1)
  end.
Definition stay (p : Z) (w : option val) (x : val) (s : world) (c : cache) : cache := c.
Definition no_pick (r g : val) : out := Thr (EOth 0).
Lemma objs_no_mod : no_mod objs.
Proof. intros [|[|[|[|id]]]] k; discriminate. Qed.
Lemma prims_ok : opaque_ok objs prims stay no_pick.
Proof.
  split; [|split; [discriminate|intros p w x s c H; exact H]]. intros p w x e s. unfold sane, prims. cbn [fst]. destruct p as [|q|q]; try discriminate. repeat (destruct q as [q|q|]; try discriminate).
Qed.
Definition go n e f w x s := run world objs prims stay no_pick n e f w x s.
Definition seen (r : option (out * st world)) := match r with Some (o, (_, s)) => Some (o, s) | None => None end.
Example fork_order : seen (go 9 EBool (Fork 0) None (Num 5) (new, [])) = Some (Ret (Num (-1)), [(1, Some (Num (-5)), Num 4); (2, None, Num 5); (4, None, Num 5)]).
Proof. vm_compute. reflexivity. Qed.
Example fork_pointer : match go 9 EBool (Fork 0) None (Num 5) (new, []) with Some (_, (c, _)) => c 0%nat = (PFff, PInit) | None => False end.
Proof. vm_compute. reflexivity. Qed.
Example fork_constant : seen (go 9 EBool (Fork 1) (Some (Num 3)) (Num 5) (new, [])) = Some (Ret (Num 96), [(2, Some (Num 100), Num 4); (4, Some (Num 3), Num 5)]).
Proof. vm_compute. reflexivity. Qed.
Example caught : seen (go 9 EBool (D2 Catch (Prim 3) (Prim 6)) None (Num 42) (new, [])) = Some (Ret (Num 42), [(6, None, Num 42); (3, None, Num 42)]).
Proof. vm_compute. reflexivity. Qed.
Example repeated : match go 9 EBool (D2 While (Prim 4) (Prim 5)) None (Num 3) (new, []) with Some (Ret v, _) => v = Num 0 | _ => False end.
Proof. vm_compute. reflexivity. Qed.
Example chosen_last : seen (go 9 EBool (D2 Cond (Num (-1)) (Arr [2%nat] [Prim 1; Prim 2])) None (Num 3) (new, [])) = Some (Ret (Num (-3)), [(2, None, Num 3)]).
Proof. vm_compute. reflexivity. Qed.
Example meaning : ap world prims no_pick (body objs) EBool (D2 Over (Prim 2) (Prim 4)) (Some (Num 10)) (Num 3) [] (Ret (Num 7)) [(2, Some (Num 9), Num 2); (4, None, Num 10); (4, None, Num 3)].
Proof.
  assert (R : exists c', go 9 EBool (D2 Over (Prim 2) (Prim 4)) (Some (Num 10)) (Num 3) (new, []) = Some (Ret (Num 7), (c', [(2, Some (Num 9), Num 2); (4, None, Num 10); (4, None, Num 3)]))) by (eexists; vm_compute; reflexivity).
  destruct R as [c' R]. exact (proj1 (proj2 (C54_calls_as_defined_partial world objs prims stay no_pick objs_no_mod prims_ok 9 EBool _ _ _ new [] _ c' _ (new_ok objs) R))).
Qed.

(** A fork whose left operand is a modifier: calling a modifier is an error, but if the other two operands are functions, the fork passes the modifier on as if it were data. *)
Theorem C54_modifier_operand_refuted : exists obj c' v s', let f := Fork 0 in
  run world obj prims stay no_pick 9 EBool f None (Num 5) (new, []) = Some (Ret v, (c', s')) /\
  forall o t, ap world prims no_pick (body obj) EBool f None (Num 5) [] o t -> o = Thr EMod.
Proof.
  exists (fun _ => (Mod 0, Prim 8, Prim 4)). eexists. eexists. eexists. cbv zeta. split; [vm_compute; reflexivity|].
  intros o t A. inversion A as [? ? ? ? ? D| | |? ? ? ? ? ? ? ? B E]; subst; [contradiction|]. cbn [body apply] in B. injection B as <-.
  assert (M : forall s o t, ev world prims no_pick (body (fun _ => (Mod 0, Prim 8, Prim 4))) EBool (C1 (Mod 0) (V (Num 5))) s o t -> o = Thr EMod).
  { intros s o' t' H. inversion H; subst; match goal with H : ev _ _ _ _ _ (V _) _ _ _ |- _ => inversion H; subst end. match goal with H : ap _ _ _ _ _ _ _ _ _ _ _ |- _ => inversion H; subst end; [contradiction|reflexivity|]. match goal with H : body _ _ _ _ = Some _ |- _ => discriminate H end. }
  inversion E; subst.
  - match goal with H : ev _ _ _ _ _ (C1 (Mod 0) _) _ _ _ |- _ => apply M in H; discriminate H end.
  - match goal with H : ev _ _ _ _ _ (C1 (Mod 0) _) _ _ _ |- _ => apply M in H; exact H end.
  - exfalso. match goal with H : ev _ _ _ _ _ (C1 (Prim 4) _) _ _ _ |- _ => inversion H; subst end; match goal with H : ev _ _ _ _ _ (V _) _ _ _ |- _ => inversion H; subst end. match goal with H : ap _ _ _ _ _ (Prim 4) _ _ _ _ _ |- _ => inversion H; subst end; match goal with H : body _ _ _ _ = Some _ |- _ => discriminate H end.
Qed.
Print Assumptions C54_modifier_operand_refuted.
