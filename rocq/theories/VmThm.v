(** C29: bytecode execution stays inside its reserved operand stack. *)
From Verif Require Import Base VmModel VmSpec VmProof.

(** Every accepted body made of documented instructions, where checks for Nothing follow a value: whatever its calls do (return, throw, or send control
    to the next body), it never pops from an empty stack, it returns with nothing left over, and it never needs more than the recorded maximum,
    two items if it starts with a predicate's argument copies, one for a namespace result. *)
Theorem C29_operand_stack : forall e bc idx code hM l rest o,
  comp_body e bc idx = Ok (code, hM) ->
  body_of bc idx l -> Forall documented l -> checks_ok false l ->
  exists out left peak, run_body (code ++ rest) o = Ok (out, left, peak) /\
    0 <= left /\ (out = Returned -> left = 0) /\
    peak <= Z.max hM (if has_pred l then 2 else 1).
Proof.
  intros e bc idx code hM l rest o C Hb D K. unfold comp_body in C. inv1 C. pose proof (scan_pred_spec bc idx l Hb D _ _ E) as Er. subst r0.
  inv1 C. inv1 C. destruct r1 as [code' hM']. injection C as <- <-.
  destruct (loop_good bc idx l Hb _ _ _ 0 0 code' hM' false E1 D K ltac:(discriminate) ltac:(lia) ltac:(lia)) as [Q1 Q2].
  unfold run_body. rewrite <- app_assoc. destruct (has_pred l).
  - destruct (match scope e with Some _ => depth e =? 0 | None => false end); [discriminate|]. inv1 E0. injection E0 as <-.
    apply good_prologue; try lia. intros o' pk' Hpk. apply Q2; lia.
  - injection E0 as <-. cbn [app]. apply Q2; lia.
Qed.
Print Assumptions C29_operand_stack.

(** Without predicates, and unless the body consists of a single RETD, the recorded maximum itself is enough. *)
Theorem C29_reserved_enough : forall e bc idx code hM l rest o,
  comp_body e bc idx = Ok (code, hM) ->
  body_of bc idx l -> Forall documented l -> checks_ok false l -> has_pred l = false -> (2 <= length l)%nat ->
  exists out left peak, run_body (code ++ rest) o = Ok (out, left, peak) /\ peak <= hM.
Proof.
  intros e bc idx code hM l rest o C Hb D K Hp Hl.
  destruct (C29_operand_stack e bc idx code hM l rest o C Hb D K) as (out & left & peak & R & _ & _ & P). rewrite Hp in P.
  exists out, left, peak. split; [exact R|]. enough (1 <= hM) by lia.
  unfold comp_body in C. inv1 C. inv1 C. inv1 C. destruct r2 as [code' hM']. injection C as <- <-. eapply loop_pushes; eauto.
Qed.
Print Assumptions C29_reserved_enough.

(* examples *)
Definition env0 : env := {| objval := fun _ => Ok (true, 7, 8); dfnd := fun _ => Ok (0, 5, 6); gidof := fun n => Ok n; scope := None; depth := 1; imm := true; argAm := 0; vam := 2; nsResult := 0 |}.
(* a1 ← (F ⟨1,2⟩); then returns the namespace *)
Definition bc0 : list Z := [PUSH; 0; PUSH; 1; LSTO; 2; VARO; 0; 0; FN1C; CHKV; VARM; 0; 1; SETN; RETD].
Definition is0 : list instr := [(PUSH, 0); (PUSH, 1); (LSTO, 2); (VARO, 0); (FN1C, 0); (CHKV, 0); (VARM, 0); (SETN, 0); (RETD, 0)].
Example body0 : body_of bc0 0 is0.
Proof.
  unfold is0. repeat (eapply body_step; [reflexivity|discriminate|discriminate|cbn; lia|reflexivity|]; cbn [operands Nat.add]).
  apply body_ret; [reflexivity|right; reflexivity].
Qed.
Example documented0 : Forall documented is0.
Proof. unfold is0. repeat (apply Forall_cons; [split; [cbn; tauto|cbn; unfold LSTO; intuition lia]|]). apply Forall_nil. Qed.
Example checks0 : checks_ok false is0.
Proof. repeat split; try discriminate. Qed.
Example compiled0 : exists code, comp_body env0 bc0 0 = Ok (code, 2) /\ run_body code [] = Ok (Returned, 0, 2) /\ run_body code [0; 0; 0; 0; 1] = Ok (Thrown, 0, 2).
Proof. eexists. split; [vm_compute; reflexivity|]. split; vm_compute; reflexivity. Qed.
Example rejected0 : comp_body env0 [PUSH; 0; FN1C; RETN] 0 = Err /\ comp_body env0 [PUSH; 0; PUSH; 0; RETN] 0 = Err.
Proof. split; vm_compute; reflexivity. Qed.

(** The recorded maximum is not always enough. A body consisting of RETD alone records 0 and uses one item; the copies of arguments a body with a
    predicate makes need two. *)
Theorem C29_exact_reserve_refuted :
  (exists code, comp_body env0 [RETD] 0 = Ok (code, 0) /\ run_body code [] = Ok (Returned, 0, 1)) /\
  (exists code, comp_body {| objval := objval env0; dfnd := dfnd env0; gidof := gidof env0; scope := None; depth := 1; imm := false; argAm := 3; vam := 3; nsResult := 0 |}
     [VARO; 0; 1; PRED; VARO; 0; 1; RETN] 0 = Ok (code, 1) /\ run_body code [] = Ok (Returned, 0, 2)).
Proof. split; eexists; split; vm_compute; reflexivity. Qed.
Print Assumptions C29_exact_reserve_refuted.

(** Bytecode that is not the BQN compiler's can be accepted and still underflow: a check for Nothing with no value to look at is not counted as needing
    one, and an item count of 2^31 or more passes the height test as a negative number. *)
Theorem C29_handmade_refuted :
  (exists code hM, comp_body env0 [CHKV; PUSH; 0; RETN] 0 = Ok (code, hM) /\ run_body code [] = UB) /\
  (exists code hM, comp_body env0 [LSTO; 2 ^ 32 - 1; POPS; RETN] 0 = Ok (code, hM) /\ run_body code [] = UB).
Proof. split; eexists; eexists; split; vm_compute; reflexivity. Qed.
Print Assumptions C29_handmade_refuted.
