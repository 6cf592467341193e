(** C27 and C37: histories of value-producing operations on shared arrays. *)
From Verif Require Import Base ListLib ReuseModel ReuseSpec ReuseProof ReuseProof2 ReuseProof3.
From Coq Require Import List Lia ZArith.
Import ListNotations.
Open Scope Z_scope.

(** C27: whatever sequence of slicing, taking, joining, appending and replacing is applied to whatever arrays, however they are shared - slices of slices, the same array twice, arrays
    reused in place because nothing else refers to them - every array held has exactly the elements it would have if each operation built a new list. In particular no operation
    changes the elements of an array the program still holds. *)
Theorem C27_history_partial : forall vle ops, Forall valid ops -> forallb (fun o => negb (marks o)) ops = true -> as_expected false vle ops.
Proof.
  intros vle ops V M. apply (history vle false false); [discriminate|]. rewrite forallb_forall in M. rewrite Forall_forall in *. intros o I. specialize (V o I). specialize (M o I). destruct o; cbn [cond marks negb valid] in *; auto; discriminate.
Qed.
Print Assumptions C27_history_partial.
(** once nothing is held, everything has been freed (each object exactly once: freeing a freed object would be [UB], excluded by [C27_history_partial]) *)
Theorem C27_history_freed_partial : forall vle ops h out, Forall valid ops -> forallb (fun o => negb (marks o)) ops = true -> run false vle ([], [], []) ops = Ok (h, [], out) -> Forall (fun c => c = None) h.
Proof.
  intros vle ops h out V M. apply (freed vle false false); [discriminate|]. rewrite forallb_forall in M. rewrite Forall_forall in *. intros o I. specialize (V o I). specialize (M o I). destruct o; cbn [cond marks negb valid] in *; auto; discriminate.
Qed.
Print Assumptions C27_history_freed_partial.
(** C37: with sorting and the order test, whose answers are remembered in a mark on the array, everything is still as on immutable lists - provided no element is replaced ([OPut], ⌾⊑), *)
Theorem C37_sorted_mark_partial : forall vle ops, (forall a b, vle a b = true \/ vle b a = true) -> Forall valid ops -> forallb (fun o => negb (puts o)) ops = true -> as_expected false vle ops.
Proof.
  intros vle ops T V M. apply (history vle true false); [auto|]. rewrite forallb_forall in M. rewrite Forall_forall in *. intros o I. specialize (V o I). specialize (M o I). destruct o; cbn [cond puts negb valid] in *; auto; discriminate.
Qed.
Print Assumptions C37_sorted_mark_partial.
(** or if the code cleared the mark when it replaces an element in place. *)
Theorem C37_sorted_mark_cleared_partial : forall vle ops, (forall a b, vle a b = true \/ vle b a = true) -> Forall valid ops -> as_expected true vle ops.
Proof.
  intros vle ops T V. apply (history vle true true); [auto|]. rewrite Forall_forall in *. intros o I. specialize (V o I). destruct o; cbn [cond valid] in *; auto.
Qed.
Print Assumptions C37_sorted_mark_cleared_partial.

(** an order on values: by the number in them *)
Definition key (v : val) : Z := match v with VNum z => z | VDbl i => i | VChr c => c | VObj i => i end.
Definition keyle (a b : val) : bool := key a <=? key b.
(** It does not: [∧ "z"⌾⊑ ∧ "b"‿"a"] (DESIGN F24). *)
Theorem C37_pick_under_refuted : exists ops, Forall valid ops /\ ~ as_expected false keyle ops.
Proof.
  exists [ONew false EB [VObj 2; VObj 1]; OSort 0; OPut 0 0 (VObj 26); OSort 0]. split.
  - repeat constructor; auto; discriminate.
  - intros (h & R & E & L). vm_compute in E. injection E as <- <-. vm_compute in L. discriminate.
Qed.
Print Assumptions C37_pick_under_refuted.

(** ** the hypotheses are met: joining in place onto an array, onto the parent of a fill slice, taking in place, slices of slices, shared arrays *)
Definition prog : list op :=
  [ONew true EB [VObj 1; VObj 2]; OSlice 0 0 2; ONew false EI8 [VNum 5]; ODup 1; OJoin 0 1 (* in place into the parent of the slice *); ODup 1; OTake 1 3 (* a slice: shared *);
   OSlice 1 1 2 (* a slice of a slice *); OAdd 0 (VNum 300) (* wider *); OPut 2 0 (VChr 97); ODup 0; OSlice 2 0 1; OPut 0 1 (VObj 9)].
Definition prog2 : list op := [ONew false EI32 [VNum 70000; VNum 3; VNum 3]; OSort 0; OCheck 0; OTake 0 2; OSort 0; OAdd 0 (VNum 1); OCheck 0; OSort 0; OCheck 0].
Example C27_ex : Forall valid prog /\ forallb (fun o => negb (marks o)) prog = true /\ fst (prun keyle ([], []) prog) = [[VObj 2; VNum 5]; [VObj 1; VObj 2; VNum 5]; [VChr 97]; [VObj 1; VObj 9; VNum 5]].
Proof. split; [|split; vm_compute; reflexivity]. repeat constructor; auto; discriminate. Qed.
Example C37_ex : Forall valid prog2 /\ forallb (fun o => negb (puts o)) prog2 = true /\ prun keyle ([], []) prog2 = ([[VNum 1; VNum 3; VNum 3]], [true; false; true]).
Proof. split; [|split; vm_compute; reflexivity]. repeat constructor; auto; discriminate. Qed.
