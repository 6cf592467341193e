(** C49: Under with a selecting function *)
From Verif Require Import Base SqueezeModel ReuseModel TransSpec SqueezeProof MoveProof2 FnsModel FnsProof UnderModel UnderSpec UnderProof UnderProof2 UnderProof3 UnderProof4.
From Coq Require Import List Lia.
Open Scope nat_scope.
(** [compat] compares values of one kind of arrays, where no two different values match (NaN compares by its bits here) *)
Definition exact_eq {A} (compat : A -> A -> bool) : Prop := forall a b, compat a b = true <-> a = b.

(** ** 𝔽⌾(𝕨⊸⊏)𝕩 *)
(** The cells chosen by 𝕨 are replaced by those of 𝔽's result, all other cells stay, and Select of the result gives what 𝔽 gave. An error exactly if 𝕨 is no list of valid indices, 𝔽 fails or
    gives another shape, or different cells are given for one place. [narrow] leaves out cells of 256 bytes and more, see the refutations. Whatever the memory used for marks holds. *)
Theorem C49_select_partial : forall {A} (compat : A -> A -> bool) junk wf64 re (o : oper A) wsh w n cs x, exact_eq compat -> array (n :: cs) x -> array wsh w -> wf_op o -> size cs <> 0 ->
  size cs = 1 \/ wf64 = true \/ re = EBit \/ re = EB \/ (Z.of_nat (size cs) * elWidth re < 256)%Z -> length junk = n -> forallb isnum w = true ->
  let csz := size cs in
  match select_ucw compat junk wf64 re o wsh w (n :: cs) x with
  | Ok (Some (rsh, r)) => rsh = n :: cs /\ exists idx rep, Forall2 (index_of n) w idx /\ gives o (wsh ++ cs) (picked csz idx x) rep /\ consistent csz idx rep /\ replaced csz n idx x rep r /\ picked csz idx r = rep
  | Ok None => False
  | Err => forall idx rep, Forall2 (index_of n) w idx -> gives o (wsh ++ cs) (picked csz idx x) rep -> ~ consistent csz idx rep
  | UB => exists f idx, o = OFun f /\ Forall2 (index_of n) w idx /\ f (wsh ++ cs) (picked csz idx x) = UB
  end.
Proof. intros A compat junk wf64 re o wsh w n cs x CE AX AW WF CZ NR LJ NUM. exact (select_ok compat CE junk wf64 re o wsh w n cs x AX AW WF CZ NR LJ NUM). Qed.
Print Assumptions C49_select_partial.
Definition twice (sh : list nat) (l : list Z) : res (ret Z) := Ok (RArr sh (map (Z.mul 2) l)).
Example C49_select_example :
  select_ucw Z.eqb [true; true; true] false EI8 (OFun twice) [2] [VNum 0; VNum (-1)] [3; 2] [1; 2; 3; 4; 5; 6]%Z = Ok (Some ([3; 2], [2; 4; 3; 4; 10; 12]%Z)) /\
  select_ucw Z.eqb [true; true; true] false EI8 (OFun twice) [3] [VNum 1; VNum 1; VNum 0] [3] [1; 2; 3]%Z = Ok (Some ([3], [2; 4; 3]%Z)) /\
  select_ucw Z.eqb [true; true; true] false EI8 (OArr [2] [7; 8]%Z) [2] [VNum 1; VNum 1] [3] [1; 2; 3]%Z = Err /\
  select_ucw Z.eqb [true; true; true] false EI8 (OEach 9%Z) [2] [VNum 1; VNum 1] [3] [1; 2; 3]%Z = Ok (Some ([3], [1; 9; 3]%Z)).
Proof. vm_compute. repeat split. Qed.
Example C49_select_hypotheses : exact_eq Z.eqb /\ wf_op (OFun twice).
Proof. split; [exact Z.eqb_eq|]. intros sh l s r L E. inversion E; subst. unfold array in *. rewrite map_length. exact L. Qed.
(** Cells of 256 bytes: the identity is refused, since the second copy of a row is compared with another row; *)
Definition same (sh : list nat) (l : list Z) : res (ret Z) := Ok (RArr sh l).
Theorem C49_select_refused_refuted : exists x w, array [2; 256] x /\ array [2] w /\ Forall2 (index_of 2) w [1; 1] /\
  select_ucw Z.eqb [false; false] false EI8 (OFun same) [2] w [2; 256] x = Err /\ gives (OFun same) [2; 256] (picked 256 [1; 1] x) (picked 256 [1; 1] x) /\ consistent 256 [1; 1] (picked 256 [1; 1] x).
Proof.
  exists (repeat 0%Z 256 ++ repeat 1%Z 256), [VNum 1; VNum 1]. split; [vm_compute; reflexivity|]. split; [reflexivity|]. split; [repeat constructor|]. split; [vm_compute; reflexivity|]. split; [reflexivity|].
  intros i i' k E E'. assert (C : cell 256 (picked 256 [1; 1] (repeat 0%Z 256 ++ repeat 1%Z 256)) 0 = cell 256 (picked 256 [1; 1] (repeat 0%Z 256 ++ repeat 1%Z 256)) 1) by (vm_compute; reflexivity).
  destruct i as [|[|[|i]]], i' as [|[|[|i']]]; cbn [nth_error] in E, E'; try discriminate; auto.
Qed.
Print Assumptions C49_select_refused_refuted.
(** and two different rows for one place are accepted. *)
Theorem C49_select_conflict_refuted : exists x rep r, array [1; 256] x /\ array [2; 256] rep /\ ~ consistent 256 [0; 0] rep /\
  select_ucw Z.eqb [false] false EI8 (OArr [2; 256] rep) [2] [VNum 0; VNum 0] [1; 256] x = Ok (Some ([1; 256], r)).
Proof.
  exists (repeat 0%Z 256), (repeat 0%Z 256 ++ repeat 1%Z 256). eexists. split; [vm_compute; reflexivity|]. split; [vm_compute; reflexivity|]. split; [|vm_compute; reflexivity].
  intros C. specialize (C 0 1 0 eq_refl eq_refl). apply (f_equal (fun l => nth 0 l 5%Z)) in C. vm_compute in C. discriminate.
Qed.
Print Assumptions C49_select_conflict_refuted.

(** ** 𝔽⌾(𝕨⊸/)𝕩 for lists of one length *)
(** An element of 𝕩 that was replicated is replaced by the value 𝔽 gave for all its copies, one that was not stays. An error exactly if 𝕨 is no list of naturals, 𝔽 fails or gives another length, or gives different values for copies of one element. *)
Theorem C49_replicate : forall {A} (compat : A -> A -> bool) (o : oper A) w x, exact_eq compat -> length w = length x -> wf_op o -> forallb isnum w = true ->
  match slash_ucw compat o w x with
  | Ok (Some r) => exists n rep, w = map VNum (map Z.of_nat n) /\ gives o [sum n] (replicated n x) rep /\ Forall uniform (groups n rep) /\ regrouped n x rep r
  | Ok None => False
  | Err => forall n rep, w = map VNum (map Z.of_nat n) -> gives o [sum n] (replicated n x) rep -> ~ Forall uniform (groups n rep)
  | UB => exists f n, o = OFun f /\ w = map VNum (map Z.of_nat n) /\ f [sum n] (replicated n x) = UB
  end.
Proof. intros A compat o w x CE. exact (slash_ok compat CE o w x). Qed.
Print Assumptions C49_replicate.
Example C49_replicate_example : slash_ucw Z.eqb (OFun twice) [VNum 1; VNum 0; VNum 3; VNum 0] [1; 2; 3; 4]%Z = Ok (Some [2; 2; 6; 4]%Z) /\
  slash_ucw Z.eqb (OArr [2] [7; 8]%Z) [VNum 1; VNum 0; VNum 1] [1; 2; 3]%Z = Ok (Some [7; 2; 8]%Z) /\ slash_ucw Z.eqb (OArr [2] [7; 8]%Z) [VNum 2; VNum 0; VNum 0] [1; 2; 3]%Z = Err.
Proof. vm_compute. repeat split. Qed.

(** ** 𝔽⌾(n⊸↑)𝕩 and 𝔽⌾(n⊸↓)𝕩 *)
(** The shape of an atom is that of a list of one element here, see the refutation; the memory of the new array does not matter. *)
Theorem C49_take_partial : forall {A} mem (o : oper A) wi xatom xsh x, length mem = length x -> array xsh x -> wf_op o -> (Z.of_nat (length x) < 2 ^ 32)%Z -> (- 2 ^ 63 < wi < 2 ^ 63)%Z -> (xatom = true -> xsh = []) ->
  let sh := if xatom then [1] else xsh in let cs := tl xsh in let k := Z.to_nat (Z.abs wi) in let back := (wi <? 0)%Z in
  match take_ucw mem o wi xatom xsh x with
  | Ok (rsh, r) => k <= lead xsh /\ rsh = sh /\ exists rep, gives o (k :: cs) (taken back k (size cs) x) rep /\ r = put_back back k (size cs) x rep
  | Err => lead xsh < k \/ forall rep, ~ gives o (k :: cs) (taken back k (size cs) x) rep
  | UB => exists f, o = OFun f /\ f (k :: cs) (taken back k (size cs) x) = UB
  end.
Proof.
  intros A mem o wi xatom xsh x LM AX WF B W AT sh cs k back. unfold take_ucw. assert (EA : (if (wi <? 0)%Z then neg64 wi else Ok wi) = Ok (Z.abs wi)).
  { destruct (Z.ltb_spec wi 0); [|f_equal; lia]. unfold neg64. replace (wi =? - 2 ^ 63)%Z with false by lia. f_equal. lia. }
  rewrite EA. cbn [bind]. fold sh. assert (AS : array sh x) by (unfold sh; destruct xatom; [rewrite (AT eq_refl) in AX; exact AX|exact AX]). assert (LS : match sh with [] => 1 | n :: _ => n end = lead xsh) by (unfold sh; destruct xatom; [rewrite (AT eq_refl); reflexivity|reflexivity]). rewrite LS.
  assert (TS : tl sh = cs) by (unfold sh, cs; destruct xatom; [rewrite (AT eq_refl); reflexivity|reflexivity]).
  destruct (Z.ltb_spec (Z.of_nat (lead xsh)) (Z.abs wi)) as [G|G]; [left; unfold k; lia|]. assert (KZ : Z.abs wi = Z.of_nat k) by (unfold k; lia). rewrite KZ.
  pose proof (takedrop_ok mem wi o k sh x LM AS WF B ltac:(unfold lead; rewrite LS; lia)) as T. cbv zeta in T. rewrite TS in T. fold back in T. destruct (takedrop_ucw mem wi o (Z.of_nat k) sh x) as [[rsh r]| |]; [|right; exact T|exact T]. split; [lia|exact T].
Qed.
Print Assumptions C49_take_partial.
Theorem C49_drop_partial : forall {A} mem (o : oper A) wi xatom xsh x, length mem = length x -> array xsh x -> wf_op o -> (Z.of_nat (length x) < 2 ^ 32)%Z -> Forall (fun n => (Z.of_nat n < 2 ^ 32)%Z) xsh -> (- 2 ^ 63 < wi < 2 ^ 63)%Z -> (xatom = true -> xsh = []) ->
  let sh := if xatom then [1] else xsh in let cs := tl xsh in let k := lead xsh - Z.to_nat (Z.abs wi) in let back := (0 <? wi)%Z in
  match drop_ucw mem o wi xatom xsh x with
  | Ok (rsh, r) => rsh = sh /\ exists rep, gives o (k :: cs) (taken back k (size cs) x) rep /\ r = put_back back k (size cs) x rep
  | Err => forall rep, ~ gives o (k :: cs) (taken back k (size cs) x) rep
  | UB => exists f, o = OFun f /\ f (k :: cs) (taken back k (size cs) x) = UB
  end.
Proof.
  intros A mem o wi xatom xsh x LM AX WF B BS W AT sh cs k back. unfold drop_ucw. assert (EN : neg64 wi = Ok (- wi)%Z) by (unfold neg64; replace (wi =? - 2 ^ 63)%Z with false by lia; reflexivity).
  assert (EA : (if (wi <? 0)%Z then neg64 wi else Ok wi) = Ok (Z.abs wi)) by (rewrite EN; destruct (Z.ltb_spec wi 0); f_equal; lia).
  rewrite EA. cbn [bind]. fold sh. assert (AS : array sh x) by (unfold sh; destruct xatom; [rewrite (AT eq_refl) in AX; exact AX|exact AX]). assert (LS : match sh with [] => 1 | n :: _ => n end = lead xsh) by (unfold sh; destruct xatom; [rewrite (AT eq_refl); reflexivity|reflexivity]). rewrite LS.
  assert (TS : tl sh = cs) by (unfold sh, cs; destruct xatom; [rewrite (AT eq_refl); reflexivity|reflexivity]). rewrite EN. cbn [bind].
  assert (LB : (Z.of_nat (lead xsh) < 2 ^ 32)%Z) by (unfold lead; destruct xsh; [lia|exact (Forall_inv BS)]).
  assert (KZ : to_u 64 (Z.of_nat (lead xsh) - (if (Z.of_nat (lead xsh) <? Z.abs wi)%Z then Z.of_nat (lead xsh) else Z.abs wi)) = Z.of_nat k) by (unfold k; destruct (Z.ltb_spec (Z.of_nat (lead xsh)) (Z.abs wi)); rewrite to_u_id; lia). cbv zeta. rewrite KZ.
  pose proof (takedrop_ok mem (- wi) o k sh x LM AS WF B ltac:(unfold lead at 1; rewrite LS; unfold k; lia)) as T. cbv zeta in T. rewrite TS in T. replace (- wi <? 0)%Z with back in T by (unfold back; lia). exact T.
Qed.
Print Assumptions C49_drop_partial.
Example C49_take_example : take_ucw [9; 9; 9; 9; 9; 9]%Z (OFun twice) (-2) false [3; 2] [1; 2; 3; 4; 5; 6]%Z = Ok ([3; 2], [1; 2; 6; 8; 10; 12]%Z) /\
  drop_ucw [9; 9; 9; 9; 9; 9]%Z (OFun twice) (-2) false [3; 2] [1; 2; 3; 4; 5; 6]%Z = Ok ([3; 2], [2; 4; 3; 4; 5; 6]%Z) /\ take_ucw [9; 9]%Z (OFun twice) 3 false [2] [1; 2]%Z = Err.
Proof. vm_compute. repeat split. Qed.
(** An atom becomes a list: doing nothing under 1↑ does not give 𝕩 back. *)
Theorem C49_take_atom_refuted : forall {A} (v : A), take_ucw [v] (OFun (fun sh l => Ok (RArr sh l))) 1 true [] [v] = Ok ([1], [v]).
Proof. intros A v. reflexivity. Qed.
Print Assumptions C49_take_atom_refuted.
(** The lowest integer is negated in signed arithmetic. *)
Theorem C49_take_lowest_refuted : forall {A} mem (o : oper A) xatom xsh x, take_ucw mem o (- 2 ^ 63) xatom xsh x = UB /\ drop_ucw mem o (- 2 ^ 63) xatom xsh x = UB.
Proof. intros. split; reflexivity. Qed.
Print Assumptions C49_take_lowest_refuted.

(** ** 𝔽⌾⥊𝕩 and 𝔽⌾(𝕨⊸⥊)𝕩 *)
Theorem C49_deshape : forall {A} (o : oper A) xsh x, array xsh x -> wf_op o ->
  match shape_uc1 o xsh x with Ok (rsh, r) => rsh = xsh /\ gives o [length x] x r /\ array xsh r | Err => forall rep, ~ gives o [length x] x rep | UB => exists f, o = OFun f /\ f [length x] x = UB end.
Proof. exact @shape1_ok. Qed.
Print Assumptions C49_deshape.
(** [ash] is the shape of 𝕨⥊𝕩; if it has more elements than 𝕩 the BQN definition is used. *)
Theorem C49_reshape : forall {A} mem (o : oper A) ash xsh x, length mem = length x -> array xsh x -> wf_op o ->
  match shape_ucw mem o ash xsh x with
  | Ok (Some (rsh, r)) => size ash <= length x /\ rsh = xsh /\ exists rep, gives o ash (firstn (size ash) x) rep /\ r = rep ++ skipn (size ash) x
  | Ok None => length x < size ash
  | Err => forall rep, ~ gives o ash (firstn (size ash) x) rep
  | UB => exists f, o = OFun f /\ f ash (firstn (size ash) x) = UB
  end.
Proof. exact @shape2_ok. Qed.
Print Assumptions C49_reshape.
Example C49_reshape_example : shape_ucw [0; 0; 0; 0; 0; 0]%Z (OFun twice) [2; 2] [3; 2] [1; 2; 3; 4; 5; 6]%Z = Ok (Some ([3; 2], [2; 4; 6; 8; 5; 6]%Z)) /\ shape_uc1 (OArr [2] [5; 6]%Z) [1; 2] [1; 2]%Z = Ok ([1; 2], [5; 6]%Z).
Proof. vm_compute. repeat split. Qed.

(** ** 𝔽⌾⊑𝕩 and 𝔽⌾(𝕨⊸⊑)𝕩 *)
(** The first element; 𝔽 is called on it, all others stay. *)
Theorem C49_first : forall {A} (f : A -> res A) c l, match pick_uc1 f (c :: l) with Ok (Some r) => exists v, f c = Ok v /\ r = v :: l | Ok None => False | Err => f c = Err | UB => f c = UB end.
Proof. intros A f c l. unfold pick_uc1, replace_one. cbn [rd nth_error bind]. destruct (f c) as [v| |]; cbn [bind]; auto. exists v. split; reflexivity. Qed.
Print Assumptions C49_first.
(** One number per axis. [None]: 𝕨 is no list of that many elements, or does not begin with a number. *)
Theorem C49_pick : forall {A} (f : A -> res A) w xsh x, array xsh x -> xsh <> [] -> (Z.of_nat (size xsh) < 2 ^ 32)%Z -> Forall (fun n => (Z.of_nat n < 2 ^ 32)%Z) xsh ->
  match pick_index f w xsh x with
  | Ok (Some r) => exists I c v, index_vec xsh w I /\ elt xsh x I = Some c /\ f c = Ok v /\ changed xsh x I v r
  | Ok None => length w <> length xsh \/ exists v l, w = v :: l /\ isnum v = false
  | Err => forall I c, index_vec xsh w I -> elt xsh x I = Some c -> f c = Err
  | UB => exists I c, index_vec xsh w I /\ elt xsh x I = Some c /\ f c = UB
  end.
Proof.
  intros A f w xsh x AX NE S B. unfold pick_index. pose proof (one_ok w xsh NE S B) as H. destruct xsh as [|n xs] eqn:EX; [congruence|]. rewrite <- EX in *. clear n xs EX. destruct (one_index w xsh) as [[p|]| |]; cbn [bind]; [|exact H| |destruct H].
  - destruct H as (I & V & ->). rewrite Nat2Z.id. destruct (vec_inv _ _ _ V) as (_ & _ & _ & IB & _). destruct (one_changed f xsh x I AX IB) as (c & E & Q). destruct (replace_one f (ravel xsh I) x) as [r| |]; cbn [bind].
    + destruct Q as (v & F & C). exists I, c, v. auto.
    + intros I' c' V' E'. rewrite (vec_fun xsh w I' I V' V) in E'. congruence.
    + exists I, c. auto.
  - intros I c V. exfalso. exact (H I V).
Qed.
Print Assumptions C49_pick.
Theorem C49_pick_number : forall {A} (f : A -> res A) v xsh x, array xsh x -> (Z.of_nat (length x) < 2 ^ 32)%Z ->
  match pick_number f v xsh x with
  | Ok (Some r) => exists k c u, index_of (length x) v k /\ nth_error x k = Some c /\ f c = Ok u /\ r = firstn k x ++ u :: skipn (k + 1) x
  | Ok None => length xsh <> 1
  | Err => forall k c, index_of (length x) v k -> nth_error x k = Some c -> f c = Err
  | UB => exists k c, index_of (length x) v k /\ nth_error x k = Some c /\ f c = UB
  end.
Proof.
  intros A f v xsh x AX B. unfold pick_number. destruct (Nat.eqb_spec (length xsh) 1) as [L|L]; cbn [negb]; [|exact L].
  destruct v as [z|z|z|z]; cbn [bind]; try (intros k c (_ & [E|E]); discriminate). destruct (i64 z) eqn:I; cbn [bind].
  - pose proof (wrapi_ok z (length x) I B) as W. destruct (wrapi z (length x)) as [k| |]; cbn [bind]; [|intros k c V; exfalso; exact (W k V)|destruct W]. pose proof W as [K _]. unfold replace_one, rd. destruct (nth_error x k) as [c|] eqn:E; [|apply nth_error_None in E; lia]. cbn [bind]. destruct (f c) as [u| |] eqn:F; cbn [bind].
    + rewrite wr_ok' by exact K. cbn [bind]. exists k, c, u. auto.
    + intros k' c' V E'. rewrite (index_fun _ _ _ _ V W) in E'. congruence.
    + exists k, c. auto.
  - intros k c (K & [E|E]); inversion E; subst; unfold i64 in I; lia.
Qed.
Print Assumptions C49_pick_number.
(** An array of such lists: as with ⊏, by the positions in 𝕩. *)
Theorem C49_pick_many : forall {A} (compat : A -> A -> bool) junk wf64 re (o : oper A) wsh w xsh x, exact_eq compat -> array xsh x -> array wsh w -> wf_op o -> xsh <> [] -> (Z.of_nat (size xsh) < 2 ^ 32)%Z -> Forall (fun n => (Z.of_nat n < 2 ^ 32)%Z) xsh -> length junk = length x ->
  match pick_many compat junk wf64 re o wsh w xsh x with
  | Ok (Some r) => exists Is rep, Forall2 (index_vec xsh) w Is /\ let idx := map (ravel xsh) Is in gives o wsh (picked 1 idx x) rep /\ consistent 1 idx rep /\ replaced 1 (length x) idx x rep r
  | Ok None => exists v, In v w /\ (length v <> length xsh \/ exists u l, v = u :: l /\ isnum u = false)
  | Err => forall Is rep, Forall2 (index_vec xsh) w Is -> let idx := map (ravel xsh) Is in gives o wsh (picked 1 idx x) rep -> ~ consistent 1 idx rep
  | UB => exists f Is, o = OFun f /\ Forall2 (index_vec xsh) w Is /\ f wsh (picked 1 (map (ravel xsh) Is) x) = UB
  end.
Proof.
  intros A compat junk wf64 re o wsh w xsh x CE AX AW WF NE S B LJ. unfold pick_many. destruct xsh as [|n xs] eqn:EX; [congruence|]. rewrite <- EX in *. clear n xs EX.
  assert (ALL : match all_one w xsh with Ok (Some z) => exists Is, Forall2 (index_vec xsh) w Is /\ z = map Z.of_nat (map (ravel xsh) Is) | Ok None => exists v, In v w /\ (length v <> length xsh \/ exists u l, v = u :: l /\ isnum u = false) | Err => forall Is, ~ Forall2 (index_vec xsh) w Is | UB => False end).
  { clear AW. induction w as [|v w IH]; cbn [all_one]; [exists []; split; [constructor|reflexivity]|]. pose proof (one_ok v xsh NE S B) as H. destruct (one_index v xsh) as [[p|]| |]; cbn [bind]; [|exists v; split; [left; reflexivity|exact H]| |exact H].
    - destruct H as (I & V & ->). destruct (all_one w xsh) as [[z|]| |]; cbn [bind].
      + destruct IH as (Is & F & ->). exists (I :: Is). split; [constructor; auto|reflexivity].
      + destruct IH as (u & U & Q). exists u. split; [right; exact U|exact Q].
      + intros Is F. inversion F; subst. eapply IH. eassumption.
      + exact IH.
    - intros Is F. inversion F; subst. eapply H. eassumption. }
  destruct (all_one w xsh) as [[z|]| |]; cbn [bind]; [|exact ALL|intros Is rep F; exfalso; exact (ALL Is F)|destruct ALL]. destruct ALL as (Is & F & ->). set (idx := map (ravel xsh) Is).
  assert (UNQ : forall Js, Forall2 (index_vec xsh) w Js -> Js = Is). { clear - F. revert Is F. induction w as [|v w IH]; intros Is F Js G; inversion F; inversion G; subst; [reflexivity|]. f_equal; [eapply vec_fun; eauto|apply IH; auto]. }
  assert (IB : Forall (fun k => k < length x) idx). { unfold array in AX. rewrite AX. clear - F. unfold idx. induction F as [|v I w Is V F IH]; [constructor|]. cbn [map]. constructor; [|exact IH]. destruct (vec_inv _ _ _ V) as (_ & _ & _ & I1 & _). apply ravel_lt'. exact I1. }
  assert (WZ : wholes (map VNum (map Z.of_nat idx)) = Some (map Z.of_nat idx)). { generalize (map Z.of_nat idx). clear. induction l as [|a l IH]; [reflexivity|]. cbn [map wholes]. rewrite IH. reflexivity. }
  assert (RG : Forall (fun z => in_range (length x) z = true) (map Z.of_nat idx)). { apply Forall_forall. intros a I. apply in_map_iff in I. destruct I as (k & <- & K). rewrite Forall_forall in IB. specialize (IB k K). unfold in_range. lia. }
  assert (WR : map (wrapz (length x)) (map Z.of_nat idx) = idx). { rewrite map_map. rewrite <- (map_id idx) at 2. apply map_ext. intros k. unfold wrapz. replace (Z.of_nat k <? 0)%Z with false by lia. lia. }
  unfold selected. rewrite WZ. replace (forallb (in_range (length x)) (map Z.of_nat idx)) with true by (symmetry; apply forallb_forall; rewrite Forall_forall in RG; exact RG). cbn [bind].
  assert (EP : flat_map (fun z0 => firstn 1 (skipn (Z.to_nat (if z0 <? 0 then z0 + Z.of_nat (length x) else z0)%Z * 1) x)) (map Z.of_nat idx) = picked 1 idx x).
  { rewrite <- WR at 2. unfold picked. rewrite flat_map_concat_map, flat_map_concat_map, (map_map (wrapz (length x))). reflexivity. }
  rewrite EP. pose proof (call_ok o wsh (picked 1 idx x)) as CO. assert (LI : length idx = length w). { unfold idx. rewrite map_length. symmetry. clear - F. induction F; cbn [length]; auto. }
  destruct (call o wsh (picked 1 idx x)) as [[|s rep]| |]; cbn [bind].
  - intros Js rep G. rewrite (UNQ Js G). cbv zeta. fold idx. intros G'. exfalso. exact (CO rep G').
  - destruct (eqsh s wsh).
    + assert (LR : length rep = length idx). { assert (Q : array wsh rep); [|unfold array in *; lia]. eapply gives_len; [exact WF| |exact CO]. unfold array in *. rewrite (picked_len 1 (length x)) by (try exact IB; lia). lia. }
      pose proof (replace_ok compat CE junk wf64 re 1 (length x) (map Z.of_nat idx) x rep LJ (or_introl eq_refl) ltac:(lia) ltac:(rewrite map_length; lia) RG) as R. cbv zeta in R. rewrite WR in R. destruct (select_replace _ _ _ _ _ _ _ _ _) as [r| |]; cbn [bind]; [| |destruct R].
      * exists Is, rep. split; [exact F|]. cbv zeta. fold idx. tauto.
      * intros Js rep' G. rewrite (UNQ Js G). cbv zeta. fold idx. intros G' C. apply R. assert (RR : rep' = rep); [|rewrite <- RR; exact C]. destruct o as [f|s' l|c]; cbn [gives] in G', CO; [rewrite G' in CO; inversion CO; reflexivity|destruct G', CO; congruence|congruence].
    + intros Js rep' G. rewrite (UNQ Js G). cbv zeta. fold idx. intros G'. exfalso. exact (CO rep' G').
  - intros Js rep G. rewrite (UNQ Js G). cbv zeta. fold idx. intros G'. exfalso. exact (CO rep G').
  - destruct CO as (f & -> & E). exists f, Is. auto.
Qed.
Print Assumptions C49_pick_many.
Example C49_pick_example : pick_index (fun v => Ok (v * 10)%Z) [VNum 1; VNum (-1)] [2; 3] [1; 2; 3; 4; 5; 6]%Z = Ok (Some [1; 2; 3; 4; 5; 60]%Z) /\
  pick_number (fun v => Ok (v * 10)%Z) (VNum (-2)) [3] [1; 2; 3]%Z = Ok (Some [1; 20; 3]%Z) /\ pick_index (fun v => Ok (v * 10)%Z) [VNum 1; VNum 3] [2; 3] [1; 2; 3; 4; 5; 6]%Z = Err /\
  pick_many Z.eqb (repeat true 6) false EI8 (OFun twice) [2] [[VNum 0; VNum 0]; [VNum 1; VNum 1]] [2; 3] [1; 2; 3; 4; 5; 6]%Z = Ok (Some [2; 2; 3; 4; 10; 6]%Z).
Proof. vm_compute. repeat split. Qed.
