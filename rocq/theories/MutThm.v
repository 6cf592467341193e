(** C47: arrays built element by element or piece by piece hold exactly what was put into them, whatever the order and mix of storage types. *)
From Verif Require Import Base BitsModel BitsSpec SqueezeModel ReuseModel MutModel MutSpec MutProof MutProof2 MutProof3 MutProof4 MutProof5.
From Coq Require Import List Lia ZArith.
Import ListNotations.
Open Scope Z_scope.

(** Every position holds the value that was last written to it, for any history of writes; moving to wider storage changes nothing. *)
Theorem C47_writes : forall mk n e os, fresh mk -> Forall (legal n e) os ->
  exists m, run mk (start mk n e) os = Ok m /\ m_ia m = n /\
    forall i v, nth_error (fold_left wrote os (repeat None n)) i = Some (Some v) -> exists s, m_st m = Some s /\ getU s i = Ok v.
Proof. intros mk n e os H L. apply (writes mk H n e os L). Qed.
Print Assumptions C47_writes.

(** Appending: the elements of all pieces in order. *)
Theorem C47_append : forall mk xs ls n, fresh mk -> xs <> [] -> Forall2 elems_of xs ls -> length (concat ls) = n ->
  exists s, build_tot mk n xs = Ok (s, n) /\ room s n /\ contents s (concat ls).
Proof. intros mk xs ls n H. apply (append_all mk H xs ls n). Qed.
Print Assumptions C47_append.

(** Merging pieces of one shape: the shapes are joined, the elements are those of all pieces in order. *)
Theorem C47_merge : forall mk rsh xs ls sh, fresh mk -> Forall2 elems_of xs ls -> Forall (fun x => shape_of x = sh) xs -> length xs = prod rsh -> xs <> [] ->
  Z.of_nat (prod rsh) < 2 ^ 32 -> Z.of_nat (prod rsh) * Z.of_nat (prod sh) < 2 ^ 32 -> (sh = [] \/ (length rsh + length sh <= 255)%nat) ->
  exists s f, build_sh mk rsh xs = Ok (rsh ++ sh, s, f) /\ room s (prod rsh * prod sh) /\ contents s (concat ls).
Proof. intros mk rsh xs ls sh H He Hs Hn Hne. apply (merge_ok mk H rsh xs ls sh He Hs Hn). rewrite <- Hn. destruct xs; [congruence|cbn; lia]. Qed.
Print Assumptions C47_merge.
(** Pieces of different shapes, or a rank over 255, are an error. *)
Theorem C47_merge_error : forall mk rsh xs ls, fresh mk -> Forall2 elems_of xs ls -> length xs = prod rsh -> Z.of_nat (prod rsh) < 2 ^ 32 ->
  (exists x y, In x xs /\ In y xs /\ shape_of x <> shape_of y) -> build_sh mk rsh xs = Err.
Proof. intros mk rsh xs ls H. apply (merge_err mk H rsh xs ls). Qed.
Print Assumptions C47_merge_error.
Theorem C47_merge_rank : forall mk rsh x xs, shape_of x <> [] -> (255 < length rsh + length (shape_of x))%nat -> build_sh mk rsh (x :: xs) = Err.
Proof. exact merge_rank. Qed.
Print Assumptions C47_merge_rank.

(** The result has a fill exactly if all pieces have that fill, where the pieces are not empty and no unit array of values is among them. *)
Theorem C47_merge_fill_partial : forall mk rsh xs ls sh s f rs, fresh mk -> Forall2 elems_of xs ls -> Forall (fun x => shape_of x = sh) xs ->
  prod sh <> O -> Forall (fun x => match x with Arr [] s _ => st_el s <> EB | _ => True end) xs ->
  length xs = prod rsh -> xs <> [] -> Z.of_nat (prod rsh) < 2 ^ 32 -> Z.of_nat (prod rsh) * Z.of_nat (prod sh) < 2 ^ 32 -> (sh = [] \/ (length rsh + length sh <= 255)%nat) ->
  build_sh mk rsh xs = Ok (rs, s, f) -> forall g, getFill (Arr rs s f) = Some g <-> Forall (fun x => getFill x = Some g) xs.
Proof. intros mk rsh xs ls sh s f rs H He Hs Hz Hpl Hn Hne. apply (merge_fill mk H rsh xs ls sh s f rs He Hs Hpl Hz Hn). rewrite <- Hn. destruct xs; [congruence|cbn; lia]. Qed.
Print Assumptions C47_merge_fill_partial.

(** ** An allocator *)
Definition zeroes (e : el) (n : nat) : store :=
  match e with EBit => SBits (repeat 0 (n / 64 + 2)) | EC8 | EC16 | EC32 => SCells e (repeat (VChr 0) n) | _ => SCells e (repeat (VNum 0) n) end.
Lemma fresh_zeroes : fresh zeroes.
Proof.
  intros e n. assert (F : forall (v : val) e, fits e v = true -> Forall (fun v => fits e v = true) (repeat v n)) by (intros v e0 Hv; apply Forall_forall; intros y Hy; apply repeat_spec in Hy; subst y; exact Hv).
  destruct e; cbn [zeroes st_el room]; (split; [reflexivity|]); try (split; [discriminate|]; split; [rewrite repeat_length; lia|apply F; reflexivity]).
  split.
  - apply Forall_forall. intros y Hy. apply repeat_spec in Hy. subst y. cbn. lia.
  - rewrite repeat_length. assert (n = 64 * (n / 64) + n mod 64)%nat by (apply Nat.div_mod; lia). assert (n mod 64 < 64)%nat by (apply Nat.mod_upper_bound; lia). lia.
Qed.
Lemma src_cells e l : e <> EBit -> Forall (fun v => fits e v = true) l -> source (SCells e l) l.
Proof.
  intros He Hf. split; [split; [exact He|split; [lia|exact Hf]]|]. intros i v Hi. cbn [getU]. unfold rd. rewrite Hi. reflexivity.
Qed.
(** bits, then a larger number, a fraction, a character, a list, over a fill of ones: all kinds of widening *)
Definition ex_ops : list op := [WFill 0 (VNum 1) 66; WSet 3 (VNum 0); WSet 4 (VNum (-7)); WFill 60 (VNum 40000) 3; WSet 5 (VDbl 1); WCopy 6 (SCells EC8 [VChr 97; VChr 98]) [VChr 97; VChr 98] 1 1; WSet 7 (VObj 1)].
Example C47_writes_example : fresh zeroes /\ Forall (legal 66 None) ex_ops /\
  match run zeroes (start zeroes 66 None) ex_ops with
  | Ok m => match m_st m with Some s => map (getU s) [0; 3; 4; 5; 6; 7; 59; 60; 62; 63; 65]%nat = map (fun v => Ok v) [VNum 1; VNum 0; VNum (-7); VDbl 1; VChr 98; VObj 1; VNum 1; VNum 40000; VNum 40000; VNum 1; VNum 1] | None => False end
  | _ => False
  end.
Proof.
  split; [exact fresh_zeroes|]. split; [|vm_compute; reflexivity].
  repeat constructor; cbn; try lia; try discriminate. apply (src_cells EC8 [VChr 97; VChr 98]); [discriminate|repeat constructor].
Qed.
Definition p1 : src := Arr [2%nat] (SCells EI8 [VNum 1; VNum 2]) None.
Definition p2 : src := Arr [2%nat] (SCells EI16 [VNum 300; VNum 0]) None.
Definition p3 : src := Arr [2%nat] (SCells EC8 [VChr 97; VChr 98]) None.
Definition p4 : src := Arr [3%nat] (SCells EC8 [VChr 97; VChr 98; VChr 99]) None.
Example C47_merge_hypotheses : fresh zeroes /\ Forall2 elems_of [p1; p2; p3] [[VNum 1; VNum 2]; [VNum 300; VNum 0]; [VChr 97; VChr 98]] /\ Forall (fun x => shape_of x = [2%nat]) [p1; p2; p3].
Proof.
  split; [exact fresh_zeroes|]. split; [|repeat constructor]. repeat apply Forall2_cons; try apply Forall2_nil; (split; [reflexivity|]); apply src_cells; try discriminate; repeat constructor.
Qed.
Example C47_merge_example :
  build_sh zeroes [2%nat] [p1; p2] = Ok ([2%nat; 2%nat], SCells EI16 [VNum 1; VNum 2; VNum 300; VNum 0], None) /\
  build_sh zeroes [2%nat] [p2; p3] = Ok ([2%nat; 2%nat], SCells EB [VNum 300; VNum 0; VChr 97; VChr 98], None) /\
  build_sh zeroes [3%nat] [p1; p2; p3] = Ok ([3%nat; 2%nat], SCells EB [VNum 1; VNum 2; VNum 300; VNum 0; VChr 97; VChr 98], None) /\
  build_sh zeroes [2%nat] [p3; p4] = Err /\
  build_tot zeroes 7 [Atom (VNum 1); p1; Atom (VDbl 0); p4] = Ok (SCells EB [VNum 1; VNum 1; VNum 2; VDbl 0; VChr 97; VChr 98; VChr 99], 7%nat).
Proof. vm_compute. auto. Qed.

(** ** Fills in the two left out cases *)
(** Empty pieces: the fill of the first one is the fill of the result, whatever the fill of the others. *)
Definition e1 : src := Arr [0%nat] (SCells EC8 []) None.
Definition e2 : src := Arr [0%nat] (SCells EI8 []) None.
(** A unit array of values that holds a number fits numeric storage, so that its own fill (here none) is not looked at. *)
Definition u2 : src := Arr [] (SCells EB [VNum 2]) None.
Theorem C47_merge_fill_refuted : exists mk rsh xs ls sh s f rs g, fresh mk /\ Forall2 elems_of xs ls /\ Forall (fun x => shape_of x = sh) xs /\ length xs = prod rsh /\ xs <> [] /\
  build_sh mk rsh xs = Ok (rs, s, f) /\ getFill (Arr rs s f) = Some g /\ ~ Forall (fun x => getFill x = Some g) xs.
Proof.
  exists zeroes, [2%nat], [e1; e2], [[]; []], [0%nat], (SCells EC8 []), None, [2%nat; 0%nat], (VChr 32). split; [exact fresh_zeroes|].
  split; [repeat apply Forall2_cons; try apply Forall2_nil; (split; [reflexivity|]); apply src_cells; try discriminate; constructor|].
  split; [repeat constructor|]. split; [reflexivity|]. split; [discriminate|]. split; [vm_compute; reflexivity|]. split; [reflexivity|].
  intros H. inversion H as [|? ? _ H2]; subst. inversion H2 as [|? ? H3 _]; subst. discriminate.
Qed.
Print Assumptions C47_merge_fill_refuted.
Theorem C47_unit_fill_refuted : exists mk rsh xs ls s f rs g, fresh mk /\ Forall2 elems_of xs ls /\ Forall (fun x => shape_of x = []) xs /\ length xs = prod rsh /\ xs <> [] /\
  build_sh mk rsh xs = Ok (rs, s, f) /\ getFill (Arr rs s f) = Some g /\ ~ Forall (fun x => getFill x = Some g) xs.
Proof.
  exists zeroes, [2%nat], [Atom (VNum 7); u2], [[VNum 7]; [VNum 2]], (SCells EI8 [VNum 7; VNum 2]), None, [2%nat], (VNum 0). split; [exact fresh_zeroes|].
  split; [repeat apply Forall2_cons; try apply Forall2_nil; [reflexivity|split; [reflexivity|]; apply src_cells; [discriminate|repeat constructor]]|].
  split; [repeat constructor|]. split; [reflexivity|]. split; [discriminate|]. split; [vm_compute; reflexivity|]. split; [reflexivity|].
  intros H. inversion H as [|? ? _ H2]; subst. inversion H2 as [|? ? H3 _]; subst. discriminate.
Qed.
Print Assumptions C47_unit_fill_refuted.
