(** Proofs about MoveModel: the copying loop of Take and Drop along several axes. *)
From Coq Require Import List Arith ZArith Bool Lia.
Import ListNotations.
From Verif Require Import Base ListLib SqueezeModel TransModel TransSpec TransProof TransProof2 TransProof5 MoveModel MoveSpec MoveProof.
Open Scope nat_scope.
(** * one axis *)
Notation axis := (bool * nat * nat)%type.
Definition xl (a : axis) : nat := snd (fst a).
Definition rl (a : axis) : nat := snd a.
Definition mn (a : axis) : nat := Nat.min (xl a) (rl a).
Definition uo (take : bool) (a : axis) : bool := negb (xorb take (fst (fst a))).
Definition ro (take : bool) (a : axis) : nat := if uo take a then rl a - xl a else 0.
Definition xo (take : bool) (a : axis) : nat := if uo take a then xl a - rl a else 0.
Definition dz (take : bool) (a : axis) : Z := if uo take a then (Z.of_nat (xl a) - Z.of_nat (rl a))%Z else 0%Z.
Definition xsh_ (l : list axis) := map xl l.
Definition rsh_ (l : list axis) := map rl l.
Definition msh_ (l : list axis) := map mn l.
Fixpoint zadd (a b : list nat) : list nat := match a, b with x :: a, y :: b => x + y :: zadd a b | _, _ => [] end.
Lemma ravel_add sh : forall I J, length I = length sh -> length J = length sh -> ravel sh (zadd I J) = ravel sh I + ravel sh J.
Proof. induction sh as [|l sh IH]; intros [|i I] [|j J] H1 H2; cbn [length] in *; try lia; auto. cbn [zadd ravel]. rewrite IH by lia. ring. Qed.
Lemma zadd_len a b : length a = length b -> length (zadd a b) = length a.
Proof. revert b. induction a as [|x a IH]; intros [|y b] H; cbn [length] in *; try lia; auto. cbn [zadd length]. rewrite IH by lia. auto. Qed.
Lemma ravel_inj sh I J : inb sh I -> inb sh J -> ravel sh I = ravel sh J -> I = J.
Proof.
  intros H. revert J. induction H as [|l i sh I Hi F IH]; intros J HJ E; inversion HJ as [|? j ? J' Hj FJ]; subst; auto. cbn [ravel] in E. change (size sh) with (shProd sh) in E. pose proof (ravel_lt _ _ F) as B1. pose proof (ravel_lt _ _ FJ) as B2. assert (i = j) by nia. subst j. f_equal. apply IH; auto. lia.
Qed.
Section Ax.
Variable take : bool.
Lemma m_in_r l J : inb (msh_ l) J -> inb (rsh_ l) (zadd J (map (ro take) l)).
Proof. unfold msh_, rsh_. revert J. induction l as [|a l IH]; intros J H; inversion H as [|? j ? J' Hj F]; subst; cbn [map zadd]; constructor. - unfold mn, ro in *. destruct (uo take a); lia. - apply IH; auto. Qed.
Lemma m_in_x l J : inb (msh_ l) J -> inb (xsh_ l) (zadd J (map (xo take) l)).
Proof. unfold msh_, xsh_. revert J. induction l as [|a l IH]; intros J H; inversion H as [|? j ? J' Hj F]; subst; cbn [map zadd]; constructor. - unfold mn, xo in *. destruct (uo take a); lia. - apply IH; auto. Qed.
Lemma source_in l J : inb (msh_ l) J -> source (map (dz take) l) (xsh_ l) (zadd J (map (ro take) l)) = Some (zadd J (map (xo take) l)).
Proof.
  unfold msh_, xsh_. revert J. induction l as [|a l IH]; intros J H; inversion H as [|? j ? J' Hj F]; subst; auto. cbn [map zadd source]. unfold mn, ro, xo, dz in *.
  assert (E : (Z.of_nat (j + (if uo take a then rl a - xl a else 0)) + (if uo take a then Z.of_nat (xl a) - Z.of_nat (rl a) else 0) = Z.of_nat (j + (if uo take a then xl a - rl a else 0)))%Z) by (destruct (uo take a); lia). rewrite E.
  replace ((0 <=? _) && (_ <? _))%Z with true by (symmetry; apply andb_true_intro; split; [apply Z.leb_le|apply Z.ltb_lt]; destruct (uo take a); lia). rewrite IH by auto. cbn [option_map]. rewrite Nat2Z.id. reflexivity.
Qed.
Lemma source_some l I : inb (rsh_ l) I -> source (map (dz take) l) (xsh_ l) I <> None -> exists J, inb (msh_ l) J /\ I = zadd J (map (ro take) l).
Proof.
  unfold msh_, xsh_, rsh_. revert I. induction l as [|a l IH]; intros I H S; inversion H as [|? i ? I' Hi F]; subst; [exists []; split; [constructor|auto]|]. cbn [map source] in S.
  destruct (Z.leb_spec 0 (Z.of_nat i + dz take a)) as [D1|D1]; cbn [andb] in S; [|congruence]. destruct (Z.ltb_spec (Z.of_nat i + dz take a) (Z.of_nat (xl a))) as [D2|D2]; [|congruence].
  destruct (IH I' F) as (J & BJ & ->). { intros E. rewrite E in S. apply S. reflexivity. } exists (i - ro take a :: J). split.
  - constructor; auto. unfold mn, ro, dz in *. destruct (uo take a); lia.
  - cbn [map zadd]. f_equal. unfold ro, dz in *. destruct (uo take a); lia.
Qed.
End Ax.
(** * the numbers set up by the loop over the axes *)
Section Init.
Variables (take : bool) (cs : nat).
Notation ci := (cinit take cs).
Lemma ci_cs i l : s_xcs (ci i l) = shProd (xsh_ l) /\ s_rcs (ci i l) = shProd (rsh_ l).
Proof. revert i. induction l as [|[[n a] b] l IH]; intros i; [auto|]. cbn [cinit]. destruct (IH (i + 1)) as [E1 E2]. unfold cstep. destruct (i =? cs); cbn [s_xcs s_rcs]; rewrite E1, E2; split; apply Nat.mul_comm. Qed.
Lemma ci_i i l : s_ri (ci i l) = ravel (rsh_ l) (map (ro take) l) /\ s_xi (ci i l) = ravel (xsh_ l) (map (xo take) l).
Proof.
  revert i. induction l as [|[[n a] b] l IH]; intros i; [auto|]. cbn [cinit map ravel rsh_ xsh_]. destruct (IH (i + 1)) as [E1 E2]. destruct (ci_cs (i + 1) l) as [C1 C2]. change (size (map rl l)) with (shProd (rsh_ l)). change (size (map xl l)) with (shProd (xsh_ l)). fold (rsh_ l). fold (xsh_ l). rewrite <- C1, <- C2, <- E1, <- E2.
  unfold cstep, ro, xo, uo, xl, rl. cbn [fst snd]. assert (EQ : forall (u : bool) p q m k, (if u && (p <? q) then m + (q - p) * k else m) = (if u then q - p else 0) * k + m). { intros u p q m k. destruct u; cbn [andb]; [|lia]. destruct (Nat.ltb_spec p q); [lia|]. replace (q - p) with 0 by lia. lia. } rewrite !EQ. destruct (i =? cs); cbn [s_ri s_xi]; auto.
Qed.
Lemma ci_inner l : forall i, cs < i -> Forall (fun a => xl a = rl a) l -> s_xs (ci i l) = 0 /\ s_rs (ci i l) = 0.
Proof.
  induction l as [|[[n a] b] l IH]; intros i L H; [auto|]. cbn [cinit]. pose proof (Forall_inv H) as E. unfold xl, rl in E. cbn [fst snd] in E. subst b. destruct (IH (i + 1)) as [E1 E2]; [lia|eapply Forall_inv_tail; eauto|]. unfold cstep. replace (i =? cs) with false by (symmetry; apply Nat.eqb_neq; lia). cbn [s_xs s_rs]. rewrite Nat.ltb_irrefl, E1, E2, Nat.sub_diag. split; lia.
Qed.
Lemma ci_at a l : Forall (fun a => xl a = rl a) l -> let s := ci cs (a :: l) in let c := shProd (rsh_ l) in
  s_cw s = mn a * c /\ s_xSkip s = xl a * c /\ s_rSkip s = rl a * c /\ s_xs s = xl a * c /\ s_rs s = rl a * c.
Proof.
  intros H s c. unfold s. cbn [cinit]. destruct a as [[n a] b]. destruct (ci_inner l (cs + 1)) as [E1 E2]; [lia|auto|]. destruct (ci_cs (cs + 1) l) as [C1 C2]. assert (EX : shProd (xsh_ l) = c). { unfold c, xsh_, rsh_. f_equal. apply map_ext_in. intros e IE. rewrite Forall_forall in H. apply H; auto. }
  unfold cstep. rewrite Nat.eqb_refl. cbn [s_cw s_xSkip s_rSkip s_xs s_rs]. rewrite C1, C2, E1, E2, EX. fold c. unfold mn, xl, rl. cbn [fst snd]. destruct (Nat.ltb_spec a b); [rewrite Nat.min_l by lia|rewrite Nat.min_r by lia]; nia.
Qed.
(** the entries for the axes before [cs]; [ent]: outermost first *)
Fixpoint rents (outer rest : list axis) : list ((nat * nat * nat) * (nat * nat)) :=    (* (count, step in r, step in x), (stride in r, stride in x) *)
  match outer with
  | [] => []
  | a :: o => ((mn a, s_rs (ci (cs - length o) (o ++ rest)), s_xs (ci (cs - length o) (o ++ rest))), (shProd (rsh_ (o ++ rest)), shProd (xsh_ (o ++ rest)))) :: rents o rest
  end.
Lemma ci_ax outer rest : forall i, i + length outer = cs -> firstn (length outer) (s_ax (ci i (outer ++ rest))) = map fst (rents outer rest).
Proof.
  induction outer as [|[[n a] b] o IH]; intros i E; auto. cbn [length] in E. cbn [app cinit rents map length]. unfold cstep. assert (EI : cs - length o = i + 1) by lia. rewrite EI.
  assert (ME : (if a <? b then a else b) = mn (n, a, b)) by (unfold mn, xl, rl; cbn [fst snd]; destruct (Nat.ltb_spec a b); lia).
  replace (i =? cs) with false by (symmetry; apply Nat.eqb_neq; lia). cbn [s_ax firstn fst]. rewrite IH by lia. rewrite ME. reflexivity.
Qed.
Lemma ci_skips outer rest : forall i, i + length outer = cs -> s_cw (ci i (outer ++ rest)) = s_cw (ci cs rest) /\ s_xSkip (ci i (outer ++ rest)) = s_xSkip (ci cs rest) /\ s_rSkip (ci i (outer ++ rest)) = s_rSkip (ci cs rest).
Proof.
  induction outer as [|[[n a] b] o IH]; intros i E; cbn [length] in E; [replace i with cs by lia; auto|]. cbn [app cinit]. unfold cstep. replace (i =? cs) with false by (symmetry; apply Nat.eqb_neq; lia). cbn [s_cw s_xSkip s_rSkip]. apply IH. lia.
Qed.
(** steps and strides, innermost first: the step is the stride less what the inner axes have moved *)
Fixpoint dl (Br Bx : nat) (ts : list ((nat * nat * nat) * (nat * nat))) : Prop :=
  match ts with
  | [] => True
  | ((t, rc, xc), (sr, sx)) :: ts => 0 < t /\ rc + Br = sr /\ xc + Bx = sx /\ dl (Br + (t - 1) * sr) (Bx + (t - 1) * sx) ts
  end.
Fixpoint moves (ts : list ((nat * nat * nat) * (nat * nat))) : nat * nat :=
  match ts with [] => (0, 0) | ((t, _, _), (sr, sx)) :: ts => let '(a, b) := moves ts in ((t - 1) * sr + a, (t - 1) * sx + b) end.
Lemma dl_snoc ts : forall Br Bx t rc xc sr sx, dl Br Bx ts -> 0 < t -> rc + (Br + fst (moves ts)) = sr -> xc + (Bx + snd (moves ts)) = sx -> dl Br Bx (ts ++ [((t, rc, xc), (sr, sx))]).
Proof.
  induction ts as [|[[[t0 rc0] xc0] [sr0 sx0]] ts IH]; intros Br Bx t rc xc sr sx D T E1 E2; cbn [app dl moves fst snd] in *; [repeat split; auto; lia|]. destruct D as (D1 & D2 & D3 & D4). repeat split; auto. destruct (moves ts) as [ma mb]. cbn [fst snd] in *. apply IH; auto; lia.
Qed.
Lemma moves_app a b : moves (a ++ b) = (fst (moves a) + fst (moves b), snd (moves a) + snd (moves b)).
Proof. induction a as [|[[[t rc] xc] [sr sx]] a IH]; cbn [app moves]; [destruct (moves b); auto|]. rewrite IH. destruct (moves a), (moves b). cbn [fst snd]. f_equal; lia. Qed.
Lemma rents_dl outer a inner : Forall (fun a => xl a = rl a) inner -> Forall (fun a => 0 < mn a) outer -> let rest := a :: inner in
  let s i := ci i (outer ++ rest) in let i := cs - length outer in
  length outer <= cs -> dl 0 0 (rev (rents outer rest)) /\ s_rs (s i) + fst (moves (rev (rents outer rest))) = shProd (rsh_ (outer ++ rest)) /\ s_xs (s i) + snd (moves (rev (rents outer rest))) = shProd (xsh_ (outer ++ rest)) /\ s_cw (ci cs rest) <= s_rs (s i).
Proof.
  intros HI. induction outer as [|[[n b] c] o IH]; intros HO; cbn zeta.
  - intros _. cbn [rents rev dl moves fst snd length]. rewrite Nat.sub_0_r. cbn [app]. destruct (ci_at a inner HI) as (E1 & E2 & E3 & E4 & E5). rewrite E4, E5, E1. unfold rsh_, xsh_. cbn [map]. rewrite !shProd_cons. assert (EX : shProd (map xl inner) = shProd (map rl inner)). { f_equal. apply map_ext_in. intros e IE. rewrite Forall_forall in HI. apply HI; auto. } rewrite EX. unfold mn, rsh_. repeat split; auto; nia.
  - intros L. cbn [length] in L. destruct (IH (Forall_inv_tail HO)) as (D & E1 & E2 & E3); [lia|]. cbn zeta in *. pose proof (Forall_inv HO) as MP. cbn beta in MP. cbn [rents rev]. set (S := ci (cs - length o) (o ++ a :: inner)) in *. set (CW := s_cw (ci cs (a :: inner))) in *.
    split; [|]. { apply dl_snoc; auto; cbn [fst snd]; lia. } rewrite moves_app. cbn [fst snd moves length app cinit]. unfold cstep. replace (cs - Datatypes.S (length o) =? cs) with false by (symmetry; apply Nat.eqb_neq; lia). replace (cs - Datatypes.S (length o) + 1) with (cs - length o) by lia. fold S. cbn [s_rs s_xs]. destruct (ci_cs (cs - length o) (o ++ a :: inner)) as [C1 C2]. fold S in C1, C2. rewrite C1, C2.
    unfold rsh_ in *. unfold xsh_ in *. cbn [map]. rewrite !shProd_cons. set (PR := shProd (map rl (o ++ a :: inner))) in *. set (PX := shProd (map xl (o ++ a :: inner))) in *. unfold mn, xl, rl in *. cbn [fst snd] in *. destruct (Nat.ltb_spec b c) as [LT|LT]; [rewrite Nat.min_l in * by lia; destruct b as [|b']; [lia|]; destruct (Nat.le_exists_sub (Datatypes.S b') c) as (e & -> & _); [lia|]; replace (e + Datatypes.S b' - Datatypes.S b') with e by lia|rewrite Nat.min_r in * by lia; destruct c as [|c']; [lia|]; destruct (Nat.le_exists_sub (Datatypes.S c') b LT) as (e & -> & _); replace (e + Datatypes.S c' - Datatypes.S c') with e by lia]; rewrite Nat.sub_succ, Nat.sub_0_r; repeat split; lia.
Qed.
End Init.
