(** The comparison functions on all arguments: induction on the depth *)
From Verif Require Import Base TagModel TagSpec TagProof NumSpec NumProof ArrSpec SqueezeModel SqueezeProof SqueezeProof2 HashModel CompareModel SearchFlat PervModel PervSpec PervProof PervProof2 PervProof3 PervProof4 PervProof5.
From Coq Require Import List Lia.
Open Scope nat_scope.
Section W.
Variable decomp : Z -> Z -> bool.
Hypothesis SYD : forall p q, decomp p q = decomp q p.
Variable junk : list Z.
Hypothesis LJ : 64 <= length junk.
Notation sm := (same decomp).
Notation okres := (okres sm).
Notation c2 := (cmp_c2 decomp junk).
Lemma okflip o t u r : okres (flip o) u t r -> okres o t u r.
Proof. apply okres_flip. apply SY. exact SYD. Qed.
Lemma c2_atoms n o a b : raw_ok EB a -> raw_ok EB b -> okres o (TA (den a)) (TA (den b)) (c2 (S n) o (At a) (At b)).
Proof.
  intros A B. cbn [cmp_c2]. pose proof (atom_ok decomp o a b A B) as Q. destruct (cmp_atom decomp o a b) as [c| |]; cbn [bind]; unfold PervProof3.okres, compares; [apply p_atoms; exact Q| |exact Q]. intros r P. inversion P; subst. eapply Q. eassumption.
Qed.
Lemma c2_typed n o sh we wm xe xm : wfa (Ta sh we wm) -> wfa (Ta sh xe xm) -> okres o (tree_of (Ta sh we wm)) (tree_of (Ta sh xe xm)) (c2 (S (S n)) o (Ta sh we wm) (Ta sh xe xm)).
Proof.
  intros W X. change (c2 (S (S n)) o (Ta sh we wm) (Ta sh xe xm)) with (match o with OLe => cmp_AA junk (c2 (S n)) true OGe (Ta sh xe xm) (Ta sh we wm) | OLt => cmp_AA junk (c2 (S n)) true OGt (Ta sh xe xm) (Ta sh we wm) | _ => cmp_AA junk (c2 (S n)) false o (Ta sh we wm) (Ta sh xe xm) end).
  destruct o; try (apply AA_same; auto; intros; apply c2_atoms; assumption); apply okflip; cbn [flip]; apply AA_same; auto; intros; apply c2_atoms; assumption.
Qed.
Lemma c2_scalar n o w sh e mem : raw_ok EB w -> wfa (Ta sh e mem) -> okres o (TA (den w)) (tree_of (Ta sh e mem)) (c2 (S n) o (At w) (Ta sh e mem)) /\ okres o (tree_of (Ta sh e mem)) (TA (den w)) (c2 (S n) o (Ta sh e mem) (At w)).
Proof. intros W X. cbn [cmp_c2]. split; [apply SA_typed; auto|]. apply okflip. apply SA_typed; auto. Qed.
Lemma AA_ok n swapped o w x : 2 <= n -> wfa w -> wfa x -> is_arr w -> is_arr x ->
  (forall o wl xl a b, elems w = Ok wl -> elems x = Ok xl -> In a wl -> In b xl -> okres o (tree_of a) (tree_of b) (c2 n o a b) /\ okres o (tree_of b) (tree_of a) (c2 n o b a)) ->
  okres o (tree_of w) (tree_of x) (cmp_AA junk (c2 n) swapped o w x).
Proof.
  intros N W X AW AX H. assert (REC : okres o (tree_of w) (tree_of x) (cmp_rec (c2 n) swapped o w x)) by (apply rec_ok; auto). destruct n as [|[|n]]; [lia..|].
  destruct w as [w|wsh we wm|wsh wd]; [destruct AW| |exact REC]. destruct x as [x|xsh xe xm|xsh xd]; [destruct AX| |exact REC].
  destruct (list_eq_dec Nat.eq_dec wsh xsh) as [->|NS]; [apply AA_same; auto; intros; apply c2_atoms; assumption|].
  assert (T1 : forall o sh we wm xe xm, wfa (Ta sh we wm) -> wfa (Ta sh xe xm) -> okres o (tree_of (Ta sh we wm)) (tree_of (Ta sh xe xm)) (c2 (S (S n)) o (Ta sh we wm) (Ta sh xe xm))) by (intros; apply c2_typed; assumption).
  assert (T2 : forall o w sh e mem, raw_ok EB w -> wfa (Ta sh e mem) -> okres o (TA (den w)) (tree_of (Ta sh e mem)) (c2 (S (S n)) o (At w) (Ta sh e mem)) /\ okres o (tree_of (Ta sh e mem)) (TA (den w)) (c2 (S (S n)) o (Ta sh e mem) (At w))) by (intros; apply c2_scalar; assumption).
  unfold cmp_AA. destruct (Nat.eqb_spec (length wsh) (length xsh)) as [LE|LN]; cbn [negb].
  - destruct (eqShPart wsh xsh (length wsh)) eqn:EP; cbn [negb].
    + apply part_ok in EP; [|lia]. destruct EP as (e & ->). rewrite app_length in LE. destruct e; [|cbn [length] in LE; lia]. rewrite app_nil_r in NS. congruence.
    + intros r P. rewrite !tree_Ta in P. apply perv_shapes in P. apply NS. destruct P as [[e ->]|[e ->]]; rewrite app_length in LE; destruct e; cbn [length] in LE; try lia; rewrite app_nil_r; reflexivity.
  - destruct ((size wsh =? 0) || (size xsh =? 0)) eqn:Z0; [exact REC|]. apply orb_false_iff in Z0. destruct Z0 as [ZW ZX]. apply Nat.eqb_neq in ZW, ZX. destruct (Nat.ltb_spec (length wsh) (length xsh)).
    + rewrite Nat.min_l by lia. destruct (eqShPart wsh xsh (length wsh)) eqn:EP; cbn [negb].
      * apply part_ok in EP; [|lia]. destruct EP as (e & ->). exact (lead_ok decomp SYD junk LJ (c2 (S (S n))) o false wsh we wm e xe xm T1 T2 W X ZX).
      * intros r P. rewrite !tree_Ta in P. apply perv_shapes in P. destruct P as [P|[e ->]]; [apply part_ok in P; [congruence|lia]|]. rewrite app_length in *. lia.
    + rewrite Nat.min_r, part_sym by lia. destruct (eqShPart xsh wsh (length xsh)) eqn:EP; cbn [negb].
      * apply part_ok in EP; [|lia]. destruct EP as (e & ->). apply okflip. exact (lead_ok decomp SYD junk LJ (c2 (S (S n))) o true xsh xe xm e we wm T1 T2 X W ZW).
      * intros r P. rewrite !tree_Ta in P. apply perv_shapes in P. destruct P as [[e ->]|P]; [rewrite app_length in *; lia|apply part_ok in P; [congruence|lia]].
Qed.
Lemma arr_depth a : is_arr a -> 1 <= depth a.
Proof. destruct a; intros []; cbn [depth]; lia. Qed.
Lemma elem_depths w x wl xl a b : wfa w -> wfa x -> is_arr w \/ is_arr x -> elems w = Ok wl -> elems x = Ok xl -> In a wl -> In b xl -> wfa a /\ wfa b /\ depth a + depth b < depth w + depth x.
Proof.
  intros W X AR EW EX I J. destruct (elems_ok w W) as (wl' & EW' & _ & FW & _ & DW & SW), (elems_ok x X) as (xl' & EX' & _ & FX & _ & DX & SX). rewrite EW in EW'. rewrite EX in EX'. inversion EW'; inversion EX'; subst wl' xl'. rewrite Forall_forall in FW, FX. split; [auto|]. split; [auto|].
  assert (A : is_arr w /\ depth a < depth w \/ a = w) by (destruct SW as [AW| ->]; [left; auto|right; destruct I as [->|[]]; reflexivity]). assert (B : is_arr x /\ depth b < depth x \/ b = x) by (destruct SX as [AX| ->]; [left; auto|right; destruct J as [->|[]]; reflexivity]).
  destruct AR as [AW|AX].
  - specialize (DW AW a I). destruct B as [[_ B]| ->]; lia.
  - specialize (DX AX b J). destruct A as [[_ A]| ->]; lia.
Qed.
Theorem c2_ok : forall n o w x, depth w + depth x < n -> wfa w -> wfa x -> okres o (tree_of w) (tree_of x) (c2 n o w x).
Proof.
  induction n as [|n IH]; intros o w x D W X; [lia|]. destruct w as [a|wsh we wm|wsh wd] eqn:EW.
  - destruct x as [b|xsh xe xm|xsh xd] eqn:EX; [apply c2_atoms; assumption|apply c2_scalar; assumption|]. cbn [cmp_c2 cmp_SA]. rewrite <- EX in *. apply (rec_ok decomp SYD (c2 n) false o (At a) x W X); [right; rewrite EX; exact Logic.I|].
    intros o' wl xl u v EU EV I J. destruct (elem_depths (At a) x wl xl u v W X) as (WU & WV & DD); auto; [right; rewrite EX; exact Logic.I|]. split; apply IH; auto; lia.
  - rewrite <- EW in *. assert (AW : is_arr w) by (rewrite EW; exact Logic.I). destruct x as [b|xsh xe xm|xsh xd] eqn:EX; [rewrite EW; apply c2_scalar; [exact X|rewrite <- EW; exact W]| |].
    all: rewrite <- EX in *; assert (AX : is_arr x) by (rewrite EX; exact Logic.I).
    all: assert (N2 : 2 <= n) by (rewrite EW in D; cbn [depth] in D; lia || (pose proof (arr_depth x AX); rewrite EW in D; cbn [depth] in D; lia)).
    all: assert (H : forall o wl xl u v, elems w = Ok wl -> elems x = Ok xl -> In u wl -> In v xl -> okres o (tree_of u) (tree_of v) (c2 n o u v) /\ okres o (tree_of v) (tree_of u) (c2 n o v u)) by (intros o' wl xl u v EU EV I J; destruct (elem_depths w x wl xl u v W X (or_introl AW) EU EV I J) as (WU & WV & DD); split; apply IH; auto; lia).
    all: assert (H' : forall o xl wl u v, elems x = Ok xl -> elems w = Ok wl -> In u xl -> In v wl -> okres o (tree_of u) (tree_of v) (c2 n o u v) /\ okres o (tree_of v) (tree_of u) (c2 n o v u)) by (intros o' xl wl u v EU EV I J; destruct (H o' wl xl v u EV EU J I); split; assumption).
    all: replace (c2 (S n) o w x) with (match o with OLe => cmp_AA junk (c2 n) true OGe x w | OLt => cmp_AA junk (c2 n) true OGt x w | _ => cmp_AA junk (c2 n) false o w x end) by (rewrite EW, EX; reflexivity).
    all: destruct o; try (apply AA_ok; assumption); apply okflip; cbn [flip]; apply AA_ok; assumption.
  - rewrite <- EW in *. assert (AW : is_arr w) by (rewrite EW; exact Logic.I).
    assert (H : forall o wl xl u v, elems w = Ok wl -> elems x = Ok xl -> In u wl -> In v xl -> okres o (tree_of u) (tree_of v) (c2 n o u v) /\ okres o (tree_of v) (tree_of u) (c2 n o v u)) by (intros o' wl xl u v EU EV I J; destruct (elem_depths w x wl xl u v W X (or_introl AW) EU EV I J) as (WU & WV & DD); split; apply IH; auto; lia).
    assert (H' : forall o xl wl u v, elems x = Ok xl -> elems w = Ok wl -> In u xl -> In v wl -> okres o (tree_of u) (tree_of v) (c2 n o u v) /\ okres o (tree_of v) (tree_of u) (c2 n o v u)) by (intros o' xl wl u v EU EV I J; destruct (H o' wl xl v u EV EU J I); split; assumption).
    destruct x as [b|xsh xe xm|xsh xd] eqn:EX.
    + replace (c2 (S n) o w (At b)) with (cmp_rec (c2 n) true (flip o) (At b) w) by (rewrite EW; reflexivity). apply okflip. apply (rec_ok decomp SYD (c2 n) true (flip o) (At b) w X W); [right; exact AW|exact H'].
    + rewrite <- EX in *. assert (AX : is_arr x) by (rewrite EX; exact Logic.I). assert (RR : forall p, okres p (tree_of x) (tree_of w) (cmp_rec (c2 n) true p x w)) by (intros p; apply (rec_ok decomp SYD (c2 n) true p x w X W); [left; exact AX|exact H']). assert (RR' : forall p, okres p (tree_of w) (tree_of x) (cmp_rec (c2 n) false p w x)) by (intros p; apply (rec_ok decomp SYD (c2 n) false p w x W X); [left; exact AW|exact H]).
      replace (c2 (S n) o w x) with (match o with OLe => cmp_rec (c2 n) true OGe x w | OLt => cmp_rec (c2 n) true OGt x w | _ => cmp_rec (c2 n) false o w x end) by (rewrite EW, EX; reflexivity). destruct o; try apply RR'; apply okflip; apply RR.
    + rewrite <- EX in *. assert (AX : is_arr x) by (rewrite EX; exact Logic.I). assert (RR : forall p, okres p (tree_of x) (tree_of w) (cmp_rec (c2 n) true p x w)) by (intros p; apply (rec_ok decomp SYD (c2 n) true p x w X W); [left; exact AX|exact H']). assert (RR' : forall p, okres p (tree_of w) (tree_of x) (cmp_rec (c2 n) false p w x)) by (intros p; apply (rec_ok decomp SYD (c2 n) false p w x W X); [left; exact AW|exact H]).
      replace (c2 (S n) o w x) with (match o with OLe => cmp_rec (c2 n) true OGe x w | OLt => cmp_rec (c2 n) true OGt x w | _ => cmp_rec (c2 n) false o w x end) by (rewrite EW, EX; reflexivity). destruct o; try apply RR'; apply okflip; apply RR.
Qed.
End W.
