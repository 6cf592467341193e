(** Proofs about CellsModel: two arguments, one of them used whole. *)
From Verif Require Import Base SqueezeModel TransSpec JoinModel JoinSpec JoinProof JoinProof2 JoinProof4 MapModel MapSpec MapProof MapProof2 MapProof4 CellsModel CellsSpec CellsProof CellsProof2 CellsProof3.
From Coq Require Import Lia ZArith.
Open Scope nat_scope.
Lemma calls_args {A B V S} (h : A -> B) (f : B -> S -> res (V * S)) l : forall s, calls f (map h l) s = calls (fun a => f (h a)) l s.
Proof. induction l as [|a l IH]; intros s; [reflexivity|]. cbn [map calls]. destruct (f (h a) s) as [[v s1]| |]; [|reflexivity..]. rewrite IH. reflexivity. Qed.
Lemma turns_ok {A} (wc xc : nat) : forall n (w x : list A), length w = n * wc -> length x = n * xc ->
  turns n w x wc xc = concat (map (fun i => firstn wc (skipn (i * wc) w) ++ firstn xc (skipn (i * xc) x)) (seq 0 n)).
Proof.
  induction n as [|n IH]; intros w x LW LX; [reflexivity|]. cbn [turns seq map concat]. cbn [Nat.mul skipn]. rewrite <- app_assoc. do 2 f_equal.
  rewrite IH by (rewrite skipn_length; lia). rewrite <- seq_shift, map_map. f_equal. apply map_ext. intros i. rewrite !skipn_add. reflexivity.
Qed.
Lemma two_parts_cases amax a b : (Z.of_nat a + Z.of_nat b < 2 ^ 32)%Z ->
  ((Z.of_nat a + Z.of_nat b <= amax)%Z /\ two_parts amax a b = Ok tt) \/ ((amax < Z.of_nat a + Z.of_nat b)%Z /\ two_parts amax a b = Err).
Proof.
  intros H. unfold two_parts. replace (to_u 32 (Z.of_nat a + Z.of_nat b)) with (Z.of_nat a + Z.of_nat b)%Z by (unfold to_u; rewrite Z.mod_small; lia).
  destruct (Z.ltb_spec amax (Z.of_nat a + Z.of_nat b)); [right; split; [assumption|reflexivity]|left]. split; [assumption|]. rewrite (proj2 (Z.ltb_ge _ _)) by lia. reflexivity.
Qed.
Lemma two_parts_inv amax a b u : two_parts amax a b = Ok u -> (Z.of_nat a + Z.of_nat b <= amax)%Z.
Proof.
  unfold two_parts. destruct (Z.ltb_spec amax (to_u 32 (Z.of_nat a + Z.of_nat b))); [discriminate|]. destruct (Z.ltb_spec (to_u 32 (Z.of_nat a + Z.of_nat b)) (Z.of_nat a + Z.of_nat b)); [discriminate|]. lia.
Qed.
Lemma mapr_inv {A B} (f : A -> res B) l r : mapr f l = Ok r -> Forall2 (fun a b => f a = Ok b) l r.
Proof.
  revert r. induction l as [|a l IH]; intros r H; cbn [mapr] in H; [injection H as <-; constructor|].
  destruct (f a) as [b| |] eqn:E; try discriminate. cbn [bind] in H. destruct (mapr f l) as [bs| |]; try discriminate. cbn [bind] in H. injection H as <-. constructor; [exact E|]. apply IH. reflexivity.
Qed.
Lemma rows1 {A} (c : list A) inds : Forall (fun j => j < length c) inds -> mapr (rd c) inds = Ok (concat (map (fun j => firstn 1 (skipn j c)) inds)).
Proof.
  induction 1 as [|j inds H _ IH]; [reflexivity|]. cbn [mapr map concat]. destruct (skipn_cons c j H) as (a & R & _ & E). rewrite R, E. cbn [bind]. rewrite IH. reflexivity.
Qed.
Section P.
Context {A S : Type}.
Notation jarr := (list nat * list A)%type.
Variables (amax : Z) (idx : A -> option Z).
Notation call2 := (@call2 A S amax idx).
Lemma index_cases n v : (exists i, index idx n v = Ok i /\ i < n) \/ index idx n v = Err.
Proof.
  unfold index. destruct (idx v) as [z|]; [|right; reflexivity]. unfold wrap.
  assert (G : forall v, (0 <= v < Z.of_nat n)%Z -> Z.to_nat (to_u 32 v) < n). { intros u Hu. unfold to_u. pose proof (Z.mod_le u (2 ^ 32) ltac:(lia) ltac:(lia)). pose proof (Z.mod_pos_bound u (2 ^ 32) ltac:(lia)). lia. }
  assert (P : forall u, (0 <= to_u 64 u)%Z) by (intros u; unfold to_u; apply Z.mod_pos_bound; lia).
  destruct (Z.leb_spec (Z.of_nat n) (to_u 64 z)).
  - cbv zeta. destruct (Z.leb_spec (Z.of_nat n) (to_u 64 (z + Z.of_nat n))) as [L|L]; [right; reflexivity|left].
    eexists. split; [reflexivity|]. apply G. split; [apply P|exact L].
  - left. eexists. split; [reflexivity|]. assert (E : to_u 32 z = to_u 32 (to_u 64 z)). { unfold to_u. apply Znumtheory.Zmod_div_mod; [lia|lia|exists (2 ^ 32)%Z; reflexivity]. }
    rewrite E. apply G. split; [apply P|assumption].
Qed.
Lemma indices_cases n wd : (exists inds, mapr (index idx n) wd = Ok inds /\ Forall (fun j => j < n) inds /\ length inds = length wd) \/ mapr (index idx n) wd = Err.
Proof.
  induction wd as [|v wd IH]; [left; exists []; split; [reflexivity|split; [constructor|reflexivity]]|]. cbn [mapr].
  destruct (index_cases n v) as [(i & -> & Hi)|E]; [|right; rewrite E; reflexivity]. cbn [bind].
  destruct IH as [(inds & -> & F & L)|E]; [left|right; rewrite E; reflexivity]. exists (i :: inds). split; [reflexivity|]. split; [constructor; assumption|]. cbn [length]. lia.
Qed.
(** ⊏ of a value whose cells have m elements *)
Lemma select_val w n t (c : list A) : exists_val amax w -> length c = n * size t ->
  p_select amax idx w (Ar (n :: t) c) =
  if (255 <? length (fst (arr_of w)) + length t) || (amax <? Z.of_nat (length (snd (arr_of w))) * Z.of_nat (length c / n))%Z then Err else
  do inds <- mapr (index idx n) (snd (arr_of w)); Ok (Ar (fst (arr_of w) ++ t) (concat (map (fun i => firstn (size t) (skipn (i * size t) c)) inds))).
Proof.
  intros _ L. unfold p_select. rewrite unarg_arr. destruct (arr_of w) as [wsh wd]. cbn [fst snd]. destruct (_ || _); [reflexivity|].
  assert (G : mapr (fun v => do i <- index idx n v; sl c (i * (length c / n)) (length c / n)) wd =
              do inds <- mapr (index idx n) wd; Ok (map (fun i => firstn (size t) (skipn (i * size t) c)) inds)).
  { induction wd as [|v wd IH]; [reflexivity|]. cbn [mapr]. destruct (index_cases n v) as [(i & -> & Hi)|E]; [|rewrite E; reflexivity]. cbn [bind].
    rewrite IH. rewrite (div_cell _ n (size t) L) by lia. unfold sl. rewrite (proj2 (Nat.leb_le _ _)) by nia. cbn [bind]. destruct (mapr (index idx n) wd); reflexivity. }
  rewrite G. destruct (mapr (index idx n) wd); reflexivity.
Qed.
Lemma call2_sound (op : cop2 A S) w x s r s' : sound2 amax op -> exists_val amax w -> exists_val amax x -> call2 op w x s = Ok (r, s') -> exists_val amax r.
Proof.
  intros SD EW EX E. destruct op as [f| | | | |v]; cbn [CellsModel.call2 sound2] in E, SD.
  - eapply SD; [exact EW|exact EX|exact E].
  - injection E as <- _. exact EW.
  - injection E as <- _. exact EX.
  - unfold p_couple2 in E. rewrite (unarg_arr w), (unarg_arr x) in E. destruct EW as (VW & RW & LW), EX as (VX & RX & LX). unfold valid_arg, array in VW, VX.
    destruct (arr_of w) as [wsh wd], (arr_of x) as [xsh xd]. cbn [fst snd] in *.
    destruct (negb ((length wsh =? length xsh) && eqShPart wsh xsh (length wsh)) || (255 <=? length xsh)) eqn:T; [cbn [bind] in E; discriminate E|]. apply orb_false_elim in T. destruct T as (T1 & T2). apply negb_false_iff, andb_prop in T1. destruct T1 as (T0 & T1). apply Nat.eqb_eq in T0. apply Nat.leb_gt in T2.
    apply eqShPart_iff in T1; [|lia..]. rewrite firstn_all, T0, firstn_all in T1. subst wsh.
    destruct (two_parts amax (length wd) (length wd)) eqn:TP; [|cbn [bind] in E; discriminate E..]. apply two_parts_inv in TP. cbn [bind] in E. injection E as <- _.
    split; [|split]; cbn [arr_of fst snd length]; [unfold valid_arg, array; cbn [arr_of fst snd]; rewrite size_cons, app_length; lia|lia|rewrite app_length; lia].
  - destruct x as [v|[|n t] c]; try discriminate. destruct EX as (VX & RX & LX). unfold valid_arg, array in VX. cbn [arr_of fst snd] in VX, RX, LX. rewrite size_cons in VX.
    rewrite (select_val w n t c EW VX) in E. destruct EW as (VW & RW & LW). unfold valid_arg, array in VW. destruct (arr_of w) as [wsh wd]. cbn [fst snd] in *.
    destruct ((255 <? length wsh + length t) || (amax <? Z.of_nat (length wd) * Z.of_nat (length c / n))%Z) eqn:T; [discriminate|]. apply orb_false_elim in T. destruct T as (T1 & T2). apply Nat.ltb_ge in T1. apply Z.ltb_ge in T2.
    destruct (indices_cases n wd) as [(inds & EI & FI & LI)|EI]; rewrite EI in E; [|discriminate]. cbn [bind] in E. injection E as <- _.
    assert (LC : length (concat (map (fun i => firstn (size t) (skipn (i * size t) c)) inds)) = length wd * size t).
    { rewrite <- LI. clear - FI VX. induction FI as [|i inds H _ IH]; [reflexivity|]. cbn [map concat length]. rewrite app_length, IH, (slice_len c n) by assumption. lia. }
    split; [|split]; cbn [arr_of fst snd]; [unfold valid_arg, array; cbn [arr_of fst snd]; rewrite LC, size_app; lia|rewrite app_length; lia|rewrite LC].
    destruct wd as [|v wd]; [cbn [length]; lia|]. destruct inds as [|i inds]; [discriminate|]. apply Forall_inv in FI. rewrite (div_cell _ n _ VX) in T2 by lia. lia.
  - injection E as <- _. exact SD.
Qed.
Variables (fill : option A) (box : jarr -> A).
Hypothesis (AM1 : (2 <= amax)%Z) (AM : (amax < 2 ^ 32)%Z).
Notation call1 := (@call1 A S box fill).
Variables (sh : list nat) (d : list A) (k : nat) (s : S).
Let x : jarr := (sh, d).
Hypothesis (EX : exists_val amax (Ar sh d)) (K0 : k <> 0) (KL : k <= length sh) (SC : some_cells (firstn k sh)).
Notation frame := (firstn k sh).
Notation csh := (skipn k sh).
Lemma fits_first (g : arg A -> arg A) t : fits_frame amax frame (map g (the_cells x k)) t -> exists i, i < size frame /\ t = fst (arr_of (g (Ar csh (firstn (size csh) (skipn (i * size csh) d))))).
Proof.
  intros (F & _). destruct (the_cells x k) as [|c cs] eqn:EC.
  { pose proof (the_cells_len x k) as L. rewrite EC in L. cbn [length fst x] in L. unfold some_cells in SC. lia. }
  assert (HC : In c (the_cells x k)) by (rewrite EC; left; reflexivity). apply the_cells_in in HC. destruct HC as (i & Hi & ->). cbn [fst snd x] in *.
  cbn [map] in F. apply Forall_inv in F. exists i. split; [exact Hi|]. symmetry. exact F.
Qed.
Lemma base2 (f : arg A -> S -> res (arg A * S)) : (forall c s r s', exists_val amax c -> f c s = Ok (r, s') -> exists_val amax r) ->
  placed amax frame (calls f (the_cells x k) s) (gather amax frame (collect (usz frame) 0 (fun i s => do c <- slice x k (i * csz_of sh k); f c s) s)).
Proof.
  intros SD. exact (base1 amax box fill ltac:(lia) AM sh d k s EX K0 KL SC (CGen f) SD).
Qed.
Lemma as_const f (v : arg A) : exists_val amax v -> (forall c, f c s = Ok (v, s)) -> placed amax frame (calls f (the_cells x k) s) (do r <- const_cells amax frame v; Ok (r, s)).
Proof.
  intros EV F. replace (calls f (the_cells x k) s) with (calls (call1 (CConst v)) (the_cells x k) s).
  - apply sp_const; try assumption; lia.
  - rewrite !(calls_map _ (fun _ => v)); auto.
Qed.
Lemma as_same (f : arg A -> S -> res (arg A * S)) : (forall c, f c s = Ok (c, s)) -> placed amax frame (calls f (the_cells x k) s) (Ok (x, s)).
Proof.
  intros F. replace (calls f (the_cells x k) s) with (calls (call1 CTack) (the_cells x k) s).
  - apply sp_tack; assumption.
  - rewrite !(calls_map _ (fun c => c)); auto.
Qed.
(** pairs of a list and one element *)
Lemma unit_arg (v : arg A) a : valid_arg v -> unpack v = Some a -> arr_of v = ([], [a]).
Proof.
  intros V H. unfold valid_arg, array in V. destruct v as [b|[|n t] [|b d']]; try discriminate; cbn [unpack] in H; injection H as <-; [reflexivity|].
  cbn [arr_of fst snd length] in *. destruct d'; [reflexivity|discriminate].
Qed.
Lemma couple_units (left : bool) (v : arg A) a : valid_arg v -> unpack v = Some a -> sh = [length d] -> (2 * Z.of_nat (length d) < 2 ^ 32)%Z ->
  placed amax frame (calls (fun c => if left then call2 CCouple2 c v else call2 CCouple2 v c) (the_cells x k) s)
    (do r <- (if left then interleave_cells amax x ([length d], repeat a (length d)) 1 else interleave_cells amax ([length d], repeat a (length d)) x 1); Ok (r, s)).
Proof.
  intros VV UV ES L32. assert (k = 1) by (rewrite ES in KL; cbn [length] in KL; lia). pose proof (unit_arg v a VV UV) as EV.
  assert (EF : frame = [length d]) by (rewrite H, ES; reflexivity). assert (EC : csh = []) by (rewrite H, ES; reflexivity). pose proof SC as SC'. unfold some_cells in SC'. rewrite EF in SC'.
  change (size [length d]) with (length d * 1) in SC'. rewrite Nat.mul_1_r in SC'.
  assert (SF : size frame = length d) by (rewrite EF; apply Nat.mul_1_r).
  set (g := fun c : arg A => Ar [2] (if left then snd (arr_of c) ++ [a] else a :: snd (arr_of c))).
  assert (CA : forall c, In c (the_cells x k) -> (fun c => if left then call2 CCouple2 c v else call2 CCouple2 v c) c s = Ok (g c, s)).
  { intros c Hc. apply the_cells_in in Hc. destruct Hc as (i & Hi & ->). cbn [fst snd x] in *. rewrite EC. change (size []) with 1. rewrite SF in Hi. rewrite Nat.mul_1_r.
    destruct (skipn_cons d i Hi) as (b & _ & _ & EB). rewrite EB. cbn [firstn]. unfold g. cbn [arr_of snd].
    destruct left; cbn [CellsModel.call2]; unfold p_couple2; rewrite (unarg_arr v), EV; cbn [unarg length]; change (eqShPart [] [] 0) with true; cbn [Nat.eqb andb negb orb Nat.leb];
      (destruct (two_parts_cases amax 1 1 ltac:(lia)) as [(_ & ->)|(Q & _)]; [reflexivity|lia]). }
  assert (FT : forall t, fits_frame amax frame (map g (the_cells x k)) t -> t = [2]) by (intros t F; apply fits_first in F; destruct F as (i & _ & ->); reflexivity).
  assert (D : forall r, r = concat (map (fun b => if left then [b; a] else [a; b]) d) -> (Z.of_nat (length d) * 2 <= amax)%Z ->
    placed amax frame (calls (fun c => if left then call2 CCouple2 c v else call2 CCouple2 v c) (the_cells x k) s) (Ok (([length d; 2], r), s))).
  { intros r Er LE. change [length d; 2] with ([length d] ++ [2]). rewrite <- EF.
    apply (direct amax frame (the_cells x k) _ g); [exact (the_cells_len x k)|rewrite EF; cbn [length]; lia|rewrite SF; change (size [2]) with 2; lia|exact CA| |].
    - intros c Hc. apply the_cells_in in Hc. destruct Hc as (i & Hi & ->). cbn [fst snd x] in *. rewrite EC. change (size []) with 1. rewrite SF in Hi. rewrite Nat.mul_1_r.
      destruct (skipn_cons d i Hi) as (b & _ & _ & EB). rewrite EB. unfold g. cbn [firstn arr_of fst snd]. split; [reflexivity|]. destruct left; reflexivity.
    - rewrite Er. f_equal. unfold the_cells. rewrite map_map. cbn [fst snd x]. rewrite EC, SF. change (size []) with 1.
      clear. induction d as [|b l IH]; [reflexivity|]. cbn [length]. rewrite (slices_cons (fun c => snd (arr_of (g (Ar [] c))))). cbn [map skipn]. rewrite <- IH. unfold g. cbn [firstn arr_of snd]. destruct left; reflexivity. }
  assert (U1 : usz [length d] = length d) by (rewrite usz_eq; change (size [length d]) with (length d * 1); lia).
  assert (U0 : usz [] = 1) by reflexivity.
  destruct (two_parts_cases amax (length d) (length d) ltac:(lia)) as [(LE & TP)|(LE & TP)].
  - assert (R : forall p q : list A, length p = length d -> length q = length d ->
      interleave_cells amax ([length d], p) ([length d], q) 1 = Ok ([length d; 2], turns (length d) p q 1 1)).
    { intros p q Lp Lq. unfold interleave_cells. cbn [fst snd length firstn skipn app]. change (m_sh (1 + 1) [length d; 2]) with (Ok [length d; 2]). cbn [bind]. rewrite Lp, Lq, TP. cbn [bind]. rewrite U1, U0. reflexivity. }
    destruct left; unfold x; rewrite ES; rewrite R by (rewrite ?repeat_length; reflexivity); cbn [bind]; rewrite <- ES; fold x; apply D; try lia.
    + clear. induction d as [|b l IH]; [reflexivity|]. cbn [length turns repeat firstn skipn map concat app]. do 2 f_equal. exact IH.
    + clear. induction d as [|b l IH]; [reflexivity|]. cbn [length turns repeat firstn skipn map concat app]. do 2 f_equal. exact IH.
  - assert (R : forall p q : list A, length p = length d -> length q = length d -> interleave_cells amax ([length d], p) ([length d], q) 1 = Err).
    { intros p q Lp Lq. unfold interleave_cells. cbn [fst snd length firstn skipn app]. change (m_sh (1 + 1) [length d; 2]) with (Ok [length d; 2]). cbn [bind]. rewrite Lp, Lq, TP. reflexivity. }
    rewrite (calls_map _ g) by exact CA.
    destruct left; unfold x at 2; rewrite ES at 2; rewrite R by (rewrite ?repeat_length; reflexivity); right; (split; [|reflexivity]);
      intros t F; pose proof (FT t F) as ->; destruct F as (_ & _ & F); rewrite SF in F; change (size [2]) with 2 in F; lia.
Qed.
End P.
