(** Proofs about CellsModel: the modifiers themselves. *)
From Verif Require Import Base SqueezeModel TransSpec JoinModel JoinSpec JoinProof JoinProof2 JoinProof4 MapModel MapSpec MapProof MapProof2 MapProof4 CellsModel CellsSpec CellsProof CellsProof2 CellsProof3 CellsProof4 CellsProof5 CellsProof6.
From Coq Require Import Lia ZArith.
Open Scope nat_scope.
Lemma cell_rank_axes q r : cell_rank r q = cell_axes q r.
Proof.
  destruct q as [z| | | |]; try reflexivity. unfold cell_rank, cell_axes. destruct (Z.ltb_spec z 0).
  - destruct (Z.ltb_spec (z + Z.of_nat r) 0); lia.
  - destruct (Z.ltb_spec (Z.of_nat r) z); lia.
Qed.
Lemma cell_axes_le q r : cell_axes q r <= r.
Proof. destruct q as [z| | | |]; cbn [cell_axes]; try lia. destruct (Z.ltb_spec z 0); lia. Qed.
Lemma whole_ok {q : wnum} : is_whole q -> req_whole q = Ok q.
Proof. destruct q; cbn [is_whole]; try contradiction; reflexivity. Qed.
Lemma whole_not {q : wnum} : ~ is_whole q -> req_whole q = Err.
Proof. destruct q; cbn [is_whole]; intros H; try (exfalso; apply H; exact I); reflexivity. Qed.
Lemma rank_operand g : (exists m a b, gives g m a b) \/
  ((forall m a b, ~ gives g m a b) /\ (match g with GNum q => exists q', q' = q /\ req_whole q = Err | _ => check_rank_vec g = Err end)).
Proof.
  assert (W : forall q, is_whole q \/ ~ is_whole q) by (intros []; cbn [is_whole]; tauto).
  destruct g as [q|qs|].
  - destruct (W q) as [H|H]; [left; exists q, q, q; constructor; exact H|right]. split; [intros m a b G; inversion G; subst; contradiction|]. exists q. split; [reflexivity|apply whole_not; exact H].
  - destruct qs as [|p [|q [|r [|t qs]]]].
    + right. split; [intros m a b G; inversion G|reflexivity].
    + destruct (W p) as [H|H]; [left; exists p, p, p; constructor; exact H|right]. split; [intros m a b G; inversion G; subst; contradiction|]. cbn. rewrite whole_not by exact H. reflexivity.
    + destruct (W p) as [H|H]; [destruct (W q) as [H1|H1]; [left; exists q, p, q; constructor; assumption|]|];
        right; (split; [intros m a b G; inversion G; subst; contradiction|]); cbn; [rewrite (whole_ok H); cbn [bind]; rewrite (whole_not H1)|rewrite (whole_not H)]; reflexivity.
    + destruct (W p) as [H|H]; [destruct (W q) as [H1|H1]; [destruct (W r) as [H2|H2]; [left; exists p, q, r; constructor; assumption|]|]|];
        right; (split; [intros m a b G; inversion G; subst; contradiction|]); cbn; [rewrite (whole_ok H), (whole_ok H1); cbn [bind]; rewrite (whole_not H2)|rewrite (whole_ok H); cbn [bind]; rewrite (whole_not H1)|rewrite (whole_not H)]; reflexivity.
    + right. split; [intros m a b G; inversion G|reflexivity].
  - right. split; [intros m a b G; inversion G|reflexivity].
Qed.
Section P.
Context {A S : Type}.
Notation jarr := (list nat * list A)%type.
Variables (amax : Z) (idx : A -> option Z) (box : jarr -> A) (fill : option A).
Hypothesis (AM1 : (2 <= amax)%Z) (AM : (amax < 2 ^ 32)%Z).
Notation call1 := (@call1 A S box fill).
Notation call2 := (@call2 A S amax idx).
Notation rank a := (length (fst (arr_of a))).
(** no axes before the cells *)
Lemma placed_whole {B} (c : B) (f : B -> S -> res (arg A * S)) s : (forall r s', f c s = Ok (r, s') -> exists_val amax r) -> placed amax [] (calls f [c] s) (wrap_unit (f c s)).
Proof.
  intros H. cbn [calls]. destruct (f c s) as [[r s']| |]; [|reflexivity..]. destruct (H r s' eq_refl) as (V & R & L). unfold wrap_unit. cbn [bind]. rewrite unarg_arr. left. exists (fst (arr_of r)), (arr_of r).
  unfold valid_arg, array in V. split.
  - split; [repeat constructor|]. split; [exact R|]. change (size []) with 1. rewrite <- V. lia.
  - split; [reflexivity|]. cbn [map]. pose proof (concat_merged [] [arr_of r] (fst (arr_of r)) eq_refl) as M. cbn [app map concat] in M. rewrite app_nil_r in M. rewrite <- surjective_pairing in M.
    apply M; repeat constructor. exact V.
Qed.
Lemma sub_sub n c : c <= n -> n - (n - c) = c. Proof. lia. Qed.
Lemma one_arg zero d1 small op k (x : arg A) s : exists_val amax x -> sound1 amax op -> k <= rank x -> some_cells (lead k x) -> (op = CDeshape -> k < 255) ->
  exists cs, cells_of k x cs /\
    placed amax (lead k x) (calls (call1 op) cs s) (if k =? 0 then wrap_unit (call1 op x s) else for_cells_c1 amax box fill zero d1 small op (rank x - k) k (arr_of x) s).
Proof.
  intros EX SD KL SC RD. destruct (Nat.eqb_spec k 0) as [->|K0].
  - exists [x]. split.
    + split; [reflexivity|]. intros I HI. unfold lead in *. cbn [firstn] in HI |- *. exists x. split; [inversion HI; reflexivity|]. unfold cell_at. destruct (arr_of x). reflexivity.
    + unfold lead. cbn [firstn]. apply placed_whole. intros r s' E. apply (call1_sound amax box fill ltac:(lia) AM op x s r s' SD EX E).
  - destruct x as [v|sh d]; [cbn [arr_of fst length] in KL; lia|]. cbn [arr_of fst] in *. exists (the_cells (sh, d) k). split; [apply (the_cells_ok (sh, d)); [exact (proj1 EX)|exact K0|exact KL]|].
    apply for_c1; try assumption; lia.
Qed.
Lemma two_args wt op j k (w x : arg A) s : exists_val amax w -> exists_val amax x -> sound2 amax op -> j <= rank w -> k <= rank x -> agree (lead j w) (lead k x) -> some_cells (longer (lead j w) (lead k x)) ->
  (op = CCouple2 -> rank w < 255 /\ (2 * Z.of_nat (length (snd (arr_of w))) < 2 ^ 32)%Z /\ (2 * Z.of_nat (length (snd (arr_of x))) < 2 ^ 32)%Z) ->
  (op = CSelect -> k + rank w <= 255) ->
  exists ps, cell_pairs j k w x ps /\
    placed amax (longer (lead j w) (lead k x)) (calls (fun p => call2 op (fst p) (snd p)) ps s)
      (if j =? 0 then (if k =? 0 then wrap_unit (call2 op w x s) else for_cells_SA amax idx wt op w (arr_of x) (rank x - k) s)
       else if k =? 0 then for_cells_AS amax idx op (arr_of w) x (rank w - j) s
       else for_cells_AA amax idx op (arr_of w) (arr_of x) (rank w - j) (rank x - k) s).
Proof.
  intros EW EX SD JL KL AG SC RC RS.
  destruct (Nat.eqb_spec j 0) as [->|J0]; destruct (Nat.eqb_spec k 0) as [->|K0].
  - exists [(w, x)]. change (lead 0 w) with (@nil nat) in *. change (lead 0 x) with (@nil nat) in *. change (longer [] []) with (@nil nat) in *. split.
    + split; [reflexivity|]. intros I HI. change (longer (lead 0 w) (lead 0 x)) with (@nil nat) in *. exists w, x. inversion HI. split; [reflexivity|]. unfold cell_at. destruct (arr_of w), (arr_of x). split; reflexivity.
    + apply (placed_whole (w, x)). intros r s' E. exact (call2_sound amax idx op w x s r s' SD EW EX E).
  - destruct x as [v|sh d]; [cbn [arr_of fst length] in KL; lia|]. assert (EL : longer (lead 0 w) (lead k (Ar sh d)) = firstn k sh) by reflexivity. rewrite EL in *. cbn [arr_of fst snd] in *.
    destruct (the_cells_ok (sh, d) k (proj1 EX) K0 KL) as (CL & CA). exists (map (fun c => (w, c)) (the_cells (sh, d) k)). split.
    + unfold cell_pairs. rewrite EL. split; [unfold array; rewrite map_length; exact CL|]. intros I HI. destruct (CA I HI) as (c & Ec & Cc). exists w, c. split; [unfold elt in *; rewrite nth_error_map; change (lead k (Ar (fst (sh, d)) (snd (sh, d)))) with (firstn k sh) in Ec; rewrite Ec; reflexivity|].
      split; [unfold cell_at; destruct (arr_of w); reflexivity|]. replace (firstn k I) with I; [exact Cc|]. symmetry. apply firstn_all2. rewrite (inb_len _ _ HI), firstn_length. lia.
    + rewrite calls_args. cbn [fst snd]. apply for_SA; try assumption. intros E. apply RC. exact E.
  - destruct w as [v|sh d]; [cbn [arr_of fst length] in JL; lia|]. cbn [arr_of fst snd] in *.
    assert (EL : longer (lead j (Ar sh d)) (lead 0 x) = firstn j sh). { unfold longer, lead. cbn [arr_of fst firstn length]. rewrite firstn_length. destruct (Nat.ltb_spec 0 (Nat.min j (length sh))); [reflexivity|lia]. } rewrite EL in *.
    destruct (the_cells_ok (sh, d) j (proj1 EW) J0 JL) as (CL & CA). exists (map (fun c => (c, x)) (the_cells (sh, d) j)). split.
    + unfold cell_pairs. rewrite EL. split; [unfold array; rewrite map_length; exact CL|]. intros I HI. destruct (CA I HI) as (c & Ec & Cc). exists c, x. split; [unfold elt in *; rewrite nth_error_map; change (lead j (Ar (fst (sh, d)) (snd (sh, d)))) with (firstn j sh) in Ec; rewrite Ec; reflexivity|].
      split; [|unfold cell_at; destruct (arr_of x); reflexivity]. replace (firstn j I) with I; [exact Cc|]. symmetry. apply firstn_all2. rewrite (inb_len _ _ HI), firstn_length. lia.
    + rewrite calls_args. cbn [fst snd]. apply for_AS; try assumption. intros E. apply RC. exact E.
  - destruct x as [v|xsh xd]; [cbn [arr_of fst length] in KL; lia|]. destruct w as [v|wsh wd]; [cbn [arr_of fst length] in JL; lia|]. unfold lead in *. cbn [arr_of fst snd] in *.
    exists (the_pairs wsh xsh wd xd j k). split; [apply (pairs_ok amax); assumption|]. apply (for_AA amax idx box); try assumption. intros E. destruct (RC E) as (R1 & _ & R2). split; assumption.
Qed.
Lemma disagree wt op j k (w x : arg A) s : j <= rank w -> k <= rank x -> ~ agree (lead j w) (lead k x) ->
      (if j =? 0 then (if k =? 0 then wrap_unit (call2 op w x s) else for_cells_SA amax idx wt op w (arr_of x) (rank x - k) s)
       else if k =? 0 then for_cells_AS amax idx op (arr_of w) x (rank w - j) s
       else for_cells_AA amax idx op (arr_of w) (arr_of x) (rank w - j) (rank x - k) s) = Err.
Proof.
  intros JL KL NA. destruct (Nat.eqb_spec j 0) as [->|J0]; [exfalso; apply NA; left; exists (lead k x); reflexivity|]. destruct (Nat.eqb_spec k 0) as [->|K0]; [exfalso; apply NA; right; exists (lead j w); reflexivity|].
  destruct x as [v|xsh xd]; [cbn [arr_of fst length] in KL; lia|]. destruct w as [v|wsh wd]; [cbn [arr_of fst length] in JL; lia|]. unfold lead in *. cbn [arr_of fst snd] in *. apply AA_disagree; assumption.
Qed.
(** the modifiers choose between these *)
Lemma rank_1 zero d1 small op g m a b (x : arg A) s k : gives g m a b -> k = rank x - cell_axes m (rank x) ->
  rank_c1 amax box fill zero d1 small op g x s = if k =? 0 then wrap_unit (call1 op x s) else for_cells_c1 amax box fill zero d1 small op (rank x - k) k (arr_of x) s.
Proof.
  intros G ->. pose proof (cell_axes_le m (rank x)) as LE. unfold rank_c1.
  assert (Q : (match g with GNum q => req_whole q | _ => do qs <- check_rank_vec g; rd qs (if length qs =? 2 then 1 else 0) end) = Ok m).
  { destruct G as [q W|q W|p q W1 W2|p q r W1 W2 W3]; cbn [check_rank_vec length Nat.leb andb mapr]; repeat rewrite whole_ok by assumption; reflexivity. }
  rewrite Q. cbn [bind]. destruct x as [v|sh d]; cbn [arr_of fst length] in *; [reflexivity|]. rewrite cell_rank_axes.
  destruct (Nat.eqb_spec (cell_axes m (length sh)) (length sh)) as [E|E].
  - rewrite E, Nat.sub_diag. reflexivity.
  - rewrite (proj2 (Nat.eqb_neq (length sh - cell_axes m (length sh)) 0)) by lia. rewrite (sub_sub (length sh)) by exact LE. reflexivity.
Qed.
Lemma cells_1 zero d1 small op (x : arg A) s k : k = Nat.min 1 (rank x) ->
  cell_c1 amax box fill zero d1 small op x s = if k =? 0 then wrap_unit (call1 op x s) else for_cells_c1 amax box fill zero d1 small op (rank x - k) k (arr_of x) s.
Proof. intros ->. destruct x as [v|[|n sh] d]; reflexivity. Qed.
Lemma whole_axes (x : arg A) q : whole x q = (rank x - cell_axes q (rank x) =? 0).
Proof.
  destruct x as [v|sh d]; [reflexivity|]. cbn [whole arr_of fst]. rewrite cell_rank_axes. pose proof (cell_axes_le q (length sh)).
  destruct (Nat.eqb_spec (cell_axes q (length sh)) (length sh)) as [E|E]; symmetry; [apply Nat.eqb_eq; lia|apply Nat.eqb_neq; lia].
Qed.
Lemma rank_2 wt op g m a b (w x : arg A) s j k : gives g m a b -> j = rank w - cell_axes a (rank w) -> k = rank x - cell_axes b (rank x) ->
  rank_c2 amax idx wt op g w x s =
      (if j =? 0 then (if k =? 0 then wrap_unit (call2 op w x s) else for_cells_SA amax idx wt op w (arr_of x) (rank x - k) s)
       else if k =? 0 then for_cells_AS amax idx op (arr_of w) x (rank w - j) s
       else for_cells_AA amax idx op (arr_of w) (arr_of x) (rank w - j) (rank x - k) s).
Proof.
  intros G -> ->. unfold rank_c2.
  assert (Q : (match g with
               | GNum q => do q <- req_whole q; Ok (q, q)
               | _ => do qs <- check_rank_vec g; let gia := length qs in do a <- rd qs (if gia <? 2 then 0 else gia - 2); do b <- rd qs (gia - 1); Ok (a, b)
               end) = Ok (a, b)).
  { destruct G as [q W|q W|p q W1 W2|p q r W1 W2 W3]; cbn [check_rank_vec length Nat.leb andb mapr]; repeat rewrite whole_ok by assumption; reflexivity. }
  cbv zeta in Q |- *. rewrite Q. cbn [bind]. rewrite (whole_axes w), (whole_axes x), (unarg_arr w), (unarg_arr x), !cell_rank_axes. pose proof (cell_axes_le a (rank w)). pose proof (cell_axes_le b (rank x)). rewrite !sub_sub by assumption.
  destruct (_ =? 0), (_ =? 0); reflexivity.
Qed.
Lemma cells_2 wt op (w x : arg A) s j k : j = Nat.min 1 (rank w) -> k = Nat.min 1 (rank x) ->
  cell_c2 amax idx wt op w x s =
      (if j =? 0 then (if k =? 0 then wrap_unit (call2 op w x s) else for_cells_SA amax idx wt op w (arr_of x) (rank x - k) s)
       else if k =? 0 then for_cells_AS amax idx op (arr_of w) x (rank w - j) s
       else for_cells_AA amax idx op (arr_of w) (arr_of x) (rank w - j) (rank x - k) s).
Proof. intros -> ->. unfold cell_c2. rewrite (unarg_arr w), (unarg_arr x). destruct (rank w) as [|n], (rank x) as [|n']; reflexivity. Qed.
End P.
