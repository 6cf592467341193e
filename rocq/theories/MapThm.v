(** C45: Each, Table and Repeat call their operand on the defined arguments, in order, and place the results. The operand is any function with any
    effects (S is the type of everything it can change), so the theorems hold for all programs. *)
From Verif Require Import Base SqueezeModel TransSpec MapModel MapSpec MapProof MapProof2 MapProof3 MapProof4 MapProof5 MapProof6.
Open Scope nat_scope.
(** 𝔽¨𝕩 and 𝔽⌜𝕩: whether or not the array is written in place *)
Theorem C45_each {V S} zero own (f : op1 V S) (x : arg V) s : each_c1 zero own f x s = shaped (fst (arr_of x)) (calls (do1 f) (snd (arr_of x)) s).
Proof. apply each1_ok. Qed.
Print Assumptions C45_each.
(** 𝕨𝔽¨𝕩 *)
Theorem C45_each_pairs {V S} zero ow ox (f : op2 V S) (w x : arg V) s : valid_arg w -> valid_arg x -> agree (fst (arr_of w)) (fst (arr_of x)) ->
  exists rsh ps, paired w x rsh ps /\ each_c2 zero ow ox f w x s = shaped rsh (calls (do2 f) ps s).
Proof. apply each2_ok. Qed.
Print Assumptions C45_each_pairs.
Theorem C45_each_error {V S} zero ow ox (f : op2 V S) (w x : arg V) s : valid_arg w -> valid_arg x -> ~ agree (fst (arr_of w)) (fst (arr_of x)) ->
  each_c2 zero ow ox f w x s = Err.
Proof. apply each2_err. Qed.
Print Assumptions C45_each_error.
(** 𝕨𝔽⌜𝕩: whichever of the special cases is used *)
Theorem C45_table {V S} wd xd lim (f : opt V S) (w x : arg V) s : valid_arg w -> valid_arg x ->
  (Z.of_nat (length (snd (arr_of w))) * Z.of_nat (length (snd (arr_of x))) < 2 ^ 32)%Z -> length (fst (arr_of w)) + length (fst (arr_of x)) <= 255 ->
  exists rsh ps, tabled w x rsh ps /\ tbl_c2 wd xd lim f w x s = shaped rsh (calls (dot f) ps s).
Proof. apply table_ok. Qed.
Print Assumptions C45_table.
Theorem C45_table_error {V S} wd xd lim (f : opt V S) (w x : arg V) s : length (fst (arr_of w)) <= 255 -> length (fst (arr_of x)) <= 255 ->
  (2 ^ 32 <= Z.of_nat (length (snd (arr_of w))) * Z.of_nat (length (snd (arr_of x))))%Z \/ 255 < length (fst (arr_of w)) + length (fst (arr_of x)) ->
  tbl_c2 wd xd lim f w x s = Err.
Proof. apply table_err. Qed.
Print Assumptions C45_table_error.
Open Scope Z_scope.
(** 𝔽⍟𝔾: first the inverse as often as the lowest count asks, then 𝔽 as often as the highest, and every count replaced with its result *)
Theorem C45_repeat {V S} (f fi : V -> S -> res (V * S)) g x s lo hi : wf_g g -> ~ bad g -> highest g hi -> lowest g lo -> in_limits g lo hi ->
  match chain (Z.to_nat lo) fi x s with
  | Ok (downs, s1) => match chain (Z.to_nat hi) f x s1 with
                      | Ok (ups, s2) => exists r, repeat_ f fi g x s = Ok (r, s2) /\ substituted (nth_result x ups downs) g r
                      | Err => repeat_ f fi g x s = Err | UB => repeat_ f fi g x s = UB
                      end
  | Err => repeat_ f fi g x s = Err | UB => repeat_ f fi g x s = UB
  end.
Proof. apply repeat_ok. Qed.
Print Assumptions C45_repeat.
Lemma chain_pure {V S} (h : V -> V) n : forall x (s : S), chain n (fun x s => Ok (h x, s)) x s = Ok (map (fun i => Nat.iter (Datatypes.S i) h x) (seq 0 n), s).
Proof.
  induction n as [|n IH]; intros x s; [reflexivity|]. cbn [chain seq map]. rewrite IH. f_equal. f_equal. f_equal. rewrite <- seq_shift, map_map. apply map_ext. intros i.
  clear. induction i as [|i IH]; [reflexivity|]. cbn [Nat.iter nat_rect] in *. f_equal. exact IH.
Qed.
(** for operands without effects: count n gives n applications of 𝔽, a negative one as many of the inverse *)
Theorem C45_repeat_pure {V} (h hi_ : V -> V) g x lo hi : wf_g g -> ~ bad g -> highest g hi -> lowest g lo -> in_limits g lo hi ->
  exists r, repeat_ (fun x s => Ok (h x, s)) (fun x s => Ok (hi_ x, s)) g x tt = Ok (r, tt) /\
            substituted (fun z => if - lo <=? z then if z <=? hi then Some (if 0 <=? z then Nat.iter (Z.to_nat z) h x else Nat.iter (Z.to_nat (- z)) hi_ x) else None else None) g r.
Proof.
  intros W NB H L LIM. pose proof (C45_repeat (fun x (s : unit) => Ok (h x, s)) (fun x s => Ok (hi_ x, s)) g x tt lo hi W NB H L LIM) as R.
  rewrite !chain_pure in R. destruct R as (r&E&Q). exists r. split; [exact E|]. destruct H as (H0&_&H2), L as (L0&_&L2). clear E LIM.
  revert r Q. revert g W NB H2 L2. apply (gv_ind' (fun g => wf_g g -> ~ bad g -> (forall z, counts g z -> z <= hi) -> (forall z, counts g z -> - lo <= z) -> forall r, substituted _ g r -> substituted _ g r)).
  - intros z _ _ H2 L2 r Q. inversion Q as [z' v A|]; subst. constructor. specialize (H2 z' ltac:(constructor)). specialize (L2 z' ltac:(constructor)).
    rewrite (proj2 (Z.leb_le _ _)) by lia. rewrite (proj2 (Z.leb_le _ _)) by lia. rewrite <- A. unfold nth_result.
    assert (NTH : forall k n (q : V -> V), (k < n)%nat -> nth_error (map (fun i => Nat.iter (Datatypes.S i) q x) (seq 0 n)) k = Some (Nat.iter (Datatypes.S k) q x)).
    { intros k n q K. apply (map_nth_error (fun i => Nat.iter (Datatypes.S i) q x)). rewrite (nth_error_nth' (seq 0 n) 0%nat) by (rewrite seq_length; exact K). rewrite seq_nth by exact K. reflexivity. }
    destruct (Z.eqb_spec z' 0) as [->|NZ]; [reflexivity|]. destruct (Z.ltb_spec 0 z') as [P|P].
    + rewrite (proj2 (Z.leb_le 0 z')) by lia. rewrite NTH by lia. replace (Datatypes.S (Z.to_nat (z' - 1))) with (Z.to_nat z') by lia. reflexivity.
    + rewrite (proj2 (Z.leb_gt 0 z')) by lia. rewrite NTH by lia. replace (Datatypes.S (Z.to_nat (- z' - 1))) with (Z.to_nat (- z')) by lia. reflexivity.
  - intros _ _ _ _ r Q. inversion Q.
  - intros num sh gs IH W NB H2 L2 r Q. inversion Q as [|n s l rs F]; subst. constructor. inversion W as [| |n s l WF NU]; subst.
    assert (NB' : forall g, In g gs -> ~ bad g) by (intros g I B; apply NB; econstructor; eauto). assert (H2' : forall g z, In g gs -> counts g z -> z <= hi) by (intros g z I C; apply H2; econstructor; eauto).
    assert (L2' : forall g z, In g gs -> counts g z -> - lo <= z) by (intros g z I C; apply L2; econstructor; eauto). clear NB H2 L2 NU W Q.
    induction F as [|g r gs rs Q F IHF]; [constructor|]. constructor.
    + apply (Forall_inv IH (Forall_inv WF)); [apply NB'; left; reflexivity|intros z; apply H2'; left; reflexivity|intros z; apply L2'; left; reflexivity|exact Q].
    + apply IHF; [exact (Forall_inv_tail IH)|exact (Forall_inv_tail WF)|intros; apply NB'; right; assumption|intros g' z I; apply H2'; right; exact I|intros g' z I; apply L2'; right; exact I].
Qed.
Print Assumptions C45_repeat_pure.
(** anything but integers is an error, and so are counts that are too large *)
Theorem C45_repeat_error {V S} (f fi : V -> S -> res (V * S)) g x s : wf_g g -> bad g \/ (exists lo hi, ~ bad g /\ highest g hi /\ lowest g lo /\ ~ in_limits g lo hi) -> repeat_ f fi g x s = Err.
Proof. apply repeat_err. Qed.
Print Assumptions C45_repeat_error.

(** ** Cases *)
(** an operand that counts its calls and fails on 0 *)
Definition tick (x : nat) (s : nat) : res (nat * nat) := if (x =? 0)%nat then Err else Ok ((x * 10 + s)%nat, Datatypes.S s).
Definition plus2 (w x s : nat) : res (nat * nat) := Ok ((w * 100 + x * 10 + s)%nat, Datatypes.S s).
Open Scope nat_scope.
Example each_case : each_c1 0 true (F1 tick) (Ar [3] [4; 5; 6]) 0 = Ok (Ar [3] [40; 51; 62], 3). Proof. reflexivity. Qed.
Example each_case_error : each_c1 0 false (F1 tick) (Ar [3] [4; 0; 6]) 0 = Err. Proof. reflexivity. Qed.
Example pairs_case : each_c2 0 false false (F2 plus2) (Ar [2] [1; 2]) (Ar [2; 2] [3; 4; 5; 6]) 0 = Ok (Ar [2; 2] [130; 141; 252; 263], 4). Proof. reflexivity. Qed.
Example pairs_hyps : valid_arg (Ar [2] [1; 2]) /\ valid_arg (Ar [2; 2] [3; 4; 5; 6]) /\ agree [2] [2; 2] /\ ~ agree [2] [3; 2].
Proof. split; [reflexivity|]. split; [reflexivity|]. split; [left; exists [2]; reflexivity|]. intros [[t E]|[t E]]; discriminate. Qed.
Example table_case : tbl_c2 true true 100 (TF plus2) (Ar [2] [1; 2]) (Ar [2] [3; 4]) 0 = Ok (Ar [2; 2] [130; 141; 232; 243], 4). Proof. reflexivity. Qed.
Example table_perv : tbl_c2 true true 100 (TPerv (fun a b => Ok (a + b))) (Ar [3] [1; 2; 3]) (Ar [2] [30; 40]) 0 = Ok (Ar [3; 2] [31; 41; 32; 42; 33; 43], 0). Proof. reflexivity. Qed.
Open Scope Z_scope.
Definition g_case : gv := GArr false [2%nat] [GNum (Some 2); GArr true [2%nat] [GNum (Some (-1)); GNum (Some 0)]].
Example repeat_case : repeat_ (fun x s => Ok (x * 2, s + 1)) (fun x s => Ok (x / 2, s + 10)) g_case 8 0 = Ok (RArr [2%nat] [RV 32; RArr [2%nat] [RV 4; RV 8]], 12).
Proof. reflexivity. Qed.
Example repeat_hyps : wf_g g_case /\ ~ bad g_case /\ highest g_case 2 /\ lowest g_case 1 /\ in_limits g_case 1 2.
Proof.
  assert (C : forall z, counts g_case z -> z = 2 \/ z = -1 \/ z = 0).
  { intros z H. inversion H as [|n s l g z' I G]; subst. destruct I as [<-|[<-|[]]]; [inversion G; auto|]. inversion G as [|n s l g z' I2 G2]; subst. destruct I2 as [<-|[<-|[]]]; inversion G2; auto. }
  split; [repeat constructor; try lia; try discriminate; eexists; reflexivity|]. split.
  { intros B. inversion B as [| |n s l g I G]; subst. destruct I as [<-|[<-|[]]]; [inversion G|]. inversion G as [| |n s l g I2 G2]; subst. destruct I2 as [<-|[<-|[]]]; inversion G2. }
  split; [split; [lia|]; split; [right; econstructor; [left; reflexivity|constructor]|intros z H; apply C in H; lia]|].
  split; [split; [lia|]; split; [right; econstructor; [right; left; reflexivity|econstructor; [left; reflexivity|constructor]]|intros z H; apply C in H; lia]|]. right; lia.
Qed.
