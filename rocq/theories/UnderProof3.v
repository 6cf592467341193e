From Verif Require Import Base SqueezeModel ReuseModel TransSpec SqueezeProof FnsModel FnsProof UnderModel UnderSpec UnderProof UnderProof2.
From Coq Require Import List.
Open Scope nat_scope.
Definition heads {A} (gs : list (list A)) : list A := flat_map (firstn 1) gs.
Definition nz (c : nat) : bool := negb (c =? 0).
Lemma groups_len {A} : forall n (l : list A), length (groups n l) = length n.
Proof. induction n as [|c n IH]; intros l; cbn [groups length]; auto. Qed.
Lemma replicated_flat {A} : forall n (x : list A), flat_map (fun '(c, v) => repeat v c) (combine n x) = replicated n x.
Proof. induction n as [|c n IH]; intros [|v x]; cbn [combine flat_map replicated]; auto. rewrite IH. reflexivity. Qed.
Lemma replicated_len {A} : forall n (x : list A), length n = length x -> length (replicated n x) = sum n.
Proof. induction n as [|c n IH]; intros [|v x] L; cbn [length] in L; try lia; [reflexivity|]. cbn [replicated]. rewrite app_length, repeat_length, IH by lia. reflexivity. Qed.
Lemma skipn_cons_nth {A} (l : list A) i v : nth_error l i = Some v -> skipn i l = v :: skipn (i + 1) l.
Proof. revert i. induction l as [|c a IH]; intros [|p] E; cbn [nth_error] in E; try discriminate; [inversion E; reflexivity|]. cbn [skipn Nat.add]. apply IH. exact E. Qed.
Lemma blend_ok {A} (rep x : list A) : forall n2 n1 l2 ni, length (n1 ++ n2) = length x -> sum n2 <= length l2 -> skipn ni rep = heads (groups n2 l2) ->
  exists r, blend (length n2) (length n1) ni (map nz (n1 ++ n2)) rep x = Ok r /\ length r = length n2 /\
  forall t g, nth_error (groups n2 l2) t = Some g -> match g with [] => nth_error r t = nth_error x (length n1 + t) | v :: _ => nth_error r t = Some v end.
Proof.
  induction n2 as [|c n2 IH]; intros n1 l2 ni L SM H; cbn [length blend].
  - exists []. split; [reflexivity|]. split; [reflexivity|]. intros [|t] g E; discriminate.
  - assert (LX : length n1 < length x) by (rewrite app_length in L; cbn [length] in L; lia). unfold rd at 1. rewrite nth_error_map, nth_error_app2, Nat.sub_diag by lia. cbn [nth_error option_map bind]. cbn [sum fold_right] in SM. fold (sum n2) in SM.
    assert (SH : n1 ++ c :: n2 = (n1 ++ [c]) ++ n2) by (rewrite <- app_assoc; reflexivity). assert (LN : length n1 + 1 = length (n1 ++ [c])) by (rewrite app_length; reflexivity).
    destruct c as [|c]; unfold nz at 1 2; cbn [Nat.eqb negb].
    + destruct (nth_error x (length n1)) as [v|] eqn:EV; [|apply nth_error_None in EV; lia]. unfold rd. rewrite EV. cbn [bind]. rewrite SH, LN in *. destruct (IH (n1 ++ [0]) l2 ni) as (r & E & LR & HR); [rewrite <- SH; rewrite SH; exact L|lia|exact H|].
      rewrite E. cbn [bind]. exists (v :: r). split; [reflexivity|]. split; [cbn [length]; lia|]. intros [|t] g G; cbn [groups firstn skipn nth_error] in G.
      * inversion G; subst g. cbn [nth_error]. rewrite Nat.add_0_r. symmetry. exact EV.
      * specialize (HR t g G). cbn [nth_error]. replace (length n1 + S t) with (length (n1 ++ [0]) + t) by lia. exact HR.
    + destruct l2 as [|v l2]; [cbn [length] in SM; lia|]. cbn [groups firstn heads flat_map app] in H. fold (@heads A) in H.
      assert (RN : nth_error rep ni = Some v). { clear - H. revert ni H. induction rep as [|a rep IH]; intros [|ni] H; cbn [skipn] in H; try discriminate; [inversion H; reflexivity|]. cbn [nth_error]. apply IH. exact H. }
      unfold rd. rewrite RN. cbn [bind]. rewrite SH, LN in *. rewrite (skipn_cons_nth rep ni v RN) in H. inversion H as [H']. cbn [length] in SM.
      destruct (IH (n1 ++ [S c]) (skipn c l2) (ni + 1)) as (r & E & LR & HR); [rewrite <- SH; rewrite SH; exact L|rewrite skipn_length; lia|exact H'|].
      rewrite E. cbn [bind]. exists (v :: r). split; [reflexivity|]. split; [cbn [length]; lia|]. intros [|t] g G; cbn [groups firstn skipn nth_error] in G.
      * inversion G; subst g. reflexivity.
      * specialize (HR t g G). cbn [nth_error]. replace (length n1 + S t) with (length (n1 ++ [S c]) + t) by lia. exact HR.
Qed.
Lemma firsts_ok {A} (compat : A -> A -> bool) (CE : forall a b, compat a b = true <-> a = b) (rep : list A) : forall n ni, ni + sum n = length rep ->
  match firsts compat n rep ni with Ok l => l = heads (groups n (skipn ni rep)) /\ Forall uniform (groups n (skipn ni rep)) | Err => ~ Forall uniform (groups n (skipn ni rep)) | UB => False end.
Proof.
  induction n as [|c n IH]; intros ni SM; cbn [firsts groups]; [split; [reflexivity|constructor]|]. cbn [sum fold_right] in SM. fold (sum n) in SM. destruct c as [|c].
  - specialize (IH ni ltac:(lia)). cbn [firstn skipn]. destruct (firsts compat n rep ni); [destruct IH as [-> U]; split; [reflexivity|constructor; [intros u v []|exact U]]| |exact IH]. intros H. inversion H; auto.
  - destruct (nth_error rep ni) as [v|] eqn:EV; [|apply nth_error_None in EV; lia]. unfold rd at 1. rewrite EV. cbn [bind]. assert (SK : skipn ni rep = v :: skipn (ni + 1) rep) by (apply skipn_cons_nth; exact EV).
    assert (FO : exists ok, for_i (fun j ok => do u <- rd rep (ni + (j + 1)); Ok (ok && compat u v)) 0 c true = Ok ok /\ (ok = true <-> Forall (fun u => u = v) (firstn c (skipn (ni + 1) rep)))).
    { destruct (for_inv (fun j ok => ok = true <-> Forall (fun u => u = v) (firstn j (skipn (ni + 1) rep))) (fun j ok => do u <- rd rep (ni + (j + 1)); Ok (ok && compat u v)) c 0 true) as (ok & E & H); [|split; [constructor|reflexivity]|exists ok; auto].
      intros j ok J H. rewrite (rd_ok rep (ni + (j + 1)) v) by lia. cbn [bind]. eexists. split; [reflexivity|]. rewrite (firstn_skipn_snoc rep (ni + 1) j v) by lia. replace (ni + 1 + j) with (ni + (j + 1)) by lia. rewrite andb_true_iff, H, CE, Forall_app. split; intros [P Q]; (split; [exact P|]); [constructor; auto|inversion Q; auto]. }
    destruct FO as (ok & -> & OK). cbn [bind]. rewrite SK. cbn [firstn skipn]. assert (UN : ok = true <-> uniform (v :: firstn c (skipn (ni + 1) rep))).
    { rewrite OK. split.
      - intros F a b HA HB. rewrite Forall_forall in F. assert (AV : forall q, In q (v :: firstn c (skipn (ni + 1) rep)) -> q = v) by (intros q [<-|Q]; auto). rewrite (AV a HA), (AV b HB). reflexivity.
      - intros U. apply Forall_forall. intros u Q. apply U; [right; exact Q|left; reflexivity]. }
    destruct ok.
    + specialize (IH (ni + S c) ltac:(lia)). replace (skipn c (skipn (ni + 1) rep)) with (skipn (ni + S c) rep) by (rewrite skskip; f_equal; lia). destruct (firsts compat n rep (ni + S c)); cbn [bind].
      * destruct IH as [-> U]. split; [reflexivity|]. constructor; [apply UN; reflexivity|exact U].
      * intros H. inversion H; auto.
      * exact IH.
    + intros H. inversion H as [|? ? H1 H2]; subst. apply UN in H1. discriminate.
Qed.
Lemma heads_small {A} : forall n (l : list A), Forall (fun c => c <= 1) n -> length l = sum n -> heads (groups n l) = l /\ Forall uniform (groups n l).
Proof.
  induction n as [|c n IH]; intros l F L; cbn [groups]; [destruct l; [split; [reflexivity|constructor]|discriminate]|]. cbn [sum fold_right] in L. fold (sum n) in L. inversion F; subst. destruct c as [|[|c]]; [| |lia].
  - destruct (IH l H2 ltac:(lia)) as [E U]. cbn [firstn skipn heads flat_map app]. split; [exact E|]. constructor; [intros u v []|exact U].
  - destruct l as [|v l]; [cbn [length] in L; lia|]. cbn [length] in L. destruct (IH l H2 ltac:(lia)) as [E U]. cbn [firstn skipn heads flat_map app]. split; [f_equal; exact E|]. constructor; [|exact U]. intros a b [<-|[]] [<-|[]]. reflexivity.
Qed.
Lemma of_wholes z : forallb (fun c => 0 <=? c)%Z z = true -> map Z.of_nat (map Z.to_nat z) = z.
Proof. intros F. rewrite map_map. rewrite <- (map_id z) at 2. apply map_ext_in. intros a I. rewrite forallb_forall in F. specialize (F a I). cbv beta in F. lia. Qed.
Lemma slash_ok {A} (compat : A -> A -> bool) (CE : forall a b, compat a b = true <-> a = b) (o : oper A) w x : length w = length x -> wf_op o -> forallb isnum w = true ->
  match slash_ucw compat o w x with
  | Ok (Some r) => exists n rep, w = map VNum (map Z.of_nat n) /\ gives o [sum n] (replicated n x) rep /\ Forall uniform (groups n rep) /\ regrouped n x rep r
  | Ok None => False
  | Err => forall n rep, w = map VNum (map Z.of_nat n) -> gives o [sum n] (replicated n x) rep -> ~ Forall uniform (groups n rep)
  | UB => exists f n, o = OFun f /\ w = map VNum (map Z.of_nat n) /\ f [sum n] (replicated n x) = UB
  end.
Proof.
  intros LW WF NUM. unfold slash_ucw. rewrite NUM. cbn [negb]. pose proof (wholes_ok w) as HW. destruct (wholes w) as [z|]; [|intros n rep E; exfalso; exact (HW _ E)]. subst w. rewrite map_length in LW.
  assert (INJ : forall n, map VNum z = map VNum (map Z.of_nat n) -> z = map Z.of_nat n). { intros n. generalize (map Z.of_nat n). clear. induction z as [|a z IH]; intros [|b m] E; cbn [map] in E; try discriminate; [reflexivity|]. inversion E. f_equal. apply IH. assumption. }
  destruct (forallb (fun c => 0 <=? c)%Z z) eqn:NN; cbn [negb].
  2:{ intros n rep E _ _. apply INJ in E. subst z. assert (forallb (fun c => 0 <=? c)%Z (map Z.of_nat n) = true); [|congruence]. apply forallb_forall. intros a I. apply in_map_iff in I. destruct I as (k & <- & _). lia. }
  set (n := map Z.to_nat z). assert (EZ : map Z.of_nat n = z) by (apply of_wholes; exact NN). assert (LN : length n = length x) by (unfold n; rewrite map_length; exact LW). rewrite replicated_flat. rewrite (replicated_len n x LN).
  assert (UNQ : forall n', map VNum z = map VNum (map Z.of_nat n') -> n' = n). { intros n' E. apply INJ in E. rewrite <- EZ in E. clear - E. revert n' E. generalize n. clear. induction n as [|a m IH]; intros [|b n'] E; cbn [map] in E; try discriminate; [reflexivity|]. inversion E. f_equal; [lia|auto]. }
  pose proof (call_ok o [sum n] (replicated n x)) as CO. destruct (call o [sum n] (replicated n x)) as [[|s rep]| |]; cbn [bind].
  - intros n' rep E G. rewrite (UNQ n' E) in *. exfalso. eapply CO. exact G.
  - destruct (eqsh_ok s [sum n]) as [->|NE].
    + rewrite Nat.eqb_refl. cbn [negb]. assert (LR : length rep = sum n). { assert (Q : array [sum n] rep) by (eapply gives_len; [exact WF| |exact CO]; unfold array; rewrite (replicated_len n x LN); cbn [size fold_right]; lia). unfold array in Q. cbn [size fold_right] in Q. lia. }
      assert (FIN : forall h, h = heads (groups n rep) -> Forall uniform (groups n rep) -> match (do r <- blend (length x) 0 0 (map (fun c => negb (c =? 0)) n) h x; Ok (Some r)) with
        | Ok (Some r) => exists n rep, map VNum z = map VNum (map Z.of_nat n) /\ gives o [sum n] (replicated n x) rep /\ Forall uniform (groups n rep) /\ regrouped n x rep r
        | Ok None => False | Err => forall n rep, map VNum z = map VNum (map Z.of_nat n) -> gives o [sum n] (replicated n x) rep -> ~ Forall uniform (groups n rep) | UB => exists f n, o = OFun f /\ map VNum z = map VNum (map Z.of_nat n) /\ f [sum n] (replicated n x) = UB end).
      { intros h EH U. destruct (blend_ok h x n [] rep 0) as (r & E & L & H); [exact LN|lia|exact EH|]. cbn [app length] in E. change (map nz n) with (map (fun c => negb (c =? 0)) n) in E. rewrite LN in E. rewrite E. cbn [bind]. exists n, rep. split; [rewrite EZ; reflexivity|]. split; [exact CO|]. split; [exact U|].
        split; [lia|]. intros i g G. specialize (H i g G). cbn [length Nat.add] in H. destruct g as [|v g]; [exact H|]. apply Forall_forall. intros u Q. rewrite H. f_equal. rewrite Forall_forall in U. apply (U (v :: g)); [eapply nth_error_In; exact G|left; reflexivity|exact Q]. }
      destruct (forallb (fun c => c <=? 1)%Z z) eqn:SM.
      * assert (FS : Forall (fun c => c <= 1) n). { apply Forall_forall. intros c I. unfold n in I. apply in_map_iff in I. destruct I as (a & <- & I). rewrite forallb_forall in SM. specialize (SM a I). cbv beta in SM. lia. }
        destruct (heads_small n rep FS LR) as [E U]. apply FIN; [symmetry; exact E|exact U].
      * pose proof (firsts_ok compat CE rep n 0 ltac:(lia)) as FO. cbn [skipn] in FO. destruct (firsts compat n rep 0) as [h| |]; cbn [bind]; [apply FIN; tauto| |destruct FO].
        intros n' rep' E G U. rewrite (UNQ n' E) in *. apply FO. assert (RR : rep' = rep); [|rewrite <- RR; exact U]. destruct o as [f|s l|c]; cbn [gives] in G, CO; [rewrite G in CO; inversion CO; reflexivity|destruct G, CO; congruence|congruence].
    + assert (Q : forall m, s = [m] -> negb (m =? sum n) = true) by (intros m ->; destruct (Nat.eqb_spec m (sum n)); [congruence|reflexivity]).
      assert (ER : forall n' rep', map VNum z = map VNum (map Z.of_nat n') -> gives o [sum n'] (replicated n' x) rep' -> ~ Forall uniform (groups n' rep')) by (intros n' rep' E G; rewrite (UNQ n' E) in *; exfalso; eapply CO; exact G).
      destruct s as [|m [|? ?]]; try exact ER. rewrite (Q m eq_refl). exact ER.
  - intros n' rep' E G. rewrite (UNQ n' E) in *. exfalso. eapply CO. exact G.
  - destruct CO as (f & -> & E). exists f, n. rewrite EZ. auto.
Qed.
