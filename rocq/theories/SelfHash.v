(** The hash table methods of the monadic search functions. *)
From Verif Require Import Base ListLib SqueezeModel SqueezeSpec SqueezeProof MatchModel HashModel HashSpec HashProof HtabModel HtabThm HtabMap SearchModel SearchSpec SearchProof SearchFlat SearchMany SearchMany2 SelfModel SelfProof SelfRadix.
From Coq Require Import List.

Section H.
Context (cast : Z -> Z) (wyhash64 : Z -> Z -> Z) (wyhash : list Z -> Z -> list Z -> Z) (s0 s1 s2 s3 nan0 : Z) (junk : nat -> bool).
Hypothesis cast_good : cast_ok cast.
Hypothesis mix : mixers wyhash64 wyhash s3.
Notation HASH := (HASH cast wyhash64 wyhash s0 s1 s2 s3 nan0 junk).

Lemma ans_fold {V A R} (rq : A -> req hobj V) (h : ans V -> R) (F : HtabModel.map hobj V * list R -> A -> res (HtabModel.map hobj V * list R)) :
  (forall m r a x m', step hobj V EQH HASH m (rq a) = Ok (x, m') -> F (m, r) a = Ok (m', r ++ [h x])) ->
  forall l m r an, run hobj V EQH HASH m (map rq l) = Ok an -> exists m', foldM F l (m, r) = Ok (m', r ++ map h an).
Proof.
  intros HF. induction l as [|a l IH]; intros m r an E; cbn [map] in E.
  - cbn [run] in E. apply Ok_inj in E. subst an. cbn [map]. rewrite app_nil_r. exists m. reflexivity.
  - cbn [run] in E. destruct (step hobj V EQH HASH m (rq a)) as [[x m']| |] eqn:S1; cbn [bind] in E; try discriminate. destruct (run hobj V EQH HASH m' (map rq l)) as [t| |] eqn:R1; cbn [bind] in E; try discriminate.
    apply Ok_inj in E. subst an. rewrite foldM_cons, (HF _ _ _ _ _ S1). cbn [bind map]. destruct (IH m' (r ++ [h x]) t R1) as (m2&E2). exists m2. rewrite E2, <- app_assoc. reflexivity.
Qed.
Lemma okreqs {V} (rq : hobj -> req hobj V) l : (forall a, rkey (rq a) = a) -> Forall okh l -> Forall (fun r : req hobj V => okh (rkey r)) (map rq l).
Proof. intros H F. rewrite Forall_forall in *. intros r I. apply in_map_iff in I. destruct I as (a&<-&I). rewrite H. auto. Qed.

(** marks *)
Lemma ins_answers l : forall p (f : fmap hobj unit), (forall k, f k = if existsb (fun a => EQH a k) p then Some tt else None) ->
  spec_run hobj unit EQH f (map (fun a => Ins hobj unit a tt) l) = map (fun c => AB unit (negb (c =? 0)%nat)) (gocc EQH p l).
Proof.
  induction l as [|a l IH]; intros p f H; cbn [map spec_run spec_step gocc]; auto. rewrite (IH (p ++ [a])).
  - f_equal. rewrite H, cnt_zero, negb_involutive. destruct (existsb (fun b => EQH b a) p); reflexivity.
  - intros k. unfold fset. rewrite existsb_app, H. cbn [existsb]. rewrite orb_false_r. destruct (EQH a k), (existsb (fun b => EQH b k) p); reflexivity.
Qed.
Lemma only_zero p x0 : Forall okh (x0 :: p) -> Forall (fun c => EQH c x0 = true) (x0 :: p) -> only (Z.of_nat (length (x0 :: p))) [0] = map (fun c => (c =? 0)%nat) (gocc EQH [] (x0 :: p)).
Proof.
  intros O F. unfold only. rewrite Nat2Z.id. apply nth_error_ext. intros j. rewrite !nth_error_map, gocc_nth.
  destruct (nth_error (x0 :: p) j) as [x|] eqn:N.
  - rewrite nth_error_seq' by (eapply nth_error_Some_lt; eauto). cbn [option_map app existsb]. rewrite orb_false_r, cnt_zero. f_equal. destruct j as [|j]; [reflexivity|].
    cbn [firstn existsb]. assert (E : EQH x0 x = true). { rewrite Forall_forall in O, F. assert (I : In x (x0 :: p)) by (eapply nth_error_In; eauto). apply EQH_sym; [apply O; auto|apply O; left; auto|apply F; auto]. }
    rewrite E. cbn [orb negb]. destruct (Z.eqb_spec (Z.of_nat (S j)) 0); [lia|reflexivity].
  - assert (L : (length (x0 :: p) <= j)%nat) by (apply nth_error_None; auto). rewrite (proj2 (nth_error_None (seq 0 (length (x0 :: p))) j)) by (rewrite seq_length; auto). reflexivity.
Qed.
Lemma scan_prefix {A} (p : A -> bool) l : exists a b, l = a ++ b /\ scan p l = Z.of_nat (length a) /\ Forall (fun x => p x = false) a /\ (b = [] \/ exists x t, b = x :: t /\ p x = true).
Proof.
  induction l as [|x l (a&b&E&S1&F&H)]; cbn [scan]. { exists [], []. auto. } destruct (p x) eqn:P.
  - exists [], (x :: l). split; auto. split; auto. split; auto. right. eauto.
  - exists (x :: a), b. subst l. split; auto. split; [cbn [length]; lia|]. split; auto.
Qed.
Lemma mark_gen_ok xl : xl <> [] -> Forall okh xl -> mark_gen cast wyhash64 wyhash s0 s1 s2 s3 nan0 junk xl = Ok (map (fun c => (c =? 0)%nat) (gocc EQH [] xl)).
Proof.
  intros Ne O. unfold mark_gen. destruct xl as [|x0 xt] eqn:Ex; [congruence|]. rewrite <- Ex in *. clear Ne.
  assert (O0 : okh x0) by (rewrite Ex in O; inversion O; auto). assert (OA := O). rewrite Forall_forall in OA.
  rewrite (scanM_ok _ (fun c => negb (EQH c x0))) by (intros a Ha; rewrite (proj1 (EQH_ok a x0 (OA a Ha) O0)); reflexivity). cbn [bind].
  destruct (scan_prefix (fun c => negb (EQH c x0)) xl) as (p&q&E&Sc&Fp&Hq). rewrite Sc.
  assert (Fp' : Forall (fun c => EQH c x0 = true) p) by (eapply Forall_impl; [|exact Fp]; cbn beta; intros c Hc; destruct (EQH c x0); auto). clear Fp.
  assert (Op : Forall okh p /\ Forall okh q) by (rewrite E in O; apply Forall_app in O; auto). destruct Op as [Op Oq].
  assert (P0 : p = [] \/ exists p', p = x0 :: p') by (destruct p as [|a p']; auto; right; rewrite Ex in E; injection E as <- _; eauto).
  assert (Pre : only (Z.of_nat (length p)) [0] = map (fun c => (c =? 0)%nat) (gocc EQH [] p)) by (destruct P0 as [->|(p'&->)]; [reflexivity|apply only_zero; auto]).
  destruct (Z.eqb_spec (Z.of_nat (length p)) (Z.of_nat (length xl))) as [L|L].
  { assert (q = []) by (rewrite E, app_length in L; destruct q; auto; cbn in L; lia). subst q. rewrite app_nil_r in E. rewrite Pre, <- E. reflexivity. }
  rewrite Nat2Z.id. assert (Sk : skipn (length p) xl = q) by (rewrite E, skipn_app, skipn_all, Nat.sub_diag; reflexivity). rewrite Sk.
  assert (R : run hobj unit EQH HASH (m_new hobj unit (2 ^ 6)) (map (fun a => Ins hobj unit a tt) (x0 :: q)) = Ok (spec_run hobj unit EQH (fun _ => None) (map (fun a => Ins hobj unit a tt) (x0 :: q)))) by (apply hrun; auto; apply (okreqs (fun a => Ins hobj unit a tt)); auto).
  rewrite (ins_answers (x0 :: q) []) in R by reflexivity. cbn [map run step gocc app] in R.
  destruct (ins hobj unit EQH HASH (m_new hobj unit (2 ^ 6)) x0 tt) as [[m1 y]| |]; cbn [bind] in R; try discriminate. cbn [bind].
  destruct (run hobj unit EQH HASH m1 (map (fun a => Ins hobj unit a tt) q)) as [an| |] eqn:R1; cbn [bind] in R; try discriminate. apply Ok_inj in R. injection R as _ Ean.
  destruct (ans_fold (fun a => Ins hobj unit a tt) (fun a => match a with AB _ b => negb b | _ => false end) (fun st k => let '(m, r) := st in do (m, had) <- ins hobj unit EQH HASH m k tt; Ok (m, r ++ [negb had]))) with (l := q) (m := m1) (r := only (Z.of_nat (length p)) [0]) (an := an) as (m2&E2); auto.
  { intros m r a x m' S1. cbn [step] in S1. destruct (ins hobj unit EQH HASH m a tt) as [[m2 b]| |]; cbn [bind] in S1; try discriminate. apply Ok_inj in S1. injection S1 as <- <-. reflexivity. }
  rewrite E2. cbn [bind snd]. rewrite Pre, E, gocc_app, map_app. f_equal. f_equal. subst an. rewrite map_map.
  assert (Q : map (fun c => (c =? 0)%nat) (gocc EQH [x0] q) = map (fun c => (c =? 0)%nat) (gocc EQH p q)).
  { apply nth_error_ext. intros j. rewrite !nth_error_map, !gocc_nth. destruct (nth_error q j) as [x|] eqn:N; auto. cbn [option_map]. f_equal. rewrite !cnt_zero, !existsb_app. cbn [existsb]. rewrite orb_false_r. f_equal.
    assert (Ox : okh x) by (rewrite Forall_forall in Oq; apply Oq; eapply nth_error_In; eauto).
    assert (G : forall a, In a p -> EQH a x = EQH x0 x).
    { intros a Ha. rewrite Forall_forall in Fp', Op. rewrite (EQH_symb a x), (EQH_symb x0 x) by auto. apply EQH_cong; auto. }
    destruct P0 as [->|(p'&->)].
    - cbn [existsb orb]. cbn [app] in E. rewrite Ex in E. destruct Hq as [Hq|(z&t&Hq&Hz)]; [subst q; destruct j; discriminate|]. rewrite Hq in E, N |- *. injection E as <- <-. destruct j as [|j].
      + cbn [nth_error] in N. injection N as <-. cbn [firstn existsb]. destruct (EQH x0 x0); [discriminate|reflexivity].
      + cbn [firstn existsb]. destruct (EQH x0 x); cbn [orb]; auto.
    - assert (Ee : existsb (fun a => EQH a x) (x0 :: p') = EQH x0 x) by (cbn [existsb]; destruct (EQH x0 x) eqn:Y; auto; cbn [orb]; apply not_true_is_false; intros Q; apply existsb_exists in Q; destruct Q as (a&Ha&Q); rewrite (G a (or_intror Ha)) in Q; discriminate). rewrite Ee. reflexivity. }
  cbn [app]. rewrite <- Q. apply map_ext. intros c. apply negb_involutive.
Qed.

(** counts *)
Lemma cnt_cong p a b : Forall okh p -> okh a -> okh b -> EQH a b = true -> cnt_eq EQH p a = cnt_eq EQH p b.
Proof. intros P A B E. unfold cnt_eq. f_equal. apply RadixProof.filter_same. rewrite Forall_forall in P. intros c Hc. apply EQH_cong; auto. Qed.
Lemma upd_answers l : forall p (f : fmap hobj Z), Forall okh p -> Forall okh l -> Z.of_nat (length p + length l) <= 2 ^ 31 -> (forall k, okh k -> f k = match cnt_eq EQH p k with O => None | S c => Some (Z.of_nat c) end) ->
  spec_run hobj Z EQH f (map (fun a => MkUpd hobj Z a (fun v => to_s 32 (v + 1)) 0) l) = map (fun c => AV Z (Z.of_nat c)) (gocc EQH p l).
Proof.
  induction l as [|a l IH]; intros p f Op Ol L H; cbn [map spec_run spec_step gocc]; auto. apply Forall_cons_iff in Ol. destruct Ol as [Oa Ol]. cbn [length] in L.
  assert (Cl := cnt_le EQH p a).
  assert (G : forall v, v = Z.of_nat (cnt_eq EQH p a) -> spec_run hobj Z EQH (fset hobj Z EQH f a v) (map (fun a => MkUpd hobj Z a (fun v => to_s 32 (v + 1)) 0) l) = map (fun c => AV Z (Z.of_nat c)) (gocc EQH (p ++ [a]) l)).
  { intros v Ev. apply IH; auto. - apply Forall_app; auto. - rewrite app_length. cbn [length]. lia.
    - intros k Hk. unfold fset. rewrite cnt_eq_app. assert (Ca : cnt_eq EQH [a] k = if EQH a k then 1%nat else 0%nat) by (unfold cnt_eq; cbn [filter]; destruct (EQH a k); reflexivity). rewrite Ca. destruct (EQH a k) eqn:E.
      + rewrite <- (cnt_cong p a k Op Oa Hk E). rewrite Nat.add_1_r, Ev. reflexivity.
      + rewrite Nat.add_0_r. apply H; auto. }
  rewrite (H a Oa). destruct (cnt_eq EQH p a) as [|c] eqn:C.
  - rewrite G by reflexivity. reflexivity.
  - assert (T : to_s 32 (Z.of_nat c + 1) = Z.of_nat (S c)) by (rewrite to_s_id; [lia|lia|change (2 ^ (32 - 1)) with (2 ^ 31); lia]). rewrite T. rewrite G by reflexivity. reflexivity.
Qed.
Lemma count_self_gen_ok xl : Forall okh xl -> Z.of_nat (length xl) <= 2 ^ 31 -> count_self_gen cast wyhash64 wyhash s0 s1 s2 s3 nan0 junk xl = Ok (map Z.of_nat (gocc EQH [] xl)).
Proof.
  intros O L. unfold count_self_gen.
  assert (R : run hobj Z EQH HASH (m_new hobj Z (2 ^ 6)) (map (fun a => MkUpd hobj Z a (fun v => to_s 32 (v + 1)) 0) xl) = Ok (spec_run hobj Z EQH (fun _ => None) (map (fun a => MkUpd hobj Z a (fun v => to_s 32 (v + 1)) 0) xl))) by (apply hrun; auto; apply (okreqs (fun a => MkUpd hobj Z a (fun v => to_s 32 (v + 1)) 0)); auto).
  rewrite (upd_answers xl []) in R by (auto; intros; reflexivity).
  destruct (ans_fold (fun a => MkUpd hobj Z a (fun v => to_s 32 (v + 1)) 0) (fun a => match a with AV _ v => v | _ => 0 end) (fun st k => let '(m, r) := st in do (m, v) <- mk_upd hobj Z EQH HASH m k (fun v => to_s 32 (v + 1)) 0; Ok (m, r ++ [v]))) with (l := xl) (m := m_new hobj Z (2 ^ 6)) (r := @nil Z) (2 := R) as (m2&E2).
  { intros m r a x m' S1. cbn [step] in S1. destruct (mk_upd hobj Z EQH HASH m a (fun v => to_s 32 (v + 1)) 0) as [[m2 b]| |]; cbn [bind] in S1; try discriminate. apply Ok_inj in S1. injection S1 as <- <-. reflexivity. }
  rewrite E2. cbn [bind snd app]. rewrite map_map. reflexivity.
Qed.

(** classes *)
Fixpoint creqs (U l : list hobj) : list (req hobj Z) :=
  match l with [] => [] | x :: t => MkOpt hobj Z x (Z.of_nat (length U)) :: creqs (if scan (fun a => EQH a x) U =? Z.of_nat (length U) then U ++ [x] else U) t end.
Lemma creqs_ok l : forall U, Forall okh l -> Forall (fun r : req hobj Z => okh (rkey r)) (creqs U l).
Proof. induction l as [|x l IH]; intros U F; cbn [creqs]; constructor; inversion F; auto. Qed.
Definition cstep := (fun (st : htab hobj Z * Z * list Z) k => let '(m, ctr, r) := st in do (m, o) <- mk_opt hobj Z EQH HASH m k ctr; match o with Some v => Ok (m, ctr, r ++ [v]) | None => Ok (m, to_s 32 (ctr + 1), r ++ [ctr]) end).
Lemma class_run l : forall U (f : fmap hobj Z) m r, Forall okh U -> Forall okh l -> Z.of_nat (length U + length l) < 2 ^ 31 ->
  (forall k, okh k -> f k = let s := scan (fun a => EQH a k) U in if s =? Z.of_nat (length U) then None else Some s) ->
  run hobj Z EQH HASH m (creqs U l) = Ok (spec_run hobj Z EQH f (creqs U l)) ->
  exists m' c', foldM cstep l (m, Z.of_nat (length U), r) = Ok (m', c', r ++ gcls EQH U l).
Proof.
  induction l as [|x l IH]; intros U f m r OU Ol L H R; cbn [gcls]. { rewrite app_nil_r. exists m, (Z.of_nat (length U)). reflexivity. }
  apply Forall_cons_iff in Ol. destruct Ol as [Ox Ol]. cbn [creqs run step spec_run spec_step length] in R, L. rewrite foldM_cons. unfold cstep at 1. cbn [bind].
  destruct (mk_opt hobj Z EQH HASH m x (Z.of_nat (length U))) as [[m1 o]| |] eqn:M1; cbn [bind] in R; try discriminate. cbn [bind].
  pose proof (H x Ox) as Hx. cbv zeta in Hx. pose proof (scan_range (fun a => EQH a x) U) as Sr. destruct (Z.eqb_spec (scan (fun a => EQH a x) U) (Z.of_nat (length U))) as [Es|Es].
  - rewrite Hx in R. destruct (run hobj Z EQH HASH m1 (creqs (U ++ [x]) l)) as [t| |] eqn:R1; cbn [bind] in R; try discriminate. apply Ok_inj in R. injection R as -> Et. subst t.
    assert (T : to_s 32 (Z.of_nat (length U) + 1) = Z.of_nat (length (U ++ [x]))) by (rewrite app_length; cbn [length]; rewrite to_s_id; [lia|lia|change (2 ^ (32 - 1)) with (2 ^ 31); lia]). rewrite T.
    destruct (IH (U ++ [x]) (fset hobj Z EQH f x (Z.of_nat (length U))) m1 (r ++ [Z.of_nat (length U)])) as (m'&c'&E'); auto.
    + apply Forall_app; auto. + rewrite app_length. cbn [length]. lia.
    + intros k Hk. cbv zeta. unfold fset. rewrite (H k Hk). cbv zeta. rewrite app_length. cbn [length].
      assert (Ap : scan (fun a => EQH a k) (U ++ [x]) = if scan (fun a => EQH a k) U =? Z.of_nat (length U) then (if EQH x k then Z.of_nat (length U) else Z.of_nat (length U) + 1) else scan (fun a => EQH a k) U).
      { clear. induction U as [|a U IH]; cbn [app scan length]; [destruct (EQH x k); reflexivity|]. destruct (EQH a k). { destruct (Z.eqb_spec 0 (Z.of_nat (S (length U)))); [lia|reflexivity]. }
        rewrite IH. destruct (Z.eqb_spec (scan (fun a => EQH a k) U) (Z.of_nat (length U))), (Z.eqb_spec (1 + scan (fun a => EQH a k) U) (Z.of_nat (S (length U)))), (EQH x k); lia. }
      rewrite Ap. pose proof (scan_range (fun a => EQH a k) U) as Sk. destruct (EQH x k) eqn:Exk.
      * assert (Sx : scan (fun a => EQH a k) U = Z.of_nat (length U)). { rewrite <- Es. apply scan_eq. rewrite Forall_forall in OU. intros a Ha. symmetry. apply EQH_cong; auto. }
        rewrite Sx, Z.eqb_refl. destruct (Z.eqb_spec (Z.of_nat (length U)) (Z.of_nat (length U + 1))); [lia|reflexivity].
      * destruct (Z.eqb_spec (scan (fun a => EQH a k) U) (Z.of_nat (length U))).
        -- destruct (Z.eqb_spec (Z.of_nat (length U) + 1) (Z.of_nat (length U + 1))); [reflexivity|lia].
        -- destruct (Z.eqb_spec (scan (fun a => EQH a k) U) (Z.of_nat (length U + 1))); [lia|reflexivity].
    + exists m', c'. cbn [bind]. rewrite E', <- app_assoc, Es. reflexivity.
  - rewrite Hx in R. destruct (run hobj Z EQH HASH m1 (creqs U l)) as [t| |] eqn:R1; cbn [bind] in R; try discriminate. apply Ok_inj in R. injection R as -> Et. subst t.
    destruct (IH U f m1 (r ++ [scan (fun a => EQH a x) U])) as (m'&c'&E'); auto. { lia. }
    exists m', c'. cbn [bind]. rewrite E', <- app_assoc. reflexivity.
Qed.
Lemma class_gen_ok xl : Forall okh xl -> Z.of_nat (length xl) < 2 ^ 31 -> class_gen cast wyhash64 wyhash s0 s1 s2 s3 nan0 junk xl = Ok (gcls EQH [] xl).
Proof.
  intros O L. change (class_gen cast wyhash64 wyhash s0 s1 s2 s3 nan0 junk xl) with (do st <- foldM cstep xl (m_new hobj Z (2 ^ 6), 0, []); Ok (snd st)). destruct (class_run xl [] (fun _ => None) (m_new hobj Z (2 ^ 6)) []) as (m'&c'&E); auto.
  - apply hrun; auto. apply creqs_ok; auto.
  - cbn [length] in E. change (Z.of_nat 0) with 0 in E. rewrite E. reflexivity.
Qed.
End H.
