(** Progressive index-of: the chains of equal elements, for any comparison, and the generic (hash table) path. *)
From Verif Require Import Base BitsModel BitsSpec TagModel TagSpec NumSpec ArrSpec DataSpec SqueezeModel SqueezeSpec SqueezeProof MatchModel MatchSpec MatchProof MatchProof2 ListLib HashModel HashSpec HashProof HtabModel HtabProof HtabThm HtabMap SearchModel SearchSpec SearchProof.
From Coq Require Import List.
Notation run := HtabThm.run.

Section Chain.
Context {K : Type} (E : K -> K -> bool) (ok : K -> Prop) (wl : list K).
Hypothesis E_sym : forall a b, ok a -> ok b -> E a b = true -> E b a = true.
Hypothesis E_trans : forall a b c, ok a -> ok b -> ok c -> E a b = true -> E b c = true -> E a c = true.
Hypothesis wl_ok : Forall ok wl.
Let wia := Z.of_nat (length wl).
Lemma E_cong a b c : ok a -> ok b -> ok c -> E b c = true -> E a b = E a c.
Proof.
  intros A B C H. destruct (E a b) eqn:E1, (E a c) eqn:E2; auto. - rewrite (E_trans a b c A B C E1 H) in E2. discriminate.
  - apply (E_sym b c B C) in H. rewrite (E_trans a c b A C B E2 H) in E1. discriminate.
Qed.
Lemma wl_nth i a : nth_error wl i = Some a -> ok a.
Proof. intros H. rewrite Forall_forall in wl_ok. apply wl_ok. eapply nth_error_In; eauto. Qed.
(** first position from s on of an element equal to k *)
Definition ff (s : nat) (k : K) : Z := Z.of_nat s + scan (fun a => E a k) (skipn s wl).
Lemma ff_step s a k : nth_error wl s = Some a -> ff s k = if E a k then Z.of_nat s else ff (S s) k.
Proof using Type. clear E_sym E_trans wl_ok ok. intros H. unfold ff. rewrite (skipn_nth _ _ _ H). cbn [scan]. destruct (E a k); lia. Qed.
Lemma ff_end k : ff (length wl) k = wia.
Proof using Type. clear E_sym E_trans wl_ok ok. unfold ff. rewrite skipn_all. cbn [scan]. unfold wia. lia. Qed.
Lemma ff_spec s k : (s <= length wl)%nat -> (forall i a, nth_error wl i = Some a -> (s <= i)%nat -> Z.of_nat i < ff s k -> E a k = false) /\
  (ff s k = wia \/ exists i a, ff s k = Z.of_nat i /\ (s <= i)%nat /\ nth_error wl i = Some a /\ E a k = true).
Proof using Type. clear E_sym E_trans wl_ok ok.
  intros L. destruct (proj1 (scan_spec (fun a => E a k) (skipn s wl) _) eq_refl) as [H1 H2]. unfold ff. split.
  - intros i a N Si Li. apply (H1 (i - s)%nat a); [rewrite nth_error_skipn'; replace (s + (i - s))%nat with i by lia; auto|lia].
  - rewrite skipn_length in H2. destruct H2 as [H2|(i&a&H2&N&Ea)]; [left; unfold wia; lia|]. right. exists (s + i)%nat, a. rewrite nth_error_skipn' in N. repeat split; auto; lia.
Qed.
Lemma ff_range s k : (s <= length wl)%nat -> Z.of_nat s <= ff s k <= wia.
Proof using Type. clear E_sym E_trans wl_ok ok. intros L. unfold ff. pose proof (scan_range (fun a => E a k) (skipn s wl)). rewrite skipn_length in H. unfold wia. lia. Qed.

Definition free_at (used : list Z) (x : K) (j : Z) : Prop :=
  0 <= j <= wia /\ (forall i a, nth_error wl i = Some a -> Z.of_nat i < j -> E a x = true -> In (Z.of_nat i) used) /\
  (j = wia \/ exists i a, j = Z.of_nat i /\ nth_error wl i = Some a /\ E a x = true /\ ~ In j used).
Fixpoint chain_ok (used : list Z) (xl : list K) (js : list Z) : Prop :=
  match xl, js with
  | [], [] => True
  | x :: xl, j :: js => free_at used x j /\ chain_ok (used ++ [j]) xl js
  | _, _ => False
  end.
Definition Inv (cur : Z) (used : list Z) (k : K) : Prop :=
  0 <= cur <= wia /\ (forall i a, nth_error wl i = Some a -> E a k = true -> (In (Z.of_nat i) used <-> Z.of_nat i < cur)) /\
  (cur = wia \/ exists i a, cur = Z.of_nat i /\ nth_error wl i = Some a /\ E a k = true).
Lemma inv_init k : Inv (ff 0 k) [] k.
Proof using Type. clear E_sym E_trans wl_ok ok.
  destruct (ff_spec 0 k ltac:(lia)) as [H1 H2]. pose proof (ff_range 0 k ltac:(lia)). split; [lia|]. split.
  - intros i a N Ea. split; [intros []|]. intros L. rewrite (H1 i a N) in Ea; [discriminate|lia|lia].
  - destruct H2 as [H2|(i&a&H2&_&N&Ea)]; [left; auto|right; eauto].
Qed.
Lemma inv_free cur used x : Inv cur used x -> free_at used x cur.
Proof using Type. clear E_sym E_trans wl_ok ok.
  intros (R&H1&H2). split; auto. split. - intros i a N L Ea. apply (H1 i a N Ea). auto.
  - destruct H2 as [H2|(i&a&Hi&N&Ea)]; [left; auto|]. right. exists i, a. repeat split; auto. rewrite Hi, (H1 i a N Ea). lia.
Qed.
(** the next position of the chain *)
Definition nx (j : Z) : Z := match nth_error wl (Z.to_nat j) with Some a => ff (S (Z.to_nat j)) a | None => wia end.
Lemma inv_step used x k j c : ok x -> ok k -> Inv j used x -> Inv c used k -> Inv (if E x k then nx j else c) (used ++ [j]) k.
Proof.
  intros X Ko (Rj&Hj&Ej) (Rc&Hc&Ec). destruct (E x k) eqn:Ex.
  - assert (Cg : forall a, ok a -> E a x = E a k) by (intros; apply E_cong; auto). unfold nx.
    destruct Ej as [Ej|(i&a&Ej&N&Ea)].
    + rewrite (proj2 (nth_error_None wl (Z.to_nat j))) by (unfold wia in *; lia). split; [unfold wia; lia|]. split; [|left; auto].
      intros i a N Ea. rewrite <- (Cg a (wl_nth _ _ N)) in Ea. rewrite in_app_iff. pose proof (nth_error_Some_lt _ _ _ N). split; [unfold wia; lia|]. intros _. left. apply (Hj i a N Ea). unfold wia in *; lia.
    + rewrite Ej, Nat2Z.id, N. pose proof (nth_error_Some_lt _ _ _ N) as Li. assert (A := wl_nth _ _ N).
      destruct (ff_spec (S i) a ltac:(lia)) as [F1 F2]. pose proof (ff_range (S i) a ltac:(lia)).
      assert (Ck : forall b, ok b -> E b a = E b k). { intros b B. rewrite (E_cong b a x B A X Ea). apply Cg; auto. }
      split; [lia|]. split.
      * intros i' a' N' Ea'. rewrite in_app_iff. assert (A' := wl_nth _ _ N'). assert (Ex' : E a' x = true) by (rewrite Cg; auto). rewrite (Hj i' a' N' Ex'), Ej. cbn [In].
        destruct (Nat.lt_trichotomy i' i) as [Lt|[ -> |Gt]]; [split; [lia|left; lia]|split; [lia|auto]|].
        split; [intros [Q|[Q|[]]]; lia|]. intros Q. rewrite <- (Ck a' A') in Ea'. rewrite (F1 i' a' N') in Ea'; [discriminate|lia|lia].
      * destruct F2 as [F2|(i'&a'&F2&_&N'&Ea')]; [left; auto|]. right. exists i', a'. rewrite <- (Ck a' (wl_nth _ _ N')). auto.
  - split; auto. split; auto. intros i a N Ea. rewrite in_app_iff, (Hc i a N Ea). cbn [In]. split; [|auto]. intros [Q|[Q|[]]]; auto. exfalso.
    pose proof (nth_error_Some_lt _ _ _ N). destruct Ej as [Ej|(i'&a'&Ej&N'&Ea')]; [unfold wia in *; lia|]. assert (i' = i) by lia. subst i'. rewrite N in N'. injection N' as <-.
    assert (A := wl_nth _ _ N). apply (E_sym a x A X) in Ea'. rewrite (E_trans x a k X A Ko Ea' Ea) in Ex. discriminate.
Qed.
End Chain.

Definition posl {A} (wl : list A) (n : nat) : list (A * nat) := rev (combine (firstn n wl) (seq 0 n)).
Lemma posl_S {A} (wl : list A) n a : nth_error wl n = Some a -> posl wl (S n) = (a, n) :: posl wl n.
Proof.
  intros H. unfold posl. rewrite (firstn_snoc _ _ _ H). replace (seq 0 (S n)) with (seq 0 n ++ [n]) by (rewrite seq_S; reflexivity).
  pose proof (nth_error_Some_lt _ _ _ H). assert (L : length (firstn n wl) = length (seq 0 n)) by (rewrite firstn_length, seq_length; lia).
  revert L. generalize (firstn n wl) (seq 0 n). intros l. induction l as [|b l IH]; intros [|m s] L; try discriminate; [reflexivity|]. cbn [app combine rev]. rewrite IH by (cbn in L; lia). reflexivity.
Qed.
Lemma posl_all {A} (wl : list A) : posl wl (length wl) = rev (combine wl (seq 0 (length wl))).
Proof. unfold posl. rewrite firstn_all. reflexivity. Qed.

Section H.
Context (cast : Z -> Z) (wyhash64 : Z -> Z -> Z) (wyhash : list Z -> Z -> list Z -> Z) (s0 s1 s2 s3 nan0 : Z) (junk : nat -> bool).
Hypothesis cast_good : cast_ok cast.
Hypothesis mix : mixers wyhash64 wyhash s3.
Notation HASH := (HASH cast wyhash64 wyhash s0 s1 s2 s3 nan0 junk).
Variable wl : list hobj.
Hypothesis wl_ok : Forall okh wl.
Hypothesis wl_len : Z.of_nat (length wl) < 2 ^ 31.
Let wia := Z.of_nat (length wl).
Definition wn_ok (n : nat) (wn : list Z) : Prop := length wn = S (length wl) /\ nth_error wn (length wl) = Some wia /\
  forall i a, (n <= i)%nat -> nth_error wl i = Some a -> nth_error wn i = Some (ff EQH wl (S i) a).
Definition body1 (st : htab hobj Z * list Z) (ki : hobj * nat) : res (htab hobj Z * list Z) :=
  let '(m, wnext) := st in
  do (m, v) <- swap hobj Z EQH HASH m (fst ki) (to_s 32 (Z.of_nat (snd ki))) wia; do wnext <- wr wnext (snd ki) v; Ok (m, wnext).
Lemma foldM_cons {A S} (f : S -> A -> res S) a l s : foldM f (a :: l) s = (do s <- f s a; foldM f l s).
Proof.
  unfold foldM. cbn [fold_left bind]. destruct (f s a); cbn [bind]; auto; clear; induction l; cbn [fold_left]; auto.
Qed.
Definition rqS (ki : hobj * nat) : req hobj Z := Swap hobj Z (fst ki) (Z.of_nat (snd ki)) wia.
Lemma swap_loop rest n : forall m f wn, (n <= length wl)%nat -> respects f -> (forall k, okh k -> dflt Z (f k) wia = ff EQH wl n k) -> wn_ok n wn ->
  run hobj Z EQH HASH m (map rqS (posl wl n) ++ rest) = Ok (spec_run hobj Z EQH f (map rqS (posl wl n) ++ rest)) ->
  exists m' f' wn', foldM body1 (posl wl n) (m, wn) = Ok (m', wn') /\ respects f' /\ (forall k, okh k -> dflt Z (f' k) wia = ff EQH wl 0 k) /\ wn_ok 0 wn' /\
    run hobj Z EQH HASH m' rest = Ok (spec_run hobj Z EQH f' rest).
Proof.
  induction n as [|n IH]; intros m f wn L R F Wn Rn. { exists m, f, wn. auto. }
  destruct (nth_error_ex wl n ltac:(lia)) as [a Na]. rewrite (posl_S wl n a Na) in *. assert (A : okh a) by (eapply wl_nth; eauto).
  cbn [map app run spec_run] in Rn. rewrite foldM_cons. unfold rqS at 1 in Rn. cbn [step fst snd] in Rn. unfold body1 at 1. cbn [fst snd]. rewrite to_s_id by lia.
  destruct (swap hobj Z EQH HASH m a (Z.of_nat n) wia) as [[m1 v]| |]; cbn [bind] in *; try discriminate.
  destruct (run hobj Z EQH HASH m1 _) as [t| |] eqn:Rt; cbn [bind] in Rn; try discriminate. unfold rqS at 1 in Rn. cbn [spec_step fst snd] in Rn. apply Ok_inj in Rn. injection Rn as Ev Et.
  destruct Wn as (W1&W2&W3). rewrite wr_ok' by lia. cbn [bind]. subst t.
  apply (IH m1 (fset hobj Z EQH f a (Z.of_nat n)) (upd wn n v)); auto; [lia|apply fset_respects; auto| |].
  - intros k Kk. rewrite (ff_step EQH wl n a k Na). unfold fset. destruct (EQH a k); [reflexivity|apply F; auto].
  - split; [rewrite upd_length; auto|]. split; [rewrite upd_other; auto; lia|]. intros i b Hi Nb. destruct (Nat.eq_dec i n) as [ -> |Ne].
    + rewrite upd_same by lia. rewrite Na in Nb. injection Nb as <-. f_equal. rewrite Ev. apply F; auto.
    + rewrite upd_other by lia. apply W3; auto. lia.
Qed.
Definition body2 (wnext : list Z) (st : htab hobj Z * list Z) (k : hobj) : res (htab hobj Z * list Z) :=
  let '(m, r) := st in
  do (m, j) <- getq_upd hobj Z EQH HASH m k (fun j => to_s 32 (nth (Z.to_nat j) wnext 0)) wia; Ok (m, r ++ [to_s 32 j]).
Lemma wn_nx wn j : wn_ok 0 wn -> 0 <= j <= wia -> to_s 32 (nth (Z.to_nat j) wn 0) = nx EQH wl j.
Proof.
  intros (W1&W2&W3) R. assert (Q : nth (Z.to_nat j) wn 0 = nx EQH wl j).
  { unfold nx. destruct (nth_error wl (Z.to_nat j)) as [a|] eqn:N.
    - apply nth_error_nth. apply W3; auto. lia.
    - apply nth_error_None in N. replace (Z.to_nat j) with (length wl) by (unfold wia in *; lia). apply nth_error_nth. auto. }
  rewrite Q. apply to_s_id; [lia|]. unfold nx. destruct (nth_error wl (Z.to_nat j)) as [a|] eqn:N; [|unfold wia in *; lia].
  pose proof (nth_error_Some_lt _ _ _ N). pose proof (ff_range EQH wl (S (Z.to_nat j)) a ltac:(lia)). lia.
Qed.
Definition rqG (wn : list Z) (k : hobj) : req hobj Z := GetUpd hobj Z k (fun j => to_s 32 (nth (Z.to_nat j) wn 0)) wia.
Lemma get_loop wn xl : wn_ok 0 wn -> Forall okh xl -> forall m f r, respects f -> (forall k, okh k -> Inv EQH wl (dflt Z (f k) wia) r k) ->
  run hobj Z EQH HASH m (map (rqG wn) xl) = Ok (spec_run hobj Z EQH f (map (rqG wn) xl)) ->
  exists m' js, foldM (body2 wn) xl (m, r) = Ok (m', r ++ js) /\ chain_ok EQH wl r xl js.
Proof.
  intros Wn X. induction X as [|x xl Hx X IH]; intros m f r R F Rn. { exists m, []. rewrite app_nil_r. split; [reflexivity|exact I]. }
  cbn [map run spec_run] in Rn. rewrite foldM_cons. unfold rqG at 1 in Rn. cbn [step] in Rn. unfold body2 at 1.
  destruct (getq_upd hobj Z EQH HASH m x _ wia) as [[m1 j]| |]; cbn [bind] in *; try discriminate.
  destruct (run hobj Z EQH HASH m1 _) as [t| |] eqn:Rt; cbn [bind] in Rn; try discriminate.
  pose proof (F x Hx) as Fx.
  assert (Q : exists f', spec_step hobj Z EQH f (rqG wn x) = (AV Z (dflt Z (f x) wia), f') /\ respects f' /\ forall k, okh k -> Inv EQH wl (dflt Z (f' k) wia) (r ++ [dflt Z (f x) wia]) k).
  { unfold rqG. cbn [spec_step]. destruct (f x) as [v|] eqn:Efx; cbn [dflt] in *; eexists; (split; [reflexivity|]).
    - split; [apply fset_respects; auto|]. intros k Kk. unfold fset. pose proof (inv_step EQH okh wl EQH_sym EQH_trans wl_ok r x k v (dflt Z (f k) wia) Hx Kk Fx (F k Kk)) as I1.
      destruct (EQH x k); cbn [dflt]; auto. rewrite (wn_nx wn v Wn) by apply Fx. exact I1.
    - split; auto. intros k Kk. pose proof (inv_step EQH okh wl EQH_sym EQH_trans wl_ok r x k wia (dflt Z (f k) wia) Hx Kk Fx (F k Kk)) as I1.
      destruct (EQH x k) eqn:Ex; auto. rewrite <- (R x k Hx Kk Ex), Efx. cbn [dflt]. replace (nx EQH wl wia) with wia in I1; auto. unfold nx. rewrite (proj2 (nth_error_None wl _)); auto. unfold wia. lia. }
  destruct Q as (f'&Es&R'&F'). rewrite Es in Rn. cbn [bind] in Rn. apply Ok_inj in Rn. injection Rn as Ej Et. subst j t.
  rewrite to_s_id by (destruct Fx; unfold wia in *; lia).
  destruct (IH m1 f' (r ++ [dflt Z (f x) wia]) R' F' Rt) as (m2&js&E2&C2). exists m2, (dflt Z (f x) wia :: js). rewrite E2. split; [rewrite <- app_assoc; reflexivity|].
  cbn [chain_ok]. split; [apply inv_free; exact Fx|exact C2].
Qed.
Lemma rqS_ok n : Forall (fun r : req hobj Z => okh (rkey r)) (map rqS (posl wl n)).
Proof.
  apply Forall_forall. intros r H. apply in_map_iff in H. destruct H as ([a i]&<-&H). cbn. unfold posl in H. apply in_rev in H. apply in_combine_l in H. rewrite Forall_forall in wl_ok. apply wl_ok.
  rewrite <- (firstn_skipn n wl). apply in_or_app. auto.
Qed.
Lemma count_gen_ok xl : Forall okh xl -> exists js, count_gen cast wyhash64 wyhash s0 s1 s2 s3 nan0 junk wl xl = Ok js /\ chain_ok EQH wl [] xl js.
Proof.
  intros X. unfold count_gen. cbv zeta. rewrite <- posl_all.
  assert (C : forall wn, run hobj Z EQH HASH (m_new hobj Z (2 ^ 6)) (map rqS (posl wl (length wl)) ++ map (rqG wn) xl) = Ok (spec_run hobj Z EQH (fun _ => None) (map rqS (posl wl (length wl)) ++ map (rqG wn) xl))).
  { intros wn. apply hrun; auto. apply Forall_app. split; [apply rqS_ok|]. apply Forall_forall. intros r H. apply in_map_iff in H. destruct H as (x&<-&H). rewrite Forall_forall in X. apply X; auto. }
  assert (W0 : wn_ok (length wl) (repeat 0 (length wl) ++ [wia])).
  { split; [rewrite app_length, repeat_length; cbn; lia|]. split; [rewrite nth_error_app2, repeat_length by (rewrite repeat_length; lia); rewrite Nat.sub_diag; reflexivity|].
    intros i a Hi N. apply nth_error_Some_lt in N. lia. }
  assert (P1 : forall rest m f wn, run hobj Z EQH HASH m (map rqS (posl wl (length wl)) ++ rest) = Ok (spec_run hobj Z EQH f (map rqS (posl wl (length wl)) ++ rest)) -> f = (fun _ => None) -> wn_ok (length wl) wn ->
    exists m' f' wn', foldM body1 (posl wl (length wl)) (m, wn) = Ok (m', wn') /\ respects f' /\ (forall k, okh k -> dflt Z (f' k) wia = ff EQH wl 0 k) /\ wn_ok 0 wn' /\ run hobj Z EQH HASH m' rest = Ok (spec_run hobj Z EQH f' rest)).
  { intros rest m f wn H -> Hw. apply (swap_loop rest (length wl) m (fun _ => None) wn); auto; [intros ? ? _ _ _; reflexivity|]. intros k _. cbn [dflt]. rewrite ff_end. reflexivity. }
  (* the chain array does not depend on the requests that follow *)
  destruct (P1 [] _ _ _ ltac:(rewrite app_nil_r; specialize (C []); apply hrun; auto; apply rqS_ok) eq_refl W0) as (m0&f0&wn0&E0&_&_&W0'&_).
  destruct (P1 _ _ _ _ (C wn0) eq_refl W0) as (m1&f1&wn1&E1&R1&F1&_&Rn1). rewrite E0 in E1. apply Ok_inj in E1. injection E1 as <- <-.
  match goal with |- context [bind (foldM ?f ?l ?s) _] => replace (foldM f l s) with (Ok (m0, wn0)) by (symmetry; exact E0) end. cbn [bind].
  destruct (get_loop wn0 xl W0' X m0 f1 [] R1 ltac:(intros k Kk; rewrite F1 by auto; apply inv_init) Rn1) as (m2&js&E2&C2). exists js.
  match goal with |- context [bind (foldM ?f ?l ?s) _] => replace (foldM f l s) with (Ok (m2, js)) by (symmetry; exact E2) end. split; auto.
Qed.
End H.
