From Verif Require Import Base BitsModel BitsSpec BitLemmas BitsProof BitsProof2 TagModel TagSpec TagProof NumSpec NumProof ArrSpec DataSpec SqueezeModel SqueezeSpec SqueezeProof SqueezeProof2 CompareModel CompareSpec CompareProof MatchModel MatchSpec MatchProof MatchProof2 MatchThm ListLib HashModel HashSpec HashProof HashThm HtabModel HtabProof HtabThm HtabMap SearchModel SearchSpec.
From Coq Require Import List.
Notation run := HtabThm.run.

Lemma mapM_ok {A B} (f : A -> res B) (g : A -> B) l : (forall a, In a l -> f a = Ok (g a)) -> mapM f l = Ok (map g l).
Proof. induction l as [|a l IH]; intros H; [reflexivity|]. cbn [mapM map]. rewrite (H a) by (left; auto). cbn [bind]. rewrite IH by (intros; apply H; right; auto). reflexivity. Qed.
Lemma mapM_inv {A B} (f : A -> res B) l : forall r, mapM f l = Ok r -> length r = length l /\ forall i a, nth_error l i = Some a -> exists b, f a = Ok b /\ nth_error r i = Some b.
Proof.
  induction l as [|a l IH]; intros r E; cbn [mapM] in E; [injection E as <-; split; auto; intros [|i] ? H; discriminate|].
  destruct (f a) as [b| |] eqn:Fa; cbn [bind] in E; try discriminate. destruct (mapM f l) as [t| |]; cbn [bind] in E; try discriminate. injection E as <-.
  destruct (IH t eq_refl) as [L H]. split; [cbn; auto|]. intros [|i] a' Ha; cbn [nth_error] in *; [injection Ha as <-; eauto|apply H; auto].
Qed.
Lemma scan_ext {A B} (p : A -> bool) (q : B -> bool) l m : Forall2 (fun a b => p a = q b) l m -> scan p l = scan q m.
Proof. induction 1 as [|a b l m E _ IH]; cbn [scan]; auto. rewrite E, IH. reflexivity. Qed.
Lemma scan_range {A} (p : A -> bool) l : 0 <= scan p l <= Z.of_nat (length l).
Proof. induction l; cbn [scan length]; [lia|]. destruct (p a); lia. Qed.
Lemma scan_spec {A} (p : A -> bool) l i : scan p l = i <->
  (forall k a, nth_error l k = Some a -> Z.of_nat k < i -> p a = false) /\ (i = Z.of_nat (length l) \/ exists k a, i = Z.of_nat k /\ nth_error l k = Some a /\ p a = true).
Proof.
  revert i. induction l as [|a l IH]; intros i; cbn [scan length].
  - split; [intros <-; split; [intros [|k] ? H; discriminate|left; reflexivity]|]. intros [_ [ -> |(k&a&_&H&_)]]; [reflexivity|destruct k; discriminate].
  - destruct (p a) eqn:P.
    + split; [intros <-; split; [intros; lia|right; exists 0%nat, a; auto]|]. intros [H1 H2]. assert (D : i <= 0) by (destruct (Z.le_gt_cases i 0); auto; specialize (H1 0%nat a eq_refl ltac:(lia)); congruence).
      destruct H2 as [ -> |(k&b& -> &_)]; lia.
    + split.
      * intros <-. destruct (proj1 (IH (scan p l)) eq_refl) as [H1 H2]. split; [intros [|k] b Hb Hk; cbn [nth_error] in Hb; [congruence|apply (H1 k b Hb); lia]|].
        destruct H2 as [ -> |(k&b& -> &Hb&Pb)]; [left; lia|right; exists (S k), b; repeat split; auto; lia].
      * intros [H1 H2]. assert (scan p l = i - 1); [|lia]. apply IH. split; [intros k b Hb Hk; apply (H1 (S k) b Hb); lia|].
        destruct H2 as [ -> |(k&b& -> &Hb&Pb)]; [left; lia|]. destruct k as [|k]; cbn [nth_error] in Hb; [congruence|]. right. exists k, b. repeat split; auto; lia.
Qed.
Lemma scan_lt {A} (p : A -> bool) l : scan p l < Z.of_nat (length l) <-> existsb p l = true.
Proof. induction l; cbn [scan length existsb]; [split; [lia|discriminate]|]. destruct (p a); cbn [orb]; [split; auto; lia|]. rewrite <- IHl. lia. Qed.
Lemma Forall2_map_l {A B C} (R : C -> B -> Prop) (f : A -> C) l m : Forall2 (fun a b => R (f a) b) l m -> Forall2 R (map f l) m.
Proof. induction 1; cbn; auto. Qed.
Lemma Forall2_map_self {A B} (R : B -> A -> Prop) (f : A -> B) l : (forall a, In a l -> R (f a) a) -> Forall2 R (map f l) l.
Proof. induction l; cbn; intros H; auto. Qed.

(** ** Elements *)
Definition okh (h : hobj) : Prop := odata (erase h) /\ hflags_ok h.
Lemma getH_erase o i : getU (erase o) i = rmap erase (getH o i).
Proof.
  destruct o as [w|f sh ws|f sh t l|f sh l]; cbn [erase getU getH]; [reflexivity| | |apply rd_map].
  - destruct (bitz ws i) as [z| |]; cbn [bind rmap]; auto.
  - destruct (rd l i) as [z| |]; cbn [bind rmap]; auto. destruct (conv1 t EB z); reflexivity.
Qed.
Lemma hflags_box f sh l : hflags_ok (HBox f sh l) -> Forall hflags_ok l.
Proof. intros [_ H]. induction l as [|a l IH]; constructor; [apply H|apply IH, H]. Qed.
Lemma getH_ok o i : isAtom (erase o) = false -> okh o -> (i < length (oels (erase o)))%nat ->
  exists b, getH o i = Ok b /\ okh b /\ nth_error (oels (erase o)) i = Some (oden (erase b)) /\ (flat (erase o) -> exists u, b = HAtom u).
Proof.
  intros A [D F] L. destruct (getU_ok (erase o) i A D L) as (b&E&Db&N&Fl). rewrite getH_erase in E. destruct (getH o i) as [h| |] eqn:G; cbn [rmap] in E; try discriminate.
  injection E as <-. exists h. split; auto. split; [split; auto|split].
  - destruct o as [w|f sh ws|f sh t l|f sh l]; cbn [getH] in G; try discriminate.
    + destruct (bitz ws i); cbn [bind] in G; try discriminate. destruct (conv1 EBit EB a); cbn [bind] in G; try discriminate. injection G as <-. exact I.
    + destruct (rd l i); cbn [bind] in G; try discriminate. destruct (conv1 t EB a); cbn [bind] in G; try discriminate. injection G as <-. exact I.
    + apply hflags_box in F. unfold rd in G. destruct (nth_error l i) eqn:E; try discriminate. injection G as <-. rewrite Forall_forall in F. apply F. eapply nth_error_In; eauto.
  - rewrite <- N. apply nth_error_nth'. auto.
  - intros Hf. specialize (Fl Hf). destruct h; try discriminate. eauto.
Qed.
Definition isflat (o : hobj) : Prop := flat (erase o).
Lemma hlen o : isAtom (erase o) = false -> okh o -> Z.of_nat (length (oels (erase o))) = h_ia o.
Proof. intros A [[V _] _]. apply (oels_len (erase o) A V). Qed.
Lemma elems_ok o : isAtom (erase o) = false -> okh o -> exists l, elems o = Ok l /\ map (fun h => oden (erase h)) l = oels (erase o) /\ Forall okh l /\ Z.of_nat (length l) = h_ia o.
Proof.
  intros A O. pose proof (hlen o A O) as L. unfold elems. replace (Z.to_nat (h_ia o)) with (length (oels (erase o))) by lia.
  assert (M : forall k s, (s + k <= length (oels (erase o)))%nat -> exists l, mapM (getH o) (seq s k) = Ok l /\ map (fun h => oden (erase h)) l = firstn k (skipn s (oels (erase o))) /\ Forall okh l).
  { induction k as [|k IH]; intros s H; cbn [seq mapM]. { exists []; auto. }
    destruct (getH_ok o s A O ltac:(lia)) as (b&G&Ob&N&_). rewrite G. cbn [bind]. destruct (IH (S s) ltac:(lia)) as (l&M&E&Fl). rewrite M. cbn [bind]. exists (b :: l). split; auto.
    split; [|constructor; auto]. rewrite (skipn_nth _ _ _ N). cbn [firstn map]. rewrite E. reflexivity. }
  destruct (M _ 0%nat (le_n _)) as (l&E&D&F). exists l. split; auto. rewrite skipn_O, firstn_all in D. repeat split; auto. rewrite <- L, <- D, map_length. reflexivity.
Qed.

(** ** Comparison and hash of elements *)
Lemma EQH_ok a b : okh a -> okh b -> equal (erase a) (erase b) = Ok (EQH a b) /\ (EQH a b = true <-> SearchSpec.same (oden (erase a)) (oden (erase b))).
Proof. intros [A _] [B _]. unfold EQH. destruct (C16_match_exact _ _ A B) as (r&E&H). rewrite E. split; auto. Qed.
Lemma EQH_sym a b : okh a -> okh b -> EQH a b = true -> EQH b a = true.
Proof. intros A B. rewrite (proj2 (EQH_ok a b A B)), (proj2 (EQH_ok b a B A)). intros [E N]. split; congruence. Qed.
Lemma EQH_trans a b c : okh a -> okh b -> okh c -> EQH a b = true -> EQH b c = true -> EQH a c = true.
Proof. intros A B C. rewrite (proj2 (EQH_ok a b A B)), (proj2 (EQH_ok b c B C)), (proj2 (EQH_ok a c A C)). intros [E N] [E' N']. split; congruence. Qed.

Lemma Ok_inj {A} (a b : A) : Ok a = Ok b -> a = b. Proof. congruence. Qed.
Section H.
Context (cast : Z -> Z) (wyhash64 : Z -> Z -> Z) (wyhash : list Z -> Z -> list Z -> Z) (s0 s1 s2 s3 nan0 : Z) (junk : nat -> bool).
Hypothesis cast_good : cast_ok cast.
Hypothesis mix : mixers wyhash64 wyhash s3.
Notation HASH := (HASH cast wyhash64 wyhash s0 s1 s2 s3 nan0 junk).
Lemma HASH_eq a b : okh a -> okh b -> EQH a b = true -> HASH a = HASH b.
Proof.
  intros A B E. destruct (EQH_ok a b A B) as [Q _]. rewrite E in Q. destruct A as [A1 A2], B as [B1 B2]. destruct mix as (M1&M2&M3).
  destruct (C11_match_hashP cast cast_good wyhash64 wyhash s0 s1 s2 s3 nan0 junk junk a b ltac:(lia) A1 B1 A2 B2 Q) as (h&_&H1&H2). unfold SearchModel.HASH. rewrite H1, H2. reflexivity.
Qed.
Lemma hash_arr_pos o hs h : hash_arr cast wyhash64 wyhash s0 s1 s2 s3 nan0 junk o hs = Ok h -> 0 <= h.
Proof.
  destruct mix as (M1&M2&M3). unfold hash_arr. cbv zeta. destruct (prod (h_shape o) =? 0); [intros E; apply Ok_inj in E; subst h; lia|].
  destruct (to_arr o) as [a| |]; cbn [bind]; try discriminate. destruct (squeeze_any cast a) as [r| |]; cbn [bind]; try discriminate.
  match goal with |- bind ?x _ = _ -> _ => destruct x end; cbn [bind]; try discriminate. intros E; apply Ok_inj in E; subst h. apply M2.
Qed.
Lemma HASH_pos a : 0 < HASH a.
Proof.
  destruct mix as (M1&M2&M3). unfold SearchModel.HASH, bqn_hashP. destruct (bqn_hash cast wyhash64 wyhash s0 s1 s2 s3 nan0 junk a) as [h| |] eqn:E; cbn [bind]; try lia.
  assert (0 <= h); [|destruct (Z.eqb_spec h 0); lia]. destruct a as [u|f sh ws|f sh t l|f sh l]; cbn [bqn_hash] in E; try (apply hash_arr_pos in E; exact E).
  unfold hash_atom in E. destruct (negb (is_nan u)); [injection E as <-; apply M1|]. destruct (isVal u); [discriminate|]. destruct (_ =? _); injection E as <-; apply M1.
Qed.

(** ** The hash path of Index-of and Member-of *)
Lemma fold_run {V A} (rq : A -> req hobj V) (f : HtabModel.map hobj V -> A -> res (HtabModel.map hobj V)) rest :
  (forall m a x m', step hobj V EQH HASH m (rq a) = Ok (x, m') -> f m a = Ok m') ->
  forall l m ans, run hobj V EQH HASH m (map rq l ++ rest) = Ok ans -> exists m', foldM f l m = Ok m' /\ run hobj V EQH HASH m' rest = Ok (skipn (length l) ans).
Proof.
  intros Hf. unfold foldM. induction l as [|a l IH]; intros m ans E; cbn [map app fold_left length skipn] in *; [eauto|].
  cbn [run] in E. destruct (step hobj V EQH HASH m (rq a)) as [[x m']| |] eqn:S1; cbn [bind] in E; try discriminate. destruct (run hobj V EQH HASH m' (map rq l ++ rest)) as [t| |] eqn:R; cbn [bind] in E; try discriminate.
  apply Ok_inj in E. subst ans. cbn [skipn bind]. rewrite (Hf m a x m' S1). apply IH. exact R.
Qed.
Lemma get_run {V A} (rq : A -> req hobj V) (g : HtabModel.map hobj V -> A -> res (ans V)) :
  (forall m a x m', step hobj V EQH HASH m (rq a) = Ok (x, m') -> g m a = Ok x /\ m' = m) ->
  forall l m a, run hobj V EQH HASH m (map rq l) = Ok a -> mapM (g m) l = Ok a.
Proof.
  intros Hg. induction l as [|k l IH]; intros m a E; cbn [map run mapM] in *; [exact E|].
  destruct (step hobj V EQH HASH m (rq k)) as [[x m']| |] eqn:S1; cbn [bind] in E; try discriminate. destruct (Hg m k x m' S1) as [-> ->]. cbn [bind].
  destruct (run hobj V EQH HASH m (map rq l)) as [t| |] eqn:R; cbn [bind] in E; try discriminate. rewrite (IH m t R). exact E.
Qed.
Definition sstate {V} (f : fmap hobj V) (l : list (req hobj V)) : fmap hobj V := fold_left (fun f r => snd (spec_step hobj V EQH f r)) l f.
Lemma sstate_cons {V} (f : fmap hobj V) r l : sstate f (r :: l) = sstate (snd (spec_step hobj V EQH f r)) l. Proof. reflexivity. Qed.
Lemma spec_skip {V} l : forall (f : fmap hobj V) rest, skipn (length l) (spec_run hobj V EQH f (l ++ rest)) = spec_run hobj V EQH (sstate f l) rest.
Proof.
  induction l as [|r l IH]; intros f rest; cbn [length skipn app spec_run sstate fold_left]; [reflexivity|]. destruct (spec_step hobj V EQH f r) as [a f'] eqn:E. cbn [skipn snd]. apply IH.
Qed.
Lemma hrun {V} l : Forall (fun r : req hobj V => okh (rkey r)) l -> run hobj V EQH HASH (m_new hobj V (2 ^ 6)) l = Ok (spec_run hobj V EQH (fun _ => None) l).
Proof.
  intros F. apply (run_on hobj V okh EQH HASH 6 l EQH_sym EQH_trans HASH_eq (fun k _ => HASH_pos k)); [lia|exact F].
Qed.
(** a map that does not distinguish equal keys *)
Definition respects {V} (f : fmap hobj V) : Prop := forall a b, okh a -> okh b -> EQH a b = true -> f a = f b.
Lemma EQH_cong a b c : okh a -> okh b -> okh c -> EQH b c = true -> EQH a b = EQH a c.
Proof.
  intros A B C E. destruct (EQH a b) eqn:E1, (EQH a c) eqn:E2; auto. - rewrite (EQH_trans a b c A B C E1 E) in E2. discriminate.
  - apply (EQH_sym b c B C) in E. rewrite (EQH_trans a c b A C B E2 E) in E1. discriminate.
Qed.
Lemma fset_respects {V} (f : fmap hobj V) k v : okh k -> respects f -> respects (fset hobj V EQH f k v).
Proof. intros K R a b A B E. unfold fset. rewrite (EQH_cong k a b K A B E), (R a b A B E). reflexivity. Qed.
Lemma mkget_state l : forall s (f : fmap hobj Z), Forall okh l -> respects f -> forall k, okh k ->
  sstate f (map (fun ki => MkGet hobj Z (fst ki) (Z.of_nat (snd ki))) (combine l (seq s (length l)))) k =
  match f k with Some v => Some v | None => let i := scan (fun a => EQH a k) l in if i <? Z.of_nat (length l) then Some (Z.of_nat s + i) else None end.
Proof.
  induction l as [|a l IH]; intros s f F R k K; cbn [length seq combine map scan]. { destruct (f k) eqn:E; unfold sstate; cbn [fold_left]; rewrite E; reflexivity. }
  apply Forall_cons_iff in F. destruct F as [A F]. rewrite sstate_cons. cbn [spec_step fst snd].
  destruct (f a) as [v|] eqn:Fa; cbn [snd].
  - rewrite (IH (S s) f F R k K). destruct (f k) eqn:Fk; auto. destruct (EQH a k) eqn:E; [rewrite (R a k A K E) in Fa; congruence|]. cbv zeta.
    pose proof (scan_range (fun a => EQH a k) l). destruct (Z.ltb_spec (scan (fun a => EQH a k) l) (Z.of_nat (length l))), (Z.ltb_spec (1 + scan (fun a => EQH a k) l) (Z.of_nat (S (length l)))); try lia; auto. f_equal. lia.
  - rewrite (IH (S s) _ F (fset_respects f a (Z.of_nat s) A R) k K). unfold fset. destruct (EQH a k) eqn:E.
    + rewrite (R a k A K E) in Fa. rewrite Fa. cbv zeta. destruct (Z.ltb_spec 0 (Z.of_nat (S (length l)))); [f_equal; lia|lia].
    + destruct (f k) eqn:Fk; auto. cbv zeta.
      pose proof (scan_range (fun a => EQH a k) l). destruct (Z.ltb_spec (scan (fun a => EQH a k) l) (Z.of_nat (length l))), (Z.ltb_spec (1 + scan (fun a => EQH a k) l) (Z.of_nat (S (length l)))); try lia; auto. f_equal. lia.
Qed.
Definition pos_in (wl : list hobj) (x : hobj) : Z := scan (fun a => EQH a x) wl.
Lemma combine_seq_In {A} (l : list A) : forall s a i, In (a, i) (combine l (seq s (length l))) -> (s <= i < s + length l)%nat /\ In a l.
Proof. induction l as [|b l IH]; intros s a i H; cbn [length seq combine] in H; [destruct H|]. destruct H as [E|H]; [injection E as <- <-; split; [cbn; lia|left; auto]|]. apply IH in H. destruct H. split; [cbn; lia|right; auto]. Qed.
Lemma foldM_ext {A S} (f g : S -> A -> res S) l : (forall s a, In a l -> f s a = g s a) -> forall s, foldM f l s = foldM g l s.
Proof.
  intros H s. unfold foldM. revert H. generalize (Ok s). induction l as [|a l IH]; intros r H; cbn [fold_left]; auto. rewrite IH by (intros; apply H; right; auto). f_equal. destruct r; cbn [bind]; auto. apply H. left; auto.
Qed.
Lemma mapM_ext {A B} (f g : A -> res B) l : (forall a, In a l -> f a = g a) -> mapM f l = mapM g l.
Proof. induction l as [|a l IH]; intros H; cbn [mapM]; auto. rewrite (H a) by (left; auto). rewrite IH by (intros; apply H; right; auto). reflexivity. Qed.
Lemma mapM_comp {A B C} (f : A -> res B) (h : B -> C) l r : mapM f l = Ok r -> mapM (fun a => do b <- f a; Ok (h b)) l = Ok (map h r).
Proof.
  revert r. induction l as [|a l IH]; intros r E; cbn [mapM] in *; [apply Ok_inj in E; subst; auto|]. destruct (f a); cbn [bind] in *; try discriminate. destruct (mapM f l) as [t| |]; cbn [bind] in E; try discriminate. apply Ok_inj in E. subst r.
  rewrite (IH t eq_refl). reflexivity.
Qed.
Lemma indexOf_gen_ok wl xl : Forall okh wl -> Forall okh xl -> Z.of_nat (length wl) < 2^31 ->
  indexOf_gen cast wyhash64 wyhash s0 s1 s2 s3 nan0 junk wl xl = Ok (map (pos_in wl) xl).
Proof.
  intros W X L. unfold indexOf_gen. cbv zeta.
  pose (rq := fun ki : hobj * nat => MkGet hobj Z (fst ki) (Z.of_nat (snd ki))). pose (rest := map (fun x => GetD hobj Z x (Z.of_nat (length wl))) xl).
  assert (O : Forall (fun r : req hobj Z => okh (rkey r)) (map rq (combine wl (seq 0 (length wl))) ++ rest)).
  { apply Forall_app. split; apply Forall_forall; intros r H; apply in_map_iff in H.
    - destruct H as ([a i]&<-&H). cbn. apply combine_seq_In in H. rewrite Forall_forall in W. apply W, H.
    - destruct H as (x&<-&H). cbn. rewrite Forall_forall in X. auto. }
  apply hrun in O.
  rewrite (foldM_ext _ (fun m ki => do (m, _) <- mk_get hobj Z EQH HASH m (fst ki) (Z.of_nat (snd ki)); Ok m)).
  2: { intros s [a i] H. apply combine_seq_In in H. cbn [fst snd]. rewrite to_s_id by lia. reflexivity. }
  destruct (fold_run rq (fun m ki => do (m, _) <- mk_get hobj Z EQH HASH m (fst ki) (Z.of_nat (snd ki)); Ok m) rest) with (2 := O) as (m'&Fm&R).
  { intros m a x m1 E. unfold rq in E. cbn [step] in E. destruct (mk_get hobj Z EQH HASH m (fst a) (Z.of_nat (snd a))) as [[m2 y]| |]; cbn [bind] in *; try discriminate. congruence. }
  rewrite Fm. cbn [bind]. rewrite to_s_id by lia.
  assert (G : mapM (fun x => do v <- getD hobj Z EQH HASH m' x (Z.of_nat (length wl)); Ok (AV Z v)) xl = Ok (skipn (length (combine wl (seq 0 (length wl)))) (spec_run hobj Z EQH (fun _ => None) (map rq (combine wl (seq 0 (length wl))) ++ rest)))).
  { apply (get_run (fun x => GetD hobj Z x (Z.of_nat (length wl))) (fun m x => do v <- getD hobj Z EQH HASH m x (Z.of_nat (length wl)); Ok (AV Z v))); [|exact R].
    intros m a x m1 E. cbn [step] in E. destruct (getD hobj Z EQH HASH m a _) as [v| |]; cbn [bind] in *; try discriminate. split; congruence. }
  rewrite <- (map_length rq (combine wl _)), spec_skip in G.
  assert (S1 : spec_run hobj Z EQH (sstate (fun _ => None) (map rq (combine wl (seq 0 (length wl))))) rest = map (fun x => AV Z (pos_in wl x)) xl).
  { unfold rest. assert (FS : forall k, okh k -> dflt Z (sstate (fun _ => None) (map rq (combine wl (seq 0 (length wl)))) k) (Z.of_nat (length wl)) = pos_in wl k).
    { intros k K. unfold rq. rewrite (mkget_state wl 0%nat (fun _ => None) W); auto; [|intros ? ? _ _ _; reflexivity]. cbv zeta. fold (pos_in wl k).
      pose proof (scan_range (fun a => EQH a k) wl) as SR. fold (pos_in wl k) in SR. destruct (Z.ltb_spec (pos_in wl k) (Z.of_nat (length wl))); cbn [dflt]; lia. }
    revert FS. generalize (sstate (fun _ : hobj => @None Z) (map rq (combine wl (seq 0 (length wl))))). intros f FS. clear - X FS.
    induction X as [|x l Hx _ IH]; cbn [map spec_run spec_step]; auto. rewrite IH, FS by auto. reflexivity. }
  rewrite S1 in G. apply (mapM_comp _ (fun a => match a with AV _ v => v | _ => 0 end)) in G.
  rewrite map_map in G. etransitivity; [|exact G]. apply mapM_ext. intros a _. destruct (getD _ _ _ _ _ _ _); reflexivity.
Qed.
End H.
