From Verif Require Import Base BitsModel BitsSpec SqueezeModel ReuseModel MutModel MutSpec MutProof MutProof2 MutProof3 MutProof4.
From Coq Require Import List Lia ZArith.
Import ListNotations.
Open Scope Z_scope.

Definition cf (e : el) : val := if elNum e then VNum 0 else VChr 32.
(** not a unit array of values *)
Definition plain (x : src) : Prop := match x with Arr [] s _ => st_el s <> EB | _ => True end.
Definition has (g : val) (x : src) : Prop := getFill x = Some g.
Lemma val_eqb_eq a b : val_eqb a b = true <-> a = b.
Proof. destruct a, b; cbn; try (split; congruence); rewrite Z.eqb_eq; split; congruence. Qed.
Lemma or_fill_iff f x g : or_fill f x = Some g <-> f = Some g /\ has g x.
Proof.
  unfold or_fill, fillEqualsGetFill, has. destruct f as [f0|]; [|split; [discriminate|intros [? _]; discriminate]].
  destruct (getFill x) as [y|] eqn:E; [|split; [discriminate|intros [_ ?]; discriminate]]. destruct (val_eqb f0 y) eqn:V.
  - apply val_eqb_eq in V. subst y. split; [intros H; split; [exact H|congruence]|intros [H _]; exact H].
  - split; [discriminate|]. intros [H1 H2]. assert (f0 = y) by congruence. apply val_eqb_eq in H. congruence.
Qed.
Lemma typed_fill e s sh f : e <> EB -> tarr e (st_el s) = true -> getFill (Arr sh s f) = Some (cf e).
Proof. cbn [getFill]. intros N H. apply tarr_iff in H. unfold cf. destruct e, (st_el s); cbn in *; congruence. Qed.
Lemma atom_fill e v : e <> EB -> fits e v = true -> getFill (Atom v) = Some (cf e).
Proof. unfold cf. destruct e, v; cbn; congruence. Qed.
Lemma unit_fill e v s sh f : e <> EB -> st_el s <> EB -> fits e v = true -> fits (st_el s) v = true -> getFill (Arr sh s f) = Some (cf e).
Proof. cbn [getFill]. unfold cf. destruct e, (st_el s), v; cbn; congruence. Qed.
Lemma cf_or e x : el_or e x <> EB -> cf (el_or e x) = cf e.
Proof. unfold cf. destruct e, x; cbn; congruence. Qed.
Lemma is_B_iff e : is_B e = true <-> e = EB. Proof. destruct e; cbn; split; congruence. Qed.
Lemma is_B_no e : is_B e = false <-> e <> EB. Proof. destruct e; cbn; split; congruence. Qed.

Section Fill.
Variable mk : el -> nat -> store.
Hypothesis Hmk : fresh mk.
Definition FI (a : apd) (xs : list src) : Prop :=
  if is_B (st_el (a_st a)) then (a_keep a = true \/ a_fill a = None) /\ forall g, a_fill a = Some g <-> Forall (has g) xs
  else Forall (has (cf (st_el (a_st a)))) xs.
Definition filling (k : kind) : Prop := match k with Sh0 | Sh1 _ | Sh2 _ => True | _ => False end.

(** what a successful append does to the fill *)
Lemma try_fill a l x xl a' : good a l -> filling (a_kind a) -> elems_of x xl -> plain x -> try_apd a x = Ok (Some (Some a')) ->
  a_keep a' = a_keep a /\ a_fill a' = (if is_B (st_el (a_st a)) then or_fill (a_fill a) x else a_fill a) /\ (st_el (a_st a) <> EB -> has (cf (st_el (a_st a))) x).
Proof.
  intros G Hk He Hpl. unfold try_apd.
  assert (HA : forall b v, (if fits (st_el (a_st a)) v then do a0 <- put_atom b v; Ok (Some (Some a0)) else Ok None) = Ok (Some (Some a')) -> a_keep a' = a_keep b /\ a_fill a' = a_fill b /\ fits (st_el (a_st a)) v = true).
  { intros b v. destruct (fits (st_el (a_st a)) v); [|discriminate]. unfold put_atom. destruct (setG (a_st b) (a_pos b) v); cbn [bind]; try discriminate. intros E. injection E as <-. auto. }
  assert (HR : forall sh s f, (if tarr (st_el (a_st a)) (st_el s) then do a0 <- put_arr a s (prod sh) f; Ok (Some (Some a0)) else Ok None) = Ok (Some (Some a')) -> a_keep a' = a_keep a /\ a_fill a' = f /\ tarr (st_el (a_st a)) (st_el s) = true).
  { intros sh s f. destruct (tarr (st_el (a_st a)) (st_el s)); [|discriminate]. unfold put_arr. destruct (copyG (a_st a) (a_pos a) s 0 (prod sh)); cbn [bind]; try discriminate. intros E. injection E as <-. auto. }
  destruct (a_kind a) as [| |cia|csh|csh] eqn:Ek; try contradiction.
  - destruct (sh_chk Sh0 x) eqn:C; [|discriminate]. set (b := if is_B (st_el (a_st a)) then upd_apd a (a_st a) (a_pos a) (or_fill (a_fill a) x) else a).
    assert (Kb : a_keep b = a_keep a) by (unfold b; destruct (is_B _); reflexivity).
    assert (Fb : a_fill b = if is_B (st_el (a_st a)) then or_fill (a_fill a) x else a_fill a) by (unfold b; destruct (is_B _); reflexivity).
    destruct x as [v|sh s f].
    + intros E. destruct (HA b v E) as (H1 & H2 & H3). split; [congruence|]. split; [congruence|]. intros N. apply atom_fill; assumption.
    + cbn [sh_chk] in C. apply Nat.eqb_eq in C. destruct sh; [|discriminate]. destruct He as [Hs S]. cbn [prod fold_right] in Hs. destruct xl as [|v [|? ?]]; cbn [length] in Hs; try lia.
      pose proof S as [Rs Cs]. rewrite (Cs O v eq_refl). cbn [bind]. intros E. destruct (HA b v E) as (H1 & H2 & H3). split; [congruence|]. split; [congruence|]. intros N.
      destruct (getU_ok s 1 0 Rs ltac:(lia)) as [_ F]. rewrite (src_look s [v] 0 v S eq_refl) in F. apply (unit_fill _ v); assumption.
  - destruct (sh_chk (Sh1 cia) x) eqn:C; [|discriminate]. destruct x as [v|sh s f]; [discriminate|]. intros E. destruct (HR _ _ _ E) as (H1 & H2 & H3). split; [exact H1|]. split; [exact H2|]. intros N. apply typed_fill; assumption.
  - destruct (sh_chk (Sh2 csh) x) eqn:C; [|discriminate]. destruct x as [v|sh s f]; [discriminate|]. intros E. destruct (HR _ _ _ E) as (H1 & H2 & H3). split; [exact H1|]. split; [exact H2|]. intros N. apply typed_fill; assumption.
Qed.
Lemma Forall_snoc {A} (P : A -> Prop) l x : Forall P (l ++ [x]) <-> Forall P l /\ P x.
Proof. rewrite Forall_app. split; [intros [H1 H2]; split; [exact H1|inversion H2; assumption]|intros [H1 H2]; split; [exact H1|constructor; [exact H2|constructor]]]. Qed.
Lemma step_fill a l x xl a' xs : good a l -> okind (a_kind a) -> filling (a_kind a) -> sh_chk (a_kind a) x = true -> elems_of x xl -> (length l + length xl <= a_tia a)%nat -> plain x -> xs <> [] ->
  FI a xs -> apd_step mk a x = Ok (Run a') -> FI a' (xs ++ [x]).
Proof.
  intros G Hok Hk Hc He Hl Hpl Hne HF. unfold apd_step. destruct (try_ok a l x xl G Hok Hc He Hl) as [(b & E & Gb & Sb & Tb)|(E & N)]; rewrite E; cbn [bind].
  - intros Q. injection Q as <-. destruct (try_fill a l x xl b G Hk He Hpl E) as (H1 & H2 & H3). unfold FI in *. rewrite Tb. destruct (is_B (st_el (a_st a))) eqn:B.
    + destruct HF as [F1 F2]. split.
      * rewrite H1, H2. destruct F1 as [F1|F1]; [left; exact F1|right; rewrite F1; reflexivity].
      * intros g. rewrite H2, or_fill_iff, F2, Forall_snoc. reflexivity.
    + apply Forall_snoc. split; [exact HF|]. apply H3. apply is_B_no. exact B.
  - destruct (widen_ok mk Hmk a l x G N) as (b & Eb & Gb & Sb & Tb). rewrite Eb. cbn [bind]. pose proof Sb as (K & T & _).
    assert (Hb : st_el (a_st a) <> EB) by (intros Q; apply N; rewrite Q; apply or_B). assert (HaB : is_B (st_el (a_st a)) = false) by (apply is_B_no; exact Hb).
    destruct (try_ok b l x xl Gb) as [(c & E' & G' & S' & Tc)|(E' & N')]; try assumption; try (rewrite K; assumption); try (rewrite T; assumption).
    + rewrite E'. cbn [bind]. intros Q. injection Q as <-. assert (Hkb : filling (a_kind b)) by (rewrite K; exact Hk). destruct (try_fill b l x xl c Gb Hkb He Hpl E') as (H1 & H2 & H3).
      unfold FI in HF. rewrite HaB in HF. unfold FI. rewrite Tc. destruct (is_B (st_el (a_st b))) eqn:B.
      * assert (HB : el_or (st_el (a_st a)) (el_of x) = EB) by (rewrite <- Tb; apply is_B_iff; exact B).
        assert (Fb : a_fill b = (if fillEqualsGetFill (cf (st_el (a_st a))) x then Some (cf (st_el (a_st a))) else None) /\ (a_keep b = true \/ a_fill b = None)).
        { unfold apd_widen in Eb. rewrite (or_comm (el_of x)), HB in Eb. cbn [is_B] in Eb. destruct (is_B (st_el (a_st a)) || (elc (st_el (a_st a)) =? elc EB)); [discriminate|].
          fold (cf (st_el (a_st a))) in Eb. destruct (fillEqualsGetFill (cf (st_el (a_st a))) x).
          - destruct (copyG (mk EB (a_tia a)) 0 (a_st a) 0 (a_pos a)); cbn [bind] in Eb; try discriminate. injection Eb as <-. cbn. auto.
          - destruct (copyG (mk EB (a_tia a)) 0 (a_st a) 0 (a_pos a)); cbn [bind] in Eb; try discriminate. injection Eb as <-. cbn. auto. }
        destruct Fb as [Fb Kb]. split; [rewrite H1, H2; destruct Kb as [Kb|Kb]; [left; exact Kb|right; rewrite Kb; reflexivity]|].
        intros g. rewrite H2, or_fill_iff, Fb, Forall_snoc. unfold fillEqualsGetFill, has. destruct (getFill x) as [y|] eqn:Ey.
        -- destruct (val_eqb (cf (st_el (a_st a))) y) eqn:V.
           ++ apply val_eqb_eq in V. subst y. split; [intros [Q _]; injection Q as <-; split; [exact HF|reflexivity]|intros [_ Q]; split; congruence].
           ++ split; [intros [Q _]; discriminate|]. intros [Q1 Q2]. exfalso. destruct xs as [|x0 xs]; [congruence|]. inversion HF as [|? ? V1 _]; subst. inversion Q1 as [|? ? V2 _]; subst. unfold has in *.
              assert (Qe : cf (st_el (a_st a)) = y) by congruence. apply val_eqb_eq in Qe. congruence.
        -- split; [intros [Q _]; discriminate|intros [_ Q]; discriminate].
      * apply is_B_no in B. assert (Q : cf (st_el (a_st b)) = cf (st_el (a_st a))) by (rewrite Tb; apply cf_or; rewrite <- Tb; exact B).
        apply Forall_snoc. split; [rewrite Q; exact HF|]. apply H3. exact B.
    + exfalso. apply N'. rewrite Tb. apply or_idem.
Qed.
Lemma rest_fill ys : forall ls a l xs a', good a l -> okind (a_kind a) -> filling (a_kind a) -> Forall (fun x => sh_chk (a_kind a) x = true) ys -> Forall2 elems_of ys ls -> (length l + length (concat ls) <= a_tia a)%nat ->
  Forall plain ys -> xs <> [] -> FI a xs -> apd_rest mk (Run a) ys = Ok (Run a') -> FI a' (xs ++ ys).
Proof.
  induction ys as [|y ys IH]; intros ls a l xs a' G Hok Hk Hc He Hl Hpl Hne HF; inversion He as [|? xl ? ls' E1 E2]; subst; cbn [apd_rest].
  - intros Q. injection Q as <-. rewrite app_nil_r. exact HF.
  - inversion Hc as [|? ? C1 C2]; subst. inversion Hpl as [|? ? P1 P2]; subst. cbn [concat] in Hl. rewrite app_length in Hl.
    destruct (step_ok mk Hmk a l y xl G Hok C1 E1 ltac:(lia)) as (b & E & Gb & K & T & R). pose proof (step_fill a l y xl b xs G Hok Hk C1 E1 ltac:(lia) P1 Hne HF E) as Fb. rewrite E. cbn [bind]. intros Q.
    replace (xs ++ y :: ys) with ((xs ++ [y]) ++ ys) by (rewrite <- app_assoc; reflexivity).
    apply (IH ls' b (l ++ xl) (xs ++ [y]) a'); try assumption; try (rewrite K; assumption); [rewrite T, app_length; lia|destruct xs; discriminate].
Qed.
Lemma B_getFill a x : st_el (a_st a) = EB -> getFill (Arr x (a_st a) (a_fill a)) = a_fill a.
Proof. intros H. cbn [getFill]. rewrite H. reflexivity. Qed.
(** the first append *)
Lemma init_fill rsh0 x xl a : Z.of_nat (prod rsh0) < 2 ^ 32 -> (0 < prod rsh0)%nat -> elems_of x xl -> prod (shape_of x) <> O -> apd_sh_init mk rsh0 x = Ok (Run a) -> FI a [x].
Proof.
  intros Hr Hp He Hz. unfold apd_sh_init. rewrite rsh_wrap by exact Hr. destruct x as [v|sh s f]; cbn [shape_of elems_of] in *.
  - set (a0 := {| a_kind := Sh0; a_st := mk (self_el v) (prod rsh0); a_tia := prod rsh0; a_pos := 0; a_fill := if is_B (self_el v) then getFill (Atom v) else None; a_keep := is_B (self_el v); a_rsh := rsh0 |}).
    assert (G0 : good a0 []). { split; [apply Hmk|]. split; [reflexivity|]. split; [cbn; lia|]. intros [|i] y Hi; discriminate. }
    assert (Es : st_el (a_st a0) = self_el v) by (cbn [a0 a_st]; apply Hmk).
    subst xl. unfold apd_step. destruct (try_ok a0 [] (Atom v) [v] G0 I eq_refl eq_refl ltac:(cbn [length a_tia a0]; lia)) as [(b & E & Gb & Sb & Tb)|(E & N)]; rewrite E; cbn [bind].
    + intros Q. injection Q as <-. destruct (try_fill a0 [] (Atom v) [v] b G0 I eq_refl I E) as (H1 & H2 & H3). unfold FI. rewrite Tb. rewrite Es in *. destruct (is_B (self_el v)) eqn:B.
      * split; [left; rewrite H1; reflexivity|]. intros g. rewrite H2, or_fill_iff. cbn [a0 a_fill]. unfold has. split; [intros [Q _]; constructor; [exact Q|constructor]|intros Q; inversion Q; subst; auto].
      * constructor; [|constructor]. apply H3. apply is_B_no. exact B.
    + exfalso. apply N. rewrite Es. apply or_same.
  - destruct He as [Hs S].
    assert (HF : forall k n fi kp rsh r, copyG (mk (st_el s) n) 0 s 0 (length xl) = Ok r -> (length xl <= n)%nat -> fi = (if is_B (st_el s) then getFill (Arr sh s f) else None) -> kp = is_B (st_el s) ->
      FI {| a_kind := k; a_st := r; a_tia := n; a_pos := length xl; a_fill := fi; a_keep := kp; a_rsh := rsh |} [Arr sh s f]).
    { intros k n fi kp rsh r E Hn -> ->. destruct (start_ok mk Hmk k s xl n None false rsh S Hn) as (r' & E' & Er & _). assert (r = r') by congruence. subst r'. unfold FI. cbn [a_st a_keep a_fill]. rewrite Er. destruct (is_B (st_el s)) eqn:B.
      - split; [left; reflexivity|]. intros g. unfold has. split; [intros Q; constructor; [exact Q|constructor]|intros Q; inversion Q; assumption].
      - constructor; [|constructor]. unfold has. apply typed_fill; [apply is_B_no; exact B|]. apply tarr_iff. apply or_same. }
    destruct (Nat.eqb_spec (length sh) 0) as [Z|Z].
    + destruct sh; [|discriminate]. cbn [prod fold_right] in Hs. rewrite <- Hs. destruct (copyG (mk (st_el s) (prod rsh0)) 0 s 0 (length xl)) as [r| |] eqn:E; cbn [bind]; try discriminate. intros Q. injection Q as <-. apply HF; try reflexivity; [exact E|lia].
    + destruct (255 <? length rsh0 + length sh)%nat; [discriminate|]. destruct (2 ^ 32 <=? Z.of_nat (prod rsh0) * Z.of_nat (prod sh)); [discriminate|].
      set (k := if (prod sh =? 0)%nat then ShE sh else if (length sh =? 1)%nat then Sh1 (prod sh) else Sh2 sh). rewrite <- Hs.
      destruct (copyG (mk (st_el s) (prod rsh0 * length xl)) 0 s 0 (length xl)) as [r| |] eqn:E; cbn [bind]; try discriminate. intros Q. injection Q as <-. apply HF; try reflexivity; [exact E|nia].
Qed.
Lemma merge_fill rsh0 xs ls sh s f rs : Forall2 elems_of xs ls -> Forall (fun x => shape_of x = sh) xs -> Forall plain xs -> prod sh <> O -> length xs = prod rsh0 -> (0 < prod rsh0)%nat -> Z.of_nat (prod rsh0) < 2 ^ 32 -> Z.of_nat (prod rsh0) * Z.of_nat (prod sh) < 2 ^ 32 ->
  (sh = [] \/ (length rsh0 + length sh <= 255)%nat) -> build_sh mk rsh0 xs = Ok (rs, s, f) -> forall g, getFill (Arr rs s f) = Some g <-> Forall (has g) xs.
Proof.
  intros He Hs Hpl Hz Hn Hp Hr Ht Hk. destruct xs as [|x xs]; [cbn in Hn; lia|]. pose proof (total _ _ _ He Hs) as Htot. inversion He as [|? xl ? ls' E1 E2]; subst. inversion Hs as [|? ? S1 S2]; subst. inversion Hpl as [|? ? P1 P2]; subst.
  unfold build_sh. destruct (init_ok mk Hmk rsh0 x xl Ht Hr Hp Hk E1) as (a & E & G & K & T & R). pose proof (init_fill rsh0 x xl a Hr Hp E1 Hz E) as F0. rewrite E. cbn [bind].
  assert (Hfi : filling (a_kind a)). { rewrite K. unfold kind_for. destruct (length (shape_of x) =? 0)%nat; [exact I|]. destruct (Nat.eqb_spec (prod (shape_of x)) 0); [congruence|]. destruct (length (shape_of x) =? 1)%nat; exact I. }
  assert (Hok : okind (a_kind a)) by (rewrite K; apply kind_ok).
  assert (Hch : Forall (fun y => sh_chk (a_kind a) y = true) xs) by (rewrite K; eapply Forall_impl; [|exact S2]; intros y Hy; apply chk_iff; exact Hy).
  assert (Hcap : (length xl + length (concat ls') <= a_tia a)%nat) by (rewrite T, <- Hn, <- Htot; cbn [concat]; rewrite app_length; lia).
  destruct (rest_ok mk Hmk xs ls' a xl G Hok Hch E2 Hcap) as (a' & E' & G' & K' & T' & R').
  pose proof (rest_fill xs ls' a xl [x] a' G Hok Hfi Hch E2 Hcap P2 ltac:(discriminate) F0 E') as F1. rewrite E'. cbn [bind]. intros Q. injection Q as <- <- <-.
  intros g. unfold FI in F1. cbn [app] in F1. destruct (is_B (st_el (a_st a'))) eqn:B.
  - apply is_B_iff in B. destruct F1 as [F1 F2]. cbn [andb]. rewrite <- F2. cbn [getFill]. rewrite B. cbn [elNum elChr elc Z.leb Z.compare andb]. destruct F1 as [->|F1]; [reflexivity|]. rewrite F1. destruct (a_keep a'); reflexivity.
  - cbn [andb]. assert (Q : getFill (Arr (a_rsh a') (a_st a') None) = Some (cf (st_el (a_st a')))) by (apply typed_fill; [apply is_B_no; exact B|apply tarr_iff; apply or_same]). rewrite Q. split.
    + intros V. injection V as <-. exact F1.
    + intros V. inversion V as [|? ? V1 _]; subst. inversion F1 as [|? ? V2 _]; subst. unfold has in *. congruence.
Qed.
End Fill.
