From Verif Require Import Base BitsModel BitsSpec BitsProof BitsProof2 TagModel TagSpec TagProof NumSpec NumProof ArrSpec DataSpec SqueezeModel SqueezeSpec SqueezeProof MatchModel MatchSpec MatchProof MatchProof2 ListLib HashModel HashSpec HashProof HtabMap SearchModel SearchSpec SearchProof SearchChain SearchFlat.
From Coq Require Import List.

(** ** Lookup tables *)
Section Tab.
Variable t : Z.
Hypothesis t_pos : 0 < t.
Let iv (v : Z) : nat := Z.to_nat (t / 2 + v).
Let inr (v : Z) : Prop := - (t / 2) <= v < t - t / 2.
Lemma iv_lt v : inr v -> (iv v < Z.to_nat t)%nat. Proof. unfold inr, iv. lia. Qed.
Lemma iv_inj v w : inr v -> inr w -> iv v = iv w -> v = w. Proof. unfold inr, iv. lia. Qed.
Lemma wr_iv {A} (tab : list A) v c : inr v -> length tab = Z.to_nat t -> wr tab (iv v) c = Ok (upd tab (iv v) c).
Proof. intros V L. apply wr_ok'. rewrite L. apply iv_lt; auto. Qed.
Lemma fill_ok {A} (g : A -> Z) c (l : list A) : Forall (fun a => inr (g a)) l -> forall tab : list (option Z), length tab = Z.to_nat t ->
  exists tab', fold_left (fun t a => do t <- t; wr t (iv (g a)) c) l (Ok tab) = Ok tab' /\ length tab' = Z.to_nat t /\
    forall v, inr v -> nth_error tab' (iv v) = if existsb (fun a => g a =? v) l then Some c else nth_error tab (iv v).
Proof.
  induction 1 as [|a l Ha F IH]; intros tab L; cbn [fold_left existsb]. { exists tab. auto. }
  cbn [bind]. rewrite wr_iv by auto. destruct (IH (upd tab (iv (g a)) c) ltac:(rewrite upd_length; auto)) as (tab'&E&L'&N). exists tab'. split; auto. split; auto. intros v V. rewrite N by auto.
  destruct (existsb (fun a0 => g a0 =? v) l); [rewrite orb_true_r; auto|]. rewrite orb_false_r. destruct (Z.eqb_spec (g a) v) as [ -> |Ne].
  - apply upd_same. rewrite L. apply iv_lt; auto.
  - apply upd_other. intros E2. apply iv_inj in E2; auto.
Qed.
Lemma set_ok (f : nat -> Z) (l : list Z) : Forall inr l -> forall s tab, length tab = Z.to_nat t ->
  exists tab', fold_right (fun ki t => do t <- t; wr t (iv (fst ki)) (Some (f (snd ki)))) (Ok tab) (combine l (seq s (length l))) = Ok tab' /\ length tab' = Z.to_nat t /\
    forall v, inr v -> nth_error tab' (iv v) = let i := scan (fun a => a =? v) l in if i <? Z.of_nat (length l) then Some (Some (f (s + Z.to_nat i)%nat)) else nth_error tab (iv v).
Proof.
  induction 1 as [|a l Ha F IH]; intros s tab L; cbn [length seq combine fold_right scan]. { exists tab. auto. }
  destruct (IH (S s) tab L) as (tab'&E&L'&N). rewrite E. cbn [bind fst snd]. rewrite wr_iv by auto. eexists. split; [reflexivity|]. split; [rewrite upd_length; auto|]. intros v V. cbv zeta.
  destruct (Z.eqb_spec a v) as [ -> |Ne].
  - rewrite upd_same by (rewrite L'; apply iv_lt; auto). destruct (Z.ltb_spec 0 (Z.of_nat (S (length l)))); [|lia]. do 3 f_equal. lia.
  - rewrite upd_other by (intros E2; apply iv_inj in E2; auto). rewrite N by auto. cbv zeta. pose proof (scan_range (fun a0 => a0 =? v) l).
    destruct (Z.ltb_spec (scan (fun a0 => a0 =? v) l) (Z.of_nat (length l))), (Z.ltb_spec (1 + scan (fun a0 => a0 =? v) l) (Z.of_nat (S (length l)))); try lia; auto. do 3 f_equal. lia.
Qed.
End Tab.

Definition int16_ty (e : elt) : Prop := e = EBit \/ e = EI8 \/ e = EI16.
Definition tval (inl : list Z) (cast : Z -> Z) (init : Z) (set : nat -> Z) (z : Z) : Z :=
  let i := scan (fun v => v =? z) inl in if i <? Z.of_nat (length inl) then cast (set (Z.to_nat i)) else cast init.
Lemma el_idx t z : int16_ty t -> raw_ok t z -> (Z.to_nat (z + (elRange t / 2 - b2z (elRange t =? 2)))%Z < Z.to_nat (elRange t))%nat /\ Z.of_nat (Z.to_nat (z + (elRange t / 2 - b2z (elRange t =? 2)))) - (elRange t / 2 - b2z (elRange t =? 2)) = z.
Proof.
  intros T R. destruct T as [ -> |[ -> | -> ]]; cbn [raw_ok elRange] in *; cbv [b2z]; cbn [Z.eqb Pos.eqb].
  - change (2 / 2 - 1) with 0. lia.
  - change (256 / 2 - 0) with 128. lia.
  - change (65536 / 2 - 0) with 32768. lia.
Qed.
Lemma el_idx_inv t k : int16_ty t -> (0 <= k < 0 + Z.to_nat (elRange t))%nat -> raw_ok t (Z.of_nat k - (elRange t / 2 - b2z (elRange t =? 2))).
Proof.
  intros T R. destruct T as [ -> |[ -> | -> ]]; cbn [raw_ok elRange] in *; cbv [b2z]; cbn [Z.eqb Pos.eqb].
  - change (2 / 2 - 1) with 0. lia.
  - change (256 / 2 - 0) with 128. lia.
  - change (65536 / 2 - 0) with 32768. lia.
Qed.
Lemma in_tab e t z : int16_ty e -> raw_ok e z -> elRange e <= t -> t = 256 \/ t = 65536 -> - (t / 2) <= z < t - t / 2.
Proof. intros T R L Tt. assert (H : t / 2 = 128 /\ t = 256 \/ t / 2 = 32768 /\ t = 65536) by (destruct Tt as [ -> | -> ]; [left|right]; split; reflexivity). destruct T as [ -> |[ -> | -> ]]; cbn [raw_ok elRange] in *; lia. Qed.
Lemma table_ok same ine fore inl forl cast szTY init set : int16_ty ine -> ine <> EBit -> int16_ty fore -> (same = true -> fore = ine /\ forl = inl) ->
  Forall (raw_ok ine) inl -> Forall (raw_ok fore) forl ->
  table same ine fore inl forl cast szTY init set = Ok (map (tval inl cast init set) forl).
Proof.
  intros Ti Nb Tf Same Ri Rf. unfold table. cbv zeta. set (t := if elRange fore <? elRange ine then elRange ine else elRange fore).
  assert (Tt : t = 256 \/ t = 65536) by (unfold t; destruct Ti as [ -> |[ -> | -> ]], Tf as [ -> |[ -> | -> ]]; try congruence; cbn; auto).
  assert (Tp : 0 < t) by lia.
  assert (Ii : Forall (fun v => - (t / 2) <= v < t - t / 2) inl).
  { eapply Forall_impl; [|exact Ri]. intros z Hz. apply (in_tab ine); auto. unfold t; destruct (Z.ltb_spec (elRange fore) (elRange ine)); lia. }
  assert (If : Forall (fun v => - (t / 2) <= v < t - t / 2) forl).
  { eapply Forall_impl; [|exact Rf]. intros z Hz. apply (in_tab fore); auto. unfold t; destruct (Z.ltb_spec (elRange fore) (elRange ine)); lia. }
  assert (L0 : length (repeat (@None Z) (Z.to_nat t)) = Z.to_nat t) by apply repeat_length.
  set (iv := fun v => Z.to_nat (t / 2 + v)).
  match goal with |- bind ?x _ = _ => assert (Init : exists tab, x = Ok tab /\ length tab = Z.to_nat t /\ (same = false -> (forall z, In z forl \/ fore = EBit /\ (z = 0 \/ z = 1) -> nth_error tab (iv z) = Some (Some (cast init))))) end.
  { destruct same. { eexists. split; [reflexivity|]. split; auto. discriminate. }
    destruct ((elt_no fore =? 2) && _) eqn:B.
    - destruct (fill_ok t Tp (fun z : Z => z) (Some (cast init)) forl If _ L0) as (tab&E&L&N). exists tab. split; [exact E|]. split; auto. intros _ z [Hz|[Hz _]].
      + unfold iv. rewrite N by (rewrite Forall_forall in If; apply If; auto). rewrite (proj2 (existsb_exists _ _)); auto. exists z. rewrite Z.eqb_refl. auto.
      + rewrite Hz in B. discriminate.
    - destruct (fill_ok t Tp (fun k => Z.of_nat k - (elRange fore / 2 - b2z (elRange fore =? 2))) (Some (cast init)) (seq 0 (Z.to_nat (elRange fore)))) with (2 := L0) as (tab&E&L&N).
      { apply Forall_forall. intros k Hk. apply in_seq in Hk. apply (in_tab fore); auto. { apply el_idx_inv; auto. } unfold t; destruct (Z.ltb_spec (elRange fore) (elRange ine)); lia. }
      exists tab. split; [exact E|]. split; auto. intros _ z Hz.
      assert (R : raw_ok fore z) by (destruct Hz as [Hz|[-> Hz]]; [rewrite Forall_forall in Rf; apply Rf; auto|cbn; lia]).
      assert (Iz : - (t / 2) <= z < t - t / 2) by (destruct Hz as [Hz|[_ Hz]]; [rewrite Forall_forall in If; apply If; auto|destruct Tt as [Tt|Tt]; rewrite Tt; [change (256/2) with 128|change (65536/2) with 32768]; lia]).
      unfold iv. rewrite N by auto. rewrite (proj2 (existsb_exists _ _)); auto. exists (Z.to_nat (z + (elRange fore / 2 - b2z (elRange fore =? 2)))). rewrite in_seq.
      destruct (el_idx fore z Tf R) as [K1 K2]. split; [clear - K1; lia|apply Z.eqb_eq; exact K2]. }
  destruct Init as (tab0&E0&L1&I0). rewrite E0. cbn [bind].
  destruct (set_ok t Tp (fun i => cast (set i)) inl Ii 0%nat tab0 L1) as (tab&E&L&N). match goal with |- bind ?x _ = _ => replace x with (Ok tab) by (symmetry; exact E) end. cbn [bind].
  assert (G : forall z, (In z forl \/ fore = EBit /\ (z = 0 \/ z = 1)) -> tget tab (Z.to_nat (t / 2 + z)) = Ok (tval inl cast init set z)).
  { intros z Hz. assert (Iz : - (t / 2) <= z < t - t / 2) by (destruct Hz as [Hz|[_ Hz]]; [rewrite Forall_forall in If; apply If; auto|destruct Tt as [Tt|Tt]; rewrite Tt; [change (256/2) with 128|change (65536/2) with 32768]; lia]).
    unfold tget, tval. cbv zeta. specialize (N z Iz). cbv zeta in N. destruct (Z.ltb_spec (scan (fun v => v =? z) inl) (Z.of_nat (length inl))) as [Lt|Ge].
    - rewrite (rd_ok' _ _ _ N). reflexivity.
    - destruct same.
      + exfalso. destruct (Same eq_refl) as [-> ->]. assert (In z inl) by (destruct Hz as [Hz|[Hz _]]; [auto|congruence]). assert (existsb (fun v => v =? z) inl = true) by (apply existsb_exists; exists z; rewrite Z.eqb_refl; auto). apply scan_lt in H0. lia.
      + pose proof (I0 eq_refl z Hz) as J. unfold iv in J. rewrite J in N. rewrite (rd_ok' _ _ _ N). reflexivity. }
  assert (G2 : mapM (fun z => tget tab (Z.to_nat (t / 2 + z))) forl = Ok (map (tval inl cast init set) forl)) by (apply mapM_ok; intros z Hz; apply G; auto).
  destruct fore; try exact G2. rewrite !G by auto. cbn [bind]. f_equal. apply map_ext_in. intros z Hz. rewrite Forall_forall in Rf. specialize (Rf z Hz). cbn [raw_ok] in Rf. destruct (Z.eqb_spec z 0); [subst; auto|]. replace z with 1 by lia. reflexivity.
Qed.

(** ** The progressive table *)
Lemma count_table_ok we xe wl xl : int16_ty we -> int16_ty xe -> Forall (raw_ok we) wl -> Forall (raw_ok xe) xl -> Z.of_nat (length wl) < 2^31 ->
  exists js, count_table we xe wl xl = Ok js /\ chain_ok Z.eqb wl [] xl js.
Proof.
  intros Ti Tf Ri Rf Len. unfold count_table. cbv zeta. set (we' := match we with EBit => EI8 | _ => we end). set (xe' := match xe with EBit => EI8 | _ => xe end).
  assert (Ti' : we' = EI8 \/ we' = EI16) by (unfold we'; destruct Ti as [ -> |[ -> | -> ]]; auto). assert (Tf' : xe' = EI8 \/ xe' = EI16) by (unfold xe'; destruct Tf as [ -> |[ -> | -> ]]; auto).
  assert (Ri' : Forall (raw_ok we') wl) by (eapply Forall_impl; [|exact Ri]; intros z; unfold we'; destruct Ti as [ -> |[ -> | -> ]]; cbn; lia).
  assert (Rf' : Forall (raw_ok xe') xl) by (eapply Forall_impl; [|exact Rf]; intros z; unfold xe'; destruct Tf as [ -> |[ -> | -> ]]; cbn; lia).
  set (t := if elRange xe' <? elRange we' then elRange we' else elRange xe').
  assert (Tt : t = 256 \/ t = 65536) by (unfold t; destruct Ti' as [ -> | -> ], Tf' as [ -> | -> ]; cbn; auto).
  assert (Tp : 0 < t) by lia.
  assert (Ii : Forall (fun v => - (t / 2) <= v < t - t / 2) wl).
  { eapply Forall_impl; [|exact Ri']. intros z Hz. apply (in_tab we'); auto; [right; auto|]. unfold t; destruct (Z.ltb_spec (elRange xe') (elRange we')); lia. }
  assert (If : Forall (fun v => - (t / 2) <= v < t - t / 2) xl).
  { eapply Forall_impl; [|exact Rf']. intros z Hz. apply (in_tab xe'); auto; [right; auto|]. unfold t; destruct (Z.ltb_spec (elRange xe') (elRange we')); lia. }
  assert (NB : elRange xe' / 2 - b2z (elRange xe' =? 2) = elRange xe' / 2) by (destruct Tf' as [Tq|Tq]; rewrite Tq; reflexivity).
  assert (L0 : length (repeat (@None Z) (Z.to_nat t)) = Z.to_nat t) by apply repeat_length.
  set (iv := fun v => Z.to_nat (t / 2 + v)). set (wia := Z.of_nat (length wl)) in *.
  assert (Lx : forall z, In z xl -> - (t / 2) <= z < t - t / 2) by (apply Forall_forall; auto).
  match goal with |- exists js, bind ?x _ = _ /\ _ => assert (Init : exists tab, x = Ok tab /\ length tab = Z.to_nat t /\ (forall z, In z xl -> nth_error tab (iv z) = Some (Some wia))) end.
  { rewrite to_s_id by lia. destruct ((elt_no xe' =? 2) && _) eqn:B.
    - destruct (fill_ok t Tp (fun z : Z => z) (Some wia) xl If _ L0) as (tab&E&L&N). exists tab. split; [exact E|]. split; auto. intros z Hz.
      unfold iv. rewrite N by auto. rewrite (proj2 (existsb_exists _ _)); auto. exists z. rewrite Z.eqb_refl. auto.
    - destruct (fill_ok t Tp (fun k => Z.of_nat k - elRange xe' / 2) (Some wia) (seq 0 (Z.to_nat (elRange xe')))) with (2 := L0) as (tab&E&L&N).
      { apply Forall_forall. intros k Hk. apply in_seq in Hk. apply (in_tab xe'); auto; [right; auto| |]. { pose proof (el_idx_inv xe' k (or_intror Tf') Hk) as J. rewrite NB in J. exact J. } unfold t; destruct (Z.ltb_spec (elRange xe') (elRange we')); lia. }
      exists tab. split; [exact E|]. split; auto. intros z Hz.
      assert (R : raw_ok xe' z) by (rewrite Forall_forall in Rf'; apply Rf'; auto).
      unfold iv. rewrite N by auto. rewrite (proj2 (existsb_exists _ _)); auto. exists (Z.to_nat (z + elRange xe' / 2)). rewrite in_seq.
      destruct (el_idx xe' z (or_intror Tf') R) as [K1 K2]. rewrite NB in K1, K2. split; [clear - K1; lia|apply Z.eqb_eq; exact K2]. }
  destruct Init as (tab0&E0&L1&I0). rewrite E0. cbn [bind]. clear E0.
  set (wn0 := repeat (@None Z) (length wl) ++ [Some wia]).
  set (body := fun (st : list (option Z) * list (option Z)) (ki : Z * nat) => let '(tab, wnext) := st in do c <- rd tab (iv (fst ki)); do wnext <- wr wnext (snd ki) c; do tab <- wr tab (iv (fst ki)) (Some (to_s 32 (Z.of_nat (snd ki)))); Ok (tab, wnext)).
  pose (Wn := fun (n : nat) (wn : list (option Z)) => length wn = S (length wl) /\ nth_error wn (length wl) = Some (Some wia) /\ forall i a, (n <= i)%nat -> nth_error wl i = Some a -> In a xl -> nth_error wn i = Some (Some (ff Z.eqb wl (S i) a))).
  assert (P1 : forall n tab wn, (n <= length wl)%nat -> length tab = Z.to_nat t -> (forall z, In z xl -> nth_error tab (iv z) = Some (Some (ff Z.eqb wl n z))) -> Wn n wn ->
    exists tab' wn', foldM body (posl wl n) (tab, wn) = Ok (tab', wn') /\ length tab' = Z.to_nat t /\ (forall z, In z xl -> nth_error tab' (iv z) = Some (Some (ff Z.eqb wl 0 z))) /\ Wn 0%nat wn').
  { induction n as [|n IH]; intros tab wn Ln Lt Tn Wx. { exists tab, wn. auto. }
    destruct (nth_error_ex wl n ltac:(lia)) as [a Na]. rewrite (posl_S wl n a Na), foldM_cons. unfold body at 1. cbn [fst snd].
    assert (Ia : - (t / 2) <= a < t - t / 2) by (rewrite Forall_forall in Ii; apply Ii; eapply nth_error_In; eauto). assert (Ta : (iv a < length tab)%nat) by (rewrite Lt; unfold iv; lia).
    destruct (nth_error_ex tab (iv a) Ta) as [c Nc]. rewrite (rd_ok' _ _ _ Nc). cbn [bind]. destruct Wx as (W1&W2&W3). rewrite wr_ok' by lia. cbn [bind]. rewrite wr_ok' by auto. cbn [bind]. rewrite to_s_id by lia.
    apply IH; [lia|rewrite upd_length; auto| |].
    - intros z Hz. rewrite (ff_step Z.eqb wl n a z Na). destruct (Z.eqb_spec a z) as [ -> |Ne]; [apply upd_same; auto|]. rewrite upd_other by (specialize (Lx z Hz); unfold iv; lia). apply Tn; auto.
    - split; [rewrite upd_length; auto|]. split; [rewrite upd_other by lia; auto|]. intros i b Hi Nb Hb. destruct (Nat.eq_dec i n) as [ -> |Ne].
      + rewrite upd_same by lia. rewrite Na in Nb. injection Nb as <-. rewrite <- Nc. apply Tn; auto.
      + rewrite upd_other by lia. apply W3; auto. lia. }
  destruct (P1 (length wl) tab0 wn0 (le_n _) L1) as (tab1&wn1&E1&L2&T1&W1).
  { intros z Hz. rewrite ff_end. auto. }
  { split; [unfold wn0; rewrite app_length, repeat_length; cbn; lia|]. split; [unfold wn0; rewrite nth_error_app2, repeat_length by (rewrite repeat_length; lia); rewrite Nat.sub_diag; reflexivity|].
    intros i a Hi N. apply nth_error_Some_lt in N. lia. }
  rewrite posl_all in E1. match goal with |- context [bind (foldM ?f ?l ?s) _] => replace (foldM f l s) with (Ok (tab1, wn1)) by (symmetry; exact E1) end. cbn [bind].
  set (body2 := fun (st : list (option Z) * list Z) (k : Z) => let '(tab, r) := st in do j <- tget tab (iv k); if j <? 0 then UB else do c <- rd wn1 (Z.to_nat j); do tab <- wr tab (iv k) c; Ok (tab, r ++ [j])).
  assert (wt : Forall (fun _ : Z => True) wl) by (apply Forall_forall; auto).
  assert (P2 : forall l tab r, incl l xl -> length tab = Z.to_nat t -> (forall z, In z xl -> exists c, nth_error tab (iv z) = Some (Some c) /\ Inv Z.eqb wl c r z) -> exists tab' js, foldM body2 l (tab, r) = Ok (tab', r ++ js) /\ chain_ok Z.eqb wl r l js).
  { induction l as [|x l IH]; intros tab r In1 Lt Tn. { exists tab, []. rewrite app_nil_r. split; [reflexivity|exact Logic.I]. }
    assert (Hx : In x xl) by (apply In1; left; auto). destruct (Tn x Hx) as (j&Nj&Ij). rewrite foldM_cons. unfold body2 at 1. unfold tget. rewrite (rd_ok' _ _ _ Nj). cbn [bind].
    pose proof Ij as (Rj&_&Ej). fold wia in Rj, Ej. destruct (Z.ltb_spec j 0); [lia|].
    assert (Nx : nth_error wn1 (Z.to_nat j) = Some (Some (nx Z.eqb wl j))).
    { destruct W1 as (W11&W12&W13). unfold nx. destruct Ej as [ -> |(i&a&Ej&Na&Ea)].
      - rewrite (proj2 (nth_error_None wl _)) by (unfold wia; lia). unfold wia at 1. rewrite Nat2Z.id. auto.
      - subst j. rewrite Nat2Z.id, Na. apply Z.eqb_eq in Ea. subst a. apply W13; auto. lia. }
    rewrite (rd_ok' _ _ _ Nx). cbn [bind]. assert (Tx : (iv x < length tab)%nat) by (specialize (Lx x Hx); rewrite Lt; unfold iv; lia). rewrite wr_ok' by auto. cbn [bind].
    destruct (IH (upd tab (iv x) (Some (nx Z.eqb wl j))) (r ++ [j])) as (tab'&js&E2&C2).
    - intros z Hz. apply In1. right. auto.
    - rewrite upd_length. auto.
    - intros z Hz. destruct (Tn z Hz) as (c&Nc&Ic).
      pose proof (inv_step Z.eqb (fun _ => True) wl ltac:(intros a b _ _; rewrite !Z.eqb_eq; congruence) ltac:(intros a b c' _ _ _; rewrite !Z.eqb_eq; congruence) wt r x z j c Logic.I Logic.I Ij Ic) as I1.
      destruct (Z.eqb_spec x z) as [ -> |Ne]; [exists (nx Z.eqb wl j); split; [apply upd_same; auto|exact I1]|]. exists c. split; [|exact I1]. rewrite upd_other; auto. pose proof (Lx z Hz). pose proof (Lx x Hx). unfold iv. lia.
    - exists tab', (j :: js). rewrite E2, <- app_assoc. split; [reflexivity|]. cbn [chain_ok]. split; [apply inv_free; auto|auto]. }
  destruct (P2 xl tab1 [] (incl_refl _) L2) as (tab2&js&E2&C2). { intros z Hz. exists (ff Z.eqb wl 0 z). split; auto. apply inv_init. }
  exists js. match goal with |- context [bind (foldM ?f ?l ?s) _] => replace (foldM f l s) with (Ok (tab2, js)) by (symmetry; exact E2) end. split; auto.
Qed.
