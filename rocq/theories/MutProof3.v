From Verif Require Import Base BitsModel BitsSpec SqueezeModel ReuseModel MutModel MutSpec MutProof MutProof2.
From Coq Require Import List Lia ZArith.
Import ListNotations.
Open Scope Z_scope.

Lemma tarr_iff e xe : tarr e xe = true <-> el_or e xe = e.
Proof. destruct e, xe; cbn; split; congruence. Qed.

Section Apd.
Variable mk : el -> nat -> store.
Hypothesis Hmk : fresh mk.

Definition good (a : apd) (l : list val) : Prop :=
  room (a_st a) (a_tia a) /\ a_pos a = length l /\ (length l <= a_tia a)%nat /\ forall i v, nth_error l i = Some v -> look (a_st a) i = v.
Definition same (a a' : apd) : Prop := a_kind a' = a_kind a /\ a_tia a' = a_tia a /\ a_rsh a' = a_rsh a.
Lemma same_trans a b c : same a b -> same b c -> same a c.
Proof. unfold same. intuition congruence. Qed.

Lemma good_ext a l s f xl fi : good a l -> wrote_to (a_st a) s (a_tia a) (a_pos a) (length xl) f -> (length l + length xl <= a_tia a)%nat -> (forall i v, nth_error xl i = Some v -> f i = v) ->
  good (upd_apd a s (a_pos a + length xl) fi) (l ++ xl).
Proof.
  intros (R & Hp & Hl & C) (W1 & W2 & W3 & W4) Hn Hf. split; [exact W2|]. cbn [upd_apd a_pos a_tia a_st]. rewrite app_length. split; [lia|]. split; [lia|].
  intros i v Hi. destruct (Nat.ltb_spec i (length l)) as [A|A].
  - rewrite nth_error_app1 in Hi by lia. rewrite W4 by lia. apply C. exact Hi.
  - rewrite nth_error_app2 in Hi by lia. assert (i - length l < length xl)%nat by (apply nth_error_Some; congruence).
    replace i with (a_pos a + (i - length l))%nat by lia. rewrite W3 by lia. apply Hf. exact Hi.
Qed.
Lemma put_atom_ok a l v : good a l -> (length l < a_tia a)%nat -> fits (st_el (a_st a)) v = true ->
  exists s, put_atom a v = Ok (upd_apd a s (a_pos a + 1) (a_fill a)) /\ st_el s = st_el (a_st a) /\ forall fi, good (upd_apd a s (a_pos a + 1) fi) (l ++ [v]).
Proof.
  intros G Hl Hf. unfold put_atom. destruct (setG_ok (a_st a) (a_tia a) (a_pos a) v) as (s & E & W); [apply G|destruct G as (_ & -> & _); exact Hl|exact Hf|].
  rewrite E. cbn [bind]. exists s. split; [reflexivity|]. split; [apply W|]. intros fi. apply (good_ext a l s (fun _ => v) [v] fi G); cbn [length]; [exact W|lia|].
  intros [|[|i]] y Hy; cbn in Hy; congruence.
Qed.
Lemma put_arr_ok a l s xl f : good a l -> source s xl -> (length l + length xl <= a_tia a)%nat -> tarr (st_el (a_st a)) (st_el s) = true ->
  exists r, put_arr a s (length xl) f = Ok (upd_apd a r (a_pos a + length xl) f) /\ st_el r = st_el (a_st a) /\ good (upd_apd a r (a_pos a + length xl) f) (l ++ xl).
Proof.
  intros G S Hl He. apply tarr_iff in He. unfold put_arr. destruct (copyG_ok (a_st a) (a_tia a) (a_pos a) s (length xl) 0 (length xl)) as (r & E & W); try assumption; [apply G|destruct G as (_ & -> & _); exact Hl|apply S|lia|].
  rewrite E. cbn [bind]. exists r. split; [reflexivity|]. split; [apply W|]. apply (good_ext a l r _ xl f G W Hl). intros i v Hi. cbn [Nat.add]. apply (src_look s xl); assumption.
Qed.
Lemma widen_ok a l x : good a l -> el_or (st_el (a_st a)) (el_of x) <> st_el (a_st a) ->
  exists a', apd_widen mk a x = Ok a' /\ good a' l /\ same a a' /\ st_el (a_st a') = el_or (st_el (a_st a)) (el_of x).
Proof.
  intros G N. unfold apd_widen. rewrite (or_comm (el_of x)). set (pe := st_el (a_st a)) in *. set (re := el_or pe (el_of x)) in *.
  assert (Hc : is_B pe || (elc pe =? elc re) = false).
  { apply orb_false_iff. split.
    - destruct pe eqn:Ep; try reflexivity. exfalso. apply N. apply or_B.
    - apply Z.eqb_neq. intros Q. apply elc_inj in Q. congruence. }
  rewrite Hc. destruct G as (R & Hp & Hl & C).
  assert (Hcp : exists s', copyG (mk re (a_tia a)) 0 (a_st a) 0 (a_pos a) = Ok s' /\ wrote_to (mk re (a_tia a)) s' (a_tia a) 0 (a_pos a) (fun i => look (a_st a) (0 + i))).
  { apply (copyG_ok _ (a_tia a) 0 (a_st a) (a_tia a) 0 (a_pos a)); try lia; [apply Hmk|exact R|]. destruct (Hmk re (a_tia a)) as [-> _]. fold pe. unfold re. rewrite (or_comm pe), or_assoc, or_same. reflexivity. }
  destruct Hcp as (s' & E & W1 & W2 & W3 & W4). destruct (Hmk re (a_tia a)) as [Ek _]. rewrite Ek in W1.
  destruct (if is_B re then if fillEqualsGetFill (if elNum pe then VNum 0 else VChr 32) x then (Some (if elNum pe then VNum 0 else VChr 32), true) else (None, a_keep a) else (a_fill a, a_keep a)) as [f k] eqn:Ef.
  rewrite E. cbn [bind]. eexists. split; [reflexivity|]. split; [|split; [split; [|split]; reflexivity|exact W1]].
  split; [exact W2|]. split; [exact Hp|]. split; [exact Hl|]. cbn [a_st]. intros i v Hi. assert (i < length l)%nat by (apply nth_error_Some; congruence).
  specialize (W3 i ltac:(lia)). cbn [Nat.add] in W3. rewrite W3. apply C. exact Hi.
Qed.

(** a kind of append and a piece that passes its shape check *)
Definition okind (k : kind) : Prop := match k with ShE csh => prod csh = O | _ => True end.
Lemma try_ok a l x xl : good a l -> okind (a_kind a) -> sh_chk (a_kind a) x = true -> elems_of x xl -> (length l + length xl <= a_tia a)%nat ->
  (exists a', try_apd a x = Ok (Some (Some a')) /\ good a' (l ++ xl) /\ same a a' /\ st_el (a_st a') = st_el (a_st a)) \/
  (try_apd a x = Ok None /\ el_or (st_el (a_st a)) (el_of x) <> st_el (a_st a)).
Proof.
  intros G Hk Hc He Hl.
  assert (HA : forall b v xe, good b l -> same a b -> a_st b = a_st a -> (length l < a_tia b)%nat -> fits xe v = true ->
     (exists a', (if fits (st_el (a_st a)) v then do a0 <- put_atom b v; Ok (Some (Some a0)) else Ok None) = Ok (Some (Some a')) /\ good a' (l ++ [v]) /\ same a a' /\ st_el (a_st a') = st_el (a_st a)) \/
     ((if fits (st_el (a_st a)) v then do a0 <- put_atom b v; Ok (Some (Some a0)) else Ok (@None (option apd))) = Ok None /\ el_or (st_el (a_st a)) xe <> st_el (a_st a))).
  { intros b v xe Gb Sb Eb Hb Hv. destruct (fits (st_el (a_st a)) v) eqn:Hf.
    - left. rewrite <- Eb in Hf. destruct (put_atom_ok b l v Gb Hb Hf) as (s & E & Es & Gs). rewrite E. cbn [bind]. eexists. split; [reflexivity|]. split; [apply Gs|]. split; [exact Sb|]. cbn [upd_apd a_st]. congruence.
    - right. split; [reflexivity|]. intros Q. rewrite (fits_absorb _ xe) in Hf by assumption. discriminate. }
  assert (HR : forall sh s f, length xl = prod sh -> source s xl ->
     (exists a', (if tarr (st_el (a_st a)) (st_el s) then do a0 <- put_arr a s (prod sh) f; Ok (Some (Some a0)) else Ok None) = Ok (Some (Some a')) /\ good a' (l ++ xl) /\ same a a' /\ st_el (a_st a') = st_el (a_st a)) \/
     ((if tarr (st_el (a_st a)) (st_el s) then do a0 <- put_arr a s (prod sh) f; Ok (Some (Some a0)) else Ok (@None (option apd))) = Ok None /\ el_or (st_el (a_st a)) (st_el s) <> st_el (a_st a))).
  { intros sh s f Hs S. rewrite <- Hs. destruct (tarr (st_el (a_st a)) (st_el s)) eqn:Ht.
    - left. destruct (put_arr_ok a l s xl f G S Hl Ht) as (r & E & Er & Gr). rewrite E. cbn [bind]. eexists. split; [reflexivity|]. split; [exact Gr|]. split; [split; [|split]; reflexivity|exact Er].
    - right. split; [reflexivity|]. intros Q. apply tarr_iff in Q. congruence. }
  unfold try_apd. destruct (a_kind a) as [| |cia|csh|csh] eqn:Ek.
  - destruct x as [v|sh s f]; cbn [elems_of el_of] in *.
    + subst xl. apply HA; try assumption; try reflexivity; [split; [|split]; reflexivity|cbn [length] in Hl; lia|apply fits_self].
    + destruct He as [Hs S]. destruct (Nat.eqb_spec (prod sh) 0) as [Z|Z].
      * left. exists a. split; [reflexivity|]. assert (xl = []) by (destruct xl; [reflexivity|cbn in Hs; lia]). subst xl. rewrite app_nil_r. split; [exact G|]. split; [split; [|split]; reflexivity|reflexivity].
      * apply HR; assumption.
  - rewrite Hc. set (b := if is_B (st_el (a_st a)) then upd_apd a (a_st a) (a_pos a) (or_fill (a_fill a) x) else a).
    assert (Gb : good b l) by (unfold b; destruct (is_B _); exact G). assert (Sb : same a b) by (unfold b; destruct (is_B _); (split; [|split]; reflexivity)). assert (Eb : a_st b = a_st a) by (unfold b; destruct (is_B _); reflexivity).
    assert (Tb : a_tia b = a_tia a) by apply Sb.
    destruct x as [v|sh s f]; cbn [elems_of el_of] in *.
    + subst xl. apply HA; try assumption; [rewrite Tb; cbn [length] in Hl; lia|apply fits_self].
    + destruct He as [Hs S]. cbn [sh_chk] in Hc. apply Nat.eqb_eq in Hc. destruct sh; [|discriminate]. cbn [prod fold_right] in Hs. destruct xl as [|v [|? ?]]; cbn [length] in Hs; try lia.
      pose proof S as [Rs Cs]. rewrite (Cs O v eq_refl). cbn [bind]. apply (HA b v (st_el s)); try assumption; [rewrite Tb; cbn [length] in Hl; lia|].
      destruct (getU_ok s 1 0 Rs ltac:(lia)) as [_ F]. rewrite (src_look s [v] 0 v S eq_refl) in F. exact F.
  - destruct x as [v|sh s f]; [discriminate|]. cbn [elems_of el_of] in *. rewrite Hc. apply HR; apply He.
  - destruct x as [v|sh s f]; [discriminate|]. cbn [elems_of el_of] in *. rewrite Hc. apply HR; apply He.
  - destruct x as [v|sh s f]; [discriminate|]. rewrite Hc. left. exists a. split; [reflexivity|]. cbn [sh_chk elems_of okind] in *. apply andb_true_iff in Hc. destruct Hc as [_ Hc]. unfold sheq in Hc. destruct (list_eq_dec Nat.eq_dec csh sh) as [Q|]; [|discriminate].
    subst sh. assert (xl = []) by (destruct xl; [reflexivity|cbn in He; lia]). subst xl. rewrite app_nil_r. split; [exact G|]. split; [split; [|split]; reflexivity|reflexivity].
Qed.
Lemma step_ok a l x xl : good a l -> okind (a_kind a) -> sh_chk (a_kind a) x = true -> elems_of x xl -> (length l + length xl <= a_tia a)%nat ->
  exists a', apd_step mk a x = Ok (Run a') /\ good a' (l ++ xl) /\ same a a'.
Proof.
  intros G Hk Hc He Hl. unfold apd_step. destruct (try_ok a l x xl G Hk Hc He Hl) as [(a' & E & G' & S & _)|(E & N)]; rewrite E; cbn [bind].
  - exists a'. auto.
  - destruct (widen_ok a l x G N) as (b & Eb & Gb & Sb & Tb). rewrite Eb. cbn [bind]. pose proof Sb as (K & T & _).
    destruct (try_ok b l x xl Gb) as [(a' & E' & G' & S & _)|(E' & N')]; try assumption; try (rewrite K; assumption); try (rewrite T; assumption).
    + rewrite E'. cbn [bind]. exists a'. split; [reflexivity|]. split; [exact G'|]. apply (same_trans a b); assumption.
    + exfalso. apply N'. rewrite Tb. apply or_idem.
Qed.
Lemma rest_ok xs : forall ls a l, good a l -> okind (a_kind a) -> Forall (fun x => sh_chk (a_kind a) x = true) xs -> Forall2 elems_of xs ls -> (length l + length (concat ls) <= a_tia a)%nat ->
  exists a', apd_rest mk (Run a) xs = Ok (Run a') /\ good a' (l ++ concat ls) /\ same a a'.
Proof.
  induction xs as [|x xs IH]; intros ls a l G Hk Hc He Hl; inversion He as [|? xl ? ls' E1 E2]; subst; cbn [apd_rest concat].
  - exists a. rewrite app_nil_r. split; [reflexivity|]. split; [exact G|]. split; [|split]; reflexivity.
  - inversion Hc as [|? ? C1 C2]; subst. cbn [concat] in Hl. rewrite app_length in Hl. destruct (step_ok a l x xl G Hk C1 E1 ltac:(lia)) as (b & E & Gb & Sb). rewrite E. cbn [bind]. pose proof Sb as (K & T & _).
    destruct (IH ls' b (l ++ xl)) as (a' & E' & G' & S').
    + exact Gb.
    + rewrite K. exact Hk.
    + rewrite K. exact C2.
    + exact E2.
    + rewrite T, app_length. lia.
    + exists a'. split; [exact E'|]. rewrite app_assoc. split; [exact G'|]. apply (same_trans a b); assumption.
Qed.
Lemma good_contents a l : good a l -> contents (a_st a) l.
Proof.
  intros (R & Hp & Hl & C) i v Hi. assert (i < length l)%nat by (apply nth_error_Some; congruence). destruct (getU_ok (a_st a) (a_tia a) i R) as [-> _]; [lia|]. f_equal. apply C. exact Hi.
Qed.
Lemma append_all xs ls ia0 : xs <> [] -> Forall2 elems_of xs ls -> length (concat ls) = ia0 -> exists s, build_tot mk ia0 xs = Ok (s, ia0) /\ room s ia0 /\ contents s (concat ls).
Proof.
  intros Hn He Hl. destruct xs as [|x xs]; [congruence|]. inversion He as [|? xl ? ls' E1 E2]; subst. unfold build_tot, apd_tot_init. cbn [concat]. rewrite app_length.
  set (a0 := {| a_kind := Tot; a_st := mk (el_of x) (length xl + length (concat ls')); a_tia := length xl + length (concat ls'); a_pos := 0; a_fill := None; a_keep := false; a_rsh := [] |}).
  assert (G0 : good a0 []). { split; [apply Hmk|]. split; [reflexivity|]. split; [cbn; lia|]. intros [|i] v Hi; discriminate. }
  destruct (step_ok a0 [] x xl G0 I eq_refl E1) as (b & E & Gb & Sb); [cbn; lia|]. rewrite E. cbn [bind]. pose proof Sb as (K & T & _).
  destruct (rest_ok xs ls' b ([] ++ xl) Gb) as (a' & E' & G' & S').
  - rewrite K. exact I.
  - rewrite K. apply Forall_forall. intros y _. reflexivity.
  - exact E2.
  - rewrite T. cbn [app a_tia a0]. lia.
  - rewrite E'. cbn [bind]. destruct S' as (_ & T' & _). assert (Q : a_tia a' = (length xl + length (concat ls'))%nat) by (rewrite T', T; reflexivity).
    exists (a_st a'). rewrite Q. split; [reflexivity|]. split; [rewrite <- Q; apply G'|]. apply (good_contents a' ([] ++ xl ++ concat ls')). rewrite <- app_assoc in G'. exact G'.
Qed.
End Apd.
