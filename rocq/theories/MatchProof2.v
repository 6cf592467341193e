From Verif Require Import Base BitsModel BitsSpec BitLemmas BitsProof TagModel TagSpec TagProof NumSpec NumProof ArrSpec DataSpec SqueezeModel SqueezeSpec SqueezeProof CompareModel CompareSpec CompareProof MatchModel MatchSpec MatchProof.

Definition deq (refl : bool) (a b : data) : Prop := a = b /\ (refl = true \/ nan_free a).
Lemma nan_free_arr sh els : nan_free (DArr sh els) <-> Forall nan_free els.
Proof. cbn [nan_free]. induction els as [|x t IH]; [split; constructor|]. rewrite Forall_cons_iff, <- IH. tauto. Qed.
Lemma plain_arr sh els : plain (DArr sh els) <-> Forall plain els.
Proof. cbn [plain]. induction els as [|x t IH]; [split; constructor|]. rewrite Forall_cons_iff, <- IH. tauto. Qed.
Lemma ovalid_box sh els : ovalid (OBox sh els) <-> Forall (fun n => 0 <= n) sh /\ Z.of_nat (length els) = prod sh /\ Forall ovalid els.
Proof.
  cbn [ovalid]. assert (E : forall l, (fix all (l : list obj) : Prop := match l with [] => True | x :: t => ovalid x /\ all t end) l <-> Forall ovalid l).
  { induction l as [|x t IH]; [split; constructor|]. rewrite Forall_cons_iff, <- IH. tauto. } rewrite E. tauto.
Qed.
Lemma oatom_ok w : odata (OAtom w) -> okatom w.
Proof.
  intros [V P]. cbn [ovalid oden plain] in *. split; auto. destruct (den_cases w (den_word w V)) as [(A&B&C)|[(A&B&C)|(A&B&C)]]; auto.
  rewrite C in P. destruct P as [[P|[? P]]|[? P]]; discriminate.
Qed.
Lemma den_k w : okatom w -> den w = if isC32 w then VChr (o2cG w) else if is_nan w then VNaN else VNum (fval w).
Proof.
  intros A. assert (W := den_word w (proj1 A)). destruct (okatom_cases w A) as [[F C]|[F C]]; rewrite C.
  - destruct (den_cases w W) as [(X&_&D)|[(X&_&D)|(X&_&D)]]; try congruence. unfold den in *. destruct (is_nan w); auto. destruct (_ <=? _); auto. destruct D as [D|[x D]]; destruct (_ =? _); discriminate.
  - destruct A as [[W' R] _]. destruct (den_cases w W) as [(X&Y&Q)|[(X&Y&Q)|(X&Y&Q)]]; try congruence. assert (L := R _ Q). destruct (o2c_chr w _ W Q L) as [_ O]. rewrite O. exact Q.
Qed.
Lemma chr_word_inj a b : okatom a -> okatom b -> isC32 a = true -> isC32 b = true -> den a = den b -> a = b.
Proof.
  intros A B CA CB E. assert (WA := den_word a (proj1 A)). assert (WB := den_word b (proj1 B)).
  assert (DA := den_k a A). rewrite CA in DA. assert (DB := den_k b B). rewrite CB in DB. rewrite E in DA.
  destruct (den_chr a (o2cG a) WA ltac:(congruence)) as (_&_&_&Ea). destruct (den_chr b (o2cG b) WB ltac:(congruence)) as (_&_&_&Eb). congruence.
Qed.
Lemma f_raw a : okatom a -> isF64 a = true -> raw_ok EF64 a.
Proof.
  intros A F. assert (W := den_word a (proj1 A)). split; auto. apply isF64_iff; auto.
Qed.
Lemma atom_eq_ok refl a b : okatom a -> okatom b -> exists r, atom_eq refl a b = Ok r /\ (r = true <-> veq refl (den a) (den b)).
Proof.
  intros A B. assert (WA := den_word a (proj1 A)). assert (WB := den_word b (proj1 B)). 
  assert (NV : forall w, okatom w -> isC32 w = true -> isVal w = false) by (intros w W C; apply direct_not_val; [apply den_word, W|rewrite C; auto]).
  assert (KC : forall w, okatom w -> isC32 w = true -> is_char (den w)) by (intros w W C; rewrite (den_k w W), C; eexists; eauto).
  assert (KN : forall w, okatom w -> isC32 w = false -> is_number (den w)) by (intros w W C; rewrite (den_k w W), C; destruct (is_nan w); [left|right]; eauto).
  assert (KD : is_number (den a) -> is_char (den b) -> den a <> den b) by (intros [->|[? ->]] [? ->]; discriminate).
  assert (KD' : is_char (den a) -> is_number (den b) -> den a <> den b) by (intros [? ->] [->|[? ->]]; discriminate).
  unfold atom_eq. destruct refl.
  - destruct (Z.eqb_spec a b) as [<-|NE]. { exists true. split; auto. split; auto. intros _; split; auto. }
    destruct (okatom_cases a A) as [[FA CA]|[FA CA]], (okatom_cases b B) as [[FB CB]|[FB CB]]; rewrite FA; rewrite ?FB; cbn [andb].
    + eexists; split; [reflexivity|]. apply fi_ok; apply f_raw; auto.
    + eexists; split; [reflexivity|]. split; [discriminate|]. intros [E _]. exfalso. apply KD; auto.
    + rewrite (NV a) by auto. eexists; split; [reflexivity|]. split; [discriminate|]. intros [E _]. exfalso. apply KD'; auto.
    + rewrite (NV a) by auto. eexists; split; [reflexivity|]. split; [discriminate|]. intros [E _]. elim NE. apply chr_word_inj; auto.
  - destruct (okatom_cases a A) as [[FA CA]|[FA CA]], (okatom_cases b B) as [[FB CB]|[FB CB]]; rewrite FA; rewrite ?FB; cbn [andb].
    + eexists; split; [reflexivity|]. rewrite <- ne_ff_ok by (apply f_raw; auto). unfold ne_ff. rewrite negb_false_iff. tauto.
    + eexists; split; [reflexivity|]. split; [discriminate|]. intros [E _]. exfalso. apply KD; auto.
    + destruct (Z.eqb_spec a b) as [<-|NE]; [congruence|]. rewrite (NV a) by auto. eexists; split; [reflexivity|]. split; [discriminate|]. intros [E _]. exfalso. apply KD'; auto.
    + destruct (Z.eqb_spec a b) as [<-|NE].
      * eexists; split; [reflexivity|]. split; auto. intros _; split; auto. right. destruct (KC a A CA) as [? ->]. discriminate.
      * rewrite (NV a) by auto. eexists; split; [reflexivity|]. split; [discriminate|]. intros [E _]. elim NE. apply chr_word_inj; auto.
Qed.
Lemma veq_deq refl a b : veq refl a b <-> deq refl (DAtom a) (DAtom b).
Proof. unfold veq, deq. cbn [nan_free]. split; intros [E H]; (split; [congruence|auto]). Qed.

(** ** Elements of arrays *)
Definition oels (o : obj) : list data := match oden o with DArr _ l => l | _ => [] end.
Lemma oden_els o : isAtom o = false -> oden o = DArr (o_shape o) (oels o).
Proof. destruct o; intros H; try discriminate; reflexivity. Qed.
Lemma oels_flat o : flat o -> oels o = map DAtom (flatv o).
Proof. intros F. unfold oels. rewrite oden_flat by auto. reflexivity. Qed.
Lemma oels_len o : isAtom o = false -> ovalid o -> Z.of_nat (length (oels o)) = prod (o_shape o) /\ 0 <= prod (o_shape o).
Proof.
  intros A V. destruct o; try discriminate; try (rewrite oels_flat, map_length by exact I; apply flat_len; auto; exact I).
  apply ovalid_box in V. destruct V as (S&L&_). cbn [o_shape]. unfold oels. cbn [oden]. rewrite map_length. split; auto. apply prod_nonneg; auto.
Qed.
Lemma getU_ok o i : isAtom o = false -> odata o -> (i < length (oels o))%nat ->
  exists b, getU o i = Ok b /\ odata b /\ nth i (oels o) (DAtom VNaN) = oden b /\ (flat o -> isAtom b = true).
Proof.
  intros A [V P] I. rewrite (oden_els o A), plain_arr in P.
  assert (PI : plain (nth i (oels o) (DAtom VNaN))) by (apply (Forall_nth_ok plain); auto).
  destruct o as [w|sh ws|sh t l|sh els]; [discriminate| | |].
  - assert (F : flat (OBits sh ws)) by exact Logic.I. assert (E : oels (OBits sh ws) = map DAtom (flatv (OBits sh ws))) by (apply oels_flat; auto).
    cbn [ovalid] in V. destruct V as (S1&S2&S3). cbn [getU]. rewrite E in I, PI. rewrite E. rewrite map_length in I. cbn [flatv] in I. rewrite map_length in I. unfold bits_of in I. rewrite map_length, seq_length in I.
    rewrite bitz_ok by lia. cbn [bind]. destruct (conv1_ok EBit EB (if mbit ws (Z.of_nat i) then 1 else 0)) as (y&Y&Y2&Y3). { cbn [raw_ok]. destruct (mbit _ _); lia. } { exact Logic.I. }
    rewrite Y. cbn [bind]. exists (OAtom y). split; auto.
    assert (Q : nth i (map DAtom (flatv (OBits sh ws))) (DAtom VNaN) = oden (OAtom y)) by (rewrite map_nth; cbn [oden flatv]; rewrite bit_v by auto; cbn [vof] in Y2; rewrite Y2; reflexivity).
    split; [split; [exact Y3|rewrite <- Q; exact PI]|]. split; auto.
  - assert (F : flat (OTyped sh t l)) by exact Logic.I. assert (E : oels (OTyped sh t l) = map DAtom (flatv (OTyped sh t l))) by (apply oels_flat; auto).
    cbn [ovalid] in V. destruct V as (S1&S2&S3&S4&S5). cbn [getU]. rewrite E in I, PI. rewrite E. rewrite map_length in I. cbn [flatv] in I. rewrite map_length in I.
    rewrite (rd_nth l i 0) by lia. cbn [bind]. destruct (conv1_ok t EB (nth i l 0)) as (y&Y&Y2&Y3). { apply Forall_nth_ok; auto. } { exact Logic.I. }
    rewrite Y. cbn [bind]. exists (OAtom y). split; auto.
    assert (Q : nth i (map DAtom (flatv (OTyped sh t l))) (DAtom VNaN) = oden (OAtom y)) by (rewrite map_nth; cbn [oden flatv]; rewrite typ_v by auto; cbn [vof] in Y2; rewrite Y2; reflexivity).
    split; [split; [exact Y3|rewrite <- Q; exact PI]|]. split; auto.
  - apply ovalid_box in V. destruct V as (S1&S2&S3). unfold oels in *. cbn [oden] in *. rewrite map_length in I. cbn [getU]. rewrite (rd_nth els i (OAtom 0)) by lia. eexists. split; [reflexivity|].
    rewrite (nth_indep _ _ (oden (OAtom 0))) in * by (rewrite map_length; auto). rewrite map_nth in *. split; [|split; [auto|intros []]]. split; auto. apply Forall_nth_ok; auto.
Qed.
Lemma eqShPart_iff a : forall b, eqShPart a b = true <-> a = b.
Proof.
  induction a as [|x a IH]; intros [|y b]; cbn [eqShPart]; try (split; (discriminate || reflexivity)). rewrite andb_true_iff, Z.eqb_eq, IH. split; [intros [-> ->]; auto|intros E; injection E; auto].
Qed.
Lemma same_shape_iff w x : same_shape w x = true <-> o_shape w = o_shape x.
Proof.
  unfold same_shape. cbv zeta. destruct (Nat.eqb_spec (length (o_shape w)) (length (o_shape x))) as [L|L]; cbn [negb].
  - destruct (Nat.eqb_spec (length (o_shape w)) 1) as [L1|L1].
    + destruct (o_shape w) as [|n [|]], (o_shape x) as [|m [|]]; cbn in L, L1; try lia. unfold prod. cbn [fold_right]. rewrite Z.eqb_eq. split; [intros; f_equal; lia|intros E; injection E as ->; auto].
    + apply eqShPart_iff.
  - split; [discriminate|]. intros E. rewrite E in L. lia.
Qed.
Lemma deq_arr refl sh l1 l2 : length l1 = length l2 -> (deq refl (DArr sh l1) (DArr sh l2) <-> Forall2 (deq refl) l1 l2).
Proof.
  intros L. unfold deq at 1. rewrite nan_free_arr. split.
  - intros [E N]. injection E as <-. clear L. destruct N as [N|N].
    + induction l1; constructor; auto. split; auto.
    + induction N; constructor; auto. split; auto.
  - intros F. assert (E : l1 = l2) by (clear L; induction F as [|? ? ? ? [H _]]; congruence). split; [congruence|].
    destruct refl; auto. right. clear L E. induction F as [|? ? ? ? [_ [?|H]]]; constructor; auto. discriminate.
Qed.

Definition good (refl : bool) (w x : obj) : Prop := exists b, equal_ refl w x = Ok b /\ (b = true <-> deq refl (oden w) (oden x)).
Lemma good_atom refl a x : okatom a -> odata x -> exists b, eq_atom refl a x = Ok b /\ (b = true <-> deq refl (DAtom (den a)) (oden x)).
Proof.
  intros A X. unfold eq_atom. destruct x as [w| | |]; try (eexists; split; [reflexivity|]; split; [discriminate|]; intros [E _]; discriminate).
  apply oatom_ok in X. destruct (atom_eq_ok refl a w A X) as (r&E&H). exists r. split; auto. rewrite H. cbn [oden]. apply veq_deq.
Qed.
Lemma nth_rel refl w x n (P : nat -> Prop) : length (oels w) = n -> length (oels x) = n -> (forall i, (i < n)%nat -> (P i <-> deq refl (nth i (oels w) (DAtom VNaN)) (nth i (oels x) (DAtom VNaN)))) ->
  (Forall2 (deq refl) (oels w) (oels x) <-> forall i, (i < n)%nat -> P i).
Proof.
  intros L1 L2 H. rewrite (Forall2_nth (deq refl) (DAtom VNaN)) by lia. rewrite L1. split; intros K i I; [apply H|apply H]; auto.
Qed.
Lemma slow_flat_ok refl w x n : forall i, flat w -> isAtom x = false -> odata w -> odata x -> (i + n <= length (oels w))%nat -> length (oels x) = length (oels w) ->
  exists b, slow_flat refl n i w x = Ok b /\ (b = true <-> forall j, (i <= j < i + n)%nat -> deq refl (nth j (oels w) (DAtom VNaN)) (nth j (oels x) (DAtom VNaN))).
Proof.
  induction n as [|n IH]; intros i F AX W X L LX.
  - exists true. split; auto. split; auto. intros; lia.
  - cbn [slow_flat]. assert (AW : isAtom w = false) by (destruct w; auto; destruct F).
    destruct (getU_ok x i AX X ltac:(lia)) as (b&-> &B1&B2&_). destruct (getU_ok w i AW W ltac:(lia)) as (a&-> &A1&A2&A3). cbn [bind].
    destruct a as [a| | |]; try (specialize (A3 F); discriminate). assert (OA := oatom_ok _ A1). destruct (good_atom refl a b OA B1) as (r&Er&Hr). rewrite Er. cbn [bind].
    cbn [oden] in A2. destruct r; cbn [negb].
    + destruct (IH (S i)) as (r&E&Q); auto; try lia. exists r. split; auto. rewrite Q. split; intros K j J.
      * destruct (Nat.eq_dec j i) as [ -> |]; [rewrite A2, B2; apply Hr; auto|apply K; lia].
      * apply K; lia.
    + exists false. split; auto. split; [discriminate|]. intros K. specialize (K i ltac:(lia)). rewrite A2, B2 in K. apply Hr in K. discriminate.
Qed.
Definition slow (refl : bool) (x : obj) := fix slow (l : list obj) (n i : nat) : res bool :=
  match n with
  | O => Ok true
  | S n => match l with [] => UB | a :: l => do b <- getU x i; do e <- equal_ refl a b; if negb e then Ok false else slow l n (S i) end
  end.
Lemma slow_ok refl x l : forall i, Forall (fun a => forall b, odata a -> odata b -> good refl a b) l -> Forall odata l -> isAtom x = false -> odata x -> (i + length l <= length (oels x))%nat ->
  exists b, slow refl x l (length l) i = Ok b /\ (b = true <-> forall j, (j < length l)%nat -> deq refl (nth j (map oden l) (DAtom VNaN)) (nth (i + j) (oels x) (DAtom VNaN))).
Proof.
  induction l as [|a l IH]; intros i G D AX X L.
  - exists true. split; auto. split; auto. cbn. intros; lia.
  - cbn [slow length]. inversion G as [|? ? G1 G2]; inversion D as [|? ? D1 D2]; subst. cbn [length] in L. destruct (getU_ok x i AX X ltac:(lia)) as (b&-> &B1&B2&_). cbn [bind].
    destruct (G1 b D1 B1) as (r&-> &Hr). cbn [bind]. fold (slow refl x). destruct r; cbn [negb].
    + destruct (IH (S i)) as (r&E&Q); auto; try lia. exists r. split; auto. rewrite Q. split; intros K j J.
      * destruct j as [|j]; cbn [map nth]. { rewrite Nat.add_0_r, B2. apply Hr; auto. } specialize (K j ltac:(lia)). replace (i + S j)%nat with (S i + j)%nat by lia. exact K.
      * specialize (K (S j) ltac:(lia)). replace (i + S j)%nat with (S i + j)%nat in K by lia. exact K.
    + exists false. split; auto. split; [discriminate|]. intros K. specialize (K 0%nat ltac:(lia)). cbn [map nth] in K. rewrite Nat.add_0_r, B2 in K. apply Hr in K. discriminate.
Qed.

Lemma arr_case refl w x (r : res bool) : isAtom w = false -> odata w -> odata x ->
  (isAtom x = false -> o_shape w = o_shape x -> length (oels w) = length (oels x) -> 0 < prod (o_shape x) -> exists b, r = Ok b /\ (b = true <-> Forall2 (deq refl) (oels w) (oels x))) ->
  exists b, (if isAtom x then Ok false else if negb (same_shape w x) then Ok false else let ia := prod (o_shape x) in if ia =? 0 then Ok true else r) = Ok b /\ (b = true <-> deq refl (oden w) (oden x)).
Proof.
  intros AW [W PW] [X PX] H. rewrite (oden_els w AW). destruct (isAtom x) eqn:AX.
  { destruct x; try discriminate. exists false. split; auto. split; [discriminate|]. intros [E _]. discriminate. }
  rewrite (oden_els x AX). destruct (same_shape w x) eqn:S; cbn [negb].
  - apply same_shape_iff in S. cbv zeta. destruct (oels_len w AW W) as [LW PNW]. destruct (oels_len x AX X) as [LX PNX]. rewrite S in LW. assert (L : length (oels w) = length (oels x)) by lia.
    rewrite S. destruct (Z.eqb_spec (prod (o_shape x)) 0) as [Z0|Z0].
    + exists true. split; auto. split; auto. intros _. rewrite deq_arr by auto. destruct (oels w), (oels x); cbn in *; try lia. constructor.
    + destruct (H eq_refl S L ltac:(lia)) as (b&E&Hb). exists b. split; auto. rewrite Hb. symmetry. apply deq_arr; auto.
  - exists false. split; auto. split; [discriminate|]. intros [E _]. injection E as E _. apply same_shape_iff in E. congruence.
Qed.
Lemma veq_deq_list refl l1 : forall l2, Forall2 (veq refl) l1 l2 <-> Forall2 (deq refl) (map DAtom l1) (map DAtom l2).
Proof.
  induction l1 as [|a l1 IH]; intros [|b l2]; cbn [map]; split; intros H; inversion H; subst; constructor; try (apply veq_deq; auto; fail); apply IH; auto.
Qed.
Lemma flat_case refl w x : flat w -> odata w -> odata x -> isAtom x = false -> o_shape w = o_shape x -> length (oels w) = length (oels x) -> 0 < prod (o_shape x) ->
  exists b, (match x with OBox _ _ => slow_flat refl (Z.to_nat (prod (o_shape x))) 0 w x | _ => match_call refl (o_elt w) (o_elt x) (o_mem w) (o_mem x) (prod (o_shape x)) end) = Ok b /\ (b = true <-> Forall2 (deq refl) (oels w) (oels x)).
Proof.
  intros F W X AX S L PP. assert (AW : isAtom w = false) by (destruct w; auto; destruct F).
  assert (FL : flat x -> exists b, match_call refl (o_elt w) (o_elt x) (o_mem w) (o_mem x) (prod (o_shape x)) = Ok b /\ (b = true <-> Forall2 (deq refl) (oels w) (oels x))).
  { intros FX. destruct (match_call_ok refl w x F FX (proj1 W) (proj1 X) ltac:(congruence) PP) as (b&E&H). exists b. split; auto. rewrite H, !oels_flat by auto. apply veq_deq_list. }
  destruct (oels_len x AX (proj1 X)) as [LX _].
  destruct x as [|sh ws|sh t l|sh els]; [discriminate|apply FL; exact I|apply FL; exact I|].
  destruct (slow_flat_ok refl w (OBox sh els) (Z.to_nat (prod (o_shape (OBox sh els)))) 0 F AX W X) as (b&E&H); try lia. exists b. split; auto.
  rewrite H. rewrite forall_range0. symmetry. apply nth_rel; try lia. intros; tauto.
Qed.
Lemma equal_ok refl w : forall x, odata w -> odata x -> good refl w x.
Proof.
  induction w as [a|sh ws|sh t l|sh els IH] using obj_ind'; intros x W X; unfold good.
  - cbn [equal_]. apply good_atom; auto. apply oatom_ok; auto.
  - cbn [equal_]. apply (arr_case refl (OBits sh ws) x); auto. intros. apply flat_case; auto. exact I.
  - cbn [equal_]. apply (arr_case refl (OTyped sh t l) x); auto. intros. apply flat_case; auto. exact I.
  - cbn [equal_]. apply (arr_case refl (OBox sh els) x); auto. intros AX S L PP.
    assert (DE : Forall odata els).
    { destruct W as [V P]. apply ovalid_box in V. destruct V as (_&_&V). cbn [oden] in P. apply plain_arr in P. rewrite Forall_forall in *. intros o O. split; auto. apply P. apply in_map; auto. }
    assert (LE : length els = length (oels (OBox sh els))) by (unfold oels; cbn [oden]; rewrite map_length; auto).
    destruct (oels_len x AX (proj1 X)) as [LX _].
    destruct (slow_ok refl x els 0) as (b&E&H); auto; [lia|]. exists b.
    fold (slow refl x). replace (Z.to_nat (prod (o_shape x))) with (length els) by lia. split; auto. rewrite H. symmetry. apply nth_rel; try lia. intros; tauto.
Qed.
