(** C20: index-of, member-of and progressive index-of find exactly the first (unused) matching element. *)
From Verif Require Import Base BitsModel BitsSpec BitsProof BitsProof2 BitsThm TagModel TagSpec TagProof NumSpec NumProof ArrSpec DataSpec SqueezeModel SqueezeSpec SqueezeProof MatchModel MatchSpec MatchProof MatchProof2 ListLib HashModel HashSpec HashProof SearchModel SearchSpec SearchProof SearchChain SearchFlat SearchTab SearchMany SearchMany2.
From Coq Require Import List.

(** ** From stored elements to data *)
Lemma rank1_arr w : rank1 (oden (erase w)) -> isAtom (erase w) = false.
Proof. intros (n&l&E). destruct w; [discriminate|reflexivity|reflexivity|reflexivity]. Qed.
Lemma oels_els o : isAtom (erase o) = false -> oels (erase o) = els (oden (erase o)).
Proof. destruct o; [discriminate|reflexivity|reflexivity|reflexivity]. Qed.
Lemma xels_ok x : sval x -> exists xl, xels x = Ok xl /\ map (fun h => oden (erase h)) xl = els (oden (erase x)) /\ Forall okh xl.
Proof.
  intros X. destruct (isAtom (erase x)) eqn:A.
  - destruct x as [u| | |]; try discriminate. exists [HAtom u]. split; [reflexivity|]. split; [reflexivity|]. constructor; auto. apply sval_okh; auto.
  - destruct (elems_ok x A (sval_okh x X)) as (l&E&M&O&_). exists l. rewrite oels_els in M by auto. split; [destruct x; [discriminate|exact E|exact E|exact E]|auto].
Qed.
Lemma pos_first wl e : Forall okh wl -> okh e -> first_at (map (fun h => oden (erase h)) wl) (oden (erase e)) (pos_in wl e).
Proof.
  intros W E. rewrite Forall_forall in W. destruct (proj1 (scan_spec (fun a => EQH a e) wl _) eq_refl) as [H1 H2]. fold (pos_in wl e) in H1, H2. split.
  - intros k d' N L. rewrite nth_error_map in N. destruct (nth_error wl k) as [a|] eqn:Na; [|discriminate]. injection N as <-. intros S1. apply (EQH_ok a e) in S1; [|apply W; eapply nth_error_In; eauto|auto]. rewrite (H1 k a Na L) in S1. discriminate.
  - rewrite map_length. destruct H2 as [H2|(i&a&H2&N&Ea)]; [left; auto|]. right. exists i, (oden (erase a)). rewrite nth_error_map, N. split; auto. split; auto. apply (EQH_ok a e); auto. apply W. eapply nth_error_In; eauto.
Qed.
Lemma mem_member xl e : Forall okh xl -> okh e -> member (map (fun h => oden (erase h)) xl) (oden (erase e)) (mem_in xl e).
Proof.
  intros W E. rewrite Forall_forall in W. unfold member, mem_in. rewrite existsb_exists. split.
  - intros (a&Ha&Ea). exists (oden (erase a)). split; [apply (in_map (fun h => oden (erase h))); auto|]. apply (EQH_ok a e); auto.
  - intros (d&Hd&S1). apply in_map_iff in Hd. destruct Hd as (a&<-&Ha). exists a. split; auto. apply (EQH_ok a e); auto.
Qed.
Lemma chain_progressive wl : Forall okh wl -> forall xl js used, Forall okh xl -> chain_ok EQH wl used xl js -> length js = length xl /\
  forall j d i, nth_error (map (fun h => oden (erase h)) xl) j = Some d -> nth_error js j = Some i -> first_free (map (fun h => oden (erase h)) wl) (used ++ firstn j js) d i.
Proof.
  intros W. pose proof W as W'. rewrite Forall_forall in W'. induction xl as [|x xl IH]; intros js used X C; destruct js as [|j0 js]; cbn [chain_ok] in C; try destruct C as []; [split; auto; intros [] d i N; discriminate|].
  apply Forall_cons_iff in X. destruct X as [X1 X]. destruct (IH js (used ++ [j0]) X H0) as [L R]. split; [cbn; lia|]. intros [|j] d i Nd Ni; cbn [map nth_error firstn] in *.
  - injection Nd as <-. injection Ni as <-. rewrite app_nil_r. destruct H as (H1&H2&H3). split.
    + intros k d' N L' S1. rewrite nth_error_map in N. destruct (nth_error wl k) as [a|] eqn:Na; [|discriminate]. injection N as <-. eapply H2; eauto. apply (EQH_ok a x); auto. apply W'. eapply nth_error_In; eauto.
    + rewrite map_length. destruct H3 as [H3|(i&a&H3&N&Ea&U)]; [left; auto|]. right. exists i, (oden (erase a)). rewrite nth_error_map, N. split; auto. split; auto. split; auto. apply (EQH_ok a x); auto. apply W'. eapply nth_error_In; eauto.
  - specialize (R j d i Nd Ni). rewrite <- app_assoc in R. exact R.
Qed.
Lemma list_len w : rank1 (oden (erase w)) -> okh w -> h_ia w = Z.of_nat (length (els (oden (erase w)))).
Proof. intros R O. pose proof (rank1_arr w R) as A. rewrite <- oels_els by auto. symmetry. apply hlen; auto. Qed.

Section Thm.
(** The float conversion, the mixing functions and constants of the hash, and memory beyond the end of arrays, are arbitrary. *)
Context (cast : Z -> Z) (wyhash64 : Z -> Z -> Z) (wyhash : list Z -> Z -> list Z -> Z) (s0 s1 s2 s3 nan0 : Z) (junk : nat -> bool).
Notation indexOf_c2 := (indexOf_c2 cast wyhash64 wyhash s0 s1 s2 s3 nan0 junk).
Notation memberOf_c2 := (memberOf_c2 cast wyhash64 wyhash s0 s1 s2 s3 nan0 junk).
Notation count_c2 := (count_c2 cast wyhash64 wyhash s0 s1 s2 s3 nan0 junk).

(** w⊐x: for a list w of fewer than 2^31 elements and any value x, each result is the position of the first element of w that matches the element
    of x, or the length of w. Missing from C20: w of higher rank. *)
Theorem C20_index_of_partial : cast_ok cast -> mixers wyhash64 wyhash s3 -> forall same w x, sval w -> sval x -> rank1 (oden (erase w)) -> (same = true -> w = x) ->
  Z.of_nat (length (els (oden (erase w)))) < 2 ^ 31 ->
  exists r, indexOf_c2 same w x = Ok r /\ Forall2 (first_at (els (oden (erase w)))) (els (oden (erase x))) r.
Proof.
  intros CG MX sm w x W X R Sm Len. pose proof (rank1_arr w R) as A. pose proof (sval_okh w W) as Ow. destruct (elems_ok w A Ow) as (wl&Ew&Mw&Fw&Lw). destruct (xels_ok x X) as (xl&Ex&Mx&Fx).
  exists (map (pos_in wl) xl). split. { apply indexOf_c2_ok; auto. rewrite (list_len w R Ow). auto. }
  rewrite <- oels_els, <- Mw, <- Mx by auto. clear - Fw Fx. induction Fx; cbn [map]; constructor; auto. apply pos_first; auto.
Qed.
(** w∊x: for a list x and any value w, each result tells whether x has an element that matches the element of w. *)
Theorem C20_member_of_partial : cast_ok cast -> mixers wyhash64 wyhash s3 -> forall same w x, sval w -> sval x -> rank1 (oden (erase x)) -> (same = true -> w = x) ->
  exists r, memberOf_c2 same w x = Ok r /\ Forall2 (member (els (oden (erase x)))) (els (oden (erase w))) r.
Proof.
  intros CG MX sm w x W X R Sm. pose proof (rank1_arr x R) as A. pose proof (sval_okh x X) as Ox. destruct (elems_ok x A Ox) as (xl&Ex&Mx&Fx&Lx). destruct (xels_ok w W) as (wl&Ew&Mw&Fw).
  exists (map (mem_in xl) wl). split. { apply memberOf_c2_ok; auto. }
  rewrite <- oels_els, <- Mw, <- Mx by auto. clear - Fw Fx. induction Fw; cbn [map]; constructor; auto. apply mem_member; auto.
Qed.
(** w⊒x: each result is the position of the first matching element of w that no earlier result has used. *)
Theorem C20_progressive_index_of_partial : cast_ok cast -> mixers wyhash64 wyhash s3 -> forall w x, sval w -> sval x -> rank1 (oden (erase w)) ->
  Z.of_nat (length (els (oden (erase w)))) < 2 ^ 31 ->
  exists r, count_c2 w x = Ok r /\ progressive (els (oden (erase w))) (els (oden (erase x))) r.
Proof.
  intros CG MX w x W X R Len. pose proof (rank1_arr w R) as A. pose proof (sval_okh w W) as Ow. destruct (elems_ok w A Ow) as (wl&Ew&Mw&Fw&Lw). destruct (xels_ok x X) as (xl&Ex&Mx&Fx).
  destruct (count_c2_ok cast wyhash64 wyhash s0 s1 s2 s3 nan0 junk CG MX w x wl xl) as (js&E&C); auto. { rewrite (list_len w R Ow). auto. }
  exists js. split; auto. destruct (chain_progressive wl Fw xl js [] Fx C) as [L P]. rewrite <- oels_els, <- Mw, <- Mx by auto. split; [rewrite map_length; auto|]. exact P.
Qed.
(** The results of w⊐x do not depend on how the arguments are stored. *)
Theorem C20_representation_independent : cast_ok cast -> mixers wyhash64 wyhash s3 -> forall w w' x x', sval w -> sval w' -> sval x -> sval x' -> rank1 (oden (erase w)) -> Z.of_nat (length (els (oden (erase w)))) < 2 ^ 31 ->
  oden (erase w) = oden (erase w') -> oden (erase x) = oden (erase x') ->
  indexOf_c2 false w x = indexOf_c2 false w' x' /\ memberOf_c2 false x w = memberOf_c2 false x' w'.
Proof.
  intros CG MX w w' x x' W W' X X' R Len Qw Qx.
  assert (U : forall W d i j, first_at W d i -> first_at W d j -> i = j).
  { intros V d i j [A1 A2] [B1 B2]. destruct (Z.lt_trichotomy i j) as [L|[L|L]]; auto; exfalso.
    - destruct A2 as [A2|(k&d'&-> &N&S1)]; [|exact (B1 k d' N L S1)]. destruct B2 as [B2|(k&d'&-> &N&S1)]; [lia|]. apply nth_error_Some_lt in N. lia.
    - destruct B2 as [B2|(k&d'&-> &N&S1)]; [|exact (A1 k d' N L S1)]. destruct A2 as [A2|(k&d'&-> &N&S1)]; [lia|]. apply nth_error_Some_lt in N. lia. }
  split.
  - destruct (C20_index_of_partial CG MX false w x) as (r&E&F); auto; [discriminate|]. destruct (C20_index_of_partial CG MX false w' x') as (r'&E'&F'); auto; try (rewrite <- Qw; auto); [discriminate|]. rewrite E, E'. f_equal. rewrite <- Qw, <- Qx in F'.
    clear - F F' U. revert r' F'. induction F as [|d i l r H F IH]; intros r' F'; inversion F'; subst; auto. f_equal; [eapply U; eauto|auto].
  - destruct (C20_member_of_partial CG MX false x w) as (r&E&F); auto; [discriminate|]. destruct (C20_member_of_partial CG MX false x' w') as (r'&E'&F'); auto; try (rewrite <- Qw; auto); [discriminate|]. rewrite E, E'. f_equal. rewrite <- Qw, <- Qx in F'.
    clear - F F'. revert r' F'. induction F as [|d b l r H F IH]; intros r' F'; inversion F'; subst; auto. f_equal; auto. apply bool_eq_iff. unfold member in *. tauto.
Qed.
End Thm.
Print Assumptions C20_index_of_partial.
Print Assumptions C20_member_of_partial.
Print Assumptions C20_progressive_index_of_partial.
Print Assumptions C20_representation_independent.

(** The bound on the length is needed: looking up ⟨1,1⟩ in a bit list of 2^31 zeroes gives negative positions. *)
Definition big : hobj := HBits {| h_sq := false; h_asc := false; h_dsc := false |} [2 ^ 31] (repeat 0 (Z.to_nat (2 ^ 25 + 1))).
Definition ones : hobj := HTyped {| h_sq := false; h_asc := false; h_dsc := false |} [2] EI8 [1; 1].
Lemma ones_sval : sval ones.
Proof.
  split; [split; cbn [ones erase ovalid oden plain]|split; [|exact Logic.I]].
  - split; [repeat constructor; lia|]. split; [discriminate|]. split; [discriminate|]. split; [reflexivity|]. repeat constructor; cbn; lia.
  - cbn [map]. repeat split; left; right; eexists; reflexivity.
  - cbn [ones hflags_ok]. unfold flags_ok. cbn [with_fl a_sq a_asc a_dsc h_sq h_asc h_dsc]. split; [discriminate|split; discriminate].
Qed.
Lemma mbit_zero m n : mbit (repeat 0 m) n = false.
Proof. unfold mbit. replace (nth (Z.to_nat (n / 64)) (repeat 0 m) 0) with 0; [apply Z.testbit_0_l|]. symmetry. destruct (Nat.lt_ge_cases (Z.to_nat (n / 64)) m); [apply nth_repeat|apply nth_overflow; rewrite repeat_length; auto]. Qed.
Lemma big_sval : sval big.
Proof.
  assert (P : prod [2 ^ 31] = 2 ^ 31) by reflexivity. assert (L : Z.of_nat (length (repeat 0 (Z.to_nat (2 ^ 25 + 1)))) = 2 ^ 25 + 1) by (rewrite repeat_length, Z2Nat.id; lia).
  split; [split; cbn [big erase ovalid oden]|split].
  - split; [repeat constructor; lia|]. split; [apply Forall_forall; intros w Hw; apply repeat_spec in Hw; subst; lia|]. rewrite L, P. lia.
  - generalize (bits_of (repeat 0 (Z.to_nat (2 ^ 25 + 1))) 0 (prod [2 ^ 31])). intros l. cbn [plain]. induction l; cbn [map]; auto. split; auto. left. right. eexists. reflexivity.
  - cbn [big hflags_ok]. unfold flags_ok. cbn [with_fl a_sq a_asc a_dsc h_sq h_asc h_dsc]. split; [discriminate|split; discriminate].
  - cbn [big padded]. rewrite L, P. reflexivity.
Qed.

Lemma zeros_run n ws f : n = 2 ^ 31 -> words ws -> n / 64 < Z.of_nat (length ws) -> (forall k, mbit ws k = false) ->
  forall cast wyhash64 wyhash s0 s1 s2 s3 nan0 junk, indexOf_c2 cast wyhash64 wyhash s0 s1 s2 s3 nan0 junk false (HBits f [n] ws) ones = Ok [- 2 ^ 31; - 2 ^ 31].
Proof.
  intros N Hw Lw Zb. intros. unfold indexOf_c2. cbn [ones]. change (length (h_shape ones) =? 0)%nat with false. cbn iota. unfold indexOf_many. change (h_ia ones) with 2.
  assert (I : h_ia (HBits f [n] ws) = n) by (unfold h_ia, h_shape; cbn [erase o_shape prod fold_right]; unfold prod; cbn; destruct n; lia). rewrite I. cbv zeta.
  assert (C : (n =? 0) || (2 =? 0) = false) by (subst n; reflexivity). rewrite C. change (check_chrs (HBits f [n] ws) ones) with (Flat (HBits f [n] ws) ones EBit EI8). cbn iota.
  assert (C2 : (32 <? n) && (2 <=? (if elt_no EBit <=? 1 then 1 else 3)) = false) by (cbn [elt_no]; destruct (32 <? n); reflexivity). rewrite C2. change (elt_no EBit =? 0) with true. cbn iota.
  rewrite bitz_ok by lia. rewrite Zb. cbn [bind]. change (negb (0 =? 0)) with false. change (negb false) with true.
  rewrite C13_find_first by (auto; lia).
  assert (FI : first_index true (bits_of ws 0 n) = n).
  { rewrite first_index_scan, scan_const; [unfold bits_of; rewrite map_length, seq_length; lia|]. apply Forall_forall. intros b Hb. apply in_map_iff in Hb. destruct Hb as (i&<-&_). rewrite Zb. reflexivity. }
  rewrite FI. cbn [bind]. replace (eq_each (HAtom (of_int (b2z false))) ones) with (Ok [false; false]) by (vm_compute; reflexivity). cbn [bind map]. rewrite Z.eqb_refl. rewrite N. reflexivity.
Qed.
Theorem C20_long_list_refuted : exists w x, sval w /\ sval x /\ rank1 (oden (erase w)) /\ Z.of_nat (length (els (oden (erase w)))) = 2 ^ 31 /\
  forall cast wyhash64 wyhash s0 s1 s2 s3 nan0 junk, indexOf_c2 cast wyhash64 wyhash s0 s1 s2 s3 nan0 junk false w x = Ok [- 2 ^ 31; - 2 ^ 31] /\ ~ first_at (els (oden (erase w))) (DAtom (VNum one)) (- 2 ^ 31).
Proof.
  exists big, ones. pose proof big_sval as B. assert (R : rank1 (oden (erase big))) by (eexists; eexists; reflexivity).
  assert (L : Z.of_nat (length (els (oden (erase big)))) = 2 ^ 31) by (rewrite <- (list_len big R (sval_okh _ B)); reflexivity).
  split; [exact B|]. split; [apply ones_sval|]. split; [exact R|]. split; [exact L|]. intros. split.
  - unfold big. apply zeros_run; [reflexivity|apply Forall_forall; intros w Hw; apply repeat_spec in Hw; subst; lia| |intros k; apply mbit_zero].
    rewrite repeat_length, Z2Nat.id by lia. reflexivity.
  - intros [_ [H|(k&d&H&_)]]; [rewrite L in H|]; lia.
Qed.
Print Assumptions C20_long_list_refuted.

(** Examples: lists of each kind of storage, with equal values stored differently, meet the hypotheses. *)
Definition nf : hfl := {| h_sq := false; h_asc := false; h_dsc := false |}.
Definition ex_w : hobj := HBox nf [3] [HAtom (of_int 5); HTyped nf [1] EC8 [97]; HTyped nf [2] EI16 [1; 1]].
Definition ex_x : hobj := HBox nf [2; 1] [ones; HAtom (of_int 6)].
Lemma ex_sval : sval ex_w /\ sval ex_x /\ rank1 (oden (erase ex_w)).
Proof.
  assert (V : forall t l, flags_ok (with_fl nf t l)) by (intros; unfold flags_ok; cbn; split; [discriminate|split; discriminate]).
  assert (Num : forall n, 0 <= n <= 10 -> is_number (den (of_int n)) /\ raw_ok EB (of_int n)).
  { intros n Hn. destruct (cv_ok EI8 n) as (C&D&O); [cbn; lia|]. assert (Q : cv EI8 n = of_int n) by reflexivity. rewrite <- Q. split; auto. rewrite D. right. eexists. reflexivity. }
  destruct ones_sval as ((V1&P1)&F1&_).
  split; [|split; [|eexists; eexists; reflexivity]].
  - split; [split|split; [|exact Logic.I]]; cbn [ex_w erase ovalid oden plain map hflags_ok].
    + split; [repeat constructor; lia|]. split; [reflexivity|]. split; [apply Num; lia|]. split; [|split; [|exact Logic.I]]; (split; [repeat constructor; lia|]; split; [discriminate|]; split; [discriminate|]; split; [reflexivity|]; repeat constructor; cbn; lia).
    + split; [left; apply Num; lia|]. split; [split; [right; eexists; reflexivity|exact Logic.I]|]. split; [|exact Logic.I]. repeat split; left; right; eexists; reflexivity.
    + split; [apply V|]. repeat split; try discriminate.
  - split; [split|split; [|exact Logic.I]]; cbn [ex_x erase ovalid oden plain map hflags_ok].
    + split; [repeat constructor; lia|]. split; [reflexivity|]. split; [exact V1|]. split; [apply Num; lia|exact Logic.I].
    + split; [exact P1|]. split; [left; apply Num; lia|exact Logic.I].
    + split; [apply V|]. split; [exact F1|]. split; exact Logic.I.
Qed.
Definition mix64 (a b : Z) : Z := (a * 31 + b * 17 + 7) mod 2 ^ 64.
Definition mixl (l : list Z) (a : Z) (s : list Z) : Z := fold_left mix64 l a mod 2 ^ 64.
Example C20_example : mixers mix64 mixl 5 /\
  indexOf_c2 (fun z => z) mix64 mixl 1 2 3 5 0 (fun _ => false) false ex_w ex_x = Ok [2; 3] /\
  indexOf_c2 (fun z => z) mix64 mixl 1 2 3 5 0 (fun _ => false) false ones (HTyped nf [3] EF64 [of_int 0; of_int 1; of_int 1]) = Ok [2; 0; 0] /\
  memberOf_c2 (fun z => z) mix64 mixl 1 2 3 5 0 (fun _ => false) false ex_x ex_w = Ok [true; false] /\
  count_c2 (fun z => z) mix64 mixl 1 2 3 5 0 (fun _ => false) ones (HTyped nf [4] EI16 [1; 7; 1; 1]) = Ok [0; 2; 1; 2].
Proof.
  split. { split; [intros; apply Z.mod_pos_bound; lia|]. split; [intros; apply Z.mod_pos_bound; lia|lia]. }
  repeat (split; [vm_compute; reflexivity|]). vm_compute. reflexivity.
Qed.
