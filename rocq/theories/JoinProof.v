From Verif Require Import Base SqueezeModel TransSpec JoinModel JoinSpec.
Open Scope Z_scope.
Section J.
Context {A : Type}.
Notation arr := (list nat * list A)%type.
Implicit Types (P : list arr) (c : arr) (t : list nat).

Definition compat P : Prop := exists t, Forall (fits t) P.
Definition allrank P (r : nat) : Prop := Forall (fun a => length (fst a) = r) P.

Lemma count_app t P Q : count t (P ++ Q) = (count t P + count t Q)%nat.
Proof. induction P; cbn [count fold_right app]; [reflexivity|]. unfold count in *. lia. Qed.
Lemma count_1 t c : count t [c] = ncells t c.
Proof. unfold count; cbn [fold_right]. lia. Qed.
Lemma count_cells t P : Forall (fun a => fst a = t) P -> count t P = length P.
Proof.
  induction 1 as [|a P H _ IH]; [reflexivity|]. cbn [count fold_right length]. unfold count in IH. rewrite IH.
  unfold ncells. rewrite H, Nat.eqb_refl. lia.
Qed.
Lemma to_u_add a b : to_u 32 (to_u 32 a + b) = to_u 32 (a + b).
Proof. unfold to_u. apply Z.add_mod_idemp_l. lia. Qed.

Lemma rd_nth {B} (l : list B) i a : nth_error l i = Some a -> rd l i = Ok a.
Proof. intros H. unfold rd. rewrite H. reflexivity. Qed.

(** the shape seen through esh is t *)
Definition esh_is (s0 : list nat) (e : option nat) (t : list nat) : Prop :=
  match e with None => t = [] | Some o => skipn o s0 = t end.
Lemma nth_skipn {B} (l : list B) : forall o i, nth_error (skipn o l) i = nth_error l (o + i).
Proof. induction l as [|a l IH]; intros [|o] i; cbn [skipn Nat.add nth_error]; auto. destruct i; reflexivity. Qed.
Lemma esh_at_ok s0 e t i a : esh_is s0 e t -> nth_error t i = Some a -> esh_at s0 e i = Ok a.
Proof.
  unfold esh_is, esh_at. destruct e as [o|]; intros H N.
  - apply rd_nth. rewrite <- H, nth_skipn in N. exact N.
  - subst. destruct i; discriminate.
Qed.
Lemma eq_part_ok s0 e t w : esh_is s0 e t -> length w = length t -> forall n i, (i + n = length t)%nat ->
  (skipn i w = skipn i t /\ eq_part w s0 e n i = Ok true) \/ (skipn i w <> skipn i t /\ eq_part w s0 e n i = Ok false).
Proof.
  intros E L. induction n as [|n IH]; intros i Hi; cbn [eq_part].
  - left. split; [|reflexivity]. rewrite !skipn_all2 by lia. reflexivity.
  - destruct (nth_error w i) as [a|] eqn:Na; [|apply nth_error_None in Na; lia].
    destruct (nth_error t i) as [b|] eqn:Nb; [|apply nth_error_None in Nb; lia].
    rewrite (rd_nth _ _ _ Na), (esh_at_ok _ _ _ _ _ E Nb). cbn [bind].
    assert (S1 : skipn i w = a :: skipn (S i) w).
    { clear -Na. revert i Na. induction w; intros [|i] Na; cbn in *; try discriminate; [congruence|auto]. }
    assert (S2 : skipn i t = b :: skipn (S i) t).
    { clear -Nb. revert i Nb. induction t; intros [|i] Nb; cbn in *; try discriminate; [congruence|auto]. }
    destruct (Nat.eqb_spec a b) as [->|D].
    + destruct (IH (S i) ltac:(lia)) as [[H1 H2]|[H1 H2]]; [left|right]; (split; [|exact H2]); rewrite S1, S2; congruence.
    + right. split; [rewrite S1, S2; congruence|reflexivity].
Qed.
Lemma eq_part_dec s0 e t w : esh_is s0 e t -> length w = length t ->
  (w = t /\ eq_part w s0 e (length t) 0 = Ok true) \/ (w <> t /\ eq_part w s0 e (length t) 0 = Ok false).
Proof. intros E L. apply (eq_part_ok s0 e t w E L (length t) 0). reflexivity. Qed.

Lemma prev_ok l r : forall prev : list arr, Forall (fun a => length (fst a) = S r) prev ->
  (Forall (fun a => exists t, fst a = l :: t) prev /\ prev_cells l prev = Ok tt) \/
  (Exists (fun a => exists m t, fst a = m :: t /\ m <> l) prev /\ prev_cells l prev = Err).
Proof.
  induction 1 as [|a prev H _ IH]; [left; split; [constructor|reflexivity]|]. destruct a as [sh d]. cbn [fst] in H.
  destruct sh as [|m sh]; [discriminate|]. cbn [prev_cells fst rd nth_error bind].
  destruct (Nat.eqb_spec l m) as [->|D].
  - destruct IH as [[I1 I2]|[I1 I2]].
    + left. split; [|exact I2]. constructor; [exists sh; reflexivity|exact I1].
    + right. split; [|exact I2]. apply Exists_cons_tl; exact I1.
  - right. split; [|reflexivity]. apply Exists_cons_hd. exists m, sh. split; [reflexivity|congruence].
Qed.

(** the state after the items P (P starts with the first item, whose shape is s0) *)
Inductive inv (s0 : list nat) P : js -> Prop :=
| inv_atoms : Forall (fun a => fst a = []) P -> s0 = [] -> inv s0 P (mkJ 0 1 0 None (to_u 32 (Z.of_nat (length P))))
| inv_same t l0 : s0 = l0 :: t -> Forall (fun a => exists l, fst a = l :: t) P -> (length t < 255)%nat ->
    inv s0 P (mkJ (Z.of_nat (S (length t))) (Z.of_nat (S (length t))) 0 (Some 1%nat) (to_u 32 (Z.of_nat (count t P))))
| inv_mixed t e : esh_is s0 e t -> Forall (fits t) P -> Exists (fun a => fst a = t) P -> Exists (fun a => exists l, fst a = l :: t) P ->
    (length t < 255)%nat ->
    inv s0 P (mkJ (Z.of_nat (S (length t))) (Z.of_nat (S (length t))) 1 e (to_u 32 (Z.of_nat (count t P)))).

Lemma fits_len t (a : arr) : fits t a -> length (fst a) = length t \/ length (fst a) = S (length t).
Proof. intros [H|[l H]]; rewrite H; cbn [length]; auto. Qed.
Lemma ncells_cell t c : length (fst c) = length t -> ncells t c = 1%nat.
Proof. unfold ncells. intros ->. rewrite Nat.eqb_refl. reflexivity. Qed.
Lemma ncells_list t c l sh : fst c = l :: sh -> length sh = length t -> ncells t c = l.
Proof. unfold ncells. intros -> H. cbn [length hd]. destruct (Nat.eqb_spec (S (length sh)) (length t)); [lia|reflexivity]. Qed.

Lemma not_compat_gap P c (a : arr) : In a P -> (length (fst a) + 1 < length (fst c) \/ length (fst c) + 1 < length (fst a))%nat -> ~ compat (P ++ [c]).
Proof.
  intros I D [t F]. rewrite Forall_app in F. destruct F as [F1 F2]. inversion F2; subst.
  rewrite Forall_forall in F1. specialize (F1 a I). apply fits_len in F1. apply fits_len in H1. lia.
Qed.

Ltac nc := intros [t' F']; rewrite Forall_app in F'; destruct F' as [F1' F2']; inversion F2' as [|? ? Fc' _]; subst; rewrite Forall_forall in F1'.

Lemma step_ok (x0 : arr) prev c s : (forall a, In a (x0 :: prev) -> (length (fst a) <= 255)%nat) -> (length (fst c) <= 255)%nat ->
  (fst x0 = [] -> (length (fst c) < 255)%nat) ->
  inv (fst x0) (x0 :: prev) s ->
  match join_step (fst x0) prev (Z.of_nat (length (x0 :: prev))) c s with
  | Ok s' => inv (fst x0) ((x0 :: prev) ++ [c]) s'
  | Err => ~ compat ((x0 :: prev) ++ [c])
  | UB => False
  end.
Proof.
  intros RP RC R255 I. set (P := x0 :: prev) in *.
  assert (InP : In x0 P) by (left; reflexivity).
  unfold join_step. set (csh := fst c) in *. replace (ur (Z.of_nat (length csh))) with (Z.of_nat (length csh)) by (unfold ur; lia).
  destruct I as [HA S0|t l0 S0 HA LT|t e E HA X1 X2 LT]; cbn [j_rm j_rr j_rd j_esh j_cam].
  - (* atoms *)
    destruct (Z.eqb_spec (Z.of_nat (length csh)) 0) as [Z0|NZ].
    + cbn [Z.ltb Z.compare]. rewrite to_u_add. replace (Z.of_nat (length P) + 1) with (Z.of_nat (length (P ++ [c]))) by (rewrite app_length; cbn [length]; lia).
      apply inv_atoms; [|exact S0]. apply Forall_app; split; [exact HA|]. constructor; [|constructor]. unfold csh in Z0. destruct (fst c); [reflexivity|cbn [length] in Z0; lia].
    + specialize (R255 S0). set (r := Z.of_nat (length csh)) in *.
      destruct (Z.ltb_spec 0 (ur (0 - r))) as [_|?]; [|unfold ur in *; lia].
      destruct (Z.eq_dec r 1) as [R1|R1].
      * rewrite R1. replace (ur (ur (0 - 1) + 1 - 0)) with 0 by reflexivity. replace (ur (0 - 1)) with 255 by reflexivity.
        change (2 - 0 <? 0) with false. change (1 <? 1) with false. cbn [bind j_rm j_rr j_rd j_esh j_cam]. change (0 <? 1) with true. cbn [bind j_rm j_rr j_rd j_esh j_cam]. change (1 <? 1) with false.
        destruct csh as [|l [|? ?]] eqn:EC; unfold r in R1; cbn [length] in R1; try lia.
        cbn [rd nth_error bind tl].
        change (Z.to_nat (1 - 1)) with 0%nat. cbn [eq_part bind]. rewrite to_u_add.
        assert (C0 : Z.of_nat (length P) + Z.of_nat l = Z.of_nat (count [] (P ++ [c]))).
        { rewrite count_app, count_1. rewrite (ncells_list [] c l []) by (exact EC || reflexivity). rewrite (count_cells []) by exact HA. lia. }
        rewrite C0. apply (inv_mixed _ _ [] None); [reflexivity| | | |cbn; lia].
        -- apply Forall_app; split; [eapply Forall_impl; [|exact HA]; intros a Ha; left; exact Ha|]. constructor; [right; exists l; exact EC|constructor].
        -- apply Exists_app. left. unfold P. apply Exists_cons_hd. rewrite S0; reflexivity.
        -- apply Exists_app. right. apply Exists_cons_hd. exists l. exact EC.
      * destruct (Z.ltb_spec (2 - 0) (ur (ur (0 - r) + 1 - 0))) as [_|W]; [|unfold ur in *; lia].
        cbn [bind]. apply (not_compat_gap P c x0 InP). rewrite S0. cbn [length]. fold csh. lia.
  - (* all of rank 1 + length t *)
    assert (LP : Forall (fun a => length (fst a) = S (length t)) P) by (eapply Forall_impl; [|exact HA]; intros a [l Ha]; rewrite Ha; reflexivity).
    assert (FP : Forall (fits t) P) by (eapply Forall_impl; [|exact HA]; intros a Ha; right; exact Ha).
    set (R := Z.of_nat (S (length t))) in *.
    assert (ES : esh_is (fst x0) (Some 1%nat) t) by (cbn [esh_is]; rewrite S0; reflexivity).
    assert (X2 : Exists (fun a => exists l, fst a = l :: t) P) by (unfold P; apply Exists_cons_hd; exists l0; exact S0).
    assert (L0 : length (fst x0) = S (length t)) by (rewrite S0; reflexivity).
    destruct (Z.eqb_spec (Z.of_nat (length csh)) 0) as [Z0|NZ].
    + assert (EC : csh = []) by (destruct csh; [reflexivity|cbn [length] in Z0; lia]).
      destruct (Z.ltb_spec 1 R) as [R1|R1].
      * apply (not_compat_gap P c x0 InP). fold csh. rewrite L0, EC. cbn [length]. lia.
      * assert (T0 : t = []) by (destruct t; [reflexivity|unfold R in R1; cbn [length] in R1; lia]). subst t. 
        replace R with 1 by reflexivity. rewrite to_u_add.
        assert (C0 : Z.of_nat (count [] P) + 1 = Z.of_nat (count [] (P ++ [c]))).
        { rewrite count_app, count_1, (ncells_cell [] c); [lia|]. fold csh. rewrite EC; reflexivity. }
        rewrite C0. apply (inv_mixed _ _ [] (Some 1%nat)); [exact ES| | | |cbn; lia].
        -- apply Forall_app; split; [exact FP|constructor; [left; exact EC|constructor]].
        -- apply Exists_app. right. apply Exists_cons_hd. exact EC.
        -- apply Exists_app. left. exact X2.
    + set (r := Z.of_nat (length csh)) in *.
      destruct (Z.ltb_spec 0 (ur (R - r))) as [CD|CD].
      * (* rank differs *)
        assert (NR : r <> R) by (unfold ur in *; lia).
        destruct (Z.ltb_spec (2 - 0) (ur (ur (R - r) + 1 - 0))) as [W|W].
        { cbn [bind]. apply (not_compat_gap P c x0 InP). fold csh. rewrite L0. unfold ur, R, r in *. lia. }
        destruct (Z.ltb_spec R r) as [BR|BR].
        -- (* one more axis: previous items become cells *)
          assert (RR : r = R + 1) by (unfold ur, R, r in *; lia).
          rewrite S0. cbn [rd nth_error bind]. 
          destruct csh as [|lc tc] eqn:EC; [unfold r in RR; cbn [length] in RR; lia|].
          assert (LC : length tc = S (length t)) by (unfold r, R in RR; cbn [length] in RR; lia).
          destruct (prev_ok l0 (length t) prev) as [[Q1 Q2]|[Q1 Q2]]; [inversion LP; assumption| |].
          ++ rewrite Q2. cbn [bind j_rm j_rr j_rd j_esh j_cam]. rewrite (proj2 (Z.ltb_lt R r)) by lia.
             rewrite Z.ltb_irrefl. cbn [rd nth_error bind tl].
             replace (Z.to_nat (r - 1)) with (length (l0 :: t)) by (unfold r; cbn [length]; lia).
             assert (ES' : esh_is (l0 :: t) (Some 0%nat) (l0 :: t)) by reflexivity.
             assert (CELLS : Forall (fun a => fst a = l0 :: t) P).
             { unfold P. constructor; [exact S0|]. inversion HA; subst. rewrite Forall_forall in *. intros a Ia.
               destruct (H2 a Ia) as [l1 E1]. destruct (Q1 a Ia) as [t1 E2]. congruence. }
             destruct (eq_part_dec (l0 :: t) (Some 0%nat) (l0 :: t) tc ES') as [[D1 D2]|[D1 D2]]; [cbn [length]; lia| |]; rewrite D2; cbn [bind].
             ** rewrite to_u_add.
                assert (C0 : Z.of_nat (length P) + Z.of_nat lc = Z.of_nat (count (l0 :: t) (P ++ [c]))).
                { rewrite count_app, count_1, (ncells_list (l0 :: t) c lc tc) by (exact EC || (cbn [length]; lia)). rewrite (count_cells _ P) by exact CELLS. lia. }
                rewrite C0. replace r with (Z.of_nat (S (length (l0 :: t)))) by (unfold r; cbn [length]; lia).
                apply inv_mixed; [exact ES'| | | |cbn [length]; cbn [length] in RC; lia].
                --- apply Forall_app; split; [eapply Forall_impl; [|exact CELLS]; intros a Ha; left; exact Ha|]. constructor; [right; exists lc; fold csh; rewrite EC, D1; reflexivity|constructor].
                --- apply Exists_app. left. unfold P. apply Exists_cons_hd. exact S0.
                --- apply Exists_app. right. apply Exists_cons_hd. exists lc. fold csh. rewrite EC, D1. reflexivity.
             ** nc. specialize (F1' x0 InP). pose proof (fits_len _ _ F1') as G1. pose proof (fits_len _ _ Fc') as G2. try unfold fits in Fc'; fold csh in Fc', G2. rewrite L0 in G1. rewrite EC in G2, Fc'. cbn [length] in G2.
                destruct Fc' as [Fc|[l Fc]]; [subst t'; cbn [length] in *; lia|]. injection Fc as _ Fc. subst tc.
                destruct F1' as [F1|[l' F1]]; [congruence|]. rewrite F1 in L0. cbn [length] in L0. lia.
          ++ rewrite Q2. cbn [bind]. nc. pose proof (fits_len _ _ Fc') as G2. fold csh in G2. rewrite EC in G2. cbn [length] in G2.
             apply Exists_exists in Q1. destruct Q1 as (a & Ia & m & ta & Ea & Dm).
             assert (IaP : In a P) by (right; exact Ia).
             pose proof (F1' a IaP) as Fa. pose proof (F1' x0 InP) as F0.
             pose proof (fits_len _ _ Fa) as G3. pose proof (fits_len _ _ F0) as G4. rewrite L0 in G4.
             assert (La : length (fst a) = S (length t)) by (rewrite Forall_forall in LP; apply LP; exact IaP).
             destruct Fa as [Fa|[l Fa]]; [|rewrite Fa in La; cbn [length] in La; lia].
             destruct F0 as [F0|[l F0]]; [|rewrite F0 in L0; cbn [length] in L0; lia]. congruence.
        -- (* one axis less: c is a cell *)
          assert (RR : r = R - 1) by (unfold ur, R, r in *; lia).
          cbn [bind j_rm j_rr j_rd j_esh j_cam]. rewrite (proj2 (Z.ltb_ge R r)) by lia. cbn [j_rm j_rr j_rd j_esh j_cam].
          rewrite (proj2 (Z.ltb_lt r R)) by lia. cbn [bind].
          replace (Z.to_nat (R - 1)) with (length t) by (unfold R; lia).
          destruct (eq_part_dec (fst x0) (Some 1%nat) t csh ES) as [[D1 D2]|[D1 D2]]; [unfold r, R in RR; lia| |]; rewrite D2; cbn [bind].
          ++ rewrite to_u_add.
             assert (C0 : Z.of_nat (count t P) + 1 = Z.of_nat (count t (P ++ [c]))).
             { rewrite count_app, count_1, (ncells_cell t c); [lia|]. fold csh. rewrite D1; reflexivity. }
             rewrite C0. apply inv_mixed; [exact ES| | | |exact LT].
             ** apply Forall_app; split; [exact FP|constructor; [left; exact D1|constructor]].
             ** apply Exists_app. right. apply Exists_cons_hd. exact D1.
             ** apply Exists_app. left. exact X2.
          ++ nc. specialize (F1' x0 InP). pose proof (fits_len _ _ F1') as G1. pose proof (fits_len _ _ Fc') as G2. try unfold fits in Fc'; fold csh in Fc', G2. rewrite L0 in G1.
             destruct F1' as [F1|[l F1]]; [rewrite <- F1, L0 in G2; unfold r, R in RR; lia|].
             rewrite F1 in L0. cbn [length] in L0. assert (t' = t) by congruence. subst t'.
             destruct Fc' as [Fc|[l' Fc]]; [congruence|]. assert (Q : length csh = S (length t)) by (rewrite Fc; reflexivity). unfold r, R in RR. lia.
      * assert (RR : r = R) by (unfold ur, R, r in *; lia).
        cbn [bind j_rm j_rr j_rd j_esh j_cam]. rewrite RR, Z.ltb_irrefl. 
        destruct csh as [|lc tc] eqn:EC; [unfold r, R in RR; cbn [length] in RR; lia|]. cbn [rd nth_error bind tl].
        assert (LC : length tc = length t) by (unfold r, R in RR; cbn [length] in RR; lia).
        replace (Z.to_nat (R - 1)) with (length t) by (unfold R; lia).
        destruct (eq_part_dec (fst x0) (Some 1%nat) t tc ES LC) as [[D1 D2]|[D1 D2]]; rewrite D2; cbn [bind].
        -- rewrite to_u_add.
           assert (C0 : Z.of_nat (count t P) + Z.of_nat lc = Z.of_nat (count t (P ++ [c]))).
           { rewrite count_app, count_1, (ncells_list t c lc tc EC LC). lia. }
           rewrite C0. apply (inv_same _ _ t l0); [exact S0| |exact LT].
           apply Forall_app; split; [exact HA|constructor; [exists lc; fold csh; rewrite EC, D1; reflexivity|constructor]].
        -- nc. specialize (F1' x0 InP). pose proof (fits_len _ _ F1') as G1. try unfold fits in Fc'; fold csh in Fc'. rewrite EC in Fc'. rewrite L0 in G1.
           destruct Fc' as [Fc|[l Fc]], F1' as [F1|[l' F1]].
           ++ rewrite S0 in F1. rewrite <- F1 in Fc. congruence.
           ++ rewrite F1 in L0. subst t'. cbn [length] in *. lia.
           ++ injection Fc as _ Fc. rewrite <- F1, S0 in Fc. subst tc. cbn [length] in LC. lia.
           ++ rewrite S0 in F1. congruence.
  - (* both ranks present *)
    set (R := Z.of_nat (S (length t))) in *.
    assert (TT : forall t', Forall (fits t') P -> t' = t).
    { intros t' F. apply Exists_exists in X1, X2. destruct X1 as (a & Ia & Ea), X2 as (b & Ib & l & Eb).
      rewrite Forall_forall in F. pose proof (F a Ia) as Fa. pose proof (F b Ib) as Fb. pose proof (fits_len _ _ Fa) as Ga. pose proof (fits_len _ _ Fb) as Gb.
      destruct Fa as [Fa|[k Fa]]; [congruence|]. rewrite Eb in Gb. cbn [length] in Gb. assert (Q : length t = S (length t')) by (rewrite <- Ea, Fa; reflexivity). lia. }
    destruct (Z.eqb_spec (Z.of_nat (length csh)) 0) as [Z0|NZ].
    + assert (EC : csh = []) by (destruct csh; [reflexivity|cbn [length] in Z0; lia]).
      destruct (Z.ltb_spec 1 R) as [R1|R1].
      * apply Exists_exists in X2. destruct X2 as (b & Ib & l & Eb).
        apply (not_compat_gap P c b Ib). fold csh. rewrite Eb, EC. cbn [length]. unfold R in R1. lia.
      * assert (T0 : t = []) by (destruct t; [reflexivity|unfold R in R1; cbn [length] in R1; lia]). subst t. 
        replace R with 1 by reflexivity. rewrite to_u_add.
        assert (C0 : Z.of_nat (count [] P) + 1 = Z.of_nat (count [] (P ++ [c]))).
        { rewrite count_app, count_1, (ncells_cell [] c); [lia|]. fold csh. rewrite EC; reflexivity. }
        rewrite C0. apply (inv_mixed _ _ [] e); [exact E| | | |cbn; lia].
        -- apply Forall_app; split; [exact HA|constructor; [left; exact EC|constructor]].
        -- apply Exists_app. left. exact X1.
        -- apply Exists_app. left. exact X2.
    + set (r := Z.of_nat (length csh)) in *.
      destruct (Z.ltb_spec 1 (ur (R - r))) as [CD|CD].
      * destruct (Z.ltb_spec (2 - 1) (ur (ur (R - r) + 1 - 1))) as [W|W]; [|unfold ur in *; lia].
        cbn [bind]. nc. assert (t' = t) by (apply TT, Forall_forall, F1'). subst t'. apply fits_len in Fc'. try unfold fits in Fc'; fold csh in Fc'. unfold ur, R, r in *. lia.
      * cbn [bind j_rm j_rr j_rd j_esh j_cam].
        destruct (Z.ltb_spec r R) as [BR|BR].
        -- assert (RR : r = R - 1) by (unfold ur, R, r in *; lia). cbn [bind].
           replace (Z.to_nat (R - 1)) with (length t) by (unfold R; lia).
           destruct (eq_part_dec (fst x0) e t csh E) as [[D1 D2]|[D1 D2]]; [unfold r, R in RR; lia| |]; rewrite D2; cbn [bind].
           ++ rewrite to_u_add.
              assert (C0 : Z.of_nat (count t P) + 1 = Z.of_nat (count t (P ++ [c]))).
              { rewrite count_app, count_1, (ncells_cell t c); [lia|]. fold csh. rewrite D1; reflexivity. }
              rewrite C0. apply inv_mixed; [exact E| | | |exact LT].
              ** apply Forall_app; split; [exact HA|constructor; [left; exact D1|constructor]].
              ** apply Exists_app. left. exact X1.
              ** apply Exists_app. left. exact X2.
           ++ nc. assert (t' = t) by (apply TT, Forall_forall, F1'). subst t'. try unfold fits in Fc'; fold csh in Fc'.
              destruct Fc' as [Fc|[l Fc]]; [fold csh in Fc; congruence|]. fold csh in Fc. unfold r, R in RR. rewrite Fc in RR. cbn [length] in RR. lia.
        -- assert (RR : r = R) by (unfold ur, R, r in *; lia).
           destruct csh as [|lc tc] eqn:EC; [unfold r, R in RR; cbn [length] in RR; lia|]. cbn [rd nth_error bind tl].
           assert (LC : length tc = length t) by (unfold r, R in RR; cbn [length] in RR; lia).
           replace (Z.to_nat (R - 1)) with (length t) by (unfold R; lia).
           destruct (eq_part_dec (fst x0) e t tc E LC) as [[D1 D2]|[D1 D2]]; rewrite D2; cbn [bind].
           ++ rewrite to_u_add.
              assert (C0 : Z.of_nat (count t P) + Z.of_nat lc = Z.of_nat (count t (P ++ [c]))).
              { rewrite count_app, count_1, (ncells_list t c lc tc EC LC). lia. }
              rewrite C0. apply inv_mixed; [exact E| | | |exact LT].
              ** apply Forall_app; split; [exact HA|constructor; [right; exists lc; fold csh; rewrite EC, D1; reflexivity|constructor]].
              ** apply Exists_app. left. exact X1.
              ** apply Exists_app. left. exact X2.
           ++ nc. assert (t' = t) by (apply TT, Forall_forall, F1'). subst t'.
              destruct Fc' as [Fc|[l Fc]]; fold csh in Fc; rewrite EC in Fc; [|congruence]. rewrite <- Fc in LC. cbn [length] in LC. lia.
Qed.
End J.
