From Verif Require Import Base TagModel TagSpec TagProof NumSpec NumProof ArrSpec DataSpec SqueezeModel SqueezeSpec SqueezeProof CompareModel CompareSpec.

(** ** Induction and the "good value" predicate *)
Section Ind.
Variable P : gobj -> Prop.
Hypothesis HA : forall w, P (GAtom w).
Hypothesis HR : forall sh els, Forall P els -> P (GArr sh els).
Fixpoint gobj_ind' (g : gobj) : P g :=
  match g with
  | GAtom w => HA w
  | GArr sh els => HR sh els ((fix f (l : list gobj) : Forall P l := match l with [] => Forall_nil P | x :: t => Forall_cons x (gobj_ind' x) (f t) end) els)
  end.
End Ind.
Inductive G : gobj -> Prop :=
| G_atom w : raw_ok EB w -> isF64 w = true \/ isC32 w = true -> G (GAtom w)
| G_arr sh els : Forall (fun n => 0 <= n) sh -> Z.of_nat (length els) = prod sh -> Forall G els -> G (GArr sh els).
Lemma den_word w : raw_ok EB w -> word w. Proof. intros [W _]; auto. Qed.
Lemma plain_G g : plain_data g <-> G g.
Proof.
  induction g as [w|sh els IH] using gobj_ind'; unfold plain_data; cbn [stored gden wf plain].
  - split.
    + intros (S&_&P). constructor; auto. destruct (den_cases w (den_word w S)) as [(A&B&C)|[(A&B&C)|(A&B&C)]]; auto.
      rewrite C in P. destruct P as [[P|[x P]]|[n P]]; discriminate.
    + intros H. inversion H; subst. split; auto. split; auto. destruct (den_cases w (den_word w H1)) as [(A&B&C)|[(A&B&C)|(A&B&C)]]; [left; auto|right; rewrite C; eexists; eauto|]. destruct H2; congruence.
  - assert (E : (fix all (l : list gobj) : Prop := match l with [] => True | x :: t => stored x /\ all t end) els /\
               (fix all (l : list data) : Prop := match l with [] => True | x :: t => wf x /\ all t end) (map gden els) /\
               (fix all (l : list data) : Prop := match l with [] => True | x :: t => plain x /\ all t end) (map gden els) <-> Forall G els).
    { clear sh. induction IH as [|x l X IH IHl]; cbn [map]. - split; auto.
      - rewrite Forall_cons_iff. unfold plain_data in X. rewrite <- X, <- IHl. tauto. }
    rewrite map_length. split.
    + intros (S&(W1&W2&W3)&P). constructor; auto. apply E; auto.
    + intros H. inversion H; subst. apply E in H4. tauto.
Qed.

(** ** Generic facts about lexicographic comparison *)
Section Lex.
Context {A : Type}.
Variable c : A -> A -> Z.
Lemma lexc_antisym l1 l2 : (forall a b, In a l1 -> In b l2 -> c b a = - c a b) -> lexc c l2 l1 = - lexc c l1 l2.
Proof.
  revert l2. induction l1 as [|a l1 IH]; intros [|b l2] H; cbn [lexc]; auto.
  assert (E : c b a = - c a b) by (apply H; left; auto). rewrite E.
  destruct (Z.eqb_spec (c a b) 0), (Z.eqb_spec (- c a b) 0); try lia. apply IH. intros; apply H; right; auto.
Qed.
Lemma lexc_range l1 l2 : (forall a b, In a l1 -> In b l2 -> -1 <= c a b <= 1) -> -1 <= lexc c l1 l2 <= 1.
Proof.
  revert l2. induction l1 as [|a l1 IH]; intros [|b l2] H; cbn [lexc]; try lia.
  destruct (c a b =? 0); [apply IH; intros; apply H; right; auto|apply H; left; auto].
Qed.
Lemma lexc_trans l1 l2 l3 :
  (forall a b, In a l1 -> In b l2 -> c b a = - c a b) -> (forall a b, In a l2 -> In b l3 -> c b a = - c a b) -> (forall a b, In a l1 -> In b l3 -> c b a = - c a b) ->
  (forall x y z, In x l1 -> In y l2 -> In z l3 -> c x y <= 0 -> c y z <= 0 -> c x z <= 0) ->
  (forall x y z, In x l1 -> In y l2 -> In z l3 -> c y z <= 0 -> c z x <= 0 -> c y x <= 0) ->
  (forall x y z, In x l1 -> In y l2 -> In z l3 -> c z x <= 0 -> c x y <= 0 -> c z y <= 0) ->
  lexc c l1 l2 <= 0 -> lexc c l2 l3 <= 0 -> lexc c l1 l3 <= 0.
Proof.
  revert l2 l3. induction l1 as [|a l1 IH]; intros [|b l2] [|d l3] A12 A23 A13 T1 T2 T3; cbn [lexc]; try lia.
  assert (E1 : c b a = - c a b) by (apply A12; left; auto). assert (E2 : c d b = - c b d) by (apply A23; left; auto). assert (E3 : c d a = - c a d) by (apply A13; left; auto).
  assert (Q1 := T1 a b d (or_introl eq_refl) (or_introl eq_refl) (or_introl eq_refl)). assert (Q2 := T2 a b d (or_introl eq_refl) (or_introl eq_refl) (or_introl eq_refl)). assert (Q3 := T3 a b d (or_introl eq_refl) (or_introl eq_refl) (or_introl eq_refl)).
  destruct (Z.eqb_spec (c a b) 0), (Z.eqb_spec (c b d) 0), (Z.eqb_spec (c a d) 0); try lia.
  intros. apply (IH l2 l3); auto; intros; [apply A12|apply A23|apply A13|eapply T1|eapply T2|eapply T3]; try (right; eassumption); eauto.
Qed.
Lemma lexc_app_eq p q l1 l2 : Forall2 (fun a b => c a b = 0) p q -> lexc c (p ++ l1) (q ++ l2) = lexc c l1 l2.
Proof. induction 1 as [|a b p q H F IH]; cbn [app lexc]; auto. rewrite H. cbn [Z.eqb]. auto. Qed.
Lemma lexc_0 l1 l2 : lexc c l1 l2 = 0 -> Forall2 (fun a b => c a b = 0) l1 l2.
Proof.
  revert l2. induction l1 as [|a l1 IH]; intros [|b l2]; cbn [lexc]; try discriminate; auto.
  destruct (Z.eqb_spec (c a b) 0); auto. lia.
Qed.
Lemma lexc_refl l : (forall a, In a l -> c a a = 0) -> lexc c l l = 0.
Proof. induction l as [|a l IH]; intros H; cbn [lexc]; auto. rewrite H by (left; auto). cbn [Z.eqb]. apply IH. intros; apply H; right; auto. Qed.
End Lex.
Lemma lexc_ext {A} (c c' : A -> A -> Z) l1 l2 : (forall a b, In a l1 -> In b l2 -> c a b = c' a b) -> lexc c l1 l2 = lexc c' l1 l2.
Proof.
  revert l2. induction l1 as [|a l1 IH]; intros [|b l2] H; cbn [lexc]; auto. rewrite (H a b) by (left; auto). rewrite IH; auto. intros; apply H; right; auto.
Qed.

(** ** Atoms *)
Lemma ICMP_range a b : -1 <= ICMP a b <= 1. Proof. unfold ICMP, b2z. destruct (Z.ltb_spec b a), (Z.ltb_spec a b); lia. Qed.
Lemma ICMP_antisym a b : ICMP b a = - ICMP a b. Proof. unfold ICMP, b2z. destruct (Z.ltb_spec b a), (Z.ltb_spec a b); lia. Qed.
Lemma ICMP_le a b : ICMP a b <= 0 <-> a <= b. Proof. unfold ICMP, b2z. destruct (Z.ltb_spec b a), (Z.ltb_spec a b); lia. Qed.
Lemma ICMP_0 a b : ICMP a b = 0 <-> a = b. Proof. unfold ICMP, b2z. destruct (Z.ltb_spec b a), (Z.ltb_spec a b); lia. Qed.
Lemma ICMP_lt a b : a < b -> ICMP a b = -1. Proof. unfold ICMP, b2z. destruct (Z.ltb_spec b a), (Z.ltb_spec a b); lia. Qed.
Lemma ICMP_refl a : ICMP a a = 0. Proof. apply ICMP_0; auto. Qed.
Definition k1 w := if isC32 w then 2 else if is_nan w then 1 else 0.
Definition k2 w := if isC32 w then o2cG w else if is_nan w then 0 else fval w.
Definition catom a b : Z := if k1 a =? k1 b then ICMP (k2 a) (k2 b) else ICMP (k1 a) (k1 b).
Definition okatom w := raw_ok EB w /\ (isF64 w = true \/ isC32 w = true).
Lemma okatom_cases w : okatom w -> (isF64 w = true /\ isC32 w = false) \/ (isF64 w = false /\ isC32 w = true).
Proof. intros [R D]. destruct (den_cases w (den_word w R)) as [(A&B&C)|[(A&B&C)|(A&B&C)]]; auto. destruct D; congruence. Qed.
Lemma cmp_atoms_eq a b : okatom a -> okatom b -> cmp_atoms a b = Ok (catom a b).
Proof.
  intros A B. unfold cmp_atoms, catom, k1, k2.
  destruct (okatom_cases a A) as [[ -> -> ]|[ -> -> ]], (okatom_cases b B) as [[ -> -> ]|[ -> -> ]]; cbn [andb].
  - f_equal. unfold floatCompare, flt, fle. destruct (is_nan a), (is_nan b); cbn [orb negb andb b2z Z.eqb Pos.eqb]; auto. unfold ICMP, b2z.
    destruct (Z.ltb_spec (fval b) (fval a)), (Z.leb_spec (fval b) (fval a)), (Z.ltb_spec (fval a) (fval b)); cbn [negb]; lia.
  - destruct (is_nan a); reflexivity.
  - destruct (is_nan b); reflexivity.
  - f_equal.
Qed.
Lemma catom_range a b : -1 <= catom a b <= 1. Proof. unfold catom. destruct (_ =? _); apply ICMP_range. Qed.
Lemma catom_antisym a b : catom b a = - catom a b.
Proof. unfold catom. rewrite (Z.eqb_sym (k1 b)). destruct (_ =? _); apply ICMP_antisym. Qed.
Lemma catom_le a b : catom a b <= 0 <-> k1 a < k1 b \/ k1 a = k1 b /\ k2 a <= k2 b.
Proof. unfold catom. destruct (Z.eqb_spec (k1 a) (k1 b)); rewrite ICMP_le; lia. Qed.
Lemma catom_trans a b d : catom a b <= 0 -> catom b d <= 0 -> catom a d <= 0.
Proof. rewrite !catom_le. lia. Qed.
Lemma catom_0 a b : okatom a -> okatom b -> (catom a b = 0 <-> den a = den b).
Proof.
  intros A B. assert (WA := den_word a (proj1 A)). assert (WB := den_word b (proj1 B)).
  assert (E : catom a b = 0 <-> k1 a = k1 b /\ k2 a = k2 b).
  { unfold catom. destruct (Z.eqb_spec (k1 a) (k1 b)); rewrite ICMP_0; lia. }
  rewrite E. clear E. unfold k1, k2.
  assert (N : forall w, word w -> isF64 w = true -> den w = if is_nan w then VNaN else VNum (fval w)).
  { intros w W F. destruct (den_cases w W) as [(X&_&C)|[(X&_&C)|(X&_&C)]]; try congruence. unfold den in *. destruct (is_nan w); auto. destruct (_ <=? _); auto. destruct C as [C|[x C]]; destruct (_ =? _); discriminate. }
  assert (C : forall w, okatom w -> isC32 w = true -> den w = VChr (o2cG w)).
  { intros w [[W R] _] F. destruct (den_cases w W) as [(X&Y&Q)|[(X&Y&Q)|(X&Y&Q)]]; try congruence. assert (L := R _ Q). destruct (o2c_chr w _ W Q L) as [_ O]. rewrite O. exact Q. }
  destruct (okatom_cases a A) as [[FA CA]|[FA CA]], (okatom_cases b B) as [[FB CB]|[FB CB]]; rewrite CA, CB.
  - rewrite (N a), (N b) by auto. destruct (is_nan a), (is_nan b); split; intros; try congruence; lia || (intuition congruence).
  - rewrite (N a), (C b) by auto. destruct (is_nan a); split; intros; (discriminate || lia).
  - rewrite (C a), (N b) by auto. destruct (is_nan b); split; intros; (discriminate || lia).
  - rewrite (C a), (C b) by auto. split; [intros [_ ->]; auto|intros H; injection H; auto].
Qed.

(** ** Token sequences *)
Definition cmp (w x : gobj) : Z := match compare w x with Ok c => c | _ => 0 end.
Inductive tok := TEl (g : gobj) | TEnd | TAll.
Definition tno t := match t with TAll => 0 | TEnd => 1 | TEl _ => 2 end.
Definition tokcmp (a b : tok) : Z := match a, b with TEl g, TEl h => cmp g h | _, _ => ICMP (tno a) (tno b) end.
Fixpoint tk (s : list Z) (m : Z) (els : list gobj) : list tok :=
  match s with
  | [] => [TAll]
  | n :: s => map TEl (firstn (Z.to_nat (m * n - m)) els) ++ TEnd :: tk s (m * n) (skipn (Z.to_nat (m * n - m)) els)
  end.
Definition tokens (sh : list Z) (els : list gobj) : list tok :=
  match els with [] => [] | e :: r => TEl e :: tk (rev sh) 1 r end.

Definition go (rc : Z) := fix go (l1 l2 : list gobj) (n : Z) : res Z :=
  if n <=? 0 then Ok rc else
  match l1, l2 with
  | a :: l1, b :: l2 => do c <- compare a b; if negb (c =? 0) then Ok c else go l1 l2 (n - 1)
  | _, _ => UB
  end.
Lemma compare_arr wsh wels xsh xels : compare (GArr wsh wels) (GArr xsh xels) =
  let '(rm, rc) := shape_cmp wsh xsh in
  let wia := Z.of_nat (length wels) in let xia := Z.of_nat (length xels) in
  if (wia =? 0) || (xia =? 0) then Ok (if negb (ICMP wia xia =? 0) then ICMP wia xia else rc) else go rc wels xels rm.
Proof.
  cbn [compare]. destruct (shape_cmp wsh xsh) as [rm rc]. cbv zeta. destruct (_ || _); auto.
Qed.
Definition defd (a b : gobj) := compare a b = Ok (cmp a b).
Lemma go_0 rc l1 l2 : go rc l1 l2 0 = Ok rc. Proof. destruct l1; reflexivity. Qed.
Lemma go_split rc (rc' : Z) p q l1 l2 n : length p = length q -> 0 <= n ->
  (forall a b, In a p -> In b q -> defd a b) ->
  go rc (p ++ l1) (q ++ l2) (Z.of_nat (length p) + n) =
  let c := lexc cmp p q in if c =? 0 then go rc l1 l2 n else Ok c.
Proof.
  clear rc'. revert q. induction p as [|a p IH]; intros [|b q] L N D; cbn [length app] in *; try discriminate.
  - cbn [lexc]. reflexivity.
  - cbn [go]. destruct (Z.leb_spec (Z.of_nat (S (length p)) + n) 0); [lia|]. fold (go rc).
    assert (E : defd a b) by (apply D; left; auto). unfold defd in E. rewrite E. cbn [bind lexc].
    destruct (Z.eqb_spec (cmp a b) 0); cbn [negb].
    + replace (Z.of_nat (S (length p)) + n - 1) with (Z.of_nat (length p) + n) by lia. apply IH; auto. intros; apply D; right; auto.
    + cbv zeta. destruct (Z.eqb_spec (cmp a b) 0); [lia|]. reflexivity.
Qed.
Lemma lexc_map_TEl p q l1 l2 : length p = length q ->
  lexc tokcmp (map TEl p ++ l1) (map TEl q ++ l2) = if lexc cmp p q =? 0 then lexc tokcmp l1 l2 else lexc cmp p q.
Proof.
  revert q. induction p as [|a p IH]; intros [|b q] L; cbn [map app lexc length] in *; try discriminate; auto.
  cbn [tokcmp]. destruct (Z.eqb_spec (cmp a b) 0); auto. destruct (Z.eqb_spec (cmp a b) 0); [lia|]. auto.
Qed.
Lemma prod_pos s : Forall (fun n => 0 < n) s -> 0 < prod s.
Proof. induction 1; cbn [prod fold_right]; [lia|]. apply Z.mul_pos_pos; auto. Qed.
Lemma tk_lex ws : forall xs m l1 l2 rc0, Forall (fun n => 0 < n) ws -> Forall (fun n => 0 < n) xs -> 0 < m ->
  Z.of_nat (length l1) = m * prod ws - m -> Z.of_nat (length l2) = m * prod xs - m ->
  rc0 = ICMP (Z.of_nat (length ws)) (Z.of_nat (length xs)) ->
  (forall a b, In a l1 -> In b l2 -> defd a b) ->
  let '(rm, rc) := shape_loop ws xs m rc0 in m <= rm /\ go rc l1 l2 (rm - m) = Ok (lexc tokcmp (tk ws m l1) (tk xs m l2)).
Proof.
  assert (FS : forall (s : list Z) n m (l : list gobj), 0 < m -> 0 < n -> Forall (fun n => 0 < n) s -> Z.of_nat (length l) = m * (n * prod s) - m ->
    exists p r, l = p ++ r /\ Z.of_nat (length p) = m * n - m /\ firstn (Z.to_nat (m*n-m)) l = p /\ skipn (Z.to_nat (m*n-m)) l = r /\ Z.of_nat (length r) = (m * n) * prod s - m * n).
  { intros s n m l M N FS L. assert (P := prod_pos s FS). exists (firstn (Z.to_nat (m*n-m)) l), (skipn (Z.to_nat (m*n-m)) l).
    assert (0 <= m*n-m) by nia. assert (m*n <= m*n*prod s) by nia.
    split; [symmetry; apply firstn_skipn|]. rewrite firstn_length, skipn_length. split; [lia|]. split; [auto|]. split; [auto|]. lia. }
  induction ws as [|wm ws IH]; intros xs m l1 l2 rc0 PW PX M L1 L2 R D.
  - cbn [shape_loop]. assert (Hw : shape_loop [] xs m rc0 = (m, rc0)) by reflexivity. cbn [shape_loop]. split; [lia|]. rewrite Z.sub_diag, go_0. f_equal.
    destruct xs as [|xm xs]; cbn [tk lexc tokcmp]. + subst rc0. reflexivity.
    + destruct (map TEl _) eqn:E; cbn [app lexc tokcmp tno]. * subst rc0. cbn [length]. rewrite ICMP_lt by lia. reflexivity.
      * assert (T : exists g, t = TEl g) by (destruct (firstn _ l2); cbn in E; [discriminate|injection E as <- _; eauto]). destruct T as [g ->]. cbn. subst rc0. cbn [length]. rewrite ICMP_lt by lia. reflexivity.
  - inversion PW as [|? ? PW1 PW2]; subst. cbn [prod fold_right] in L1. fold (prod ws) in L1. destruct (FS ws wm m l1 M PW1 PW2 L1) as (p&r&E1&Lp&F1&K1&Lr).
    destruct xs as [|xm xs].
    + cbn [shape_loop]. split; [lia|]. rewrite Z.sub_diag, go_0. f_equal. cbn [tk]. rewrite F1, K1.
      destruct p as [|g p]; cbn [map app lexc tokcmp tno length]. * unfold ICMP, b2z. cbn. destruct (Z.ltb_spec 0 (Z.pos (Pos.of_succ_nat (length ws)))); [|lia]. reflexivity.
      * unfold ICMP, b2z. cbn. destruct (Z.ltb_spec 0 (Z.pos (Pos.of_succ_nat (length ws)))); [|lia]. reflexivity.
    + inversion PX as [|? ? PX1 PX2]; subst. cbn [prod fold_right] in L2. fold (prod xs) in L2. destruct (FS xs xm m l2 M PX1 PX2 L2) as (q&s&E2&Lq&F2&K2&Ls).
      cbn [shape_loop]. cbn [tk]. rewrite F1, K1, F2, K2. clear F1 K1 F2 K2.
      destruct (Z.eqb_spec wm xm) as [->|NE].
      * specialize (IH xs (m * xm) r s (ICMP (Z.of_nat (length (xm :: ws))) (Z.of_nat (length (xm :: xs)))) PW2 PX2 ltac:(nia) Lr Ls).
        assert (RC : ICMP (Z.of_nat (length (xm :: ws))) (Z.of_nat (length (xm :: xs))) = ICMP (Z.of_nat (length ws)) (Z.of_nat (length xs))).
        { cbn [length]. unfold ICMP, b2z. destruct (Z.ltb_spec (Z.of_nat (S (length xs))) (Z.of_nat (S (length ws)))), (Z.ltb_spec (Z.of_nat (length xs)) (Z.of_nat (length ws))), (Z.ltb_spec (Z.of_nat (S (length ws))) (Z.of_nat (S (length xs)))), (Z.ltb_spec (Z.of_nat (length ws)) (Z.of_nat (length xs))); lia. }
        specialize (IH RC). subst l2. assert (D2 : forall a b, In a r -> In b s -> defd a b) by (intros; apply D; apply in_or_app; auto). specialize (IH D2).
        destruct (shape_loop ws xs (m * xm) _) as [rm rc]. destruct IH as [I1 I2]. split; [nia|].
        replace (rm - m) with (Z.of_nat (length p) + (rm - m * xm)) by lia.
        rewrite (go_split rc 0) by (lia || (intros; apply D; apply in_or_app; auto)). cbv zeta.
        rewrite lexc_map_TEl by lia. destruct (Z.eqb_spec (lexc cmp p q) 0); auto.
      * destruct (Z.ltb_spec wm xm).
        -- split; [nia|].
           assert (QS : exists q1 g q2, q = q1 ++ g :: q2 /\ length q1 = length p).
           { assert (H2 : (length p < length q)%nat) by nia. exists (firstn (length p) q). destruct (skipn (length p) q) as [|g q2] eqn:Sk.
             - assert (X := skipn_length (length p) q). rewrite Sk in X. cbn in X. lia.
             - exists g, q2. split; [rewrite <- Sk; symmetry; apply firstn_skipn|]. rewrite firstn_length. lia. }
           destruct QS as (q1&g&q2&Eq&Lq1). subst q l2. rewrite <- !app_assoc. cbn [app].
           replace (m * wm - m) with (Z.of_nat (length p) + 0) by lia.
           rewrite (go_split _ 0) by (lia || (intros; apply D; apply in_or_app; [auto|left; apply in_or_app; auto])).
           rewrite map_app, <- app_assoc. cbn [map app]. rewrite lexc_map_TEl by lia. cbv zeta. rewrite go_0. cbn [lexc tokcmp tno]. destruct (_ =? 0); auto. cbn. rewrite ICMP_lt by lia. reflexivity.
        -- assert (LT : xm < wm) by lia. split; [nia|]. subst l2.
           assert (QS : exists q1 g q2, p = q1 ++ g :: q2 /\ length q1 = length q).
           { assert (H2 : (length q < length p)%nat) by nia. exists (firstn (length q) p). destruct (skipn (length q) p) as [|g q2] eqn:Sk.
             - assert (X := skipn_length (length q) p). rewrite Sk in X. cbn in X. lia.
             - exists g, q2. split; [rewrite <- Sk; symmetry; apply firstn_skipn|]. rewrite firstn_length. lia. }
           destruct QS as (q1&g&q2&Eq&Lq1). subst p. rewrite <- !app_assoc. cbn [app].
           replace (m * xm - m) with (Z.of_nat (length q1) + 0) by lia.
           rewrite (go_split _ 0) by (lia || (intros; apply D; apply in_or_app; [left; apply in_or_app; auto|auto])).
           rewrite map_app, <- app_assoc. cbn [map app]. rewrite lexc_map_TEl by lia. cbv zeta. rewrite go_0. cbn [lexc tokcmp tno]. destruct (_ =? 0); auto. cbn. rewrite ICMP_antisym, ICMP_lt by lia. reflexivity.
Qed.
Lemma shape_rc ws : forall xs m rc0, rc0 = ICMP (Z.of_nat (length ws)) (Z.of_nat (length xs)) -> snd (shape_loop ws xs m rc0) = lexc ICMP ws xs.
Proof.
  induction ws as [|w ws IH]; intros [|x xs] m rc0 ->; cbn [shape_loop lexc snd].
  - reflexivity.
  - apply ICMP_lt. cbn [length]; lia.
  - rewrite ICMP_antisym, ICMP_lt by (cbn [length]; lia). reflexivity.
  - destruct (Z.eqb_spec w x) as [->|NE].
    + rewrite ICMP_refl. cbn [Z.eqb]. apply IH. cbn [length]. unfold ICMP, b2z. destruct (Z.ltb_spec (Z.of_nat (S (length xs))) (Z.of_nat (S (length ws)))), (Z.ltb_spec (Z.of_nat (length xs)) (Z.of_nat (length ws))), (Z.ltb_spec (Z.of_nat (S (length ws))) (Z.of_nat (S (length xs)))), (Z.ltb_spec (Z.of_nat (length ws)) (Z.of_nat (length xs))); lia.
    + cbn [snd]. destruct (Z.eqb_spec (ICMP w x) 0) as [E|_]; auto. apply (proj1 (ICMP_0 _ _)) in E. contradiction.
Qed.
