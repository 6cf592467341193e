From Verif Require Import Base BitLemmas HashMapModel HashMapSpec HashMapProof.

Section S.
Context {K V : Type}.
Variable eqk : K -> K -> bool.
Variable hash : K -> Z.
Hypothesis eq_refl_ : forall a, eqk a a = true.
Hypothesis eq_sym_ : forall a b, eqk a b = eqk b a.
Hypothesis eq_trans_ : forall a b c, eqk a b = true -> eqk b c = true -> eqk a c = true.
Hypothesis hash_range : forall a, 0 <= hash a < 2^64.
Hypothesis hash_eq : forall a b, eqk a b = true -> hash a = hash b.

Definition live (ks : list (option K)) (n : nat) (u : Z) : Prop :=
  exists i k, (i < n)%nat /\ nth_error ks i = Some (Some k) /\ u = hi (hash k) * 2^32 + Z.of_nat i.

Record TI (a : list Z) (sh : Z) (ks : list (option K)) (n : nat) : Prop := {
  T_sh : 32 <= sh <= 63;
  T_fit : fits sh a;
  T_lay : Lay (at_ a) sh;
  T_last : at_ a (length a - 1) = EMPTY;
  T_ent : forall u, ent (at_ a) u <-> live ks n u;
  T_n : Z.of_nat n <= maxElems
}.

Lemma hash_hi k : 0 <= hi (hash k) < 2^32.
Proof. assert (X := hash_range k). unfold hi. change (2^64) with (2^32*2^32) in X. split; [apply Z.div_pos; lia|apply Z.div_lt_upper_bound; lia]. Qed.

Lemma live_lt ks n u : Z.of_nat n <= maxElems -> live ks n u -> 0 <= u < EMPTY /\ lo u < HMASK.
Proof.
  intros Hn [i [k [L [E ->]]]]. assert (X := hash_hi k). unfold maxElems in Hn. rewrite lo_mk by (change (2^28) with 268435456 in Hn; lia).
  unfold EMPTY, HMASK. change (2^64) with (2^32*2^32). change (2^28) with 268435456 in Hn. change (2^32) with 4294967296 in *. lia.
Qed.

Definition find_post (a : list Z) (sh : Z) (ks : list (option K)) (n : nat) (x : K) (r : res found) : Prop :=
  match r with
  | Ok (Found j i) => exists k, (i < n)%nat /\ nth_error ks i = Some (Some k) /\ eqk x k = true /\
        at_ a j = hi (hash x) * 2^32 + Z.of_nat i /\ at_ a j <> EMPTY /\ (j < length a - 1)%nat
  | Ok (NotFound j u) => u = at_ a j /\ (j < length a)%nat /\ home sh (hash x) <= Z.of_nat j /\
        (forall q, home sh (hash x) <= Z.of_nat q -> (q < j)%nat -> at_ a q <> EMPTY) /\
        (forall q, (q < j)%nat -> at_ a q <> EMPTY -> hi (at_ a q) <= hi (hash x)) /\
        (forall q, (j <= q)%nat -> at_ a q <> EMPTY -> hi (hash x) <= hi (at_ a q)) /\
        (forall i k, (i < n)%nat -> nth_error ks i = Some (Some k) -> eqk x k = false)
  | _ => False
  end.

Lemma find_spec a sh ks n x : TI a sh ks n -> find_post a sh ks n x (find eqk hash a sh ks x).
Proof.
  intros [Hsh Hfit HL Hlast Hent Hn]. unfold find.
  set (h := hash x). assert (Hh : 0 <= h < 2^64) by apply hash_range.
  rewrite ldiff_hmask, shiftr_home by lia. set (v := hi h * 2^32).
  assert (Hhh : 0 <= hi h < 2^32) by apply hash_hi.
  assert (Hp : 0 < 2^(64-sh)) by (apply Z.pow_pos_nonneg; lia).
  assert (Hb := home_bound sh h ltac:(lia) Hh).
  assert (Hlen : Z.of_nat (length a) = 2^(64-sh) + 32) by exact Hfit.
  assert (HvE : v + HMASK <= EMPTY) by (unfold v, HMASK, EMPTY; change (2^64) with (2^32*2^32); lia).
  assert (Hm : 0 < HMASK) by (unfold HMASK; lia).
  set (j0 := Z.to_nat (home sh h)).
  destruct (find1_spec a v (S (length a)) j0 (length a - 1)) as [j1 [E1 [B1 [G1 N1]]]]; [lia|rewrite Hlast; lia|lia|].
  rewrite E1. cbn [bind].
  assert (HE : forall q, at_ a q <> EMPTY -> live ks n (at_ a q)) by (intros q Nq; apply Hent; split; eauto).
  assert (Hbelow : forall q, (q < j1)%nat -> at_ a q <> EMPTY -> hi (at_ a q) <= hi h).
  { intros q Hq Nq. destruct (Nat.lt_ge_cases q j0) as [L|L].
    - assert (X := L_home _ _ HL q Nq). destruct (Z.le_gt_cases (hi (at_ a q)) (hi h)) as [|G]; [assumption|].
      assert (home sh h <= home sh (at_ a q)) by (apply home_mono; lia). lia.
    - assert (at_ a q < v) by (apply N1; lia). rewrite (hi_lo (at_ a q)) in H. assert (X := lo_range (at_ a q)). unfold v in H. nia. }
  assert (Habove : forall q, (j1 <= q)%nat -> at_ a q <> EMPTY -> hi h <= hi (at_ a q)).
  { intros q Hq Nq. 
    assert (Hj1 : at_ a j1 <> EMPTY -> hi h <= hi (at_ a j1)).
    { intros Nj. assert (X := lo_range (at_ a j1)). rewrite (hi_lo (at_ a j1)) in G1. unfold v in G1. nia. }
    destruct (Z.eq_dec (at_ a j1) EMPTY) as [Ej|Nj].
    - destruct (Nat.eq_dec q j1) as [->|]; [contradiction|].
      destruct (Z.le_gt_cases (hi h) (hi (at_ a q))) as [|G]; [assumption|]. exfalso.
      assert (home sh (at_ a q) <= home sh h) by (apply home_mono; lia).
      apply (L_probe _ _ HL q j1 Nq); [lia|lia|exact Ej].
    - destruct (Nat.eq_dec q j1) as [->|]; [auto|]. transitivity (hi (at_ a j1)); [auto|]. apply (L_sort _ _ HL); auto; lia. }
  assert (Hmid : forall q, (j0 <= q < j1)%nat -> at_ a q <> EMPTY).
  { intros q Hq E. assert (at_ a q < v) by (apply N1; lia). lia. }
  (* second loop *)
  assert (G : forall fuel j, (j1 <= j < length a)%nat -> (length a <= fuel + j)%nat ->
     (forall q, (j1 <= q < j)%nat -> at_ a q <> EMPTY /\ hi (at_ a q) = hi h /\
        forall k, nth_error ks (Z.to_nat (lo (at_ a q))) = Some (Some k) -> eqk x k = false) ->
     find_post a sh ks n x (find2 eqk fuel a ks x v j (at_ a j))).
  { induction fuel as [|fuel IH]; intros j Hj Hf Hpre; [lia|]. cbn [find2].
    rewrite (lor_hmask v) by (unfold v; try apply Z.mod_mul; lia).
    destruct (Z.ltb_spec (at_ a j) (v + HMASK)) as [L|L].
    - assert (Nj : at_ a j <> EMPTY) by lia.
      destruct (HE j Nj) as [i [k [Hi [Hk Eu]]]].
      assert (Hir : 0 <= Z.of_nat i < 2^32) by (unfold maxElems in Hn; change (2^28) with 268435456 in Hn; change (2^32) with 4294967296; lia).
      assert (Elo : lo (at_ a j) = Z.of_nat i) by (rewrite Eu; apply lo_mk; exact Hir).
      assert (Ehi : hi (at_ a j) = hi (hash k)) by (rewrite Eu; apply hi_mk; exact Hir).
      assert (Ehh : hi (at_ a j) = hi h).
      { assert (X := Habove j ltac:(lia) Nj). rewrite (hi_lo (at_ a j)) in L. unfold v, HMASK in L. assert (Y := lo_range (at_ a j)). nia. }
      rewrite land_hmask, Elo, Nat2Z.id. unfold rd at 1. rewrite Hk. cbn [bind].
      destruct (eqk x k) eqn:Exk.
      + exists k. split; [exact Hi|]. split; [exact Hk|]. split; [exact Exk|]. split; [fold h; rewrite <- Ehh, Ehi; exact Eu|]. split; [exact Nj|].
        assert (j <> length a - 1)%nat by (intros ->; congruence). lia.
      + assert (j <> length a - 1)%nat by (intros ->; congruence).
        rewrite rd_at by lia. cbn [bind]. apply IH; [lia|lia|]. intros q Hq. destruct (Nat.eq_dec q j) as [->|]; [|apply Hpre; lia].
        split; [exact Nj|]. split; [exact Ehh|]. intros k' Hk'. rewrite Elo, Nat2Z.id in Hk'. congruence.
    - cbn [find_post]. fold h. split; [reflexivity|]. split; [lia|]. split; [lia|].
      assert (Q1 : forall q, home sh h <= Z.of_nat q -> (q < j)%nat -> at_ a q <> EMPTY).
      { intros q Hq1 Hq2. destruct (Nat.lt_ge_cases q j1); [apply Hmid; lia|]. apply Hpre. lia. }
      split; [exact Q1|]. split; [|split].
      + intros q Hq Nq. destruct (Nat.lt_ge_cases q j1); [apply Hbelow; auto|]. destruct (Hpre q) as [_ [X _]]; lia.
      + intros q Hq Nq. apply Habove; auto. lia.
      + intros i k Hi Hk. destruct (eqk x k) eqn:Exk; [exfalso|reflexivity].
        assert (Eh : hash k = h) by (symmetry; apply hash_eq; exact Exk).
        assert (Hl : live ks n (hi h * 2^32 + Z.of_nat i)) by (exists i, k; rewrite Eh; auto).
        apply Hent in Hl. destruct Hl as [Ne [p Ep]].
        assert (Hir : 0 <= Z.of_nat i < 2^32) by (unfold maxElems in Hn; change (2^28) with 268435456 in Hn; change (2^32) with 4294967296; lia).
        assert (Ehi : hi (at_ a p) = hi h) by (rewrite Ep; apply hi_mk; exact Hir).
        assert (Np : at_ a p <> EMPTY) by congruence.
        assert (Ehome : home sh (at_ a p) = home sh h) by (apply home_same; lia).
        assert (Hpp := L_home _ _ HL p Np).
        destruct (Nat.lt_ge_cases p j1) as [P1|P1].
        { assert (at_ a p < v) by (apply N1; lia). rewrite Ep in H. unfold v in H. lia. }
        destruct (Nat.lt_ge_cases p j) as [P2|P2].
        { destruct (Hpre p) as [_ [_ X]]; [lia|]. assert (Hlo : lo (at_ a p) = Z.of_nat i) by (rewrite Ep; apply lo_mk; exact Hir).
          rewrite Hlo, Nat2Z.id in X. specialize (X k Hk). congruence. }
        assert (Hjn : at_ a j <> EMPTY).
        { destruct (Nat.eq_dec p j) as [<-|]; [exact Np|]. apply (L_probe _ _ HL p j Np); lia. }
        assert (Hjl := live_lt ks n _ Hn (HE j Hjn)). destruct Hjl as [_ Hjl].
        assert (hi (at_ a j) <= hi h).
        { destruct (Nat.eq_dec p j) as [<-|]; [lia|]. rewrite <- Ehi. apply (L_sort _ _ HL); auto. lia. }
        rewrite (hi_lo (at_ a j)) in L. unfold v in L. assert (Y := Habove j ltac:(lia) Hjn). nia. }
  apply G; [lia|lia|]. intros q Hq. lia.
Qed.

(** first empty position *)
Lemma first_empty (a : list Z) j : (j < length a)%nat -> at_ a (length a - 1) = EMPTY ->
  exists e, (j <= e < length a)%nat /\ at_ a e = EMPTY /\ forall q, (j <= q < e)%nat -> at_ a q <> EMPTY.
Proof.
  intros Hj Hl. remember (length a - 1 - j)%nat as d eqn:Hd. revert j Hj Hd. induction d as [|d IH]; intros j Hj Hd.
  - exists j. replace j with (length a - 1)%nat by lia. split; [lia|]. split; [exact Hl|lia].
  - destruct (Z.eq_dec (at_ a j) EMPTY) as [E|N]; [exists j; split; [lia|]; split; [exact E|lia]|].
    destruct (IH (S j)) as [e [B [E Q]]]; [lia|lia|]. exists e. split; [lia|]. split; [exact E|].
    intros q Hq. destruct (Nat.eq_dec q j) as [->|]; [exact N|]. apply Q. lia.
Qed.
Lemma first_stop (a : list Z) sh j : (j < length a - 1)%nat -> at_ a (length a - 1) = EMPTY ->
  exists e, (j < e < length a)%nat /\ (at_ a e = EMPTY \/ home sh (at_ a e) = Z.of_nat e) /\
    forall q, (j < q < e)%nat -> at_ a q <> EMPTY /\ home sh (at_ a q) <> Z.of_nat q.
Proof.
  intros Hj Hl. remember (length a - 2 - j)%nat as d eqn:Hd. revert j Hj Hd. induction d as [|d IH]; intros j Hj Hd.
  - exists (length a - 1)%nat. split; [lia|]. split; [left; exact Hl|lia].
  - destruct (Z.eq_dec (at_ a (S j)) EMPTY) as [E|N]; [exists (S j); split; [lia|]; split; [left; exact E|lia]|].
    destruct (Z.eq_dec (home sh (at_ a (S j))) (Z.of_nat (S j))) as [E|N2]; [exists (S j); split; [lia|]; split; [right; exact E|lia]|].
    destruct (IH (S j)) as [e [B [E Q]]]; [lia|lia|]. exists e. split; [lia|]. split; [exact E|].
    intros q Hq. destruct (Nat.eq_dec q (S j)) as [->|]; [split; assumption|]. apply Q. lia.
Qed.

(** insertion of the entry for index n *)
Lemma insert_spec a sh ks n x j u : TI a sh ks n -> Z.of_nat n <= maxElems -> find_post a sh ks n x (Ok (NotFound j u)) ->
  exists je a', insert hash a x (Z.of_nat n) j u = Ok (je, a') /\ length a' = length a /\ Lay (at_ a') sh /\
    (forall w, ent (at_ a') w <-> (w = hi (hash x) * 2^32 + Z.of_nat n \/ live ks n w)) /\
    (je < length a)%nat /\ (je <> (length a - 1)%nat -> at_ a' (length a - 1) = EMPTY) /\
    (je = (length a - 1)%nat -> at_ a' (length a - 1) <> EMPTY).
Proof.
  intros [Hsh Hfit HL Hlast Hent Hn] Hn2 [Hu [Hj [Hho [Hpr [Hlo [Hhi _]]]]]].
  assert (Hhx := hash_hi x).
  assert (Hnr : 0 <= Z.of_nat n < 2^32) by (unfold maxElems in Hn; change (2^28) with 268435456 in Hn; change (2^32) with 4294967296; lia).
  destruct (first_empty a j Hj Hlast) as [e [Be [Ee Qe]]].
  unfold insert. destruct (shift_spec (S (length a)) a j u e Hu) as [a1 [Es [Len P]]]; auto; [lia|].
  rewrite Es. cbn [bind]. rewrite ldiff_hmask. rewrite lor_idx by (try apply Z.mod_mul; lia).
  rewrite wr_ok by lia. cbn [bind]. set (w := hi (hash x) * 2^32 + Z.of_nat n).
  assert (Ehi : hi w = hi (hash x)) by (apply hi_mk; exact Hnr).
  assert (Hw : 0 <= w < EMPTY).
  { unfold w, EMPTY. change (2^64) with (2^32*2^32). unfold maxElems in Hn. change (2^28) with 268435456 in *. change (2^32) with 4294967296 in *. lia. }
  exists e, (upd a1 j w). split; [reflexivity|]. rewrite upd_length. split; [exact Len|].
  assert (Hpt : forall q, at_ (upd a1 j w) q = ins_fn (at_ a) j e w q).
  { intros q. rewrite at_upd by lia. rewrite P. unfold ins_fn.
    destruct (Nat.eqb_spec j q), (Nat.ltb_spec q j), (Nat.eqb_spec q j), (Nat.leb_spec q e), (Nat.ltb_spec j q); cbn; try lia; reflexivity. }
  assert (Hnew : ~ ent (at_ a) w).
  { intros X. apply Hent in X. destruct X as [i [k [Li [_ Ew]]]].
    assert (Hir : 0 <= Z.of_nat i < 2^32) by (change (2^32) with 4294967296 in *; lia).
    assert (lo w = Z.of_nat n) by (apply lo_mk; exact Hnr). assert (lo w = Z.of_nat i) by (rewrite Ew; apply lo_mk; exact Hir). lia. }
  split; [|split; [|split; [|split]]].
  - eapply Lay_ext; [intros p; symmetry; apply Hpt|]. apply ins_lay; auto; try lia.
    + rewrite (home_same sh w (hash x)) by lia. exact Hho.
    + rewrite (home_same sh w (hash x)) by lia. exact Hpr.
    + rewrite Ehi. exact Hlo.
    + rewrite Ehi. exact Hhi.
  - intros y. rewrite <- Hent. rewrite <- (ins_ent (at_ a) j e w); try lia; auto.
    split; intros [N [p Ep]]; (split; [exact N|]); exists p; [rewrite <- Hpt|rewrite Hpt]; exact Ep.
  - lia.
  - intros Hne. rewrite Hpt. unfold ins_fn. destruct (Nat.ltb_spec (length a - 1) j); [exact Hlast|].
    destruct (Nat.eqb_spec (length a - 1) j); [lia|]. destruct (Nat.leb_spec (length a - 1) e); [lia|exact Hlast].
  - intros Heq. rewrite Hpt. unfold ins_fn. destruct (Nat.ltb_spec (length a - 1) j); [lia|].
    destruct (Nat.eqb_spec (length a - 1) j); [lia|]. destruct (Nat.leb_spec (length a - 1) e); [|lia]. apply Qe. lia.
Qed.

(** The keys in the first n positions. *)
Definition keysof (n : nat) (ks : list (option K)) : list K := flat_map (fun o => match o with Some k => [k] | None => [] end) (firstn n ks).

Lemma firstn_S {A} (l : list A) i a : nth_error l i = Some a -> firstn (S i) l = firstn i l ++ [a].
Proof. revert i; induction l as [|b l IH]; intros [|i] H; try discriminate; cbn in *; [congruence|]. rewrite (IH i H). reflexivity. Qed.
Lemma filter_app_ {A} (f : A -> bool) l1 l2 : filter f (l1 ++ l2) = filter f l1 ++ filter f l2.
Proof. induction l1 as [|a l1 IH]; cbn; [reflexivity|]. destruct (f a); cbn; rewrite IH; reflexivity. Qed.

Lemma keysof_count P ks n : length (filter P (keysof n ks)) =
  length (filter (fun i => match nth_error ks i with Some (Some k) => P k | _ => false end) (seq 0 n)).
Proof.
  induction n as [|n IH]; [reflexivity|]. rewrite seq_S, filter_app_, app_length, <- IH. cbn [Nat.add].
  unfold keysof. destruct (nth_error ks n) as [o|] eqn:E.
  - rewrite (firstn_S _ _ _ E), flat_map_app, filter_app_, app_length. f_equal. cbn [filter]. rewrite E. cbn [flat_map]. rewrite app_nil_r. destruct o as [k|]; cbn [filter]; [|reflexivity]. destruct (P k); reflexivity.
  - apply nth_error_None in E. rewrite !firstn_all2 by lia. cbn [filter]. rewrite (proj2 (nth_error_None ks n) E). cbn [length]. lia.
Qed.

Lemma full_run a : (length a > 0)%nat -> at_ a (length a - 1) <> EMPTY ->
  exists q, (q < length a)%nat /\ (forall p, (q <= p < length a)%nat -> at_ a p <> EMPTY) /\ (q = 0%nat \/ at_ a (q - 1) = EMPTY).
Proof.
  intros L H. assert (X : forall d, (d < length a)%nat -> (exists q, (q < length a)%nat /\ (forall p, (q <= p < length a)%nat -> at_ a p <> EMPTY) /\ (q = 0%nat \/ at_ a (q - 1) = EMPTY)) \/
    (forall p, (length a - 1 - d <= p < length a)%nat -> at_ a p <> EMPTY)).
  { induction d as [|d IH]; intros Hd.
    - right. intros p Hp. replace p with (length a - 1)%nat by lia. exact H.
    - destruct IH as [IH|IH]; [lia|left; exact IH|].
      destruct (Z.eq_dec (at_ a (length a - 1 - S d)) EMPTY) as [E|N].
      + left. exists (length a - 1 - d)%nat. split; [lia|]. split; [exact IH|]. right. replace (length a - 1 - d - 1)%nat with (length a - 1 - S d)%nat by lia. exact E.
      + right. intros p Hp. destruct (Nat.eq_dec p (length a - 1 - S d)) as [->|]; [exact N|]. apply IH. lia. }
  destruct (X (length a - 1)%nat) as [Y|Y]; [lia|exact Y|]. exists 0%nat. split; [lia|]. split; [|auto]. intros p Hp. apply Y. lia.
Qed.

Lemma crowd_clustered f ks n : Z.of_nat n <= maxElems + 1 -> (forall u, ent f u <-> live ks n u) -> crowd f -> clustered hash (keysof n ks).
Proof.
  intros Hn He [a [Fa [La [Na Ea]]]]. unfold fits, hmsize in Fa. change (64 - 32) with 32 in Fa.
  destruct (full_run a) as [q [Hq [Hf Hq0]]]; [lia|exact Na|].
  assert (Hir : forall i0, (i0 < n)%nat -> 0 <= Z.of_nat i0 < 2^32) by (intros i0 Hi0; unfold maxElems in Hn; change (2^28) with 268435456 in Hn; change (2^32) with 4294967296; lia).
  assert (Hl : forall p, (q <= p < length a)%nat -> live ks n (at_ a p)).
  { intros p Hp. apply He, Ea. split; [apply Hf; exact Hp|]. exists p. reflexivity. }
  assert (Hh : forall p, (q <= p < length a)%nat -> Z.of_nat q <= hi (at_ a p) < 2^32).
  { intros p Hp. destruct (Hl p Hp) as [i [k [Hi [Hk E]]]]. assert (X := hash_hi k). rewrite E at 2. rewrite hi_mk by (apply Hir; exact Hi). split; [|lia].
    destruct Hq0 as [->|Hq0]; [rewrite E, hi_mk by (apply Hir; exact Hi); lia|].
    destruct (Z.lt_ge_cases (hi (at_ a p)) (Z.of_nat q)) as [Hlt|]; [|lia]. exfalso.
    apply (L_probe _ _ La p (q - 1)%nat); auto; [|].
    - unfold home. change (at_ a p / 2^32) with (hi (at_ a p)). assert (0 <= hi (at_ a p)) by (rewrite E, hi_mk by (apply Hir; exact Hi); lia). lia.
    - assert (0 <= hi (at_ a p)) by (rewrite E, hi_mk by (apply Hir; exact Hi); lia). lia. }
  assert (Hq32 : Z.of_nat q < 2^32) by (specialize (Hh (length a - 1)%nat ltac:(lia)); lia).
  exists (2^32 - Z.of_nat q). split; [lia|].
  rewrite keysof_count.
  set (Q := filter _ (seq 0 n)).
  assert (Len : (length a - q <= length Q)%nat).
  { rewrite <- (seq_length (length a - q) q). rewrite <- (map_length (fun p => Z.to_nat (lo (at_ a p)))).
    apply NoDup_incl_length.
    - assert (ND : forall l, (forall p, In p l -> (q <= p < length a)%nat) -> NoDup l -> NoDup (map (fun p => Z.to_nat (lo (at_ a p))) l)).
      { induction l as [|p l IHl]; intros Hl0 HN; [constructor|]. inversion HN as [|? ? Hnin HN']; subst. cbn. constructor; [|apply IHl; auto; intros; apply Hl0; right; assumption].
        intros Hin. apply in_map_iff in Hin. destruct Hin as [p' [Ep Hp']]. apply Hnin.
        assert (Bp := Hl0 p (or_introl eq_refl)). assert (Bp' := Hl0 p' (or_intror Hp')).
        destruct (Hl p Bp) as [i [k [Hi [Hk E]]]]. destruct (Hl p' Bp') as [i' [k' [Hi' [Hk' E']]]].
        rewrite E, E', !lo_mk, !Nat2Z.id in Ep by (apply Hir; assumption). subst i'. assert (k' = k) by congruence. subst k'.
        rewrite (L_inj _ _ La p p'); [exact Hp'|congruence|apply Hf; exact Bp]. }
      apply ND; [intros p Hp; apply in_seq in Hp; lia|apply seq_NoDup].
    - intros i Hi. apply in_map_iff in Hi. destruct Hi as [p [Ep Hp]]. apply in_seq in Hp. assert (Bp : (q <= p < length a)%nat) by lia.
      destruct (Hl p Bp) as [i' [k [Hi' [Hk E]]]]. rewrite E, lo_mk, Nat2Z.id in Ep by (apply Hir; assumption). subst i'.
      apply filter_In. split; [apply in_seq; lia|]. rewrite Hk. apply Z.leb_le. specialize (Hh p Bp). rewrite E, hi_mk in Hh by (apply Hir; assumption). unfold hi in Hh. lia. }
  lia.
Qed.

Lemma live_snoc ks n x w : nth_error ks n = Some (Some x) ->
  (live ks (S n) w <-> (w = hi (hash x) * 2^32 + Z.of_nat n \/ live ks n w)).
Proof.
  intros Hx. split.
  - intros [i [k [L [E ->]]]]. destruct (Nat.eq_dec i n) as [->|]; [left; congruence|]. right. exists i, k. repeat split; auto. lia.
  - intros [->|[i [k [L [E ->]]]]]; [exists n, x|exists i, k]; auto.
Qed.

Lemma build_loop_spec ks : forall rest n m, skipn n ks = rest -> Z.of_nat (length ks) <= maxElems ->
  TI (hp m) (shf m) (map Some ks) n -> 
  match build_loop eqk hash (map Some ks) rest (Z.of_nat n) m with
  | Ok m' => TI (hp m') (shf m') (map Some ks) (length ks) /\ pop m' = pop m /\
      (forall i j a b, (n <= j)%nat -> (i < j)%nat -> nth_error ks i = Some a -> nth_error ks j = Some b -> eqk b a = false)
  | Err => ((exists i j a b, (i < j)%nat /\ nth_error ks i = Some a /\ nth_error ks j = Some b /\ eqk b a = true) \/ clustered hash ks)
  | UB => False
  end.
Proof.
  induction rest as [|key rest IH]; intros n m Hr Hlen HT; cbn [build_loop].
  - assert (Hle : (length ks <= n)%nat).
    { destruct (Nat.lt_ge_cases n (length ks)); [|assumption]. assert (length (skipn n ks) = 0%nat) by (rewrite Hr; reflexivity). rewrite skipn_length in H0. lia. }
    split; [|split; [reflexivity|]].
    + destruct HT as [A1 A2 A3 A4 A5 A6]. constructor; auto. intros u. rewrite A5. split; intros [i [k [L [E ->]]]]; exists i, k; repeat split; auto.
      * apply nth_error_Some_lt in E. rewrite map_length in E. exact E.
      * lia.
    + intros i j a b Hj _ _ Hb. apply nth_error_Some_lt in Hb. lia.
  - assert (Hn : (n < length ks)%nat).
    { destruct (Nat.lt_ge_cases n (length ks)); [assumption|]. rewrite skipn_all2 in Hr by lia. discriminate. }
    assert (Hkey : nth_error ks n = Some key).
    { rewrite <- (firstn_skipn n ks), Hr. rewrite nth_error_app2; rewrite firstn_length; [|lia]. replace (n - Nat.min n (length ks))%nat with 0%nat by lia. reflexivity. }
    assert (Hrest : skipn (S n) ks = rest).
    { rewrite <- (firstn_skipn n ks), Hr at 1. rewrite skipn_app, firstn_length. rewrite skipn_all2 by (rewrite firstn_length; lia).
      replace (S n - Nat.min n (length ks))%nat with 1%nat by lia. reflexivity. }
    assert (F := find_spec _ _ _ _ key HT). destruct (find eqk hash (hp m) (shf m) (map Some ks) key) as [[j i|j u]| |]; cbn [bind]; try contradiction.
    { left. cbn [find_post] in F. destruct F as [k [Hi [Hk [Eq _]]]]. rewrite nth_error_map in Hk. destruct (nth_error ks i) as [k'|] eqn:Ek; [|discriminate].
      cbn in Hk. injection Hk as ->. exists i, n, k, key. auto. }
    destruct (insert_spec _ _ _ _ key j u HT) as [je [a' [Ei [Len [La [Ea [Lje [Hla Hle]]]]]]]]; [lia|exact F|].
    rewrite Ei. cbn [bind].
    assert (Hdist : forall i' k, (i' < n)%nat -> nth_error ks i' = Some k -> eqk key k = false).
    { intros i' k Hi Hk. cbn [find_post] in F. destruct F as [_ [_ [_ [_ [_ [_ F]]]]]]. apply (F i' k Hi). rewrite nth_error_map, Hk. reflexivity. }
    destruct HT as [A1 A2 A3 A4 A5 A6].
    assert (Hent' : forall w, ent (at_ a') w <-> live (map Some ks) (S n) w).
    { intros w. rewrite Ea. rewrite (live_snoc _ _ key); [reflexivity|]. rewrite nth_error_map, Hkey. reflexivity. }
    assert (Hfit' : fits (shf m) a') by (unfold fits; rewrite Len; exact A2).
    assert (Fin : forall m', TI (hp m') (shf m') (map Some ks) (S n) -> pop m' = pop m ->
      match build_loop eqk hash (map Some ks) rest (Z.of_nat n + 1) m' with
      | Ok m' => TI (hp m') (shf m') (map Some ks) (length ks) /\ pop m' = pop m /\
          (forall i j a b, (n <= j)%nat -> (i < j)%nat -> nth_error ks i = Some a -> nth_error ks j = Some b -> eqk b a = false)
      | Err => ((exists i j a b, (i < j)%nat /\ nth_error ks i = Some a /\ nth_error ks j = Some b /\ eqk b a = true) \/ clustered hash ks) | UB => False end).
    { intros m' HT' Hpop. specialize (IH (S n) m' Hrest Hlen HT'). replace (Z.of_nat n + 1) with (Z.of_nat (S n)) by lia.
      destruct (build_loop eqk hash (map Some ks) rest (Z.of_nat (S n)) m') as [m''| |]; auto.
      destruct IH as [I1 [I2 I3]]. split; [exact I1|]. split; [congruence|]. intros i0 j0 a0 b0 Hj Hij Ha Hb.
      destruct (Nat.eq_dec j0 n) as [->|]; [|apply (I3 i0 j0); auto; lia]. rewrite Hkey in Hb. injection Hb as <-. apply (Hdist i0); auto. }
    destruct (Z.eqb_spec (Z.of_nat je) (Z.of_nat (length a') - 1)) as [Ee|Ne].
    + assert (R := resize_spec 64 (HM (pop m) (shf m) a')). cbn [shf hp pop] in R.
      destruct (resize 64 (HM (pop m) (shf m) a')) as [m'| |]; cbn [bind].
      2:{ right. assert (C : clustered hash (keysof (S n) (map Some ks))).
          { apply (crowd_clustered (at_ a')); [lia|exact Hent'|]. apply R; auto; [lia|]. intros _. rewrite Len. apply Hle. lia. }
          destruct C as [tt [C1 C2]]. exists tt. split; [exact C1|]. 
          assert (Ek : ks = keysof (S n) (map Some ks) ++ rest).
          { rewrite <- (firstn_skipn (S n) ks) at 1. rewrite Hrest. f_equal. unfold keysof. rewrite firstn_map. induction (firstn (S n) ks) as [|k0 l0 IH0]; [reflexivity|]. cbn. f_equal. exact IH0. }
          rewrite Ek, filter_app_, app_length. lia. }
      * destruct R as [R1 [R2 [R3 [R4 [R5 R6]]]]]; auto; [lia|intros _; rewrite Len; apply Hle; lia|]. apply Fin; [|exact R2].
        constructor; auto; [|lia]. intros u0. rewrite R6. apply Hent'.
      * apply R; auto; [lia|]. intros _; rewrite Len; apply Hle; lia.
    + cbn [bind]. apply Fin; [|reflexivity]. cbn [hp shf]. constructor; auto; [|lia]. rewrite Len. apply Hla. lia.
Qed.

Lemma init_sh_range n : 0 <= n <= maxElems -> 32 <= init_sh n <= 63.
Proof.
  intros H. unfold init_sh.
  assert (L1 : 16 <= Z.lor n 16).
  { assert (X : Z.log2 16 <= Z.log2 (Z.lor n 16)) by (rewrite Z.log2_lor by lia; lia).
    destruct (Z.le_gt_cases 16 (Z.lor n 16)) as [|G]; [assumption|].
    assert (0 <= Z.lor n 16) by (apply Z.lor_nonneg; lia).
    destruct (Z.eq_dec (Z.lor n 16) 0) as [E|]; [rewrite E in X; cbn in X; lia|].
    assert (Z.log2 (Z.lor n 16) < 4); [|cbn in X; lia]. apply Z.log2_lt_pow2; [lia|]. exact G. }
  assert (0 <= Z.log2 (Z.lor n 16) <= 28).
  { split; [apply Z.log2_nonneg|]. rewrite Z.log2_lor by lia. apply Z.max_lub; [|cbn; lia].
    destruct (Z.eq_dec n 0) as [->|]; [cbn; lia|]. rewrite <- (Z.log2_pow2 28) by lia. apply Z.log2_le_mono. unfold maxElems in H. lia. }
  lia.
Qed.

Lemma build_spec ks : Z.of_nat (length ks) <= maxElems ->
  match build eqk hash ks with
  | Ok m => TI (hp m) (shf m) (map Some ks) (length ks) /\ pop m = Z.of_nat (length ks) /\
      (forall i j a b, (i < j)%nat -> nth_error ks i = Some a -> nth_error ks j = Some b -> eqk b a = false)
  | Err => ((exists i j a b, (i < j)%nat /\ nth_error ks i = Some a /\ nth_error ks j = Some b /\ eqk b a = true) \/ clustered hash ks)
  | UB => False
  end.
Proof.
  intros H. unfold build. assert (Hs := init_sh_range (Z.of_nat (length ks)) ltac:(lia)).
  assert (Hp : 0 < 2 ^ (64 - init_sh (Z.of_nat (length ks)))) by (apply Z.pow_pos_nonneg; lia).
  assert (B := build_loop_spec ks ks 0 (hm_alloc (Z.of_nat (length ks)) (init_sh (Z.of_nat (length ks)))) eq_refl H).
  change (Z.of_nat 0) with 0 in B.
  assert (B0 : TI (hp (hm_alloc (Z.of_nat (length ks)) (init_sh (Z.of_nat (length ks))))) (shf (hm_alloc (Z.of_nat (length ks)) (init_sh (Z.of_nat (length ks))))) (map Some ks) 0).
  { unfold hm_alloc; cbn [hp shf]. constructor; auto.
    * unfold fits. rewrite repeat_length. unfold hmsize. lia.
    * eapply Lay_ext; [|apply Lay_empty]. intros p. symmetry. apply at_repeat.
    * apply at_repeat.
    * intros u. split; [intros [N [p E]]; rewrite at_repeat in E; congruence|]. intros [i [k [L _]]]. lia.
    * unfold maxElems. lia. }
  specialize (B B0). destruct (build_loop _ _ _ _ _ _) as [m| |]; auto.
  destruct B as [B1 [B2 B3]]. split; [exact B1|]. split; [exact B2|]. intros i j a b Hij. apply (B3 i j); lia.
Qed.
End S.
