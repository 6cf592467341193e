(** Counting earlier occurrences: every method computes the same numbers. *)
From Verif Require Import Base ListLib BitsModel SqueezeModel SqueezeProof SortModel RadixProof HashProof HtabModel HtabThm SearchModel SearchProof SearchMany SelfModel.
From Coq Require Import List.

Section G.
Context {A : Type} (E : A -> A -> bool).
Definition cnt_eq (p : list A) (x : A) : nat := length (filter (fun a => E a x) p).
Fixpoint gocc (p l : list A) : list nat := match l with [] => [] | x :: t => cnt_eq p x :: gocc (p ++ [x]) t end.
Fixpoint gcls (U l : list A) : list Z :=
  match l with [] => [] | x :: t => let s := scan (fun a => E a x) U in s :: gcls (if s =? Z.of_nat (length U) then U ++ [x] else U) t end.
Lemma gocc_length l : forall p, length (gocc p l) = length l. Proof. induction l; intros p; cbn; auto. Qed.
Lemma gcls_length l : forall p, length (gcls p l) = length l. Proof. induction l; intros p; cbn; auto. Qed.
Lemma gocc_nth l : forall p j, nth_error (gocc p l) j = option_map (fun x => cnt_eq (p ++ firstn j l) x) (nth_error l j).
Proof.
  induction l as [|x l IH]; intros p [|j]; cbn [gocc nth_error firstn option_map]; auto. { rewrite app_nil_r; auto. } rewrite IH, <- app_assoc. reflexivity.
Qed.
Lemma gocc_app l m : forall p, gocc p (l ++ m) = gocc p l ++ gocc (p ++ l) m.
Proof. induction l as [|x l IH]; intros p; cbn [app gocc]; [rewrite app_nil_r; auto|]. rewrite IH, <- app_assoc. reflexivity. Qed.
Lemma cnt_eq_app p q x : cnt_eq (p ++ q) x = (cnt_eq p x + cnt_eq q x)%nat. Proof. unfold cnt_eq. rewrite filter_app, app_length. reflexivity. Qed.
Lemma cnt_le p x : (cnt_eq p x <= length p)%nat. Proof. unfold cnt_eq. induction p as [|a p IH]; cbn [filter length]; [lia|]. destruct (E a x); cbn [length]; lia. Qed.
Lemma cnt_zero p x : (cnt_eq p x =? 0)%nat = negb (existsb (fun a => E a x) p).
Proof. unfold cnt_eq. induction p as [|a p IH]; auto. cbn [filter existsb]. destruct (E a x); auto. Qed.
Lemma cnt_zero_iff p x : cnt_eq p x = 0%nat <-> forall a, In a p -> E a x = false.
Proof. pose proof (cnt_zero p x) as Q. destruct (existsb (fun a => E a x) p) eqn:X; cbn [negb] in Q.
  - apply Nat.eqb_neq in Q. split; [tauto|]. intros H. apply existsb_exists in X. destruct X as (a&I1&I2). rewrite (H a I1) in I2. discriminate.
  - apply Nat.eqb_eq in Q. split; auto. intros _ a I1. destruct (E a x) eqn:Y; auto. assert (existsb (fun a => E a x) p = true) by (apply existsb_exists; eauto). congruence.
Qed.
Lemma gcls_range l : forall U s, In s (gcls U l) -> 0 <= s <= Z.of_nat (length U + length l) - 1.
Proof.
  induction l as [|x l IH]; intros U s H; cbn [gcls] in H; [destruct H|]. cbn [length]. pose proof (scan_range (fun a => E a x) U). destruct H as [<-|H]; [lia|]. apply IH in H. destruct (_ =? _); [rewrite app_length in H; cbn [length] in H|]; lia.
Qed.
End G.
Lemma cnt_eq_ext {A} (E E' : A -> A -> bool) p x : (forall a, In a p -> E a x = E' a x) -> cnt_eq E p x = cnt_eq E' p x.
Proof. intros H. unfold cnt_eq. f_equal. apply filter_same. exact H. Qed.
Lemma gocc_ext {A} (E E' : A -> A -> bool) l : forall p, (forall a b, In a (p ++ l) -> In b l -> E a b = E' a b) -> gocc E p l = gocc E' p l.
Proof.
  induction l as [|x l IH]; intros p H; cbn [gocc]; auto. f_equal. { apply cnt_eq_ext. intros a Ha. apply H; [apply in_or_app; auto|left; auto]. }
  apply IH. intros a b Ha Hb. rewrite <- app_assoc in Ha. apply H; auto. right; auto.
Qed.
Lemma gocc_map {A B} (E : B -> B -> bool) (f : A -> B) l : forall p, gocc E (map f p) (map f l) = gocc (fun a b => E (f a) (f b)) p l.
Proof.
  induction l as [|x l IH]; intros p; cbn [gocc map]; auto. f_equal.
  - unfold cnt_eq. induction p as [|a p IHp]; cbn [map filter]; auto. destruct (E (f a) (f x)); cbn [length]; congruence.
  - rewrite <- IH, map_app. reflexivity.
Qed.
Lemma gcls_ext {A} (E E' : A -> A -> bool) l : forall p, (forall a b, In a (p ++ l) -> In b l -> E a b = E' a b) -> gcls E p l = gcls E' p l.
Proof.
  induction l as [|x l IH]; intros p H; cbn [gcls]; auto. rewrite (SearchFlat.scan_eq (fun a => E a x) (fun a => E' a x) p) by (intros a Ha; apply H; [apply in_or_app; auto|left; auto]). f_equal.
  apply IH. intros a b Ha Hb. apply H; [|right; auto]. apply in_app_iff. cbn [In]. apply in_app_iff in Ha. destruct Ha as [Ha|Ha]; [|auto]. destruct (_ =? _); [apply in_app_iff in Ha; cbn [In] in Ha; tauto|auto].
Qed.
Lemma gcls_map {A B} (E : B -> B -> bool) (f : A -> B) l : forall p, gcls E (map f p) (map f l) = gcls (fun a b => E (f a) (f b)) p l.
Proof.
  induction l as [|x l IH]; intros p; cbn [gcls map]; auto. rewrite SearchFlat.scan_map, map_length. f_equal. rewrite <- IH. destruct (_ =? _); [rewrite map_app|]; reflexivity.
Qed.

(** ** the all-pairs methods *)
Lemma map_seq_gocc {A} E (d : A) (g : list A -> A -> nat) l : (forall p x, In x l -> g p x = cnt_eq E p x) -> map (fun i => g (firstn i l) (nth i l d)) (seq 0 (length l)) = gocc E [] l.
Proof.
  intros H. apply nth_error_ext. intros j. rewrite gocc_nth, nth_error_map. destruct (Nat.ltb_spec j (length l)) as [L|L]; cbn [option_map app].
  - rewrite nth_error_seq' by auto. destruct (nth_error l j) as [x|] eqn:N; [|apply nth_error_None in N; lia]. cbn [option_map Nat.add]. rewrite (nth_error_nth _ _ d N). rewrite H; [reflexivity|eapply nth_error_In; eauto].
  - rewrite (proj2 (nth_error_None _ _) L). rewrite (proj2 (nth_error_None (seq 0 (length l)) j)) by (rewrite seq_length; auto). reflexivity.
Qed.
Lemma brute_mark_ok l : Z.of_nat (length l) <= 31 -> brute_mark l = Ok (map (fun c => (c =? 0)%nat) (gocc Z.eqb [] l)).
Proof.
  intros L. unfold brute_mark. destruct (Z.ltb_spec 31 (Z.of_nat (length l))); [lia|]. f_equal. rewrite <- (map_seq_gocc Z.eqb 0 (fun p x => cnt_eq Z.eqb p x)) by auto. rewrite map_map. apply map_ext. intros i.
  rewrite cnt_zero. induction (firstn i l) as [|a p IH]; cbn [forallb existsb]; auto. rewrite negb_orb, IH, Z.eqb_sym. reflexivity.
Qed.
Lemma brute_count_ok l : Z.of_nat (length l) <= 127 -> brute_count l = map Z.of_nat (gocc Z.eqb [] l).
Proof.
  intros L. unfold brute_count. rewrite <- (map_seq_gocc Z.eqb 0 (fun p x => cnt_eq Z.eqb p x)) by auto. rewrite map_map. apply map_ext_in. intros i Hi. apply in_seq in Hi.
  assert (Q : filter (fun xj => nth i l 0 =? xj) (firstn i l) = filter (fun a => a =? nth i l 0) (firstn i l)) by (apply filter_same; intros; apply Z.eqb_sym). rewrite Q. fold (cnt_eq Z.eqb (firstn i l) (nth i l 0)).
  apply to_s_id; [lia|]. pose proof (cnt_le Z.eqb (firstn i l) (nth i l 0)) as C. rewrite firstn_length in C. change (2 ^ (8 - 1)) with 128. lia.
Qed.
Lemma brute_class_ok l : Z.of_nat (length l) <= 127 -> brute_class l = gcls Z.eqb [] l.
Proof.
  intros L. unfold brute_class.
  assert (G : forall l U r, Z.of_nat (length U + length l) <= 127 -> snd (fold_left (fun (st : list Z * list Z) xi => let '(uniq, r) := st in let s := scan (fun u => xi =? u) uniq in
    ((if Z.of_nat (length uniq) =? s then uniq ++ [xi] else uniq), r ++ [to_s 8 s])) l (U, r)) = r ++ gcls Z.eqb U l).
  { clear. induction l as [|x l IH]; intros U r L; cbn [fold_left gcls]; [rewrite app_nil_r; auto|]. cbv zeta.
    rewrite (SearchFlat.scan_eq (fun u => x =? u) (fun a => a =? x) U) by (intros; apply Z.eqb_sym). rewrite (Z.eqb_sym _ (scan _ U)). pose proof (scan_range (fun a => a =? x) U) as R. cbn [length] in L. rewrite IH.
    - rewrite <- app_assoc. cbn [app]. rewrite to_s_id; [auto|lia|change (2 ^ (8 - 1)) with 128; lia].
    - destruct (_ =? _); [rewrite app_length; cbn [length]|]; lia. }
  rewrite G by (cbn [length]; lia). reflexivity.
Qed.

(** ** tables *)
Lemma tget_some tab k v : nth_error tab k = Some (Some v) -> tget tab k = Ok v. Proof. intros N. unfold tget, rd. rewrite N. reflexivity. Qed.
Definition it (set : Z -> Z) (init : Z) (c : nat) : Z := Nat.iter c set init.
Definition ready (set : Z -> Z) (init : Z) (p : list nat) (tab : list (option Z)) (ks : list nat) : Prop := forall k, In k ks -> nth_error tab k = Some (Some (it set init (cnt_eq Nat.eqb p k))).
Lemma tab_loop_ok set init ks : forall p tab r, ready set init p tab ks ->
  exists tab', foldM (fun (st : list (option Z) * list Z) k => let '(tab, r) := st in do v <- tget tab k; do tab <- wr tab k (Some (set v)); Ok (tab, r ++ [v])) ks (tab, r)
    = Ok (tab', r ++ map (it set init) (gocc Nat.eqb p ks)) /\ length tab' = length tab.
Proof.
  unfold foldM. induction ks as [|k ks IH]; intros p tab r R; cbn [fold_left gocc map]. { exists tab. rewrite app_nil_r. auto. }
  pose proof (R k (or_introl eq_refl)) as N. cbn [bind]. rewrite (tget_some _ _ _ N). cbn [bind]. rewrite wr_ok by (apply nth_error_Some_lt in N; auto). cbn [bind].
  destruct (IH (p ++ [k]) (upd tab k (Some (set (it set init (cnt_eq Nat.eqb p k))))) (r ++ [it set init (cnt_eq Nat.eqb p k)])) as (tab'&E&Lt).
  - intros j Hj. rewrite cnt_eq_app. unfold cnt_eq at 3. cbn [filter]. destruct (Nat.eqb_spec k j) as [<-|Nj].
    + rewrite upd_same by (apply nth_error_Some_lt in N; auto). cbn [length]. rewrite Nat.add_1_r. reflexivity.
    + cbn [length]. rewrite Nat.add_0_r, upd_other by auto. apply R. right; auto.
  - exists tab'. split; [|rewrite Lt; apply upd_length]. etransitivity; [exact E|]. rewrite <- app_assoc. reflexivity.
Qed.
Lemma set_keys_ok v ks : forall tab, (forall k, In k ks -> (k < length tab)%nat) -> exists tab', set_keys v tab ks = Ok tab' /\ length tab' = length tab /\
  forall k, nth_error tab' k = if existsb (Nat.eqb k) ks then Some (Some v) else nth_error tab k.
Proof.
  unfold set_keys, foldM. induction ks as [|k ks IH]; intros tab H; cbn [fold_left existsb]; [exists tab; auto|]. cbn [bind]. pose proof (H k (or_introl eq_refl)) as L. rewrite wr_ok by auto.
  destruct (IH (upd tab k (Some v))) as (tab'&E&L'&N). { intros j Hj. rewrite upd_length. apply H. right; auto. }
  exists tab'. split; [exact E|]. rewrite upd_length in L'. split; auto. intros j. rewrite N. destruct (existsb (Nat.eqb j) ks); [rewrite orb_true_r; auto|]. rewrite orb_false_r.
  destruct (Nat.eqb_spec j k) as [->|Nj]; [apply upd_same; auto|apply upd_other; auto].
Qed.
Lemma set_keys_ready set init tab ks ks' : (forall k, In k ks' -> (k < length tab)%nat) -> (forall k, In k ks -> In k ks') -> exists tab', set_keys init tab ks' = Ok tab' /\ length tab' = length tab /\ ready set init [] tab' ks.
Proof.
  intros L H. destruct (set_keys_ok init ks' tab L) as (tab'&E&Lt&N). exists tab'. split; auto. split; auto. intros k Hk. rewrite N. replace (existsb (Nat.eqb k) ks') with true; [reflexivity|].
  symmetry. apply existsb_exists. exists k. split; auto. apply Nat.eqb_refl.
Qed.
Lemma seq_in n k : In k (seq 0 n) <-> (k < n)%nat. Proof. rewrite in_seq. lia. Qed.
Lemma tab_init_ok set k tn n init sparse ks : (forall i, In i ks -> (i < Z.to_nat tn)%nat) -> exists tab, tab_init k tn n init sparse ks = Ok tab /\ length tab = Z.to_nat tn /\ ready set init [] tab ks.
Proof.
  intros H. unfold tab_init. assert (Lr : length (repeat (@None Z) (Z.to_nat tn)) = Z.to_nat tn) by apply repeat_length. destruct (_ && _).
  - destruct (set_keys_ready set init (repeat None (Z.to_nat tn)) ks ks) as (t&E&L&R); [rewrite Lr; auto|auto|]. exists t. split; auto. split; [congruence|auto].
  - destruct (set_keys_ready set init (repeat None (Z.to_nat tn)) ks (seq 0 (Z.to_nat tn))) as (t&E&L&R); [rewrite Lr; intros j; apply seq_in|intros j Hj; apply seq_in; auto|]. exists t. split; auto. split; [congruence|auto].
Qed.
Lemma gocc_keys (f : Z -> nat) l : (forall a b, In a l -> In b l -> f a = f b -> a = b) -> gocc Nat.eqb [] (map f l) = gocc Z.eqb [] l.
Proof.
  intros H. change (@nil nat) with (map f []). rewrite gocc_map. apply gocc_ext. cbn [app]. intros a b Ha Hb. destruct (Z.eqb_spec a b) as [->|N]; [apply Nat.eqb_refl|]. apply Nat.eqb_neq. intros Q. apply N. auto.
Qed.
Lemma lookup_ok k init sparse set l : 0 <= k -> Forall (fun z => 0 <= z < 2 ^ k) l -> lookup k init sparse set l = Ok (map (it set init) (gocc Z.eqb [] l)).
Proof.
  intros K F. rewrite Forall_forall in F. unfold lookup. destruct (tab_init_ok set k (2 ^ k) (Z.of_nat (length l)) init sparse (map Z.to_nat l)) as (tab&E&Lt&R).
  { intros i Hi. apply in_map_iff in Hi. destruct Hi as (z&<-&Hz). pose proof (F z Hz). lia. }
  rewrite E. cbn [bind]. unfold tab_loop. destruct (tab_loop_ok set init (map Z.to_nat l) [] tab [] R) as (t'&E2&_). rewrite E2. cbn [bind app].
  rewrite gocc_keys; [reflexivity|]. intros a b Ha Hb Q. pose proof (F a Ha). pose proof (F b Hb). lia.
Qed.
Lemma it_mark c : negb (it (fun _ => 0) 1 c =? 0) = (c =? 0)%nat. Proof. destruct c; reflexivity. Qed.
Lemma it_S set init c : it set init (S c) = set (it set init c). Proof. reflexivity. Qed.
Lemma it_inc c : Z.of_nat c < 2 ^ 31 -> it (fun v => to_s 32 (v + 1)) 0 c = Z.of_nat c.
Proof. induction c as [|c IH]; intros H; [reflexivity|]. rewrite it_S, IH by lia. rewrite to_s_id; [lia|lia|]. change (2 ^ (32 - 1)) with (2 ^ 31). lia. Qed.
Lemma it_incu c : Z.of_nat c < 2 ^ 31 -> to_s 32 (it (fun v => (v + 1) mod 2 ^ 32) 0 c) = Z.of_nat c.
Proof.
  intros H. assert (Q : it (fun v => (v + 1) mod 2 ^ 32) 0 c = Z.of_nat c).
  { induction c as [|c IH]; [reflexivity|]. rewrite it_S, IH by lia. rewrite Z.mod_small; lia. }
  rewrite Q. apply to_s_id; [lia|]. change (2 ^ (32 - 1)) with (2 ^ 31). lia.
Qed.
Lemma cnts_lt {A} E (l : list A) : Forall (fun c => Z.of_nat c < Z.of_nat (length l)) (gocc E [] l).
Proof.
  apply Forall_forall. intros c H. apply In_nth_error in H. destruct H as [j H]. rewrite gocc_nth in H. destruct (nth_error l j) as [x|] eqn:N; [|discriminate]. cbn [option_map app] in H. injection H as <-.
  pose proof (cnt_le E (firstn j l) x) as C. apply nth_error_Some_lt in N. rewrite firstn_length in C. lia.
Qed.

(** ** classify by table *)
Lemma dotab_ok n ks : n < 2 ^ 31 -> forall U tab u r, (forall k, In k ks -> nth_error tab k = Some (Some (let s := scan (fun a => (a =? k)%nat) U in if s =? Z.of_nat (length U) then to_s 32 n else s))) ->
  u = Z.of_nat (length U) -> Z.of_nat (length U + length ks) <= n ->
  exists st, foldM (fun (st : list (option Z) * Z * list Z) k =>
      let '(tab, u, r) := st in
      do t <- tget tab k;
      do (tab, u) <- (if t mod 2 ^ 64 =? n then do tab <- wr tab k (Some u); Ok (tab, to_s 32 (u + 1)) else Ok (tab, u));
      do v <- tget tab k; Ok (tab, u, r ++ [v])) ks (tab, u, r) = Ok st /\ snd st = r ++ gcls Nat.eqb U ks.
Proof.
  intros N31. assert (Sn : 0 <= n -> to_s 32 n = n) by (intros; apply to_s_id; [lia|change (2 ^ (32 - 1)) with (2 ^ 31); lia]).
  unfold foldM. induction ks as [|k ks IH]; intros U tab u r R Eu Ln; cbn [fold_left gcls]. { exists (tab, u, r). rewrite app_nil_r. auto. }
  pose proof (R k (or_introl eq_refl)) as N. cbn [bind]. cbn [length] in Ln. rewrite Sn in R, N by lia. rewrite (tget_some _ _ _ N). cbn [bind]. cbv zeta in *. pose proof (scan_range (fun a => (a =? k)%nat) U) as Rg.
  destruct (Z.eqb_spec (scan (fun a => (a =? k)%nat) U) (Z.of_nat (length U))) as [Q|Q].
  - rewrite Z.mod_small, Z.eqb_refl by lia. rewrite wr_ok by (apply nth_error_Some_lt in N; auto). cbn [bind]. rewrite (tget_some (upd tab k (Some u)) k u) by (apply upd_same; apply nth_error_Some_lt in N; auto). cbn [bind].
    destruct (IH (U ++ [k]) (upd tab k (Some u)) (to_s 32 (u + 1)) (r ++ [u])) as (st&E&Sd).
    + intros j Hj. rewrite app_length. cbn [length]. destruct (Nat.eq_dec k j) as [<-|Nj].
      * rewrite upd_same by (apply nth_error_Some_lt in N; auto). assert (Z1 : scan (fun a => (a =? k)%nat) (U ++ [k]) = Z.of_nat (length U)).
        { clear -Q. induction U as [|a U IH]; cbn [app scan length] in *; [rewrite Nat.eqb_refl; reflexivity|]. destruct (a =? k)%nat; [lia|]. rewrite IH; lia. }
        rewrite Z1. destruct (Z.eqb_spec (Z.of_nat (length U)) (Z.of_nat (length U + 1))); [lia|]. subst u. reflexivity.
      * rewrite upd_other by auto. rewrite (R j (or_intror Hj)). do 2 f_equal. rewrite Sn by lia.
        assert (Z1 : scan (fun a => (a =? j)%nat) (U ++ [k]) = (let s := scan (fun a => (a =? j)%nat) U in if s =? Z.of_nat (length U) then s + 1 else s)).
        { clear -Nj. induction U as [|a U IH]; cbn [app scan length]; [destruct (Nat.eqb_spec k j); [congruence|reflexivity]|]. destruct (a =? j)%nat; [destruct (Z.eqb_spec 0 (Z.of_nat (S (length U)))); [lia|auto]|]. rewrite IH. cbv zeta.
          destruct (Z.eqb_spec (scan (fun a => (a =? j)%nat) U) (Z.of_nat (length U))), (Z.eqb_spec (1 + scan (fun a => (a =? j)%nat) U) (Z.of_nat (S (length U)))); lia. }
        rewrite Z1. cbv zeta. pose proof (scan_range (fun a => (a =? j)%nat) U). destruct (Z.eqb_spec (scan (fun a => (a =? j)%nat) U) (Z.of_nat (length U))).
        -- destruct (Z.eqb_spec (scan (fun a => (a =? j)%nat) U + 1) (Z.of_nat (length U + 1))); [auto|lia].
        -- destruct (Z.eqb_spec (scan (fun a => (a =? j)%nat) U) (Z.of_nat (length U + 1))); [lia|auto].
    + rewrite to_s_id; [rewrite app_length; cbn [length]; lia|lia|change (2 ^ (32 - 1)) with (2 ^ 31); lia].
    + rewrite app_length. cbn [length]. lia.
    + exists st. split; [exact E|]. rewrite Sd, <- app_assoc. cbn [app]. rewrite Q, <- Eu. reflexivity.
  - rewrite (Z.mod_small (scan _ U)) by lia. destruct (Z.eqb_spec (scan (fun a => (a =? k)%nat) U) n); [lia|]. cbn [bind]. rewrite (tget_some _ _ _ N). cbn [bind].
    destruct (IH U tab u (r ++ [scan (fun a => (a =? k)%nat) U])) as (st&E&Sd); auto; [|lia|].
    + intros j Hj. rewrite Sn by lia. apply R. right; auto.
    + exists st. split; [exact E|]. rewrite Sd, <- app_assoc. reflexivity.
Qed.
Lemma dotab_run n (f : Z -> nat) l tab : n = Z.of_nat (length l) -> n < 2 ^ 31 -> (forall a b, In a l -> In b l -> f a = f b -> a = b) -> ready (fun v => v) (to_s 32 n) [] tab (map f l) -> dotab n tab (map f l) = Ok (gcls Z.eqb [] l).
Proof.
  intros En N31 Inj R. unfold dotab. destruct (dotab_ok n (map f l) N31 [] tab 0 []) as (st&E&Sd); [exact R|reflexivity|rewrite map_length; cbn [length]; lia|].
  rewrite E. cbn [bind]. rewrite Sd. cbn [app]. f_equal. change (@nil nat) with (map f []). rewrite gcls_map. apply gcls_ext. cbn [app]. intros a b Ha Hb. destruct (Z.eqb_spec a b) as [->|Nq]; [apply Nat.eqb_refl|]. apply Nat.eqb_neq. intros Q. apply Nq. auto.
Qed.
Lemma class_lookup_ok k l : 0 <= k -> Z.of_nat (length l) < 2 ^ 31 -> Forall (fun z => 0 <= z < 2 ^ k) l -> class_lookup k l = Ok (gcls Z.eqb [] l).
Proof.
  intros K N31 F. rewrite Forall_forall in F. unfold class_lookup. cbv zeta.
  destruct (tab_init_ok (fun v => v) k (2 ^ k) (Z.of_nat (length l)) (to_s 32 (Z.of_nat (length l))) 16 (map Z.to_nat l)) as (tab&E&Lt&R).
  { intros i Hi. apply in_map_iff in Hi. destruct Hi as (z&<-&Hz). pose proof (F z Hz). lia. }
  rewrite E. cbn [bind]. apply dotab_run; auto. intros a b Ha Hb Q. pose proof (F a Ha). pose proof (F b Hb). lia.
Qed.
Lemma fold_min l : forall m, fold_left Z.min l m <= m /\ forall z, In z l -> fold_left Z.min l m <= z.
Proof. induction l as [|a l IH]; intros m; cbn [fold_left]; [split; [lia|intros z []]|]. destruct (IH (Z.min m a)) as [I1 I2]. split; [lia|]. intros z [<-|Hz]; [lia|auto]. Qed.
Lemma fold_max l : forall m, m <= fold_left Z.max l m /\ forall z, In z l -> z <= fold_left Z.max l m.
Proof. induction l as [|a l IH]; intros m; cbn [fold_left]; [split; [lia|intros z []]|]. destruct (IH (Z.max m a)) as [I1 I2]. split; [lia|]. intros z [<-|Hz]; [lia|auto]. Qed.
Lemma class_range_ok l : Z.of_nat (length l) < 2 ^ 31 -> match class_range l with Some r => r = Ok (gcls Z.eqb [] l) | None => True end.
Proof.
  intros N31. unfold class_range. cbv zeta. destruct (fold_min l (2 ^ 31 - 1)) as [_ Mn]. destruct (fold_max l (- 2 ^ 31)) as [_ Mx]. destruct (_ || _); auto.
  set (mn := fold_left Z.min l (2 ^ 31 - 1)) in *. set (mx := fold_left Z.max l (- 2 ^ 31)) in *.
  destruct (set_keys_ready (fun v => v) (to_s 32 (Z.of_nat (length l))) (repeat None (Z.to_nat (1 + (mx - mn)))) (map (fun z => Z.to_nat (z - mn)) l) (seq 0 (Z.to_nat (1 + (mx - mn))))) as (tab&E&_&R).
  - intros k Hk. apply seq_in in Hk. rewrite repeat_length. auto.
  - intros k Hk. apply in_map_iff in Hk. destruct Hk as (z&<-&Hz). apply seq_in. pose proof (Mn z Hz). pose proof (Mx z Hz). lia.
  - rewrite E. cbn [bind]. apply dotab_run; auto. intros a b Ha Hb Q. pose proof (Mn a Ha). pose proof (Mn b Hb). lia.
Qed.
