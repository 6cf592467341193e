(** C09: the hash map object behaves as an association list, over every history of calls. *)
From Verif Require Import Base HashMapModel HashMapSpec HashMapProof HashMapProof2 HashMapProof3.

(** What the map needs of [equal] and [bqn_hash]: an equivalence, and equal keys hash alike. *)
Definition good_keys {K} (eqk : K -> K -> bool) (hash : K -> Z) : Prop :=
  (forall a, eqk a a = true) /\ (forall a b, eqk a b = eqk b a) /\
  (forall a b c, eqk a b = true -> eqk b c = true -> eqk a c = true) /\
  (forall a, 0 <= hash a < 2 ^ 64) /\ (forall a b, eqk a b = true -> hash a = hash b).

Definition allocates_fine {K V} (o : @op K V) : bool := match o with OSet _ _ b => b | ODelete _ b => b | _ => true end.

(** Every history of calls on a map made from any keys and values, when allocation succeeds, returns what the association list
    returns. The only exception is a Set of a new key that throws: then everything before agrees, and the map has at least 2^27-32
    keys or its hashes are clustered at the very top. *)
Theorem C09_history {K V : Type} (eqk : K -> K -> bool) (hash : K -> Z) (ks : list K) (vs : list V) s os :
  good_keys eqk hash -> Z.of_nat (length ks) <= 2 ^ 28 -> create eqk hash ks vs = Ok s -> forallb allocates_fine os = true ->
  snd (run eqk hash s os) = a_run eqk (combine ks vs) os \/
  exists n k v, nth_error os n = Some (OSet k v true) /\ nth_error (snd (run eqk hash s os)) n = Some Err /\
    firstn n (snd (run eqk hash s os)) = firstn n (a_run eqk (combine ks vs) os) /\
    let m := a_final eqk (combine ks vs) (firstn n os) in
    a_get eqk m k = None /\ (2 ^ 27 - 32 <= a_count m \/ clustered hash (a_keys m ++ [k])).
Proof.
  intros [H1 [H2 [H3 [H4 H5]]]] Hl E Hm. assert (X := create_spec (V:=V) eqk hash H1 H2 H3 H4 H5 ks vs Hl). rewrite E in X.
  destruct X as [m [HS [HL [A _]]]]. rewrite <- A. apply (run_spec eqk hash H1 H2 H3 H4 H5 os s m HS HL Hm).
Qed.
Print Assumptions C09_history.

(** With at most 2^27-33 distinct keys in the whole history whose upper hash halves are pairwise distinct, no call deviates. *)
Lemma clustered_length {K} (hash : K -> Z) ks : (forall a, 0 <= hash a < 2 ^ 64) -> NoDup (map (fun k => hash k / 2 ^ 32) ks) -> ~ clustered hash ks.
Proof.
  intros Hr ND [t [Ht C]].
  assert (L : (length (filter (fun k => (2 ^ 32 - t <=? hash k / 2 ^ 32)%Z) ks) <= Z.to_nat t)%nat).
  { rewrite <- (map_length (fun k => Z.to_nat (hash k / 2^32 - (2^32 - t)))). rewrite <- (seq_length (Z.to_nat t) 0). apply NoDup_incl_length.
    - clear C. induction ks as [|k ks IH]; [constructor|]. cbn [map] in ND. inversion ND as [|? ? Hn ND']; subst. cbn [filter].
      destruct (Z.leb_spec (2^32 - t) (hash k / 2^32)) as [Hk|]; [|apply IH; exact ND']. cbn [map]. constructor; [|apply IH; exact ND'].
      intros Hi. apply in_map_iff in Hi. destruct Hi as [k' [E Hk']]. apply filter_In in Hk'. destruct Hk' as [Hin Hk']. apply Z.leb_le in Hk'.
      apply Hn. apply in_map_iff. exists k'. split; [|exact Hin]. lia.
    - intros x Hx. apply in_map_iff in Hx. destruct Hx as [k [<- Hk]]. apply filter_In in Hk. destruct Hk as [_ Hk]. apply Z.leb_le in Hk.
      assert (hash k / 2^32 < 2^32) by (apply Z.div_lt_upper_bound; [lia|]; specialize (Hr k); lia). apply in_seq. lia. }
  lia.
Qed.
Theorem C09_history_distinct_hashes {K V : Type} (eqk : K -> K -> bool) (hash : K -> Z) (ks : list K) (vs : list V) s os :
  good_keys eqk hash -> Z.of_nat (length ks) <= 2 ^ 28 -> create eqk hash ks vs = Ok s -> forallb allocates_fine os = true ->
  (forall n k v, nth_error os n = Some (OSet k v true) ->
     let m := a_final eqk (combine ks vs) (firstn n os) in
     a_count m < 2 ^ 27 - 32 /\ (a_get eqk m k = None -> NoDup (map (fun k => hash k / 2 ^ 32) (a_keys m ++ [k])))) ->
  snd (run eqk hash s os) = a_run eqk (combine ks vs) os.
Proof.
  intros Hg Hl E Hm Hd. destruct (C09_history eqk hash ks vs s os Hg Hl E Hm) as [|[n [k [v [N1 [_ [_ [G [C|C]]]]]]]]]; [assumption| |];
    destruct (Hd n k v N1) as [D1 D2]; cbv zeta in *.
  - lia.
  - exfalso. revert C. apply clustered_length; [apply Hg|]. apply D2. exact G.
Qed.
Print Assumptions C09_history_distinct_hashes.

(** Creation fails on duplicate keys, whatever their positions, and never misbehaves. *)
Theorem C09_create_duplicates_rejected {K V : Type} (eqk : K -> K -> bool) (hash : K -> Z) (ks : list K) (vs : list V) i j a b :
  good_keys eqk hash -> Z.of_nat (length ks) <= 2 ^ 28 -> i <> j ->
  nth_error ks i = Some a -> nth_error ks j = Some b -> eqk a b = true -> create eqk hash ks vs = Err.
Proof.
  intros [H1 [H2 [H3 [H4 H5]]]] Hl N Ha Hb E. assert (X := create_spec (V:=V) eqk hash H1 H2 H3 H4 H5 ks vs Hl).
  destruct (create eqk hash ks vs); [|reflexivity|contradiction]. exfalso. destruct X as [m [_ [_ [_ [_ D]]]]].
  destruct (Nat.lt_trichotomy i j) as [L|[L|L]]; [|contradiction|].
  - rewrite H2 in E. rewrite (D i j a b L Ha Hb) in E. discriminate.
  - rewrite (D j i b a L Hb Ha) in E. discriminate.
Qed.
Print Assumptions C09_create_duplicates_rejected.

(** Creation succeeds on as many values as keys, when the keys are distinct and their hashes not clustered. *)
Theorem C09_create_succeeds {K V : Type} (eqk : K -> K -> bool) (hash : K -> Z) (ks : list K) (vs : list V) :
  good_keys eqk hash -> Z.of_nat (length ks) <= 2 ^ 28 -> length ks = length vs ->
  (forall i j a b, nth_error ks i = Some a -> nth_error ks j = Some b -> i <> j -> eqk a b = false) -> ~ clustered hash ks ->
  exists s, create eqk hash ks vs = Ok s.
Proof.
  intros [H1 [H2 [H3 [H4 H5]]]] Hl El D C. assert (X := create_spec (V:=V) eqk hash H1 H2 H3 H4 H5 ks vs Hl).
  destruct (create eqk hash ks vs) as [s| |]; [eauto| |contradiction]. exfalso. destruct X as [X|[[i [j [a [b [L [Ha [Hb E]]]]]]]|X]]; [contradiction| |contradiction].
  rewrite (D j i b a Hb Ha) in E by lia. discriminate.
Qed.
Print Assumptions C09_create_succeeds.

(** A map stays usable after a failed Get or Delete: the object is unchanged. *)
Theorem C09_failed_get_delete_change_nothing {K V : Type} (eqk : K -> K -> bool) (hash : K -> Z) (ks : list K) (vs : list V) s0 os o :
  good_keys eqk hash -> Z.of_nat (length ks) <= 2 ^ 28 -> create eqk hash ks vs = Ok s0 ->
  forallb allocates_fine (os ++ [o]) = true -> (forall k v, o <> OSet k v true) ->
  ~ In Err (snd (run eqk hash s0 os)) ->
  snd (step eqk hash (fst (run eqk hash s0 os)) o) = Err -> fst (step eqk hash (fst (run eqk hash s0 os)) o) = fst (run eqk hash s0 os).
Proof.
  intros [H1 [H2 [H3 [H4 H5]]]] Hl E Hm No Nf. assert (X := create_spec (V:=V) eqk hash H1 H2 H3 H4 H5 ks vs Hl). rewrite E in X.
  destruct X as [m [HS [HL _]]]. rewrite forallb_app in Hm. apply andb_true_iff in Hm. destruct Hm as [Hm Ho]. cbn in Ho. rewrite andb_true_r in Ho.
  assert (Y : exists m', SInv eqk hash (fst (run eqk hash s0 os)) m').
  { clear E Ho No o. revert s0 m HS HL Hm Nf. induction os as [|o os IH]; intros s0 m HS HL Hm Nf; [exists m; exact HS|].
    cbn [forallb] in Hm. apply andb_true_iff in Hm. destruct Hm as [M1 M2]. assert (Z := step_spec eqk hash H1 H2 H3 H4 H5 s0 m o HS HL M1).
    cbn [run] in *. destruct (step eqk hash s0 o) as [s' r]. specialize (IH s').
    destruct (run eqk hash s' os) as [s'' rs]. cbn [fst snd] in *.
    destruct Z as [[m' [S' [L' _]]]|[k [v [_ [-> _]]]]]; [|exfalso; apply Nf; left; reflexivity]. apply (IH m' S' L' M2). intros F. apply Nf. right. exact F. }
  destruct Y as [m' S']. set (s := fst (run eqk hash s0 os)) in *. clearbody s. clear s0 E HS HL Nf Hm os.
  destruct o as [k d|k|k v b|k b| | |]; cbn [step fst snd]; auto.
  - cbn in Ho. subst b. exfalso. apply (No k v eq_refl).
  - cbn in Ho. subst b. assert (Z := delete_spec eqk hash H1 H2 H3 H4 H5 s m' k S'). destruct (delete eqk hash s k true) as [s' [[]| |]]; cbn [fst snd] in *; try discriminate; [contradiction..|]. intros _. apply Z.
  - destruct (settle_spec eqk hash H1 H2 H3 H4 H5 s m' S') as [s' [m2 [E [_ [_ [_ [U1 _]]]]]]]. rewrite E. cbn. rewrite U1. discriminate.
  - destruct (settle_spec eqk hash H1 H2 H3 H4 H5 s m' S') as [s' [m2 [E [_ [_ [_ [_ U1]]]]]]]. rewrite E. cbn. rewrite U1. discriminate.
Qed.
Print Assumptions C09_failed_get_delete_change_nothing.

(** The full claim, that a failed call leaves the map usable, is false: a Set that fails while growing leaves the object
    without its table, and the next call dereferences it. *)
Definition z_hash (k : Z) : Z := 2 ^ 64 - 2 ^ 32.
Definition z_sets (n : nat) : list (@op Z Z) := map (fun i => OSet (Z.of_nat i) (Z.of_nat i) true) (seq 0 n).
Theorem C09_failed_set_leaves_map_usable_refuted :
  exists (os : list (@op Z Z)) s, good_keys Z.eqb z_hash /\ create Z.eqb z_hash [] [] = Ok s /\ forallb allocates_fine os = true /\
    snd (run Z.eqb z_hash s (os ++ [OSet 1000 0 false; OCount])) = map (fun _ => Ok OutUnit) os ++ [Err; UB].
Proof.
  exists (z_sets 32). eexists. split; [|split; [reflexivity|split; vm_compute; reflexivity]].
  unfold good_keys, z_hash. split; [apply Z.eqb_refl|]. split; [apply Z.eqb_sym|]. split; [intros a b c; rewrite !Z.eqb_eq; congruence|]. split; [lia|reflexivity].
Qed.
Print Assumptions C09_failed_set_leaves_map_usable_refuted.

(** Non-trivial cases: a history with growth, deletion, compaction and re-insertion. *)
Definition z_hash2 (k : Z) : Z := (k * 11400714819323198485) mod 2 ^ 64.
Example C09_hyps_met : good_keys Z.eqb z_hash2.
Proof.
  unfold good_keys, z_hash2. split; [apply Z.eqb_refl|]. split; [apply Z.eqb_sym|]. split; [intros a b c; rewrite !Z.eqb_eq; congruence|].
  split; [intros a; apply Z.mod_pos_bound; lia|]. intros a b H. apply Z.eqb_eq in H. congruence.
Qed.
Example C09_run_example :
  exists s, create Z.eqb z_hash2 [5; 7; 9] [50; 70; 90] = Ok s /\
  snd (run Z.eqb z_hash2 s ([ODelete 7 true; OKeys; OGet 7 None; OSet 7 71 true; OSet 5 51 true; OKeys; OValues; OCount; OHas 9] ++ z_sets 100 ++ [OCount; OGet 80 None]))
  = [Ok OutUnit; Ok (OutKeys [5; 9]); Err; Ok OutUnit; Ok OutUnit; Ok (OutKeys [5; 9; 7]); Ok (OutVals [51; 90; 71]); Ok (OutNum 3); Ok (OutBool true)]
    ++ map (fun _ => Ok OutUnit) (z_sets 100) ++ [Ok (OutNum 100); Ok (OutVal 80)].
Proof. eexists. split; [reflexivity|]. vm_compute. reflexivity. Qed.
