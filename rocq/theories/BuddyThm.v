(** C02-C04: the buddy allocator. All statements are about arbitrary histories [run MUL (init max) ops] of allocations, releases, collections
    and writes by owners, for MUL = 1 (mm_buddy) and MUL = 3 (the second half of mm_2buddy), with arbitrary decisions of the environment. *)
From Verif Require Import Base BuddyModel BuddySpec BuddyProof BuddyProof2.
From Coq Require Import Permutation.

Definition supported (MUL : Z) : Prop := MUL = 1 \/ MUL = 3.

Lemma run_out MUL max ops h rs : supported MUL -> 0 <= max -> run MUL (init max) ops = Ok (h, rs) -> (exists bs, Out MUL settled h bs) /\ heapMax h = max.
Proof.
  intros HM Hm E. destruct (run_spec MUL HM ops (init max) [] (init_out MUL max Hm)) as [h' [rs' [E' [O M]]]]. rewrite E in E'. injection E' as <- <-. auto.
Qed.
Lemma live_blocks MUL h bs : supported MUL -> Out MUL settled h bs -> blocks_of MUL (live h) (map (liverange MUL) (live h)).
Proof.
  intros HM O. assert (X := O_req _ _ _ _ O). unfold blocks_of. induction X as [|x l Hx _ IH]; cbn [map]; constructor; [|exact IH].
  split; [reflexivity|]. apply (bk_spec MUL HM _ Hx).
Qed.
Lemma apart_shrink (f : Z * Z -> Z * Z) l : (forall x, In x l -> fst (f x) = fst x /\ snd x <= snd (f x)) -> all_apart (map f l) -> all_apart l.
Proof.
  induction l as [|x l IH]; intros Hf H; [constructor|]. cbn [map] in H. inversion H as [|? ? A B]; subst. constructor; [|apply IH; [intros y Hy; apply Hf; right; exact Hy|exact B]].
  rewrite Forall_map in A. rewrite Forall_forall in *. intros y Hy. specialize (A _ Hy). destruct (Hf x (or_introl eq_refl)) as [E1 L1]. destruct (Hf y (or_intror Hy)) as [E2 L2]. unfold apart in *. lia.
Qed.

(** every history runs to its end: no access outside of the bucket tables, no use of an empty free list, no endless merge *)
Theorem C02_history_defined MUL max ops : supported MUL -> 0 <= max -> exists h rs, run MUL (init max) ops = Ok (h, rs).
Proof. intros HM Hm. destruct (run_spec MUL HM ops (init max) [] (init_out MUL max Hm)) as [h [rs [E _]]]. eauto. Qed.
Print Assumptions C02_history_defined.

(** live objects (address, requested size) share no byte, and each lies inside of one range obtained from the operating system *)
Theorem C02_live_disjoint MUL max ops h rs : supported MUL -> 0 <= max -> run MUL (init max) ops = Ok (h, rs) ->
  all_apart (live h) /\ Forall (fun o => exists c, In c (chunks h) /\ inside o c) (live h) /\ all_apart (chunks h).
Proof.
  intros HM Hm E. destruct (run_out _ _ _ _ _ HM Hm E) as [[bs O] _]. destruct (whole_spec MUL HM h bs O) as [fl [_ [_ [A [I _]]]]].
  apply FOP_app_inv in A. destruct A as [_ [A _]]. apply Forall_app in I. destruct I as [_ I]. rewrite Forall_map in I.
  assert (Hr : forall x, In x (live h) -> fst (liverange MUL x) = fst x /\ snd x <= snd (liverange MUL x)).
  { intros x Hx. split; [reflexivity|]. assert (X := O_req _ _ _ _ O). rewrite Forall_forall in X. apply (bk_spec MUL HM _ (X _ Hx)). }
  split; [|split].
  - eapply apart_shrink; [exact Hr|exact A].
  - rewrite Forall_forall in *. intros x Hx. destruct (I _ Hx) as [c [Hc Hi]]. exists c. split; [exact Hc|]. destruct (Hr _ Hx) as [E1 L1]. unfold inside in *. lia.
  - apply (I_apart _ _ _ (O_inv _ _ _ _ O)).
Qed.
Print Assumptions C02_live_disjoint.

(** a successful request adds exactly one live object, of the requested size, at the returned address; no byte of any other live object is changed *)
Theorem C02_alloc MUL max ops h rs sz envs h' a : supported MUL -> 0 <= max -> run MUL (init max) ops = Ok (h, rs) -> step MUL h (OAlloc sz envs) = Ok (h', Got a) ->
  exists l, live h' = (a, sz) :: l /\ incl l (live h) /\ forall b n, In (b, n) l -> forall x, b <= x < b + n -> mem h' x = mem h x.
Proof.
  intros HM Hm E Es. destruct (run_out _ _ _ _ _ HM Hm E) as [[bs O] _]. destruct (step_spec MUL HM h bs (OAlloc sz envs) O) as [h1 [r [E1 [_ S]]]]. rewrite Es in E1. injection E1 as <- <-.
  destruct S as [[_ [_ [[l [A [B [_ C]]]] _]]]|[_ S]]; [|discriminate]. exists l. auto.
Qed.
Print Assumptions C02_alloc.

(** releasing an object or collecting removes objects, adds none, and leaves every byte of the remaining ones alone *)
Theorem C02_free_and_gc MUL max ops h rs o h' r : supported MUL -> 0 <= max -> run MUL (init max) ops = Ok (h, rs) -> (exists a, o = OFree a) \/ (exists l, o = OGc l) ->
  step MUL h o = Ok (h', r) -> only_collected h h'.
Proof.
  intros HM Hm E Ho Es. destruct (run_out _ _ _ _ _ HM Hm E) as [[bs O] _]. destruct (step_spec MUL HM h bs o O) as [h1 [r' [E1 [_ S]]]]. rewrite Es in E1. injection E1 as <- <-.
  destruct Ho as [[a ->]|[l ->]]; exact S.
Qed.
Print Assumptions C02_free_and_gc.

(** releasing a live object removes that object and nothing else *)
Theorem C02_free_removes_one MUL max ops h rs a n : supported MUL -> 0 <= max -> run MUL (init max) ops = Ok (h, rs) -> In (a, n) (live h) ->
  exists h', step MUL h (OFree a) = Ok (h', Got 0) /\ Permutation (live h) ((a, n) :: live h').
Proof.
  intros HM Hm E Hin. assert (D := C02_live_disjoint _ _ _ _ _ HM Hm E). destruct D as [D _]. destruct (run_out _ _ _ _ _ HM Hm E) as [[bs O] _].
  assert (Hl : in_live (live h) a = true). { clear -Hin. induction (live h) as [|[x k] l IH]; [destruct Hin|]. cbn [in_live]. destruct Hin as [E|Hin]; [injection E as -> ->; rewrite Z.eqb_refl; reflexivity|]. rewrite (IH Hin). apply orb_true_r. }
  destruct (free_spec MUL HM settled h bs a ltac:(auto) ltac:(left; reflexivity) O Hl) as [h1 [b1 [E1 [_ [_ L1]]]]]. cbn [step]. rewrite Hl, E1. cbn [bind]. eexists. split; [reflexivity|]. cbn [setlive live]. rewrite L1.
  destruct (in_live_spec _ _ Hl) as [H1 H2]. assert (En : live_size (live h) a = n); [|rewrite En in H2; exact H2].
  assert (Hp : Forall (fun x => 16 <= snd x) (live h)) by (eapply Forall_impl; [|apply (O_req _ _ _ _ O)]; intros x [Hx _]; exact Hx).
  revert Hin H1 D Hp. generalize (live_size (live h) a). clear. intros k. induction (live h) as [|y l IH]; intros A B D Hp; [destruct A|]. inversion D as [|? ? D1 D2]; subst. inversion Hp as [|? ? P1 P2]; subst. rewrite Forall_forall in D1, P2.
  destruct A as [->|A], B as [B|B].
  - congruence.
  - exfalso. specialize (D1 _ B). specialize (P2 _ B). unfold apart in D1. cbn [fst snd] in *. lia.
  - subst y. exfalso. specialize (D1 _ A). specialize (P2 _ A). unfold apart in D1. cbn [fst snd] in *. lia.
  - apply IH; auto. apply Forall_forall. exact P2.
Qed.
Print Assumptions C02_free_removes_one.

(** the used figure is the sum of the sizes of the blocks serving the live objects *)
Theorem C03_used_exact MUL max ops h rs : supported MUL -> 0 <= max -> run MUL (init max) ops = Ok (h, rs) ->
  exists bl, blocks_of MUL (live h) bl /\ heapUsed MUL h = total bl.
Proof.
  intros HM Hm E. destruct (run_out _ _ _ _ _ HM Hm E) as [[bs O] _]. exists (map (liverange MUL) (live h)). split; [eapply live_blocks; eassumption|eapply heapUsed_spec; eassumption].
Qed.
Print Assumptions C03_used_exact.

(** the free lists and the live objects' blocks partition the memory obtained: no overlap, nothing outside, no byte missing *)
Theorem C03_no_byte_lost MUL max ops h rs : supported MUL -> 0 <= max -> run MUL (init max) ops = Ok (h, rs) ->
  exists fl bl, free_blocks h fl /\ blocks_of MUL (live h) bl /\
    let blocks := map (fun x => (fst x, BSZ MUL (snd x))) fl ++ bl in
    all_apart blocks /\ Forall (fun r => exists c, In c (chunks h) /\ inside r c) blocks /\ total blocks = total (chunks h).
Proof.
  intros HM Hm E. destruct (run_out _ _ _ _ _ HM Hm E) as [[bs O] _]. destruct (whole_spec MUL HM h bs O) as [fl [A [B [C [D F]]]]].
  exists fl, (map (liverange MUL) (live h)). split; [split; assumption|]. split; [eapply live_blocks; eassumption|]. cbv zeta. split; [exact C|]. split; [exact D|exact F].
Qed.
Print Assumptions C03_no_byte_lost.

(** memory obtained from the operating system for blocks is exactly the counted amount and never exceeds the limit *)
Theorem C04_limit MUL max ops h rs : supported MUL -> 0 <= max -> run MUL (init max) ops = Ok (h, rs) -> heapAlloc h = total (chunks h) /\ total (chunks h) <= max.
Proof.
  intros HM Hm E. destruct (run_out _ _ _ _ _ HM Hm E) as [[bs O] M]. assert (A := I_al _ _ _ (O_inv _ _ _ _ O)). assert (B := O_max _ _ _ _ O). rewrite M in B. split; [exact A|]. rewrite <- A. exact B.
Qed.
Print Assumptions C04_limit.

(** a request that runs out of memory changes nothing but that garbage may have been collected; it fails only if no free block is large enough, and
    the operating system refused memory or a new chunk would exceed the limit *)
Theorem C04_failed_request MUL max ops h rs sz envs h' : supported MUL -> 0 <= max -> run MUL (init max) ops = Ok (h, rs) -> step MUL h (OAlloc sz envs) = Ok (h', OOM) ->
  only_collected h h' /\ (forall b, (b < 64)%nat -> sz <= BSZ MUL b -> nth b (bkts h') 0 = 0) /\
  ((exists e, In e envs /\ e_mmap e = None) \/ forall bsz, is_block_size MUL sz bsz -> max < total (chunks h) + Z.max bsz (BSZ MUL 20)).
Proof.
  intros HM Hm E Es. destruct (run_out _ _ _ _ _ HM Hm E) as [[bs O] M]. destruct (step_spec MUL HM h bs (OAlloc sz envs) O) as [h1 [r [E1 [_ S]]]]. rewrite Es in E1. injection E1 as <- <-.
  destruct S as [[Hr [_ [A [B C]]]]|[_ S]]; [|discriminate]. destruct (bk_spec MUL HM sz Hr) as [_ [_ [k [K0 [K1 [K2 K3]]]]]].
  assert (Kb : k = Z.of_nat (bk MUL sz)). { unfold BSZ in K1. assert (X : 2 ^ k = 2 ^ Z.of_nat (bk MUL sz)) by (destruct HM as [-> | ->]; lia). apply Z.pow_inj_r in X; lia. }
  split; [exact A|]. split; [|destruct C as [C|C]; [right|left; exact C]].
  - intros b Hb Hs. apply B. unfold NB. split; [|exact Hb]. assert (X := K3 (Z.of_nat b) ltac:(lia) Hs). lia.
  - intros bsz [j [J0 [J1 [J2 J3]]]]. rewrite J1 in *. rewrite <- M, <- (I_al _ _ _ (O_inv _ _ _ _ O)). unfold chunk_for in C.
    assert (j = k) by (assert (X1 := K3 j J0 J2); rewrite K1 in K2; assert (X2 := J3 k K0 K2); lia). subst j. rewrite Kb. fold (BSZ MUL (bk MUL sz)). unfold ALSZ in C.
    destruct (Nat.max_spec 20 (bk MUL sz)) as [[_ X]|[_ X]]; rewrite X in C; lia.
Qed.
Print Assumptions C04_failed_request.

(** a request that is interrupted, or ends the process, or fails, leaves the heap as in the previous theorem *)
Theorem C04_other_outcomes MUL max ops h rs sz envs h' r : supported MUL -> 0 <= max -> run MUL (init max) ops = Ok (h, rs) -> step MUL h (OAlloc sz envs) = Ok (h', r) ->
  (forall a, r <> Got a) -> only_collected h h'.
Proof.
  intros HM Hm E Es Hr. destruct (run_out _ _ _ _ _ HM Hm E) as [[bs O] M]. destruct (step_spec MUL HM h bs (OAlloc sz envs) O) as [h1 [r' [E1 [_ S]]]]. rewrite Es in E1. injection E1 as <- <-.
  destruct S as [[_ [_ R]]|[-> _]]; [|apply (kept_refl h)]. destruct r; try exact R; [exfalso; apply (Hr a); reflexivity|apply R].
Qed.
Print Assumptions C04_other_outcomes.

(** * Non-vacuity: a history with splitting, releasing, collection with merging, and a refused request *)
Definition ex_env (p : option Z) : list env := [mkEnv false None [] p; mkEnv false None [] p].
Definition ex_ops : list op :=
  [OAlloc 100 (ex_env (Some 4096)); OAlloc 24 []; OAlloc 5000 []; OWrite 4096 4100 (mkHdr KFreed 3 77); OFree 4224; OAlloc 32 []; OGc [(4096, false)]; OAlloc 500000 (ex_env (Some 3000000)); OAlloc 1000000 (ex_env None)].
Definition ex_view (r : res (heap * list outcome)) : option (list (Z * Z) * list (Z * Z) * Z * list outcome) :=
  match r with Ok (h, rs) => Some (live h, chunks h, heapUsed 1 h, rs) | _ => None end.
Example buddy_example : ex_view (run 1 (init 2000000) ex_ops) =
  Some ([(528384, 500000); (4224, 32); (12288, 5000)], [(4096, 1048576)], 532512, [Got 4096; Got 4224; Got 12288; Got 0; Got 0; Got 4224; Got 0; Got 528384; OOM]).
Proof. vm_compute. reflexivity. Qed.
