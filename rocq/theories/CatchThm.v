(** C31: catching an error restores the interpreter's stacks. *)
From Verif Require Import Base CatchModel.

(** Frames are those of enclosing catches: each knows its own number, and the heights recorded do not exceed those of later frames and of the stacks. *)
Fixpoint frames_ok (c : list frame) (i g e : nat) : Prop :=
  match c with
  | [] => True
  | f :: t => cfDepth f = i /\ (gsDepth f <= g)%nat /\ (envDepth f <= e)%nat /\ frames_ok t (S i) g e /\
              match t with [] => True | f' :: _ => (gsDepth f <= gsDepth f')%nat /\ (envDepth f <= envDepth f')%nat end
  end.
Definition wf (s : st) : Prop := frames_ok (cf s) 0 (length (gs s)) (length (envs s)).
(** The message in force after the items l, lowest first, have been removed. *)
Fixpoint restored (l : list item) (m : Z) : Z := match l with [] => m | Re m' :: _ => m' | Other _ :: t => restored t m end.
Definition same (s s' : st) : Prop := gs s' = gs s /\ envs s' = envs s /\ cf s' = cf s /\ lastErr s' = lastErr s.

Lemma frames_mono : forall c i g e g' e', frames_ok c i g e -> (g <= g')%nat -> (e <= e')%nat -> frames_ok c i g' e'.
Proof. induction c as [|f t IH]; intros i g e g' e' H Hg He; [exact I|]. cbn in *. destruct H as (A & B & C & D & E). repeat split; auto; try lia. eapply IH; eauto. Qed.
Lemma frames_app : forall c f i g e, frames_ok (c ++ [f]) i g e -> cfDepth f = (i + length c)%nat /\ (gsDepth f <= g)%nat /\ (envDepth f <= e)%nat /\ frames_ok c i (gsDepth f) (envDepth f).
Proof.
  induction c as [|x t IH]; intros f i g e H; cbn [app frames_ok length] in *.
  - destruct H as (A & B & C & _). repeat split; auto; lia.
  - destruct H as (A & B & C & D & E). destruct (IH f (S i) g e D) as (A' & B' & C' & D'). repeat split; auto; try lia.
    + destruct t as [|y t]; cbn [app] in E; [lia|]. cbn [frames_ok] in D'. lia.
    + destruct t as [|y t]; cbn [app] in E; [lia|]. cbn [frames_ok] in D'. lia.
    + destruct t as [|y t]; [exact I|]. cbn [app] in E. exact E.
Qed.
Lemma frames_push : forall c i g e, frames_ok c i g e -> frames_ok (c ++ [{| gsDepth := g; envDepth := e; cfDepth := (i + length c)%nat |}]) i g e.
Proof.
  induction c as [|x t IH]; intros i g e H; cbn [app frames_ok length gsDepth envDepth cfDepth] in *; [repeat split; lia|].
  destruct H as (A & B & C & D & E). specialize (IH (S i) g e D). replace (i + S (length t))%nat with (S i + length t)%nat by lia. repeat split; auto.
  destruct t as [|y t]; cbn [app]; [cbn [gsDepth envDepth]; lia|exact E].
Qed.

Lemma restored_app : forall l i m, restored (l ++ [i]) m = restored l (match i with Re m' => m' | Other _ => m end).
Proof. induction l as [|x l IH]; intros i m; cbn [app restored]; [destruct i; reflexivity|]. destruct x; [reflexivity|]. apply IH. Qed.

Lemma pop_to_ok : forall fuel s n, (n <= length (gs s))%nat -> (length (gs s) <= n + fuel)%nat ->
  exists s', pop_to fuel s n = Ok s' /\ gs s' = firstn n (gs s) /\ envs s' = envs s /\ cf s' = cf s /\ thrown s' = thrown s /\ lastErr s' = restored (skipn n (gs s)) (lastErr s).
Proof.
  induction fuel as [|f IH]; intros s n H1 H2; cbn [pop_to]; destruct (Nat.eqb_spec (length (gs s)) n) as [E|N].
  1, 3: exists s; rewrite firstn_all2, skipn_all2 by lia; auto 10.
  - lia.
  - unfold gsPop. destruct (rev (gs s)) as [|i r] eqn:Er.
    { apply (f_equal (@length item)) in Er. rewrite rev_length in Er. cbn in Er. lia. }
    assert (Eg : gs s = rev r ++ [i]) by (rewrite <- (rev_involutive (gs s)), Er; reflexivity).
    cbn [bind]. set (s1 := dec (set_gs s (rev r)) i).
    assert (G1 : gs s1 = rev r) by (destruct i; reflexivity). assert (Ln : length (gs s) = S (length (rev r))) by (rewrite Eg, app_length; cbn; lia).
    destruct (IH s1 n) as (s' & P & A & B & C & D & F); [rewrite G1; lia|rewrite G1; lia|].
    exists s'. split; [exact P|]. rewrite A, B, C, D, F, G1, Eg. rewrite firstn_app, skipn_app.
    replace (n - length (rev r))%nat with 0%nat by lia. rewrite app_nil_r. cbn [firstn skipn]. rewrite restored_app. destruct i; auto 10.
Qed.

(** What a throw does: everything above the last catch is gone, nothing below is touched. *)
Definition unwound (s s' : st) (c : list frame) (f : frame) : Prop :=
  cf s' = c /\ gs s' = firstn (gsDepth f) (gs s) /\ envs s' = firstn (envDepth f) (envs s) /\ lastErr s' = restored (skipn (gsDepth f) (gs s)) (lastErr s).
Definition post (s s' : st) (o : out) : Prop :=
  match o with
  | Normal => same s s'
  | Jump j => exists c f, cf s = c ++ [f] /\ j = length c /\ unwound s s' c f
  | Exit => cf s = []
  end.
Lemma throw_ok : forall s, wf s -> exists s' o, throwImpl s = Ok (s', o) /\ o <> Normal /\ post s s' o.
Proof.
  intros s W. unfold throwImpl. destruct (rev (cf s)) as [|f r] eqn:Er.
  - exists s, Exit. split; [reflexivity|]. split; [discriminate|]. cbn. apply (f_equal (@rev frame)) in Er. rewrite rev_involutive in Er. exact Er.
  - assert (Ec : cf s = rev r ++ [f]) by (rewrite <- (rev_involutive (cf s)), Er; reflexivity). unfold wf in W. rewrite Ec in W.
    destruct (frames_app _ _ _ _ _ W) as (A & B & C & D). destruct (Nat.ltb_spec (length (gs s)) (gsDepth f)); [lia|].
    destruct (pop_to_ok (length (gs s)) (set_cf s (rev r)) (gsDepth f)) as (s1 & P & G1 & E1 & C1 & T1 & L1); [exact B|cbn; lia|]. rewrite P. cbn [bind].
    unfold unwindEnv. rewrite E1. cbn [set_cf envs]. destruct (Nat.ltb_spec (length (envs s)) (envDepth f)); [lia|]. cbn [bind].
    cbn [set_envs cf]. rewrite C1. cbn [set_cf cf]. destruct (Nat.ltb_spec (length (rev r)) (cfDepth f)); [cbn in A; lia|].
    eexists _, _. split; [reflexivity|]. split; [discriminate|]. exists (rev r), f. split; [exact Ec|]. split; [cbn in A; lia|]. unfold unwound. cbn [set_cf set_envs gs envs cf lastErr].
    rewrite G1, L1. cbn [set_cf gs lastErr]. split; [rewrite A; cbn [Nat.add]; apply firstn_all|auto].
Qed.

Lemma set_thrown_wf : forall s m, wf s -> wf (set_thrown s m).
Proof. intros s m W. exact W. Qed.
Lemma post_thrown : forall s m s' o, post (set_thrown s m) s' o -> post s s' o.
Proof. intros s m s' [|j|] H; exact H. Qed.
Lemma wf_same : forall s s', same s s' -> wf s -> wf s'.
Proof. intros s s' (A & B & C & D) W. unfold wf in *. rewrite A, B, C. exact W. Qed.
Lemma wf_jump : forall s s' c f, wf s -> cf s = c ++ [f] -> unwound s s' c f -> wf s'.
Proof.
  intros s s' c f W E (A & B & C & D). unfold wf in *. rewrite E in W. destruct (frames_app _ _ _ _ _ W) as (_ & Q1 & Q2 & Q3). rewrite A, B, C, !firstn_length.
  rewrite !Nat.min_l by assumption. exact Q3.
Qed.
(* jumping out of code that had pushed more *)
Lemma post_deeper : forall s s1 s' o l, gs s1 = gs s ++ l -> envs s1 = envs s -> cf s1 = cf s -> lastErr s1 = lastErr s -> (forall m, restored l m = m) ->
  wf s -> o <> Normal -> post s1 s' o -> post s s' o.
Proof.
  intros s s1 s' o l G E C L R W N P. destruct o as [|j|]; [contradiction| |cbn in *; congruence].
  destruct P as (c & f & Ec & -> & U1 & U2 & U3 & U4). exists c, f. rewrite C in Ec. split; [exact Ec|]. split; [reflexivity|].
  unfold wf in W. rewrite Ec in W. destruct (frames_app _ _ _ _ _ W) as (_ & Q1 & Q2 & _). unfold unwound. split; [exact U1|].
  rewrite G in U2, U4. rewrite firstn_app in U2. rewrite skipn_app in U4. replace (gsDepth f - length (gs s))%nat with 0%nat in * by lia. cbn [firstn skipn] in *.
  rewrite app_nil_r in U2. split; [exact U2|]. split; [rewrite U3, E; reflexivity|]. rewrite U4, L. clear - R.
  generalize (lastErr s). induction (skipn (gsDepth f) (gs s)) as [|x t IH]; intro m; cbn [app restored]; [apply R|]. destruct x; auto.
Qed.
Lemma post_deeper_env : forall s s1 s' o e, gs s1 = gs s -> envs s1 = envs s ++ e -> cf s1 = cf s -> lastErr s1 = lastErr s -> wf s -> o <> Normal -> post s1 s' o -> post s s' o.
Proof.
  intros s s1 s' o l G E C L W N P. destruct o as [|j|]; [contradiction| |cbn in *; congruence].
  destruct P as (c & f & Ec & -> & U1 & U2 & U3 & U4). exists c, f. rewrite C in Ec. split; [exact Ec|]. split; [reflexivity|].
  unfold wf in W. rewrite Ec in W. destruct (frames_app _ _ _ _ _ W) as (_ & Q1 & Q2 & _). unfold unwound. split; [exact U1|].
  rewrite G, L in *. rewrite E in U3. rewrite firstn_app in U3. replace (envDepth f - length (envs s))%nat with 0%nat in * by lia. cbn [firstn] in U3. rewrite app_nil_r in U3. auto.
Qed.

Section Main.
Variables (GS_SIZE ENV_SIZE : nat).
Lemma push_item_ok : forall s i, wf s -> exists s' o, push_item GS_SIZE s i = Ok (s', o) /\
  match o with Normal => s' = set_gs s (gs s ++ [i]) | _ => post s s' o end.
Proof.
  intros s i W. unfold push_item. destruct (length (gs s) =? GS_SIZE)%nat.
  - destruct (throw_ok (set_thrown s 1) W) as (s' & o & T & N & P). exists s', o. split; [exact T|]. destruct o; [contradiction| |]; exact P.
  - eexists _, Normal. split; reflexivity.
Qed.
Lemma restored_other : forall l m, restored (List.map Other l) m = m.
Proof. induction l; intro m; cbn; auto. Qed.
Lemma wf_more : forall s s1 l, gs s1 = gs s ++ l -> envs s1 = envs s -> cf s1 = cf s -> wf s -> wf s1.
Proof. intros s s1 l G E C W. unfold wf in *. rewrite G, E, C, app_length. eapply frames_mono; eauto; lia. Qed.
Lemma push_items_ok : forall l s, wf s -> exists s' o, push_items GS_SIZE s l = Ok (s', o) /\
  match o with Normal => s' = set_gs s (gs s ++ List.map Other l) | _ => post s s' o end.
Proof.
  induction l as [|v l IH]; intros s W; cbn [push_items List.map].
  - eexists _, Normal. split; [reflexivity|]. rewrite app_nil_r. destruct s; reflexivity.
  - destruct (push_item_ok s (Other v) W) as (s1 & o & -> & P). cbn [bind]. destruct o; [|eexists _, _; split; [reflexivity|exact P]..].
    subst s1. destruct (IH (set_gs s (gs s ++ [Other v]))) as (s' & o & E & P'); [eapply (wf_more s _ [Other v]); try reflexivity; exact W|]. rewrite E. exists s', o. split; [reflexivity|].
    destruct o; [rewrite P'; cbn; rewrite <- app_assoc; reflexivity| |]; (eapply post_deeper with (l := [Other v]); try exact P'; try reflexivity; [assumption|discriminate]).
Qed.
Lemma gsPop_last : forall s g i, gs s = g ++ [i] -> gsPop s = Ok (set_gs s g, i).
Proof. intros s g i E. unfold gsPop. rewrite E, rev_app_distr. cbn [rev app]. rewrite rev_involutive. reflexivity. Qed.
Lemma pop_items_ok : forall l s g, gs s = g ++ List.map Other l -> pop_items s l = Ok (set_gs s g).
Proof.
  intro l. assert (G : forall k s g, length l = length k -> gs s = g ++ List.map Other k -> pop_items s l = Ok (set_gs s g)).
  { induction l as [|v l IH]; intros k s g L E; cbn [pop_items].
    - destruct k; [|discriminate]. cbn in E. rewrite app_nil_r in E. rewrite <- E. destruct s; reflexivity.
    - destruct (exists_last (l := k)) as (k' & x & ->); [destruct k; discriminate|]. rewrite map_app in E. cbn [List.map] in E. rewrite app_assoc in E.
      rewrite (gsPop_last s _ _ E). cbn [bind dec]. rewrite app_length in L. cbn [length] in L. rewrite (IH k' (set_gs s (g ++ List.map Other k')) g); [destruct s; reflexivity|lia|reflexivity]. }
  intros s g E. eapply G; eauto.
Qed.

Theorem exec_ok : forall p s, wf s -> exists s' o, exec GS_SIZE ENV_SIZE p s = Ok (s', o) /\ post s s' o.
Proof.
  induction p as [|a IHa b IHb|l p IH|e p IH|m| |p IHp h IHh|p IHp h IHh]; intros s W; cbn [exec].
  - exists s, Normal. split; [reflexivity|]. repeat split.
  - destruct (IHa s W) as (s1 & o & -> & P). cbn [bind]. destruct o; [|eexists _, _; split; [reflexivity|exact P]..].
    destruct (IHb s1 (wf_same _ _ P W)) as (s2 & o & E & P2). exists s2, o. split; [exact E|]. destruct P as (A & B & C & D).
    destruct o as [|j|]; cbn [post] in *; [unfold same in *; intuition congruence| |congruence].
    destruct P2 as (c & f & Q & J & U). exists c, f. split; [congruence|]. split; [exact J|]. unfold unwound in *. rewrite A, B, D in U. exact U.
  - destruct (push_items_ok l s W) as (s1 & o & -> & P). cbn [bind]. destruct o; [|eexists _, _; split; [reflexivity|exact P]..]. subst s1.
    assert (W1 : wf (set_gs s (gs s ++ List.map Other l))) by (eapply (wf_more s _ (List.map Other l)); try reflexivity; exact W).
    destruct (IH _ W1) as (s2 & o & -> & P). cbn [bind]. destruct o.
    + destruct P as (A & B & C & D). cbn in A, B, C, D. rewrite (pop_items_ok l s2 (gs s) A). cbn [bind]. eexists _, Normal. split; [reflexivity|]. repeat split; assumption.
    + eexists _, _. split; [reflexivity|]. eapply post_deeper with (l := List.map Other l); try exact P; try reflexivity; [apply restored_other|assumption|discriminate].
    + eexists _, _. split; [reflexivity|]. exact P.
  - unfold pushEnv. destruct (length (envs s) =? ENV_SIZE)%nat.
    { destruct (throw_ok (set_thrown s 1) W) as (s' & o & -> & N & P). cbn [bind]. destruct o; [contradiction| |]; (eexists _, _; split; [reflexivity|exact P]). }
    cbn [bind]. assert (W1 : wf (set_envs s (envs s ++ [e]))) by (unfold wf in *; cbn; rewrite app_length; eapply frames_mono; eauto; lia).
    destruct (IH _ W1) as (s2 & o & -> & P). cbn [bind]. destruct o.
    + destruct P as (A & B & C & D). cbn in A, B, C, D. unfold popEnv. rewrite B. destruct (envs s ++ [e]) as [|x y] eqn:Q; [destruct (envs s); discriminate|]. cbn [bind].
      eexists _, Normal. split; [reflexivity|]. rewrite <- Q, removelast_last. repeat split; assumption.
    + eexists _, _. split; [reflexivity|]. eapply post_deeper_env with (e := [e]); try exact P; try reflexivity; [assumption|discriminate].
    + eexists _, _. split; [reflexivity|]. exact P.
  - destruct (throw_ok (set_thrown s m) W) as (s' & o & T & N & P). exists s', o. split; [exact T|]. destruct o; [contradiction| |]; exact P.
  - destruct (throw_ok s W) as (s' & o & T & N & P). exists s', o. split; [exact T|exact P].
  - assert (W1 : wf (prepareCatch s)) by (unfold wf in *; cbn; apply (frames_push _ 0); exact W).
    destruct (IHp _ W1) as (s1 & o & -> & P). cbn [bind]. destruct o as [|j|].
    + destruct P as (A & B & C & D). cbn in A, B, C, D. unfold popCatch. rewrite C. destruct (cf s ++ _) as [|x y] eqn:Q; [destruct (cf s); discriminate|]. cbn [bind].
      eexists _, Normal. split; [reflexivity|]. rewrite <- Q, removelast_last. repeat split; assumption.
    + destruct P as (c & f & Ec & -> & U). cbn in Ec. apply app_inj_tail in Ec. destruct Ec as [<- <-]. rewrite Nat.eqb_refl.
      destruct U as (U1 & U2 & U3 & U4). cbn in U1, U2, U3, U4. rewrite firstn_all in U2, U3. rewrite skipn_all in U4. cbn in U4.
      assert (Sm : same s (set_thrown s1 0)) by (repeat split; assumption).
      destruct (IHh (set_thrown s1 0) (wf_same _ _ Sm W)) as (s2 & o & E & P2). exists s2, o. split; [exact E|]. destruct Sm as (A & B & C & D).
      destruct o as [|j|]; cbn [post] in *; [unfold same in *; intuition congruence| |congruence].
      destruct P2 as (c & f & Q & J & U). exists c, f. split; [congruence|]. split; [exact J|]. unfold unwound in *. rewrite A, B, D in U. exact U.
    + cbn in P. destruct (cf s); discriminate.
  - assert (W1 : wf (prepareCatch s)) by (unfold wf in *; cbn; apply (frames_push _ 0); exact W).
    destruct (IHp _ W1) as (s1 & o & -> & P). cbn [bind]. destruct o as [|j|].
    + destruct P as (A & B & C & D). cbn in A, B, C, D. unfold popCatch. rewrite C. destruct (cf s ++ _) as [|x y] eqn:Q; [destruct (cf s); discriminate|]. cbn [bind].
      eexists _, Normal. split; [reflexivity|]. rewrite <- Q, removelast_last. repeat split; assumption.
    + destruct P as (c & f & Ec & -> & U). cbn in Ec. apply app_inj_tail in Ec. destruct Ec as [<- <-]. rewrite Nat.eqb_refl.
      destruct U as (U1 & U2 & U3 & U4). cbn in U1, U2, U3, U4. rewrite firstn_all in U2, U3. rewrite skipn_all in U4. cbn in U4.
      assert (Sm : same s s1) by (repeat split; assumption). assert (W2 : wf s1) by (eapply wf_same; eauto).
      destruct (push_item_ok s1 (Re (lastErr s1)) W2) as (s2 & o & -> & P). cbn [bind]. destruct o as [|j|].
      * subst s2. set (s3 := set_thrown _ 0). assert (W3 : wf s3) by (eapply wf_more with (s := s1) (l := [Re (lastErr s1)]); try reflexivity; exact W2).
        destruct (IHh s3 W3) as (s4 & o & -> & P4). cbn [bind]. destruct o as [|j|].
        -- destruct P4 as (A & B & C & D). cbn in A, B, C, D. rewrite (gsPop_last s4 _ _ A). cbn [bind]. eexists _, Normal. split; [reflexivity|]. repeat split; cbn; congruence.
        -- eexists _, _. split; [reflexivity|]. destruct P4 as (c & f & Ec & -> & V1 & V2 & V3 & V4). cbn in Ec, V2, V3, V4. exists c, f. split; [congruence|]. split; [reflexivity|].
           unfold wf in W. rewrite <- U1, Ec in W. destruct (frames_app _ _ _ _ _ W) as (_ & Q1 & Q2 & _). unfold unwound. rewrite <- U2, <- U3, <- U4 in *.
           rewrite firstn_app in V2. rewrite skipn_app in V4. replace (gsDepth f - length (gs s1))%nat with 0%nat in * by lia. cbn [firstn skipn] in *. rewrite app_nil_r in V2.
           repeat split; auto. rewrite V4, restored_app. reflexivity.
        -- eexists _, _. split; [reflexivity|]. cbn in *. congruence.
      * eexists _, _. split; [reflexivity|]. destruct P as (c & f & Ec & -> & V). exists c, f. split; [congruence|]. split; [reflexivity|]. unfold unwound in *. rewrite <- U2, <- U3, <- U4. exact V.
      * eexists _, _. split; [reflexivity|]. cbn in *. congruence.
    + cbn in P. destruct (cf s); discriminate.
Qed.
End Main.

(** However deeply the failing code was nested, when its error reaches the catch the stacks, the frames of outer catches and the current error message are
    exactly what they were when the catch was installed; and control arrives at this catch and no other. *)
Theorem C31_catch_restores : forall GS_SIZE ENV_SIZE p s, wf s ->
  exists s' o, exec GS_SIZE ENV_SIZE p (prepareCatch s) = Ok (s', o) /\
  match o with
  | Normal => gs s' = gs s /\ envs s' = envs s /\ lastErr s' = lastErr s
  | Jump j => j = length (cf s) /\ gs s' = gs s /\ envs s' = envs s /\ cf s' = cf s /\ lastErr s' = lastErr s
  | Exit => False
  end.
Proof.
  intros G E p s W. assert (W1 : wf (prepareCatch s)) by (unfold wf in *; cbn; apply (frames_push _ 0); exact W).
  destruct (exec_ok G E p _ W1) as (s' & o & R & P). exists s', o. split; [exact R|]. destruct o as [|j|].
  - destruct P as (A & B & C & D). auto.
  - destruct P as (c & f & Ec & -> & U1 & U2 & U3 & U4). cbn in Ec. apply app_inj_tail in Ec. destruct Ec as [<- <-]. cbn in *.
    rewrite firstn_all in U2, U3. rewrite skipn_all in U4. auto.
  - cbn in P. destruct (cf s); discriminate.
Qed.
Print Assumptions C31_catch_restores.

(** Code that catches, as a whole: it leaves the stacks, the frames and the message of the current error as they were, or throws on to the next outer catch. *)
Theorem C31_program_balanced : forall GS_SIZE ENV_SIZE p s, wf s ->
  exists s' o, exec GS_SIZE ENV_SIZE p s = Ok (s', o) /\
  match o with
  | Normal => gs s' = gs s /\ envs s' = envs s /\ cf s' = cf s /\ lastErr s' = lastErr s
  | Jump j => S j = length (cf s)
  | Exit => cf s = []
  end.
Proof.
  intros G E p s W. destruct (exec_ok G E p s W) as (s' & o & R & P). exists s', o. split; [exact R|]. destruct o as [|j|]; [exact P| |exact P].
  destruct P as (c & f & Ec & -> & _). rewrite Ec, app_length. cbn. lia.
Qed.
Print Assumptions C31_program_balanced.

(* an error three calls down, inside another catch whose handler throws again, with items pushed on the way *)
Definition st0 : st := {| gs := [Other 1; Re 55]; envs := [{| pos := 0; sco := 0 |}]; cf := []; thrown := 0; lastErr := 7 |}.
Example wf0 : wf st0. Proof. exact I. Qed.
Definition ev (n : Z) : envent := {| pos := n; sco := n |}.
Definition deep : prog :=
  Catch (Items [10; 11] (Call (ev 1) (Catch (Call (ev 2) (Items [12] (Call (ev 3) (Throw 99)))) (Items [13] (Call (ev 4) (Throw 98)))))) (Call (ev 5) Skip).
Example C31_example : exec 100 100 deep st0 = Ok ({| gs := gs st0; envs := envs st0; cf := []; thrown := 0; lastErr := 7 |}, Normal)
  /\ exists s', exec 100 100 (Items [10; 11] (Call (ev 1) (Catch (Call (ev 2) (Throw 99)) Rethrow))) (prepareCatch st0) = Ok (s', Jump 0) /\ gs s' = gs st0 /\ lastErr s' = 7.
Proof. split; [reflexivity|]. eexists. split; [reflexivity|]. split; reflexivity. Qed.
