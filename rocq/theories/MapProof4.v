(** Table. *)
From Verif Require Import Base SqueezeModel TransSpec JoinProof JoinProof4 JoinProof2 MapModel MapSpec MapProof MapProof2.
Open Scope nat_scope.
Section P.
Context {V S : Type}.
Lemma prod_nth (wd xd : list V) : forall p q a b, nth_error wd p = Some a -> nth_error xd q = Some b -> nth_error (list_prod wd xd) (p * length xd + q) = Some (a, b).
Proof.
  induction wd as [|w wd IH]; intros [|p] q a b; cbn [nth_error list_prod]; try discriminate; intros Ha Hb.
  - injection Ha as ->. rewrite nth_error_app1; [|rewrite map_length; apply nth_error_Some; cbn; congruence]. cbn [Nat.mul Nat.add]. apply map_nth_error. exact Hb.
  - rewrite nth_error_app2 by (rewrite map_length; cbn [Nat.mul]; lia). rewrite map_length. replace (Datatypes.S p * length xd + q - length xd) with (p * length xd + q) by (cbn [Nat.mul]; lia). apply IH; assumption.
Qed.
Lemma prod_nth_inv (wd xd : list V) p q c : q < length xd -> nth_error (list_prod wd xd) (p * length xd + q) = Some c -> nth_error wd p = Some (fst c) /\ nth_error xd q = Some (snd c).
Proof.
  intros Q H. assert (P : p < length wd). { assert (p * length xd + q < length (list_prod wd xd)) by (apply nth_error_Some; congruence). rewrite prod_length in *. nia. }
  destruct (nth_error wd p) as [a|] eqn:Ea; [|apply nth_error_None in Ea; lia]. destruct (nth_error xd q) as [b|] eqn:Eb; [|apply nth_error_None in Eb; lia].
  rewrite (prod_nth _ _ _ _ _ _ Ea Eb) in H. injection H as <-. auto.
Qed.
Lemma prod_fst (wd xd : list V) : map fst (list_prod wd xd) = replicate_by (length xd) wd.
Proof.
  unfold replicate_by. induction wd as [|w wd IH]; [reflexivity|]. cbn [list_prod flat_map]. rewrite map_app, IH. f_equal. clear IH. induction xd as [|x xd IH]; [reflexivity|]. cbn [map fst length repeat]. f_equal. exact IH.
Qed.
Lemma prod_snd (wd xd : list V) : map snd (list_prod wd xd) = concat (repeat xd (length wd)).
Proof. induction wd as [|w wd IH]; [reflexivity|]. cbn [list_prod length repeat concat]. rewrite map_app, IH. f_equal. rewrite map_map. cbn [snd]. apply map_id. Qed.
Lemma mapr_app {A B} (f : A -> res B) l1 l2 : mapr f (l1 ++ l2) = do a <- mapr f l1; do b <- mapr f l2; Ok (a ++ b).
Proof.
  induction l1 as [|a l1 IH]; cbn [app mapr bind]; [destruct (mapr f l2); reflexivity|]. destruct (f a); [|reflexivity..]. cbn [bind]. rewrite IH. destruct (mapr f l1); [|reflexivity..]. cbn [bind]. destruct (mapr f l2); reflexivity.
Qed.
Lemma cycle_ok (xd : list V) : forall k, xd <> [] -> mapr (fun i => rd xd (i mod length xd)) (seq 0 (k * length xd)) = Ok (concat (repeat xd k)).
Proof.
  intros k NE. assert (N0 : length xd <> 0) by (destruct xd; [congruence|discriminate]).
  assert (ONE : forall o m l, o = m * length xd -> forall j, j + length l = length xd -> skipn j xd = l -> mapr (fun i => rd xd (i mod length xd)) (seq (o + j) (length l)) = Ok l).
  { intros o m l ->. induction l as [|a l IH]; intros j HL HS; [reflexivity|]. cbn [length seq mapr] in *.
    replace ((m * length xd + j) mod length xd) with j by (rewrite Nat.add_comm, Nat.mod_add by exact N0; rewrite Nat.mod_small by lia; reflexivity).
    assert (J : nth_error xd j = Some a) by (rewrite <- (Nat.add_0_r j), <- nth_skipn, HS; reflexivity). rewrite (rd_nth _ _ _ J). cbn [bind].
    replace (Datatypes.S (m * length xd + j)) with (m * length xd + Datatypes.S j) by lia. rewrite IH; [reflexivity|lia|].
    clear -HS. revert xd HS. induction j as [|j IH]; intros [|b xd] HS; cbn [skipn] in *; try discriminate; [congruence|apply IH; exact HS]. }
  assert (ALL : forall k m, mapr (fun i => rd xd (i mod length xd)) (seq (m * length xd) (k * length xd)) = Ok (concat (repeat xd k))).
  { clear k. induction k as [|k IH]; intros m; [reflexivity|]. cbn [Nat.mul repeat concat]. rewrite seq_app, mapr_app.
    pose proof (ONE (m * length xd) m xd eq_refl 0 (eq_refl _) eq_refl) as O1. rewrite Nat.add_0_r in O1. rewrite O1. cbn [bind]. replace (m * length xd + length xd) with (Datatypes.S m * length xd) by (cbn [Nat.mul]; lia). rewrite IH. reflexivity. }
  exact (ALL k 0).
Qed.
Lemma calls_pure {A} (f : A -> res V) (g : A -> S -> res (V * S)) l : (forall a s, g a s = do r <- f a; Ok (r, s)) -> forall s, calls g l s = do r <- mapr f l; Ok (r, s).
Proof.
  intros H. induction l as [|a l IH]; intros s; [reflexivity|]. cbn [calls mapr]. rewrite H. destruct (f a); [|reflexivity..]. cbn [bind]. rewrite IH. destruct (mapr f l); reflexivity.
Qed.
Lemma mapr_ok {A B} (f : A -> B) l : mapr (fun a => Ok (f a)) l = Ok (map f l).
Proof. induction l as [|a l IH]; [reflexivity|]. cbn [mapr bind map]. rewrite IH. reflexivity. Qed.
Lemma rows_ok {B} (p : V -> V -> res B) (wd xd : list V) : (do rs <- mapr (fun a => mapr (p a) xd) wd; Ok (concat rs)) = mapr (fun q => p (fst q) (snd q)) (list_prod wd xd).
Proof.
  induction wd as [|w wd IH]; [reflexivity|]. cbn [list_prod mapr]. rewrite mapr_app, <- IH.
  assert (E : mapr (fun q => p (fst q) (snd q)) (map (fun y => (w, y)) xd) = mapr (p w) xd).
  { clear IH. induction xd as [|x xd IHx]; [reflexivity|]. cbn [map mapr fst snd]. rewrite IHx. reflexivity. }
  rewrite E. destruct (mapr (p w) xd); [|reflexivity..]. cbn [bind]. destruct (mapr (fun a => mapr (p a) xd) wd); reflexivity.
Qed.
Lemma combine_split' {A B} (l : list (A * B)) : combine (map fst l) (map snd l) = l.
Proof. induction l as [|[a b] l IH]; [reflexivity|]. cbn [map combine fst snd]. f_equal. exact IH. Qed.
Lemma table_runs wd xd lim (f : opt V S) (w x : arg V) s : let '(wsh, wv) := arr_of w in let '(xsh, xv) := arr_of x in
  (Z.of_nat (length wv) * Z.of_nat (length xv) < 2 ^ 32)%Z -> length wsh + length xsh <= 255 ->
  tbl_c2 wd xd lim f w x s = shaped (wsh ++ xsh) (calls (dot f) (list_prod wv xv) s).
Proof.
  unfold tbl_c2. change (unit_arr w) with (arr_of w). change (unit_arr x) with (arr_of x). destruct (arr_of w) as [wsh wv], (arr_of x) as [xsh xv]. intros Z32 R255.
  unfold uszMul. rewrite (proj2 (Z.leb_gt _ _)) by lia. cbn [bind].
  replace (to_u 8 (Z.of_nat (length wsh) + Z.of_nat (length xsh))) with (Z.of_nat (length wsh) + Z.of_nat (length xsh))%Z by (unfold to_u; rewrite Z.mod_small; [reflexivity|split; [lia|change (2^8)%Z with 256%Z; lia]]).
  rewrite (proj2 (Z.ltb_ge _ _)) by lia. rewrite shaped_bind. f_equal. set (ps := list_prod wv xv). assert (L : length ps = length wv * length xv) by apply prod_length.
  assert (GEN : forall (g : V -> V -> S -> res (V * S)) h, (forall a b s0, g a b s0 = h (a, b) s0) -> nested (length wv) (length xv) 0 0 (fun i k s0 => do w0 <- rd wv i; do x0 <- rd xv (k - i * length xv); g w0 x0 s0) s = calls h ps s).
  { intros g h Hgh. apply nested_calls; [exact L|]. intros p q a Hq Hn s0. cbn [Nat.add]. destruct (prod_nth_inv _ _ _ _ _ Hq Hn) as [H1 H2].
    rewrite (rd_nth _ _ _ H1). cbn [bind]. replace (p * length xv + q - p * length xv) with q by lia. rewrite (rd_nth _ _ _ H2). cbn [bind]. rewrite Hgh. destruct a; reflexivity. }
  assert (EMPTY : forall h : V * V -> S -> res (V * S), length wv * length xv = 0 -> calls h ps s = Ok ([], s)) by (intros h H0; destruct ps; [reflexivity|cbn [length] in L; lia]).
  assert (CYC : length wv * length xv <> 0 -> reshape_cycle (length wv * length xv) xv = Ok (map snd ps)).
  { intros N. unfold reshape_cycle, ps. rewrite prod_snd. apply cycle_ok. intros ->. cbn [length] in N. lia. }
  destruct f as [g| | |p| |c].
  - apply GEN. reflexivity.
  - rewrite (calls_pure (fun q => Ok (fst q)) _ ps) by reflexivity. rewrite mapr_ok. cbn [bind]. unfold ps. rewrite prod_fst. reflexivity.
  - rewrite (calls_pure (fun q => Ok (snd q)) _ ps) by reflexivity. rewrite mapr_ok. cbn [bind]. destruct (Nat.leb_spec (length wv * length xv) (length xv)) as [LE|GT].
    + f_equal. f_equal. unfold ps. rewrite prod_snd. destruct xv as [|x0 xv]; [cbn [length]; rewrite firstn_nil; clear; induction (length wv); [reflexivity|exact IHn]|].
      cbn [length] in LE. destruct wv as [|w0 [|w1 wv]]; cbn [length] in *; [reflexivity| |lia]. cbn [repeat concat]. rewrite app_nil_r. apply firstn_all2. cbn [length]. lia.
    + rewrite CYC by lia. reflexivity.
  - destruct (Nat.eqb_spec (length wv * length xv) 0) as [Z0|Z0]; [rewrite EMPTY by exact Z0; reflexivity|].
    assert (G0 : nested (length wv) (length xv) 0 0 (fun i k s0 => do w0 <- rd wv i; do x0 <- rd xv (k - i * length xv); do r <- p w0 x0; Ok (r, s0)) s = calls (dot (TPerv p)) ps s).
    { apply (GEN (fun a b s0 => do r <- p a b; Ok (r, s0))). intros a b s0. cbn [dot fst snd]. destruct (p a b); reflexivity. }
    destruct wd; cbn [negb]; [|exact G0].
    assert (CP : calls (dot (TPerv p)) ps s = do r <- mapr (fun q => p (fst q) (snd q)) ps; Ok (r, s)) by (apply calls_pure; intros a s0; cbn [dot]; destruct (p (fst a) (snd a)); reflexivity).
    destruct (xd && (3 <=? length wv) && (length xv <? lim)).
    + rewrite CYC by exact Z0. cbn [bind]. unfold ps at 1. rewrite <- (prod_fst wv xv), combine_split'. fold ps. symmetry. exact CP.
    + destruct (3 <? length xv); [|exact G0]. rewrite CP. unfold ps. rewrite <- rows_ok. destruct (mapr (fun a => mapr (p a) xv) wv); reflexivity.
  - destruct (Nat.ltb_spec 0 (length wv * length xv)) as [P|P]; [|rewrite EMPTY by lia; reflexivity]. destruct ps; [cbn [length] in L; lia|reflexivity].
  - rewrite (const_calls c ps) by reflexivity. rewrite L. reflexivity.
Qed.
Lemma tabled_prod (w x : arg V) : valid_arg w -> valid_arg x -> tabled w x (fst (arr_of w) ++ fst (arr_of x)) (list_prod (snd (arr_of w)) (snd (arr_of x))).
Proof.
  unfold tabled, valid_arg. destruct (arr_of w) as [wsh wv], (arr_of x) as [xsh xv]. cbn [fst snd]. intros Vw Vx. split; [reflexivity|]. unfold array in *. split; [rewrite prod_length, size_app; congruence|].
  intros I J HI HJ. destruct (elt_some wsh wv I Vw HI) as [a Ha]. destruct (elt_some xsh xv J Vx HJ) as [b Hb]. exists a, b. split; [|auto].
  unfold elt in *. rewrite ravel_app' by (apply inb_len; exact HI). rewrite <- Vx. apply prod_nth; assumption.
Qed.
Theorem table_ok wd xd lim (f : opt V S) (w x : arg V) s : valid_arg w -> valid_arg x ->
  (Z.of_nat (length (snd (arr_of w))) * Z.of_nat (length (snd (arr_of x))) < 2 ^ 32)%Z -> length (fst (arr_of w)) + length (fst (arr_of x)) <= 255 ->
  exists rsh ps, tabled w x rsh ps /\ tbl_c2 wd xd lim f w x s = shaped rsh (calls (dot f) ps s).
Proof.
  intros Vw Vx Z32 R. eexists _, _. split; [apply tabled_prod; assumption|]. pose proof (table_runs wd xd lim f w x s) as H. destruct (arr_of w) as [wsh wv], (arr_of x) as [xsh xv]. apply H; assumption.
Qed.
Theorem table_err wd xd lim (f : opt V S) (w x : arg V) s : length (fst (arr_of w)) <= 255 -> length (fst (arr_of x)) <= 255 ->
  (2 ^ 32 <= Z.of_nat (length (snd (arr_of w))) * Z.of_nat (length (snd (arr_of x))))%Z \/ 255 < length (fst (arr_of w)) + length (fst (arr_of x)) ->
  tbl_c2 wd xd lim f w x s = Err.
Proof.
  intros Rw Rx H. unfold tbl_c2. change (unit_arr w) with (arr_of w). change (unit_arr x) with (arr_of x). destruct (arr_of w) as [wsh wv], (arr_of x) as [xsh xv]. cbn [fst snd] in *.
  unfold uszMul. destruct (Z.leb_spec (2 ^ 32) (Z.of_nat (length wv) * Z.of_nat (length xv))) as [G|G]; [reflexivity|]. cbn [bind]. destruct H as [H|H]; [lia|].
  assert (E : to_u 8 (Z.of_nat (length wsh) + Z.of_nat (length xsh)) = (Z.of_nat (length wsh) + Z.of_nat (length xsh) - 256)%Z).
  { unfold to_u. change (2 ^ 8)%Z with 256%Z. symmetry. apply (Zmod_unique _ _ 1); lia. }
  rewrite E, (proj2 (Z.ltb_lt _ _)) by lia. reflexivity.
Qed.
End P.
