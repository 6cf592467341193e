(** Proofs about MoveModel: writing a result, windows of lists, Take and Drop with a number. *)
From Coq Require Import List Arith ZArith Bool Lia.
Import ListNotations.
From Verif Require Import Base ListLib SqueezeModel SqueezeProof TransModel TransSpec TransProof TransProof2 TransProof5 MoveModel MoveSpec.
Open Scope nat_scope.
(** * writing a result whose element at n must be [want n] *)
Section W.
Context {A : Type}.
Variables (N : nat) (want : nat -> option A).
Definition winv (r : list (option A)) (W : nat -> Prop) : Prop :=
  length r = N /\ (forall n v, nth_error r n = Some (Some v) -> want n = Some v) /\ forall n, n < N -> W n -> exists v, nth_error r n = Some (Some v).
Lemma winv_weak r (W W' : nat -> Prop) : (forall n, n < N -> W' n -> W n) -> winv r W -> winv r W'. Proof. intros H (L & G & C). split; auto. Qed.
Lemma winv0 (W : nat -> Prop) : (forall n, n < N -> ~ W n) -> winv (repeat None N) W.
Proof. intros H. split; [apply repeat_length|]. split; [|intros n L w; exfalso; eapply H; eauto]. intros n v E. apply nth_error_In, repeat_spec in E. discriminate. Qed.
Lemma ww r W n v : winv r W -> n < N -> want n = Some v -> exists r', wr r n (Some v) = Ok r' /\ winv r' (fun m => W m \/ m = n).
Proof.
  intros (L & G & C) LN E. unfold wr. rewrite L. replace (n <? N) with true by (symmetry; apply Nat.ltb_lt; auto). eexists. split; [reflexivity|]. split; [rewrite upd_length; auto|]. split.
  - intros m u E2. rewrite nth_error_upd, L in E2. destruct (Nat.eqb_spec n m) as [->|NE]; [|apply G; auto]. replace (m <? N) with true in E2 by (symmetry; apply Nat.ltb_lt; auto). congruence.
  - intros m LM [WM| ->]; rewrite nth_error_upd, L; replace (n <? N) with true by (symmetry; apply Nat.ltb_lt; auto). + destruct (Nat.eqb_spec n m); eauto. + rewrite Nat.eqb_refl. eauto.
Qed.
Lemma wdone r : winv r (fun _ => True) -> exists l, done r = Ok l /\ length l = N /\ forall n, n < N -> nth_error l n = want n.
Proof.
  intros (L & G & C). assert (D : forall (r : list (option A)), (forall n, n < length r -> exists v : A, nth_error r n = Some (Some v)) -> exists l, done r = Ok l /\ r = map Some l).
  { clear. induction r as [|c r IH]; intros H; [exists []; auto|]. destruct (H 0 ltac:(cbn; lia)) as (v & E). cbn in E. injection E as ->. destruct IH as (l & E & ->). { intros n L. apply (H (S n)). cbn [length]. lia. } exists (v :: l). cbn [done]. rewrite E. auto. }
  destruct (D r) as (l & E & ->); [rewrite L; intros n LN; apply C; auto|]. rewrite map_length in L. exists l. split; auto. split; auto. intros n LN. destruct (C n LN I) as (v & EV). rewrite (G n v EV). rewrite nth_error_map in EV. destruct (nth_error l n); cbn in EV; congruence.
Qed.
Lemma wcopy r W i x j n : winv r W -> i + n <= N -> j + n <= length x -> (forall k, k < n -> want (i + k) = nth_error x (j + k)) -> exists r', copy r i x j n = Ok r' /\ winv r' (fun m => W m \/ i <= m < i + n).
Proof.
  intros IV B BX H. unfold copy. destruct (loop_inv (fun k r => winv r (fun m => W m \/ i <= m < i + k)) (fun k r => do v <- rd x (j + k); wr r (i + k) (Some v)) n 0 r) as (r' & E & IV'); [|eapply winv_weak; [|exact IV]; intros m _ [w|]; [auto|lia]|eauto].
  intros k r0 KB IV0. unfold rd. destruct (nth_error x (j + k)) as [v|] eqn:EX; [|apply nth_error_None in EX; lia]. cbn [bind]. destruct (ww r0 _ (i + k) v IV0) as (r1 & E1 & IV1); [lia|rewrite H by lia; auto|]. exists r1. split; auto. eapply winv_weak; [|exact IV1]. intros m _ [w|Q]; [left; left; exact w|]. destruct (Nat.eq_dec m (i + k)); [right; auto|left; right; lia].
Qed.
Lemma wfill r W i f n : winv r W -> i + n <= N -> (forall k, k < n -> want (i + k) = Some f) -> exists r', fillm r i f n = Ok r' /\ winv r' (fun m => W m \/ i <= m < i + n).
Proof.
  intros IV B H. unfold fillm. destruct (loop_inv (fun k r => winv r (fun m => W m \/ i <= m < i + k)) (fun k r => wr r (i + k) (Some f)) n 0 r) as (r' & E & IV'); [|eapply winv_weak; [|exact IV]; intros m _ [w|]; [auto|lia]|eauto].
  intros k r0 KB IV0. destruct (ww r0 _ (i + k) f IV0) as (r1 & E1 & IV1); [lia|apply H; lia|]. exists r1. split; auto. eapply winv_weak; [|exact IV1]. intros m _ [w|Q]; [left; left; exact w|]. destruct (Nat.eq_dec m (i + k)); [right; auto|left; right; lia].
Qed.
End W.
Lemma slice_ok {A} (x : list A) s n : s + n <= length x -> exists r, slice x s n = Ok r /\ length r = n /\ forall k, k < n -> nth_error r k = nth_error x (s + k).
Proof. intros H. unfold slice. replace (s + n <=? length x) with true by (symmetry; apply Nat.leb_le; auto). eexists. split; [reflexivity|]. split; [rewrite firstn_length, skipn_length; lia|]. intros k K. rewrite nth_error_firstn_lt by auto. apply nth_error_skipn'. Qed.
(** * the window on a list, in elements *)
Definition win {A} (x : list A) (o : Z) (fill : option A) (p : nat) : option A := if ((0 <=? Z.of_nat p + o) && (Z.of_nat p + o <? Z.of_nat (length x)))%Z then nth_error x (Z.to_nat (Z.of_nat p + o)) else fill.
Definition windowed {A} (x : list A) (o : Z) (fill : option A) (n : nat) (r : list A) : Prop := length r = n /\ forall p, p < n -> nth_error r p = win x o fill p.
Lemma win_in {A} (x : list A) o fill p j : Z.of_nat j = (Z.of_nat p + o)%Z -> j < length x -> win x o fill p = nth_error x j.
Proof. intros E L. unfold win. replace ((0 <=? Z.of_nat p + o) && (Z.of_nat p + o <? Z.of_nat (length x)))%Z with true by (symmetry; apply andb_true_intro; split; [apply Z.leb_le|apply Z.ltb_lt]; lia). f_equal. lia. Qed.
Lemma win_out {A} (x : list A) o fill p : (Z.of_nat p + o < 0 \/ Z.of_nat (length x) <= Z.of_nat p + o)%Z -> win x o fill p = fill.
Proof. intros E. unfold win. destruct (Z.leb_spec 0 (Z.of_nat p + o)); cbn [andb]; auto. destruct (Z.ltb_spec (Z.of_nat p + o) (Z.of_nat (length x))); auto. lia. Qed.
Lemma take_to_ok {A} n (x : list A) fill : fill <> None \/ n <= length x -> exists r, take_to n x fill = Ok r /\ windowed x 0 fill n r.
Proof.
  intros H. unfold take_to. destruct (Nat.ltb_spec (length x) n) as [L|L].
  - destruct fill as [f|]; [|destruct H; [congruence|lia]]. cbn [need bind].
    destruct (wcopy n (win x 0 (Some f)) (repeat None n) (fun _ => False) 0 x 0 (length x)) as (r & -> & I1); [apply winv0; auto|lia|lia|intros k K; apply win_in; lia|]. cbn [bind].
    destruct (wfill n (win x 0 (Some f)) r _ (length x) f (n - length x) I1) as (r2 & -> & I2); [lia|intros k K; apply win_out; lia|]. cbn [bind].
    apply wdone. eapply winv_weak; [|exact I2]. intros m M _. cbn beta. lia.
  - destruct (slice_ok x 0 n ltac:(lia)) as (r & E & LR & G). exists r. split; auto. split; auto. intros p P. rewrite G by auto. symmetry. apply win_in; lia.
Qed.
Lemma take_to_err {A} n (x : list A) : length x < n -> take_to n x None = Err.
Proof. intros H. unfold take_to. replace (length x <? n) with true by (symmetry; apply Nat.ltb_lt; auto). reflexivity. Qed.
(** * from a list to an array: the leading axis *)
Lemma source_tail sh I : inb sh I -> source (map (fun _ => 0%Z) sh) sh I = Some I.
Proof.
  induction 1 as [|l i sh I H F IH]; auto. cbn [map source]. rewrite Z.add_0_r. replace ((0 <=? Z.of_nat i) && (Z.of_nat i <? Z.of_nat l))%Z with true by (symmetry; apply andb_true_intro; split; [apply Z.leb_le|apply Z.ltb_lt]; lia). rewrite IH. cbn [option_map]. rewrite Nat2Z.id. reflexivity.
Qed.
Lemma moved_ext {A} d d' xsh (x : list A) rsh fill r : (forall I, inb rsh I -> source d xsh I = source d' xsh I) -> moved d xsh x rsh fill r -> moved d' xsh x rsh fill r.
Proof. intros H [L G]. split; auto. intros I B. rewrite <- H by auto. auto. Qed.
Lemma num_moved {A} d l sh (x : list A) len fill r : length x = l * shProd sh -> windowed x (d * Z.of_nat (shProd sh)) fill (len * shProd sh) r -> moved (d :: map (fun _ => 0%Z) sh) (l :: sh) x (len :: sh) fill r.
Proof.
  intros LX [LR G]. split; [exact LR|]. intros I B. inversion B as [|? i ? I' Bi BI]; subst. unfold elt at 1. cbn [ravel]. change (size sh) with (shProd sh). pose proof (ravel_lt _ _ BI) as RB. pose proof (inb_pos _ _ BI) as SP. rewrite G by nia. cbn [source]. rewrite source_tail by auto. cbn [option_map]. set (c := shProd sh) in *. set (k := ravel sh I') in *.
  destruct (Z.leb_spec 0 (Z.of_nat i + d)) as [D1|D1]; cbn [andb].
  - destruct (Z.ltb_spec (Z.of_nat i + d) (Z.of_nat l)) as [D2|D2].
    + unfold elt. cbn [ravel]. change (size sh) with c. fold k. assert (Z.to_nat (Z.of_nat i + d) < l) by lia. apply win_in; nia.
    + apply win_out. right. nia.
  - apply win_out. left. nia.
Qed.
(** * Take and Drop with a number *)
Lemma pad1 xsh : MoveSpec.padded 1 xsh = lead xsh :: tl xsh. Proof. destruct xsh as [|l [|m t]]; reflexivity. Qed.
Lemma csz_tl xsh : csz xsh = shProd (tl xsh). Proof. destruct xsh as [|l [|m t]]; reflexivity. Qed.
Lemma lead_csz xsh : shProd xsh = lead xsh * csz xsh. Proof. rewrite csz_tl. destruct xsh as [|l t]; [reflexivity|apply shProd_cons]. Qed.
Lemma td_shape_eq xsh v n : (0 <= v < 2 ^ 32)%Z -> (rank2 xsh = false -> n = Z.to_nat v) -> td_shape xsh v n = Z.to_nat v :: tl xsh.
Proof. intros V N. unfold td_shape. destruct (rank2 xsh) eqn:R. - rewrite to_u_id by lia. reflexivity. - rewrite N by auto. destruct xsh as [|a [|b t]]; auto. discriminate. Qed.
Lemma csz1 xsh : rank2 xsh = false -> csz xsh = 1. Proof. destruct xsh as [|a [|b t]]; auto. discriminate. Qed.
Lemma td_init_ok w xsh : (- 2 ^ 63 <= w * Z.of_nat (csz xsh) < 2 ^ 63)%Z -> td_init w xsh = Ok (w * Z.of_nat (csz xsh))%Z.
Proof.
  intros H. unfold td_init. destruct (rank2 xsh) eqn:R. - replace ((- 2 ^ 63 <=? w * Z.of_nat (csz xsh)) && (w * Z.of_nat (csz xsh) <? 2 ^ 63))%Z with true; auto. symmetry. apply andb_true_intro. split; [apply Z.leb_le|apply Z.ltb_lt]; lia. - rewrite csz1 by auto. f_equal. lia.
Qed.
Lemma neg64_ok n : (- 2 ^ 63 < n)%Z -> neg64 n = Ok (- n)%Z. Proof. intros H. unfold neg64. destruct (Z.eqb_spec n (- 2 ^ 63)); auto; lia. Qed.
Lemma abs64_ok b w : (- 2 ^ 63 < w)%Z -> abs64 b w = Ok (if b then Z.abs w else 0)%Z.
Proof. intros H. unfold abs64. destruct b; auto. destruct (Z.ltb_spec w 0). - rewrite neg64_ok by auto. f_equal. lia. - f_equal. lia. Qed.
Lemma abs_csz w c : (Z.abs (w * Z.of_nat c) = Z.abs w * Z.of_nat c)%Z. Proof. rewrite Z.abs_mul. rewrite (Z.abs_eq (Z.of_nat c)) by lia. reflexivity. Qed.
Section Num.
Context {A : Type}.
Variables (xsh : list nat) (x : list A) (w : Z).
Hypothesis AX : array xsh x.
Lemma num_lx : length x = lead xsh * csz xsh. Proof. rewrite <- lead_csz. exact AX. Qed.
Lemma num_take fill len r d rsh : windowed x (d * Z.of_nat (csz xsh)) fill (len * csz xsh) r -> rsh = len :: tl xsh ->
  forall (fl fo : Z -> nat -> Z), Z.of_nat len = fl w (lead xsh) -> d = fo w (lead xsh) -> map Z.of_nat rsh = lengths fl [w] xsh /\ moved (offsets fo [w] xsh) (MoveSpec.padded 1 xsh) x rsh fill r.
Proof.
  intros W -> fl fo EL EO. unfold lengths, offsets. cbn [length]. rewrite pad1. cbn [per_axis map]. split; [congruence|]. rewrite <- EO. apply num_moved; [rewrite <- csz_tl; apply num_lx|rewrite <- csz_tl; auto].
Qed.
Lemma take_num_ok fill : (- 2 ^ 63 < w)%Z -> (Z.abs w < 2 ^ 32)%Z -> (Z.abs w * Z.of_nat (csz xsh) < 2 ^ 32)%Z -> fill <> None \/ (Z.abs w * Z.of_nat (csz xsh) <= Z.of_nat (length x))%Z ->
  exists rsh r, take_num w xsh x fill = Ok (rsh, r) /\ taken [w] xsh x fill rsh r.
Proof.
  intros WM WB NB HF. unfold take_num. pose proof (abs_csz w (csz xsh)) as EA. set (c := csz xsh) in *. rewrite td_init_ok by lia. fold c. cbn [bind]. pose proof num_lx as LX. fold c in LX.
  assert (FIN : forall r len, len = Z.to_nat (Z.abs w) -> windowed x (take_off w (lead xsh) * Z.of_nat c) fill (len * c) r ->
    exists rsh r', (do a <- abs64 (rank2 xsh) w; Ok (td_shape xsh a (length r), r)) = Ok (rsh, r') /\ taken [w] xsh x fill rsh r').
  { intros r len EL W. rewrite abs64_ok by auto. cbn [bind]. do 2 eexists. split; [reflexivity|]. eapply num_take with (len := len) (d := take_off w (lead xsh)); eauto; [|unfold take_len; lia].
    destruct (rank2 xsh) eqn:R. - rewrite td_shape_eq by (try congruence; lia). congruence. - destruct W as [LW _]. unfold td_shape. rewrite R, LW. unfold c. rewrite csz1 by auto. destruct xsh as [|a [|b t]]; cbn [tl]; try discriminate; f_equal; lia. }
  destruct (Z.leb_spec 0 (w * Z.of_nat c)) as [NN|NN].
  - replace (2 ^ 32 <=? w * Z.of_nat c)%Z with false by (symmetry; apply Z.leb_gt; lia). destruct (take_to_ok (Z.to_nat (w * Z.of_nat c)) x fill) as (r & -> & WR); [destruct HF; [auto|right; lia]|]. cbn [bind]. apply (FIN r (Z.to_nat (Z.abs w))); auto.
    assert (E1 : Z.to_nat (w * Z.of_nat c) = Z.to_nat (Z.abs w) * c) by lia. rewrite E1 in WR. unfold take_off. destruct (Z.leb_spec 0 w); [exact WR|]. assert (c = 0) by nia. rewrite H0 in *. rewrite !Nat.mul_0_r in *. destruct WR as [WL _]. split; auto. lia.
  - rewrite neg64_ok by lia. cbn [bind]. replace (2 ^ 32 <=? - (w * Z.of_nat c))%Z with false by (symmetry; apply Z.leb_gt; lia). assert (WN : (w < 0)%Z) by nia.
    assert (EO : (take_off w (lead xsh) * Z.of_nat c = Z.of_nat (length x) + w * Z.of_nat c)%Z) by (unfold take_off; replace (0 <=? w)%Z with false by (symmetry; apply Z.leb_gt; auto); nia).
    assert (E1 : Z.to_nat (- (w * Z.of_nat c)) = Z.to_nat (Z.abs w) * c) by lia. rewrite EO in FIN. set (n := Z.to_nat (- (w * Z.of_nat c))) in *.
    assert (EN : (w * Z.of_nat c = - Z.of_nat n)%Z) by lia. rewrite EN in *.
    destruct (Z.ltb_spec (Z.of_nat (length x)) (- - Z.of_nat n)) as [L|L].
    + destruct fill as [f|]; [|destruct HF; [congruence|lia]]. cbn [need bind]. set (o := (Z.of_nat (length x) + - Z.of_nat n)%Z) in *.
      destruct (wfill n (win x o (Some f)) (repeat None n) (fun _ => False) 0 f (n - length x)) as (r1 & -> & I1); [apply winv0; auto|lia|intros k K; apply win_out; lia|]. cbn [bind].
      destruct (wcopy n (win x o (Some f)) r1 _ (n - length x) x 0 (length x) I1) as (r2 & -> & I2); [lia|lia|intros k K; apply win_in; lia|]. cbn [bind].
      destruct (wdone n (win x o (Some f)) r2) as (l & -> & LL & G); [eapply winv_weak; [|exact I2]; intros m M _; cbn beta; lia|]. cbn [bind]. apply (FIN l (Z.to_nat (Z.abs w))); auto. split; [congruence|]. rewrite <- E1. auto.
    + destruct (slice_ok x (length x - n) n ltac:(lia)) as (r & -> & LR & G). cbn [bind]. apply (FIN r (Z.to_nat (Z.abs w))); auto. split; [congruence|]. rewrite <- E1. intros p PB. rewrite G by auto. symmetry. apply win_in; lia.
Qed.
Lemma take_num_err fill : (- 2 ^ 63 < w * Z.of_nat (csz xsh))%Z -> (2 ^ 32 <= Z.abs w * Z.of_nat (csz xsh) \/ fill = None /\ Z.of_nat (length x) < Z.abs w * Z.of_nat (csz xsh))%Z -> take_num w xsh x fill = Err.
Proof.
  intros B H. pose proof (abs_csz w (csz xsh)) as EA. set (c := csz xsh) in *. unfold take_num. destruct (td_init w xsh) as [n| |] eqn:E; cbn [bind]; auto.
  - assert (n = w * Z.of_nat c)%Z as ->. { unfold td_init in E. destruct (rank2 xsh) eqn:R. - fold c in E. destruct (_ && _); congruence. - unfold c. rewrite csz1 by auto. injection E as <-. lia. }
    destruct (Z.leb_spec 0 (w * Z.of_nat c)).
    + destruct (Z.leb_spec (2 ^ 32) (w * Z.of_nat c)); auto. destruct H as [H|[-> H]]; [lia|]. rewrite take_to_err by lia. reflexivity.
    + rewrite neg64_ok by lia. cbn [bind]. destruct (Z.leb_spec (2 ^ 32) (- (w * Z.of_nat c))); auto. destruct H as [H|[-> H]]; [lia|]. replace (Z.of_nat (length x) <? - (w * Z.of_nat c))%Z with true by (symmetry; apply Z.ltb_lt; lia). reflexivity.
  - exfalso. unfold td_init in E. destruct (rank2 xsh); [destruct (_ && _)|]; discriminate.
Qed.
Lemma drop_num_ok : (Z.of_nat (lead xsh) < 2 ^ 32)%Z -> (- 2 ^ 63 < w)%Z -> (- 2 ^ 63 < w * Z.of_nat (csz xsh) < 2 ^ 63)%Z -> exists rsh r, drop_num w xsh x = Ok (rsh, r) /\ dropped [w] xsh x rsh r.
Proof.
  intros LB WM NB. unfold drop_num. pose proof (abs_csz w (csz xsh)) as EA. set (c := csz xsh) in *. rewrite td_init_ok by lia. fold c. cbn [bind]. pose proof num_lx as LX. fold c in LX. set (l := lead xsh) in *.
  set (len := Z.to_nat (drop_len w l)).
  assert (FIN : forall r d, windowed x (d * Z.of_nat c) None (len * c) r -> (0 < len * c -> d = drop_off w l) ->
    exists rsh r', (do a <- abs64 (rank2 xsh) w; Ok (td_shape xsh (if (Z.of_nat l <=? a)%Z then 0 else Z.of_nat l - a)%Z (length r), r)) = Ok (rsh, r') /\ dropped [w] xsh x rsh r').
  { intros r d W D. rewrite abs64_ok by auto. cbn [bind]. do 2 eexists. split; [reflexivity|]. assert (W' : windowed x (drop_off w l * Z.of_nat c) None (len * c) r). { destruct (Nat.eq_dec (len * c) 0) as [Z0|Z0]; [destruct W as [WL _]; split; auto; lia|]. rewrite <- D by lia. auto. }
    eapply num_take with (len := len) (d := drop_off w l); eauto; [|unfold len, drop_len; lia].
    destruct (rank2 xsh) eqn:R. - assert (E0 : (if (Z.of_nat l <=? Z.abs w)%Z then 0%Z else (Z.of_nat l - Z.abs w)%Z) = drop_len w l) by (unfold drop_len; destruct (Z.leb_spec (Z.of_nat l) (Z.abs w)); lia). rewrite E0. rewrite td_shape_eq; [reflexivity|unfold drop_len; lia|congruence]. - destruct W as [LW _]. unfold td_shape. rewrite R, LW. unfold c. rewrite csz1 by auto. destruct xsh as [|a [|b t]]; cbn [tl]; try discriminate; f_equal; lia. }
  assert (EM : forall m, (Z.of_nat (length x) <= m)%Z -> (m = Z.abs w * Z.of_nat c)%Z -> len * c = 0). { intros m M EM. unfold len, drop_len. destruct (Nat.eq_dec c 0); [subst c; nia|]. assert (Z.of_nat l <= Z.abs w)%Z by nia. replace (Z.max 0 (Z.of_nat l - Z.abs w)) with 0%Z by lia. reflexivity. }
  assert (EMP : forall m, (Z.of_nat (length x) <= m)%Z -> (m = Z.abs w * Z.of_nat c)%Z -> windowed x 0 None (len * c) []). { intros m M E. rewrite (EM m M E). split; auto. intros. lia. }
  destruct (Z.ltb_spec (w * Z.of_nat c) 0) as [NN|NN].
  - rewrite neg64_ok by lia. cbn [bind]. destruct (Z.leb_spec (Z.of_nat (length x)) (- (w * Z.of_nat c))) as [L|L]; cbn [bind]. + apply (FIN [] 0%Z). * rewrite Z.mul_0_l. apply (EMP (- (w * Z.of_nat c))%Z); auto. lia. * rewrite (EM (- (w * Z.of_nat c))%Z) by (auto; lia). lia.
    + assert (w < 0)%Z by nia. assert (E2 : Z.to_nat (Z.of_nat (length x) + w * Z.of_nat c) = len * c). { unfold len, drop_len. nia. } destruct (slice_ok x 0 (Z.to_nat (Z.of_nat (length x) + w * Z.of_nat c)) ltac:(lia)) as (r & -> & LR & G). cbn [bind]. apply (FIN r 0%Z); [|intros _; unfold drop_off; replace (0 <=? w)%Z with false by (symmetry; apply Z.leb_gt; auto); auto]. rewrite E2 in *. split; auto. intros p PB. rewrite G by auto. symmetry. apply win_in; lia.
  - destruct (Z.leb_spec (Z.of_nat (length x)) (w * Z.of_nat c)) as [L|L]; cbn [bind]. + apply (FIN [] 0%Z). * rewrite Z.mul_0_l. apply (EMP (w * Z.of_nat c)%Z); auto. lia. * rewrite (EM (w * Z.of_nat c)%Z) by (auto; lia). lia.
    + assert (CP : 0 < c) by nia. assert (0 <= w)%Z by nia. assert (E2 : length x - Z.to_nat (w * Z.of_nat c) = len * c). { unfold len, drop_len. nia. } destruct (slice_ok x (Z.to_nat (w * Z.of_nat c)) (length x - Z.to_nat (w * Z.of_nat c)) ltac:(lia)) as (r & -> & LR & G). cbn [bind]. apply (FIN r w); [|intros _; unfold drop_off; replace (0 <=? w)%Z with true by (symmetry; apply Z.leb_le; auto); auto]. rewrite E2 in *. split; auto. intros p PB. rewrite G by auto. symmetry. apply win_in; lia.
Qed.
End Num.
