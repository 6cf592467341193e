From Verif Require Import SearchMany Base ListLib BitsModel BitsSpec BitsProof BitsProof2 SqueezeModel SqueezeProof WidenModel SelectModel SelectProof ArithModel ArithSpec ArithProof ArithProof2 ArithProof3 FoldModel FoldSpec FoldProof FoldProof2 FoldProof3 ScanModel ScanProof ScanProof2 ScanProof3.
From Coq Require Import List Lia.
Open Scope Z_scope.

Definition mmp (mx : bool) : prim := PO (if mx then OMax else OMin).
Lemma mm_scan_ok mx : forall l c, mm_scan mx l (Some c) = scanl (prim_op (mmp mx)) c l.
Proof.
  induction l as [|a l IH]; intros c; [reflexivity|]. cbn [mm_scan scanl]. assert (E : (if (if mx then c <? a else a <? c) then a else c) = prim_op (mmp mx) c a). { destruct mx; cbn [mmp prim_op dbl_op]; destruct (Z.ltb_spec c a), (Z.ltb_spec a c); auto; lia. } rewrite E, IH. reflexivity.
Qed.
Lemma mm_op mx c a : prim_op (mmp mx) c a = if mx then Z.max c a else Z.min c a.
Proof. destruct mx; cbn [mmp prim_op dbl_op]; destruct (Z.ltb_spec a c); lia. Qed.
Lemma mm_in mx (P : Z -> Prop) : forall l c, P c -> Forall P l -> Forall P (scanl (prim_op (mmp mx)) c l).
Proof.
  induction l as [|a l IH]; intros c C F; [constructor|]. inversion F as [|? ? A F']; subst. cbn [scanl]. assert (P (prim_op (mmp mx) c a)). { rewrite mm_op. destruct mx; [destruct (Z.max_spec c a) as [[_ ->]|[_ ->]]|destruct (Z.min_spec c a) as [[_ ->]|[_ ->]]]; auto. } constructor; auto.
Qed.
Lemma mm_const (mx : bool) w : forall l, Forall (fun z => if mx then z <= w else w <= z) l -> scanl (prim_op (mmp mx)) w l = repeat w (length l).
Proof. induction l as [|a l IH]; intros F; [reflexivity|]. inversion F as [|? ? A F']; subst. cbn [scanl length repeat]. assert (E : prim_op (mmp mx) w a = w) by (rewrite mm_op; destruct mx; lia). rewrite E, IH; auto. Qed.
Lemma mm_init_ok mx k l : ik k -> inr k l -> scanl (prim_op (mmp mx)) (mm_init mx k) l = scan1 (prim_op (mmp mx)) l.
Proof. intros K R. apply scanl_scan1. destruct l as [|a l]; auto. inversion R as [|? ? A _]; subst. rewrite mm_op. unfold mm_init. destruct mx; lia. Qed.
Lemma repeat_ok w n : is_double w -> arr_ok (AF (repeat w n)). Proof. intros D. apply Forall_forall. intros z H. apply repeat_spec in H. subst z. exact D. Qed.
Lemma fits_double k l : ik k -> inr k l -> Forall is_double l. Proof. intros K R. apply (int_double k); auto. Qed.
Lemma prim_double p a b : is_double a -> is_double b -> is_double (prim_op p a b).
Proof. intros A B. destruct p; cbn [prim_op]; auto; try (apply dbl_op_double; auto); (match goal with |- is_double (b2z ?c) => destruct c end); [exists 1, 0|exists 0, 0|exists 1, 0|exists 0, 0|exists 1, 0|exists 0, 0|exists 1, 0|exists 0, 0|exists 1, 0|exists 0, 0|exists 1, 0|exists 0, 0]; cbn; lia. Qed.
Lemma scanl_double p : forall l c, is_double c -> Forall is_double l -> Forall is_double (scanl (prim_op p) c l).
Proof. induction l as [|a l IH]; intros c C F; [constructor|]. inversion F; subst. cbn [scanl]. assert (is_double (prim_op p c a)) by (apply prim_double; auto). constructor; auto. Qed.
Lemma scan1_double p l : Forall is_double l -> Forall is_double (scan1 (prim_op p) l).
Proof. intros F. destruct l as [|a l]; [constructor|]. inversion F; subst. cbn [scan1]. constructor; auto. apply scanl_double; auto. Qed.

(** * ∧` ∨` of bits, as results *)
Lemma bits_and p xp n : arr_ok (AB xp n) -> p = PO OAnd \/ p = PO OMul \/ p = PO OMin -> sres p (Some 1) (AB xp n) (do r <- scan_and xp n; Ok (AB r n)).
Proof. intros [W N] P. destruct (scan_and_ok xp n W N) as (r & -> & L & Wr & H). cbn [bind]. apply (sres_bits p xp n r andb true); auto; try (split; auto); destruct P as [->|[->| ->]]; try discriminate; auto. Qed.
Lemma bits_or p xp n : arr_ok (AB xp n) -> p = PO OOr \/ p = PO OMax -> sres p (Some 0) (AB xp n) (do r <- scan_or xp n; Ok (AB r n)).
Proof. intros [W N] P. destruct (scan_or_ok xp n W N) as (r & -> & L & Wr & H). cbn [bind]. apply (sres_bits p xp n r orb false); auto; try (split; auto); destruct P as [->| ->]; try discriminate; auto. Qed.
Lemma bits_first (P : Z -> Prop) xp n : P 0 -> P 1 -> match vals (AB xp n) with [] => True | a :: _ => P a end.
Proof. intros. rewrite vals_bits. destruct (bits_of xp 0 n) as [|[] l]; cbn [map b2z]; auto. Qed.
Lemma bits_and1 p xp n : arr_ok (AB xp n) -> p = PO OAnd \/ p = PO OMul \/ p = PO OMin -> sres p None (AB xp n) (do r <- scan_and xp n; Ok (AB r n)).
Proof. intros X P. apply (sres_unit p 1); [|apply bits_and; auto]. apply (bits_first (fun a => prim_op p 1 a = a)); destruct P as [->|[->| ->]]; reflexivity. Qed.
Lemma bits_or1 p xp n : arr_ok (AB xp n) -> p = PO OOr \/ p = PO OMax -> sres p None (AB xp n) (do r <- scan_or xp n; Ok (AB r n)).
Proof. intros X P. apply (sres_unit p 0); [|apply bits_or; auto]. apply (bits_first (fun a => prim_op p 0 a = a)); destruct P as [->| ->]; reflexivity. Qed.
Lemma bits_ne c xp n : arr_ok (AB xp n) -> sres PNe (Some (b2z c)) (AB xp n) (do r <- scan_ne xp (if c then Z.ones 64 else 0) n; Ok (AB r n)).
Proof.
  intros [W N]. destruct (scan_ne_ok xp (if c then Z.ones 64 else 0) n W N) as (r & -> & L & Wr & H); [destruct c; auto|]. cbn [bind]. apply (sres_bits PNe xp n r xorb c); auto; try discriminate; [split; auto|]. intros k K. rewrite H by auto. destruct c; [rewrite tb_ones by lia|rewrite Z.bits_0]; reflexivity.
Qed.
Lemma bits_lt c xp n : arr_ok (AB xp n) -> sres PLt (Some (b2z c)) (AB xp n) (do r <- scan_lt xp (if c then Z.ones 64 else 0) n; Ok (AB r n)).
Proof.
  intros [W N]. destruct (scan_lt_ok xp (if c then Z.ones 64 else 0) n W N) as (r & -> & L & Wr & H); [destruct c; vm_compute; split; congruence|]. cbn [bind]. apply (sres_bits PLt xp n r (fun a b => negb a && b) c); auto; try discriminate; [split; auto|]. intros k K. rewrite H by auto. destruct c; [rewrite tb_ones by lia|rewrite Z.bits_0]; reflexivity.
Qed.

Section S.
Variables (junk umax : Z) (sq : arr -> arr) (cv64 cv32 : Z -> Z).
Hypothesis U : 0 < umax <= 2 ^ 48.
Hypothesis KS : keeps_arr sq.
Hypothesis C64 : conv 64 cv64.
Hypothesis C32 : conv 32 cv32.
Lemma scan_mm_ok mx x : arr_ok x -> sres (mmp mx) None x (scan_mm mx x).
Proof.
  intros X. destruct x as [xp n|k l|l]; cbn [scan_mm].
  - destruct mx; [apply bits_or1|apply bits_and1]; auto.
  - destruct X as [K R]. eexists. split; [reflexivity|]. rewrite mm_scan_ok. cbn [vals]. rewrite (mm_init_ok mx k l K R). split; [|reflexivity]. split; [auto|]. destruct l as [|a l]; [constructor|]. inversion R as [|? ? A R']; subst. cbn [scan1]. constructor; auto. apply (mm_in mx (fun z => - 2 ^ (k - 1) <= z < 2 ^ (k - 1))); auto.
  - eexists. split; [reflexivity|]. assert (E : mm_scan mx l None = scan1 (prim_op (mmp mx)) l). { destruct l as [|a l]; [reflexivity|]. cbn [mm_scan scan1]. rewrite mm_scan_ok. reflexivity. } rewrite E. split; [|reflexivity]. apply scan1_double; auto.
Qed.
Lemma cv32_range w : cv32 w = w -> - 2147483648 <= w < 2147483648.
Proof using C32. intros E. destruct (C32 w) as [R _]. change (2 ^ (32 - 1)) with 2147483648 in R. lia. Qed.
Lemma all_ok (mx : bool) w x : arr_ok x -> is_double w -> Forall (fun z => if mx then z <= w else w <= z) (vals x) -> sres (mmp mx) (Some w) x (Ok (all_w (a_ia x) w)).
Proof. intros X D F. eexists. split; [reflexivity|]. split; [apply repeat_ok; auto|]. rewrite mm_const by auto. unfold all_w. cbn [vals]. rewrite <- (vals_len x X). rewrite Nat2Z.id. reflexivity. Qed.
Lemma to_s_in k w : ik k -> to_s k w = w -> - 2 ^ (k - 1) <= w < 2 ^ (k - 1).
Proof. intros K E. rewrite <- E. apply to_s_range. destruct K as [->|[->| ->]]; lia. Qed.
Lemma to_s_not k w : ik k -> to_s k w <> w -> w < - 2 ^ (k - 1) \/ 2 ^ (k - 1) <= w.
Proof. intros K E. destruct (Z.ltb_spec w (- 2 ^ (k - 1))); auto. destruct (Z.leb_spec (2 ^ (k - 1)) w); auto. exfalso. apply E. apply to_s_id; [destruct K as [->|[->| ->]]; lia|lia]. Qed.
Lemma scan2_mm_ok mx w x : arr_ok x -> is_double w -> sres (mmp mx) (Some w) x (scan2_mm cv32 mx w x).
Proof using C32.
  intros X D. unfold scan2_mm. destruct (Z.eqb_spec (cv32 w) w) as [CE|CN].
  - pose proof (cv32_range w CE) as WR. destruct x as [xp n|k l|l].
    + pose proof (bits01 (bits_of xp 0 n)) as B. rewrite <- vals_bits in B. destruct (if mx then 0 <? w else w <? 1) eqn:T.
      * apply all_ok; auto. eapply Forall_impl; [|exact B]. intros z Hz. cbv beta in Hz. destruct mx; lia.
      * assert (Q : match vals (AB xp n) with [] => True | a :: _ => prim_op (mmp mx) w a = a end). { destruct (vals (AB xp n)) as [|a l]; auto. inversion B; subst. rewrite mm_op. destruct mx; lia. }
        apply (sres_unit (mmp mx) w) ; auto. destruct mx; [apply bits_or1|apply bits_and1]; auto.
    + destruct X as [K R]. cbn [a_ia]. destruct ((k =? 32) || (w =? to_s k w)) eqn:F.
      * eexists. split; [reflexivity|]. rewrite mm_scan_ok. split; [|reflexivity]. split; auto. apply (mm_in mx (fun z => - 2 ^ (k - 1) <= z < 2 ^ (k - 1))); auto. destruct (Z.eqb_spec k 32) as [->|NK]; [change (2 ^ (32 - 1)) with 2147483648; lia|]. apply to_s_in; auto. cbn [orb] in F. lia.
      * assert (NW : w < - 2 ^ (k - 1) \/ 2 ^ (k - 1) <= w) by (apply to_s_not; auto; lia). assert (P : 0 < 2 ^ (k - 1)) by (destruct K as [->|[->| ->]]; reflexivity). destruct (if mx then 0 <? w else w <? 0) eqn:T.
        -- apply (all_ok mx w (AI k l)); auto; [split; auto|]. cbn [vals]. eapply Forall_impl; [|exact R]. intros z Hz. cbv beta in Hz. destruct mx; lia.
        -- apply (sres_unit (mmp mx) w (AI k l)). { cbn [vals]. destruct l as [|a l]; auto. inversion R; subst. rewrite mm_op. destruct mx; lia. } apply (scan_mm_ok mx (AI k l)). split; auto.
    + eexists. split; [reflexivity|]. rewrite mm_scan_ok. split; [|reflexivity]. apply scanl_double; auto.
  - rewrite elems_ok by auto. cbn [bind]. eexists. split; [reflexivity|]. rewrite mm_scan_ok. split; [|reflexivity]. apply scanl_double; auto. apply vals_double; auto.
Qed.
Lemma base_scan_ok p : forall l c, base_scan p l c = scanl (prim_op p) c l. Proof. induction l as [|a l IH]; intros c; [reflexivity|]. cbn [base_scan scanl]. rewrite IH. reflexivity. Qed.
Lemma scan_base1_ok p x : arr_ok x -> vals x <> [] -> sres p None x (scan_base1 p x).
Proof. intros X N. unfold scan_base1. rewrite elems_ok by auto. cbn [bind]. pose proof (vals_double x X) as D. destruct (vals x) as [|a l] eqn:E; [congruence|]. eexists. split; [reflexivity|]. rewrite base_scan_ok, E. split; [|reflexivity]. apply (scan1_double p (a :: l)). auto. Qed.
Lemma scan_base2_ok p w x : arr_ok x -> is_double w -> sres p (Some w) x (scan_base2 p w x).
Proof. intros X N. unfold scan_base2. rewrite elems_ok by auto. cbn [bind]. eexists. split; [reflexivity|]. rewrite base_scan_ok. split; [|reflexivity]. apply scanl_double; auto. apply vals_double; auto. Qed.
Lemma plus_dbl_ok : forall l c, plus_dbl l c = scanl (prim_op (PO OAdd)) c l. Proof. induction l as [|a l IH]; intros c; [reflexivity|]. cbn [plus_dbl scanl]. rewrite IH. reflexivity. Qed.
Lemma plus_int_ok : forall l c r, plus_int l c = Some r -> r = scanl (prim_op (PO OAdd)) c l /\ Forall (fun z => - 2147483648 <= z < 2147483648) r.
Proof.
  induction l as [|a l IH]; intros c r E; cbn [plus_int scanl] in *; [injection E as <-; split; [reflexivity|constructor]|]. destruct (fits 32 (c + a)) eqn:F; [|discriminate]. destruct (plus_int l (c + a)) as [q|] eqn:Q; [|discriminate]. injection E as <-. unfold fits in F. change (2 ^ (32 - 1)) with 2147483648 in F. cbn [prim_op dbl_op]. assert (RR : rnd (c + a) = c + a) by (apply rnd_exact; lia). rewrite !RR. destruct (IH _ _ Q) as [-> H2]. split; [reflexivity|]. constructor; auto. lia.
Qed.
Lemma scan_plus_ok r0 x : arr_ok x -> (forall xp n, x <> AB xp n) -> is_double r0 -> sres (PO OAdd) (Some r0) x (scan_plus cv32 r0 x).
Proof.
  intros X NB D. destruct x as [xp n|k l|l]; [exfalso; apply (NB xp n); reflexivity| |]; cbn [scan_plus].
  - assert (DD : sres (PO OAdd) (Some r0) (AI k l) (Ok (AF (plus_dbl l r0)))). { eexists. split; [reflexivity|]. rewrite plus_dbl_ok. split; [|reflexivity]. apply scanl_double; auto. apply (vals_double (AI k l) X). }
    destruct (cv32 r0 =? r0); auto. destruct (plus_int l r0) as [r|] eqn:E; auto. destruct (plus_int_ok _ _ _ E) as [-> F]. eexists. split; [reflexivity|]. split; [|reflexivity]. split; [auto|]. exact F.
  - eexists. split; [reflexivity|]. rewrite plus_dbl_ok. split; [|reflexivity]. apply scanl_double; auto.
Qed.
End S.
