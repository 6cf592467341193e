(** The decimal that the printer chooses rounds back to the number. *)
From Coq Require Import Znumtheory.
From Verif Require Import Base SqueezeModel SqueezeProof RyuTable RyuModel RyuExact RyuSpec RyuRound RyuDigits.
Open Scope Z_scope.

Lemma even_bits E M : Z.even ((E - 1) * 2 ^ 52 + M) = Z.even M.
Proof. rewrite Z.even_add, Z.even_mul. change (Z.even (2 ^ 52)) with true. rewrite orb_true_r. destruct (Z.even M); reflexivity. Qed.

(** the bounds [mm] and [mp] of ryu are the midpoints to the neighbours *)
Lemma back E M sh n d : 1 <= E <= 2046 -> 1 <= M < 2 ^ 53 -> (E <> 1 -> 2 ^ 52 <= M) ->
  sh = (if negb (M =? 2 ^ 52) || (E =? 1) then 1 else 0) -> 0 < d ->
  (4 * n < d * ((4 * M + 2) * 2 ^ (E - 1)) \/ (4 * n = d * ((4 * M + 2) * 2 ^ (E - 1)) /\ Z.even M = true)) ->
  (d * ((4 * M - 1 - sh) * 2 ^ (E - 1)) < 4 * n \/ (d * ((4 * M - 1 - sh) * 2 ^ (E - 1)) = 4 * n /\ Z.even M = true)) ->
  rounds_to n d ((E - 1) * 2 ^ 52 + M).
Proof.
  intros HE HM HN Hsh Hd HU HL. set (b := (E - 1) * 2 ^ 52 + M).
  assert (Db : dval b = M * 2 ^ (E - 1)) by (apply dval_combine; lia).
  assert (Db1 : dval (b + 1) = (M + 1) * 2 ^ (E - 1)).
  { unfold b. replace ((E - 1) * 2 ^ 52 + M + 1) with ((E - 1) * 2 ^ 52 + (M + 1)) by lia. apply dval_combine; lia. }
  assert (Dm : 2 * dval (b - 1) = (2 * M - 1 - sh) * 2 ^ (E - 1)).
  { destruct (Z.eqb_spec M (2 ^ 52)) as [EM|NM]; destruct (Z.eqb_spec E 1) as [EE|NE]; cbn [negb orb] in Hsh; subst sh.
    - unfold b. replace ((E - 1) * 2 ^ 52 + M - 1) with ((E - 1) * 2 ^ 52 + (M - 1)) by lia.
      rewrite dval_combine by lia. lia.
    - unfold b. replace ((E - 1) * 2 ^ 52 + M - 1) with ((E - 1 - 1) * 2 ^ 52 + (2 ^ 53 - 1)) by lia.
      rewrite dval_combine by lia. replace (2 ^ (E - 1)) with (2 * 2 ^ (E - 1 - 1)) by (rewrite <- Z.pow_succ_r by lia; f_equal; lia). lia.
    - unfold b. replace ((E - 1) * 2 ^ 52 + M - 1) with ((E - 1) * 2 ^ 52 + (M - 1)) by lia.
      rewrite dval_combine by lia. lia.
    - unfold b. replace ((E - 1) * 2 ^ 52 + M - 1) with ((E - 1) * 2 ^ 52 + (M - 1)) by lia.
      rewrite dval_combine by lia. lia. }
  assert (Ev : Z.even b = Z.even M) by apply even_bits.
  apply near_rounds; [exact Hd|unfold b, inf_bits; lia| |].
  - right. rewrite Ev, Db, Db1. destruct HU as [HU|[HU He]]; [left|right; split; [|exact He]]; lia.
  - right. rewrite Ev, Db.
    assert (X : 2 * (d * (dval (b - 1) + M * 2 ^ (E - 1))) = d * ((4 * M - 1 - sh) * 2 ^ (E - 1))).
    { replace (2 * (d * (dval (b - 1) + M * 2 ^ (E - 1)))) with (d * (2 * dval (b - 1)) + 2 * d * M * 2 ^ (E - 1)) by ring.
      rewrite Dm. ring. }
    destruct HL as [HL|[HL He]]; [left|right; split; [|exact He]]; lia.
Qed.

(** the decimal lies between the bounds; the bounds themselves are allowed only when the mantissa is even *)
Definition between (accept : bool) (mm mp N D o r : Z) : Prop :=
  (mm * N < o * 10 ^ r * D \/ (accept = true /\ mm * N = o * 10 ^ r * D)) /\
  (o * 10 ^ r * D < mp * N \/ (accept = true /\ o * 10 ^ r * D = mp * N)).

Lemma pow10 k : 0 <= k -> 10 ^ k = 2 ^ k * 5 ^ k.
Proof. intros. rewrite <- Z.pow_mul_l. reflexivity. Qed.

Lemma pos_nearest E M sh q o r : 1 <= E <= 2046 -> 1 <= M < 2 ^ 53 -> (E <> 1 -> 2 ^ 52 <= M) ->
  sh = (if negb (M =? 2 ^ 52) || (E =? 1) then 1 else 0) -> 0 <= q <= E - 1077 -> 0 <= r ->
  between (Z.even M) (4 * M - 1 - sh) (4 * M + 2) (2 ^ (E - 1077 - q)) (5 ^ q) o r ->
  nearest o (q + r) ((E - 1) * 2 ^ 52 + M).
Proof.
  intros HE HM HN Hsh Hq Hr [HL HU]. unfold nearest. rewrite Z.max_l by lia. rewrite Z.max_r by lia. change (10 ^ 0) with 1.
  assert (P : 0 < 2 ^ q * 2 ^ 1076) by (apply Z.mul_pos_pos; apply Z.pow_pos_nonneg; lia).
  assert (E1 : forall x, x * 2 ^ (E - 1077 - q) * (2 ^ q * 2 ^ 1076) = 1 * (x * 2 ^ (E - 1))).
  { intros x. replace (E - 1) with ((E - 1077 - q) + q + 1076) by lia. rewrite !Z.pow_add_r by lia. ring. }
  assert (E2 : o * 10 ^ r * 5 ^ q * (2 ^ q * 2 ^ 1076) = 4 * (o * 10 ^ (q + r) * 2 ^ 1074)).
  { change (2 ^ 1076) with (4 * 2 ^ 1074). rewrite Z.pow_add_r, (pow10 q) by lia. ring. }
  apply (back E M sh); try assumption; [lia| |]; rewrite <- E1, <- E2.
  - destruct HU as [HU|[Ha HU]]; [left; apply Z.mul_lt_mono_pos_r; assumption|right; rewrite HU; auto].
  - destruct HL as [HL|[Ha HL]]; [left; apply Z.mul_lt_mono_pos_r; assumption|right; rewrite HL; auto].
Qed.
Lemma neg_nearest E M sh q o r : 1 <= E <= 2046 -> 1 <= M < 2 ^ 53 -> (E <> 1 -> 2 ^ 52 <= M) ->
  sh = (if negb (M =? 2 ^ 52) || (E =? 1) then 1 else 0) -> 0 <= q <= 1077 - E -> 1 <= 1077 - E -> 0 <= r ->
  between (Z.even M) (4 * M - 1 - sh) (4 * M + 2) (5 ^ (1077 - E - q)) (2 ^ q) o r ->
  nearest o (q + (E - 1077) + r) ((E - 1) * 2 ^ 52 + M).
Proof.
  intros HE HM HN Hsh Hq Hn Hr [HL HU]. unfold nearest. set (i := 1077 - E - q) in *.
  assert (P10 : forall k, 0 <= k -> 0 < 10 ^ k) by (intros; apply Z.pow_pos_nonneg; lia).
  apply (rounds_ext (o * 10 ^ r * 2 ^ 1074) (10 ^ i)); [apply P10; lia|apply P10; lia| |].
  { set (x := q + (E - 1077) + r).
    assert (X : 10 ^ r * 10 ^ Z.max (- x) 0 = 10 ^ Z.max x 0 * 10 ^ i) by (rewrite <- !Z.pow_add_r by lia; f_equal; lia).
    replace (o * 10 ^ r * 2 ^ 1074 * 10 ^ Z.max (- x) 0) with (o * 2 ^ 1074 * (10 ^ r * 10 ^ Z.max (- x) 0)) by ring.
    rewrite X. ring. }
  assert (P : 0 < 2 ^ (1076 - q)) by (apply Z.pow_pos_nonneg; lia).
  assert (E1 : forall x, x * 5 ^ i * 2 ^ (1076 - q) = 10 ^ i * (x * 2 ^ (E - 1))).
  { intros x. replace (1076 - q) with (i + (E - 1)) by lia. rewrite (pow10 i) by lia. rewrite !Z.pow_add_r by lia. ring. }
  assert (E2 : o * 10 ^ r * 2 ^ q * 2 ^ (1076 - q) = 4 * (o * 10 ^ r * 2 ^ 1074)).
  { replace (o * 10 ^ r * 2 ^ q * 2 ^ (1076 - q)) with (o * 10 ^ r * (2 ^ q * 2 ^ (1076 - q))) by ring.
    rewrite <- Z.pow_add_r by lia. replace (q + (1076 - q)) with 1076 by lia. change (2 ^ 1076) with (4 * 2 ^ 1074). ring. }
  apply (back E M sh); try assumption; [apply P10; lia| |]; rewrite <- E1, <- E2.
  - destruct HU as [HU|[Ha HU]]; [left; apply Z.mul_lt_mono_pos_r; assumption|right; rewrite HU; auto].
  - destruct HL as [HL|[Ha HL]]; [left; apply Z.mul_lt_mono_pos_r; assumption|right; rewrite HL; auto].
Qed.

(** ** Which bounds are whole *)
Lemma div5_pow2 q k x : 0 <= q -> 0 <= k -> (5 ^ q | x * 2 ^ k) -> (5 ^ q | x).
Proof.
  intros Hq Hk H. apply Gauss with (2 ^ k); [rewrite Z.mul_comm; exact H|].
  apply Zgcd_1_rel_prime. apply coprime_pow; [reflexivity|lia|lia].
Qed.
Lemma div2_pow5 q k x : 0 <= q -> 0 <= k -> (2 ^ q | x * 5 ^ k) -> (2 ^ q | x).
Proof.
  intros Hq Hk H. apply Gauss with (5 ^ k); [rewrite Z.mul_comm; exact H|].
  apply Zgcd_1_rel_prime. apply coprime_pow; [reflexivity|lia|lia].
Qed.
Lemma pow_divide a i j : 0 <= i <= j -> (a ^ i | a ^ j).
Proof. intros H. exists (a ^ (j - i)). rewrite <- Z.pow_add_r by lia. f_equal. lia. Qed.

(** the printed decimal is below [2^57] *)
Lemma out_bound mp N D o r Vp : 0 < D -> 0 < N -> 0 <= r -> 0 < mp < 2 ^ 55 -> Vp * D <= mp * N -> o * 10 ^ r <= Vp -> N < 4 * 10 ^ r * D -> o < 2 ^ 57.
Proof.
  intros HD HN Hr Hmp H1 H2 H3. assert (P : 0 < 10 ^ r) by (apply Z.pow_pos_nonneg; lia).
  assert (A : o * 10 ^ r * D <= mp * N) by (eapply Z.le_trans; [apply Z.mul_le_mono_nonneg_r; [lia|exact H2]|exact H1]).
  assert (B : mp * N < mp * (4 * 10 ^ r * D)) by (apply Z.mul_lt_mono_pos_l; lia).
  assert (C : o * (10 ^ r * D) < 4 * mp * (10 ^ r * D)) by lia.
  apply Z.mul_lt_mono_pos_r in C; [lia|]. apply Z.mul_pos_pos; lia.
Qed.
Lemma digits_bound o r Vp : 0 <= r -> 0 < o -> o * 10 ^ r <= Vp -> Vp < 10 ^ 39 -> r < 39.
Proof.
  intros Hr Ho H1 H2. destruct (Z.lt_ge_cases r 39); [assumption|exfalso].
  assert (10 ^ 39 <= 10 ^ r) by (apply Z.pow_le_mono_r; lia).
  assert (1 * 10 ^ r <= o * 10 ^ r) by (apply Z.mul_le_mono_nonneg_r; lia). lia.
Qed.

(** the three numbers for which an upper bound is whole, may not be printed, and is not decremented *)
Definition sp_m : Z := (7 * 5 ^ 22 - 1) / 2.
Lemma sp_m_ne : sp_m <> 2 ^ 52.
Proof. vm_compute. discriminate. Qed.
Lemma special : Forall (fun e2 => let N := 2 ^ (e2 - 22) in let D := 5 ^ 22 in
  match common (4 * sp_m * N / D) ((4 * sp_m + 2) * N / D) ((4 * sp_m - 2) * N / D) with
  | Ok (o, r) => o * 10 ^ r * D <> (4 * sp_m + 2) * N
  | _ => False
  end) [77; 78; 79].
Proof. apply Forall_cons; [vm_compute; discriminate|]. apply Forall_cons; [vm_compute; discriminate|]. apply Forall_cons; [vm_compute; discriminate|apply Forall_nil]. Qed.
Definition q22 : bool := forallb (fun n => let e := Z.of_nat n in negb (qpos e =? 22) || ((77 <=? e) && (e <=? 79))) (seq 0 970).
Lemma q22_ok : q22 = true.
Proof. vm_compute. reflexivity. Qed.
Lemma q22_range e : 0 <= e < 970 -> qpos e = 22 -> 77 <= e <= 79.
Proof.
  intros He Hq. pose proof q22_ok as H. unfold q22 in H. rewrite forallb_forall in H.
  specialize (H (Z.to_nat e)). rewrite Z2Nat.id in H by lia. cbv zeta in H. rewrite Hq in H.
  assert (In (Z.to_nat e) (seq 0 970)) by (apply in_seq; lia). specialize (H H0).
  change (22 =? 22) with true in H. cbn [negb orb] in H. lia.
Qed.

Lemma d2d_pos_ok E M sh : 1077 <= E <= 2046 -> 2 ^ 52 <= M < 2 ^ 53 -> 0 <= sh <= 1 -> (sh = 0 -> M = 2 ^ 52) ->
  exists vr vp vm vmz vrz o r, d2d_pos (Z.even M) M (E - 1077) sh = Ok (vr, vp, vm, qpos (E - 1077), vmz, vrz) /\
    (if vmz || vrz then general (Z.even M) vr vp vm vmz vrz else common vr vp vm) = Ok (o, r) /\
    0 <= qpos (E - 1077) <= E - 1077 /\ qpos (E - 1077) < 342 /\ 0 <= r < 39 /\ 0 < o < 2 ^ 57 /\
    between (Z.even M) (4 * M - 1 - sh) (4 * M + 2) (2 ^ (E - 1077 - qpos (E - 1077))) (5 ^ qpos (E - 1077)) o r.
Proof.
  intros HE HM Hsh Hsh0. set (e2 := E - 1077). unfold d2d_pos. fold (qpos e2).
  change (- e2 + qpos e2 + (125 + pow5bits (qpos e2) - 1)) with (jpos e2).
  destruct (pos_exact e2 ltac:(lia)) as (mul & Em & Hq & [HL HU] & HX).
  assert (Q342 : qpos e2 < 342).
  { unfold entry in Em. destruct (qpos e2 <? 0); [discriminate|].
    assert (nth_error pow5_inv_split (Z.to_nat (qpos e2)) <> None).
    { unfold rd in Em. destruct (nth_error pow5_inv_split (Z.to_nat (qpos e2))); congruence. }
    apply nth_error_Some in H. assert (length pow5_inv_split = 342%nat) by (vm_compute; reflexivity). lia. }
  rewrite Em. cbn [bind]. unfold mulShiftAll64.
  assert (Q22 : qpos e2 = 22 -> 77 <= e2 <= 79) by (intros; apply q22_range; lia).
  set (q := qpos e2) in *. clearbody q.
  rewrite !HX by lia. cbn [bind].
  assert (P2 : 0 < 2 ^ (e2 - q)) by (apply Z.pow_pos_nonneg; lia).
  assert (P5 : 0 < 5 ^ q) by (apply Z.pow_pos_nonneg; lia).
  assert (Hdn : forall x k, (5 ^ q | x * 2 ^ k) -> 0 <= k -> (5 ^ q | x)) by (intros; eapply div5_pow2; eauto; lia).
  set (N := 2 ^ (e2 - q)) in *. set (D := 5 ^ q) in *.
  set (mv := 4 * M). set (mm := mv - 1 - sh). set (mp := mv + 2).
  set (Vr := mv * N / D). set (Vp0 := mp * N / D). set (Vm := mm * N / D).
  assert (HVp0 : Vp0 * D <= mp * N) by (unfold Vp0; rewrite Z.mul_comm; apply Z.mul_div_le; lia).
  assert (Big : Vp0 < 10 ^ 39).
  { assert (Vp0 <= mp * 128).
    { apply Z.div_le_upper_bound; [exact P5|]. replace (D * (mp * 128)) with (mp * (128 * D)) by ring. apply Z.mul_le_mono_nonneg_l; lia. }
    assert (2 ^ 62 < 10 ^ 39) by (vm_compute; reflexivity). lia. }
  (* from [good] and strictness to the conclusion *)
  assert (Fin : forall del o r, (del = 0 \/ (del = 1 /\ Z.even M = false /\ (D | mp * N))) ->
     good N D mm Vr (Vp0 - del) (Z.even M) o r -> (Z.even M = false -> o * 10 ^ r * D <> mp * N) ->
     0 <= r < 39 /\ 0 < o < 2 ^ 57 /\ between (Z.even M) mm mp N D o r).
  { intros del o r Hdel (G1 & G2 & G3 & G4 & G5 & G6) Hs.
    assert (O4 : o * 10 ^ r <= Vp0) by lia.
    assert (O5 : o * 10 ^ r * D <= mp * N) by (eapply Z.le_trans; [apply Z.mul_le_mono_nonneg_r; [lia|exact O4]|exact HVp0]).
    split; [split; [exact G1|apply (digits_bound o r Vp0); assumption]|].
    split; [split; [exact G2|apply (out_bound mp N D o r Vp0); try assumption; lia]|].
    split; [exact G3|]. destruct (Z.even M); [|left; specialize (Hs eq_refl); lia].
    destruct (Z.eq_dec (o * 10 ^ r * D) (mp * N)); [right; auto|left; lia]. }
  assert (Hord : forall del acc, (del = 0 \/ (del = 1 /\ acc = false /\ (D | mp * N))) -> 1 <= Vm /\ Vm + 1 <= Vr /\ Vr + 1 <= Vp0 - del).
  { intros del acc Hdel. eapply (order N D mv mm mp Vr (Vp0 - del) Vm del acc); try reflexivity; try assumption; lia. }
  assert (Com : forall del, (del = 0 \/ (del = 1 /\ Z.even M = false /\ (D | mp * N))) ->
     exists o r, common Vr (Vp0 - del) Vm = Ok (o, r) /\ good N D mm Vr (Vp0 - del) (Z.even M) o r).
  { intros del Hdel. eapply (common_ok N D mv mm mp Vr (Vp0 - del) Vm del (Z.even M)); try reflexivity; try assumption; lia. }
  assert (Gen : forall vmz vrz, (vmz = true -> Z.even M = true /\ (D | mm * N)) ->
     exists o r, general (Z.even M) Vr Vp0 Vm vmz vrz = Ok (o, r) /\ good N D mm Vr Vp0 (Z.even M) o r).
  { intros vmz vrz Hz. replace Vp0 with (Vp0 - 0) by lia.
    eapply (general_ok N D mv mm mp Vr (Vp0 - 0) Vm 0 (Z.even M)); try reflexivity; try assumption; try lia.
    intros Ht. destruct (Hz Ht) as [A B]. split; [exact A|]. split; [exact B|]. change (10 ^ 0) with 1. apply Z.mod_1_r. }
  assert (GC : forall vmz vrz, (vmz = true -> Z.even M = true /\ (D | mm * N)) ->
     exists o r, (if vmz || vrz then general (Z.even M) Vr Vp0 Vm vmz vrz else common Vr Vp0 Vm) = Ok (o, r) /\ good N D mm Vr Vp0 (Z.even M) o r).
  { intros vmz vrz Hz. destruct (vmz || vrz); [apply Gen; exact Hz|]. replace Vp0 with (Vp0 - 0) by lia. apply Com. left; reflexivity. }
  assert (NotWhole : ~ (D | mp * N) -> forall o r, o * 10 ^ r * D <> mp * N).
  { intros Hn o r Hc. apply Hn. exists (o * 10 ^ r). lia. }
  assert (HD0 : ~ (D | mp) -> ~ (D | mp * N)) by (intros Hn Hc; apply Hn; apply (Hdn mp (e2 - q)); [exact Hc|lia]).
  destruct (Z.leb_spec q 21) as [Q21|Q21].
  - rewrite low_mod_ok by (unfold mv; lia). destruct (Z.eqb_spec (mv mod 5) 0) as [M5|M5].
    + destruct (mult5_ok mv q) as (z & -> & Hz); [unfold mv; lia|lia|]. cbn [bind].
      destruct (GC false z ltac:(discriminate)) as (o & r & Eo & G).
      exists Vr, Vp0, Vm, false, z, o, r. split; [reflexivity|]. split; [exact Eo|].
      split; [lia|]. split; [exact Q342|]. apply (Fin 0); [left; reflexivity|rewrite Z.sub_0_r; exact G|].
      intros Ha. destruct (Z.eq_dec q 0) as [Q0|Q0].
      * (* scale is whole: the bound is no multiple of 5 *)
        destruct G as (G1 & G2 & G3 & G4 & G5 & G6). pose proof (Hord 0 false ltac:(left; reflexivity)) as (_ & _ & O3).
        assert (D1 : D = 1) by (unfold D; rewrite Q0; reflexivity).
        destruct (Z.eq_dec r 0) as [R0|R0].
        -- specialize (G5 R0). rewrite R0, D1. change (10 ^ 0) with 1. rewrite !Z.mul_1_r.
           assert (Vp0 = mp * N) by (unfold Vp0; rewrite D1; apply Z.div_1_r). lia.
        -- intros Hc. assert (F5 : (5 ^ 1 | mp * 2 ^ (e2 - q))).
           { fold N. rewrite <- Hc, D1, Z.mul_1_r. apply Z.divide_mul_r. 
             apply Z.divide_trans with (10 ^ 1); [exists 2; reflexivity|apply pow_divide; lia]. }
           apply div5_pow2 in F5; [|lia|lia]. change (5 ^ 1) with 5 in F5.
           apply Z.mod_divide in F5; [|lia]. unfold mp in F5. lia.
      * apply NotWhole. apply HD0. intros Hc.
        assert (F5 : (5 | mp)) by (apply Z.divide_trans with D; [change 5 with (5 ^ 1); apply pow_divide; lia|exact Hc]).
        apply Z.mod_divide in F5; [|lia]. unfold mp in F5. lia.
    + destruct (Z.even M) eqn:Ha.
      * destruct (mult5_ok mm q) as (z & Ez & Hz); [unfold mm, mv; lia|lia|]. rewrite Ez. cbn [bind].
        destruct (GC z false) as (o & r & Eo & G).
        { intros ->. split; [reflexivity|]. apply Z.divide_mul_l. apply Hz. reflexivity. }
        exists Vr, Vp0, Vm, z, false, o, r. split; [reflexivity|]. split; [exact Eo|].
        split; [lia|]. split; [exact Q342|]. apply (Fin 0); [left; reflexivity|rewrite Z.sub_0_r; exact G|discriminate].
      * destruct (mult5_ok mp q) as (z & Ez & Hz); [unfold mp, mv; lia|lia|]. rewrite Ez. cbn [bind].
        set (del := if z then 1 else 0).
        assert (Hdel : del = 0 \/ (del = 1 /\ false = false /\ (D | mp * N))).
        { unfold del. destruct z; [right; split; [reflexivity|split; [reflexivity|apply Z.divide_mul_l; apply Hz; reflexivity]]|left; reflexivity]. }
        destruct (Com del Hdel) as (o & r & Eo & G).
        exists Vr, (Vp0 - del), Vm, false, false, o, r. split; [reflexivity|]. split; [exact Eo|].
        split; [lia|]. split; [exact Q342|]. apply (Fin del); [exact Hdel|exact G|].
        intros _. unfold del in *. destruct z.
        -- destruct G as (_ & _ & _ & G4 & _ & _). intros Hc.
           assert (o * 10 ^ r * D <= (Vp0 - 1) * D) by (apply Z.mul_le_mono_nonneg_r; lia). lia.
        -- apply NotWhole. apply HD0. intros Hc. apply Hz in Hc. discriminate.
  - destruct (GC false false ltac:(discriminate)) as (o & r & Eo & G).
    exists Vr, Vp0, Vm, false, false, o, r. split; [reflexivity|]. split; [exact Eo|].
    split; [lia|]. split; [exact Q342|]. apply (Fin 0); [left; reflexivity|rewrite Z.sub_0_r; exact G|].
    intros Ha.
    assert (Dec : ~ (D | mp) \/ (q = 22 /\ M = sp_m)).
    { assert (K : forall k, 22 <= q -> 2 * M + 1 = k * 5 ^ 22 -> k = 5 \/ k = 7).
      { intros k _ Hk. change (5 ^ 22) with 2384185791015625 in Hk. change (2 ^ 52) with 4503599627370496 in HM. change (2 ^ 53) with 9007199254740992 in HM. lia. }
      assert (Om : M mod 2 = 1) by (rewrite Zmod_even, Ha; reflexivity).
      destruct (Zdivide_dec D mp) as [Hd|Hd]; [right|left; exact Hd].
      assert (F : (5 ^ 22 | 2 * M + 1)).
      { apply Gauss with 2; [|apply Zgcd_1_rel_prime; vm_compute; reflexivity].
        replace (2 * (2 * M + 1)) with mp by (unfold mp, mv; ring). apply Z.divide_trans with D; [apply pow_divide; lia|exact Hd]. }
      destruct F as [k Hk]. destruct (K k ltac:(lia) Hk) as [->| ->].
      - exfalso. change (5 ^ 22) with 2384185791015625 in Hk. lia.
      - assert (HM' : M = sp_m) by (unfold sp_m; rewrite <- Hk; symmetry; replace (2 * M + 1 - 1) with (M * 2) by lia; apply Z.div_mul; lia).
        split; [|exact HM'].
        destruct (Z.eq_dec q 22); [assumption|exfalso].
        assert (F : (5 ^ 23 | mp)) by (apply Z.divide_trans with D; [apply pow_divide; lia|exact Hd]).
        apply Z.mod_divide in F; [|vm_compute; discriminate]. unfold mp, mv in F. rewrite HM' in F. vm_compute in F. discriminate. }
    destruct Dec as [Hd|[Hq22 HMs]].
    { apply NotWhole. apply HD0. exact Hd. }
    assert (Sh1 : sh = 1).
    { destruct (Z.eq_dec sh 0) as [E0|]; [|lia]. exfalso. apply sp_m_ne. rewrite <- HMs. exact (Hsh0 E0). }
    assert (In e2 [77; 78; 79]) as Hin.
    { specialize (Q22 Hq22). cbn [In]. lia. }
    pose proof special as Sp. rewrite Forall_forall in Sp. specialize (Sp e2 Hin). cbv zeta in Sp.
    cbn [orb] in Eo. unfold Vr, Vp0, Vm, mm, mp, mv, N, D in Eo. rewrite Sh1, Hq22, HMs in Eo.
    replace (4 * sp_m - 1 - 1) with (4 * sp_m - 2) in Eo by lia. rewrite Eo in Sp.
    unfold mp, mv, N, D. rewrite Hq22, HMs. exact Sp.
Qed.

Lemma d2d_neg_ok E M sh : 1 <= E < 1077 -> 1 <= M < 2 ^ 53 -> 0 <= sh <= 1 ->
  let n := 1077 - E in
  exists vr vp vm vmz vrz o r, d2d_neg (Z.even M) M (E - 1077) sh = Ok (vr, vp, vm, qneg n + (E - 1077), vmz, vrz) /\
    (if vmz || vrz then general (Z.even M) vr vp vm vmz vrz else common vr vp vm) = Ok (o, r) /\
    0 <= qneg n <= n /\ n - qneg n < 326 /\ 0 <= r < 39 /\ 0 < o < 2 ^ 57 /\
    between (Z.even M) (4 * M - 1 - sh) (4 * M + 2) (5 ^ (n - qneg n)) (2 ^ qneg n) o r.
Proof.
  intros HE HM Hsh n. unfold d2d_neg. replace (- (E - 1077)) with n by (unfold n; lia). fold (qneg n).
  change (qneg n - (pow5bits (n - qneg n) - 125)) with (jneg n).
  destruct (neg_exact n ltac:(lia)) as (mul & Em & Hq & [HL HU] & HX).
  assert (Q326 : n - qneg n < 326).
  { unfold entry in Em. destruct (n - qneg n <? 0); [discriminate|].
    assert (nth_error pow5_split (Z.to_nat (n - qneg n)) <> None).
    { unfold rd in Em. destruct (nth_error pow5_split (Z.to_nat (n - qneg n))); congruence. }
    apply nth_error_Some in H. assert (length pow5_split = 326%nat) by (vm_compute; reflexivity). lia. }
  rewrite Em. cbn [bind]. unfold mulShiftAll64.
  set (q := qneg n) in *. clearbody q.
  rewrite !HX by lia. cbn [bind].
  assert (P2 : 0 < 2 ^ q) by (apply Z.pow_pos_nonneg; lia).
  assert (P5 : 0 < 5 ^ (n - q)) by (apply Z.pow_pos_nonneg; lia).
  assert (Hdn : forall x, (2 ^ q | x * 5 ^ (n - q)) -> (2 ^ q | x)) by (intros; eapply div2_pow5; eauto; lia).
  set (N := 5 ^ (n - q)) in *. set (D := 2 ^ q) in *.
  set (mv := 4 * M). set (mm := mv - 1 - sh). set (mp := mv + 2).
  set (Vr := mv * N / D). set (Vp0 := mp * N / D). set (Vm := mm * N / D).
  assert (HVp0 : Vp0 * D <= mp * N) by (unfold Vp0; rewrite Z.mul_comm; apply Z.mul_div_le; lia).
  assert (Big : Vp0 < 10 ^ 39).
  { assert (Vp0 <= mp * 128).
    { apply Z.div_le_upper_bound; [exact P2|]. replace (D * (mp * 128)) with (mp * (128 * D)) by ring. apply Z.mul_le_mono_nonneg_l; lia. }
    assert (2 ^ 62 < 10 ^ 39) by (vm_compute; reflexivity). lia. }
  assert (Fin : forall del o r, (del = 0 \/ (del = 1 /\ Z.even M = false /\ (D | mp * N))) ->
     good N D mm Vr (Vp0 - del) (Z.even M) o r -> (Z.even M = false -> o * 10 ^ r * D <> mp * N) ->
     0 <= r < 39 /\ 0 < o < 2 ^ 57 /\ between (Z.even M) mm mp N D o r).
  { intros del o r Hdel (G1 & G2 & G3 & G4 & G5 & G6) Hs.
    assert (O4 : o * 10 ^ r <= Vp0) by lia.
    assert (O5 : o * 10 ^ r * D <= mp * N) by (eapply Z.le_trans; [apply Z.mul_le_mono_nonneg_r; [lia|exact O4]|exact HVp0]).
    split; [split; [exact G1|apply (digits_bound o r Vp0); assumption]|].
    split; [split; [exact G2|apply (out_bound mp N D o r Vp0); try assumption; lia]|].
    split; [exact G3|]. destruct (Z.even M); [|left; specialize (Hs eq_refl); lia].
    destruct (Z.eq_dec (o * 10 ^ r * D) (mp * N)); [right; auto|left; lia]. }
  assert (Com : forall del, (del = 0 \/ (del = 1 /\ Z.even M = false /\ (D | mp * N))) ->
     exists o r, common Vr (Vp0 - del) Vm = Ok (o, r) /\ good N D mm Vr (Vp0 - del) (Z.even M) o r).
  { intros del Hdel. eapply (common_ok N D mv mm mp Vr (Vp0 - del) Vm del (Z.even M)); try reflexivity; try assumption; lia. }
  assert (Gen : forall del vmz vrz, (del = 0 \/ (del = 1 /\ Z.even M = false /\ (D | mp * N))) -> (vmz = true -> Z.even M = true /\ (D | mm * N)) ->
     exists o r, general (Z.even M) Vr (Vp0 - del) Vm vmz vrz = Ok (o, r) /\ good N D mm Vr (Vp0 - del) (Z.even M) o r).
  { intros del vmz vrz Hdel Hz.
    eapply (general_ok N D mv mm mp Vr (Vp0 - del) Vm del (Z.even M)); try reflexivity; try assumption; try lia.
    intros Ht. destruct (Hz Ht) as [A B]. split; [exact A|]. split; [exact B|]. change (10 ^ 0) with 1. apply Z.mod_1_r. }
  assert (GC : forall del vmz vrz, (del = 0 \/ (del = 1 /\ Z.even M = false /\ (D | mp * N))) -> (vmz = true -> Z.even M = true /\ (D | mm * N)) ->
     exists o r, (if vmz || vrz then general (Z.even M) Vr (Vp0 - del) Vm vmz vrz else common Vr (Vp0 - del) Vm) = Ok (o, r) /\ good N D mm Vr (Vp0 - del) (Z.even M) o r).
  { intros del vmz vrz Hdel Hz. destruct (vmz || vrz); [apply Gen; assumption|apply Com; exact Hdel]. }
  assert (Whole : q <= 1 -> forall k, (D | 2 * k * N)).
  { intros Q1 k. apply Z.divide_mul_l. apply Z.divide_mul_l. change 2 with (2 ^ 1). apply pow_divide. lia. }
  destruct (Z.leb_spec q 1) as [Q1|Q1].
  - destruct (Z.even M) eqn:Ha.
    + destruct (GC 0 (sh =? 1) true) as (o & r & Eo & G); [left; reflexivity| |].
      { intros Hz. apply Z.eqb_eq in Hz. split; [reflexivity|].
        replace mm with (2 * (2 * M - 1)) by (unfold mm, mv; lia). apply Whole. exact Q1. }
      rewrite Z.sub_0_r in Eo. exists Vr, Vp0, Vm, (sh =? 1), true, o, r. split; [reflexivity|]. split; [exact Eo|].
      split; [lia|]. split; [exact Q326|]. apply (Fin 0); [left; reflexivity|exact G|discriminate].
    + assert (Hdel : 1 = 0 \/ (1 = 1 /\ false = false /\ (D | mp * N))).
      { right. split; [reflexivity|]. split; [reflexivity|]. replace mp with (2 * (2 * M + 1)) by (unfold mp, mv; lia). apply Whole. exact Q1. }
      destruct (GC 1 false true Hdel ltac:(discriminate)) as (o & r & Eo & G).
      exists Vr, (Vp0 - 1), Vm, false, true, o, r. split; [reflexivity|]. split; [exact Eo|].
      split; [lia|]. split; [exact Q326|]. apply (Fin 1); [exact Hdel|exact G|].
      intros _ Hc. destruct G as (_ & _ & _ & G4 & _ & _).
      assert (o * 10 ^ r * D <= (Vp0 - 1) * D) by (apply Z.mul_le_mono_nonneg_r; lia). lia.
  - assert (NW : forall o r, o * 10 ^ r * D <> mp * N).
    { intros o r Hc. assert (F : (D | mp)) by (apply Hdn; exists (o * 10 ^ r); fold N; lia).
      assert (F4 : (4 | mp)) by (apply Z.divide_trans with D; [change 4 with (2 ^ 2); apply pow_divide; lia|exact F]).
      apply Z.mod_divide in F4; [|lia]. unfold mp, mv in F4. lia. }
    assert (C : forall z, exists o r, (if false || z then general (Z.even M) Vr Vp0 Vm false z else common Vr Vp0 Vm) = Ok (o, r) /\
       0 <= r < 39 /\ 0 < o < 2 ^ 57 /\ between (Z.even M) mm mp N D o r).
    { intros z. destruct (GC 0 false z ltac:(left; reflexivity) ltac:(discriminate)) as (o & r & Eo & G).
      rewrite Z.sub_0_r in Eo. exists o, r. split; [exact Eo|]. apply (Fin 0); [left; reflexivity|exact G|auto]. }
    destruct (Z.ltb_spec q 63) as [Q63|Q63].
    + destruct (mult2_ok mv q) as (z & -> & Hz); [lia|]. cbn [bind]. destruct (C z) as (o & r & Eo & HF).
      exists Vr, Vp0, Vm, false, z, o, r. split; [reflexivity|]. split; [exact Eo|]. split; [lia|]. split; [exact Q326|exact HF].
    + destruct (C false) as (o & r & Eo & HF).
      exists Vr, Vp0, Vm, false, false, o, r. split; [reflexivity|]. split; [exact Eo|]. split; [lia|]. split; [exact Q326|exact HF].
Qed.

Theorem d2d_ok mant ex : 0 <= mant < 2 ^ 52 -> 0 <= ex <= 2046 -> 0 < ex * 2 ^ 52 + mant ->
  exists o x, d2d mant ex = Ok (o, x) /\ 0 < o < 2 ^ 57 /\ -400 < x < 400 /\ nearest o x (ex * 2 ^ 52 + mant).
Proof.
  intros Hm He Hpos. unfold d2d.
  set (E := if ex =? 0 then 1 else ex). set (M := if ex =? 0 then mant else Z.lor (2 ^ 52) mant).
  assert (HM : M = if ex =? 0 then mant else 2 ^ 52 + mant).
  { unfold M. destruct (ex =? 0); [reflexivity|]. replace (2 ^ 52) with (1 * 2 ^ 52) at 1 by lia. rewrite lor_words by lia. lia. }
  clearbody M.
  assert (S : 1 <= E <= 2046 /\ 1 <= M < 2 ^ 53 /\ (E <> 1 -> 2 ^ 52 <= M) /\ ex * 2 ^ 52 + mant = (E - 1) * 2 ^ 52 + M).
  { unfold E. destruct (Z.eqb_spec ex 0); lia. }
  destruct S as (SE & SM & SN & ->).
  replace (E - 1023 - 52 - 2) with (E - 1077) by lia.
  replace (Z.land M 1 =? 0) with (Z.even M).
  2: { rewrite land_one, Zmod_even. destruct (Z.even M); reflexivity. }
  set (sh := if negb (mant =? 0) || (ex <=? 1) then 1 else 0).
  assert (Hsh : sh = if negb (M =? 2 ^ 52) || (E =? 1) then 1 else 0).
  { unfold sh, E. destruct (Z.eqb_spec ex 0) as [E0|E0].
    - destruct (Z.leb_spec ex 1); [|lia]. rewrite !orb_true_r. reflexivity.
    - replace (M =? 2 ^ 52) with (mant =? 0) by (rewrite HM; destruct (Z.eqb_spec mant 0), (Z.eqb_spec (2 ^ 52 + mant) (2 ^ 52)); lia).
      replace (ex <=? 1) with (ex =? 1) by (destruct (Z.eqb_spec ex 1), (Z.leb_spec ex 1); lia). reflexivity. }
  clearbody sh.
  assert (Hsh01 : 0 <= sh <= 1) by (rewrite Hsh; destruct (negb (M =? 2 ^ 52) || (E =? 1)); lia).
  destruct (Z.leb_spec 0 (E - 1077)) as [HE|HE].
  - destruct (d2d_pos_ok E M sh) as (vr & vp & vm & vmz & vrz & o & r & E1 & E2 & Hq & Q & Hr & Ho & HB); [lia|lia|exact Hsh01| |].
    { intros H0. rewrite H0 in Hsh. destruct (Z.eqb_spec M (2 ^ 52)); [assumption|cbn [negb orb] in Hsh; discriminate]. }
    rewrite E1. cbn [bind]. rewrite E2. cbn [bind]. do 2 eexists. split; [reflexivity|]. split; [exact Ho|]. split; [lia|].
    eapply pos_nearest; eauto; lia.
  - destruct (d2d_neg_ok E M sh) as (vr & vp & vm & vmz & vrz & o & r & E1 & E2 & Hq & Q & Hr & Ho & HB); [lia|lia|exact Hsh01|].
    rewrite E1. cbn [bind]. rewrite E2. cbn [bind]. do 2 eexists. split; [reflexivity|]. split; [exact Ho|]. split; [lia|].
    eapply neg_nearest; eauto; lia.
Qed.
