(** C42: •ParseFloat takes exactly the numerals and rounds those of at most 17 digits to the nearest double. *)
From Coq Require Import Ascii String.
From Verif Require Import Base RyuTable RyuModel RyuSpec RyuRound RyuParse.
Open Scope list_scope.
Open Scope Z_scope.

(** the characters of an ASCII text *)
Definition chars (s : string) : list Z := map (fun c => Z.of_nat (nat_of_ascii c)) (list_ascii_of_string s).

Lemma numeral_nonempty t neg m e : numeral t neg m e -> t <> [].
Proof.
  intros (tm & te & ds & f & x & -> & HM & _) H. apply app_eq_nil in H as [_ H]. apply app_eq_nil in H as [H _].
  destruct HM as [ds Hne|a b Hne]; [congruence|]. apply app_eq_nil in H as [_ H]. discriminate.
Qed.

Lemma parse_57 t neg m e : numeral t neg m e -> Z.of_nat (List.length t) < 2 ^ 20 -> 0 <= m < 2 ^ 57 ->
  exists b, parse_float t = Ok (signed_bits neg b) /\ nearest m e b.
Proof.
  intros HN HL Hm. unfold parse_float. pose proof (numeral_nonempty _ _ _ _ HN) as Hne.
  destruct (Z.eqb_spec (Z.of_nat (List.length t)) 0) as [E0|_]; [destruct t; [congruence|cbn [List.length] in E0; lia]|].
  destruct (Z.leb_spec (2 ^ 20) (Z.of_nat (List.length t))) as [|_]; [lia|].
  destruct (numeral_parse t neg m e HN HL) as (m10 & dig & e10 & HI & He10 & -> & HX).
  assert (2 ^ 57 < 10 ^ 18) by (vm_compute; reflexivity).
  destruct (HX ltac:(lia)) as [-> HE]. clear HX.
  assert (S : exists b, convert neg m dig e10 = Ok (with_sign neg b) /\ nearest m e b).
  { destruct HI as [[-> ->]|[Hd Hb]].
    - exists 0. split; [unfold convert; reflexivity|apply zero_near].
    - assert (Hm0 : 0 < m) by (assert (0 < 10 ^ (dig - 1)) by (apply Z.pow_pos_nonneg; lia); lia).
      destruct (convert_ok neg m dig e10 ltac:(lia) Hb ltac:(lia)) as (w & E & Hn).
      destruct HE as [<-|[[H1 H2]|[H1 H2]]].
      + exists w. auto.
      + exists inf_bits. split; [|apply (huge_near m dig e); lia].
        rewrite E. f_equal. f_equal. eapply rounds_unique; [|exact Hn|apply (huge_near m dig e10); lia].
        apply Z.pow_pos_nonneg; lia.
      + exists 0. split; [|apply (tiny_near m dig e); lia].
        rewrite E. f_equal. f_equal. eapply rounds_unique; [|exact Hn|apply (tiny_near m dig e10); lia].
        apply Z.pow_pos_nonneg; lia. }
  destruct S as (b & -> & Hb). exists b. cbn [bind]. split; [|exact Hb].
  unfold signed_bits, with_sign. destruct neg; reflexivity.
Qed.

(** every numeral of at most 17 digits is rounded to the nearest double, to even on a tie; the double is unique *)
Theorem C42_parse_rounds t neg m e : numeral t neg m e -> Z.of_nat (List.length t) < 2 ^ 20 -> 0 <= m < 10 ^ 17 ->
  (exists b, nearest m e b) /\ (forall b, nearest m e b -> parse_float t = Ok (signed_bits neg b)).
Proof.
  intros HN HL Hm. assert (10 ^ 17 < 2 ^ 57) by (vm_compute; reflexivity).
  destruct (parse_57 t neg m e HN HL ltac:(lia)) as (b & E & Hb). split; [exists b; exact Hb|].
  intros b' Hb'. rewrite E. do 2 f_equal. eapply rounds_unique; [|exact Hb|exact Hb']. apply Z.pow_pos_nonneg; lia.
Qed.
Print Assumptions C42_parse_rounds.

(** exactly the numerals are taken, every other text is an error, and no execution is undefined *)
Theorem C42_parse_accepts t : Z.of_nat (List.length t) < 2 ^ 20 ->
  ((exists w, parse_float t = Ok w) <-> (exists neg m e, numeral t neg m e)) /\
  (parse_float t = Err <-> ~ (exists neg m e, numeral t neg m e)).
Proof.
  intros HL.
  assert (A : forall neg m e, numeral t neg m e -> exists w, parse_float t = Ok w).
  { intros neg m e HN. unfold parse_float. pose proof (numeral_nonempty _ _ _ _ HN) as Hne.
    destruct (Z.eqb_spec (Z.of_nat (List.length t)) 0) as [E0|_]; [destruct t; [congruence|cbn [List.length] in E0; lia]|].
    destruct (Z.leb_spec (2 ^ 20) (Z.of_nat (List.length t))) as [|_]; [lia|].
    destruct (numeral_parse t neg m e HN HL) as (m10 & dig & e10 & HI & He10 & E & _).
    destruct (s2d_safe t Hne HL) as [r Er]. rewrite Er. cbn [bind].
    rewrite Er in E. destruct (convert neg m10 dig e10); cbn [bind] in E; [|discriminate|discriminate].
    injection E as ->. eexists; reflexivity. }
  assert (B : forall w, parse_float t = Ok w -> exists neg m e, numeral t neg m e).
  { intros w. unfold parse_float.
    destruct (Z.of_nat (List.length t) =? 0); [discriminate|]. destruct (2 ^ 20 <=? Z.of_nat (List.length t)); [discriminate|].
    destruct (s2d_n t) as [[v|]| |] eqn:E; cbn [bind]; try discriminate. intros _. eapply parse_numeral; exact E. }
  assert (C : (exists w, parse_float t = Ok w) \/ parse_float t = Err).
  { unfold parse_float. destruct (Z.eqb_spec (Z.of_nat (List.length t)) 0); [auto|].
    destruct (2 ^ 20 <=? Z.of_nat (List.length t)); [auto|].
    destruct (s2d_safe t) as [[v|] ->]; [destruct t; [cbn [List.length] in n; lia|discriminate]|exact HL| |]; cbn [bind]; eauto. }
  split; split.
  - intros [w E]. eapply B; exact E.
  - intros (neg & m & e & HN). eapply A; exact HN.
  - intros E (neg & m & e & HN). destruct (A _ _ _ HN) as [w Ew]. congruence.
  - intros HN. destruct C as [[w E]|E]; [|exact E]. exfalso. apply HN. eapply B; exact E.
Qed.
Print Assumptions C42_parse_accepts.

(** texts of 2^20 characters and more are rejected *)
Theorem C42_parse_long t : 2 ^ 20 <= Z.of_nat (List.length t) -> parse_float t = Err.
Proof.
  intros H. unfold parse_float. destruct (Z.eqb_spec (Z.of_nat (List.length t)) 0); [lia|].
  destruct (Z.leb_spec (2 ^ 20) (Z.of_nat (List.length t))); [reflexivity|lia].
Qed.
Print Assumptions C42_parse_long.

(** the limit of 17 digits is sharp: an 18-digit numeral is rounded to the wrong neighbour *)
Theorem C42_18_digits_refuted : exists t m e b w,
  numeral t false m e /\ m < 10 ^ 18 /\ nearest m e b /\ parse_float t = Ok w /\ w <> signed_bits false b.
Proof.
  exists (chars "72057594037927944.5"%string), 720575940379279445, (-1), 4859383997932765185, 4859383997932765184.
  split; [|split; [vm_compute; reflexivity|split; [|split; [vm_compute; reflexivity|vm_compute; discriminate]]]].
  - exists (chars "72057594037927944.5"%string), [], (chars "720575940379279445"%string), 1, 0.
    split; [reflexivity|]. split; [|split; [constructor|split; reflexivity]].
    apply (mant_frac (chars "72057594037927944"%string) (chars "5"%string)); [discriminate| |];
      repeat constructor; unfold digit; vm_compute; discriminate.
  - unfold nearest. apply near_rounds; [vm_compute; reflexivity|split; vm_compute; discriminate| |].
    + right; left. vm_compute. reflexivity.
    + right; left. vm_compute. reflexivity.
Qed.
Print Assumptions C42_18_digits_refuted.
(** ... and this can even be a 17-digit numeral with a zero behind it *)
Theorem C42_trailing_zero_refuted : exists t t0 m w w0,
  numeral t false (10 * m) (-1) /\ numeral t0 false m 0 /\ m < 10 ^ 17 /\
  parse_float t = Ok w /\ parse_float t0 = Ok w0 /\ w <> w0.
Proof.
  exists (chars "72057594037927945.0"%string), (chars "72057594037927945"%string), 72057594037927945, 4859383997932765184, 4859383997932765185.
  split; [|split; [|split; [vm_compute; reflexivity|split; [vm_compute; reflexivity|split; [vm_compute; reflexivity|vm_compute; discriminate]]]]].
  - exists (chars "72057594037927945.0"%string), [], (chars "720575940379279450"%string), 1, 0.
    split; [reflexivity|]. split; [|split; [constructor|split; reflexivity]].
    apply (mant_frac (chars "72057594037927945"%string) (chars "0"%string)); [discriminate| |];
      repeat constructor; unfold digit; vm_compute; discriminate.
  - exists (chars "72057594037927945"%string), [], (chars "72057594037927945"%string), 0, 0.
    split; [reflexivity|]. split; [|split; [constructor|split; reflexivity]].
    apply mant_int; [discriminate|]. repeat constructor; unfold digit; vm_compute; discriminate.
Qed.
Print Assumptions C42_trailing_zero_refuted.

(** cases meeting the hypotheses: a tie, a subnormal, an overflow, and rejected texts *)
Example numeral_2p53 : numeral (chars "-9007199254740993"%string) true 9007199254740993 0.
Proof.
  exists (chars "9007199254740993"%string), [], (chars "9007199254740993"%string), 0, 0.
  split; [reflexivity|]. split; [|split; [constructor|split; reflexivity]].
  apply mant_int; [discriminate|]. repeat constructor; unfold digit; vm_compute; discriminate.
Qed.
Example parse_tie : parse_float (chars "-9007199254740993"%string) = Ok (signed_bits true (1076 * 2 ^ 52)).
Proof. vm_compute. reflexivity. Qed.
Example parse_sub : parse_float (chars "4.9e-324"%string) = Ok 1 /\ parse_float (chars "2.4e-324"%string) = Ok 0.
Proof. split; vm_compute; reflexivity. Qed.
Example parse_inf : parse_float (chars "1e400"%string) = Ok inf_bits /\ parse_float (chars "1.7976931348623157E+308"%string) = Ok (inf_bits - 1).
Proof. split; vm_compute; reflexivity. Qed.
Example parse_bad : parse_float (chars "1.2.3"%string) = Err /\ parse_float (chars "."%string) = Err /\ parse_float (chars "1e"%string) = Err /\
  parse_float (chars ""%string) = Err /\ parse_float (chars "+1"%string) = Err.
Proof. repeat split; vm_compute; reflexivity. Qed.
