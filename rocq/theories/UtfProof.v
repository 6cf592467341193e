From Verif Require Import Base BitLemmas UtfModel UtfSpec.

Lemma utf8lenb_lead b : 0 <= b < 256 -> utf8lenb b = lead_len b.
Proof.
  intros H. unfold utf8lenb, lead_len. rewrite !Z.shiftr_div_pow2 by lia.
  change (2^5) with 32; change (2^4) with 16; change (2^3) with 8.
  repeat match goal with |- (if ?x then _ else _) = _ => destruct x eqn:? end;
  repeat match goal with |- _ = (if ?x then _ else _) => destruct x eqn:? end; try reflexivity; exfalso; lia.
Qed.

Lemma utf8_w_enc1 c : codept c -> utf8_w c = enc1 c.
Proof.
  unfold codept. change (2^21) with 2097152. intros H. unfold utf8_w, enc1, byte.
  destruct (Z.ltb_spec c 128); [rewrite Z.mod_small by lia; reflexivity|].
  assert (M : forall x, Z.land x 0x3F = x mod 64).
  { intros x. rewrite Z.land_comm. change 0x3F with (2^6-1). rewrite land_ones_mod by lia. reflexivity. }
  assert (L : forall x, 0 <= x < 64 -> Z.lor 0x80 x = 0x80 + x).
  { intros x Hx. change 0x80 with (2 * 2^6). apply lor_disjoint'; [lia|]. change (2^6) with 64. lia. }
  rewrite !M, !Z.shiftr_div_pow2 by lia. change (2^6) with 64; change (2^12) with 4096; change (2^18) with 262144.
  destruct (Z.leb_spec c 0x7FF), (Z.ltb_spec c 0x800); try lia.
  { change 0xC0 with (6 * 2^5). rewrite !L by lia. rewrite lor_disjoint' by (change (2^5) with 32; lia).
    change (2^5) with 32. repeat (f_equal; try lia). }
  destruct (Z.leb_spec c 0xFFFF), (Z.ltb_spec c 0x10000); try lia.
  { change 0xE0 with (14 * 2^4). rewrite !L by lia. rewrite lor_disjoint' by (change (2^4) with 16; lia).
    change (2^4) with 16. repeat (f_equal; try lia). }
  { change 0xF0 with (30 * 2^3). rewrite !L by lia. rewrite lor_disjoint' by (change (2^3) with 8; lia).
    change (2^3) with 8. repeat (f_equal; try lia). }
Qed.

Lemma toUTF8_enc cs : Forall codept cs -> toUTF8 cs = enc cs.
Proof.
  intros H. unfold toUTF8, enc. rewrite fold_left_app_flat_map. cbn [app].
  induction H as [|c cs Hc _ IH]; cbn; [reflexivity|]. rewrite utf8_w_enc1, IH by assumption. reflexivity.
Qed.

Lemma utf8len_length cs : utf8lenB cs = Z.of_nat (length (toUTF8 cs)).
Proof.
  unfold utf8lenB, toUTF8. rewrite fold_left_app_flat_map. cbn [app].
  induction cs as [|c cs IH]; cbn [fold_left flat_map]; [reflexivity|].
  rewrite (fold_left_sum_app (fun c => if c <=? 127 then 1 else if c <=? 0x7FF then 2 else if c <=? 0xFFFF then 3 else 4)), IH.
  rewrite app_length, Nat2Z.inj_add. f_equal. unfold utf8_w.
  destruct (Z.leb_spec c 127), (Z.ltb_spec c 128); try lia; [reflexivity|].
  destruct (c <=? 0x7FF); [reflexivity|]. destruct (c <=? 0xFFFF); reflexivity.
Qed.

(** Bytes as chunk positions. *)
Inductive chain (s : list Z) : nat -> nat -> Prop :=
| chain_end : chain s (length s) 0
| chain_step i b l n : nth_error s i = Some b -> utf8lenb b = Some l -> chain s (i + l) n -> chain s i (S n).

Lemma lenb_range b l : utf8lenb b = Some l -> (1 <= l <= 4)%nat.
Proof. unfold utf8lenb. repeat match goal with |- context [if ?x then _ else _] => destruct x end; intros E; inversion E; lia. Qed.

Lemma chain_le s i n : chain s i n -> (i + n <= length s)%nat.
Proof. induction 1 as [|i b l n Hb Hl _ IH]; [lia|]. apply lenb_range in Hl. lia. Qed.

Lemma count_spec s fuel j sz : (length s < fuel + j)%nat -> (0 < fuel)%nat ->
  match utf8_count fuel s (length s) j sz with
  | Ok r => exists n, chain s j n /\ r = (sz + n)%nat
  | Err => ~ exists n, chain s j n
  | UB => False
  end.
Proof.
  revert j sz. induction fuel as [|fuel IH]; intros j sz Hf Hp; [lia|].
  cbn [utf8_count]. destruct (Nat.leb_spec (length s) j) as [Hj|Hj].
  - destruct (Nat.eqb_spec j (length s)) as [->|Hne].
    + exists 0%nat. split; [constructor|lia].
    + intros [n Hn]. apply chain_le in Hn. lia.
  - unfold rd. destruct (nth_error s j) as [b|] eqn:Hb; [|apply nth_error_None in Hb; lia]. cbn [bind].
    destruct (utf8lenb b) as [l|] eqn:Hl.
    + assert (Hr := lenb_range _ _ Hl). specialize (IH (j+l)%nat (S sz)).
      destruct (utf8_count fuel s (length s) (j + l) (S sz)) as [r| |].
      * destruct IH as [n [Hn Er]]; [lia|lia|]. exists (S n). split; [econstructor; eassumption|lia].
      * intros [n Hn]. inversion Hn as [E|i b' l' n' Hb' Hl' Hc]; subst; [lia|].
        rewrite Hb in Hb'; inversion Hb'; subst. rewrite Hl in Hl'; inversion Hl'; subst.
        apply IH; [lia|lia|]. eexists; eassumption.
      * apply IH; lia.
    + intros [n Hn]. inversion Hn as [E|i b' l' n' Hb' Hl' Hc]; subst; [lia|]. congruence.
Qed.

Definition chunk_val (s : list Z) (i : nat) : Z := match utf8_p s i with Ok c => c | _ => 0 end.

Lemma p_ok s i b l : nth_error s i = Some b -> utf8lenb b = Some l -> (i + l <= length s)%nat -> exists c, utf8_p s i = Ok c.
Proof.
  intros Hb Hl Hle. unfold utf8_p, rd. rewrite Hb. cbn [bind]. rewrite Hl.
  assert (Hn : forall k, (k < length s)%nat -> exists v, nth_error s k = Some v).
  { intros k Hk. destruct (nth_error s k) eqn:E; [eauto|]. apply nth_error_None in E. lia. }
  assert (Hr := lenb_range _ _ Hl).
  destruct l as [|[|[|[|l]]]]; [lia|eauto| | |].
  - destruct (Hn (i+1)%nat) as [v1 ->]; [lia|]. cbn [bind]. eauto.
  - destruct (Hn (i+2)%nat) as [v2 ->]; [lia|]. destruct (Hn (i+1)%nat) as [v1 ->]; [lia|]. cbn [bind]. eauto.
  - destruct (Hn (i+3)%nat) as [v3 ->]; [lia|]. destruct (Hn (i+2)%nat) as [v2 ->]; [lia|]. destruct (Hn (i+1)%nat) as [v1 ->]; [lia|]. cbn [bind]. eauto.
Qed.

Lemma fill_ok s fuel i sz acc n : chain s i n -> (length s < fuel + i)%nat -> (0 < fuel)%nat -> (length acc + n)%nat = sz ->
  exists r, utf8_fill fuel s (length s) i sz acc = Ok r /\ length r = sz.
Proof.
  revert i acc n. induction fuel as [|fuel IH]; intros i acc n Hc Hf Hp Hs; [lia|].
  cbn [utf8_fill]. destruct Hc as [|i b l n Hb Hl Hc].
  - rewrite Nat.ltb_irrefl. destruct (Nat.eqb_spec (length acc) sz); [|lia]. eauto.
  - assert (Hle := chain_le _ _ _ Hc). assert (Hr := lenb_range _ _ Hl).
    destruct (Nat.ltb_spec i (length s)); [|lia].
    destruct (p_ok s i b l Hb Hl) as [c Hpc]; [lia|]. rewrite Hpc. unfold rd. rewrite Hb. cbn [bind].
    destruct (Nat.ltb_spec (length acc) sz); [|lia]. rewrite Hl.
    eapply IH; [exact Hc|lia|lia|]. rewrite app_length. cbn. lia.
Qed.

Lemma chain_structured s i n : bytes s -> chain s i n -> exists chunks, concat chunks = skipn i s /\ Forall lead_chunk chunks /\ length chunks = n.
Proof.
  intros Hby. induction 1 as [|i b l n Hb Hl Hc IH].
  - exists []. rewrite skipn_all. repeat split; constructor.
  - destruct IH as [chunks [Hcc [Hall Hlen]]]. assert (Hle := chain_le _ _ _ Hc). assert (Hr := lenb_range _ _ Hl).
    exists (firstn l (skipn i s) :: chunks). cbn [concat length]. rewrite Hcc.
    assert (E : skipn (i+l) s = skipn l (skipn i s)).
    { clear. revert s. induction i as [|i IH]; intros s; [reflexivity|]. destruct s; cbn; [symmetry; apply skipn_nil|apply IH]. }
    rewrite E, firstn_skipn. repeat split; [|congruence].
    constructor; [|exact Hall]. red.
    assert (Hsk : exists t, skipn i s = b :: t).
    { clear -Hb. revert i Hb. induction s as [|a s IH]; intros [|i] Hb; try discriminate; cbn in *; [inversion Hb; eauto|]. apply IH. exact Hb. }
    destruct Hsk as [t Ht]. destruct l as [|l]; [lia|]. exists b, (firstn l t).
    assert (Hl2 : length (firstn (S l) (skipn i s)) = S l) by (rewrite firstn_length, skipn_length; lia).
    rewrite Hl2. split; [rewrite Ht; reflexivity|].
    rewrite <- utf8lenb_lead; [exact Hl|]. unfold bytes in Hby. rewrite Forall_forall in Hby. apply Hby. eapply nth_error_In; exact Hb.
Qed.

Lemma structured_chain pre s chunks : bytes (pre ++ s) -> concat chunks = s -> Forall lead_chunk chunks -> chain (pre ++ s) (length pre) (length chunks).
Proof.
  revert pre s. induction chunks as [|ch chunks IH]; intros pre s Hby Hc Hall; cbn in Hc; subst s.
  - rewrite app_nil_r. constructor.
  - inversion Hall as [|? ? H1 H2]; subst. destruct H1 as [b [t [-> Hl]]]. cbn [length app].
    eapply chain_step with (b := b) (l := length (b :: t)).
    + cbn [app]. rewrite nth_error_app2 by lia. rewrite Nat.sub_diag. reflexivity.
    + rewrite utf8lenb_lead; [exact Hl|]. unfold bytes in Hby. rewrite Forall_forall in Hby. apply Hby. apply in_app_iff. right. cbn. auto.
    + specialize (IH (pre ++ b :: t) (concat chunks)). rewrite <- app_assoc in IH. rewrite app_length in IH. cbn [concat]. apply IH; auto.
Qed.

(** Acceptance and absence of out-of-bounds accesses. *)
Lemma decode_total s : bytes s ->
  (exists cs, utf8Decode s = Ok cs /\ lead_structured s (length cs)) \/ (utf8Decode s = Err /\ ~ exists n, lead_structured s n).
Proof.
  intros Hby. unfold utf8Decode. assert (H := count_spec s (S (length s)) 0 0 ltac:(lia) ltac:(lia)).
  destruct (utf8_count (S (length s)) s (length s) 0 0) as [sz| |]; cbn [bind].
  - destruct H as [n [Hc ->]]. cbn [Nat.add]. left.
    assert (St : lead_structured s n) by (apply (chain_structured s 0 n Hby Hc)).
    destruct (Nat.eqb_spec n (length s)) as [->|Hne]; [eauto|].
    destruct (fill_ok s (S (length s)) 0 n [] n Hc) as [r [Hr Hl]]; [lia|lia|cbn;lia|]. exists r. rewrite Hl. auto.
  - right. split; [reflexivity|]. intros [n [chunks [Hc [Hall Hl]]]]. apply H. exists n. subst n.
    exact (structured_chain [] s chunks Hby Hc Hall).
  - contradiction.
Qed.

Lemma enc1_bytes c : codept c -> bytes (enc1 c).
Proof.
  unfold codept, bytes, enc1. change (2^21) with 2097152. intros H.
  repeat match goal with |- context [if ?x then _ else _] => destruct x eqn:? end; repeat constructor; lia.
Qed.

Lemma enc1_cons c : exists b t, enc1 c = b :: t.
Proof. unfold enc1. repeat match goal with |- context [if ?x then _ else _] => destruct x end; eauto. Qed.

Lemma nth_error_mid {A} (pre l : list A) k : nth_error (pre ++ l) (length pre + k) = nth_error l k.
Proof. rewrite nth_error_app2 by lia. f_equal. lia. Qed.


Lemma lor3 a b c : 0 <= b < 64 -> 0 <= c < 64 -> Z.lor (Z.lor (a * 2^12) c) (b * 2^6) = a * 4096 + b * 64 + c.
Proof.
  intros Hb Hc. rewrite <- Z.lor_assoc. rewrite (lor_disjoint c b 6) by (change (2^6) with 64; lia).
  rewrite lor_disjoint' by (change (2^6) with 64; change (2^12) with 4096; lia).
  change (2^6) with 64; change (2^12) with 4096. lia.
Qed.
Lemma lor4 a b c d : 0 <= b < 64 -> 0 <= c < 64 -> 0 <= d < 64 ->
  Z.lor (Z.lor (Z.lor (a * 2^18) d) (c * 2^6)) (b * 2^12) = a * 262144 + b * 4096 + c * 64 + d.
Proof.
  intros Hb Hc Hd. rewrite <- !Z.lor_assoc. rewrite (Z.lor_assoc d). rewrite (lor_disjoint d c 6) by (change (2^6) with 64; lia).
  rewrite lor_disjoint by (change (2^6) with 64; change (2^12) with 4096; lia).
  rewrite lor_disjoint' by (change (2^6) with 64; change (2^12) with 4096; change (2^18) with 262144; lia).
  change (2^6) with 64; change (2^12) with 4096; change (2^18) with 262144. lia.
Qed.

Lemma lead_len_at b l : 0 <= b < 256 -> lead_len b = Some l -> utf8lenb b = Some l.
Proof. intros. rewrite utf8lenb_lead; assumption. Qed.

Lemma enc1_decode c pre post : codept c ->
  utf8_p (pre ++ enc1 c ++ post) (length pre) = Ok c /\
  (exists b, nth_error (pre ++ enc1 c ++ post) (length pre) = Some b /\ utf8lenb b = Some (length (enc1 c))).
Proof.
  intros H.
  assert (N0 : forall l, nth_error (pre ++ l) (length pre) = nth_error l 0).
  { intros l. rewrite <- (Nat.add_0_r (length pre)). apply nth_error_mid. }
  unfold codept in H. change (2^21) with 2097152 in H. unfold utf8_p, rd. rewrite !N0, !nth_error_mid.
  unfold enc1 in *.
  assert (M : forall x, Z.land 63 x = x mod 64) by (intros x; change 63 with (2^6-1); apply land_ones_mod; lia).
  assert (M5 : forall x, Z.land 31 x = x mod 32) by (intros x; change 31 with (2^5-1); apply land_ones_mod; lia).
  assert (M4 : forall x, Z.land 15 x = x mod 16) by (intros x; change 15 with (2^4-1); apply land_ones_mod; lia).
  assert (M3 : forall x, Z.land 7 x = x mod 8) by (intros x; change 7 with (2^3-1); apply land_ones_mod; lia).
  destruct (Z.ltb_spec c 0x80).
  { cbn [nth_error app bind length].
    assert (E : utf8lenb c = Some 1%nat).
    { apply lead_len_at; [lia|]. unfold lead_len. destruct (Z.leb_spec 0 c), (Z.ltb_spec c 0x80); try lia. reflexivity. }
    rewrite E. eauto. }
  destruct (Z.ltb_spec c 0x800).
  { cbn [nth_error app bind length].
    assert (E : utf8lenb (192 + c/64) = Some 2%nat).
    { apply lead_len_at; [lia|]. unfold lead_len. set (b := 192 + c/64) in *. assert (192 <= b < 224) by (subst b; lia).
      destruct (Z.leb_spec 0 b), (Z.ltb_spec b 0x80), (Z.leb_spec 0xC0 b), (Z.ltb_spec b 0xE0); try lia. reflexivity. }
    rewrite E. split; [|eauto]. rewrite M, M5. f_equal. rewrite Z.shiftl_mul_pow2 by lia. rewrite lor_disjoint' by (change (2^6) with 64; lia). change (2^6) with 64. lia. }
  destruct (Z.ltb_spec c 0x10000).
  { cbn [nth_error app bind length].
    assert (E : utf8lenb (224 + c/4096) = Some 3%nat).
    { apply lead_len_at; [lia|]. unfold lead_len. set (b := 224 + c/4096) in *. assert (224 <= b < 240) by (subst b; lia).
      clearbody b. rewrite (proj2 (Z.leb_le 0 b)), (proj2 (Z.ltb_ge b 0x80)), (proj2 (Z.leb_le 0xC0 b)), (proj2 (Z.ltb_ge b 0xE0)), (proj2 (Z.leb_le 0xE0 b)), (proj2 (Z.ltb_lt b 0xF0)) by lia. reflexivity. }
    rewrite E. split; [|eauto]. rewrite !M, M4. f_equal. rewrite !Z.shiftl_mul_pow2 by lia. rewrite lor3 by lia. lia. }
  { cbn [nth_error app bind length].
    assert (E : utf8lenb (240 + c/262144) = Some 4%nat).
    { apply lead_len_at; [lia|]. unfold lead_len. set (b := 240 + c/262144) in *. assert (240 <= b < 248) by (subst b; lia).
      clearbody b. rewrite (proj2 (Z.leb_le 0 b)), (proj2 (Z.ltb_ge b 0x80)), (proj2 (Z.leb_le 0xC0 b)), (proj2 (Z.ltb_ge b 0xE0)), (proj2 (Z.leb_le 0xE0 b)), (proj2 (Z.ltb_ge b 0xF0)), (proj2 (Z.leb_le 0xF0 b)), (proj2 (Z.ltb_lt b 0xF8)) by lia. reflexivity. }
    rewrite E. split; [|eauto]. rewrite !M, M3. f_equal. rewrite !Z.shiftl_mul_pow2 by lia. rewrite lor4 by lia. lia. }
Qed.

Lemma count_enc cs : forall fuel pre sz, Forall codept cs -> (length (enc cs) < fuel)%nat ->
  utf8_count fuel (pre ++ enc cs) (length (pre ++ enc cs)) (length pre) sz = Ok (sz + length cs)%nat.
Proof.
  induction cs as [|c cs IH]; intros fuel pre sz H Hf; destruct fuel as [|fuel]; try lia; cbn [utf8_count].
  - cbn [enc flat_map]. rewrite app_nil_r, Nat.leb_refl, Nat.eqb_refl. f_equal. cbn; lia.
  - inversion H as [|? ? Hc Hcs]; subst. cbn [enc flat_map] in *. fold (enc cs) in *.
    destruct (enc1_decode c pre (enc cs) Hc) as [_ [b [Hb Hl]]].
    assert (Hr := lenb_range _ _ Hl).
    rewrite !app_length in *. destruct (Nat.leb_spec (length pre + (length (enc1 c) + length (enc cs))) (length pre)); [lia|].
    unfold rd. rewrite Hb. cbn [bind]. rewrite Hl.
    specialize (IH fuel (pre ++ enc1 c) (S sz) Hcs). rewrite <- app_assoc, !app_length in IH. rewrite IH by lia.
    f_equal. cbn; lia.
Qed.

Lemma fill_enc cs : forall fuel pre sz acc, Forall codept cs -> (length (enc cs) < fuel)%nat -> (length acc + length cs = sz)%nat ->
  utf8_fill fuel (pre ++ enc cs) (length (pre ++ enc cs)) (length pre) sz acc = Ok (acc ++ cs).
Proof.
  induction cs as [|c cs IH]; intros fuel pre sz acc H Hf Hs; destruct fuel as [|fuel]; try lia; cbn [utf8_fill].
  - cbn [enc flat_map length] in *. rewrite app_nil_r, Nat.ltb_irrefl. destruct (Nat.eqb_spec (length acc) sz); [|lia]. rewrite app_nil_r. reflexivity.
  - inversion H as [|? ? Hc Hcs]; subst. cbn [enc flat_map length] in *. fold (enc cs) in *.
    destruct (enc1_decode c pre (enc cs) Hc) as [Hp [b [Hb Hl]]].
    assert (Hr := lenb_range _ _ Hl).
    rewrite !app_length in *. destruct (Nat.ltb_spec (length pre) (length pre + (length (enc1 c) + length (enc cs)))); [|lia].
    rewrite Hp. unfold rd. rewrite Hb. cbn [bind].
    destruct (Nat.ltb_spec (length acc) (length acc + S (length cs))); [|lia]. rewrite Hl.
    specialize (IH fuel (pre ++ enc1 c) (length acc + S (length cs))%nat (acc ++ [c]) Hcs). rewrite <- !app_assoc, !app_length in IH. apply IH; cbn; lia.
Qed.

Lemma enc_length_ge cs : (length cs <= length (enc cs))%nat.
Proof. induction cs as [|c cs IH]; cbn; [lia|]. rewrite app_length. destruct (enc1_cons c) as [b [t ->]]. cbn. fold (enc cs). lia. Qed.

Lemma enc_same_length cs : length (enc cs) = length cs -> enc cs = cs.
Proof.
  induction cs as [|c cs IH]; cbn [enc flat_map length]; [reflexivity|]. fold (enc cs). rewrite app_length. intros H.
  assert (Hg := enc_length_ge cs).
  assert (L : length (enc1 c) = 1%nat) by (destruct (enc1_cons c) as [b [t E]]; rewrite E in *; cbn in *; lia).
  unfold enc1 in *. repeat match goal with |- context [if ?x then _ else _] => destruct x eqn:? end; cbn in L; try discriminate.
  cbn. f_equal. apply IH. cbn in H. lia.
Qed.

Lemma decode_enc cs : Forall codept cs -> utf8Decode (enc cs) = Ok cs.
Proof.
  intros H. unfold utf8Decode. assert (C := count_enc cs (S (length (enc cs))) [] 0 H). cbn [app length] in C. rewrite C by lia. cbn [bind Nat.add].
  destruct (Nat.eqb_spec (length cs) (length (enc cs))) as [E|E].
  - f_equal. apply enc_same_length. lia.
  - assert (F := fill_enc cs (S (length (enc cs))) [] (length cs) [] H). cbn [app length] in F. apply F; lia.
Qed.

Lemma utf8_roundtrip cs : Forall codept cs -> utf8Decode (toUTF8 cs) = Ok cs.
Proof. intros H. rewrite toUTF8_enc by assumption. apply decode_enc. exact H. Qed.

Lemma scalar_codept c : scalar c -> codept c.
Proof. unfold scalar, codept. change (2^21) with 2097152. lia. Qed.

Lemma valid_decodes bs : valid_utf8 bs -> exists cs, Forall scalar cs /\ enc cs = bs /\ utf8Decode bs = Ok cs.
Proof.
  intros [cs [Hs <-]]. exists cs. repeat split; [exact Hs|]. apply decode_enc. eapply Forall_impl; [|exact Hs]. exact scalar_codept.
Qed.

Lemma bad_witness bs cs : utf8Decode bs = Ok cs -> enc cs <> bs -> ~ valid_utf8 bs.
Proof. intros H Hne Hv. destruct (valid_decodes bs Hv) as [cs' [_ [E D]]]. rewrite H in D. inversion D; subst. contradiction. Qed.
Lemma bad_witness2 bs cs : utf8Decode bs = Ok cs -> ~ Forall scalar cs -> ~ valid_utf8 bs.
Proof. intros H Hne Hv. destruct (valid_decodes bs Hv) as [cs' [F [E D]]]. rewrite H in D. inversion D; subst. contradiction. Qed.

(** UTF-16 *)
Lemma land_fc00 w : 0 <= w < 65536 -> Z.land 0xFC00 w = w / 1024 * 1024.
Proof.
  intros H. replace (Z.land 0xFC00 w) with (Z.shiftl (Z.shiftr w 10) 10).
  - rewrite Z.shiftl_mul_pow2, Z.shiftr_div_pow2 by lia. reflexivity.
  - apply Z.bits_inj'. intros n Hn. rewrite Z.land_spec.
    destruct (Z.lt_ge_cases n 10).
    + rewrite Z.shiftl_spec_low by lia. change 0xFC00 with (63 * 2^10). rewrite Z.mul_pow2_bits_low by lia. reflexivity.
    + rewrite Z.shiftl_spec, Z.shiftr_spec by lia. replace (n - 10 + 10) with n by lia.
      change 0xFC00 with (63 * 2^10). rewrite Z.mul_pow2_bits by lia.
      destruct (Z.lt_ge_cases n 16).
      * assert (n - 10 = 0 \/ n - 10 = 1 \/ n - 10 = 2 \/ n - 10 = 3 \/ n - 10 = 4 \/ n - 10 = 5) as D by lia.
        destruct D as [->|[->|[->|[->|[->| ->]]]]]; reflexivity.
      * replace w with (w mod 2^16) by (apply Z.mod_small; change (2^16) with 65536; lia).
        rewrite Z.mod_pow2_bits_high by lia. rewrite andb_false_r. reflexivity.
Qed.
Lemma isHi_iff w : 0 <= w < 65536 -> isHi w = (0xD800 <=? w) && (w <? 0xDC00).
Proof. intros H. unfold isHi. rewrite land_fc00 by assumption. lia. Qed.
Lemma isLo_iff w : 0 <= w < 65536 -> isLo w = (0xDC00 <=? w) && (w <? 0xE000).
Proof. intros H. unfold isLo. rewrite land_fc00 by assumption. lia. Qed.

Lemma toUTF16_flat cs : toUTF16 cs = flat_map utf16_w cs.
Proof. unfold toUTF16. rewrite fold_left_app_flat_map. reflexivity. Qed.

Lemma utf16len_length cs : utf16lenB cs = Z.of_nat (length (toUTF16 cs)).
Proof.
  rewrite toUTF16_flat. unfold utf16lenB. induction cs as [|c cs IH]; cbn [fold_left flat_map]; [reflexivity|].
  rewrite (fold_left_sum_app (fun c => 1 + (if 0xFFFF <? c then 1 else 0))), IH, app_length, Nat2Z.inj_add. f_equal.
  unfold utf16_w. destruct (Z.ltb_spec 0xFFFF c), (Z.leb_spec c 0xFFFF); try lia; reflexivity.
Qed.

Lemma list_pair_ind {A} (P : list A -> Prop) : P [] -> (forall a, P [a]) -> (forall a b t, P t -> P (b :: t) -> P (a :: b :: t)) -> forall l, P l.
Proof.
  intros H0 H1 H2 l. assert (P l /\ forall a, P (a :: l)) as [H _]; [|exact H].
  induction l as [|b l [IH1 IH2]]; split; auto.
Qed.

Lemma utf16_count_length s : utf16_count s = length (utf16Decode s).
Proof.
  induction s as [|a|a b t IH1 IH2] using list_pair_ind; [reflexivity|reflexivity|].
  change (utf16_count (a :: b :: t)) with (if isHi a && isLo b then S (utf16_count t) else S (utf16_count (b :: t))).
  change (utf16Decode (a :: b :: t)) with (if isHi a && isLo b then (0x10000 + Z.shiftl (a - 0xD800) 10 + (b - 0xDC00)) :: utf16Decode t else a :: utf16Decode (b :: t)).
  destruct (isHi a && isLo b); cbn [length]; congruence.
Qed.

Lemma utf16_w_small c : 0 <= c <= 0xFFFF -> utf16_w c = [c].
Proof. intros H. unfold utf16_w. destruct (Z.leb_spec c 0xFFFF); [|lia]. rewrite Z.mod_small by lia. reflexivity. Qed.
Lemma utf16_w_big c : 0xFFFF < c <= 0x10FFFF -> utf16_w c = [0xD800 + (c - 0x10000) / 1024; 0xDC00 + (c - 0x10000) mod 1024].
Proof.
  intros H. unfold utf16_w. destruct (Z.leb_spec c 0xFFFF); [lia|]. rewrite Z.shiftr_div_pow2 by lia.
  rewrite Z.land_comm. change 0x3FF with (2^10-1). rewrite land_ones_mod by lia. change (2^10) with 1024.
  rewrite !Z.mod_small by lia. f_equal; [lia|f_equal; lia].
Qed.

Lemma utf16_enc_dec s : Forall unit16 s -> toUTF16 (utf16Decode s) = s.
Proof.
  rewrite toUTF16_flat. induction s as [|a|a b t IH1 IH2] using list_pair_ind; intros H; [reflexivity| |].
  - inversion H; subst. cbn. rewrite utf16_w_small by (unfold unit16 in *; lia). reflexivity.
  - inversion H as [|? ? Ha Ht]; subst. inversion Ht as [|? ? Hb Ht']; subst. unfold unit16 in Ha, Hb.
    change (utf16Decode (a :: b :: t)) with (if isHi a && isLo b then (0x10000 + Z.shiftl (a - 0xD800) 10 + (b - 0xDC00)) :: utf16Decode t else a :: utf16Decode (b :: t)).
    rewrite isHi_iff, isLo_iff by assumption.
    destruct ((0xD800 <=? a) && (a <? 0xDC00) && ((0xDC00 <=? b) && (b <? 0xE000))) eqn:E; cbn [flat_map].
    + rewrite IH1 by assumption. rewrite Z.shiftl_mul_pow2 by lia. change (2^10) with 1024.
      rewrite utf16_w_big by lia. cbn [app].
      replace ((0x10000 + (a - 0xD800) * 1024 + (b - 0xDC00) - 0x10000) / 1024) with (a - 0xD800) by lia.
      replace ((0x10000 + (a - 0xD800) * 1024 + (b - 0xDC00) - 0x10000) mod 1024) with (b - 0xDC00) by lia.
      f_equal; [lia|f_equal; lia].
    + rewrite utf16_w_small by lia. cbn [app]. f_equal. apply IH2. assumption.
Qed.

Lemma utf16_dec_cons c cs : unichar c -> Forall unichar cs ->
  (forall b t, cs = b :: t -> ~ (0xD800 <= c <= 0xDBFF /\ 0xDC00 <= b <= 0xDFFF)) ->
  utf16Decode (utf16_w c ++ flat_map utf16_w cs) = c :: utf16Decode (flat_map utf16_w cs).
Proof.
  unfold unichar. intros Hc Hcs Hp. destruct (Z.le_gt_cases c 0xFFFF).
  - rewrite utf16_w_small by lia. cbn [app].
    destruct (flat_map utf16_w cs) as [|b t] eqn:E; [reflexivity|].
    change (utf16Decode (c :: b :: t)) with (if isHi c && isLo b then (0x10000 + Z.shiftl (c - 0xD800) 10 + (b - 0xDC00)) :: utf16Decode t else c :: utf16Decode (b :: t)).
    destruct cs as [|d cs]; [discriminate|]. inversion Hcs as [|? ? Hd _]; subst. unfold unichar in Hd. cbn [flat_map] in E.
    specialize (Hp d cs eq_refl).
    destruct (Z.le_gt_cases d 0xFFFF).
    + rewrite utf16_w_small in E by lia. cbn [app] in E. injection E as <- <-. rewrite isHi_iff, isLo_iff by lia.
      destruct ((0xD800 <=? c) && (c <? 0xDC00) && ((0xDC00 <=? d) && (d <? 0xE000))) eqn:B; [exfalso; lia|reflexivity].
    + rewrite utf16_w_big in E by lia. cbn [app] in E.
      assert (0xD800 <= 0xD800 + (d - 0x10000) / 1024 < 0xDC00) as Hd2 by lia.
      set (p := 0xD800 + (d - 0x10000) / 1024) in *. clearbody p. 
      assert (p = b) as -> by congruence. rewrite isHi_iff, isLo_iff by lia.
      destruct ((0xD800 <=? c) && (c <? 0xDC00) && ((0xDC00 <=? b) && (b <? 0xE000))) eqn:B; [exfalso; lia|reflexivity].
  - rewrite utf16_w_big by lia. cbn [app].
    set (a := 0xD800 + (c - 0x10000) / 1024). set (b := 0xDC00 + (c - 0x10000) mod 1024). set (t := flat_map utf16_w cs).
    change (utf16Decode (a :: b :: t)) with (if isHi a && isLo b then (0x10000 + Z.shiftl (a - 0xD800) 10 + (b - 0xDC00)) :: utf16Decode t else a :: utf16Decode (b :: t)).
    rewrite isHi_iff, isLo_iff by (subst a b; lia).
    destruct ((0xD800 <=? a) && (a <? 0xDC00) && ((0xDC00 <=? b) && (b <? 0xE000))) eqn:B; [|exfalso; subst a b; lia].
    f_equal. rewrite Z.shiftl_mul_pow2 by lia. change (2^10) with 1024. subst a b. lia.
Qed.

Lemma utf16_dec_enc cs : Forall unichar cs -> no_pair cs -> utf16Decode (toUTF16 cs) = cs.
Proof.
  rewrite toUTF16_flat. induction cs as [|c cs IH]; intros H Hp; [reflexivity|].
  inversion H as [|? ? Hc Hcs]; subst. cbn [flat_map]. rewrite utf16_dec_cons; [|assumption|assumption|].
  - f_equal. apply IH; [assumption|]. intros i a b Ha Hb. exact (Hp (S i) a b Ha Hb).
  - intros b t ->. exact (Hp 0%nat c b eq_refl eq_refl).
Qed.
