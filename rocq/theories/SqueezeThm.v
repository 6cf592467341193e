(** C14: property theorems about representation squeezing. *)
From Verif Require Import Base TagModel TagSpec NumSpec NumProof ArrSpec SqueezeModel SqueezeSpec SqueezeProof SqueezeProof2.

(** Squeezing any array whose cached flags are true keeps every element, gives an array whose flags are true,
    and a non-empty result has the smallest element type that holds all elements. *)
Theorem C14_squeeze_any : forall cast, cast_ok cast -> forall a, arr_ok a -> flags_ok a ->
  exists r, squeeze_any cast a = Ok r /\ values r = values a /\ arr_ok r /\ flags_ok r /\
    (a_els a <> [] -> smallest (a_et r) (values a)).
Proof. intros cast C a A F. destruct (squeeze_any_ok cast C a A F) as (r&R&(G1&G2&G3)&S). exists r. auto. Qed.
Print Assumptions C14_squeeze_any.

(** The number variants (used on results of arithmetic, and before operations on numbers) keep every element of every array,
    and choose the smallest type if all elements are numbers. *)
Theorem C14_squeeze_num : forall cast, cast_ok cast -> forall a, arr_ok a -> flags_ok a -> forall f, f = squeeze_numNew cast \/ f = squeeze_numTry cast ->
  exists r, f a = Ok r /\ values r = values a /\ arr_ok r /\ flags_ok r /\
    (Forall is_number (values a) -> a_els a <> [] -> smallest (a_et r) (values a)).
Proof.
  intros cast C a A F f Hf. destruct (squeeze_num_ok cast C a A F) as [(r&R&(G1&G2&G3)&S) (r'&R'&(G1'&G2'&G3')&S')].
  destruct Hf as [ -> | -> ]; [exists r|exists r']; auto.
Qed.
Print Assumptions C14_squeeze_num.

Theorem C14_squeeze_chr : forall a, arr_ok a -> flags_ok a -> forall f, f = squeeze_chrNew \/ f = squeeze_chrTry ->
  exists r, f a = Ok r /\ values r = values a /\ arr_ok r /\ flags_ok r /\
    (Forall is_char (values a) -> a_els a <> [] -> smallest (a_et r) (values a)).
Proof.
  intros a A F f Hf. destruct (squeeze_chr_ok a A F) as [(r&R&(G1&G2&G3)&S) (r'&R'&(G1'&G2'&G3')&S')].
  destruct Hf as [ -> | -> ]; [exists r|exists r']; auto.
Qed.
Print Assumptions C14_squeeze_chr.

(** Converting an array to any element type that can hold its elements keeps every element (cpy*Arr). *)
Theorem C14_convert : forall t a, arr_ok a -> Forall (fits t) (values a) ->
  exists r, cpy t a = Ok r /\ a_et r = t /\ values r = values a /\ arr_ok r.
Proof. intros t a A F. destruct (cpy_ok t a A F) as (l&E&V&O). exists (mk t l). auto. Qed.
Print Assumptions C14_convert.

(** A processor's conversion: the "integer indefinite" value outside of the range. *)
Definition x86_cast (w : Z) : Z := if is_nan w then -2147483648 else
  if (-2147483648 <=? ftrunc w) && (ftrunc w <=? 2147483647) then ftrunc w else -2147483648.
Lemma x86_cast_ok : cast_ok x86_cast.
Proof.
  intros w W. unfold x86_cast. destruct (is_nan w). { split; [lia|discriminate]. }
  destruct (Z.leb_spec (-2147483648) (ftrunc w)), (Z.leb_spec (ftrunc w) 2147483647); cbn [andb]; split; lia.
Qed.
Example C14_example_f64 :
  squeeze_any x86_cast (mk EF64 [of_int 3; of_int (-129); 2^63]) = Ok (set_sq (mk EI16 [3; -129; 0])).
Proof. vm_compute. reflexivity. Qed.
Example C14_example_hyps : let a := mk EF64 [of_int 3; of_int (-129); 2^63] in arr_ok a /\ flags_ok a /\ a_els a <> [].
Proof.
  cbv zeta. split; [|split; [split; [discriminate|split; discriminate]|discriminate]].
  assert (H : forall n, Z.abs n < 2^53 -> raw_ok EF64 (of_int n)) by (intros n Hn; destruct (of_int_den n Hn) as (W&_&S); split; auto).
  constructor; [apply H; lia|constructor; [apply H; lia|constructor; [|constructor]]]. split; [unfold word; lia|]. intros [[E _] _]. vm_compute in E. discriminate.
Qed.
Example C14_example_B : squeeze_any x86_cast (mk EB [m_c32 97; m_c32 0x1F600]) = Ok (set_sq (mk EC32 [97; 0x1F600]))
  /\ squeeze_any x86_cast (mk EB [m_c32 97; of_int 5]) = Ok (set_sq (mk EB [m_c32 97; of_int 5]))
  /\ squeeze_any x86_cast (mk EB [0x3FE0000000000000; of_int 5]) = Ok (set_sq (mk EF64 [0x3FE0000000000000; of_int 5])).
Proof. vm_compute. auto. Qed.
Example C14_example_sorted : squeeze_any x86_cast {| a_et := EI32; a_els := [-3; 5; 100]; a_sq := false; a_asc := true; a_dsc := false |}
  = Ok {| a_et := EI8; a_els := [-3; 5; 100]; a_sq := true; a_asc := true; a_dsc := false |}.
Proof. vm_compute. reflexivity. Qed.
