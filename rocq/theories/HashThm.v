(** C11: property theorems about hashing. *)
From Verif Require Import Base BitsModel BitsSpec TagModel TagSpec NumSpec ArrSpec DataSpec SqueezeModel SqueezeSpec SqueezeProof SqueezeThm MatchModel MatchSpec MatchProof MatchProof2 MatchThm HashModel HashSpec HashProof.

(** Two values that match have the same hash, whatever the element types they are stored with at any depth, the bits past the end of bit
    arrays, the mixing functions, the secret, and what the memory of temporary bit arrays held before; in particular 0 and -0. *)
Theorem C11_match_hash : forall cast, cast_ok cast -> forall wyhash64 wyhash s0 s1 s2 s3 nan0 j1 j2 w x,
  odata (erase w) -> odata (erase x) -> hflags_ok w -> hflags_ok x -> equal (erase w) (erase x) = Ok true ->
  exists h, bqn_hash cast wyhash64 wyhash s0 s1 s2 s3 nan0 j1 w = Ok h /\ bqn_hash cast wyhash64 wyhash s0 s1 s2 s3 nan0 j2 x = Ok h.
Proof.
  intros cast C y64 wy s0 s1 s2 s3 nan0 j1 j2 w x Dw Dx Fw Fx E. destruct (C16_match_exact _ _ Dw Dx) as (b&Eb&Hb). rewrite E in Eb. injection Eb as <-.
  destruct Hb as [Hb _]. destruct (Hb eq_refl) as [H1 H2]. exact (hash_ok cast C y64 wy s0 s1 s2 s3 nan0 j1 j2 w x Dw Dx Fw Fx H1 H2).
Qed.
Print Assumptions C11_match_hash.
(** The hash used by the tables is moreover never zero, provided that the last secret word is not. *)
Theorem C11_match_hashP : forall cast, cast_ok cast -> forall wyhash64 wyhash s0 s1 s2 s3 nan0 j1 j2 w x, s3 <> 0 ->
  odata (erase w) -> odata (erase x) -> hflags_ok w -> hflags_ok x -> equal (erase w) (erase x) = Ok true ->
  exists h, h <> 0 /\ bqn_hashP cast wyhash64 wyhash s0 s1 s2 s3 nan0 j1 w = Ok h /\ bqn_hashP cast wyhash64 wyhash s0 s1 s2 s3 nan0 j2 x = Ok h.
Proof.
  intros cast C y64 wy s0 s1 s2 s3 nan0 j1 j2 w x S3 Dw Dx Fw Fx E. destruct (C11_match_hash cast C y64 wy s0 s1 s2 s3 nan0 j1 j2 w x Dw Dx Fw Fx E) as (h&H1&H2).
  unfold bqn_hashP. rewrite H1, H2. cbn [bind]. eexists; split; [|split; reflexivity]. destruct (Z.eqb_spec h 0); auto.
Qed.
Print Assumptions C11_match_hashP.

(** Without the assumption that the cached flags are true the property fails, and such an array can be made: the list made by appending
    1 to [0⥊5] matches the list of a single 1, but the two are hashed with different seeds. *)
Definition to_h (a : arr) (n : Z) : hobj := HTyped {| h_sq := a_sq a; h_asc := a_asc a; h_dsc := a_dsc a |} [n] (a_et a) (a_els a).
Definition nofl := {| h_sq := false; h_asc := false; h_dsc := false |}.
Theorem C11_appended_empty_refuted : exists e a,
  reshape_one 0 (of_int 5) = Ok e /\ inplace_add 32 e (of_int 1) = Some a /\
  let w := to_h a 1 in let x := HBits nofl [1] [1] in
  odata (erase w) /\ odata (erase x) /\ equal (erase w) (erase x) = Ok true /\
  forall cast wyhash64 wyhash s0 s1 s2 s3 nan0 j,
    bqn_hash cast wyhash64 wyhash s0 s1 s2 s3 nan0 j w = Ok (wyhash [1] (wyhash64 1 1) [s0; s1; s2; s3]) /\
    bqn_hash cast wyhash64 wyhash s0 s1 s2 s3 nan0 j x = Ok (wyhash [1] (wyhash64 1 0) [s0; s1; s2; s3]).
Proof.
  eexists; eexists. split; [vm_compute; reflexivity|]. split; [vm_compute; reflexivity|]. cbv zeta.
  split; [|split; [|split; [vm_compute; reflexivity|]]].
  - cbn [erase to_h a_et a_els]. split; cbn [ovalid oden map].
    + repeat apply conj; try discriminate; try reflexivity. * repeat constructor; lia. * repeat constructor; cbn [raw_ok]; lia.
    + apply plain_arr. constructor; [|constructor]. left. right. eexists. reflexivity.
  - cbn [erase]. split. + repeat constructor; unfold prod; cbn; lia.
    + cbn [oden]. apply plain_arr. constructor; [|constructor]. left. right. eexists. reflexivity.
  - intros. split; vm_compute; reflexivity.
Qed.
Print Assumptions C11_appended_empty_refuted.

(** The list 1 0 1 four ways, and a nested array. *)
Definition hb := HBits nofl [3] [0xFFFFFFFFFFFFFFF5].
Definition h8 := HTyped nofl [3] EI8 [1; 0; 1].
Definition hf := HTyped nofl [3] EF64 [of_int 1; 2^63; of_int 1].
Definition hx := HBox nofl [3] [HAtom (of_int 1); HAtom 0; HAtom (of_int 1)].
Definition toy64 (a b : Z) := a * 1000003 + b.
Definition toy (l : list Z) (s : Z) (sec : list Z) := fold_left (fun h z => h * 31 + z) l s.
Definition toyhash := bqn_hash x86_cast toy64 toy 11 12 13 14 qnan (fun _ => true).
Example C11_example : toyhash hb = Ok (toy [5] (toy64 3 0) []) /\ toyhash h8 = toyhash hb /\ toyhash hf = toyhash hb /\ toyhash hx = toyhash hb /\
  toyhash (HBox nofl [2] [hb; HAtom (m_c32 97)]) = toyhash (HBox nofl [2] [hf; HAtom (m_c32 97)]).
Proof. vm_compute. auto 10. Qed.
Example C11_example_hyps : odata (erase hb) /\ odata (erase h8) /\ hflags_ok hb /\ hflags_ok h8 /\ equal (erase hb) (erase h8) = Ok true.
Proof. destruct C16_example_data as (D1&D2&_). split; [exact D1|]. split; [exact D2|]. split; [split; [discriminate|split; discriminate]|]. split; [split; [discriminate|split; discriminate]|vm_compute; reflexivity]. Qed.
