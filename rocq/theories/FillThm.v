(** C53: fills. The prototype of a value, the fill of an array, and attaching a fill. *)
From Verif Require Import Base TagModel TagSpec TagProof NumSpec NumProof ArrSpec SqueezeModel SqueezeSpec SqueezeProof SqueezeProof2 SqueezeThm HashModel FillModel FillSpec FillProof FillProof2.
From Verif Require PervModel PervSpec PervProof PervProof2 MonProof2 MonProof3.
From Coq Require Import List Lia.
Open Scope Z_scope.

(** The prototype of every value: it has the shape and nesting of the value, 0 for every number and a space for every
    character; there is none exactly when something else (a function, a namespace) is in it; the outermost
    array keeps its fill. The computation fails for no value. *)
Theorem C53_prototype : forall cast reuse squoze a, cast_ok cast -> wff a ->
  match asFill cast reuse squoze a with
  | Ok (Some r) => proto (tree_of a) (tree_of r) /\ fill_ok r /\ (is_array a -> is_array r /\ getFill r = getFill a)
  | Ok None => forall u, ~ proto (tree_of a) u
  | _ => False
  end.
Proof. intros cast reuse squoze a C W. exact (asFill_ok cast C reuse squoze a W). Qed.
Print Assumptions C53_prototype.

Lemma proto_fun : forall a b c, proto a b -> proto a c -> b = c.
Proof.
  fix IH 1. intros [v|sh l] b c P Q.
  - inversion P; subst; inversion Q; subst; try reflexivity; match goal with H : is_number (VChr _) |- _ => destruct H as [X|[x X]]; discriminate end.
  - inversion P as [| |? ? r1 F1]; inversion Q as [| |? ? r2 F2]; subst. f_equal. clear P Q. revert r1 r2 F1 F2. induction l as [|a l ID]; intros r1 r2 F1 F2; inversion F1; inversion F2; subst; [reflexivity|]. f_equal; [eapply IH; eassumption|apply ID; assumption].
Qed.
(** A prototype is its own prototype. *)
Theorem C53_prototype_of_prototype : forall cast reuse squoze a r, cast_ok cast -> wff a -> asFill cast reuse squoze a = Ok (Some r) ->
  exists s, asFill cast reuse squoze r = Ok (Some s) /\ tree_of s = tree_of r.
Proof.
  intros cast reuse squoze a r C W E. pose proof (C53_prototype cast reuse squoze a C W) as H. rewrite E in H. destruct H as (_ & F & _). pose proof (C53_prototype cast reuse squoze r C (fill_wff r F)) as H. pose proof (fill_proto r F) as P.
  destruct (asFill cast reuse squoze r) as [[s|]| |]; try contradiction; [|exfalso; exact (H _ P)]. exists s. split; [reflexivity|]. eapply proto_fun; [apply H|exact P].
Qed.
Print Assumptions C53_prototype_of_prototype.
(** Values that differ only in how they are stored have equal prototypes. *)
Theorem C53_storage_makes_no_difference : forall cast reuse squoze a b, cast_ok cast -> wff a -> wff b -> tree_of a = tree_of b ->
  option_map tree_of (match asFill cast reuse squoze a with Ok r => r | _ => None end) = option_map tree_of (match asFill cast reuse squoze b with Ok r => r | _ => None end).
Proof.
  intros cast reuse squoze a b C WA WB T. pose proof (C53_prototype cast reuse squoze a C WA) as HA. pose proof (C53_prototype cast reuse squoze b C WB) as HB. rewrite <- T in HB.
  destruct (asFill cast reuse squoze a) as [[r|]| |]; try contradiction; destruct (asFill cast reuse squoze b) as [[s|]| |]; try contradiction; cbn [option_map].
  - f_equal. eapply proto_fun; [apply HA|apply HB].
  - exfalso. exact (HB _ (proj1 HA)).
  - exfalso. exact (HA _ (proj1 HB)).
  - reflexivity.
Qed.
Print Assumptions C53_storage_makes_no_difference.

(** Comparing fills says whether they have equal values, whatever they are stored as. *)
Theorem C53_same_fill : forall a b, fill_ok a -> fill_ok b -> (fillEqual a b = true <-> tree_of a = tree_of b).
Proof. exact fillEqual_iff. Qed.
Print Assumptions C53_same_fill.

(** Attaching a fill changes no element, and the array then has a fill of the value asked for: that very fill, or
    the equal one that the array had before. *)
Theorem C53_with_fill : forall cast reuse squoze x f, cast_ok cast -> is_array x -> wff x -> fill_ok f ->
  exists r g, withFill cast reuse squoze x (Some f) = Ok r /\ tree_of r = tree_of x /\ wff r /\ is_array r /\
    getFill r = Some g /\ tree_of g = tree_of f /\ (g = f \/ getFill x = Some g).
Proof. intros cast reuse squoze x f C. exact (withFill_ok cast C reuse squoze x f). Qed.
Print Assumptions C53_with_fill.
(** Asking for no fill changes no element, and takes the fill of an array that is not stored as numbers or characters. *)
Theorem C53_without_fill : forall cast reuse squoze x, is_array x -> wff x ->
  exists r, withFill cast reuse squoze x None = Ok r /\ tree_of r = tree_of x /\ wff r /\ (getFill r = None \/ exists sh e l, x = Ty sh e l /\ r = x).
Proof.
  intros cast reuse squoze [|sh e l|sh d f] A W; [contradiction| |]; cbn [withFill]; eexists; (split; [reflexivity|]); (split; [reflexivity|]).
  - split; [exact W|right; eauto].
  - cbn [wff getFill] in *. tauto.
Qed.
Print Assumptions C53_without_fill.

Definition x86_cast (w : Z) : Z := let t := ftrunc w in if negb (is_nan w) && (-2147483648 <=? t) && (t <=? 2147483647) then t else -2147483648.
Lemma x86_cast_ok : cast_ok x86_cast.
Proof.
  intros w _. unfold x86_cast. destruct (is_nan w); cbn [negb andb]; [split; [lia|discriminate]|]. destruct (Z.leb_spec (-2147483648) (ftrunc w)), (Z.leb_spec (ftrunc w) 2147483647); cbn [andb]; split; intros; lia.
Qed.
Definition no (_ : fv) : bool := false.
(** It is not always the very fill: all empty arrays of a shape count as one fill. An empty list whose fill is an empty text,
    asked to take an empty list of numbers as its fill, keeps the text, so that the first
    element of its first element is a space instead of 0. *)
Theorem C53_exact_fill_refuted : exists x f r g, is_array x /\ wff x /\ fill_ok f /\
  withFill x86_cast no no x (Some f) = Ok r /\ getFill r = Some g /\ getFill f = Some (At 0) /\ getFill g = Some (At space).
Proof.
  exists (Bx [0%nat] [] (Some (Ty [0%nat] EC8 []))), (Ty [0%nat] EBit []), (Bx [0%nat] [] (Some (Ty [0%nat] EC8 []))), (Ty [0%nat] EC8 []).
  repeat split; try discriminate; try constructor.
Qed.
Print Assumptions C53_exact_fill_refuted.

(** The common fill of two arrays: there is one exactly when both have fills and these have equal values. *)
Theorem C53_common_fill : forall w x, wff w -> wff x -> is_array w -> is_array x ->
  match fill_both w x with
  | Some f => exists g, getFill w = Some g /\ getFill x = Some f /\ tree_of g = tree_of f
  | None => forall g f, getFill w = Some g -> getFill x = Some f -> tree_of g <> tree_of f
  end.
Proof.
  assert (G : forall a g, wff a -> is_array a -> getFill a = Some g -> fill_ok g).
  { intros [|sh e l|sh d f] g W A Q; [contradiction| |]; cbn [getFill wff] in *; [injection Q as <-; cbn [fill_ok]; destruct (elNum e); auto|subst f; tauto]. }
  intros w x W X AW AX. unfold fill_both. destruct (getFill w) as [g|] eqn:E; [|discriminate]. destruct (getFill x) as [f|] eqn:E'; [|discriminate].
  pose proof (fillEqual_iff g f (G w g W AW E) (G x f X AX E')) as H. destruct (fillEqual g f).
  - exists g. split; [reflexivity|]. split; [reflexivity|]. apply H. reflexivity.
  - intros g' f' Q Q' T. injection Q as <-. injection Q' as <-. apply H in T. discriminate.
Qed.
Print Assumptions C53_common_fill.

(** An array of one element: it holds the value given, and its fill is the prototype of the value. *)
Lemma one_num cast reuse squoze w sh : cast_ok cast -> size sh = 1%nat -> raw_ok EB w -> isF64 w = true -> is_number (den w) ->
  exists e z, m_oneItem cast reuse squoze (At w) sh = Ok (Ty sh e [z]) /\ vof e z = den w /\ raw_ok e z /\ elNum e = true.
Proof.
  intros C S W F N. cbn [m_oneItem]. rewrite F. destruct W as [WD _]. destruct (C w WD) as [CR _]. unfold i32_ne_f.
  destruct (is_nan w) eqn:NN; cbn [orb].
  - exists EF64, w. split; [reflexivity|]. split; [reflexivity|]. split; [|reflexivity]. split; [exact WD|]. intros X. apply snan_dec in X. destruct X as [_ X]. unfold den in N. rewrite NN in N. destruct (Z.leb_spec (2 ^ 51) (fraction w)); [lia|]. destruct (w / 2 ^ 48 =? 0x7FF1); destruct N as [Y|[y Y]]; discriminate.
  - destruct (Z.eqb_spec (cast w * one) (fval w)) as [E|E]; cbn [negb].
    + assert (D : forall z, z = cast w -> VNum (z * one) = den w) by (intros z ->; unfold den; rewrite NN; congruence).
      destruct (Z.eqb_spec (cast w) 0) as [Z0|Z0]; cbn [orb]; [exists EBit, (cast w); repeat split; cbn [vof raw_ok]; auto; lia|].
      destruct (Z.eqb_spec (cast w) 1) as [Z1|Z1]; cbn [orb]; [exists EBit, (cast w); repeat split; cbn [vof raw_ok]; auto; lia|].
      destruct (Z.eqb_spec (cast w) (to_s 8 (cast w))) as [B|B]; [pose proof (MonProof2.to_s_in 8 (cast w) ltac:(lia)) as R; change (2 ^ (8 - 1)) with 128 in R; exists EI8, (cast w); repeat split; cbn [vof raw_ok]; auto; lia|].
      destruct (Z.eqb_spec (cast w) (to_s 16 (cast w))) as [B'|B']; [pose proof (MonProof2.to_s_in 16 (cast w) ltac:(lia)) as R; change (2 ^ (16 - 1)) with 32768 in R; exists EI16, (cast w); repeat split; cbn [vof raw_ok]; auto; lia|].
      exists EI32, (cast w). repeat split; cbn [vof raw_ok]; auto; lia.
    + exists EF64, w. split; [reflexivity|]. split; [reflexivity|]. split; [|reflexivity]. split; [exact WD|]. intros X. apply snan_dec in X. destruct X as [X _]. congruence.
Qed.
Theorem C53_one_item : forall cast reuse squoze x sh, cast_ok cast -> wff x -> size sh = 1%nat ->
  exists r, m_oneItem cast reuse squoze x sh = Ok r /\ tree_of r = TN sh [tree_of x] /\ wff r /\
    match getFill r with Some g => proto (tree_of x) (tree_of g) | None => forall u, ~ proto (tree_of x) u end.
Proof.
  intros cast reuse squoze x sh C W S. assert (K : is_array x -> exists r, (do f <- asFill cast reuse squoze x; Ok (Bx sh [x] f)) = Ok r /\ tree_of r = TN sh [tree_of x] /\ wff r /\ match getFill r with Some g => proto (tree_of x) (tree_of g) | None => forall u, ~ proto (tree_of x) u end).
  { intros _. pose proof (C53_prototype cast reuse squoze x C W) as H. destruct (asFill cast reuse squoze x) as [[f|]| |]; try contradiction; cbn [bind]; eexists; (split; [reflexivity|]); (split; [reflexivity|]); cbn [getFill wff length]; (split; [|tauto]); rewrite S; tauto. }
  destruct x as [w|sh' e l|sh' d f]; [|exact (K Logic.I)|exact (K Logic.I)]. clear K. cbn [wff] in W. pose proof W as [WD _]. destruct (den_cases w WD) as [(F & _ & N)|[(F & CC & D)|(F & CC & D)]].
  - destruct (one_num cast reuse squoze w sh C S W F N) as (e & z & Q & V & R & EN). exists (Ty sh e [z]). split; [exact Q|]. split; [cbn [tree_of map]; rewrite V; reflexivity|]. split; [cbn [wff length]; split; [destruct e; discriminate|]; split; [congruence|constructor; [exact R|constructor]]|].
    cbn [getFill tree_of]. rewrite EN. cbn [tree_of]. rewrite den_0. constructor. exact N.
  - destruct (conv1_ok EB EC32 w W) as (y & Q & V & R); [cbn [vof fits]; eauto|]. cbn [conv1] in Q. injection Q as Q. cbn [vof] in V. cbn [raw_ok] in R. cbn [m_oneItem]. rewrite F, CC, Q.
    assert (Y : forall k, k = 8 \/ k = 16 -> y = to_u k y -> 0 <= y < 2 ^ k) by (intros k K E; rewrite E; unfold to_u; apply Z.mod_pos_bound; destruct K as [ -> | -> ]; reflexivity).
    assert (G : exists e, elNum e = false /\ e <> EB /\ raw_ok e y /\ vof e y = den w /\ (if y =? to_u 8 y then Ty sh EC8 [y] else if y =? to_u 16 y then Ty sh EC16 [y] else Ty sh EC32 [y]) = Ty sh e [y]).
    { destruct (Z.eqb_spec y (to_u 8 y)) as [B|B]; [|destruct (Z.eqb_spec y (to_u 16 y)) as [B'|B']].
      - exists EC8. apply Y in B; [|auto]. change (2 ^ 8) with 256 in B. repeat split; try discriminate; auto; cbn [raw_ok]; lia.
      - exists EC16. apply Y in B'; [|auto]. change (2 ^ 16) with 65536 in B'. repeat split; try discriminate; auto; cbn [raw_ok]; lia.
      - exists EC32. repeat split; try discriminate; auto; cbn [raw_ok]; lia. }
    destruct G as (e & EN & NB & RE & VE & GE). rewrite GE. eexists. split; [reflexivity|]. cbn [tree_of map]. rewrite VE. split; [reflexivity|]. split; [cbn [wff length]; split; [exact NB|]; split; [congruence|constructor; [exact RE|constructor]]|].
    cbn [getFill]. rewrite EN. cbn [tree_of]. rewrite den_space, D. constructor.
  - cbn [m_oneItem]. rewrite F, CC. eexists. split; [reflexivity|]. split; [reflexivity|]. cbn [wff getFill length]. split; [rewrite S; tauto|]. intros u P. cbn [tree_of] in P. rewrite D in P. inversion P as [v NV|n|]; subst. destruct NV as [X|[x X]]; discriminate.
Qed.
Print Assumptions C53_one_item.

(** The empty list made from an array has the fill of the array. *)
Theorem C53_empty : forall x, is_array x -> wff x -> exists r, emptyVec x = Ok r /\ tree_of r = TN [0%nat] [] /\ wff r /\ getFill r = getFill x.
Proof.
  intros [|sh e l|sh d f] A W; [contradiction| |]; cbn [emptyVec].
  - eexists. split; [reflexivity|]. cbn [getFill]. destruct (elNum e); cbn [tree_of map wff length size fold_right getFill elNum PervModel.elNum]; repeat split; try discriminate; constructor.
  - cbn [wff] in W. destruct W as (_ & _ & FF). eexists. split; [reflexivity|]. destruct f as [g|]; [|repeat split].
    destruct (numFill g) eqn:NF; [rewrite (num_at g NF); repeat split; try discriminate; constructor|]. destruct (chrFill g) eqn:CF; [rewrite (chr_at g FF CF); repeat split; try discriminate; constructor|]. repeat split. exact FF.
Qed.
Print Assumptions C53_empty.

(** The same for every shape without elements, and for a fill given instead of an array. *)
Theorem C53_empty_with_fill : forall f sh, size sh = 0%nat -> match f with Some g => fill_ok g | None => True end ->
  tree_of (emptyWithFill f sh) = TN sh [] /\ wff (emptyWithFill f sh) /\ is_array (emptyWithFill f sh) /\ getFill (emptyWithFill f sh) = f.
Proof.
  intros [g|] sh S FF; cbn [emptyWithFill]; [|cbn [wff length]; rewrite S; repeat split].
  destruct (numFill g) eqn:NF; [rewrite (num_at g NF); cbn [wff length]; rewrite S; repeat split; try discriminate; constructor|]. destruct (chrFill g) eqn:CF; [rewrite (chr_at g FF CF); cbn [wff length]; rewrite S; repeat split; try discriminate; constructor|].
  cbn [wff length]. rewrite S. repeat split. exact FF.
Qed.
Print Assumptions C53_empty_with_fill.
Theorem C53_empty_any_shape : forall x sh, is_array x -> wff x -> size sh = 0%nat ->
  exists r, emptyArr x sh = Ok r /\ tree_of r = TN sh [] /\ wff r /\ is_array r /\ getFill r = getFill x.
Proof.
  intros x sh A W S. assert (G : match getFill x with Some g => fill_ok g | None => True end) by (destruct x as [|sh' e l|sh' d f]; [contradiction| |apply W]; cbn [getFill]; destruct (elNum e); cbn [fill_ok]; auto).
  assert (E : emptyArr x sh = if (length sh =? 1)%nat then emptyVec x else Ok (emptyWithFill (getFill x) sh)) by (destruct x; [contradiction| |]; reflexivity). rewrite E. destruct (Nat.eqb_spec (length sh) 1) as [L|L].
  - destruct sh as [|n [|m sh]]; try discriminate. assert (N : n = 0%nat) by (cbn in S; lia). subst n. destruct (C53_empty x A W) as (r & Q & T & WR & GR). exists r. repeat split; try assumption. destruct r; [discriminate| |]; exact Logic.I.
  - destruct (C53_empty_with_fill (getFill x) sh S G) as (T & WR & AR & GR). eauto 8.
Qed.
Print Assumptions C53_empty_any_shape.

(** ** Concrete cases *)
Example empty_table : emptyArr (Bx [1%nat] [Ty [2%nat] EC8 [97; 98]] (Some (Ty [2%nat] EC8 [32; 32]))) [0%nat; 3%nat] = Ok (Bx [0%nat; 3%nat] [] (Some (Ty [2%nat] EC8 [32; 32]))).
Proof. vm_compute. reflexivity. Qed.
(** ⟨3, "ab", ⟨1.5, 'x'⟩⟩ with no fill *)
Definition nested : fv := Bx [3%nat] [At (of_int 3); Ty [2%nat] EC8 [97; 98]; Bx [2%nat] [At 0x3FF8000000000000; At (m_c32 120)] None] None.
Lemma raw_dec w : ((0 <=? w) && (w <? 2 ^ 64) && match den w with VChr n => n <? 1114112 | _ => true end)%bool = true -> raw_ok EB w.
Proof. intros H. apply andb_true_iff in H. destruct H as [H K]. apply andb_true_iff in H. destruct H as [H1 H2]. split; [unfold word; lia|]. intros n E. rewrite E in K. lia. Qed.
Example nested_wff : wff nested.
Proof.
  cbn [nested wff]. split; [reflexivity|]. split; [|exact Logic.I]. split; [apply raw_dec; vm_compute; reflexivity|]. split; [split; [discriminate|]; split; [reflexivity|repeat constructor; cbn; lia]|].
  split; [|exact Logic.I]. split; [reflexivity|]. split; [|exact Logic.I]. split; [apply raw_dec; vm_compute; reflexivity|]. split; [apply raw_dec; vm_compute; reflexivity|exact Logic.I].
Qed.
Example nested_proto : asFill x86_cast no no nested = Ok (Some (Bx [3%nat] [At 0; Ty [2%nat] EC8 [32; 32]; Bx [2%nat] [At 0; At space] None] None)).
Proof. vm_compute. reflexivity. Qed.
Example boxes_fill : withFill x86_cast no no (Bx [2%nat] [At (of_int 3); At (of_int 300)] None) (Some (At 0)) = Ok (Ty [2%nat] EI16 [3; 300]).
Proof. vm_compute. reflexivity. Qed.
Example text_number_fill : withFill x86_cast no no (Ty [2%nat] EC8 [97; 98]) (Some (At 0)) = Ok (Bx [2%nat] [At (m_c32 97); At (m_c32 98)] (Some (At 0))).
Proof. vm_compute. reflexivity. Qed.
Example same_stored_otherwise : fillEqual (Ty [2%nat] EI32 [0; 0]) (Bx [2%nat] [At 0; At 0] None) = true /\ fillEqual (Ty [1%nat] EBit [0]) (Ty [1%nat] EC8 [32]) = false.
Proof. vm_compute. auto. Qed.
Example enclosed_text : m_oneItem x86_cast no no (Ty [2%nat] EC8 [97; 98]) [] = Ok (Bx [] [Ty [2%nat] EC8 [97; 98]] (Some (Ty [2%nat] EC8 [32; 32]))).
Proof. vm_compute. reflexivity. Qed.
