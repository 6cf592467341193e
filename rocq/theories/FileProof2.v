(** Reading, writing and paths *)
From Verif Require Import Base SqueezeModel UtfModel UtfSpec UtfProof FileModel FileSpec FileProof.
From Coq Require Import List Lia.
Open Scope nat_scope.
Lemma stream_ok SZ : 0 < SZ -> forall fuel rest acc, length rest < fuel -> stream SZ fuel rest acc = Ok (acc ++ rest).
Proof.
  intros SP. induction fuel as [|fuel IH]; intros rest acc L; [lia|]. cbn [stream]. destruct rest as [|c rest]; [rewrite firstn_nil, app_nil_r; reflexivity|]. destruct SZ as [|n]; [lia|]. cbn [firstn skipn]. rewrite IH by (rewrite skipn_length; cbn [length] in L; lia). rewrite <- app_assoc. cbn [app]. rewrite firstn_skipn. reflexivity.
Qed.
Lemma bytes_read e f p b : holds f p b -> readable e b -> path_bytes e f p = Ok b.
Proof.
  intros H [O G]. unfold path_bytes. rewrite H, O. cbn [negb]. destruct (r_seeks e).
  - rewrite Nat.min_r, Nat.eqb_refl by exact G. reflexivity.
  - rewrite firstn_all2 by exact G. rewrite stream_ok by lia. reflexivity.
Qed.
Lemma mapM_split {A B} (g : A -> res B) : forall l, match mapM g l with Ok r => Forall2 (fun a c => g a = Ok c) l r | Err => exists a, In a l /\ g a = Err | UB => exists a, In a l /\ g a = UB end.
Proof.
  induction l as [|a l IH]; cbn [mapM]; [constructor|]. destruct (g a) eqn:E; cbn [bind]; [|exists a; split; [left; reflexivity|exact E]..]. destruct (mapM g l); cbn [bind]; [constructor; assumption|destruct IH as (x & I & X); exists x; split; [right; exact I|exact X]..].
Qed.
Lemma lines_bytes b ls : lines b ls -> bytes b -> Forall bytes ls.
Proof. unfold bytes. induction 1; intros B; try constructor; auto; apply Forall_app in B; destruct B as [B1 B2]; auto; apply Forall_app in B2; apply IHlines; tauto. Qed.
(** ** Text *)
Lemma enc1_plain c : codept c -> is_eol c = false -> plain (enc1 c).
Proof.
  intros [C1 C2] E. apply eol_plain. unfold enc1. assert (H : forall z, (128 <= z)%Z -> is_eol z = false) by (intros z H; unfold is_eol; rewrite (proj2 (Z.eqb_neq z 10)), (proj2 (Z.eqb_neq z 13)) by lia; reflexivity).
  pose proof (Z.mod_pos_bound c 64). pose proof (Z.mod_pos_bound (c / 64) 64). pose proof (Z.mod_pos_bound (c / 4096) 64). assert (0 <= c / 64)%Z by (apply Z.div_pos; lia). assert (0 <= c / 4096)%Z by (apply Z.div_pos; lia). assert (0 <= c / 262144)%Z by (apply Z.div_pos; lia).
  destruct (c <? 128)%Z; [repeat constructor; exact E|]. destruct (c <? 2048)%Z; [repeat constructor; apply H; lia|]. destruct (c <? 65536)%Z; repeat constructor; apply H; lia.
Qed.
Lemma enc_plain l : Forall codept l -> plain l -> plain (enc l).
Proof. intros C P. apply eol_plain in P. apply eol_plain. unfold enc. induction C as [|c l H C IH]; [constructor|]. inversion P; subst. cbn [flat_map]. apply Forall_app. split; [apply eol_plain, enc1_plain; assumption|apply IH; assumption]. Qed.
Lemma enc_app a b : enc (a ++ b) = enc a ++ enc b.
Proof. unfold enc. apply flat_map_app. Qed.
Lemma lines_enc cs ls : lines cs ls -> Forall codept cs -> lines (enc cs) (map enc ls).
Proof.
  induction 1 as [|l P NE|l b ls P H IH|l b ls P H IH|l b ls P NE H IH]; intros C; cbn [map].
  - constructor.
  - apply l_last; [apply enc_plain; assumption|]. destruct l as [|c l]; [congruence|]. unfold enc. cbn [flat_map]. destruct (enc1_cons c) as (d & t & ->). discriminate.
  - apply Forall_app in C. destruct C as [C1 C2]. apply Forall_app in C2. destruct C2 as [_ C2]. rewrite !enc_app. apply (l_lf (enc l)); [apply enc_plain; assumption|auto].
  - apply Forall_app in C. destruct C as [C1 C2]. apply Forall_app in C2. destruct C2 as [_ C2]. rewrite !enc_app. apply (l_crlf (enc l)); [apply enc_plain; assumption|auto].
  - apply Forall_app in C. destruct C as [C1 C2]. apply Forall_app in C2. destruct C2 as [_ C2]. rewrite !enc_app. apply (l_cr (enc l)); [apply enc_plain; assumption| |auto].
    destruct b as [|d b]; [discriminate|]. cbn [hd_error] in NE. inversion C2 as [|? ? CD _]; subst. unfold enc. cbn [flat_map]. intros Q. assert (Q' : hd_error (enc1 d) = Some 10%Z) by (destruct (enc1_cons d) as (x & t & E); rewrite E in *; exact Q). clear Q. destruct CD as [D1 D2]. unfold enc1 in Q'.
    assert (0 <= d / 64)%Z by (apply Z.div_pos; lia). assert (0 <= d / 4096)%Z by (apply Z.div_pos; lia). assert (0 <= d / 262144)%Z by (apply Z.div_pos; lia). destruct (d <? 128)%Z; [cbn [hd_error] in Q'; congruence|]. destruct (d <? 2048)%Z; [|destruct (d <? 65536)%Z]; cbn [hd_error] in Q'; apply (f_equal (fun o => match o with Some z => z | None => 0%Z end)) in Q'; cbv beta iota in Q'; lia.
Qed.
Lemma decode_all ls : Forall (Forall codept) ls -> mapM utf8Decode (map enc ls) = Ok ls.
Proof. induction 1 as [|l ls C F IH]; [reflexivity|]. cbn [map mapM]. rewrite decode_enc by exact C. cbn [bind]. rewrite IH. reflexivity. Qed.
Lemma lines_codept cs ls : lines cs ls -> Forall codept cs -> Forall (Forall codept) ls.
Proof. induction 1; intros B; try constructor; auto; apply Forall_app in B; destruct B as [B1 B2]; auto; apply Forall_app in B2; apply IHlines; tauto. Qed.
(** ** Writing *)
Lemma set_same f p b : set f p b p = Some b.
Proof. unfold set. destruct (list_eq_dec Z.eq_dec p p); congruence. Qed.
Lemma set_other f p b : others f (set f p b) p.
Proof. intros q N. unfold set. destruct (list_eq_dec Z.eq_dec q p); congruence. Qed.
Lemma write_ok e f p b : let (g, r) := write e f p b in others f g p /\ (r = Ok tt \/ r = Err) /\ (r = Ok tt -> flushed e -> holds g p b).
Proof.
  unfold write. destruct (w_opens e); [|split; [intros q _; reflexivity|split; [right; reflexivity|discriminate]]]. split; [apply set_other|]. destruct (Nat.eqb_spec (Nat.min (w_accepted e) (length b)) (length b)) as [E|NE]; [|split; [right; reflexivity|discriminate]]. split; [left; reflexivity|]. intros _ F. unfold holds. rewrite set_same, firstn_all2; [reflexivity|]. unfold flushed in F. lia.
Qed.
Lemma mapM_C cs : mapM o2c (map C cs) = Ok cs.
Proof. induction cs as [|c cs IH]; [reflexivity|]. cbn [map mapM o2c bind]. rewrite IH. reflexivity. Qed.
Lemma wChars_text e f p cs : Forall codept cs -> path_wChars e f p (map C cs) = write e f p (enc cs).
Proof. intros H. unfold path_wChars. rewrite mapM_C. rewrite utf8len_length, Z.eqb_refl, toUTF8_enc by exact H. reflexivity. Qed.
Lemma join_ok : forall ls s, join_lines (map (fun l => Some (map C l)) ls) (map C s) = Ok (map C (s ++ flat_map (fun l => l ++ [10%Z]) ls)).
Proof. induction ls as [|l ls IH]; intros s; cbn [map join_lines flat_map]; [rewrite app_nil_r; reflexivity|]. change [C 10%Z] with (map C [10%Z]). rewrite <- !map_app, IH, !app_assoc. reflexivity. Qed.
Lemma joined_lines ls : Forall plain ls -> lines (flat_map (fun l => l ++ [10%Z]) ls) ls.
Proof. induction 1 as [|l ls P F IH]; cbn [flat_map]; [constructor|]. rewrite <- app_assoc. apply l_lf; assumption. Qed.
(** ** Paths *)
Lemma last_sep_ok p : forall i, i <= length p -> (last_sep p i = Ok None /\ noslash (firstn i p)) \/ exists a b, firstn i p = a ++ 47%Z :: b /\ noslash b /\ last_sep p i = Ok (Some (length a)).
Proof.
  induction i as [|i IH]; intros L; [left; split; [reflexivity|intros []]|]. cbn [last_sep]. destruct (nth_error p i) as [c|] eqn:E; [|apply nth_error_None in E; lia]. assert (F : firstn (S i) p = firstn i p ++ [c]) by (clear - E; revert i E; induction p as [|a p IHp]; intros [|i] E; cbn [nth_error] in E; try discriminate; [inversion E; reflexivity|]; cbn [firstn app]; f_equal; apply IHp; exact E).
  unfold rd. rewrite E. cbn [bind]. unfold isSep. destruct (Z.eqb_spec c 47) as [->|NC].
  - right. exists (firstn i p), []. split; [exact F|]. split; [intros []|]. rewrite firstn_length, Nat.min_l by lia. reflexivity.
  - destruct IH as [[E' N]|(a & b & E' & N & Q)]; [lia| |].
    + left. split; [exact E'|]. rewrite F. intros I. apply in_app_or in I. destruct I as [I|[I|[]]]; [exact (N I)|congruence].
    + right. exists a, (b ++ [c]). split; [rewrite F, E', <- app_assoc; reflexivity|]. split; [|exact Q]. intros I. apply in_app_or in I. destruct I as [I|[I|[]]]; [exact (N I)|congruence].
Qed.
Lemma slash_cut a b a' b' : noslash b -> noslash b' -> a ++ 47%Z :: b = a' ++ 47%Z :: b' -> a = a' /\ b = b'.
Proof.
  revert a'. induction a as [|x a IH]; intros [|x' a'] N N' Q; cbn [app] in Q; pose proof (f_equal (@tl Z) Q) as Q2; pose proof (f_equal (fun l => hd 0%Z l) Q) as Q1; cbn [tl hd] in Q1, Q2.
  - auto.
  - exfalso. apply N. rewrite Q2. apply in_or_app. right. left. reflexivity.
  - exfalso. apply N'. rewrite <- Q2. apply in_or_app. right. left. reflexivity.
  - destruct (IH a' N N' Q2) as [-> ->]. subst x'. auto.
Qed.
Lemma last_sep_at a b : noslash b -> forall i r, i = length a + 1 + length b -> last_sep (a ++ 47%Z :: b ++ r) i = Ok (Some (length a)).
Proof.
  intros N i r ->. destruct (last_sep_ok (a ++ 47%Z :: b ++ r) (length a + 1 + length b)) as [[_ X]|(a' & b' & E & N' & Q)]; [rewrite app_length; cbn [length]; rewrite app_length; lia| |].
  - exfalso. apply X. replace (a ++ 47%Z :: b ++ r) with ((a ++ 47%Z :: b) ++ r) by (rewrite <- app_assoc; reflexivity). rewrite firstn_app, firstn_all2 by (rewrite app_length; cbn [length]; lia). apply in_or_app. left. apply in_or_app. right. left. reflexivity.
  - replace (a ++ 47%Z :: b ++ r) with ((a ++ 47%Z :: b) ++ r) in E by (rewrite <- app_assoc; reflexivity). rewrite firstn_app, firstn_all2 in E by (rewrite app_length; cbn [length]; lia). replace (length a + 1 + length b - length (a ++ 47%Z :: b)) with 0 in E by (rewrite app_length; cbn [length]; lia). cbn [firstn] in E. rewrite app_nil_r in E. apply slash_cut in E; auto. destruct E as [-> _]. exact Q.
Qed.
Lemma last_sep_none b r : noslash b -> last_sep (b ++ r) (length b) = Ok None.
Proof.
  intros N. destruct (last_sep_ok (b ++ r) (length b)) as [[Q _]|(a' & b' & E & _ & _)]; [rewrite app_length; lia|exact Q|]. exfalso. apply N. rewrite firstn_app, Nat.sub_diag, firstn_all in E. cbn [firstn] in E. rewrite app_nil_r in E. rewrite E. apply in_or_app. right. left. reflexivity.
Qed.
