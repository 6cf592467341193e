(** C51: files hold what was written and are read back exactly; lines and paths are split exactly *)
From Verif Require Import Base SqueezeModel UtfModel UtfSpec UtfProof FileModel FileSpec FileProof FileProof2.
From Coq Require Import List Lia.
Open Scope nat_scope.
(** ** Reading *)
(** A file that can be read is read whole, in one piece or, where its length is not known, 8192 bytes at a time. *)
Theorem C51_bytes_read : forall e f p b, holds f p b -> readable e b -> path_bytes e f p = Ok b.
Proof. exact bytes_read. Qed.
Print Assumptions C51_bytes_read.
(** The lines of any file are the ones the line ends give, which are unique, decoded one by one; nothing outside of the file is read. *)
Theorem C51_lines_read : forall e f p b, holds f p b -> readable e b -> bytes b -> exists ls, lines b ls /\ (forall ls', lines b ls' -> ls' = ls) /\
  match path_lines e f p with Ok r => Forall2 (fun l cs => utf8Decode l = Ok cs) ls r | Err => exists l, In l ls /\ utf8Decode l = Err | UB => False end.
Proof.
  intros e f p b H R B. destruct (lines_exist (length b) b (le_n _)) as [ls L]. exists ls. split; [exact L|]. split; [intros ls' L'; symmetry; eapply lines_unique; eassumption|]. unfold path_lines. rewrite (bytes_read e f p b H R). cbn [bind]. rewrite (split_ok b ls L). pose proof (mapM_split utf8Decode ls) as M. destruct (mapM utf8Decode ls); [exact M|exact M|].
  destruct M as (l & I & E). pose proof (lines_bytes b ls L B) as F. rewrite Forall_forall in F. destruct (decode_total l (F l I)) as [(cs & E' & _)|[E' _]]; congruence.
Qed.
Print Assumptions C51_lines_read.
(** Of a file that holds a text, the lines are those of the text. *)
Theorem C51_lines_of_text : forall e f p cs, Forall codept cs -> holds f p (enc cs) -> readable e (enc cs) -> exists ls, lines cs ls /\ path_lines e f p = Ok ls.
Proof.
  intros e f p cs H F R. destruct (lines_exist (length cs) cs (le_n _)) as [ls L]. exists ls. split; [exact L|]. unfold path_lines. rewrite (bytes_read e f p _ F R). cbn [bind]. rewrite (split_ok _ _ (lines_enc cs ls L H)). apply decode_all. eapply lines_codept; eassumption.
Qed.
Print Assumptions C51_lines_of_text.
(** ** Writing *)
(** Text written is read back, the file holds its UTF-8 and nothing else, and other files stay; provided that closing the file stores what was written to it. *)
Theorem C51_text_roundtrip_partial : forall e f p cs, Forall codept cs -> let (g, r) := path_wChars e f p (map C cs) in
  others f g p /\ (r = Ok tt \/ r = Err) /\ (r = Ok tt -> flushed e -> holds g p (enc cs) /\ forall e', readable e' (enc cs) -> path_chars e' g p = Ok cs).
Proof.
  intros e f p cs H. rewrite wChars_text by exact H. pose proof (write_ok e f p (enc cs)) as W. destruct (write e f p (enc cs)) as [g r]. destruct W as (W1 & W2 & W3). split; [exact W1|]. split; [exact W2|]. intros E F. specialize (W3 E F). split; [exact W3|]. intros e' R. unfold path_chars. rewrite (bytes_read e' g p _ W3 R). cbn [bind]. apply decode_enc. exact H.
Qed.
Print Assumptions C51_text_roundtrip_partial.
(** Lines written, of characters other than carriage return and line feed, are the lines read. *)
Theorem C51_lines_roundtrip_partial : forall e f p ls, Forall (Forall codept) ls -> Forall plain ls -> let (g, r) := path_wLines e f p (map (fun l => Some (map C l)) ls) in
  others f g p /\ (r = Ok tt \/ r = Err) /\ (r = Ok tt -> flushed e -> forall e', r_opens e' = true -> (forall b, g p = Some b -> length b <= r_got e') -> path_lines e' g p = Ok ls).
Proof.
  intros e f p ls H P. unfold path_wLines. pose proof (join_ok ls []) as J. cbn [map app] in J. rewrite J. set (t := flat_map (fun l => l ++ [10%Z]) ls). assert (CT : Forall codept t). { unfold t. clear - H. induction H as [|l ls C F IH]; cbn [flat_map]; [constructor|]. rewrite <- app_assoc. apply Forall_app. split; [exact C|]. apply Forall_app. split; [repeat constructor; unfold codept; lia|exact IH]. }
  rewrite wChars_text by exact CT. pose proof (write_ok e f p (enc t)) as W. destruct (write e f p (enc t)) as [g r]. destruct W as (W1 & W2 & W3). split; [exact W1|]. split; [exact W2|]. intros E F e' O R. specialize (W3 E F). unfold path_lines. rewrite (bytes_read e' g p _ W3) by (split; [exact O|apply R; exact W3]). cbn [bind]. rewrite (split_ok _ _ (lines_enc t ls (joined_lines ls P) CT)). apply decode_all. exact H.
Qed.
Print Assumptions C51_lines_roundtrip_partial.
(** Something that is not a character is an error and no file is changed. *)
Theorem C51_not_text : forall e f p x, (exists a, In a x /\ forall c, a <> C c) -> path_wChars e f p x = (f, Err).
Proof.
  intros e f p x (a & I & N). unfold path_wChars. replace (mapM o2c x) with (@Err (list Z)); [reflexivity|]. symmetry. induction x as [|y x IH]; [destruct I|]. cbn [mapM]. destruct I as [->|I].
  - destruct a as [c| |]; [destruct (N c eq_refl)|reflexivity..].
  - destruct y as [c| |]; [|reflexivity..]. cbn [o2c bind]. rewrite IH by exact I. reflexivity.
Qed.
Print Assumptions C51_not_text.
(** Bytes written as characters below 256 or numbers from ¯128 to 255 are the ones in the file, whichever way the list is stored. *)
Theorem C51_bytes_roundtrip_partial : forall e f p direct x bs, Forall2 as_byte x bs -> let (g, r) := path_wBytes e f p direct x in
  others f g p /\ (r = Ok tt \/ r = Err) /\ (r = Ok tt -> flushed e -> holds g p bs).
Proof.
  intros e f p direct x bs H. assert (G : get_chars direct x = Ok bs).
  { unfold get_chars. destruct direct; induction H as [|a b x bs AB H IH]; try reflexivity; cbn [mapM]; destruct a as [c|z|]; cbn [as_byte] in AB; try contradiction; destruct AB as [R ->].
    - cbn [bind]. rewrite IH. cbn [bind]. rewrite Z.mod_small by lia. reflexivity.
    - cbn [bind]. rewrite IH. cbn [bind]. f_equal. f_equal. destruct (Z.ltb_spec z 0); [replace z with (z + 256 + (-1) * 256)%Z at 1 by lia; rewrite Z.mod_add by lia|]; apply Z.mod_small; lia.
    - cbn [o2c bind]. rewrite IH. cbn [bind]. rewrite Z.mod_small by lia. reflexivity.
    - rewrite (proj2 (Z.leb_le (-2147483648) z)), (proj2 (Z.leb_le z 2147483647)) by lia. cbn [andb bind]. rewrite IH. cbn [bind]. f_equal. f_equal. destruct (Z.ltb_spec z 0); [replace z with (z + 256 + (-1) * 256)%Z at 1 by lia; rewrite Z.mod_add by lia|]; apply Z.mod_small; lia. }
  unfold path_wBytes. rewrite G. apply write_ok.
Qed.
Print Assumptions C51_bytes_roundtrip_partial.
(** Without the condition on closing the claim is false: fclose reports that the last bytes did not reach the disk, and its result is dropped. *)
Theorem C51_full_disk_refuted : exists e f p cs, Forall codept cs /\ cs <> [] /\ let (g, r) := path_wChars e f p (map C cs) in r = Ok tt /\ holds g p [].
Proof.
  exists {| w_opens := true; w_accepted := 1; w_stored := 0 |}, (fun _ => None), [97%Z], [98%Z]. split; [repeat constructor; unfold codept; lia|]. split; [discriminate|]. split; reflexivity.
Qed.
Print Assumptions C51_full_disk_refuted.
(** A read error of a file that cannot be positioned gives the part before it as if it were the whole. *)
Theorem C51_stream_error_refuted : exists e f p b, holds f p b /\ r_opens e = true /\ path_bytes e f p = Ok [] /\ b <> [].
Proof. exists {| r_opens := true; r_seeks := false; r_got := 0 |}, (fun _ => Some [98%Z]), [97%Z], [98%Z]. split; [reflexivity|]. split; [reflexivity|]. split; [|discriminate]. unfold path_bytes. cbn [r_opens r_seeks r_got negb length firstn]. apply stream_ok; cbn [length]; lia. Qed.
Print Assumptions C51_stream_error_refuted.
(** A character that is no byte is no error: the byte below is written; a number outside of 32 bits is converted out of range. *)
Theorem C51_wide_byte_refuted : exists e f p, (let (g, r) := path_wBytes e f p false [C 256%Z] in r = Ok tt /\ holds g p [0%Z]) /\ snd (path_wBytes e f p false [N 3000000000%Z]) = UB.
Proof. exists {| w_opens := true; w_accepted := 1; w_stored := 1 |}, (fun _ => None), [97%Z]. repeat split; reflexivity. Qed.
Print Assumptions C51_wide_byte_refuted.
(** ** Paths *)
(** •file.Name is what follows the last slash; an error if that is empty. *)
Theorem C51_name : forall a b, noslash b -> path_name (a ++ [47%Z] ++ b) = (if length b =? 0 then Err else Ok b) /\ path_name b = (if length b =? 0 then Err else Ok b).
Proof.
  intros a b NB. unfold path_name. cbn [app]. rewrite app_length. cbn [length]. replace (length a + S (length b) =? 0) with false by (symmetry; apply Nat.eqb_neq; lia).
  pose proof (last_sep_at a b NB (length a + S (length b)) [] ltac:(lia)) as L. rewrite app_nil_r in L. rewrite L. cbn [bind]. pose proof (last_sep_none b [] NB) as L0. rewrite app_nil_r in L0. rewrite L0. cbn [bind]. split; [|reflexivity].
  destruct (Nat.eqb_spec (length b) 0) as [Z0|NZ].
  - replace (length a =? length a + S (length b) - 1) with true by (symmetry; apply Nat.eqb_eq; lia). reflexivity.
  - replace (length a =? length a + S (length b) - 1) with false by (symmetry; apply Nat.eqb_neq; lia). f_equal. replace (a ++ 47%Z :: b) with ((a ++ [47%Z]) ++ b) by (rewrite <- app_assoc; reflexivity). rewrite skipn_app, skipn_all2 by (rewrite app_length; cbn [length]; lia). rewrite app_length. cbn [length app]. replace (length a + 1 - (length a + 1)) with 0 by lia. cbn [skipn]. apply firstn_all2. lia.
Qed.
Print Assumptions C51_name.
(** •file.Parent drops the last part, with a slash after it or not; of a single part it is ./ and of / itself /. *)
Theorem C51_parent : forall a b, noslash b -> (b <> [] -> path_parent (a ++ [47%Z] ++ b) = Ok (a ++ [47%Z])) /\ path_parent (a ++ [47%Z] ++ b ++ [47%Z]) = Ok (a ++ [47%Z]) /\
  (b <> [] -> path_parent b = Ok [46; 47]%Z /\ path_parent (b ++ [47%Z]) = Ok [46; 47]%Z) /\ path_parent [47%Z] = Ok [47%Z] /\ path_parent [] = Err.
Proof.
  intros a b NB. assert (CUT : forall r, firstn (length a + 1) (a ++ 47%Z :: r) = a ++ [47%Z]) by (intros r; rewrite firstn_app, firstn_all2 by lia; replace (length a + 1 - length a) with 1 by lia; reflexivity).
  unfold path_parent. cbn [app]. split; [|split; [|split; [|split; reflexivity]]].
  - intros NE. destruct (exists_last NE) as (b' & c & ->). rewrite app_length. cbn [length]. replace (length a + S (length (b' ++ [c])) =? 0) with false by (symmetry; apply Nat.eqb_neq; lia). rewrite app_length. cbn [length].
    rewrite (last_sep_at a b') by (solve [intros I; apply NB; apply in_or_app; left; exact I|lia]). cbn [bind]. rewrite CUT. reflexivity.
  - rewrite app_length. cbn [length]. rewrite app_length. cbn [length]. replace (length a + S (length b + 1) =? 0) with false by (symmetry; apply Nat.eqb_neq; lia). rewrite (last_sep_at a b) by (solve [exact NB|lia]). cbn [bind]. rewrite CUT. reflexivity.
  - intros NE. assert (HD : forall r, absolute (b ++ r) = Ok false). { intros r. destruct b as [|c b]; [congruence|]. unfold absolute, rd. cbn [app nth_error bind]. unfold isSep. destruct (Z.eqb_spec c 47) as [->|_]; [|reflexivity]. destruct NB. left. reflexivity. } split.
    + destruct (exists_last NE) as (b' & c & E). assert (L0 : last_sep b (length b - 1) = Ok None). { rewrite E. rewrite app_length. cbn [length]. replace (length b' + 1 - 1) with (length b') by lia. apply last_sep_none. intros I. apply NB. rewrite E. apply in_or_app. left. exact I. }
      rewrite L0. cbn [bind]. specialize (HD []). rewrite app_nil_r in HD. rewrite HD. cbn [bind]. destruct b; [congruence|reflexivity].
    + rewrite app_length. cbn [length]. replace (length b + 1 =? 0) with false by (symmetry; apply Nat.eqb_neq; lia). replace (length b + 1 - 1) with (length b) by lia. rewrite last_sep_none by exact NB. cbn [bind]. rewrite HD. reflexivity.
Qed.
Print Assumptions C51_parent.
(** •file.At leaves an absolute path, and puts a relative one after the base with one slash between. *)
Theorem C51_at : forall base c rel, path_rel base (47%Z :: rel) = Ok (47%Z :: rel) /\ path_rel None [] = Err /\ (forall b, path_rel (Some b) [] = Ok b) /\
  (c <> 47%Z -> path_rel None (c :: rel) = Err /\ path_rel (Some []) (c :: rel) = Ok (c :: rel) /\ (forall a, path_rel (Some (a ++ [47%Z])) (c :: rel) = Ok (a ++ [47%Z] ++ c :: rel)) /\ (forall a d, d <> 47%Z -> path_rel (Some (a ++ [d])) (c :: rel) = Ok (a ++ [d] ++ [47%Z] ++ c :: rel))).
Proof.
  intros base c rel. split; [reflexivity|]. split; [reflexivity|]. split; [reflexivity|]. intros NC. assert (A : absolute (c :: rel) = Ok false) by (unfold absolute, rd, isSep; cbn [nth_error bind]; rewrite (proj2 (Z.eqb_neq c 47)) by exact NC; reflexivity).
  unfold path_rel. rewrite A. cbn [length Nat.eqb bind]. split; [reflexivity|]. split; [reflexivity|]. assert (RD : forall (a : path) (d : Z), rd (a ++ [d]) (length (a ++ [d]) - 1) = Ok d) by (intros a d; rewrite app_length; cbn [length]; replace (length a + 1 - 1) with (length a) by lia; apply rd_at).
  split; intros a; [|intros d ND]; rewrite RD; cbn [bind].
  - rewrite (proj2 (Nat.eqb_neq _ 0)) by (rewrite app_length; cbn [length]; lia). change (isSep 47) with true. cbv iota. replace (firstn (length (a ++ [47%Z]) - 1) (a ++ [47%Z])) with a by (rewrite app_length; cbn [length]; replace (length a + 1 - 1) with (length a) by lia; rewrite firstn_app, Nat.sub_diag, firstn_all; cbn [firstn]; rewrite app_nil_r; reflexivity).
    rewrite (proj2 (Nat.eqb_eq _ _)) by (rewrite !app_length; cbn [length app]; lia). reflexivity.
  - rewrite (proj2 (Nat.eqb_neq _ 0)) by (rewrite app_length; cbn [length]; lia). replace (isSep d) with false by (symmetry; apply Z.eqb_neq; exact ND). cbv iota. rewrite Nat.sub_0_r, firstn_all. rewrite (proj2 (Nat.eqb_eq _ _)) by (rewrite !app_length; cbn [length app]; lia). rewrite <- app_assoc. reflexivity.
Qed.
Print Assumptions C51_at.
(** A path is its name at its parent. *)
Theorem C51_name_at_parent : forall a b, noslash b -> b <> [] -> exists d n, path_parent (a ++ [47%Z] ++ b) = Ok d /\ path_name (a ++ [47%Z] ++ b) = Ok n /\ path_rel (Some d) n = Ok (a ++ [47%Z] ++ b).
Proof.
  intros a b NB NE. exists (a ++ [47%Z]), b. split; [apply C51_parent; assumption|]. split; [rewrite (proj1 (C51_name a b NB)); destruct b; [congruence|reflexivity]|]. destruct b as [|c b]; [congruence|]. apply (C51_at None c b). intros ->. apply NB. left. reflexivity.
Qed.
Print Assumptions C51_name_at_parent.
(** ** Cases *)
(* a CR LF b LF LF é *)
Example C51_split : split_lines [97; 13; 10; 98; 10; 10; 195; 169]%Z = Ok [[97]; [98]; []; [233]]%Z.
Proof. vm_compute. reflexivity. Qed.
Example C51_split_cr : split_lines [13; 97; 13]%Z = Ok [[]; [97]]%Z.
Proof. vm_compute. reflexivity. Qed.
Definition good : wenv := {| w_opens := true; w_accepted := 100; w_stored := 100 |}.
Example C51_write_lines : let (g, r) := path_wLines good (fun _ => None) [120%Z] (map (fun l => Some (map C l)) [[97; 233]; []; [98]]%Z) in
  r = Ok tt /\ g [120%Z] = Some [97; 195; 169; 10; 10; 98; 10]%Z /\ path_lines {| r_opens := true; r_seeks := true; r_got := 100 |} g [120%Z] = Ok [[97; 233]; []; [98]]%Z.
Proof. vm_compute. repeat split; reflexivity. Qed.
Example C51_meets : Forall (Forall codept) [[97; 233]; []; [98]]%Z /\ Forall plain [[97; 233]; []; [98]]%Z /\ flushed good /\ readable {| r_opens := true; r_seeks := false; r_got := 100 |} [97; 195; 169]%Z.
Proof. split; [repeat constructor; unfold codept; lia|]. split; [repeat constructor; intros I; cbn in I; lia|]. split; [unfold flushed; cbn; lia|split; [reflexivity|cbn; lia]]. Qed.
(* /a/b: name b, parent /a/ *)
Example C51_paths : path_name [47; 97; 47; 98]%Z = Ok [98]%Z /\ path_parent [47; 97; 47; 98]%Z = Ok [47; 97; 47]%Z /\ path_rel (Some [47; 97]%Z) [98]%Z = Ok [47; 97; 47; 98]%Z.
Proof. vm_compute. repeat split; reflexivity. Qed.
