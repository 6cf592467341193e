(** Lemmas about lists missing from the standard library. Nothing here models repository code. *)
From Verif Require Import Base.

Lemma nth_error_firstn_lt {A} (l : list A) n i : (i < n)%nat -> nth_error (firstn n l) i = nth_error l i.
Proof. revert l i. induction n as [|n IH]; intros [|x l] [|i] H; cbn; try lia; auto. apply IH. lia. Qed.
Lemma nth_error_firstn_ge {A} (l : list A) n i : (n <= i)%nat -> nth_error (firstn n l) i = None.
Proof. intro H. apply nth_error_None. rewrite firstn_length. lia. Qed.
Lemma nth_error_skipn' {A} (l : list A) n i : nth_error (skipn n l) i = nth_error l (n + i).
Proof. revert l. induction n as [|n IH]; intros [|x l]; cbn; auto. destruct i; reflexivity. Qed.
Lemma skipn_nth {A} (l : list A) i v : nth_error l i = Some v -> skipn i l = v :: skipn (S i) l.
Proof. revert l. induction i; intros [|x l] E; cbn in *; try discriminate; [congruence|]. apply IHi. exact E. Qed.
Lemma firstn_snoc {A} (l : list A) i v : nth_error l i = Some v -> firstn (S i) l = firstn i l ++ [v].
Proof. revert l. induction i; intros [|x l] E; cbn in *; try discriminate; [congruence|]. f_equal. apply IHi. exact E. Qed.
Lemma Forall2_len {A B} (P : A -> B -> Prop) l m : Forall2 P l m -> length l = length m.
Proof. induction 1; cbn; congruence. Qed.
Lemma map_upd' {A B} (f : A -> B) l i x : List.map f (upd l i x) = upd (List.map f l) i (f x).
Proof. revert i. induction l as [|y l IH]; intros [|i]; cbn; auto. f_equal. apply IH. Qed.
Lemma map_repeat' {A B} (f : A -> B) x n : List.map f (repeat x n) = repeat (f x) n.
Proof. induction n; cbn; congruence. Qed.
Lemma nth_error_repeat' {A} (x : A) n i : (i < n)%nat -> nth_error (repeat x n) i = Some x.
Proof. revert i. induction n; intros [|i] H; cbn; try lia; [reflexivity|]. apply IHn. lia. Qed.
Lemma nth_error_seq' s n i : (i < n)%nat -> nth_error (seq s n) i = Some (s + i)%nat.
Proof. revert s i. induction n; intros s [|i] H; cbn; try lia; [f_equal; lia|]. rewrite IHn by lia. f_equal. lia. Qed.
Lemma rd_ok' {A} (l : list A) i v : nth_error l i = Some v -> rd l i = Ok v.
Proof. intro H. unfold rd. rewrite H. reflexivity. Qed.
Lemma wr_ok' {A} (l : list A) i v : (i < length l)%nat -> wr l i v = Ok (upd l i v).
Proof. intro H. unfold wr. destruct (Nat.ltb_spec i (length l)); [reflexivity|lia]. Qed.
Lemma nth_error_ex {A} (l : list A) i : (i < length l)%nat -> exists v, nth_error l i = Some v.
Proof. intro H. destruct (nth_error l i) eqn:E; [eauto|]. apply nth_error_None in E. lia. Qed.
Lemma upd_app_l {A} (a b : list A) i x : (i < length a)%nat -> upd (a ++ b) i x = upd a i x ++ b.
Proof. revert i. induction a as [|y a IH]; intros [|i] H; cbn in *; try lia; [reflexivity|]. f_equal. apply IH. lia. Qed.
Lemma upd_app_r {A} (a b : list A) i x : (length a <= i)%nat -> upd (a ++ b) i x = a ++ upd b (i - length a) x.
Proof. revert i. induction a as [|y a IH]; intros i H; cbn in *; [rewrite Nat.sub_0_r; reflexivity|]. destruct i; [lia|]. cbn. f_equal. apply IH. lia. Qed.
