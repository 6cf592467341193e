(** C30: reading a variable that has no value always raises an error. *)
From Verif Require Import Base VarModel VarSpec.

Definition okcell (c : cell) : Prop := match c with Has v => clean v | _ => True end.
Definition okscope (c : sscope) : Prop := Forall okcell (svars c) /\ Forall okcell (sext c).
Definition okst (s : sst) : Prop := Forall okscope (sscs s) /\ Forall clean (slog s).
Definition oko (o : option val) : Prop := match o with Some v => clean v | None => True end.

(* the run of the model encodes the specified one *)
Definition R {X} (Q : X -> Prop) (a : res (sst * X)) (b : res (st * X)) : Prop :=
  match a, b with
  | Ok (t, x), Ok (s, y) => s = encode t /\ okst t /\ y = x /\ Q x
  | UB, UB => True
  | _, _ => False
  end.
Lemma R_bind : forall X Y (Q : X -> Prop) (Q' : Y -> Prop) a b (f : sst * X -> res (sst * Y)) (g : st * X -> res (st * Y)),
  R Q a b -> (forall t x, okst t -> Q x -> R Q' (f (t, x)) (g (encode t, x))) -> R Q' (bind a f) (bind b g).
Proof.
  intros X Y Q Q' a b f g H K. destruct a as [[t x]|e|], b as [[s y]|e'|]; cbn in H; try contradiction; cbn [bind]; [|exact I].
  destruct H as (-> & A & -> & B). apply K; assumption.
Qed.
Lemma R_ret : forall X (Q : X -> Prop) t x, okst t -> Q x -> R Q (Ok (t, x)) (Ok (encode t, x)).
Proof. intros. cbn. auto. Qed.
(* reads: a pure result and its encoding *)
Lemma rd_map : forall A B (f : A -> B) l i, rd (List.map f l) i = do x <- rd l i; Ok (f x).
Proof. intros. unfold rd. rewrite nth_error_map. destruct (nth_error l i); reflexivity. Qed.
Lemma wr_map : forall A B (f : A -> B) l i x, wr (List.map f l) i (f x) = do m <- wr l i x; Ok (List.map f m).
Proof.
  intros. unfold wr. rewrite map_length. destruct (i <? length l)%nat; [|reflexivity]. cbn [bind]. f_equal. revert i. induction l as [|y l IH]; intros [|i]; cbn; auto. f_equal. apply IH.
Qed.
Lemma rd_Ok : forall A (l : list A) i x, rd l i = Ok x -> In x l.
Proof. intros A l i x. unfold rd. destruct (nth_error l i) eqn:E; [|discriminate]. intros [= <-]. eapply nth_error_In; eauto. Qed.
Lemma wr_Forall : forall A (P : A -> Prop) l i x m, wr l i x = Ok m -> Forall P l -> P x -> Forall P m.
Proof.
  intros A P l i x m. unfold wr. destruct (i <? length l)%nat; [|discriminate]. intros [= <-]. revert i. induction l as [|y l IH]; intros i H K; cbn; auto. inversion H; subst.
  destruct i; constructor; auto.
Qed.
Lemma rd_cases : forall A (l : list A) i, rd l i = UB \/ exists x, rd l i = Ok x.
Proof. intros. unfold rd. destruct (nth_error l i); eauto. Qed.
Lemma wr_cases : forall A (l : list A) i x, wr l i x = UB \/ exists m, wr l i x = Ok m.
Proof. intros. unfold wr. destruct (i <? length l)%nat; eauto. Qed.

Lemma scs_encode : forall t, scs (encode t) = List.map encs (sscs t). Proof. reflexivity. Qed.
Lemma rdvar_enc : forall t e d p, rdvar (encode t) e d p = do c <- srd t e d p; Ok (enc c).
Proof.
  intros. unfold rdvar, srd. rewrite scs_encode, rd_map. destruct (rd (sscs t) d); cbn [bind]; [|reflexivity..]. destruct e; cbn [encs ext vars]; apply rd_map.
Qed.
Lemma srd_ok : forall t e d p c, okst t -> srd t e d p = Ok c -> okcell c.
Proof.
  intros t e d p c [A _] H. unfold srd in H. destruct (rd (sscs t) d) as [k| |] eqn:E; cbn [bind] in H; try discriminate. apply rd_Ok in E. rewrite Forall_forall in A.
  destruct (A k E) as [B C]. apply rd_Ok in H. rewrite Forall_forall in B, C. destruct e; auto.
Qed.
Lemma srd_cases : forall t e d p, srd t e d p = UB \/ exists c, srd t e d p = Ok c.
Proof. intros. unfold srd. destruct (rd_cases _ (sscs t) d) as [->|[k ->]]; cbn [bind]; [auto|apply rd_cases]. Qed.
Lemma wrvar_enc : forall t e d p x, wrvar (encode t) e d p (enc x) = do t' <- swr t e d p x; Ok (encode t').
Proof.
  intros. unfold wrvar, swr. rewrite scs_encode, rd_map. destruct (rd (sscs t) d) as [k| |]; cbn [bind]; [|reflexivity..].
  destruct e; cbn [encs ext vars]; rewrite wr_map.
  - destruct (wr (sext k) p x) as [l| |]; cbn [bind]; [|reflexivity..].
    match goal with |- context [wr (sscs t) d ?c] => change (set_ext (encs k) (List.map enc l)) with (encs c) || idtac; pose proof (wr_map _ _ encs (sscs t) d c) as W end.
    unfold set_ext. cbn [encs svars sext svgid segid sexp vars vgid egid exp] in *. unfold encs at 2. cbn [svars sext svgid segid sexp vars vgid egid exp]. cbn [encs svars sext svgid segid sexp] in W. unfold encs at 2 in W. cbn [svars sext svgid segid sexp] in W. rewrite W.
    destruct (wr (sscs t) d _); reflexivity.
  - destruct (wr (svars k) p x) as [l| |]; cbn [bind]; [|reflexivity..].
    match goal with |- context [wr (sscs t) d ?c] => pose proof (wr_map _ _ encs (sscs t) d c) as W end.
    unfold set_vars. cbn [encs svars sext svgid segid sexp vars ext vgid egid exp] in *. unfold encs at 2 in W. cbn [svars sext svgid segid sexp] in W. rewrite W.
    destruct (wr (sscs t) d _); reflexivity.
Qed.
Lemma swr_ok : forall t e d p x t', okst t -> okcell x -> swr t e d p x = Ok t' -> okst t'.
Proof.
  intros t e d p x t' [A B] C H. unfold swr in H. destruct (rd (sscs t) d) as [k| |] eqn:E; cbn [bind] in H; try discriminate.
  apply rd_Ok in E. assert (K : okscope k) by (rewrite Forall_forall in A; auto). destruct K as [K1 K2].
  destruct (wr (if e then sext k else svars k) p x) as [l| |] eqn:E2; cbn [bind] in H; try discriminate.
  destruct (wr (sscs t) d _) as [m| |] eqn:E3 in H; cbn [bind] in H; try discriminate. injection H as <-. split; [|exact B]. cbn [sput sscs].
  eapply wr_Forall; [exact E3|exact A|]. destruct e; split; cbn; auto; eapply wr_Forall; eauto.
Qed.
Lemma swr_cases : forall t e d p x, swr t e d p x = UB \/ exists t', swr t e d p x = Ok t'.
Proof.
  intros. unfold swr. destruct (rd_cases _ (sscs t) d) as [->|[k ->]]; cbn [bind]; [auto|]. destruct (wr_cases _ (if e then sext k else svars k) p x) as [->|[l ->]]; cbn [bind]; [auto|].
  match goal with |- context [wr (sscs t) d ?c] => destruct (wr_cases _ (sscs t) d c) as [->|[m ->]] end; cbn [bind]; eauto.
Qed.

Lemma badRead_enc : forall c, okcell c -> v_checkBadRead (enc c) = match value c with None => true | Some _ => false end.
Proof.
  intros [| |[u|l|n]] H; try reflexivity. unfold v_checkBadRead, v_bad17_read, TAG_TAG. cbn [enc word value okcell clean] in *. change (2 ^ 47) with 0x800000000000.
  destruct (Z.eqb_spec (u / 0x800000000000) (0x7FF2 * 2 + 1)); [lia|reflexivity].
Qed.
Lemma badWrite_enc : forall c, okcell c -> v_checkBadWrite (enc c) = match c with Undef => true | _ => false end.
Proof.
  intros [| |[u|l|n]] H; try reflexivity. unfold v_checkBadWrite, v_bad18_write, TAG_TAG. cbn [enc word value okcell clean] in *. change (2 ^ 46) with 0x400000000000.
  destruct (Z.eqb_spec (u / 0x400000000000) (0x7FF2 * 4 + 3)); [lia|reflexivity].
Qed.

Notation T := (fun _ : bool => True).
Lemma store_ref : forall t e d p x upd, okst t -> okcell x ->
  R T (sstore t e d p x upd) (do prev <- rdvar (encode t) e d p; if andb upd (v_checkBadWrite prev) then Ok (encode t, false) else do s <- wrvar (encode t) e d p (enc x); Ok (s, true)).
Proof.
  intros t e d p x upd A C. unfold sstore. rewrite rdvar_enc. destruct (srd_cases t e d p) as [E|[c E]]; rewrite E; cbn [bind]; [exact I|].
  rewrite badWrite_enc by (eapply srd_ok; eauto). rewrite wrvar_enc.
  replace (may_set upd c) with (negb (upd && match c with Undef => true | _ => false end)) by (destruct c, upd; reflexivity).
  destruct (upd && match c with Undef => true | _ => false end); cbn [negb]; [cbn; auto|].
  destruct (swr_cases t e d p x) as [E2|[t' E2]]; rewrite E2; cbn [bind]; [exact I|]. cbn. split; [reflexivity|]. split; [eapply swr_ok; eauto|auto].
Qed.
Lemma setI_ref : forall t d p x upd chk, okst t -> okcell x -> R T (sstore t false d p x (upd && chk)) (setI (encode t) d p (enc x) upd chk).
Proof.
  intros t d p x upd chk A C. unfold setI. destruct upd; cbn [andb]; [apply store_ref; assumption|].
  unfold sstore. destruct (srd_cases t false d p) as [E|[c E]]; rewrite E; cbn [bind].
  - rewrite wrvar_enc. assert (W : swr t false d p x = UB).
    { unfold srd in E. unfold swr. destruct (rd (sscs t) d) as [k| |]; cbn [bind] in *; [|discriminate|reflexivity]. unfold rd in E. unfold wr. destruct (nth_error (svars k) p) eqn:N; [discriminate|].
      apply nth_error_None in N. destruct (Nat.ltb_spec p (length (svars k))); [lia|reflexivity]. }
    rewrite W. exact I.
  - replace (may_set false c) with true by (destruct c; reflexivity). rewrite wrvar_enc.
    destruct (swr_cases t false d p x) as [E2|[t' E2]]; rewrite E2; cbn [bind]; [exact I|]. cbn. split; [reflexivity|]. split; [eapply swr_ok; eauto|auto].
Qed.
Lemma field_ref : forall t n g, okst t ->
  (sfield t n g = UB /\ ns_getU (encode t) n g = UB) \/ (sfield t n g = Ok None /\ ns_getU (encode t) n g = Ok None) \/
  (exists c, sfield t n g = Ok (Some c) /\ ns_getU (encode t) n g = Ok (Some (enc c)) /\ okcell c).
Proof.
  intros t n g [A _]. unfold sfield, ns_getU. rewrite scs_encode, rd_map. destruct (rd (sscs t) n) as [k| |] eqn:E; cbn [bind]; [|unfold rd in E; destruct (nth_error (sscs t) n); discriminate|auto].
  cbn [encs exp vars]. destruct (find_gid (sexp k) 0 g) as [i|]; [|auto]. rewrite rd_map. destruct (rd (svars k) i) as [c| |] eqn:E2; cbn [bind]; [|unfold rd in E2; destruct (nth_error (svars k) i); discriminate|auto].
  right; right. exists c. split; [reflexivity|]. split; [reflexivity|]. apply rd_Ok in E, E2. rewrite Forall_forall in A. destruct (A k E) as [B _]. rewrite Forall_forall in B. auto.
Qed.

Section TInd.
Variable P : tgt -> Prop.
Hypothesis HV : forall d p, P (TVar d p).
Hypothesis HE : forall d p, P (TExt d p).
Hypothesis HN : P TNone.
Hypothesis HL : forall l, Forall P l -> P (TList l).
Hypothesis HA : forall t g, P t -> P (TAlias t g).
Fixpoint tgt_ind' (t : tgt) : P t :=
  match t with
  | TVar d p => HV d p
  | TExt d p => HE d p
  | TNone => HN
  | TList l => HL l ((fix go (l : list tgt) : Forall P l := match l with [] => Forall_nil P | x :: r => Forall_cons x (tgt_ind' x) (go r) end) l)
  | TAlias t g => HA t g (tgt_ind' t)
  end.
End TInd.

Lemma clean_L : forall l, clean (L l) <-> Forall clean l.
Proof. induction l as [|x l IH]; cbn; [split; auto|]. cbn in IH. rewrite Forall_cons_iff, <- IH. reflexivity. Qed.

Definition refs (t : tgt) : Prop := forall s x upd chk, okst s -> okcell x -> R T (sset t s x upd chk) (v_set t (encode s) (enc x) upd chk).
Lemma set_ref' : forall t, refs t /\ match t with TAlias t' _ => refs t' | _ => True end.
Proof.
  unfold refs. intro t. induction t as [d p|d p| |ts IH|t g IH] using tgt_ind'; (split; [|try exact I]); try (intros s x upd chk A C; cbn [sset v_set]).
  - apply setI_ref; assumption.
  - apply store_ref; assumption.
  - apply R_ret; auto.
  - destruct x as [| |[u|l|n]]; cbn [enc noVar optOut]; [apply R_ret; auto..| |].
    + destruct (length l =? length ts)%nat; [|apply R_ret; auto].
      cbn [okcell] in C. apply clean_L in C. clear chk. revert l C s A. induction IH as [|t ts [Ht _] _ IHl]; intros l C s A; [apply R_ret; auto|].
      destruct l as [|v l]; [apply R_ret; auto|]. inversion C; subst. eapply R_bind; [apply (Ht s (Has v) upd true); [exact A|assumption]|].
      intros s' ok A' _. destruct ok; [apply IHl; assumption|apply R_ret; auto].
    + clear chk C. revert s A. induction IH as [|t ts [Ht Ht'] _ IHl]; intros s A; [apply R_ret; auto|].
      eapply R_bind with (Q := T).
      * destruct t as [d p|d p| |l|t' g]; [| |apply R_ret; auto..|].
        -- rewrite scs_encode, rd_map. destruct (rd_cases _ (sscs s) d) as [E|[k E]]; rewrite E; cbn [bind]; [exact I|]. cbn [encs vgid].
           destruct (rd_cases _ (svgid k) p) as [E2|[g E2]]; rewrite E2; cbn [bind]; [exact I|].
           destruct (field_ref s n g A) as [[-> ->]|[[-> ->]|(c & -> & -> & O)]]; cbn [bind]; [exact I|apply R_ret; auto|].
           replace upd with (upd && true) at 1 by (destruct upd; reflexivity). apply setI_ref; assumption.
        -- rewrite scs_encode, rd_map. destruct (rd_cases _ (sscs s) d) as [E|[k E]]; rewrite E; cbn [bind]; [exact I|]. cbn [encs egid].
           destruct (rd_cases _ (segid k) p) as [E2|[g E2]]; rewrite E2; cbn [bind]; [exact I|].
           destruct (field_ref s n g A) as [[-> ->]|[[-> ->]|(c & -> & -> & O)]]; cbn [bind]; [exact I|apply R_ret; auto|].
           apply (Ht s c upd true); assumption.
        -- destruct (field_ref s n g A) as [[-> ->]|[[-> ->]|(c & -> & -> & O)]]; cbn [bind]; [exact I|apply R_ret; auto|].
           apply Ht'; assumption.
      * intros s' ok A' _. destruct ok; [apply IHl; assumption|apply R_ret; auto].
  - apply R_ret; auto.
  - apply (proj1 IH); assumption.
Qed.
Lemma set_ref : forall t s x upd chk, okst s -> okcell x -> R T (sset t s x upd chk) (v_set t (encode s) (enc x) upd chk).
Proof. intro t. exact (proj1 (set_ref' t)). Qed.

Lemma take_ref : forall s e d p, okst s ->
  R oko (stake s e d p) (do r <- rdvar (encode s) e d p; if v_checkBadRead r then Ok (encode s, None) else do s <- wrvar (encode s) e d p optOut; Ok (s, Some r)).
Proof.
  intros s e d p A. unfold stake. rewrite rdvar_enc. destruct (srd_cases s e d p) as [E|[c E]]; rewrite E; cbn [bind]; [exact I|].
  assert (O : okcell c) by (eapply srd_ok; eauto). rewrite badRead_enc by exact O. destruct c as [| |v]; cbn [value]; [apply R_ret; cbn; auto..|].
  change optOut with (enc Cleared). rewrite wrvar_enc. destruct (swr_cases s e d p Cleared) as [E2|[t' E2]]; rewrite E2; cbn [bind]; [exact I|]. cbn [R enc].
  split; [reflexivity|]. split; [eapply (swr_ok s e d p Cleared); [exact A|exact I|exact E2]|]. split; [reflexivity|exact O].
Qed.
Lemma get_ref : forall t s, okst s -> R oko (sget t s) (v_get t (encode s) true).
Proof.
  intro t. induction t as [d p|d p| |ts IH|t g IH] using tgt_ind'; intros s A; cbn [sget v_get andb]; [apply take_ref; assumption..|exact I| |exact I].
  assert (G : forall ts', Forall (fun t => forall s, okst s -> R oko (sget t s) (v_get t (encode s) true)) ts' -> forall acc s, Forall clean acc -> okst s ->
    R oko ((fix go (ts : list tgt) (acc : list val) (s : sst) : res (sst * option val) :=
      match ts with
      | [] => Ok (s, Some (L (rev acc)))
      | t :: ts => do (s, o) <- sget t s; match o with None => Ok (s, None) | Some v => go ts (v :: acc) s end
      end) ts' acc s)
      ((fix go (ts : list tgt) (acc : list val) (s : st) : res (st * option val) :=
      match ts with
      | [] => Ok (s, Some (L (rev acc)))
      | t :: ts => do (s, o) <- v_get t s true; match o with None => Ok (s, None) | Some v => go ts (v :: acc) s end
      end) ts' acc (encode s))).
  { clear. induction 1 as [|t ts Ht _ IHl]; intros acc s C A.
    - apply R_ret; [exact A|]. cbn [oko]. apply clean_L, Forall_rev, C.
    - eapply R_bind; [apply Ht; exact A|]. intros s' [v|] A' C'; [apply IHl; auto|apply R_ret; auto]. }
  apply G; auto.
Qed.

Section PInd.
Variable P : prog -> Prop.
Hypothesis H1 : forall v, P (Const v).
Hypothesis H2 : forall i, P (Arg i).
Hypothesis H3 : forall d p, P (Var d p).
Hypothesis H4 : forall d p, P (Ext d p).
Hypothesis H5 : forall p g, P p -> P (Field p g).
Hypothesis H6 : forall l, Forall P l -> P (ListOf l).
Hypothesis H7 : forall t p, P p -> P (SetN t p).
Hypothesis H8 : forall t p, P p -> P (SetU t p).
Hypothesis H9 : forall t p, P p -> P (SetC t p).
Hypothesis H10 : forall t f x, P f -> P x -> P (SetM t f x).
Hypothesis H11 : forall p q, P p -> P q -> P (Seq p q).
Hypothesis H12 : forall am xm vg eg ex i p, P i -> P p -> P (Scope am xm vg eg ex i p).
Hypothesis H13 : forall n, P (MkNs n).
Hypothesis H14 : forall p q, P p -> P q -> P (Catch p q).
Fixpoint prog_ind' (p : prog) : P p :=
  match p with
  | Const v => H1 v | Arg i => H2 i | Var d p => H3 d p | Ext d p => H4 d p
  | Field p g => H5 p g (prog_ind' p)
  | ListOf l => H6 l ((fix go (l : list prog) : Forall P l := match l with [] => Forall_nil P | x :: r => Forall_cons x (prog_ind' x) (go r) end) l)
  | SetN t p => H7 t p (prog_ind' p) | SetU t p => H8 t p (prog_ind' p) | SetC t p => H9 t p (prog_ind' p)
  | SetM t f x => H10 t f x (prog_ind' f) (prog_ind' x)
  | Seq p q => H11 p q (prog_ind' p) (prog_ind' q)
  | Scope am xm vg eg ex i p => H12 am xm vg eg ex i p (prog_ind' i) (prog_ind' p)
  | MkNs n => H13 n
  | Catch p q => H14 p q (prog_ind' p) (prog_ind' q)
  end.
End PInd.

Lemma map_rep : forall A B (f : A -> B) x n, List.map f (repeat x n) = repeat (f x) n.
Proof. induction n; cbn; congruence. Qed.
Lemma push_ref : forall s v, okst s -> clean v -> R oko (Ok (spush s v, Some v)) (Ok (push (encode s) v, Some v)).
Proof. intros s v [A B] C. cbn. split; [reflexivity|]. split; [|auto]. split; [exact A|]. cbn. apply Forall_app. auto. Qed.
Lemma assign_ref : forall t s v upd chk, okst s -> clean v ->
  R oko (sassign t s v upd chk) (do (s, ok) <- v_set t (encode s) v upd chk; if (ok : bool) then Ok (push s v, Some v) else Ok (s, None)).
Proof.
  intros t s v upd chk A C. unfold sassign. eapply R_bind; [apply (set_ref t s (Has v) upd chk); assumption|]. intros s' ok A' _. destruct ok; [apply push_ref; auto|apply R_ret; cbn; auto].
Qed.
Lemma read_ref : forall s e d p, okst s -> R oko (sread s e d p) (do v <- rdvar (encode s) e d p; if v_checkBadRead v then Ok (encode s, None) else Ok (push (encode s) v, Some v)).
Proof.
  intros s e d p A. unfold sread. rewrite rdvar_enc. destruct (srd_cases s e d p) as [E|[c E]]; rewrite E; cbn [bind]; [exact I|].
  assert (O : okcell c) by (eapply srd_ok; eauto). rewrite badRead_enc by exact O. destruct c as [| |v]; cbn [value enc]; [apply R_ret; cbn; auto..|apply push_ref; auto].
Qed.
Lemma plain_L : forall l, plain (ListOf l) <-> Forall plain l.
Proof. induction l as [|x l IH]; cbn; [split; auto|]. cbn in IH. rewrite Forall_cons_iff, <- IH. reflexivity. Qed.

Lemma exec_ref : forall p, plain p -> forall args s, Forall clean args -> okst s -> R oko (sexec p args s) (exec p args (encode s)).
Proof.
  intro p. induction p as [v|i|d p|d p|p g IH|l IH|t p IH|t p IH|t p IH|t f x IHf IHx|p q IHp IHq|am xm vg eg ex i p IHi IHp|n|p q IHp IHq] using prog_ind';
    intros Hp args s Ca A; cbn [sexec exec].
  - apply push_ref; auto.
  - destruct (rd_cases _ args i) as [E|[v E]]; rewrite E; cbn [bind]; [exact I|]. apply push_ref; auto. apply rd_Ok in E. rewrite Forall_forall in Ca. auto.
  - apply read_ref, A.
  - apply read_ref, A.
  - destruct Hp.
  - apply plain_L in Hp.
    assert (G : forall l', Forall (fun p => plain p -> forall args s, Forall clean args -> okst s -> R oko (sexec p args s) (exec p args (encode s))) l' -> Forall plain l' -> forall acc s, Forall clean acc -> okst s ->
      R oko ((fix go (l : list prog) (acc : list val) (s : sst) : res (sst * option val) :=
      match l with
      | [] => let v := L (rev acc) in Ok (spush s v, Some v)
      | p :: l => do (s, o) <- sexec p args s; match o with None => Ok (s, None) | Some v => go l (v :: acc) s end
      end) l' acc s) ((fix go (l : list prog) (acc : list val) (s : st) : res (st * option val) :=
      match l with
      | [] => let v := L (rev acc) in Ok (push s v, Some v)
      | p :: l => do (s, o) <- exec p args s; match o with None => Ok (s, None) | Some v => go l (v :: acc) s end
      end) l' acc (encode s))).
    { clear - Ca. induction 1 as [|p l Hx _ IHl]; intros Hp acc s C A.
      - apply push_ref; [exact A|]. apply clean_L, Forall_rev, C.
      - inversion Hp; subst. eapply R_bind; [apply Hx; auto|]. intros s' [v|] A' C'; [apply IHl; auto|apply R_ret; auto]. }
    apply G; auto.
  - eapply R_bind; [apply IH; auto|]. intros s' [v|] A' C'; [apply assign_ref; auto|apply R_ret; auto].
  - eapply R_bind; [apply IH; auto|]. intros s' [v|] A' C'; [apply assign_ref; auto|apply R_ret; auto].
  - eapply R_bind; [apply get_ref; auto|]. intros s' [w|] A' C'; [|apply R_ret; auto].
    eapply R_bind; [apply IH; auto|]. intros s2 [v|] A2 C2; [apply assign_ref; auto|apply R_ret; auto].
  - destruct Hp as [Hf Hx]. eapply R_bind; [apply IHx; auto|]. intros s0 [x'|] A0 C0; [|apply R_ret; auto].
    eapply R_bind; [apply get_ref; auto|]. intros s' [w|] A' C'; [|apply R_ret; auto].
    eapply R_bind; [apply IHf; auto|]. intros s2 [v|] A2 C2; [apply assign_ref; auto|apply R_ret; auto].
  - destruct Hp as [Hf Hx]. eapply R_bind; [apply IHp; auto|]. intros s0 [x'|] A0 C0; [apply IHq; auto|apply R_ret; auto].
  - destruct Hp as [Hf Hx]. eapply R_bind; [apply IHi; auto|]. intros s0 [v|] A0 C0; [|apply R_ret; auto].
    match goal with |- R _ (sexec _ _ ?t) (exec _ _ ?u) => assert (E : u = encode t) end.
    { unfold encode, sput, set_scs. cbn [sscs scs slog log]. f_equal. rewrite map_app. cbn [List.map]. unfold encs at 3. cbn [svars sext svgid segid sexp List.map enc]. rewrite !map_rep. reflexivity. }
    rewrite E. apply IHp; auto. destruct A0 as [B1 B2]. split; [|exact B2]. cbn [sput sscs]. apply Forall_app. split; [exact B1|]. constructor; [|constructor].
    split; cbn [svars sext]; [constructor; [exact C0|]|]; (apply Forall_forall; intros c Hc; apply repeat_spec in Hc; subst; exact I).
  - apply push_ref; cbn; auto.
  - destruct Hp as [Hf Hx]. eapply R_bind; [apply IHp; auto|]. intros s0 [x'|] A0 C0; [apply R_ret; auto|apply IHq; auto].
Qed.

(** Programs without field reads behave as if variables were typed cells: every read of a variable without value is an error, and nothing pushed or stored as a value is a placeholder. *)
Theorem C30_variables : forall p s, plain p -> okst s ->
  match sexec p [] s with
  | Ok (s', o) => exec p [] (encode s) = Ok (encode s', o)
  | UB => exec p [] (encode s) = UB
  | Err => False
  end.
Proof.
  intros p s Hp A. pose proof (exec_ref p Hp [] s (Forall_nil _) A) as H. destruct (sexec p [] s) as [[s' o]| |], (exec p [] (encode s)) as [[t o']| |]; cbn in H; try contradiction; auto.
  destruct H as (-> & _ & -> & _). reflexivity.
Qed.
Print Assumptions C30_variables.

Theorem C30_no_placeholder : forall p s t o, plain p -> okst s -> exec p [] (encode s) = Ok (t, o) -> Forall clean (log t) /\ match o with Some v => clean v | None => True end.
Proof.
  intros p s t o Hp A E. pose proof (exec_ref p Hp [] s (Forall_nil _) A) as H. rewrite E in H. destruct (sexec p [] s) as [[s' o']| |]; cbn in H; try contradiction.
  destruct H as (-> & [_ O] & -> & Q). split; assumption.
Qed.
Print Assumptions C30_no_placeholder.

(* a ← 5 ⋄ ⟨a,b⟩ ← 6‿7 ⋄ {a}⎊8 b F↩ (F reads b: error, caught) ⋄ b is cleared now, so reading it fails again *)
Definition s0 : sst := {| sscs := [{| svars := [Undef; Undef]; sext := [Undef]; svgid := [10; 11]; segid := [12]; sexp := [10; -1] |}]; slog := [] |}.
Definition ex1 : prog :=
  Seq (SetN (TVar 0 0) (Const (W 5))) (Seq (SetN (TList [TVar 0 0; TExt 0 0; TVar 0 1]) (Const (L [W 6; W 7; L [W 8]])))
  (Seq (Catch (SetC (TVar 0 1) (Var 0 1)) (Const (W 9))) (Catch (Var 0 1) (ListOf [Var 0 0; Ext 0 0])))).
Example C30_example : plain ex1 /\ okst s0 /\
  sexec ex1 [] s0 = Ok ({| sscs := [{| svars := [Has (W 6); Cleared]; sext := [Has (W 7)]; svgid := [10; 11]; segid := [12]; sexp := [10; -1] |}];
    slog := [W 5; W 5; L [W 6; W 7; L [W 8]]; L [W 6; W 7; L [W 8]]; W 9; W 6; W 7; L [W 6; W 7]] |}, Some (L [W 6; W 7])).
Proof.
  split; [cbn; lia|]. split; [|reflexivity]. split; [|constructor]. constructor; [|constructor]. split; repeat constructor.
Qed.

(** A field read is not checked: reading ns.a inside the function used in a F↩ pushes the placeholder. *)
Definition ex2 : prog := Seq (SetN (TVar 0 0) (Const (W 5))) (SetC (TVar 0 0) (Field (MkNs 0) 10)).
Theorem C30_field_read_refuted : exists t, exec ex2 [] (encode s0) = Ok (t, Some optOut) /\ ~ clean optOut /\ In optOut (log t).
Proof. eexists. split; [vm_compute; reflexivity|]. split; [intro H; apply H; lia|]. cbn. auto 10. Qed.
Print Assumptions C30_field_read_refuted.
