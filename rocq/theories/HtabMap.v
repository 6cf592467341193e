(** The finite map theorem for keys restricted by a predicate: the comparison and the hash need to be well-behaved only on the keys used. *)
From Verif Require Import Base ListLib HtabModel HtabProof HtabThm.

Section G.
Context {K1 K2 V : Type} (g : K1 -> K2) (E1 : K1 -> K1 -> bool) (E2 : K2 -> K2 -> bool) (H1 : K1 -> Z) (H2 : K2 -> Z).
Hypothesis HE : forall a b, E2 (g a) (g b) = E1 a b.
Hypothesis HH : forall a, H2 (g a) = H1 a.
Definition ge (e : ent K1 V) : ent K2 V := {| ekey := option_map g (ekey _ _ e); ehash := ehash _ _ e; eval := eval _ _ e |}.
Definition gm (m : map K1 V) : map K2 V := {| pop := pop _ _ m; ents := List.map ge (ents _ _ m) |}.
Definition rmap {A B} (f : A -> B) (r : res A) : res B := match r with Ok a => Ok (f a) | Err => Err | UB => UB end.
Lemma rd_map {A B} (f : A -> B) l i : rd (List.map f l) i = rmap f (rd l i).
Proof. unfold rd. rewrite nth_error_map. destruct (nth_error l i); reflexivity. Qed.
Lemma get_map (o : option K1) : get (option_map g o) = rmap g (get o).
Proof. destruct o; reflexivity. Qed.
Lemma find_loop_g n : forall m k h p, find_loop K2 V E2 n (gm m) (g k) h p = find_loop K1 V E1 n m k h p.
Proof.
  induction n as [|n IH]; intros m k h p; [reflexivity|]. cbn [find_loop]. cbn [gm ents]. rewrite rd_map. destruct (rd (ents _ _ m) p) as [e| |]; cbn [rmap bind]; auto.
  cbn [ge ehash ekey]. rewrite get_map. unfold EMPTY. cbn [ge ehash].
  assert (M : mask K2 V (gm m) = mask K1 V m) by (unfold mask, sz; cbn [gm ents]; rewrite map_length; reflexivity). change ({| pop := pop K1 V m; ents := List.map ge (ents K1 V m) |}) with (gm m). rewrite M, IH.
  destruct (ehash _ _ e =? h); cbn [bind]; auto. destruct (get (ekey _ _ e)) as [k'| |]; cbn [rmap bind]; auto. rewrite HE. reflexivity.
Qed.
Lemma gm_len m : length (ents _ _ (gm m)) = length (ents _ _ m).
Proof. cbn. apply map_length. Qed.
Lemma gm_mask m : mask K2 V (gm m) = mask K1 V m.
Proof. unfold mask, sz. rewrite gm_len. reflexivity. Qed.
Lemma find_g m k h h' : find K2 V E2 (gm m) (g k) h h' = find K1 V E1 m k h h'.
Proof. unfold find. rewrite gm_len, gm_mask. apply find_loop_g. Qed.
Lemma qins_loop_g n : forall m h k v p, qins_loop K2 V n (gm m) h (option_map g k) v p = rmap gm (qins_loop K1 V n m h k v p).
Proof.
  induction n as [|n IH]; intros m h k v p; [reflexivity|]. cbn [qins_loop]. rewrite gm_mask. cbn [gm ents]. rewrite rd_map. destruct (rd (ents _ _ m) p) as [e| |]; cbn [rmap bind]; auto.
  unfold EMPTY. cbn [ge ehash]. destruct (ehash _ _ e =? 0); [|apply IH]. cbn [rmap]. unfold gm. cbn [pop ents]. rewrite map_upd'. reflexivity.
Qed.
Lemma qins_g m h1 h2 k v : qins K2 V (gm m) h1 h2 (option_map g k) v = rmap gm (qins K1 V m h1 h2 k v).
Proof. unfold qins. rewrite gm_len, gm_mask. apply qins_loop_g. Qed.
Lemma dbl_loop_g l : forall nm, dbl_loop K2 V (List.map ge l) (gm nm) = rmap gm (dbl_loop K1 V l nm).
Proof.
  induction l as [|e l IH]; intros nm; [reflexivity|]. cbn [List.map dbl_loop]. unfold EMPTY. cbn [ge ehash ekey eval]. destruct (ehash _ _ e =? 0); cbn [bind]; [apply IH|].
  rewrite qins_g. destruct (qins _ _ _ _ _ _ _); cbn [rmap bind]; auto.
Qed.
Lemma m_new_g n : gm (m_new K1 V n) = m_new K2 V n.
Proof. unfold gm, m_new. cbn [pop ents]. rewrite map_repeat'. reflexivity. Qed.
Lemma dbl_g m : dbl K2 V (gm m) = rmap gm (dbl K1 V m).
Proof. unfold dbl. rewrite gm_len, <- m_new_g. apply dbl_loop_g. Qed.
Definition g3 (r : map K1 V * nat * bool) : map K2 V * nat * bool := let '(m, p, b) := r in (gm m, p, b).
Lemma mk_g m k : mk K2 V E2 H2 (gm m) (g k) = rmap g3 (mk K1 V E1 H1 m k).
Proof.
  unfold mk. unfold sz. rewrite gm_len. change (pop K2 V (gm m)) with (pop K1 V m). rewrite HH.
  assert (D : (if Z.of_nat (length (ents K1 V m)) <? pop K1 V m * 2 then dbl K2 V (gm m) else Ok (gm m)) = rmap gm (if Z.of_nat (length (ents K1 V m)) <? pop K1 V m * 2 then dbl K1 V m else Ok m)) by (destruct (_ <? _); [apply dbl_g|reflexivity]).
  rewrite D. clear D. destruct (if Z.of_nat (length (ents K1 V m)) <? pop K1 V m * 2 then dbl K1 V m else Ok m) as [m'| |]; cbn [rmap bind]; auto.
  rewrite find_g. destruct (find K1 V E1 m' k (H1 k) (H1 k)) as [[p had]| |]; cbn [rmap bind]; auto.
  destruct had; [reflexivity|]. cbn [gm ents]. rewrite rd_map. destruct (rd (ents _ _ m') p) as [e| |]; cbn [rmap bind]; auto. cbn [g3]. unfold gm. cbn [pop ents ge eval]. rewrite map_upd'. reflexivity.
Qed.
Lemma set_val_g m p v : set_val K2 V (gm m) p v = rmap gm (set_val K1 V m p v).
Proof. unfold set_val. cbn [gm ents]. rewrite rd_map. destruct (rd (ents _ _ m) p) as [e| |]; cbn [rmap bind]; auto. unfold gm. cbn [pop ents ge ekey ehash]. rewrite map_upd'. reflexivity. Qed.

Definition greq (r : req K1 V) : req K2 V :=
  match r with Has _ _ k => Has _ _ (g k) | GetD _ _ k d => GetD _ _ (g k) d | Ins _ _ k v => Ins _ _ (g k) v | Swap _ _ k v d => Swap _ _ (g k) v d | MkGet _ _ k v => MkGet _ _ (g k) v
  | GetUpd _ _ k f d => GetUpd _ _ (g k) f d | MkUpd _ _ k f d => MkUpd _ _ (g k) f d | MkOpt _ _ k v => MkOpt _ _ (g k) v end.
Lemma step_g m r : step K2 V E2 H2 (gm m) (greq r) = rmap (fun am => (fst am, gm (snd am))) (step K1 V E1 H1 m r).
Proof.
  destruct r as [k|k d|k v|k v d|k v|k f d|k f v|k v]; cbn [step greq].
  - unfold has. rewrite HH, find_g. destruct (find _ _ _ _ _ _ _) as [[p had]| |]; reflexivity.
  - unfold getD. rewrite HH, find_g. destruct (find _ _ _ _ _ _ _) as [[p had]| |]; cbn [bind rmap]; auto. destruct had; [|reflexivity]. cbn [gm ents]. rewrite rd_map. destruct (rd _ _) as [e| |]; cbn [bind rmap]; auto. cbn [ge eval]. destruct (eval _ _ e); reflexivity.
  - unfold ins. rewrite mk_g. destruct (mk _ _ _ _ _ _) as [[[m' p] had]| |]; cbn [bind rmap g3]; auto. rewrite set_val_g. destruct (set_val _ _ _ _ _); reflexivity.
  - unfold swap. rewrite mk_g. destruct (mk _ _ _ _ _ _) as [[[m' p] had]| |]; cbn [bind rmap g3]; auto. rewrite set_val_g. cbn [gm ents]. rewrite rd_map. destruct (rd _ _) as [e| |]; cbn [bind rmap]; auto.
    destruct (set_val _ _ _ _ _); cbn [bind rmap]; auto. destruct had; [|reflexivity]. cbn [ge eval]. destruct (eval _ _ e); reflexivity.
  - unfold mk_get. rewrite mk_g. destruct (mk _ _ _ _ _ _) as [[[m' p] had]| |]; cbn [bind rmap g3]; auto. destruct had.
    + cbn [gm ents]. rewrite rd_map. destruct (rd _ _) as [e| |]; cbn [bind rmap]; auto. cbn [ge eval]. destruct (eval _ _ e); reflexivity.
    + rewrite set_val_g. destruct (set_val _ _ _ _ _); reflexivity.
  - unfold getq_upd. rewrite HH, find_g. destruct (find _ _ _ _ _ _ _) as [[p had]| |]; cbn [bind rmap]; auto. destruct had; [|reflexivity]. cbn [gm ents]. rewrite rd_map. destruct (rd _ _) as [e| |]; cbn [bind rmap]; auto.
    cbn [ge eval]. destruct (eval _ _ e) as [v|]; cbn [get bind]; auto. change ({| pop := pop K1 V m; ents := List.map ge (ents K1 V m) |}) with (gm m). rewrite set_val_g. destruct (set_val _ _ _ _ _); reflexivity.
  - unfold mk_upd. rewrite mk_g. destruct (mk _ _ _ _ _ _) as [[[m' p] had]| |]; cbn [bind rmap g3]; auto. destruct had.
    + cbn [gm ents]. rewrite rd_map. destruct (rd _ _) as [e| |]; cbn [bind rmap]; auto. cbn [ge eval]. destruct (eval _ _ e) as [x|]; cbn [get bind]; auto. change ({| pop := pop K1 V m'; ents := List.map ge (ents K1 V m') |}) with (gm m'). rewrite set_val_g. destruct (set_val _ _ _ _ _); reflexivity.
    + rewrite set_val_g. destruct (set_val _ _ _ _ _); reflexivity.
  - unfold mk_opt. rewrite mk_g. destruct (mk _ _ _ _ _ _) as [[[m' p] had]| |]; cbn [bind rmap g3]; auto. destruct had.
    + cbn [gm ents]. rewrite rd_map. destruct (rd _ _) as [e| |]; cbn [bind rmap]; auto. cbn [ge eval]. destruct (eval _ _ e); reflexivity.
    + rewrite set_val_g. destruct (set_val _ _ _ _ _); reflexivity.
Qed.
Lemma run_g l : forall m, run K2 V E2 H2 (gm m) (List.map greq l) = run K1 V E1 H1 m l.
Proof.
  induction l as [|r l IH]; intros m; [reflexivity|]. cbn [List.map run]. rewrite step_g. destruct (step _ _ _ _ _ _) as [[a m']| |]; cbn [rmap bind fst snd]; auto. rewrite IH. reflexivity.
Qed.
Lemma spec_run_g l : forall f1 f2, (forall k, f2 (g k) = f1 k) -> spec_run K2 V E2 f2 (List.map greq l) = spec_run K1 V E1 f1 l.
Proof.
  induction l as [|r l IH]; intros f1 f2 F; [reflexivity|]. cbn [List.map spec_run].
  assert (FS : forall k v k', fset K2 V E2 f2 (g k) v (g k') = fset K1 V E1 f1 k v k') by (intros; unfold fset; rewrite HE, F; reflexivity).
  destruct r as [k|k d|k v|k v d|k v|k h d|k h v|k v]; cbn [spec_step greq]; rewrite F; try (f_equal; apply IH; auto; fail).
  - destruct (f1 k); f_equal; apply IH; auto.
  - destruct (f1 k); f_equal; apply IH; auto.
  - destruct (f1 k); f_equal; apply IH; auto.
  - destruct (f1 k); f_equal; apply IH; auto.
Qed.
End G.

Definition rkey {K V} (r : req K V) : K := match r with Has _ _ k | GetD _ _ k _ | Ins _ _ k _ | Swap _ _ k _ _ | MkGet _ _ k _ | GetUpd _ _ k _ _ | MkUpd _ _ k _ _ | MkOpt _ _ k _ => k end.
Definition rset {K K' V} (r : req K V) (k : K') : req K' V :=
  match r with Has _ _ _ => Has _ _ k | GetD _ _ _ d => GetD _ _ k d | Ins _ _ _ v => Ins _ _ k v | Swap _ _ _ v d => Swap _ _ k v d | MkGet _ _ _ v => MkGet _ _ k v
  | GetUpd _ _ _ f d => GetUpd _ _ k f d | MkUpd _ _ _ f d => MkUpd _ _ k f d | MkOpt _ _ _ v => MkOpt _ _ k v end.
Lemma lift_reqs {K V} (P : K -> Prop) (l : list (req K V)) : Forall (fun r => P (rkey r)) l -> exists l1 : list (req (sig P) V), List.map (greq (@proj1_sig K P)) l1 = l.
Proof.
  induction 1 as [|r l Pr _ [l1 IH]]; [exists []; reflexivity|]. exists (rset r (exist P (rkey r) Pr) :: l1). cbn [List.map]. rewrite IH. f_equal. destruct r; reflexivity.
Qed.
Lemma run_on : forall (K V : Type) (P : K -> Prop) (EQUAL : K -> K -> bool) (H1 : K -> Z) (j : nat) (l : list (req K V)),
  (forall a b, P a -> P b -> EQUAL a b = true -> EQUAL b a = true) -> (forall a b c, P a -> P b -> P c -> EQUAL a b = true -> EQUAL b c = true -> EQUAL a c = true) ->
  (forall a b, P a -> P b -> EQUAL a b = true -> H1 a = H1 b) -> (forall k, P k -> 0 < H1 k) -> (2 <= j)%nat -> Forall (fun r => P (rkey r)) l ->
  run K V EQUAL H1 (m_new K V (2 ^ j)) l = Ok (spec_run K V EQUAL (fun _ => None) l).
Proof.
  intros K V P E H j l Es Et He Hp Hj F. destruct (lift_reqs P l F) as [l1 <-].
  pose (E1 := fun a b : sig P => E (proj1_sig a) (proj1_sig b)). pose (Hs := fun a : sig P => H (proj1_sig a)).
  rewrite <- (m_new_g (@proj1_sig K P)). rewrite (run_g (@proj1_sig K P) E1 E Hs H (fun _ _ => eq_refl) (fun _ => eq_refl)).
  rewrite (spec_run_g (@proj1_sig K P) E1 E (fun _ _ => eq_refl) l1 (fun _ => None) (fun _ => None) (fun _ => eq_refl)).
  apply C10_finite_map; auto.
  - intros [a Pa] [b Pb]. apply Es; auto.
  - intros [a Pa] [b Pb] [c Pc]. apply Et; auto.
  - intros [a Pa] [b Pb]. apply He; auto.
  - intros [a Pa]. apply Hp; auto.
Qed.
