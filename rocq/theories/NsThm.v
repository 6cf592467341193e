(** C32: namespace field access finds the exported variable. *)
From Verif Require Import Base HtabModel HtabProof HtabThm NsModel.

(** * Specification. A namespace is a list of variables, each with a name (special ones have none), whether it is exported, and its value. *)
Record svar := { vname : option name; vexp : bool; vval : Z }.
Definition hit (s : name) (v : svar) : bool := vexp v && match vname v with Some s' => name_eqb s' s | None => false end.
(** The value of the first exported variable of that name. *)
Fixpoint lookup (s : name) (l : list svar) : option Z := match l with [] => None | v :: t => if hit s v then Some (vval v) else lookup s t end.
Fixpoint assign (s : name) (x : Z) (l : list svar) : list svar :=
  match l with [] => [] | v :: t => if hit s v then {| vname := vname v; vexp := vexp v; vval := x |} :: t else v :: assign s x t end.
(** Positions below off are special; then come the named variables; any further ones are special. *)
Fixpoint mkvars (nlist : list name) (ids : list nat) (ex : list bool) (off : nat) (vs : list Z) : list svar :=
  match vs with
  | [] => []
  | v :: vs =>
    match off with
    | S off => {| vname := None; vexp := false; vval := v |} :: mkvars nlist ids ex off vs
    | O => match ids, ex with
           | i :: ids, e :: ex => {| vname := nth_error nlist i; vexp := e; vval := v |} :: mkvars nlist ids ex 0 vs
           | _, _ => {| vname := None; vexp := false; vval := v |} :: mkvars nlist [] [] 0 vs
           end
    end
  end.
Definition special (imm : bool) (ty : nat) : nat := ((match ty with 0 => 0 | 1 => 2 | _ => 3 end) + (if imm then 0 else 3))%nat.
Definition sstep (bs : list (list svar)) (o : op) : list (list svar) * ans :=
  match o with
  | Intern _ => (bs, Done)
  | NewNs imm ty vam nlist ids ex vs => if (length ids =? length ex)%nat then (bs ++ [mkvars nlist ids ex (special imm ty) vs], Done) else (bs, BadDesc)
  | Field n s | FieldQ n s => (bs, of_opt (lookup s (nth n bs [])))
  | Spread b pos n => (bs, match nth_error (nth b bs []) pos with Some {| vname := Some s |} => of_opt (lookup s (nth n bs [])) | _ => NoName end)
  | Store n s v => match lookup s (nth n bs []) with Some _ => (upd bs n (assign s v (nth n bs [])), Done) | None => (bs, Missing) end
  end.
Fixpoint srun (bs : list (list svar)) (l : list op) : list ans := match l with [] => [] | o :: l => let '(bs, a) := sstep bs o in a :: srun bs l end.
(** Well-formed requests: namespaces and positions exist, descriptors fit the number of variables and refer to existing names. *)
Definition wfop (sizes : list nat) (o : op) : Prop :=
  match o with
  | Intern _ => True
  | NewNs imm ty vam nlist ids ex vs => length vs = vam /\ (length ids + special imm ty <= vam)%nat /\ Forall (fun i => i < length nlist)%nat ids
  | Field n _ | FieldQ n _ | Store n _ _ => (n < length sizes)%nat
  | Spread b pos n => (n < length sizes)%nat /\ (b < length sizes)%nat /\ (pos < nth b sizes 0)%nat
  end.
Definition sizes_after (sizes : list nat) (o : op) : list nat :=
  match o with NewNs _ _ vam _ ids ex _ => if (length ids =? length ex)%nat then sizes ++ [vam] else sizes | _ => sizes end.
Fixpoint wfops (sizes : list nat) (l : list op) : Prop := match l with [] => True | o :: l => wfop sizes o /\ wfops (sizes_after sizes o) l end.

(** * Proof *)
Lemma name_eqb_eq : forall a b, name_eqb a b = true <-> a = b.
Proof.
  induction a as [|x a IH]; intros [|y b]; cbn; split; intro H; try discriminate; auto.
  - apply andb_prop in H. destruct H as [A B]. apply IH in B. assert (x = y) by lia. congruence.
  - injection H as -> ->. rewrite Z.eqb_refl. apply IH. reflexivity.
Qed.
Lemma name_eqb_refl : forall a, name_eqb a a = true. Proof. intro a. apply name_eqb_eq. reflexivity. Qed.

Lemma name_eqb_sym : forall a b, name_eqb a b = true -> name_eqb b a = true.
Proof. intros a b H. apply name_eqb_eq in H. subst. apply name_eqb_refl. Qed.
Lemma name_eqb_trans : forall a b c, name_eqb a b = true -> name_eqb b c = true -> name_eqb a c = true.
Proof. intros a b c H K. apply name_eqb_eq in H, K. subst. apply name_eqb_refl. Qed.
Lemma name_hash : forall (h : name -> Z) a b, name_eqb a b = true -> h a = h b.
Proof. intros h a b H. apply name_eqb_eq in H. congruence. Qed.

Lemma Forall2_length : forall A B (P : A -> B -> Prop) l m, Forall2 P l m -> length l = length m.
Proof. intros A B P l m H. induction H; cbn; congruence. Qed.

Section P.
Variable hash : name -> Z.
Hypothesis hash_pos : forall s, 0 < hash s.

(* the tables hold exactly the positions of the names in the list *)
Record NOK (g : names) : Prop := {
  n_none : tab g = None -> nl g = [];
  n_some : forall t, tab g = Some t -> exists f, Rel name_eqb hash t f /\ forall s r, f s = Some r <-> 0 <= r /\ nth_error (nl g) (Z.to_nat r) = Some s
}.
Definition isgid (g : names) (r : Z) (s : name) : Prop := 0 <= r /\ nth_error (nl g) (Z.to_nat r) = Some s.
Definition ext (g g' : names) : Prop := exists l, nl g' = nl g ++ l.
Lemma isgid_ext : forall g g' r s, ext g g' -> isgid g r s -> isgid g' r s.
Proof. intros g g' r s [l E] [A B]. split; [exact A|]. rewrite E, nth_error_app1; [exact B|]. eapply nth_error_Some_lt; eauto. Qed.
Lemma ext_refl : forall g, ext g g. Proof. intro g. exists []. rewrite app_nil_r. reflexivity. Qed.
Lemma ext_trans : forall a b c, ext a b -> ext b c -> ext a c.
Proof. intros a b c [l E] [m F]. exists (l ++ m). rewrite F, E, app_assoc. reflexivity. Qed.
Lemma isgid_inj : forall g r r' s s', NOK g -> isgid g r s -> isgid g r' s' -> (r = r' <-> s = s').
Proof.
  intros g r r' s s' N [A B] [C D]. destruct (tab g) as [t|] eqn:E.
  - destruct (n_some g N t E) as (f & _ & F). split; intros ->; [congruence|]. assert (f s' = Some r) by (apply F; auto). assert (f s' = Some r') by (apply F; auto). congruence.
  - rewrite (n_none g N E) in B. destruct (Z.to_nat r); discriminate.
Qed.

Lemma rel_new : Rel name_eqb hash (m_new name Z 32) (fun _ => None).
Proof.
  destruct (m_new_inv (V := Z) name_eqb hash 32 5 ltac:(lia) eq_refl) as [I C]. split.
  - split; [exact I|]. cbn [m_new pop]. lia.
  - intros k ov. split; [intro H; exfalso; eapply C; exact H|]. intros (v & E & _). discriminate.
Qed.
Lemma str2gid_ok : forall g s, NOK g -> exists g' r, str2gid hash g s = Ok (g', r) /\ NOK g' /\ isgid g' r s /\ ext g g'.
Proof.
  intros g s N. unfold str2gid.
  set (t0 := match tab g with Some t => t | None => m_new name Z 32 end). set (l0 := match tab g with Some _ => nl g | None => [] end).
  assert (H0 : l0 = nl g) by (unfold l0; destruct (tab g) eqn:E; [reflexivity|symmetry; apply (n_none g N E)]).
  assert (H1 : exists f, Rel name_eqb hash t0 f /\ forall s r, f s = Some r <-> 0 <= r /\ nth_error (nl g) (Z.to_nat r) = Some s).
  { unfold t0. destruct (tab g) as [t|] eqn:E; [apply (n_some g N t E)|]. exists (fun _ => None). split; [apply rel_new|]. intros s' r. rewrite (n_none g N E).
    split; [discriminate|]. intros [_ H]. destruct (Z.to_nat r); discriminate. }
  destruct H1 as (f & R & F).
  destruct (mk_rel name_eqb hash name_eqb_sym name_eqb_trans (name_hash hash) hash_pos t0 f s R) as (t & p & had & -> & H & Sv).
  cbn [bind]. destruct (f s) as [v|] eqn:E.
  - destruct H as [-> (R' & e & k' & Ee & _ & _ & _ & Ev)]. unfold rd. rewrite Ee. cbn [bind]. rewrite Ev. cbn [get bind]. eexists _, v. split; [reflexivity|]. rewrite H0. apply F in E.
    split; [|split; [exact E|exists []; cbn; rewrite app_nil_r; reflexivity]]. constructor; cbn [tab nl]; [discriminate|]. intros t' [= <-]. exists f. auto.
  - subst had. destruct (Sv (Z.of_nat (length l0))) as (e & t' & Ee & -> & R'). cbn [bind]. eexists _, _. split; [reflexivity|]. rewrite H0 in *.
    split; [|split; [split; [lia|cbn; rewrite Nat2Z.id, nth_error_app2, Nat.sub_diag by lia; reflexivity]|exists [s]; reflexivity]].
    constructor; cbn [tab nl]; [discriminate|]. intros t'' [= <-]. eexists. split; [exact R'|]. intros s' r. unfold fset.
    destruct (name_eqb s s') eqn:Es.
    + apply name_eqb_eq in Es. subst s'. split.
      * intros [= <-]. split; [lia|]. rewrite Nat2Z.id, nth_error_app2, Nat.sub_diag by lia. reflexivity.
      * intros [A B]. destruct (Nat.lt_ge_cases (Z.to_nat r) (length (nl g))) as [Lt|Ge].
        { rewrite nth_error_app1 in B by exact Lt. assert (f s = Some r) by (apply F; auto). congruence. }
        { pose proof (nth_error_Some_lt _ _ _ B) as Lt. rewrite app_length in Lt. cbn in Lt. f_equal. lia. }
    + rewrite F. split; intros [A B]; (split; [exact A|]).
      * rewrite nth_error_app1; [exact B|]. eapply nth_error_Some_lt; eauto.
      * destruct (Nat.lt_ge_cases (Z.to_nat r) (length (nl g))) as [Lt|Ge]; [rewrite nth_error_app1 in B by exact Lt; exact B|].
        pose proof (nth_error_Some_lt _ _ _ B) as Lt. rewrite app_length in Lt. cbn in Lt. rewrite nth_error_app2 in B by lia.
        replace (Z.to_nat r - length (nl g))%nat with 0%nat in B by lia. cbn in B. injection B as ->. rewrite name_eqb_refl in Es. discriminate.
Qed.
Lemma str2gidQ_ok : forall g s, NOK g -> (exists r, str2gidQ hash g s = Ok r /\ isgid g r s) \/ (str2gidQ hash g s = Ok (-1) /\ forall r, ~ isgid g r s).
Proof.
  intros g s N. unfold str2gidQ. destruct (tab g) as [t|] eqn:E.
  - destruct (n_some g N t E) as (f & R & F).
    destruct (step_ok name_eqb hash name_eqb_sym name_eqb_trans (name_hash hash) hash_pos t f (GetD name Z s (-1)) R) as (m' & St & _).
    cbn [HtabThm.step spec_step fst] in St. destruct (getD name Z name_eqb hash t s (-1)) as [v| |]; cbn [bind] in St; try discriminate. injection St as Hv _. subst v.
    destruct (f s) as [r|] eqn:Ef; cbn [dflt].
    + left. exists r. split; [reflexivity|]. apply F in Ef. exact Ef.
    + right. split; [reflexivity|]. intros r H. apply F in H. congruence.
  - right. split; [reflexivity|]. intros r [_ B]. rewrite (n_none g N E) in B. destruct (Z.to_nat r); discriminate.
Qed.

(* how a body represents a list of variables *)
Record BOK (g : names) (b : body) (l : list svar) : Prop := {
  b_am : varAm b = length l;
  b_vals : vals b = List.map vval l;
  b_ns : (nsVarAm b <= length l)%nat;
  b_ids : forall i v, nth_error l i = Some v -> vexp v = true -> (i < nsVarAm b)%nat;
  b_len : (length l <= length (expGIDs b))%nat;
  b_exp : forall i v, nth_error l i = Some v -> exists e, nth_error (expGIDs b) i = Some e /\
            (if vexp v then exists s, vname v = Some s /\ isgid g e s else e = -1);
  b_vd : forall i v, nth_error l i = Some v -> exists c k, nth_error (varData b) i = Some c /\ nth_error (varData b) (i + length l) = Some k /\
            match vname v with
            | Some s => 0 <= k /\ nth_error (nameList b) (Z.to_nat k) = Some s /\ (c = -1 \/ isgid g c s)
            | None => c = -1 /\ k = -1
            end
}.
Lemma BOK_ext : forall g g' b l, ext g g' -> BOK g b l -> BOK g' b l.
Proof.
  intros g g' b l E B. destruct B as [A V N I L X D]. constructor; auto.
  - intros i v H. destruct (X i v H) as (e & Ee & Q). exists e. split; [exact Ee|]. destruct (vexp v); [|exact Q]. destruct Q as (s & Es & G). exists s. split; [exact Es|]. eapply isgid_ext; eauto.
  - intros i v H. destruct (D i v H) as (c & k & Ec & Ek & Q). exists c, k. split; [exact Ec|]. split; [exact Ek|]. destruct (vname v) as [s|]; [|exact Q].
    destruct Q as (Q1 & Q2 & [Q3|Q3]); auto. split; [exact Q1|]. split; [exact Q2|]. right. eapply isgid_ext; eauto.
Qed.

Fixpoint index_of (s : name) (l : list svar) : option nat := match l with [] => None | v :: t => if hit s v then Some 0%nat else match index_of s t with Some i => Some (S i) | None => None end end.
Lemma find_ok : forall g b l s r, NOK g -> BOK g b l -> isgid g r s ->
  find_loop b r (nsVarAm b) 0 = Ok (index_of s l).
Proof.
  intros g b l s r N B G.
  assert (H : forall n i, (i + n)%nat = nsVarAm b -> find_loop b r n i = Ok (match index_of s (skipn i l) with Some j => Some (i + j)%nat | None => None end)).
  { induction n as [|n IH]; intros i Hi; cbn [find_loop].
    - assert (Q : index_of s (skipn i l) = None).
      { assert (K : forall v, In v (skipn i l) -> hit s v = false).
        { intros v Hv. apply In_nth_error in Hv. destruct Hv as [j Hj]. assert (Hj' : nth_error l (i + j) = Some v) by (rewrite <- Hj; clear; revert l; induction i; intros [|x l]; cbn; auto; destruct j; reflexivity).
          unfold hit. destruct (vexp v) eqn:Ev; [|reflexivity]. pose proof (b_ids _ _ _ B _ _ Hj' Ev). lia. }
        revert K. generalize (skipn i l). induction l0 as [|v t IHt]; intro K; cbn; [reflexivity|]. rewrite (K v) by (left; reflexivity). rewrite IHt; [reflexivity|]. intros; apply K; right; assumption. }
      rewrite Q. reflexivity.
    - pose proof (b_ns _ _ _ B) as Bn. destruct (nth_error l i) as [v|] eqn:Ev; [|apply nth_error_None in Ev; lia].
      destruct (b_exp _ _ _ B _ _ Ev) as (e & Ee & Q). unfold rd. rewrite Ee. cbn [bind].
      assert (Sk : skipn i l = v :: skipn (S i) l) by (clear - Ev; revert l Ev; induction i; intros [|x l] Ev; cbn in *; try discriminate; [congruence|apply IHi; exact Ev]).
      rewrite Sk. cbn [index_of].
      assert (Hh : (e =? r) = hit s v).
      { unfold hit. destruct (vexp v); [|rewrite Q; destruct G; destruct (Z.eqb_spec (-1) r); [lia|reflexivity]]. destruct Q as (s' & -> & G'). cbn [andb].
        pose proof (isgid_inj g e r s' s N G' G) as J. destruct (Z.eqb_spec e r) as [->|Ne]; destruct (name_eqb s' s) eqn:En; auto.
        - destruct J as [J _]. rewrite (J eq_refl), name_eqb_refl in En. discriminate.
        - apply name_eqb_eq in En. apply J in En. contradiction. }
      rewrite Hh. destruct (hit s v); [rewrite Nat.add_0_r; reflexivity|]. rewrite (IH (S i)) by lia. destruct (index_of s (skipn (S i) l)); [f_equal; f_equal; lia|reflexivity]. }
  rewrite H by lia. cbn [skipn]. destruct (index_of s l); reflexivity.
Qed.
Lemma lookup_index : forall s l, lookup s l = match index_of s l with Some i => option_map vval (nth_error l i) | None => None end.
Proof. induction l as [|v t IH]; cbn; [reflexivity|]. destruct (hit s v); [reflexivity|]. rewrite IH. destruct (index_of s t); reflexivity. Qed.
Lemma index_lt : forall s l i, index_of s l = Some i -> (i < length l)%nat.
Proof. induction l as [|v t IH]; intros i H; cbn in H; [discriminate|]. destruct (hit s v); [injection H as <-; cbn; lia|]. destruct (index_of s t) as [j|]; [|discriminate]. injection H as <-. cbn. specialize (IH j eq_refl). lia. Qed.
Lemma getU_ok : forall g b l s r, NOK g -> BOK g b l -> isgid g r s -> ns_getU b r = Ok (lookup s l).
Proof.
  intros g b l s r N B G. unfold ns_getU. rewrite (find_ok g b l s r N B G). cbn [bind]. rewrite lookup_index. destruct (index_of s l) as [i|] eqn:E; [|reflexivity].
  pose proof (index_lt _ _ _ E) as Lt. rewrite (b_vals _ _ _ B). unfold rd. rewrite nth_error_map. destruct (nth_error l i) eqn:En; [reflexivity|]. apply nth_error_None in En. lia.
Qed.
Lemma lookup_never : forall g b l s, BOK g b l -> (forall r, ~ isgid g r s) -> lookup s l = None.
Proof.
  intros g b l s B F. rewrite lookup_index. destruct (index_of s l) as [i|] eqn:E; [|reflexivity]. exfalso.
  assert (H : exists v, nth_error l i = Some v /\ hit s v = true).
  { clear - E. revert i E. induction l as [|v t IH]; intros i E; cbn in E; [discriminate|]. destruct (hit s v) eqn:Hv; [injection E as <-; exists v; auto|].
    destruct (index_of s t) as [j|]; [|discriminate]. injection E as <-. destruct (IH j eq_refl) as (w & ? & ?). exists w. auto. }
  destruct H as (v & En & Hv). destruct (b_exp _ _ _ B _ _ En) as (e & _ & Q). unfold hit in Hv. destruct (vexp v); [|discriminate]. destruct Q as (s' & Es & G). rewrite Es in Hv. cbn in Hv.
  apply name_eqb_eq in Hv. subst s'. exact (F e G).
Qed.

(* m_nsDesc *)
Lemma mkvars_length : forall nlist vs ids ex off, length (mkvars nlist ids ex off vs) = length vs.
Proof. induction vs as [|v vs IH]; intros ids ex off; cbn; [reflexivity|]. destruct off; [destruct ids, ex|]; cbn; rewrite IH; reflexivity. Qed.
Lemma mkvars_nth : forall nlist vs ids ex off p v, nth_error (mkvars nlist ids ex off vs) p = Some v -> length ids = length ex ->
  (exists i e, (off <= p)%nat /\ nth_error ids (p - off) = Some i /\ nth_error ex (p - off) = Some e /\ vname v = nth_error nlist i /\ vexp v = e) \/
  ((p < off \/ off + length ids <= p)%nat /\ vname v = None /\ vexp v = false).
Proof.
  induction vs as [|x vs IH]; intros ids ex off p v H L; cbn [mkvars] in H; [destruct p; discriminate|].
  destruct off as [|off].
  - destruct ids as [|i ids], ex as [|e ex]; try discriminate L.
    + destruct p; cbn in H; [injection H as <-; right; cbn; split; [lia|auto]|]. destruct (IH [] [] 0%nat p v H eq_refl) as [(i & e & _ & Q & _)|Q]; [destruct (p - 0)%nat; discriminate|]. right. cbn in *. destruct Q as (_ & Q1 & Q2). split; [lia|auto].
    + destruct p; cbn in H; [injection H as <-; left; exists i, e; cbn; split; [lia|auto]|]. injection L as L.
      destruct (IH ids ex 0%nat p v H L) as [(i' & e' & A & B & C & D)|(A & B)]; [left; exists i', e'|right; cbn; split; [lia|exact B]].
      split; [lia|]. replace (S p - 0)%nat with (S p) by lia. rewrite Nat.sub_0_r in B, C. auto.
  - destruct p; cbn in H; [injection H as <-; right; cbn; split; [lia|auto]|].
    destruct (IH ids ex off p v H L) as [(i' & e' & A & B & C & D)|(A & B)]; [left; exists i', e'; cbn [Nat.sub]; split; [lia|auto]|right; split; [lia|exact B]].
Qed.
Lemma mkvars_vals : forall nlist vs ids ex off, List.map vval (mkvars nlist ids ex off vs) = vs.
Proof. induction vs as [|v vs IH]; intros ids ex off; cbn; [reflexivity|]. destruct off; [destruct ids, ex|]; cbn; rewrite IH; reflexivity. Qed.
Lemma desc_loop_ok : forall nlist vam ids ex i g vd eg, NOK g -> length ids = length ex -> (i + length ids <= vam)%nat -> length vd = (vam + vam)%nat -> (vam <= length eg)%nat -> Forall (fun c => c < length nlist)%nat ids ->
  exists g' vd' eg', desc_loop hash g nlist ids ex i vam vd eg = Ok (g', vd', eg') /\ NOK g' /\ ext g g' /\ length vd' = length vd /\ length eg' = length eg /\
  (forall q, (q < i + vam \/ i + vam + length ids <= q)%nat -> nth_error vd' q = nth_error vd q) /\
  (forall q, (q < i \/ i + length ids <= q)%nat -> nth_error eg' q = nth_error eg q) /\
  (forall k c e, nth_error ids k = Some c -> nth_error ex k = Some e -> nth_error vd' (i + k + vam) = Some (Z.of_nat c) /\
     exists x, nth_error eg' (i + k) = Some x /\ if (e : bool) then exists s, nth_error nlist c = Some s /\ isgid g' x s else x = -1).
Proof.
  intros nlist vam. induction ids as [|c ids IH]; intros [|e ex] i g vd eg N L B Lv Le F; cbn [desc_loop] in *; try discriminate.
  - exists g, vd, eg. split; [reflexivity|]. split; [exact N|]. split; [apply ext_refl|]. repeat split; auto; (destruct k; discriminate).
  - cbn [length] in *. inversion F as [|? ? Fc Fi]; subst. injection L as L. unfold wr at 1. destruct (Nat.ltb_spec (i + vam) (length vd)) as [_|]; [|lia]. cbn [bind].
    assert (Hx : exists g1 x, (if e then do s <- rd nlist c; str2gid hash g s else Ok (g, -1)) = Ok (g1, x) /\ NOK g1 /\ ext g g1 /\ if e then exists s, nth_error nlist c = Some s /\ isgid g1 x s else x = -1).
    { destruct e; [|exists g, (-1); split; [reflexivity|]; split; [exact N|]; split; [apply ext_refl|reflexivity]]. unfold rd. destruct (nth_error nlist c) as [s|] eqn:Es; [|apply nth_error_None in Es; lia].
      cbn [bind]. destruct (str2gid_ok g s N) as (g1 & r & -> & N1 & G1 & E1). exists g1, r. split; [reflexivity|]. split; [exact N1|]. split; [exact E1|]. exists s. auto. }
    destruct Hx as (g1 & x & -> & N1 & E1 & Hx). cbn [bind]. unfold wr at 1. destruct (Nat.ltb_spec i (length eg)) as [_|]; [|lia]. cbn [bind].
    destruct (IH ex (S i) g1 (upd vd (i + vam) (Z.of_nat c)) (upd eg i x)) as (g' & vd' & eg' & R & N' & E' & Lv' & Le' & P1 & P2 & P3); auto; [lia|rewrite upd_length; exact Lv|rewrite upd_length; exact Le|].
    exists g', vd', eg'. split; [exact R|]. split; [exact N'|]. split; [eapply ext_trans; eauto|]. rewrite upd_length in *. split; [exact Lv'|]. split; [exact Le'|]. split; [|split].
    + intros q Hq. rewrite P1 by lia. rewrite nth_error_upd. destruct (Nat.eqb_spec (i + vam) q); [lia|reflexivity].
    + intros q Hq. rewrite P2 by lia. rewrite nth_error_upd. destruct (Nat.eqb_spec i q); [lia|reflexivity].
    + intros [|k] c' e' H1 H2; cbn [nth_error] in H1, H2.
      * injection H1 as ->. injection H2 as ->. rewrite Nat.add_0_r. rewrite P1 by lia. rewrite upd_same by lia. split; [reflexivity|]. exists x. rewrite P2 by lia. rewrite upd_same by lia.
        split; [reflexivity|]. destruct e'; [|exact Hx]. destruct Hx as (s & Hs & G). exists s. split; [exact Hs|]. eapply isgid_ext; eauto.
      * destruct (P3 k c' e' H1 H2) as [Q1 Q2]. replace (i + S k + vam)%nat with (S i + k + vam)%nat by lia. replace (i + S k)%nat with (S i + k)%nat by lia. auto.
Qed.
Lemma nth_repeat_lt : forall A (x : A) n i, (i < n)%nat -> nth_error (repeat x n) i = Some x.
Proof. induction n; intros [|i] H; cbn; try lia; [reflexivity|]. apply IHn. lia. Qed.
Lemma nsDesc_ok : forall g imm ty vam nlist ids ex vs, NOK g -> length ids = length ex -> length vs = vam -> (length ids + special imm ty <= vam)%nat -> Forall (fun i => i < length nlist)%nat ids ->
  exists g' b, m_nsDesc hash g imm ty vam nlist ids ex vs = Ok (g', Some b) /\ NOK g' /\ ext g g' /\ BOK g' b (mkvars nlist ids ex (special imm ty) vs).
Proof.
  intros g imm ty vam nlist ids ex vs N L Lv B F. unfold m_nsDesc. rewrite (proj2 (Nat.eqb_eq _ _) L). cbn [negb]. fold (special imm ty). set (off := special imm ty) in *.
  destruct (desc_loop_ok nlist vam ids ex off g (repeat (-1) (vam + vam)) (repeat (-1) (Nat.max vam 2)) N L) as (g' & vd & eg & -> & N' & E' & L1 & L2 & P1 & P2 & P3);
    [lia|apply repeat_length|rewrite repeat_length; lia|exact F|]. cbn [bind]. eexists _, _. split; [reflexivity|]. split; [exact N'|]. split; [exact E'|].
  rewrite repeat_length in L1, L2. pose proof (mkvars_length nlist vs ids ex off) as ML.
  constructor; cbn [varAm vals nsVarAm expGIDs varData nameList]; rewrite ?ML; auto; try lia.
  - rewrite mkvars_vals. reflexivity.
  - intros i v H Hv. destruct (mkvars_nth _ _ _ _ _ _ _ H L) as [(j & e & Q1 & Q2 & _)|(_ & _ & Q)]; [|congruence]. apply nth_error_Some_lt in Q2. lia.
  - intros i v H. pose proof (nth_error_Some_lt _ _ _ H) as Lt. rewrite ML in Lt. destruct (mkvars_nth _ _ _ _ _ _ _ H L) as [(j & e & Q1 & Q2 & Q3 & Q4 & Q5)|(Q1 & Q2 & Q3)].
    + destruct (P3 _ _ _ Q2 Q3) as (_ & x & X1 & X2). replace (off + (i - off))%nat with i in X1 by lia. exists x. split; [exact X1|]. rewrite Q5. destruct e; [|exact X2]. destruct X2 as (s & Hs & G). exists s. split; [congruence|exact G].
    + rewrite Q3. exists (-1). split; [|reflexivity]. rewrite P2 by lia. apply nth_repeat_lt. lia.
  - intros i v H. pose proof (nth_error_Some_lt _ _ _ H) as Lt. rewrite ML in Lt. exists (-1). destruct (mkvars_nth _ _ _ _ _ _ _ H L) as [(j & e & Q1 & Q2 & Q3 & Q4 & Q5)|(Q1 & Q2 & Q3)].
    + exists (Z.of_nat j). rewrite P1 by lia. rewrite nth_repeat_lt by lia. split; [reflexivity|]. destruct (P3 _ _ _ Q2 Q3) as (X & _). replace (off + (i - off) + vam)%nat with (i + length vs)%nat in X by lia. split; [exact X|].
      rewrite Q4. destruct (nth_error nlist j) as [s|] eqn:Es; [rewrite Nat2Z.id; split; [lia|auto]|]. apply nth_error_None in Es. rewrite Forall_forall in F. apply nth_error_In in Q2. specialize (F _ Q2). cbn in F. lia.
    + exists (-1). rewrite Q2. rewrite !P1 by lia. rewrite !nth_repeat_lt by lia. auto.
Qed.

Lemma pos2gid_ok : forall g b l pos v, NOK g -> BOK g b l -> nth_error l pos = Some v ->
  exists g' b', NOK g' /\ ext g g' /\ BOK g' b' l /\
  match vname v with Some s => exists r, pos2gid hash g b pos = Ok (g', b', Some r) /\ isgid g' r s | None => pos2gid hash g b pos = Ok (g', b', None) end.
Proof.
  intros g b l pos v N B H. destruct (b_vd _ _ _ B _ _ H) as (c & k & Ec & Ek & Q). assert (R1 : rd (varData b) pos = Ok c) by (unfold rd; rewrite Ec; reflexivity). assert (R2 : rd (varData b) (pos + length l) = Ok k) by (unfold rd; rewrite Ek; reflexivity).
  unfold pos2gid. rewrite R1. cbn [bind]. rewrite (b_am _ _ _ B), R2. cbn [bind].
  destruct (vname v) as [s|] eqn:Ev.
  - destruct Q as (K1 & K2 & Q). destruct (Z.eqb_spec c (-1)) as [->|Nc]; cbn [negb].
    + destruct (Z.eqb_spec k (-1)); [lia|]. unfold rd. rewrite K2. cbn [bind]. destruct (str2gid_ok g s N) as (g' & r & -> & N' & G' & E'). cbn [bind].
      pose proof (nth_error_Some_lt _ _ _ Ec) as Lc. unfold wr. destruct (Nat.ltb_spec pos (length (varData b))); [|lia]. cbn [bind].
      eexists g', _. split; [exact N'|]. split; [exact E'|]. split; [|exists r; split; [reflexivity|exact G']].
      pose proof (BOK_ext _ _ _ _ E' B) as B'. destruct B' as [A V Nn I L X D]. constructor; cbn [varAm vals nsVarAm expGIDs varData nameList]; auto.
      intros i w Hw. destruct (D i w Hw) as (c' & k' & Ec' & Ek' & Q'). pose proof (nth_error_Some_lt _ _ _ H) as Lp. pose proof (nth_error_Some_lt _ _ _ Hw) as Li.
      rewrite !nth_error_upd. destruct (Nat.eqb_spec pos i) as [->|Ni].
      * destruct (Nat.eqb_spec i (i + length l)); [lia|]. destruct (Nat.ltb_spec i (length (varData b))); [|lia]. exists r, k'. split; [reflexivity|]. split; [exact Ek'|].
        rewrite H in Hw. injection Hw as <-. rewrite Ev in *. destruct Q' as (T1 & T2 & _). auto.
      * destruct (Nat.eqb_spec pos (i + length l)); [lia|]. exists c', k'. auto.
    + destruct Q as [->|G]; [contradiction|]. exists g, b. split; [exact N|]. split; [apply ext_refl|]. split; [exact B|]. exists c. auto.
  - destruct Q as [-> ->]. cbn [Z.eqb negb Pos.eqb]. exists g, b. split; [exact N|]. split; [apply ext_refl|]. split; [exact B|reflexivity].
Qed.

Definition ALL (g : names) (bs : list body) (sb : list (list svar)) : Prop := NOK g /\ Forall2 (BOK g) bs sb.
Lemma all_ext : forall g g' bs sb, ext g g' -> Forall2 (BOK g) bs sb -> Forall2 (BOK g') bs sb.
Proof. intros g g' bs sb E H. induction H; constructor; auto. eapply BOK_ext; eauto. Qed.
Lemma F2_nth : forall A B (P : A -> B -> Prop) l m i d, Forall2 P l m -> (i < length m)%nat -> exists a, nth_error l i = Some a /\ P a (nth i m d).
Proof. intros A B P l m i d H. revert i. induction H; intros [|i] Hi; cbn in *; try lia; [exists x; auto|]. apply IHForall2. lia. Qed.
Lemma F2_upd : forall A B (P : A -> B -> Prop) l m i a b, Forall2 P l m -> P a b -> Forall2 P (upd l i a) (upd m i b).
Proof. intros A B P l m i a b H Q. revert i. induction H; intros [|i]; cbn; constructor; auto. Qed.
Lemma F2_upd_l : forall A B (P : A -> B -> Prop) l m i a d, Forall2 P l m -> (i < length m)%nat -> P a (nth i m d) -> Forall2 P (upd l i a) m.
Proof. intros A B P l m i a d H. revert i. induction H; intros [|i] Hi Q; cbn in *; try lia; constructor; auto. apply IHForall2; [lia|auto]. Qed.
Lemma assign_index : forall s x l, assign s x l = match index_of s l with Some i => match nth_error l i with Some v => upd l i {| vname := vname v; vexp := vexp v; vval := x |} | None => l end | None => l end.
Proof.
  induction l as [|v t IH]; cbn; [reflexivity|]. destruct (hit s v); [reflexivity|]. rewrite IH. destruct (index_of s t) as [i|]; [|reflexivity]. cbn. destruct (nth_error t i); reflexivity.
Qed.
Lemma map_upd : forall A B (f : A -> B) l i x, List.map f (upd l i x) = upd (List.map f l) i (f x).
Proof. induction l as [|y l IH]; intros [|i] x; cbn; auto. f_equal. apply IH. Qed.

Lemma step_ok' : forall g bs sb o, ALL g bs sb -> wfop (List.map (@length svar) sb) o ->
  exists g' bs', NsModel.step hash g bs o = Ok (g', bs', snd (sstep sb o)) /\ ALL g' bs' (fst (sstep sb o)) /\ List.map (@length svar) (fst (sstep sb o)) = sizes_after (List.map (@length svar) sb) o.
Proof.
  intros g bs sb o [N F] W. assert (LF : length bs = length sb) by (eapply Forall2_length; eauto).
  destruct o as [s|imm ty vam nlist ids ex vs|n s|n s|b pos n|n s v]; cbn [NsModel.step sstep wfop sizes_after fst snd] in *; rewrite ?map_length in W.
  - destruct (str2gid_ok g s N) as (g' & r & -> & N' & G' & E'). cbn [bind]. exists g', bs. split; [reflexivity|]. split; [|reflexivity]. split; [exact N'|eapply all_ext; eauto].
  - destruct (Nat.eqb_spec (length ids) (length ex)) as [L|L].
    + destruct W as (W1 & W2 & W3). destruct (nsDesc_ok g imm ty vam nlist ids ex vs N L W1 W2 W3) as (g' & b & -> & N' & E' & B'). cbn [bind fst snd].
      eexists g', _. split; [reflexivity|]. split; [|rewrite map_app; cbn; rewrite mkvars_length, W1; reflexivity]. split; [exact N'|]. apply Forall2_app; [eapply all_ext; eauto|]. constructor; auto.
    + unfold m_nsDesc. destruct (Nat.eqb_spec (length ids) (length ex)); [contradiction|]. cbn [negb bind fst snd]. exists g, bs. split; [reflexivity|]. split; [split; assumption|reflexivity].
  - destruct (str2gid_ok g s N) as (g' & r & -> & N' & G' & E'). cbn [bind]. destruct (F2_nth _ _ _ _ _ n [] (all_ext _ _ _ _ E' F) W) as (b & Eb & B'). unfold rd. rewrite Eb. cbn [bind].
    rewrite (getU_ok g' b _ s r N' B' G'). cbn [bind]. exists g', bs. split; [reflexivity|]. split; [|reflexivity]. split; [exact N'|eapply all_ext; eauto].
  - destruct (F2_nth _ _ _ _ _ n [] F W) as (b & Eb & B'). unfold rd. rewrite Eb. cbn [bind]. unfold ns_getNU. exists g, bs.
    destruct (str2gidQ_ok g s N) as [(r & -> & G)|(-> & Q)]; cbn [bind].
    + destruct (Z.eqb_spec r (-1)) as [->|]; [destruct G; lia|]. cbn [negb]. rewrite (getU_ok g b _ s r N B' G). cbn [bind]. split; [reflexivity|]. split; [split; assumption|reflexivity].
    + cbn [Z.eqb negb Pos.eqb bind]. rewrite (lookup_never g b _ s B' Q). split; [reflexivity|]. split; [split; assumption|reflexivity].
  - destruct W as (W1 & W2 & W3). change 0%nat with (length (@nil svar)) in W3. rewrite map_nth in W3. destruct (F2_nth _ _ _ _ _ b [] F W2) as (b1 & Eb & B1). unfold rd. rewrite Eb. cbn [bind].
    destruct (nth_error (nth b sb []) pos) as [v|] eqn:Ev; [|apply nth_error_None in Ev; lia].
    destruct (pos2gid_ok g b1 _ pos v N B1 Ev) as (g' & b' & N' & E' & B' & Q).
    assert (F' : Forall2 (BOK g') (upd bs b b') sb) by (eapply F2_upd_l; [eapply all_ext; eauto|exact W2|exact B']).
    assert (Wr : wr bs b b' = Ok (upd bs b b')) by (unfold wr; destruct (Nat.ltb_spec b (length bs)); [reflexivity|lia]).
    exists g', (upd bs b b'). split; [|split; [split; assumption|reflexivity]]. destruct v as [[s|] ve vv]; cbn [vname] in *.
    + destruct Q as (r & -> & G'). cbn [bind]. rewrite Wr. cbn [bind]. destruct (F2_nth _ _ _ _ _ n [] F' W1) as (b2 & Eb2 & B2). rewrite Eb2. cbn [bind]. rewrite (getU_ok g' b2 _ s r N' B2 G'). reflexivity.
    + rewrite Q. cbn [bind]. rewrite Wr. reflexivity.
  - destruct (F2_nth _ _ _ _ _ n [] F W) as (b & Eb & B). unfold rd at 1. rewrite Eb. cbn [bind]. unfold ns_set. destruct (str2gid_ok g s N) as (g' & r & -> & N' & G' & E'). cbn [bind].
    pose proof (BOK_ext _ _ _ _ E' B) as B'. rewrite (find_ok g' b _ s r N' B' G'). cbn [bind]. rewrite lookup_index, assign_index. set (l := nth n sb []) in *. destruct (index_of s l) as [i|] eqn:Ei.
    + pose proof (index_lt _ _ _ Ei) as Li. destruct (nth_error l i) as [x|] eqn:Ex; [|apply nth_error_None in Ex; lia]. cbn [option_map fst snd].
      unfold wr at 1. rewrite (b_vals _ _ _ B'), map_length. destruct (Nat.ltb_spec i (length l)) as [_|]; [|lia]. cbn [bind]. unfold wr. destruct (Nat.ltb_spec n (length bs)) as [_|]; [|lia]. cbn [bind].
      eexists g', _. split; [reflexivity|]. split.
      * split; [exact N'|]. apply F2_upd; [eapply all_ext; eauto|]. destruct B' as [A V Nn I L X D]. set (x' := {| vname := vname x; vexp := vexp x; vval := v |}).
        assert (Nt : forall j y, nth_error (upd l i x') j = Some y -> exists y', nth_error l j = Some y' /\ vname y' = vname y /\ vexp y' = vexp y).
        { intros j y Hy. rewrite nth_error_upd in Hy. destruct (Nat.eqb_spec i j) as [->|]; [|exists y; auto]. destruct (j <? length l)%nat; [|discriminate]. injection Hy as <-. exists x. auto. }
        constructor; cbn [varAm vals nsVarAm expGIDs varData nameList]; rewrite ?upd_length; auto.
        -- rewrite map_upd. reflexivity.
        -- intros j y Hy Ey. destruct (Nt j y Hy) as (y' & H1 & H2 & H3). apply (I j y' H1). congruence.
        -- intros j y Hy. destruct (Nt j y Hy) as (y' & H1 & H2 & H3). destruct (X j y' H1) as (e & ? & ?). exists e. rewrite <- H2, <- H3. auto.
        -- intros j y Hy. destruct (Nt j y Hy) as (y' & H1 & H2 & H3). destruct (D j y' H1) as (c & k & ? & ? & ?). exists c, k. rewrite <- H2. auto.
      * rewrite map_upd, upd_length. apply nth_error_ext. intro j. rewrite nth_error_upd, map_length. destruct (Nat.eqb_spec n j) as [->|]; [|reflexivity].
        destruct (Nat.ltb_spec j (length sb)); [|lia]. rewrite nth_error_map. unfold l. rewrite (nth_error_nth' sb [] H). reflexivity.
    + cbn [fst snd]. exists g', bs. split; [reflexivity|]. split; [|reflexivity]. split; [exact N'|eapply all_ext; eauto].
Qed.
Lemma run_ok' : forall l g bs sb, ALL g bs sb -> wfops (List.map (@length svar) sb) l -> NsModel.run hash g bs l = Ok (srun sb l).
Proof.
  induction l as [|o l IH]; intros g bs sb A W; [reflexivity|]. cbn [NsModel.run srun wfops] in *. destruct W as [W1 W2]. destruct (step_ok' g bs sb o A W1) as (g' & bs' & -> & A' & L'). cbn [bind].
  destruct (sstep sb o) as [sb' a]. cbn [fst snd] in *. rewrite (IH g' bs' sb' A'); [reflexivity|]. rewrite L'. exact W2.
Qed.
End P.

(** Whatever names are interned in whatever order, whichever positions are cached and whatever the hash function, each field read, spread or store answers
    as a search for the first exported variable with that name. *)
Theorem C32_fields : forall (hash : name -> Z) (l : list op), (forall s, 0 < hash s) -> wfops [] l -> NsModel.run hash no_names [] l = Ok (srun [] l).
Proof.
  intros hash l H W. apply run_ok'; [exact H| |exact W]. split; [|constructor]. constructor; [reflexivity|discriminate].
Qed.
Print Assumptions C32_fields.

(** Interning: identifiers of two names are equal exactly if the names are, and never change. *)
Theorem C32_interning : forall (hash : name -> Z) (l : list name) (s : name), (forall s, 0 < hash s) ->
  exists g ids, (fix go (g : names) (l : list name) : res (names * list Z) := match l with [] => Ok (g, []) | s :: l => do (g, r) <- str2gid hash g s; do (g, rs) <- go g l; Ok (g, r :: rs) end) no_names l = Ok (g, ids)
  /\ (forall i j a b x y, nth_error l i = Some a -> nth_error l j = Some b -> nth_error ids i = Some x -> nth_error ids j = Some y -> (x = y <-> a = b) /\ gid2str g x = Ok a)
  /\ (exists r, str2gidQ hash g s = Ok r /\ if in_dec (list_eq_dec Z.eq_dec) s l then gid2str g r = Ok s else r = -1).
Proof.
  intros hash l s H.
  assert (G : forall l g, NOK hash g -> exists g' ids, (fix go (g : names) (l : list name) : res (names * list Z) := match l with [] => Ok (g, []) | s :: l => do (g, r) <- str2gid hash g s; do (g, rs) <- go g l; Ok (g, r :: rs) end) g l = Ok (g', ids)
    /\ NOK hash g' /\ ext g g' /\ Forall2 (isgid g') ids l /\ forall x, In x (nl g') -> In x (nl g) \/ In x l).
  { clear l s. induction l as [|s l IH]; intros g N; [exists g, []; split; [reflexivity|]; split; [exact N|]; split; [apply ext_refl|]; auto|].
    assert (Q : exists g1 r, str2gid hash g s = Ok (g1, r) /\ NOK hash g1 /\ isgid g1 r s /\ ext g g1 /\ forall x, In x (nl g1) -> In x (nl g) \/ x = s).
    { destruct (str2gid_ok hash H g s N) as (g1 & r & E & N1 & G1 & E1). exists g1, r. split; [exact E|]. split; [exact N1|]. split; [exact G1|]. split; [exact E1|].
      intros x Hx. unfold str2gid in E. destruct (mk _ _ _ _ _ _) as [[[t p] had]| |]; cbn [bind] in E; try discriminate.
      assert (L0 : forall y, In y (match tab g with Some _ => nl g | None => [] end) -> In y (nl g)) by (intro y; destruct (tab g); [auto|intros []]).
      destruct had.
      - destruct (rd _ _) as [e0| |]; cbn [bind] in E; try discriminate. destruct (get _); cbn [bind] in E; try discriminate. injection E as <- _. left. apply L0, Hx.
      - destruct (set_val _ _ _ _ _); cbn [bind] in E; try discriminate. injection E as <- _. cbn [nl] in Hx. apply in_app_or in Hx. destruct Hx as [Hx|[ <- |[]]]; [left; apply L0, Hx|right; reflexivity]. }
    destruct Q as (g1 & r & -> & N1 & G1 & E1 & I1). cbn [bind]. destruct (IH g1 N1) as (g2 & ids & -> & N2 & E2 & F2 & I2). cbn [bind]. exists g2, (r :: ids). split; [reflexivity|]. split; [exact N2|].
    split; [eapply ext_trans; eauto|]. split; [constructor; [eapply isgid_ext; eauto|exact F2]|]. intros x Hx. destruct (I2 x Hx) as [Hy|Hy]; [|right; right; exact Hy]. destruct (I1 x Hy) as [Hz| ->]; [left; exact Hz|right; left; reflexivity]. }
  destruct (G l no_names) as (g & ids & E & N & _ & F & I); [constructor; [reflexivity|discriminate]|]. exists g, ids. split; [exact E|].
  assert (Gs : forall r a, isgid g r a -> gid2str g r = Ok a) by (intros r a [A B]; unfold gid2str, rd; destruct (Z.ltb_spec r 0); [lia|]; rewrite B; reflexivity).
  assert (Nt : forall i a x, nth_error l i = Some a -> nth_error ids i = Some x -> isgid g x a).
  { clear - F. induction F; intros [|i] a z H1 H2; cbn in *; try discriminate; [congruence|eauto]. }
  split.
  - intros i j a b x y H1 H2 H3 H4. split; [|eauto]. eapply isgid_inj; eauto.
  - destruct (str2gidQ_ok hash H g s N) as [(r & -> & Gr)|(-> & Q)].
    + exists r. split; [reflexivity|]. destruct (in_dec (list_eq_dec Z.eq_dec) s l) as [Hin|Hout]; [apply Gs; exact Gr|]. exfalso. destruct Gr as [_ B]. apply nth_error_In in B. destruct (I s B) as [[]|B']. contradiction.
    + exists (-1). split; [reflexivity|]. destruct (in_dec (list_eq_dec Z.eq_dec) s l) as [Hin|Hout]; [|reflexivity]. exfalso. apply In_nth_error in Hin. destruct Hin as [i Hi].
      assert (Li : (i < length ids)%nat) by (rewrite (Forall2_length _ _ _ _ _ F); eapply nth_error_Some_lt; eauto). destruct (nth_error ids i) as [x|] eqn:Ex; [|apply nth_error_None in Ex; lia]. exact (Q x (Nt i s x Hi Ex)).
Qed.
Print Assumptions C32_interning.

(* two namespaces with different variable orders, one name exported twice, one not exported, colliding hashes, and a repeated (cached) spread *)
Definition ops0 : list op :=
  [ Intern [120]; NewNs true 0 3 [[97]; [98]; [99]] [0; 1; 2]%nat [true; false; true] [10; 20; 30]; NewNs false 0 6 [[99]; [97]] [0; 1; 0]%nat [true; true; true] [1; 2; 3; 40; 50; 60];
    Field 0 [99]; Field 1 [99]; Field 0 [98]; FieldQ 0 [122]; FieldQ 1 [97]; Spread 0 0 1; Spread 0 0 1; Spread 1 0 0; Spread 0 1 1; Store 1 [97] 77; Spread 0 0 1; Store 0 [98] 5 ].
Example C32_example : wfops [] ops0 /\ srun [] ops0 = [Done; Done; Done; Found 30; Found 40; Missing; Missing; Found 50; Found 50; Found 50; NoName; Missing; Done; Found 77; Missing]
  /\ NsModel.run (fun _ => 5) no_names [] ops0 = Ok (srun [] ops0).
Proof.
  split; [cbn; repeat split; try lia; repeat constructor|]. split; vm_compute; reflexivity.
Qed.
