(** C10: internal hash tables behave as finite maps. *)
From Verif Require Import Base HtabModel HtabProof.

Section Spec.
Variables (K V : Type) (EQUAL : K -> K -> bool) (H1 : K -> Z).
(** Requests. *)
Inductive req := Has (k : K) | GetD (k : K) (def : V) | Ins (k : K) (v : V) | Swap (k : K) (v def : V) | MkGet (k : K) (v : V) | GetUpd (k : K) (g : V -> V) (def : V) | MkUpd (k : K) (g : V -> V) (v : V) | MkOpt (k : K) (v : V).
Inductive ans := AB (b : bool) | AV (v : V) | AO (o : option V).
(** A finite map: from keys, up to equality of keys, to values. *)
Definition fmap : Type := K -> option V.
Definition fset (f : fmap) (k : K) (v : V) : fmap := fun k' => if EQUAL k k' then Some v else f k'.
Definition dflt (o : option V) (d : V) : V := match o with Some v => v | None => d end.
Definition spec_step (f : fmap) (r : req) : ans * fmap :=
  match r with
  | Has k => (AB (match f k with Some _ => true | None => false end), f)
  | GetD k d => (AV (dflt (f k) d), f)
  | Ins k v => (AB (match f k with Some _ => true | None => false end), fset f k v)
  | Swap k v d => (AV (dflt (f k) d), fset f k v)
  | MkGet k v => match f k with Some v' => (AV v', f) | None => (AV v, fset f k v) end
  | GetUpd k g d => match f k with Some v => (AV v, fset f k (g v)) | None => (AV d, f) end
  | MkUpd k g v => match f k with Some x => (AV (g x), fset f k (g x)) | None => (AV v, fset f k v) end
  | MkOpt k v => match f k with Some x => (AO (Some x), f) | None => (AO None, fset f k v) end
  end.
Fixpoint spec_run (f : fmap) (l : list req) : list ans := match l with [] => [] | r :: t => let '(a, f) := spec_step f r in a :: spec_run f t end.
(** The table. *)
Definition step (m : map K V) (r : req) : res (ans * map K V) :=
  match r with
  | Has k => do b <- has K V EQUAL H1 m k; Ok (AB b, m)
  | GetD k d => do v <- getD K V EQUAL H1 m k d; Ok (AV v, m)
  | Ins k v => do (m, b) <- ins K V EQUAL H1 m k v; Ok (AB b, m)
  | Swap k v d => do (m, x) <- swap K V EQUAL H1 m k v d; Ok (AV x, m)
  | MkGet k v => do (m, x) <- mk_get K V EQUAL H1 m k v; Ok (AV x, m)
  | GetUpd k g d => do (m, x) <- getq_upd K V EQUAL H1 m k g d; Ok (AV x, m)
  | MkUpd k g v => do (m, x) <- mk_upd K V EQUAL H1 m k g v; Ok (AV x, m)
  | MkOpt k v => do (m, x) <- mk_opt K V EQUAL H1 m k v; Ok (AO x, m)
  end.
Fixpoint run (m : map K V) (l : list req) : res (list ans) :=
  match l with [] => Ok [] | r :: t => do (a, m) <- step m r; do rest <- run m t; Ok (a :: rest) end.
End Spec.

Section Proof.
Context {K V : Type} (EQUAL : K -> K -> bool) (H1 : K -> Z).
Hypothesis eq_sym' : forall a b, EQUAL a b = true -> EQUAL b a = true.
Hypothesis eq_trans' : forall a b c, EQUAL a b = true -> EQUAL b c = true -> EQUAL a c = true.
Hypothesis hash_eq : forall a b, EQUAL a b = true -> H1 a = H1 b.
Hypothesis hash_pos : forall k, 0 < H1 k.
Definition Rel (m : map K V) (f : fmap K V) : Prop := Good EQUAL H1 m /\ forall k ov, content EQUAL (ents _ _ m) k ov <-> exists v, f k = Some v /\ ov = Some v.

Lemma rel_set : forall m m' f k k0 v, Good EQUAL H1 m' -> (forall k' ov, content EQUAL (ents _ _ m) k' ov <-> exists v, f k' = Some v /\ ov = Some v) ->
  k0 = k \/ EQUAL k0 k = true ->
  (forall k' ov, content EQUAL (ents _ _ m') k' ov <-> (EQUAL k0 k' = true /\ ov = Some v) \/ (EQUAL k0 k' = false /\ content EQUAL (ents _ _ m) k' ov)) -> Rel m' (fset K V EQUAL f k v).
Proof.
  intros m m' f k k0 v G C EQ C'. split; [exact G|]. intros k' ov. rewrite C'. unfold fset.
  assert (Ek : EQUAL k k' = EQUAL k0 k').
  { destruct EQ as [ -> |EQ]; [reflexivity|]. destruct (EQUAL k k') eqn:E1, (EQUAL k0 k') eqn:E2; auto; exfalso.
    - rewrite (eq_trans' _ _ _ EQ E1) in E2. discriminate.
    - rewrite (eq_trans' _ _ _ (eq_sym' _ _ EQ) E2) in E1. discriminate. }
  rewrite Ek. destruct (EQUAL k0 k').
  - split; [intros [[_ ->]|[F _]]; [eauto|discriminate]|]. intros (v' & E & ->). injection E as <-. left. auto.
  - rewrite C. split; [intros [[F _]|[_ H]]; [discriminate|exact H]|]. intro H. right. auto.
Qed.

Lemma mk_rel : forall m f k, Rel m f -> exists m' p had, mk K V EQUAL H1 m k = Ok (m', p, had) /\
    match f k with
    | Some v => had = true /\ Rel m' f /\ (exists e k', nth_error (ents _ _ m') p = Some e /\ ehash _ _ e <> 0 /\ ekey _ _ e = Some k' /\ EQUAL k' k = true /\ eval _ _ e = Some v)
    | None => had = false
    end /\ forall v, exists e m'', nth_error (ents _ _ m') p = Some e /\ set_val _ _ m' p v = Ok m'' /\ Rel m'' (fset K V EQUAL f k v).
Proof.
  intros m f k [G C]. destruct (mk_ok EQUAL H1 eq_sym' eq_trans' hash_eq hash_pos m k G) as (m' & p & had & M & G' & (e & k' & Ee & Ne & Ek & EQ & EQt & Ev) & T & Fa).
    exists m', p, had. split; [exact M|]. split.
    - destruct had.
      + destruct (T eq_refl) as [[ov Ct] C']. pose proof Ct as Ct'. apply C in Ct'. destruct Ct' as (v & E & ->). rewrite E. split; [reflexivity|].
        split; [split; [exact G'|intros k'' ov'; rewrite C'; apply C]|]. exists e, k'. repeat split; auto.
        assert (C2 : content EQUAL (ents _ _ m') k (eval _ _ e)) by (exists p, e, k'; auto 10). apply C' in C2. apply C in C2. destruct C2 as (v' & E' & ->). congruence.
      + destruct (Fa eq_refl) as [Fr _]. destruct (f k) as [v|] eqn:E; [|reflexivity]. exfalso. apply (Fr (Some v)). apply C. eauto.
    - intro v. destruct (set_val_ok EQUAL H1 eq_sym' eq_trans' hash_eq hash_pos m' p v e k' G' Ee Ne Ek) as (m'' & Sv & G'' & C''). exists e, m''. split; [exact Ee|]. split; [exact Sv|].
      apply (rel_set m m'' f k k' v); auto. intros k1 ov. rewrite C''. destruct (EQUAL k' k1) eqn:E1; [split; intros [[_ H]|[H _]]; auto; discriminate|].
      split; (intros [[H _]|[_ H]]; [discriminate|]; right; split; [reflexivity|]).
      + destruct had; [destruct (T eq_refl) as [_ C']; apply C'; exact H|]. destruct (Fa eq_refl) as [_ C']. apply C' in H. destruct H as [[H _]|[_ H]]; [|exact H].
        destruct EQ as [ -> |EQ]; [congruence|]. rewrite (eq_trans' _ _ _ EQ H) in E1. discriminate.
      + destruct had; [destruct (T eq_refl) as [_ C']; apply C'; exact H|]. destruct (Fa eq_refl) as [_ C']. apply C'. right. split; [|exact H].
        destruct (EQUAL k k1) eqn:E2; [|reflexivity]. destruct EQ as [ -> |EQ]; [congruence|]. rewrite (eq_trans' _ _ _ EQ E2) in E1. discriminate.
Qed.
Lemma step_ok : forall m f r, Rel m f -> exists m', step K V EQUAL H1 m r = Ok (fst (spec_step K V EQUAL f r), m') /\ Rel m' (snd (spec_step K V EQUAL f r)).
Proof.
  intros m f r [G C]. pose proof G as [I P]. pose proof (len4 EQUAL H1 m I) as L4.
  assert (Ro : pop _ _ m < Z.of_nat (length (ents _ _ m))) by lia.
  assert (Fnd : forall k, exists p had, find K V EQUAL m k (H1 k) (H1 k) = Ok (p, had) /\
    match f k with Some v => had = true /\ exists e k', nth_error (ents _ _ m) p = Some e /\ ehash _ _ e <> 0 /\ ekey _ _ e = Some k' /\ EQUAL k' k = true /\ eval _ _ e = Some v | None => had = false end).
  { intro k. destruct (find_ok EQUAL H1 eq_sym' eq_trans' hash_eq hash_pos m I Ro k) as (p & had & F & Lp & T & Fa). exists p, had. split; [exact F|]. destruct had.
    - destruct (T eq_refl) as (e & k' & Ee & Ne & Ek & EQ). assert (Ct : content EQUAL (ents _ _ m) k (eval _ _ e)) by (exists p, e, k'; auto).
      apply C in Ct. destruct Ct as (v & -> & Ev). split; [reflexivity|]. exists e, k'. auto 10.
    - destruct (Fa eq_refl) as (_ & _ & Fr). destruct (f k) as [v|] eqn:E; [|reflexivity]. exfalso. apply (Fr (Some v)). apply C. eauto. }
  pose proof (fun k => mk_rel m f k (conj G C)) as Mk.
  destruct r as [k|k d|k v|k v d|k v|k g d|k g v|k v]; cbn [step spec_step].
  - destruct (Fnd k) as (p & had & F & H). exists m. unfold has. rewrite F. cbn [bind]. destruct (f k) as [v|]; cbn [fst snd]; [destruct H as [-> _]|subst had]; (split; [reflexivity|split; assumption]).
  - destruct (Fnd k) as (p & had & F & H). exists m. unfold getD. rewrite F. cbn [bind]. destruct (f k) as [v|]; cbn [fst snd dflt].
    + destruct H as [-> (e & k' & Ee & Ne & Ek & EQ & Ev)]. rewrite (rd_ok _ _ _ Ee). cbn [bind]. rewrite Ev. split; [reflexivity|split; assumption].
    + subst had. split; [reflexivity|split; assumption].
  - destruct (Mk k) as (m' & p & had & M & H & Sv). destruct (Sv v) as (e & m'' & _ & S1 & R1). exists m''. unfold ins. rewrite M. cbn [bind]. rewrite S1. cbn [bind fst snd].
    split; [|exact R1]. destruct (f k); [destruct H as [-> _]|subst had]; reflexivity.
  - destruct (Mk k) as (m' & p & had & M & H & Sv). destruct (Sv v) as (e & m'' & Ee & S1 & R1). exists m''. unfold swap. rewrite M. cbn [bind]. rewrite (rd_ok _ _ _ Ee). cbn [bind].
    rewrite S1. cbn [bind fst snd]. split; [|exact R1]. destruct (f k) as [v'|]; [|subst had; reflexivity]. destruct H as [-> (_ & e' & k' & Ee' & _ & _ & _ & Ev')].
    rewrite Ee in Ee'. injection Ee' as <-. rewrite Ev'. reflexivity.
  - destruct (Mk k) as (m' & p & had & M & H & Sv). unfold mk_get. rewrite M. cbn [bind]. destruct (f k) as [v'|]; cbn [fst snd].
    + destruct H as [-> (R1 & e & k' & Ee & _ & _ & _ & Ev)]. rewrite (rd_ok _ _ _ Ee). cbn [bind]. rewrite Ev. exists m'. split; [reflexivity|exact R1].
    + subst had. destruct (Sv v) as (e & m'' & _ & S1 & R1). rewrite S1. exists m''. split; [reflexivity|exact R1].
  - destruct (Fnd k) as (p & had & F & H). unfold getq_upd. rewrite F. cbn [bind]. destruct (f k) as [v|]; cbn [fst snd].
    + destruct H as [-> (e & k' & Ee & Ne & Ek & EQ & Ev)]. rewrite (rd_ok _ _ _ Ee). cbn [bind]. rewrite Ev. cbn [get bind].
      destruct (set_val_ok EQUAL H1 eq_sym' eq_trans' hash_eq hash_pos m p (g v) e k' G Ee Ne Ek) as (m'' & Sv & G'' & C''). rewrite Sv. cbn [bind]. exists m''. split; [reflexivity|].
      apply (rel_set m m'' f k k' (g v)); auto.
    + subst had. exists m. split; [reflexivity|split; assumption].
  - destruct (Mk k) as (m' & p & had & M & H & Sv). unfold mk_upd. rewrite M. cbn [bind]. destruct (f k) as [v'|]; cbn [fst snd].
    + destruct H as [-> (R1 & e & k' & Ee & _ & _ & _ & Ev)]. rewrite (rd_ok _ _ _ Ee). cbn [bind]. rewrite Ev. cbn [get bind]. destruct (Sv (g v')) as (e' & m'' & _ & S1 & R2). rewrite S1. exists m''. split; [reflexivity|exact R2].
    + subst had. destruct (Sv v) as (e & m'' & _ & S1 & R1). rewrite S1. exists m''. split; [reflexivity|exact R1].
  - destruct (Mk k) as (m' & p & had & M & H & Sv). unfold mk_opt. rewrite M. cbn [bind]. destruct (f k) as [v'|]; cbn [fst snd].
    + destruct H as [-> (R1 & e & k' & Ee & _ & _ & _ & Ev)]. rewrite (rd_ok _ _ _ Ee). cbn [bind]. rewrite Ev. exists m'. split; [reflexivity|exact R1].
    + subst had. destruct (Sv v) as (e & m'' & _ & S1 & R1). rewrite S1. exists m''. split; [reflexivity|exact R1].
Qed.
Lemma run_ok : forall l m f, Rel m f -> run K V EQUAL H1 m l = Ok (spec_run K V EQUAL f l).
Proof.
  induction l as [|r l IH]; intros m f R; [reflexivity|]. cbn [run spec_run]. destruct (step_ok m f r R) as (m' & -> & R'). cbn [bind].
  destruct (spec_step K V EQUAL f r) as [a f']. cbn [fst snd] in *. rewrite (IH m' f' R'). reflexivity.
Qed.
End Proof.

(** Whatever the keys (a key need not even equal itself, as NaN: it is then never found), the (positive) hash function and the history of requests, a table created with 2^j entries, j ≥ 2, answers every request exactly as a
    finite map does; in particular every search terminates. *)
Theorem C10_finite_map : forall (K V : Type) (EQUAL : K -> K -> bool) (H1 : K -> Z) (j : nat) (l : list (req K V)),
  (forall a b, EQUAL a b = true -> EQUAL b a = true) -> (forall a b c, EQUAL a b = true -> EQUAL b c = true -> EQUAL a c = true) ->
  (forall a b, EQUAL a b = true -> H1 a = H1 b) -> (forall k, 0 < H1 k) -> (2 <= j)%nat ->
  run K V EQUAL H1 (m_new K V (2 ^ j)) l = Ok (spec_run K V EQUAL (fun _ => None) l).
Proof.
  intros K V EQUAL H1 j l Es Et He Hp Hj. apply run_ok; auto.
  assert (E2 : Z.of_nat (2 ^ j) = 2 ^ Z.of_nat j) by (rewrite Nat2Z.inj_pow; reflexivity).
  destruct (m_new_inv (V := V) EQUAL H1 (2 ^ j) (Z.of_nat j) ltac:(lia) E2) as [I C]. split.
  - split; [exact I|]. cbn [m_new pop]. lia.
  - intros k ov. split; [intro H; exfalso; eapply C; exact H|]. intros (v & E & _). discriminate.
Qed.
Print Assumptions C10_finite_map.

(* integer keys, a hash with many collisions, growth from 4 to 16 entries *)
Definition badhash (k : Z) : Z := 1 + k mod 3.
Example C10_example : run Z Z Z.eqb badhash (m_new Z Z (2 ^ 2))
    [Ins Z Z 1 10; Ins Z Z 4 40; MkGet Z Z 7 70; Ins Z Z 10 100; MkGet Z Z 7 71; Ins Z Z 2 20; Ins Z Z 5 50; Swap Z Z 4 41 0; Ins Z Z 8 80; Has Z Z 11; GetD Z Z 4 0; GetD Z Z 13 9; GetD Z Z 8 0]
  = Ok [AB Z false; AB Z false; AV Z 70; AB Z false; AV Z 70; AB Z false; AB Z false; AV Z 40; AB Z false; AB Z false; AV Z 41; AV Z 9; AV Z 80].
Proof. vm_compute. reflexivity. Qed.
(** The lower bound on the initial size is needed: a table of two entries fills up, and the next search for another key does not terminate. *)
Theorem C10_tiny_table_refuted : run Z Z Z.eqb badhash (m_new Z Z 2) [Ins Z Z 1 10; Ins Z Z 4 40; Has Z Z 7] = UB.
Proof. vm_compute. reflexivity. Qed.
Print Assumptions C10_tiny_table_refuted.
