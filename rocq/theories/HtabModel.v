(** Model of the generic hash table, src/utils/hashmapTemplate.h, in the form used for values (KEYS and VALS defined, the stored hash is the full hash and 0
    marks an empty entry: src/utils/hash.h:42-53). Keys, values, key comparison and the hash function are parameters. Running out of memory is not modelled. *)
From Verif Require Import Base.

Section Htab.
Variables (K V : Type) (EQUAL : K -> K -> bool) (H1 : K -> Z).

(* src/utils/hashmapTemplate.h:29-37. The key and value of an entry are undefined until stored; reading them earlier is undefined behaviour. *)
Record ent := { ekey : option K; ehash : Z; eval : option V }.
(* :39-45. sz is the length of the entry list and mask is sz-1 *)
Record map := { pop : Z; ents : list ent }.
Definition sz (m : map) : Z := Z.of_nat (length (ents m)).
Definition mask (m : map) : Z := sz m - 1.
(* src/utils/hash.h:48 EMPTY *)
Definition EMPTY (e : ent) : bool := ehash e =? 0.
(* :47-59 m *)
Definition m_new (n : nat) : map := {| pop := 0; ents := repeat {| ekey := None; ehash := 0; eval := None |} n |}.

Definition get {A : Type} (x : option A) : res A := match x with Some a => Ok a | None => UB end.
(* :65-76 find. The loop has no bound; running out of fuel stands for not terminating. *)
Fixpoint find_loop (fuel : nat) (m : map) (k : K) (h2 : Z) (p : nat) : res (nat * bool) :=
  match fuel with
  | O => UB
  | S f =>
    do e <- rd (ents m) p;
    do same <- (if ehash e =? h2 then do k' <- get (ekey e); Ok (EQUAL k' k) else Ok false);
    if same : bool then Ok (p, true) else
    if EMPTY e then Ok (p, false) else
    find_loop f m k h2 (if Z.of_nat p =? mask m then 0%nat else S p)
  end.
Definition find (m : map) (k : K) (h1 h2 : Z) : res (nat * bool) := find_loop (S (length (ents m))) m k h2 (Z.to_nat (Z.land h1 (mask m))).
(* :77-82 has *)
Definition has (m : map) (k : K) : res bool := do (_, had) <- find m k (H1 k) (H1 k); Ok had.
(* :84-89 getD *)
Definition getD (m : map) (k : K) (def : V) : res V :=
  do (p, had) <- find m k (H1 k) (H1 k);
  if had : bool then do e <- rd (ents m) p; get (eval e) else Ok def.

(* :97-112 qins *)
Fixpoint qins_loop (fuel : nat) (m : map) (h2 : Z) (k : option K) (v : option V) (p : nat) : res map :=
  match fuel with
  | O => UB
  | S f =>
    do e <- rd (ents m) p;
    if EMPTY e then Ok {| pop := pop m + 1; ents := upd (ents m) p {| ekey := k; ehash := h2; eval := v |} |}
    else qins_loop f m h2 k v (if Z.of_nat p =? mask m then 0%nat else S p)
  end.
Definition qins (m : map) (h1 h2 : Z) (k : option K) (v : option V) : res map := qins_loop (S (length (ents m))) m h2 k v (Z.to_nat (Z.land h1 (mask m))).
(* :117-127 dbl; H1R is the stored hash *)
Fixpoint dbl_loop (l : list ent) (nm : map) : res map :=
  match l with
  | [] => Ok nm
  | e :: t => do nm <- (if EMPTY e then Ok nm else qins nm (ehash e) (ehash e) (ekey e) (eval e)); dbl_loop t nm
  end.
Definition dbl (m : map) : res map := dbl_loop (ents m) (m_new (length (ents m) * 2)).

(* :131-141 mk *)
Definition mk (m : map) (k : K) : res (map * nat * bool) :=
  do m <- (if sz m <? pop m * 2 then dbl m else Ok m);
  let h := H1 k in
  do (p, had) <- find m k h h;
  if had : bool then Ok (m, p, true) else
  do e <- rd (ents m) p;
  Ok ({| pop := pop m + 1; ents := upd (ents m) p {| ekey := Some k; ehash := h; eval := eval e |} |}, p, false).
Definition set_val (m : map) (p : nat) (v : V) : res map :=
  do e <- rd (ents m) p; Ok {| pop := pop m; ents := upd (ents m) p {| ekey := ekey e; ehash := ehash e; eval := Some v |} |}.
(* :142-147 ins *)
Definition ins (m : map) (k : K) (v : V) : res (map * bool) := do (mp, had) <- mk m k; let '(m, p) := mp in do m <- set_val m p v; Ok (m, had).
(* :149-155 swap. The previous value is read even if there is none; it is then not used. *)
Definition swap (m : map) (k : K) (v def : V) : res (map * V) :=
  do (mp, had) <- mk m k; let '(m, p) := mp in
  do e <- rd (ents m) p; do m <- set_val m p v;
  if had : bool then do prev <- get (eval e); Ok (m, prev) else Ok (m, def).
(* the way src/builtins/fns.c:377-391, search.c:349-357 and selfsearch.c:388-392 use mk: get the value of k, or store v if there is none *)
Definition mk_get (m : map) (k : K) (v : V) : res (map * V) :=
  do (mp, had) <- mk m k; let '(m, p) := mp in
  if had : bool then do e <- rd (ents m) p; do x <- get (eval e); Ok (m, x) else do m <- set_val m p v; Ok (m, v).
(* the use of mk_b2i in src/builtins/selfsearch.c:391-392: a value that is there is replaced by a function of it, else one is added; the new value is returned *)
Definition mk_upd (m : map) (k : K) (g : V -> V) (v : V) : res (map * V) :=
  do (mp, had) <- mk m k; let '(m, p) := mp in
  if had : bool then do e <- rd (ents m) p; do x <- get (eval e); do m <- set_val m p (g x); Ok (m, g x) else do m <- set_val m p v; Ok (m, v).
(* the use of mk_b2i in src/builtins/selfsearch.c:510-512: the value that is there, or else nothing, and one is added *)
Definition mk_opt (m : map) (k : K) (v : V) : res (map * option V) :=
  do (mp, had) <- mk m k; let '(m, p) := mp in
  if had : bool then do e <- rd (ents m) p; do x <- get (eval e); Ok (m, Some x) else do m <- set_val m p v; Ok (m, None).
(* :90-95 getQ, and its use in src/builtins/search.c:532-537: the value of k is replaced by a function of it if k is there *)
Definition getq_upd (m : map) (k : K) (g : V -> V) (def : V) : res (map * V) :=
  do (p, had) <- find m k (H1 k) (H1 k);
  if had : bool then do e <- rd (ents m) p; do x <- get (eval e); do m <- set_val m p (g x); Ok (m, x) else Ok (m, def).
End Htab.
