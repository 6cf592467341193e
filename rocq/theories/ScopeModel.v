(** Scopes, their REPL extensions and what the collector visits of them: src/vm.c:225-264, 643-672, 1099-1144. References are abstract numbers; noVar is 0. *)
From Verif Require Import Base.

Definition u16 (x : Z) : Z := x mod 65536.
Definition noVar : Z := 0.
(** src/vm.h:146-158. ScopeExt.vars has room for all variables and, after them, all names. *)
Record ext := { eAm : Z; evars : list Z }.
Record scope := { varAm : Z; vars : list Z; sext : option ext }.

(** src/vm.c:643-672 m_scopeI: initVarAm variables given, the rest filled two at a time *)
Fixpoint fill2 (n : nat) (l : list Z) (p : nat) : res (list Z) :=
  match n with O => Ok l | S n => do l <- wr l p noVar; do l <- wr l (p + 1) noVar; fill2 n l (p + 2) end.
Fixpoint copy_init (init l : list Z) (p : nat) : res (list Z) := match init with [] => Ok l | v :: t => do l <- wr l p v; copy_init t l (S p) end.
Definition m_scope (am : Z) (init : list Z) (junk : list Z) : res scope := (* junk: the previous contents of the allocated memory *)
  let am := u16 am in
  if negb (Z.of_nat (length junk) =? am) then UB else
  do l <- copy_init init junk 0;
  let i := length init in
  let left := Z.to_nat (am - Z.of_nat i) in
  do l <- (if (left =? 1)%nat then wr l i noVar
           else if (2 <=? left)%nat then do l <- fill2 (left / 2) l i; (if (left mod 2 =? 1)%nat then wr l (i + 2 * (left / 2)) noVar else Ok l)
           else Ok l);
  Ok {| varAm := am; vars := l; sext := None |}.

(** src/vm.c:240-264: compiling a REPL line that uses vam variables in all extends the scope. newnames: the names of variables regAm+i of the line. None: "Full block info must be provided" or
    ">2⋆16 variables not supported" (:238). The new extension's memory starts out arbitrary (junk). *)
Fixpoint set_new (n : nat) (i nSZ : nat) (newnames : list Z) (l : list Z) : res (list Z) :=
  match n with
  | O => Ok l
  | S n => do l <- wr l i noVar; do nm <- rd newnames i; do l <- wr l (i + nSZ) nm; set_new n (S i) nSZ newnames l
  end.
Fixpoint memcpy (src dst : list Z) (sp dp n : nat) : res (list Z) :=
  match n with O => Ok dst | S n => do v <- rd src sp; do dst <- wr dst dp v; memcpy src dst (S sp) (S dp) n end.
Definition extend (s : scope) (vam : Z) (newnames junk : list Z) : res (option scope) :=
  if negb (vam =? u16 vam) then Ok None else
  if vam <=? varAm s then Ok (Some s) else
  let oSZ := match sext s with Some e => eAm e | None => 0 end in
  if andb (match sext s with Some _ => true | None => false end) (vam <=? varAm s + oSZ) then Ok (Some s) else
  let nSZ := Z.to_nat (vam - varAm s) in
  if negb (length junk =? nSZ * 2)%nat then UB else
  do l <- match sext s with
          | None => Ok junk
          | Some e => let o := Z.to_nat oSZ in do l <- memcpy (evars e) junk 0 0 o; memcpy (evars e) l o nSZ o
          end;
  do l <- set_new (nSZ - Z.to_nat oSZ) (Z.to_nat oSZ) nSZ newnames l;
  Ok (Some {| varAm := varAm s; vars := vars s; sext := Some {| eAm := u16 (Z.of_nat nSZ); evars := l |} |}).
(** v_set on a variable or an extended variable *)
Definition set_var (s : scope) (p : nat) (v : Z) : res scope := do l <- wr (vars s) p v; Ok {| varAm := varAm s; vars := l; sext := sext s |}.
Definition set_ext (s : scope) (p : nat) (v : Z) : res scope :=
  match sext s with
  | None => UB
  | Some e => if negb (Z.of_nat p <? eAm e) then UB else do l <- wr (evars e) p v; Ok {| varAm := varAm s; vars := vars s; sext := Some {| eAm := eAm e; evars := l |} |}
  end.

(** :1112-1119 scope_visit: u16 am = c->varAm *)
Definition scope_visit (s : scope) : list Z := firstn (Z.to_nat (u16 (varAm s))) (vars s).
(** :1144 scExt_visit: u16 am = c->varAm*2 *)
Definition scExt_visit (e : ext) : list Z := firstn (Z.to_nat (u16 (eAm e * 2))) (evars e).
(** :1110 scExt_freeO drops the same references *)
Definition scExt_free (e : ext) : list Z := firstn (Z.to_nat (u16 (eAm e * 2))) (evars e).
(** :1143 bBlks_visit; src/vm.h:102-106 BlBlocks has a 32-bit count *)
Record bBlks := { bam : Z; ba : list Z }.
Definition bBlks_visit (b : bBlks) : list Z := firstn (Z.to_nat (u16 (bam b))) (ba b).

(** A REPL session in one scope. *)
Inductive op := Line (vam : Z) (newnames junk : list Z) | SetV (p : nat) (v : Z) | SetE (p : nat) (v : Z).
Definition step (s : scope) (o : op) : res (option scope) :=
  match o with
  | Line vam nn junk => extend s vam nn junk
  | SetV p v => do s <- set_var s p v; Ok (Some s)
  | SetE p v => do s <- set_ext s p v; Ok (Some s)
  end.
(** errors leave the scope as it is *)
Fixpoint run (s : scope) (l : list op) : res scope :=
  match l with [] => Ok s | o :: l => do r <- step s o; run (match r with Some s => s | None => s end) l end.
