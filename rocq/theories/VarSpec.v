(** Specification of variables: a variable is undefined, cleared (being modified, or left so by a failed modification) or has a value. There are no placeholder values. *)
From Verif Require Import Base VarModel.

Inductive cell := Undef | Cleared | Has (v : val).
Record sscope := { svars : list cell; sext : list cell; svgid : list Z; segid : list Z; sexp : list Z }.
Record sst := { sscs : list sscope; slog : list val }.
Definition sput (s : sst) (l : list sscope) : sst := {| sscs := l; slog := slog s |}.
Definition spush (s : sst) (v : val) : sst := {| sscs := sscs s; slog := slog s ++ [v] |}.
Definition srd (s : sst) (e : bool) (d p : nat) : res cell := do c <- rd (sscs s) d; rd (if e then sext c else svars c) p.
Definition swr (s : sst) (e : bool) (d p : nat) (x : cell) : res sst :=
  do c <- rd (sscs s) d;
  do l <- wr (if e then sext c else svars c) p x;
  do m <- wr (sscs s) d (if e then {| svars := svars c; sext := l; svgid := svgid c; segid := segid c; sexp := sexp c |}
                              else {| svars := l; sext := sext c; svgid := svgid c; segid := segid c; sexp := sexp c |});
  Ok (sput s m).

(** The value of a variable, if it has one. *)
Definition value (c : cell) : option val := match c with Has v => Some v | _ => None end.
(** A change (as opposed to a definition) of an undefined variable is an error. *)
Definition may_set (upd : bool) (c : cell) : bool := match c with Undef => negb upd | _ => true end.
Definition sfield (s : sst) (n : nat) (g : Z) : res (option cell) :=
  do c <- rd (sscs s) n; match find_gid (sexp c) 0 g with None => Ok None | Some i => do v <- rd (svars c) i; Ok (Some v) end.

Definition sstore (s : sst) (e : bool) (d p : nat) (x : cell) (upd : bool) : res (sst * bool) :=
  do c <- srd s e d p; if may_set upd c then do s <- swr s e d p x; Ok (s, true) else Ok (s, false).
(** Storing into a target. Taking apart a namespace copies the state of its variables. chk is false when the target was read by the same instruction. *)
Fixpoint sset (t : tgt) (s : sst) (x : cell) (upd chk : bool) {struct t} : res (sst * bool) :=
  match t with
  | TVar d p => sstore s false d p x (andb upd chk)
  | TExt d p => sstore s true d p x upd
  | TNone => Ok (s, true)
  | TAlias _ _ => Ok (s, false)
  | TList ts =>
    match x with
    | Has (L l) =>
      if (length l =? length ts)%nat then
        (fix go (ts : list tgt) (l : list val) (s : sst) : res (sst * bool) :=
          match ts, l with
          | t :: ts, v :: l => do (s, ok) <- sset t s (Has v) upd true; if (ok : bool) then go ts l s else Ok (s, false)
          | _, _ => Ok (s, true)
          end) ts l s
      else Ok (s, false)
    | Has (Ns n) =>
      (fix go (ts : list tgt) (s : sst) : res (sst * bool) :=
        match ts with
        | [] => Ok (s, true)
        | t :: ts =>
          do (s, ok) <-
            match t with
            | TVar d p => do c <- rd (sscs s) d; do g <- rd (svgid c) p; do o <- sfield s n g; match o with None => Ok (s, false) | Some v => sstore s false d p v upd end
            | TExt d p => do c <- rd (sscs s) d; do g <- rd (segid c) p; do o <- sfield s n g; match o with None => Ok (s, false) | Some v => sstore s true d p v upd end
            | TAlias t' g => do o <- sfield s n g; match o with None => Ok (s, false) | Some v => sset t' s v upd true end
            | _ => Ok (s, false)
            end;
          if (ok : bool) then go ts s else Ok (s, false)
        end) ts s
    | _ => Ok (s, false)
    end
  end.
(** Reading a target in order to change it clears its variables; a variable without value is an error. *)
Definition stake (s : sst) (e : bool) (d p : nat) : res (sst * option val) :=
  do c <- srd s e d p; match value c with None => Ok (s, None) | Some v => do s <- swr s e d p Cleared; Ok (s, Some v) end.
Fixpoint sget (t : tgt) (s : sst) {struct t} : res (sst * option val) :=
  match t with
  | TVar d p => stake s false d p
  | TExt d p => stake s true d p
  | TList ts =>
    (fix go (ts : list tgt) (acc : list val) (s : sst) : res (sst * option val) :=
      match ts with
      | [] => Ok (s, Some (L (rev acc)))
      | t :: ts => do (s, o) <- sget t s; match o with None => Ok (s, None) | Some v => go ts (v :: acc) s end
      end) ts [] s
  | TNone | TAlias _ _ => UB
  end.

Definition sread (s : sst) (e : bool) (d p : nat) : res (sst * option val) :=
  do c <- srd s e d p; match value c with None => Ok (s, None) | Some v => Ok (spush s v, Some v) end.
Definition sassign (t : tgt) (s : sst) (v : val) (upd chk : bool) : res (sst * option val) :=
  do (s, ok) <- sset t s (Has v) upd chk; if (ok : bool) then Ok (spush s v, Some v) else Ok (s, None).
Fixpoint sexec (p : prog) (args : list val) (s : sst) : res (sst * option val) :=
  match p with
  | Const v => Ok (spush s v, Some v)
  | Arg i => do v <- rd args i; Ok (spush s v, Some v)
  | Var d p => sread s false d p
  | Ext d p => sread s true d p
  | Field _ _ => UB (* not specified *)
  | ListOf l =>
    (fix go (l : list prog) (acc : list val) (s : sst) : res (sst * option val) :=
      match l with
      | [] => let v := L (rev acc) in Ok (spush s v, Some v)
      | p :: l => do (s, o) <- sexec p args s; match o with None => Ok (s, None) | Some v => go l (v :: acc) s end
      end) l [] s
  | SetN t p => do (s, o) <- sexec p args s; match o with None => Ok (s, None) | Some v => sassign t s v false true end
  | SetU t p => do (s, o) <- sexec p args s; match o with None => Ok (s, None) | Some v => sassign t s v true true end
  | SetC t f =>
    do (s, o) <- sget t s;
    match o with
    | None => Ok (s, None)
    | Some w => do (s, o) <- sexec f (w :: args) s; match o with None => Ok (s, None) | Some r => sassign t s r true false end
    end
  | SetM t f x =>
    do (s, o) <- sexec x args s;
    match o with
    | None => Ok (s, None)
    | Some x => do (s, o) <- sget t s;
      match o with
      | None => Ok (s, None)
      | Some w => do (s, o) <- sexec f (w :: x :: args) s; match o with None => Ok (s, None) | Some r => sassign t s r true false end
      end
    end
  | Seq p q => do (s, o) <- sexec p args s; match o with None => Ok (s, None) | Some _ => sexec q args s end
  | Scope am xm vg eg ex i p =>
    do (s, o) <- sexec i args s;
    match o with
    | None => Ok (s, None)
    | Some v => sexec p (v :: args) (sput s (sscs s ++ [{| svars := Has v :: repeat Undef am; sext := repeat Undef xm; svgid := vg; segid := eg; sexp := ex |}]))
    end
  | MkNs n => let v := Ns n in Ok (spush s v, Some v)
  | Catch p h => do (s, o) <- sexec p args s; match o with None => sexec h args s | Some v => Ok (s, Some v) end
  end.

(** Words from 0x7FF28... to 0x7FF2F... are reserved for placeholders and internal markers. *)
Fixpoint clean (v : val) : Prop :=
  match v with
  | W u => ~ (0x7FF2800000000000 <= u < 0x7FF3000000000000)
  | L l => (fix all (l : list val) : Prop := match l with [] => True | x :: t => clean x /\ all t end) l
  | Ns _ => True
  end.
(** Programs without field reads whose constants are values. *)
Fixpoint plain (p : prog) : Prop :=
  match p with
  | Const v => clean v
  | Field _ _ => False
  | ListOf l => (fix all (l : list prog) : Prop := match l with [] => True | x :: t => plain x /\ all t end) l
  | SetN _ p | SetU _ p | SetC _ p => plain p
  | SetM _ f x => plain f /\ plain x
  | Seq p q | Catch p q => plain p /\ plain q
  | Scope _ _ _ _ _ i p => plain i /\ plain p
  | Arg _ | Var _ _ | Ext _ _ | MkNs _ => True
  end.
(** How a specified state is represented. *)
Definition enc (c : cell) : val := match c with Undef => noVar | Cleared => optOut | Has v => v end.
Definition encs (c : sscope) : scope := {| vars := List.map enc (svars c); ext := List.map enc (sext c); vgid := svgid c; egid := segid c; exp := sexp c |}.
Definition encode (s : sst) : st := {| scs := List.map encs (sscs s); log := slog s |}.
