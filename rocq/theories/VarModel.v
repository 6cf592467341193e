(** Variables at run time: src/vm.c and src/vm.h. A program is an execution tree: each node is one bytecode instruction (or the call it makes) with the code whose
    results it uses. Scopes are numbered in order of creation and variables are addressed by (scope, position), that is after following the parent chain
    (src/vm.c:726-729); other instructions (arithmetic, calls of primitives, ...) do not touch variables and are left out, as are targets of the form [...]. *)
From Verif Require Import Base.

(** A value: a 64-bit word, a list, or a namespace made by scope number sc (src/h.h:180-200, src/ns.h:20-25). *)
Inductive val := W (u : Z) | L (l : list val) | Ns (sc : nat).

(* src/h.h bi_noVar, bi_optOut, bi_N; TAG_TAG 0x7FF2 *)
Definition TAG_TAG : Z := 0x7FF2.
Definition noVar : val := W 0x7FF2C00000000001.
Definition optOut : val := W 0x7FF2800000000003.
Definition bi_N : val := W 0x7FF2000000000000.
(* src/vm.h:287-290 *)
Definition v_bad17_read : Z := TAG_TAG * 2 + 1.
Definition v_bad18_write : Z := TAG_TAG * 4 + 3.
Definition word (v : val) : Z := match v with W u => u | L _ => 0x7FF7000000000000 | Ns _ => 0x7FF6000000000000 end. (* only the tag of an array or namespace word matters *)
Definition v_checkBadRead (v : val) : bool := word v / 2 ^ 47 =? v_bad17_read.
Definition v_checkBadWrite (v : val) : bool := word v / 2 ^ 46 =? v_bad18_write.

(** src/vm.h:120-150 Scope: variables, extension variables added by the REPL, name of each (src/ns.c:172-179 pos2gid; ext->vars[.. + varAm]), exported names (-1: not exported, src/ns.c:20-29). *)
Record scope := { vars : list val; ext : list val; vgid : list Z; egid : list Z; exp : list Z }.
Record st := { scs : list scope; log : list val }. (* log: every value pushed by the instructions executed so far *)

Definition set_scs (s : st) (l : list scope) : st := {| scs := l; log := log s |}.
Definition push (s : st) (v : val) : st := {| scs := scs s; log := log s ++ [v] |}.
Definition set_vars (c : scope) (l : list val) : scope := {| vars := l; ext := ext c; vgid := vgid c; egid := egid c; exp := exp c |}.
Definition set_ext (c : scope) (l : list val) : scope := {| vars := vars c; ext := l; vgid := vgid c; egid := egid c; exp := exp c |}.

(** sc->vars[p] and sc->ext->vars[p] (e) *)
Definition rdvar (s : st) (e : bool) (d p : nat) : res val := do c <- rd (scs s) d; rd (if e then ext c else vars c) p.
Definition wrvar (s : st) (e : bool) (d p : nat) (v : val) : res st :=
  do c <- rd (scs s) d;
  do l <- wr (if e then ext c else vars c) p v;
  do m <- wr (scs s) d (if e then set_ext c l else set_vars c l);
  Ok (set_scs s m).

(** Assignment targets: VARM, EXTM, NOTM, LSTM, ALIM (src/vm.c:831-862, 903-909). *)
Inductive tgt := TVar (d p : nat) | TExt (d p : nat) | TNone | TList (l : list tgt) | TAlias (t : tgt) (gid : Z).

(** src/ns.c:47-54 ns_getU: the first exported variable with that name; None is the error *)
Fixpoint find_gid (l : list Z) (i : nat) (g : Z) : option nat := match l with [] => None | x :: t => if x =? g then Some i else find_gid t (S i) g end.
Definition ns_getU (s : st) (n : nat) (g : Z) : res (option val) :=
  do c <- rd (scs s) n;
  match find_gid (exp c) 0 g with None => Ok None | Some i => do v <- rd (vars c) i; Ok (Some v) end.

(** src/vm.h:310-327 v_setI, v_set; src/vm.c:550-590 v_setF. The Boolean is false if an error was thrown. *)
Definition setI (s : st) (d p : nat) (x : val) (upd chk : bool) : res (st * bool) :=
  if upd then do prev <- rdvar s false d p; if andb chk (v_checkBadWrite prev) then Ok (s, false) else do s <- wrvar s false d p x; Ok (s, true)
  else do s <- wrvar s false d p x; Ok (s, true).
Fixpoint v_set (t : tgt) (s : st) (x : val) (upd chk : bool) {struct t} : res (st * bool) :=
  match t with
  | TVar d p => setI s d p x upd chk
  | TNone => Ok (s, true)
  | TExt d p => do prev <- rdvar s true d p; if andb upd (v_checkBadWrite prev) then Ok (s, false) else do s <- wrvar s true d p x; Ok (s, true)
  | TAlias _ _ => Ok (s, false)
  | TList ts =>
    match x with
    | L l =>
      if (length l =? length ts)%nat then
        (fix go (ts : list tgt) (l : list val) (s : st) : res (st * bool) :=
          match ts, l with
          | t :: ts, v :: l => do (s, ok) <- v_set t s v upd true; if (ok : bool) then go ts l s else Ok (s, false)
          | _, _ => Ok (s, true)
          end) ts l s
      else Ok (s, false)
    | W _ => Ok (s, false)
    | Ns n =>
      (fix go (ts : list tgt) (s : st) : res (st * bool) :=
        match ts with
        | [] => Ok (s, true)
        | t :: ts =>
          do (s, ok) <-
            match t with
            | TVar d p => do c <- rd (scs s) d; do g <- rd (vgid c) p; do o <- ns_getU s n g; match o with None => Ok (s, false) | Some v => setI s d p v upd true end
            | TExt d p => do c <- rd (scs s) d; do g <- rd (egid c) p; do o <- ns_getU s n g; match o with None => Ok (s, false) | Some v => v_set t s v upd true end
            | TAlias t' g => do o <- ns_getU s n g; match o with None => Ok (s, false) | Some v => v_set t' s v upd true end
            | _ => Ok (s, false)
            end;
          if (ok : bool) then go ts s else Ok (s, false)
        end) ts s
    end
  end.

(** src/vm.h:294-302 v_getI, v_get; src/vm.c:623-640 v_getF (other targets are undefined behaviour there): the value, None if an error was thrown; read variables become optOut *)
Fixpoint v_get (t : tgt) (s : st) (chk : bool) {struct t} : res (st * option val) :=
  match t with
  | TVar d p => do r <- rdvar s false d p; if andb chk (v_checkBadRead r) then Ok (s, None) else do s <- wrvar s false d p optOut; Ok (s, Some r)
  | TExt d p => do r <- rdvar s true d p; if v_checkBadRead r then Ok (s, None) else do s <- wrvar s true d p optOut; Ok (s, Some r)
  | TList ts =>
    (fix go (ts : list tgt) (acc : list val) (s : st) : res (st * option val) :=
      match ts with
      | [] => Ok (s, Some (L (rev acc)))
      | t :: ts => do (s, o) <- v_get t s true; match o with None => Ok (s, None) | Some v => go ts (v :: acc) s end
      end) ts [] s
  | TNone | TAlias _ _ => UB
  end.

Inductive prog :=
| Const (v : val)                              (* PUSH *)
| Arg (i : nat)                                (* the argument a called function was given (innermost first) *)
| Var (d p : nat)                              (* VARO, src/vm.c:834-839 *)
| Ext (d p : nat)                              (* EXTO, :851-856 *)
| Field (p : prog) (gid : Z)                   (* FLDG, :900-905 *)
| ListOf (l : list prog)                       (* LSTO *)
| SetN (t : tgt) (p : prog)                    (* SETN, :864 *)
| SetU (t : tgt) (p : prog)                    (* SETU, :865 *)
| SetC (t : tgt) (f : prog)                    (* SETC, :873-879: f runs with the value read as argument *)
| SetM (t : tgt) (f x : prog)                  (* SETM, :866-872 *)
| Seq (p q : prog)                             (* p, POPS, q *)
| Scope (am xm : nat) (vg eg ex : list Z) (i p : prog)  (* a call with argument i: m_scopeI (:643-672) makes a scope of am further variables (xm in an extension, :300-330) and p runs *)
| MkNs (sc : nat)                              (* RETD, :944-947 *)
| Catch (p h : prog).                          (* p ⎊ h *)

Fixpoint exec (p : prog) (args : list val) (s : st) : res (st * option val) :=
  match p with
  | Const v => Ok (push s v, Some v)
  | Arg i => do v <- rd args i; Ok (push s v, Some v)
  | Var d p => do v <- rdvar s false d p; if v_checkBadRead v then Ok (s, None) else Ok (push s v, Some v)
  | Ext d p => do v <- rdvar s true d p; if v_checkBadRead v then Ok (s, None) else Ok (push s v, Some v)
  | Field p g =>
    do (s, o) <- exec p args s;
    match o with
    | Some (Ns n) => do r <- ns_getU s n g; match r with None => Ok (s, None) | Some v => Ok (push s v, Some v) end
    | _ => Ok (s, None)
    end
  | ListOf l =>
    (fix go (l : list prog) (acc : list val) (s : st) : res (st * option val) :=
      match l with
      | [] => let v := L (rev acc) in Ok (push s v, Some v)
      | p :: l => do (s, o) <- exec p args s; match o with None => Ok (s, None) | Some v => go l (v :: acc) s end
      end) l [] s
  | SetN t p => do (s, o) <- exec p args s; match o with None => Ok (s, None) | Some v => do (s, ok) <- v_set t s v false true; if (ok : bool) then Ok (push s v, Some v) else Ok (s, None) end
  | SetU t p => do (s, o) <- exec p args s; match o with None => Ok (s, None) | Some v => do (s, ok) <- v_set t s v true true; if (ok : bool) then Ok (push s v, Some v) else Ok (s, None) end
  | SetC t f =>
    do (s, o) <- v_get t s true;
    match o with
    | None => Ok (s, None)
    | Some w => do (s, o) <- exec f (w :: args) s;
      match o with None => Ok (s, None) | Some r => do (s, ok) <- v_set t s r true false; if (ok : bool) then Ok (push s r, Some r) else Ok (s, None) end
    end
  | SetM t f x =>
    do (s, o) <- exec x args s;
    match o with
    | None => Ok (s, None)
    | Some x =>
      do (s, o) <- v_get t s true;
      match o with
      | None => Ok (s, None)
      | Some w => do (s, o) <- exec f (w :: x :: args) s;
        match o with None => Ok (s, None) | Some r => do (s, ok) <- v_set t s r true false; if (ok : bool) then Ok (push s r, Some r) else Ok (s, None) end
      end
    end
  | Seq p q => do (s, o) <- exec p args s; match o with None => Ok (s, None) | Some _ => exec q args s end
  | Scope am xm vg eg ex i p =>
    do (s, o) <- exec i args s;
    match o with
    | None => Ok (s, None)
    | Some v => exec p (v :: args) (set_scs s (scs s ++ [{| vars := v :: repeat noVar am; ext := repeat noVar xm; vgid := vg; egid := eg; exp := ex |}]))
    end
  | MkNs n => let v := Ns n in Ok (push s v, Some v)
  | Catch p h => do (s, o) <- exec p args s; match o with None => exec h args s | Some v => Ok (s, Some v) end
  end.
