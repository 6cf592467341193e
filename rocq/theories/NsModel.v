(** Interned names and namespaces: src/builtins/fns.c:375-402, src/ns.c. *)
From Verif Require Import Base HtabModel.

(** A name is a string. Matching strings is modelled in MatchModel; here it is equality. *)
Definition name := list Z.
Fixpoint name_eqb (a b : name) : bool := match a, b with [], [] => true | x :: a, y :: b => (x =? y) && name_eqb a b | _, _ => false end.

Section Names.
Variable hash : name -> Z. (* any hash function with positive results (src/utils/hash.h) *)

(** src/builtins/fns.c:375-376 globalNames (None: NULL), globalNameList. Identifiers are unbounded integers here (i32 in the code). *)
Record names := { tab : option (map name Z); nl : list name }.
Definition no_names : names := {| tab := None; nl := [] |}.
(** :377-391 *)
Definition str2gid (g : names) (s : name) : res (names * Z) :=
  let t := match tab g with Some t => t | None => m_new name Z 32 end in
  let l := match tab g with Some _ => nl g | None => [] end in
  do (mp, had) <- mk name Z name_eqb hash t s; let '(t, p) := mp in
  if (had : bool) then do e <- rd (ents _ _ t) p; do v <- get (eval _ _ e); Ok ({| tab := Some t; nl := l |}, v) else
  let r := Z.of_nat (length l) in
  do t <- set_val name Z t p r;
  Ok ({| tab := Some t; nl := l ++ [s] |}, r).
(** :393-396 *)
Definition str2gidQ (g : names) (s : name) : res Z := match tab g with None => Ok (-1) | Some t => getD name Z name_eqb hash t s (-1) end.
(** :398-402 *)
Definition gid2str (g : names) (n : Z) : res name := if n <? 0 then UB else rd (nl g) (Z.to_nat n).

(** The parts of a Body and its NSDesc used here (src/vm.h:60-90, src/ns.h), with the variables of the scope of the (single) namespace made from it. *)
Record body := { varAm : nat; varData : list Z; nsVarAm : nat; expGIDs : list Z; nameList : list name; vals : list Z }.

(** src/ns.c:5-31 m_nsDesc. None: internal error for lists of different lengths. *)
Fixpoint desc_loop (g : names) (nlist : list name) (ids : list nat) (ex : list bool) (i vam : nat) (vd eg : list Z) : res (names * list Z * list Z) :=
  match ids, ex with
  | cid :: ids, cexp :: ex =>
    do vd <- wr vd (i + vam) (Z.of_nat cid);
    do (g, v) <- (if (cexp : bool) then do s <- rd nlist cid; str2gid g s else Ok (g, -1));
    do eg <- wr eg i v;
    desc_loop g nlist ids ex (S i) vam vd eg
  | _, _ => Ok (g, vd, eg)
  end.
Definition m_nsDesc (g : names) (imm : bool) (ty : nat) (vam : nat) (nlist : list name) (ids : list nat) (ex : list bool) (vs : list Z) : res (names * option body) :=
  if negb (length ids =? length ex)%nat then Ok (g, None) else
  let off := ((match ty with 0 => 0 | 1 => 2 | _ => 3 end) + (if imm then 0 else 3))%nat in
  do (ge, eg) <- desc_loop g nlist ids ex off vam (repeat (-1) (vam + vam)) (repeat (-1) (Nat.max vam 2)); let '(g, vd) := ge in
  Ok (g, Some {| varAm := vam; varData := vd; nsVarAm := (length ids + off)%nat; expGIDs := eg; nameList := nlist; vals := vs |}).

(** the loop in src/ns.c:52,62,72,93: the first position below varAm with that identifier *)
Fixpoint find_loop (b : body) (gid : Z) (n i : nat) : res (option nat) :=
  match n with
  | O => Ok None
  | S n => do e <- rd (expGIDs b) i; if e =? gid then Ok (Some i) else find_loop b gid n (S i)
  end.
(** src/ns.c:47-64 ns_getU, ns_qgetU: None is the error or Nothing *)
Definition ns_getU (b : body) (gid : Z) : res (option Z) :=
  do o <- find_loop b gid (nsVarAm b) 0;
  match o with None => Ok None | Some i => do v <- rd (vals b) i; Ok (Some v) end.
(** :66-77 ns_getNU *)
Definition ns_getNU (g : names) (b : body) (s : name) : res (option Z) :=
  do gid <- str2gidQ g s;
  if negb (gid =? -1) then ns_getU b gid else Ok None.
(** :85-101 ns_set *)
Definition ns_set (g : names) (b : body) (s : name) (v : Z) : res (names * option body) :=
  do (g, gid) <- str2gid g s;
  do o <- find_loop b gid (nsVarAm b) 0;
  match o with
  | None => Ok (g, None)
  | Some i => do vs <- wr (vals b) i v; Ok (g, Some {| varAm := varAm b; varData := varData b; nsVarAm := nsVarAm b; expGIDs := expGIDs b; nameList := nameList b; vals := vs |})
  end.
(** :172-179 pos2gid, with its cache in varData. None: the variable has no name. *)
Definition pos2gid (g : names) (b : body) (pos : nat) : res (names * body * option Z) :=
  do gid <- rd (varData b) pos;
  if negb (gid =? -1) then Ok (g, b, Some gid) else
  do idx <- rd (varData b) (pos + varAm b);
  if idx =? -1 then Ok (g, b, None) else
  do s <- rd (nameList b) (Z.to_nat idx);
  do (g, r) <- str2gid g s;
  do vd <- wr (varData b) pos r;
  Ok (g, {| varAm := varAm b; varData := vd; nsVarAm := nsVarAm b; expGIDs := expGIDs b; nameList := nameList b; vals := vals b |}, Some r).

(** What programs do. *)
Inductive op :=
| Intern (s : name)                                    (* a name is seen by the compiler: src/vm.c:368 *)
| NewNs (imm : bool) (ty : nat) (vam : nat) (nlist : list name) (ids : list nat) (ex : list bool) (vs : list Z) (* a block is compiled and its namespace made *)
| Field (n : nat) (s : name)                           (* ns.name: src/vm.c:368 interns the name, :900-905 reads *)
| FieldQ (n : nat) (s : name)                          (* src/ns.c:66 (ns_getNU) as used by system functions *)
| Spread (b pos n : nat)                               (* the variable at position pos of body b is a target and namespace n the value: src/vm.c:559-561 *)
| Store (n : nat) (s : name) (v : Z).                  (* ns_set *)
Inductive ans := Found (v : Z) | Missing | NoName | Done | BadDesc.
Definition of_opt (o : option Z) : ans := match o with Some v => Found v | None => Missing end.
Definition step (g : names) (bs : list body) (o : op) : res (names * list body * ans) :=
  match o with
  | Intern s => do (g, _) <- str2gid g s; Ok (g, bs, Done)
  | NewNs imm ty vam nlist ids ex vs => do (g, b) <- m_nsDesc g imm ty vam nlist ids ex vs; match b with None => Ok (g, bs, BadDesc) | Some b => Ok (g, bs ++ [b], Done) end
  | Field n s => do (g, gid) <- str2gid g s; do b <- rd bs n; do r <- ns_getU b gid; Ok (g, bs, of_opt r)
  | FieldQ n s => do b <- rd bs n; do r <- ns_getNU g b s; Ok (g, bs, of_opt r)
  | Spread b pos n =>
    do b1 <- rd bs b; do (gb, o) <- pos2gid g b1 pos; let '(g, b1) := gb in
    do bs <- wr bs b b1;
    match o with None => Ok (g, bs, NoName) | Some gid => do b2 <- rd bs n; do r <- ns_getU b2 gid; Ok (g, bs, of_opt r) end
  | Store n s v => do b <- rd bs n; do (g, o) <- ns_set g b s v; match o with None => Ok (g, bs, Missing) | Some b => do bs <- wr bs n b; Ok (g, bs, Done) end
  end.
Fixpoint run (g : names) (bs : list body) (l : list op) : res (list ans) :=
  match l with [] => Ok [] | o :: l => do (gb, a) <- step g bs o; let '(g, bs) := gb in do r <- run g bs l; Ok (a :: r) end.
End Names.
