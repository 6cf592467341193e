(** Model of the .HashMap object: src/builtins/search.c:611-772 and its methods src/builtins/sysfn.c:743-778.
    Keys are an arbitrary type with the code's [equal] (src/builtins/compare.c) and [bqn_hash] (src/utils/hash.c) as parameters.
    The two harr lists hold [None] for bi_N. Reference counting and copying of shared key/value arrays is not modelled (lists are
    immutable here); allocation failure is modelled by a flag on the operations that allocate. *)
From Verif Require Import Base.

Definition EMPTY : Z := 2 ^ 64 - 1.              (* search.c:620 empty = ~(u64)0 *)
Definition HMASK : Z := 2 ^ 32 - 1.              (* search.c:621 hmask = ~(u32)0 *)
Definition hmsize (sh : Z) : Z := 2 ^ (64 - sh) + 32.  (* search.c:619 hashmap_size *)
(** Longest list the interpreter can hold (h.h:172 CHECK_IA with 8-byte elements, rounded up to the block size). *)
Definition maxElems : Z := 2 ^ 28.

(* search.c:612-618 struct HashMap; sz is the length of hp *)
Record hmap := HM { pop : Z; shf : Z; hp : list Z }.

(* search.c:625-630 hashmap_alloc *)
Definition hm_alloc (p sh : Z) : hmap := HM p sh (repeat EMPTY (Z.to_nat (hmsize sh))).

(* search.c:637-642: the loop of hashmap_resize; j starts as (u64)-1, here -1 *)
Fixpoint resize_loop (old : list Z) (sh j : Z) (a : list Z) : res (list Z) :=
  match old with
  | [] => Ok a
  | h :: old =>
    if h =? EMPTY then resize_loop old sh j a
    else
      let j1 := j + 1 in
      let jh := Z.shiftr h sh in
      let j2 := if j1 <? jh then jh else j1 in
      do a' <- wr a (Z.to_nat j2) h;
      resize_loop old sh j2 a'
  end.

(* search.c:632-645 hashmap_resize. Fuel: sh decreases to 32. *)
Fixpoint resize (fuel : nat) (m : hmap) : res hmap :=
  match fuel with
  | O => UB
  | S fuel =>
    let sh := shf m - 1 in
    if sh <? 32 then Err
    else
      let n := hm_alloc (pop m) sh in
      do a <- resize_loop (hp m) sh (-1) (hp n);
      do last <- rd a (Z.to_nat (hmsize sh - 1));
      let m' := HM (pop m) sh a in
      if last =? EMPTY then Ok m' else resize fuel m'
  end.

Section Map.
Context {K V : Type}.
Variable eqk : K -> K -> bool.
Variable hash : K -> Z.

(* search.c:694: while ((u=hp[j]) < v) j++ *)
Fixpoint find1 (fuel : nat) (a : list Z) (v : Z) (j : nat) : res (nat * Z) :=
  match fuel with
  | O => UB
  | S fuel => do u <- rd a j; if u <? v then find1 fuel a v (S j) else Ok (j, u)
  end.

Inductive found := Found (j i : nat) | NotFound (j : nat) (u : Z).

(* search.c:695-699: while (u < (v|m)) { i=u&m; if (equal(X,keys[i])) FOUND; u = hp[++j] } ; reading a bi_N key is UB *)
Fixpoint find2 (fuel : nat) (a : list Z) (keys : list (option K)) (x : K) (v : Z) (j : nat) (u : Z) : res found :=
  match fuel with
  | O => UB
  | S fuel =>
    if u <? Z.lor v HMASK then
      let i := Z.to_nat (Z.land u HMASK) in
      do k <- rd keys i;
      match k with
      | None => UB
      | Some k =>
        if eqk x k then Ok (Found j i)
        else do u' <- rd a (S j); find2 fuel a keys x v (S j) u'
      end
    else Ok (NotFound j u)
  end.

(* search.c:689-699 HASHMAP_FIND *)
Definition find (a : list Z) (sh : Z) (keys : list (option K)) (x : K) : res found :=
  let h := hash x in
  let v := Z.ldiff h HMASK in
  let j := Z.to_nat (Z.shiftr h sh) in
  do (j, u) <- find1 (S (length a)) a v j;
  find2 (S (length a)) a keys x v j u.

(* search.c:703: je=j; while (u!=empty) { s=u; je++; u=hp[je]; hp[je]=s; } *)
Fixpoint shift (fuel : nat) (a : list Z) (je : nat) (u : Z) : res (nat * list Z) :=
  match fuel with
  | O => UB
  | S fuel =>
    if u =? EMPTY then Ok (je, a)
    else do u' <- rd a (S je); do a' <- wr a (S je) u; shift fuel a' (S je) u'
  end.

(* search.c:701-704, the rest of HASHMAP_INSERT after an unsuccessful search *)
Definition insert (a : list Z) (x : K) (i : Z) (j : nat) (u : Z) : res (nat * list Z) :=
  let v := Z.ldiff (hash x) HMASK in
  do (je, a1) <- shift (S (length a)) a j u;
  do a2 <- wr a1 j (Z.lor v i);
  Ok (je, a2).

(* search.c:707: CLZ(n|16)-1 *)
Definition init_sh (n : Z) : Z := 63 - Z.log2 (Z.lor n 16) - 1.

(* search.c:711-719 *)
Fixpoint build_loop (keys : list (option K)) (rest : list K) (i : Z) (m : hmap) : res hmap :=
  match rest with
  | [] => Ok m
  | key :: rest =>
    do f <- find (hp m) (shf m) keys key;
    match f with
    | Found _ _ => Err (* duplicate keys *)
    | NotFound j u =>
      do (je, a) <- insert (hp m) key i j u;
      do m' <- (if Z.of_nat je =? Z.of_nat (length a) - 1 then resize 64 (HM (pop m) (shf m) a) else Ok (HM (pop m) (shf m) a));
      build_loop keys rest (i+1) m'
    end
  end.
(* search.c:706-721 hashmap_build *)
Definition build (ks : list K) : res hmap :=
  let n := Z.of_nat (length ks) in
  build_loop (map Some ks) ks 0 (hm_alloc n (init_sh n)).

Record state := St { keys : list (option K); vals : list (option V); obj : option hmap (* None: bi_N *) }.

(* src/builtins/sysfn.c:768-778 hashMap_c2: both arguments are lists; an error leaves no object *)
Definition create (ks : list K) (vs : list V) : res state :=
  if (length ks =? length vs)%nat then
    do m <- build ks; Ok (St (map Some ks) (map Some vs) (Some m))
  else Err.

(* search.c:647-677 hashmap_compact *)
Definition isSome {A} (o : option A) : bool := match o with Some _ => true | None => false end.
(* :652: while (l>0 && q_N(keys[l-1])) l--; *)
Fixpoint trim (ks : list (option K)) (l : nat) : nat :=
  match l with
  | O => O
  | S l' => match nth_error ks l' with Some None => trim ks l' | _ => l end
  end.
(* :656-662 *)
Fixpoint compact_loop (todo i : nat) (ks : list (option K)) (vs : list (option V)) (ind : list Z) (j : nat)
  : res (list (option K) * list (option V) * list Z * nat) :=
  match todo with
  | O => Ok (ks, vs, ind, j)
  | S todo =>
    do ki <- rd ks i;
    do ks' <- wr ks j ki;
    do vi <- rd vs i;
    do vs' <- wr vs j vi;
    do ind' <- wr ind (S i) (Z.of_nat j);
    compact_loop todo (S i) ks' vs' ind' (if isSome ki then S j else j)
  end.
(* :670-673 hp[i] = (h&~hmask) | ind_map[(u32)h + 1] *)
Fixpoint remap (a : list Z) (ind : list Z) : res (list Z) :=
  match a with
  | [] => Ok []
  | h :: a =>
    do t <- rd ind (Z.to_nat ((Z.land h HMASK + 1) mod 2 ^ 32));
    do r <- remap a ind;
    Ok (Z.lor (Z.ldiff h HMASK) t :: r)
  end.
Definition compact (s : state) : res state :=
  let l := trim (keys s) (length (keys s)) in
  let ind0 := HMASK :: repeat 0 l in (* ind_map[0] = -1; the rest is uninitialised in C and written below *)
  do (ks, vs, ind, j) <- compact_loop l 0 (keys s) (vals s) ind0 0;
  let ks := firstn j ks in
  let vs := firstn j vs in
  if (0 <? j)%nat then
    match obj s with
    | None => UB
    | Some m => do a <- remap (hp m) ind; Ok (St ks vs (Some (HM (pop m) (shf m) a)))
    end
  else Ok (St ks vs (obj s)).

(* search.c:756-759: the backward shift of hashmap_delete *)
Fixpoint backshift (fuel : nat) (a : list Z) (sh : Z) (j : nat) : res (list Z) :=
  match fuel with
  | O => UB
  | S fuel =>
    do u <- rd a (S j);
    let u := if Z.shiftr u sh =? Z.of_nat (S j) then EMPTY else u in
    do a' <- wr a j u;
    if u =? EMPTY then Ok a' else backshift fuel a' sh (S j)
  end.

Inductive op :=
| OGet (k : K) (dflt : option V)
| OHas (k : K)
| OSet (k : K) (v : V) (mem : bool)   (* mem: allocations made by this call succeed *)
| ODelete (k : K) (mem : bool)
| OCount
| OKeys
| OValues.
Inductive out := OutVal (v : V) | OutBool (b : bool) | OutNum (n : Z) | OutKeys (l : list K) | OutVals (l : list V) | OutUnit.

(* search.c:723-730 hashmap_lookup *)
Definition lookup (s : state) (x : K) : res (option V) :=
  match obj s with
  | None => UB
  | Some m =>
    do f <- find (hp m) (shf m) (keys s) x;
    match f with
    | Found _ i => do v <- rd (vals s) i; match v with Some v => Ok (Some v) | None => UB end
    | NotFound _ _ => Ok None
    end
  end.

(* search.c:732-750 hashmap_set *)
Definition set (s : state) (w : K) (x : V) (mem : bool) : state * res out :=
  match obj s with
  | None => (s, UB)
  | Some m =>
    let i := Z.of_nat (length (keys s)) in
    match find (hp m) (shf m) (keys s) w with
    | Ok (Found _ i) => (St (keys s) (upd (vals s) i (Some x)) (Some m), if (i <? length (vals s))%nat then Ok OutUnit else UB)
    | Ok (NotFound j u) =>
      match insert (hp m) w i j u with
      | Ok (je, a) =>
        let m1 := HM (pop m + 1) (shf m) a in
        let grow := (7 <? Z.shiftr (pop m + 1) (61 - shf m)) || (Z.of_nat je =? Z.of_nat (length a) - 1) in
        match (if grow then (if mem then resize 64 m1 else Err) else Ok m1) with
        | Ok m2 =>
          if mem && (Z.of_nat (length (keys s)) <? maxElems)
          then (St (keys s ++ [Some w]) (vals s ++ [Some x]) (Some m2), Ok OutUnit)
          else (St (keys s) (vals s) (Some m2), Err)
        | Err => (St (keys s) (vals s) None, Err)  (* vars[2] is bi_N when hashmap_resize throws *)
        | UB => (s, UB)
        end
      | Err => (s, Err)
      | UB => (s, UB)
      end
    | Err => (s, Err)
    | UB => (s, UB)
    end
  end.

(* search.c:752-772 hashmap_delete; mem=false: cpyHArr of a shared key list throws, after the table was changed *)
Definition delete (s : state) (x : K) (mem : bool) : state * res out :=
  match obj s with
  | None => (s, UB)
  | Some m =>
    match find (hp m) (shf m) (keys s) x with
    | Ok (Found j i) =>
      match backshift (S (length (hp m))) (hp m) (shf m) j with
      | Ok a =>
        if negb mem then (St (keys s) (vals s) (Some (HM (pop m) (shf m) a)), Err) else
        let p := pop m - 1 in
        let s1 := St (upd (keys s) i None) (upd (vals s) i None) (Some (HM p (shf m) a)) in
        if (p =? 0) || (p + 32 <? Z.of_nat (length (keys s)) / 2)
        then match compact s1 with Ok s2 => (s2, Ok OutUnit) | Err => (s1, Err) | UB => (s1, UB) end
        else (s1, Ok OutUnit)
      | Err => (s, Err)
      | UB => (s, UB)
      end
    | Ok (NotFound _ _) => (s, Err)
    | Err => (s, Err)
    | UB => (s, UB)
    end
  end.

(* the elements of a list that is returned to the user: a bi_N in it would be an internal value *)
Fixpoint unhole {A} (l : list (option A)) : res (list A) :=
  match l with
  | [] => Ok []
  | None :: _ => UB
  | Some a :: l => do r <- unhole l; Ok (a :: r)
  end.

(* search.c:678-687 hashmap_keys_or_vals *)
Definition settle (s : state) : res state :=
  match obj s with
  | None => UB
  | Some m => if pop m =? Z.of_nat (length (keys s)) then Ok s else compact s
  end.

(* src/builtins/sysfn.c:743-754 *)
Definition step (s : state) (o : op) : state * res out :=
  match o with
  | OGet k d => (s, do v <- lookup s k; match v, d with Some v, _ => Ok (OutVal v) | None, Some d => Ok (OutVal d) | None, None => Err end)
  | OHas k => (s, do v <- lookup s k; Ok (OutBool (isSome v)))
  | OSet k v mem => set s k v mem
  | ODelete k mem => delete s k mem
  | OCount => (s, match obj s with Some m => Ok (OutNum (pop m)) | None => UB end)
  | OKeys => match settle s with
             | Ok s' => (s', do l <- unhole (keys s'); Ok (OutKeys l)) | Err => (s, Err) | UB => (s, UB) end
  | OValues => match settle s with
             | Ok s' => (s', do l <- unhole (vals s'); Ok (OutVals l)) | Err => (s, Err) | UB => (s, UB) end
  end.

Fixpoint run (s : state) (os : list op) : state * list (res out) :=
  match os with
  | [] => (s, [])
  | o :: os => let '(s1, r) := step s o in let '(s2, rs) := run s1 os in (s2, r :: rs)
  end.
End Map.
