(** Model of calling trains and combinators: src/core/derv.c (fork, atop), src/builtins/md2.c (⊘ ⎊ ⊸ ⟜ ∘ ○ ◶, •_while_), md1.c (˙ ˜), and of
    the calls c1, c2 of src/h.h:702-732.
    A fork object keeps in its fields c1 and c2 a pointer to the code that is to be called; the first call replaces it by code chosen from the kinds of
    the three operands. Here [obj] gives the operands of the fork with an address (these never change) and the state holds the two pointers of each.
    All other functions are opaque ([Prim]): they give a value or an error, change the rest of the world, and may call forks, which sets pointers ([warm]).
    Simplified: reference counts are left out, but code that would count wrongly for the kind of its operand is undefined ([Bad]); numbers are integers ([Num]) or anything else ([Frac]);
    •_while_ reads the pointers of its operands at each step instead of before the loop; Pick for an index that is not a number is a parameter. *)
From Verif Require Import Base.
From Coq Require Import List.
Import ListNotations.
Open Scope Z_scope.
Inductive md1 := Const | Swap.
Inductive md2 := Val | Catch | Before | After | Compose | Over | Cond | While.
Inductive val := Num (z : Z) | Frac (k : Z) | Chr (k : Z) | Arr (sh : list nat) (l : list val) | Nsp (k : Z) | Mod (k : Z)
  | Prim (p : Z) | Fork (id : nat) | Atop (g h : val) | D1 (m : md1) (f : val) | D2 (m : md2) (f g : val).
(* h.h:464-479 *)
Definition isFun (f : val) : bool := match f with Prim _ | Fork _ | Atop _ _ | D1 _ _ | D2 _ _ _ => true | _ => false end.
Definition isMd (f : val) : bool := match f with Mod _ => true | _ => false end.
Definition isCallable (f : val) : bool := isFun f || isMd f.
Definition isVal (f : val) : bool := match f with Num _ | Frac _ | Chr _ => false | _ => true end.
(** errors: calling a modifier, not a boolean, the errors of ◶, or anything an opaque function threw *)
Inductive err := EMod | EBool | ERank | EInt | EIdx | EOth (k : Z).
Inductive out := Ret (v : val) | Thr (e : err) | Bad.
(** the code pointers of a fork: fork_c1 itself, or one of the four others *)
Inductive ptr := PInit | PGen | PFff | PVff | PNff.
Definition cache := nat -> ptr * ptr.

Section T.
Variable W : Type.
Variable obj : nat -> val * val * val.
Variable prim : Z -> option val -> val -> err -> W -> out * W.
Variable warm : Z -> option val -> val -> W -> cache -> cache.
Variable pick : val -> val -> out.
Definition st : Type := cache * W.
Definition M := st -> option (out * st).
Definition ret (v : val) : M := fun s => Some (Ret v, s).
Definition thr (e : err) : M := fun s => Some (Thr e, s).
Definition bad : M := fun s => Some (Bad, s).
Definition andthen (a : M) (k : val -> M) : M := fun s => match a s with Some (Ret v, s) => k v s | r => r end.
Notation "'let*' v := a 'in' b" := (andthen a (fun v => b)) (at level 61, v name, a at next level, right associativity).
(* h.h:710 errMd, core/stuff.c:43-48 c1F, c2F *)
Definition cF (f : val) : M := if isMd f then thr EMod else ret f.
(* h.h:702-709 c1, c2; the same for 712-729 c1I, c1iX, c2iWX *)
Definition call (G : val -> option val -> val -> M) (f : val) (w : option val) (x : val) : M := if isFun f then G f w x else cF f.
(* h.h:731-732 c1G, c2G *)
Definition callG (G : val -> option val -> val -> M) (f : val) (w : option val) (x : val) : M := if isFun f then G f w x else bad.
(* derv.c:50-56 and 84-90: the choice in fork_c1, fork_c2 *)
Definition choose (f g h : val) : ptr :=
  if negb (isFun g) then PGen else if negb (isFun h) then PGen else if isFun f then PFff else if isVal f then PVff else PNff.
(* derv.c:30-48 fork_c1_general .. nff; 64-82 fork_c2_general .. nff *)
Definition fork_run (G : val -> option val -> val -> M) (p : ptr) (f g h : val) (w : option val) (x : val) : M :=
  match p with
  | PInit => bad
  | PGen => let* hr := call G h w x in let* fr := call G f w x in call G g (Some fr) hr
  | PFff => let* hr := callG G h w x in let* fr := callG G f w x in callG G g (Some fr) hr
  | PVff => if isVal f then let* hr := callG G h w x in callG G g (Some f) hr else bad
  | PNff => if isVal f then bad else let* hr := callG G h w x in callG G g (Some f) hr
  end.
(* derv.c:49-62, 83-96 fork_c1, fork_c2 *)
Definition set_ptr (c : cache) (id : nat) (two : bool) (p : ptr) : cache := fun i => if Nat.eqb i id then (if two then (fst (c i), p) else (p, snd (c i))) else c i.
Definition fork_call (G : val -> option val -> val -> M) (id : nat) (w : option val) (x : val) : M := fun s =>
  let '(f, g, h) := obj id in let two := match w with Some _ => true | None => false end in
  match (if two then snd (fst s id) else fst (fst s id)) with
  | PInit => let p := choose f g h in fork_run G p f g h w x (set_ptr (fst s) id two p, snd s)
  | p => fork_run G p f g h w x s
  end.
(* core/stuff.h:75 WRAP; md2.c:147-151, 161-165: the function that ◶ chooses *)
Definition wrap (i : Z) (n : Z) : option Z := if (0 <=? i) && (i <? n) then Some i else let i := i + n in if (0 <=? i) && (i <? n) then Some i else None.
Definition choice (fr g : val) : out :=
  match fr with
  | Num _ | Frac _ =>
    match g with
    | Arr [_] l => match fr with Num i => match wrap i (Z.of_nat (length l)) with Some i => match nth_error l (Z.to_nat i) with Some f => Ret f | None => Bad end | None => Thr EIdx end | _ => Thr EInt end
    | _ => Thr ERank
    end
  | _ => pick fr g
  end.
Definition lift (o : out) : M := fun s => Some (o, s).
(** the call of a function, in [n] levels; [e] is the error that is being handled *)
Fixpoint cG (n : nat) (e : err) (f : val) (w : option val) (x : val) : M :=
  match n with
  | O => fun _ => None
  | S n =>
    let c := call (cG n e) in
    match f with
    | Prim p => fun s => let r := prim p w x e (snd s) in Some (fst r, (warm p w x (snd s) (fst s), snd r))
    | Fork id => fork_call (cG n e) id w x
    (* derv.c:27-28 *)
    | Atop g h => let* r := c h w x in c g None r
    (* md1.c:173-177 *)
    | D1 Const f => ret f
    | D1 Swap f => match w with None => c f (Some x) x | Some w => c f (Some x) w end
    (* md2.c:8-9 *)
    | D2 Val f g => match w with None => c f None x | Some _ => c g w x end
    (* md2.c:51-52; pushRe sets the error that •CurrentError gives, popping it restores that *)
    | D2 Catch f g => fun s => match c f w x s with Some (Thr e', s) => call (cG n e') g w x s | r => r end
    (* md2.c:130-135 *)
    | D2 Before f g =>
      match w with
      | None => if isCallable f then (if isMd f then thr EMod else let* r := callG (cG n e) f None x in c g (Some r) x) else c g (Some f) x
      | Some w => let* r := c f None w in c g (Some r) x
      end
    | D2 After f g =>
      match w with
      | None => if isCallable g then (if isMd g then thr EMod else let* r := callG (cG n e) g None x in c f (Some x) r) else c f (Some x) g
      | Some _ => let* r := c g None x in c f w r
      end
    (* md2.c:136-139 *)
    | D2 Compose f g => let* r := c g w x in c f None r
    | D2 Over f g =>
      match w with
      | None => let* r := c g None x in c f None r
      | Some w => let* xr := c g None x in let* wr := c g None w in c f (Some wr) xr
      end
    (* md2.c:143-170 *)
    | D2 Cond f g => let* fr := c f w x in let* k := lift (choice fr g) in c k w x
    (* md2.c:193-206; h.h:513 o2b *)
    | D2 While f g =>
      let* b := c g w x in
      match b with
      | Num 0 => ret x
      | Num 1 => let* y := c f w x in cG n e (D2 While f g) w y
      | _ => thr EBool
      end
    | _ => bad
    end
  end.
(* a call from outside: c1, c2 *)
Definition run (n : nat) (e : err) (f : val) (w : option val) (x : val) : M := call (cG n e) f w x.
(** calls one after the other, as a program makes them; errors stop it *)
Fixpoint history (n : nat) (e : err) (l : list (val * option val * val)) : st -> option (list val * option err * st) :=
  match l with
  | [] => fun s => Some ([], None, s)
  | (f, w, x) :: l => fun s =>
    match run n e f w x s with
    | Some (Ret v, s) => match history n e l s with Some (r, o, s) => Some (v :: r, o, s) | None => None end
    | Some (Thr e, s) => Some ([], Some e, s)
    | _ => None
    end
  end.
End T.
