(** Model of catching and throwing: the operand stack, the environment stack, the catch frames (src/vm.c:1310-1341, 1681-1757), and the message of the current
    error as kept by the Catch modifier (src/builtins/md2.c:36-53). Only one kind of item on the operand stack matters here, the object that restores the previous
    message when it is freed; every other item is a number. *)
From Verif Require Import Base.

(* src/builtins/md2.c:38-45 ReObj, or any other value *)
Inductive item := Re (msg : Z) | Other (v : Z).
(* src/vm.h:218-221 *)
Record envent := { pos : Z; sco : Z }.
(* src/vm.c:1310-1317 *)
Record frame := { gsDepth : nat; envDepth : nat; cfDepth : nat }.
(** The stacks, lowest entry first. *)
Record st := { gs : list item; envs : list envent; cf : list frame; thrown : Z; lastErr : Z }.
Definition set_gs (s : st) (g : list item) : st := {| gs := g; envs := envs s; cf := cf s; thrown := thrown s; lastErr := lastErr s |}.
Definition set_envs (s : st) (e : list envent) : st := {| gs := gs s; envs := e; cf := cf s; thrown := thrown s; lastErr := lastErr s |}.
Definition set_cf (s : st) (c : list frame) : st := {| gs := gs s; envs := envs s; cf := c; thrown := thrown s; lastErr := lastErr s |}.
Definition set_thrown (s : st) (m : Z) : st := {| gs := gs s; envs := envs s; cf := cf s; thrown := m; lastErr := lastErr s |}.
Definition set_lastErr (s : st) (m : Z) : st := {| gs := gs s; envs := envs s; cf := cf s; thrown := thrown s; lastErr := m |}.

(* dec of an item that is referenced only from the stack: src/builtins/md2.c:43 re_freeO *)
Definition dec (s : st) (i : item) : st := match i with Re m => set_lastErr s m | Other _ => s end.
(* src/core/gstack.h:37-39 gsPop *)
Definition gsPop (s : st) : res (st * item) :=
  match rev (gs s) with [] => UB | i :: r => Ok (set_gs s (rev r), i) end.
(* pops down to a given height, freeing: src/vm.c:1721 *)
Fixpoint pop_to (fuel : nat) (s : st) (n : nat) : res st :=
  if (length (gs s) =? n)%nat then Ok s else
  match fuel with O => UB | S f => do (s, i) <- gsPop s; pop_to f (dec s i) n end.
(* src/vm.c:1681-1689 unwindEnv; rewriting the positions of the entries that go is not modelled *)
Definition unwindEnv (s : st) (n : nat) : res st := if (length (envs s) <? n)%nat then UB else Ok (set_envs s (firstn n (envs s))).

(* src/vm.c:1323-1336 prepareCatch; growing the frame array is not modelled *)
Definition prepareCatch (s : st) : st := set_cf s (cf s ++ [{| gsDepth := length (gs s); envDepth := length (envs s); cfDepth := length (cf s) |}]).
(* src/vm.c:1337-1340 popCatch *)
Definition popCatch (s : st) : res st := match cf s with [] => UB | _ => Ok (set_cf s (removelast (cf s))) end.

Inductive out := Normal | Jump (frame : nat) | Exit.
(* src/vm.c:1710-1743 throwImpl *)
Definition throwImpl (s : st) : res (st * out) :=
  match rev (cf s) with
  | f :: r =>
    if (length (gs s) <? gsDepth f)%nat then UB else
    do s <- pop_to (length (gs s)) (set_cf s (rev r)) (gsDepth f);
    do s <- unwindEnv s (envDepth f);
    if (length (cf s) <? cfDepth f)%nat then UB else
    Ok (set_cf s (firstn (cfDepth f) (cf s)), Jump (cfDepth f))
  | [] => Ok (s, Exit)
  end.

(** What native code can do with the stacks. Operand stack use is nested: what a piece of code pushes it pops at its end, unless it throws. *)
Inductive prog :=
| Skip
| Seq (a b : prog)
| Items (l : list Z) (p : prog)          (* pushes values, runs p, pops them *)
| Call (e : envent) (p : prog)           (* src/vm.c:714-980 evalBC: pushEnv, p, popEnv. Going on to another body (:694-704) is popEnv and pushEnv, so it is two calls in sequence. *)
| Throw (msg : Z)                        (* src/vm.c:1745-1748 thr *)
| Rethrow                                (* src/vm.c:1749-1751 *)
| Try (p h : prog)                       (* if (CATCH) { freeThrown(); h } else { p; popCatch(); } *)
| Catch (p h : prog).                    (* src/builtins/md2.c:52-53, the Catch modifier *)
(* src/core/gstack.h: capacity, and src/vm.h:230-241 pushEnv, popEnv *)
Section Exec.
Variables (GS_SIZE ENV_SIZE : nat).
Definition push_item (s : st) (i : item) : res (st * out) :=
  if (length (gs s) =? GS_SIZE)%nat then throwImpl (set_thrown s 1) else Ok (set_gs s (gs s ++ [i]), Normal).
Fixpoint push_items (s : st) (l : list Z) : res (st * out) :=
  match l with
  | [] => Ok (s, Normal)
  | v :: t => do (s, o) <- push_item s (Other v); match o with Normal => push_items s t | _ => Ok (s, o) end
  end.
Fixpoint pop_items (s : st) (l : list Z) : res st := match l with [] => Ok s | _ :: t => do (s, i) <- gsPop s; pop_items (dec s i) t end.
Definition pushEnv (s : st) (e : envent) : res (st * out) :=
  if (length (envs s) =? ENV_SIZE)%nat then throwImpl (set_thrown s 1) else Ok (set_envs s (envs s ++ [e]), Normal).
Definition popEnv (s : st) : res st := match envs s with [] => UB | _ => Ok (set_envs s (removelast (envs s))) end.
Fixpoint exec (p : prog) (s : st) : res (st * out) :=
  match p with
  | Skip => Ok (s, Normal)
  | Seq a b => do (s, o) <- exec a s; match o with Normal => exec b s | _ => Ok (s, o) end
  | Items l p =>
    do (s, o) <- push_items s l; match o with
    | Normal => do (s, o) <- exec p s; match o with Normal => do s <- pop_items s l; Ok (s, Normal) | _ => Ok (s, o) end
    | _ => Ok (s, o) end
  | Call e p =>
    do (s, o) <- pushEnv s e; match o with
    | Normal => do (s, o) <- exec p s; match o with Normal => do s <- popEnv s; Ok (s, Normal) | _ => Ok (s, o) end
    | _ => Ok (s, o) end
  | Throw m => throwImpl (set_thrown s m)
  | Rethrow => throwImpl s
  | Try p h =>
    let here := length (cf s) in
    do (s, o) <- exec p (prepareCatch s);
    match o with
    | Normal => do s <- popCatch s; Ok (s, Normal)
    | Jump j => if (j =? here)%nat then exec h (set_thrown s 0) else if (here <? j)%nat then UB else Ok (s, o)
    | Exit => Ok (s, Exit)
    end
  | Catch p h =>
    let here := length (cf s) in
    do (s, o) <- exec p (prepareCatch s);
    match o with
    | Normal => do s <- popCatch s; Ok (s, Normal)
    | Jump j =>
      if (j =? here)%nat then
        (* pushRe, then h, then dec(gsPop()) *)
        do (s, o) <- push_item s (Re (lastErr s)); match o with
        | Normal =>
          do (s, o) <- exec h (set_thrown (set_lastErr s (thrown s)) 0); match o with
          | Normal => do (s, i) <- gsPop s; Ok (dec s i, Normal)
          | _ => Ok (s, o) end
        | _ => Ok (s, o) end
      else if (here <? j)%nat then UB else Ok (s, o)
    | Exit => Ok (s, Exit)
    end
  end.
End Exec.
