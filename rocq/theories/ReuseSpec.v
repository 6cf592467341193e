(** The same programs on immutable lists. *)
From Verif Require Import Base ReuseModel.
From Coq Require Import List Bool.
Import ListNotations.
Definition pstate := (list (list val) * list bool)%type.
Definition pstep (vle : val -> val -> bool) (s : pstate) (o : op) : pstate :=
  let '(E, out) := s in
  let use i (f : list val -> list val) := match nth_error E i with None => s | Some l => (without i E ++ [f l], out) end in
  match o with
  | ONew fill e l => (E ++ [l], out)
  | ODup i => match nth_error E i with None => s | Some l => (E ++ [l], out) end
  | ODrop i => match nth_error E i with None => s | Some l => (without i E, out) end
  | OSlice i off len => match nth_error E i with None => s | Some l => if (off + len <=? length l)%nat then use i (fun l => firstn len (skipn off l)) else s end
  | OTake i n => match nth_error E i with None => s | Some l => if (n <=? length l)%nat then use i (firstn n) else s end
  | OJoin i j => match nth_error E i, nth_error (without i E) j with Some a, Some b => (without j (without i E) ++ [a ++ b], out) | _, _ => s end
  | OAdd i v => use i (fun l => l ++ [v])
  | OSort i => use i (isort vle)
  | OCheck i => match nth_error E i with None => s | Some l => (E, out ++ [ascending vle l]) end
  | OPut i pos v => match nth_error E i with None => s | Some l => if (pos <? length l)%nat then use i (fun l => firstn pos l ++ v :: skipn (S pos) l) else s end
  end.
Fixpoint prun (vle : val -> val -> bool) (s : pstate) (p : list op) : pstate := match p with [] => s | o :: p => prun vle (pstep vle s o) p end.

(** the arrays a program starts from are arrays: the elements fit the element type, and only generic arrays carry a fill *)
Definition valid (o : op) : Prop := match o with ONew f e l => forallb (fits e) l = true /\ (f = true -> e = EB) | _ => True end.
Definition marks (o : op) : bool := match o with OSort _ | OCheck _ => true | _ => false end.
Definition puts (o : op) : bool := match o with OPut _ _ _ => true | _ => false end.
(** "the program gives what it gives on immutable lists": it does not fail, every array it holds has the expected elements, every order test the expected answer *)
Definition as_expected (clears : bool) (vle : val -> val -> bool) (ops : list op) : Prop :=
  exists h R, run clears vle ([], [], []) ops = Ok (h, R, snd (prun vle ([], []) ops)) /\ look h R = Ok (fst (prun vle ([], []) ops)).
