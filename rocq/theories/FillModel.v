(** Model of the fills of arrays: src/core/fillarr.c asFill, withFill, fillEqual, m_unit, m_vec1, emptyVec, emptyWithFill; fillarr.h getFillR, fill_both.
    Simplified: reference counts are left out (C05); whether an argument may be reused and whether it is marked as squeezed are arbitrary ([reuse], [squoze]); slices are arrays with their elements;
    the test for one and the same object in fillEqual is left out for arrays (it only answers true early). *)
From Verif Require Import Base TagModel TagSpec NumSpec ArrSpec SqueezeModel HashModel.
From Verif Require PervModel.
From Coq Require Import List.
Open Scope Z_scope.

(** an atom; an array of one type; an array of any values, with its fill if that is known (t_harr: not known) *)
Inductive fv := At (w : Z) | Ty (sh : list nat) (e : elt) (l : list Z) | Bx (sh : list nat) (d : list fv) (f : option fv).
Definition size (sh : list nat) : nat := fold_right Nat.mul 1%nat sh.
Definition space : Z := m_c32 32.
Definition elNum (e : elt) : bool := PervModel.elNum e.
Definition elChr (e : elt) : bool := PervModel.elChr e.
(* fillarr.h:29-30 *)
Definition numFill (f : fv) : bool := match f with At w => w =? 0 | _ => false end.
Definition chrFill (f : fv) : bool := match f with At w => isC32 w | _ => false end.
(* GetU: an element as a value *)
Definition box (e : elt) (z : Z) : Z := match e with EBit | EI8 | EI16 | EI32 => of_int z | EC8 | EC16 | EC32 => m_c32 z | EF64 | EB => z end.

(* fillarr.h:48-63 getFillR *)
Definition getFill (a : fv) : option fv :=
  match a with
  | At w => if isF64 w then Some (At 0) else if isC32 w then Some (At space) else None
  | Ty _ e _ => Some (At (if elNum e then 0 else space))
  | Bx _ _ f => f
  end.

Definition sh_eqb (a b : list nat) : bool := if list_eq_dec PeanoNat.Nat.eq_dec a b then true else false.
(* fillarr.h:23-27 fillEqual, fillarr.c:94-108 fillEqualF *)
Fixpoint fillEqual (a b : fv) : bool :=
  match a with
  | At w => match b with At x => w =? x | _ => false end
  | Ty sh e l =>
    match b with
    | At _ => false
    | Ty sh' e' l' => sh_eqb sh sh' && ((size sh =? 0)%nat || Bool.eqb (elNum e) (elNum e'))
    | Bx sh' d' _ => sh_eqb sh sh' && ((size sh =? 0)%nat || forallb (fun p => match snd p with At x => box e (fst p) =? x | _ => false end) (combine l d'))
    end
  | Bx sh d _ =>
    match b with
    | At _ => false
    | Ty sh' e' l' => sh_eqb sh sh' && ((size sh =? 0)%nat || (fix go d l := match d, l with a :: d, z :: l => fillEqual a (At (box e' z)) && go d l | _, _ => true end) d l')
    | Bx sh' d' _ => sh_eqb sh sh' && ((size sh =? 0)%nat || (fix go d l := match d, l with a :: d, b :: l => fillEqual a b && go d l | _, _ => true end) d d')
    end
  end.

Section F.
Variable cast : Z -> Z.
Variables reuse squoze : fv -> bool.
(* squeeze_numTry, squeeze_chrTry; an array that holds arrays is not changed *)
Fixpoint words_of (d : list fv) : option (list Z) := match d with [] => Some [] | At w :: d => match words_of d with Some l => Some (w :: l) | None => None end | _ :: _ => None end.
Definition squeeze_v (sqf : arr -> res arr) (x : fv) : res fv :=
  match x with
  | At _ => UB
  | Ty sh e l => do r <- sqf (mk e l); Ok (Ty sh (a_et r) (a_els r))
  | Bx sh d f => match words_of d with None => Ok x | Some ws => do r <- sqf (mk EB ws); Ok (match a_et r with EB => x | e => Ty sh e (a_els r) end) end
  end.
Definition el_type (x : fv) : elt := match x with Ty _ e _ => e | _ => EB end.
(* fillarr.c:128-155, from the second half of withFill *)
Definition boxed (x : fv) (fill : fv) : res fv :=
  match x with
  | At _ => UB
  | Ty sh e l => do l <- mapM (conv1 e EB) l; Ok (Bx sh (map At l) (Some fill))
  | Bx sh d _ => Ok (Bx sh d (Some fill))
  end.
Definition with_new (x fill : fv) : res fv :=
  if squoze x then boxed x fill else
  if numFill fill then do y <- squeeze_v (squeeze_numTry cast) x; if elNum (el_type y) then Ok y else boxed y fill else
  if chrFill fill then do y <- squeeze_v squeeze_chrTry x; if elChr (el_type y) then Ok y else boxed y fill else
  boxed x fill.
(* fillarr.c:110-155 withFill *)
Definition withFill (x : fv) (fill : option fv) : res fv :=
  match fill with
  | None => match x with Bx sh d _ => Ok (Bx sh d None) | _ => Ok x end
  | Some f =>
    match x with
    | At _ => UB
    | Ty _ e _ => if (elNum e && numFill f) || (elChr e && chrFill f) then Ok x else with_new x f
    | Bx sh d (Some g) => if fillEqual g f then Ok x else if reuse x then Ok (Bx sh d (Some f)) else with_new x f
    | Bx _ _ None => with_new x f
    end
  end.
(* fillarr.c:3-30 asFill; None: bi_noFill *)
Fixpoint asFill (x : fv) : res (option fv) :=
  match x with
  | Ty sh e l => Ok (Some (if elNum e then Ty sh EBit (repeat 0 (size sh)) else Ty sh EC8 (repeat 32 (size sh))))
  | Bx sh d f =>
    do r <- (fix go d := match d with [] => Ok (Some []) | a :: d => do y <- asFill a; match y with None => Ok None | Some y => do r <- go d; Ok (match r with None => None | Some r => Some (y :: r) end) end end) d;
    match r with None => Ok None | Some r => do y <- withFill (Bx sh r None) f; Ok (Some y) end
  | At w => Ok (if isF64 w then Some (At 0) else if isC32 w then Some (At space) else None)
  end.
(* fillarr.h:127-134 fill_both *)
Definition fill_both (w x : fv) : option fv :=
  match getFill w with
  | None => None
  | Some wf => match getFill x with None => None | Some xf => if fillEqual wf xf then Some xf else None end
  end.
(* fillarr.c:158-174 m_funit, m_fvec1; 176-203 m_oneItemArr: m_unit is of rank 0, m_vec1 of rank 1 *)
Definition m_oneItem (x : fv) (sh : list nat) : res fv :=
  match x with
  | At w =>
    if isF64 w then let xi := cast w in
      Ok (if i32_ne_f xi w then Ty sh EF64 [w] else if (xi =? 0) || (xi =? 1) then Ty sh EBit [xi] else if xi =? to_s 8 xi then Ty sh EI8 [xi] else if xi =? to_s 16 xi then Ty sh EI16 [xi] else Ty sh EI32 [xi])
    else if isC32 w then let xi := o2cG w in Ok (if xi =? to_u 8 xi then Ty sh EC8 [xi] else if xi =? to_u 16 xi then Ty sh EC16 [xi] else Ty sh EC32 [xi])
    else Ok (Bx sh [x] None)
  | _ => do f <- asFill x; Ok (Bx sh [x] f)
  end.
(* fillarr.c:205-216 emptyVec *)
Definition emptyVec (x : fv) : res fv :=
  match x with
  | At _ => UB
  | Ty _ e _ => Ok (if elNum e then Ty [0%nat] EBit [] else Ty [0%nat] EC8 [])
  | Bx _ _ f => Ok (match f with Some g => if numFill g then Ty [0%nat] EBit [] else if chrFill g then Ty [0%nat] EC8 [] else Bx [0%nat] [] (Some g) | None => Bx [0%nat] [] None end)
  end.
(* fillarr.c:229-240 emptyWithFill; the shape [sh], which has no elements, is set by the caller *)
Definition emptyWithFill (fill : option fv) (sh : list nat) : fv :=
  match fill with Some g => if numFill g then Ty sh EBit [] else if chrFill g then Ty sh EC8 [] else Bx sh [] (Some g) | None => Bx sh [] None end.
(* fillarr.c:218-227 emptyArr; for rank 1 it is emptyVec *)
Definition emptyArr (x : fv) (sh : list nat) : res fv :=
  match x with At _ => UB | _ => if (length sh =? 1)%nat then emptyVec x else Ok (emptyWithFill (getFill x) sh) end.
End F.
