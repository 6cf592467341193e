(** Model of monadic arithmetic (src/builtins/arithm.c) and of modulus and floor division of integers (src/builtins/arithd.c:42-91), SINGELI=0. *)
From Verif Require Import Base BitsModel SqueezeModel SelectModel ArithModel.
From Coq Require Import List QArith Qabs Qround.
Open Scope Z_scope.

Section M.
Variable sq : arr -> arr.
(* arithm.c:88 with 37-46, 85: bits by bit_sel, else 0-𝕩 (SUB_BODY) *)
Definition neg_c1 (x : arr) : res arr := match x with AB wp n => do l <- get_bits (Z.to_nat n) wp 0; Ok (sq (AF (map (fun b : bool => if b then -1 else 0) l))) | _ => arith_SA sq OSub 0 x end.
(* arithm.c:89, 74-75: the least integer of the type goes to the generic path *)
Definition abs_c1 (x : arr) : res arr :=
  match x with
  | AB _ _ => Ok x
  | AI k l => if existsb (fun c => c =? - 2 ^ (k - 1)) l then Ok (sq (AF (map Z.abs l))) else Ok (AI k (map (fun c => if 0 <=? c then c else to_s k (- c)) l))
  | AF l => Ok (AF (map Z.abs l))
  end.
(* arithm.c:92, 59-60 *)
Definition sign_c1 (x : arr) : res arr :=
  match x with AB _ _ => Ok x | AI _ l => Ok (AI 8 (map (fun c => if 0 <? c then 1 else if c =? 0 then 0 else -1) l)) | AF l => Ok (AI 8 (map (fun c => if 0 <? c then 1 else if c =? 0 then 0 else -1) l)) end.
(* arithm.c:13-22, 86, 93: the words of a bit array are inverted *)
Fixpoint negate_words (n : nat) (xp : list Z) (i : Z) : res (list Z) := match n with O => Ok [] | S n => do a <- rdz xp i; do r <- negate_words n xp (i + 1); Ok (not64 a :: r) end.
Definition not_c1 (x : arr) : res arr :=
  let x := match x with AB _ _ => x | _ => sq x end in
  match x with AB wp n => do r <- negate_words (Z.to_nat (BIT_N n)) wp 0; Ok (AB r n) | _ => arith_SA sq OSub 1 x end.

(** rounding to float (f32) and double (f64); only bounds on their error are used *)
Variables (r32 r64 : Q -> Q).
(* arithd.c:68-87 floordiv_AS for |xv| > 1: one element of the loops; -ffp-contract=off, so every operation rounds *)
Definition fd_elem (fl : Q -> Q) (xv e : Z) : Z :=
  let xr := fl (1 / fl (inject_Z xv))%Q in
  let off := fl ((1 # 2) * Qabs.Qabs xr)%Q in
  Qfloor (fl (fl (inject_Z e * xr) + off))%Q.
(* xv=1: 𝕨; xv=-1: -𝕨; xv=0 (not a number or infinite) is left out *)
Definition floordiv_AS (w : arr) (xv : Z) : res arr :=
  if xv =? 1 then Ok w else if xv =? -1 then neg_c1 w else
  match w with
  | AB wp n => do l <- elems w; Ok (AI 16 (map (fun e => to_s 16 (fd_elem r32 xv e)) l))
  | AI k l => if k <=? 16 then Ok (AI 16 (map (fun e => to_s 16 (fd_elem r32 xv e)) l)) else Ok (AI 32 (map (fun e => to_s 32 (fd_elem r64 xv e)) l))
  | AF _ => UB (* assertion *)
  end.
(* arithd.c:57-67 floordiv_AA, 42-47 divint_AA: one element; 𝕩 has no zeros *)
Definition fdiv_elem (fl : Q -> Q) (w x : Z) : Z := Qfloor (fl (fl (inject_Z w) / fl (inject_Z x)))%Q.
Fixpoint fdiv_all (fl : Q -> Q) (w x : list Z) : res (list Z) := match w, x with a :: w, b :: x => do r <- fdiv_all fl w x; Ok (fdiv_elem fl a b :: r) | [], [] => Ok [] | _, _ => UB end.
Definition floordiv_AA (w x : arr) : res arr :=
  do wl <- elems w; do xl <- elems x;
  let k := match w with AB _ _ => 1 | AI k _ => k | AF _ => 64 end in
  do r <- fdiv_all (if k <=? 16 then r32 else r64) wl xl; Ok (sq (AF r)).
(* arithd.c:90-91 modint_AA, modint_SA *)
Definition modint_AA (w x : arr) : res arr := do q <- floordiv_AA x w; do p <- arith_AA sq OMul w q; do r <- arith_AA sq OSub x p; Ok (sq r).
Definition modint_SA (wv : Z) (x : arr) : res arr := do q <- floordiv_AS x wv; do p <- arith_SA sq OMul wv q; do r <- arith_AA sq OSub x p; Ok (sq r).
(* arithd.c:179-206 stile for an integer 𝕨 and integer array 𝕩 *)
Definition stile_SA (wv : Z) (x : arr) : res arr :=
  if (0 <? wv) && (Z.land wv (wv - 1) =? 0) then
    if wv =? 1 then Ok (AI 8 (repeat 0 (Z.to_nat (a_ia x)))) else
    match x with AB _ _ => Ok x | AI k l => stile_pow2 wv k l | AF _ => UB end
  else modint_SA wv x.
End M.
