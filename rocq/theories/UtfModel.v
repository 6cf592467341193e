(** Model of src/utils/utf.c and src/windows/utf16.h. Bytes and code units are Z. *)
From Verif Require Import Base.

(* src/utils/utf.c:4-10 utf8lenb; the result -1 is None *)
Definition utf8lenb (ch : Z) : option nat :=
  if ch <? 128 then Some 1%nat
  else if Z.shiftr ch 5 =? 6 then Some 2%nat
  else if Z.shiftr ch 4 =? 14 then Some 3%nat
  else if Z.shiftr ch 3 =? 30 then Some 4%nat
  else None.

(* src/utils/utf.c:11-20 utf8_p at position i of s. Reads outside of s are UB. *)
Definition utf8_p (s : list Z) (i : nat) : res Z :=
  do b0 <- rd s i;
  match utf8lenb b0 with
  | None => Ok (2 ^ 32 - 1)
  | Some 1%nat => Ok b0
  | Some 2%nat => do b1 <- rd s (i+1);
      Ok (Z.lor (Z.shiftl (Z.land 31 b0) 6) (Z.land 63 b1))
  | Some 3%nat => do b2 <- rd s (i+2); do b1 <- rd s (i+1);
      Ok (Z.lor (Z.lor (Z.shiftl (Z.land 15 b0) 12) (Z.land 63 b2)) (Z.shiftl (Z.land 63 b1) 6))
  | Some _ => do b3 <- rd s (i+3); do b2 <- rd s (i+2); do b1 <- rd s (i+1);
      Ok (Z.lor (Z.lor (Z.lor (Z.shiftl (Z.land 7 b0) 18) (Z.land 63 b3)) (Z.shiftl (Z.land 63 b2) 6)) (Z.shiftl (Z.land 63 b1) 12))
  end.

(* src/utils/utf.c:21-28 utf8_w: the bytes appended for one u32 c; each is truncated to a char *)
Definition byte (x : Z) : Z := x mod 256.
Definition utf8_w (c : Z) : list Z :=
  if c <? 128 then [byte c]
  else if c <=? 0x7FF then [byte (Z.lor 0xC0 (Z.shiftr c 6)); byte (Z.lor 0x80 (Z.land c 0x3F))]
  else if c <=? 0xFFFF then [byte (Z.lor 0xE0 (Z.shiftr c 12)); byte (Z.lor 0x80 (Z.land (Z.shiftr c 6) 0x3F)); byte (Z.lor 0x80 (Z.land c 0x3F))]
  else [byte (Z.lor 0xF0 (Z.shiftr c 18)); byte (Z.lor 0x80 (Z.land (Z.shiftr c 12) 0x3F));
        byte (Z.lor 0x80 (Z.land (Z.shiftr c 6) 0x3F)); byte (Z.lor 0x80 (Z.land c 0x3F))].

(* src/utils/utf.c:30-45: first loop of utf8Decode; returns the number of characters. Fuel: each step advances j. *)
Fixpoint utf8_count (fuel : nat) (s : list Z) (len j sz : nat) : res nat :=
  match fuel with
  | O => UB
  | S fuel =>
    if (len <=? j)%nat then (if (j =? len)%nat then Ok sz else Err)
    else do b <- rd s j;
      match utf8lenb b with
      | None => Err
      | Some l => utf8_count fuel s len (j+l) (S sz)
      end
  end.

(* src/utils/utf.c:50: second loop. rp has room for sz characters: writing more is UB. *)
Fixpoint utf8_fill (fuel : nat) (s : list Z) (len i sz : nat) (acc : list Z) : res (list Z) :=
  match fuel with
  | O => UB
  | S fuel =>
    if (i <? len)%nat then
      do c <- utf8_p s i;
      do b <- rd s i;
      if (length acc <? sz)%nat then
        match utf8lenb b with
        | None => UB (* i+= -1 : the loop would not advance *)
        | Some l => utf8_fill fuel s len (i+l) sz (acc ++ [c])
        end
      else UB
    else if (length acc =? sz)%nat then Ok acc else UB (* uninitialised tail of the result *)
  end.

(* src/utils/utf.c:30-53 utf8Decode *)
Definition utf8Decode (s : list Z) : res (list Z) :=
  let len := length s in
  do sz <- utf8_count (S len) s len 0 0;
  if (sz =? len)%nat then Ok s (* m_c8vec: the bytes themselves *)
  else utf8_fill (S len) s len 0 sz [].

(* src/utils/utf.c:151-161 utf8lenB (on an array of characters) *)
Definition utf8lenB (cs : list Z) : Z :=
  fold_left (fun r c => r + (if c <=? 127 then 1 else if c <=? 0x7FF then 2 else if c <=? 0xFFFF then 3 else 4)) cs 0.
(* src/utils/utf.c:162-166 toUTF8 *)
Definition toUTF8 (cs : list Z) : list Z := fold_left (fun p c => p ++ utf8_w c) cs [].

(* ---- src/windows/utf16.h ---- *)
(* :4-13 utf16lenB *)
Definition utf16lenB (cs : list Z) : Z := fold_left (fun r c => r + (1 + (if 0xFFFF <? c then 1 else 0))) cs 0.
(* :15-26 utf16_w; WCHAR is 16 bits *)
Definition utf16_w (c : Z) : list Z :=
  if c <=? 0xFFFF then [c mod 65536]
  else [(Z.shiftr (c - 0x10000) 10 + 0xD800) mod 65536; (Z.land (c - 0x10000) 0x3FF + 0xDC00) mod 65536].
(* :28-32 toUTF16 *)
Definition toUTF16 (cs : list Z) : list Z := fold_left (fun p c => p ++ utf16_w c) cs [].
Definition isHi (w : Z) : bool := Z.land 0xFC00 w =? 0xD800.
Definition isLo (w : Z) : bool := Z.land 0xFC00 w =? 0xDC00.
(* :34-63 utf16Decode; both loops walk the same positions. Modelled on the remaining suffix, as only s[i], s[i+1] are read. *)
Fixpoint utf16_count (s : list Z) : nat :=
  match s with
  | [] => 0
  | a :: t => match t with
      | b :: t' => if isHi a && isLo b then S (utf16_count t') else S (utf16_count t)
      | [] => 1
      end
  end.
Fixpoint utf16Decode (s : list Z) : list Z :=
  match s with
  | [] => []
  | a :: t => match t with
      | b :: t' => if isHi a && isLo b then (0x10000 + Z.shiftl (a - 0xD800) 10 + (b - 0xDC00)) :: utf16Decode t'
                   else a :: utf16Decode t
      | [] => [a]
      end
  end.
