(** UTF-8 as RFC 3629 describes it, in plain arithmetic. *)
From Verif Require Import Base.

Definition enc1 (c : Z) : list Z :=
  if c <? 0x80 then [c]
  else if c <? 0x800 then [0xC0 + c / 64; 0x80 + c mod 64]
  else if c <? 0x10000 then [0xE0 + c / 4096; 0x80 + (c / 64) mod 64; 0x80 + c mod 64]
  else [0xF0 + c / 262144; 0x80 + (c / 4096) mod 64; 0x80 + (c / 64) mod 64; 0x80 + c mod 64].
Definition enc (cs : list Z) : list Z := flat_map enc1 cs.

(** The encoder's domain: code points below 2^21. *)
Definition codept (c : Z) : Prop := 0 <= c < 2 ^ 21.
(** Unicode scalar values. *)
Definition scalar (c : Z) : Prop := 0 <= c <= 0x10FFFF /\ ~ (0xD800 <= c <= 0xDFFF).
Definition valid_utf8 (bs : list Z) : Prop := exists cs, Forall scalar cs /\ enc cs = bs.

Definition unit16 (w : Z) : Prop := 0 <= w < 65536.
Definition unichar (c : Z) : Prop := 0 <= c <= 0x10FFFF.
(** No high surrogate directly followed by a low surrogate. *)
Definition no_pair (cs : list Z) : Prop :=
  forall i a b, nth_error cs i = Some a -> nth_error cs (S i) = Some b -> ~ (0xD800 <= a <= 0xDBFF /\ 0xDC00 <= b <= 0xDFFF).

(** Sequence length announced by a lead byte (RFC 3629 section 3: 0xxxxxxx, 110xxxxx, 1110xxxx, 11110xxx). *)
Definition lead_len (b : Z) : option nat :=
  if (0 <=? b) && (b <? 0x80) then Some 1%nat
  else if (0xC0 <=? b) && (b <? 0xE0) then Some 2%nat
  else if (0xE0 <=? b) && (b <? 0xF0) then Some 3%nat
  else if (0xF0 <=? b) && (b <? 0xF8) then Some 4%nat
  else None.
(** A byte string is a sequence of chunks, each as long as its lead byte announces. *)
Definition lead_chunk (ch : list Z) : Prop := exists b t, ch = b :: t /\ lead_len b = Some (length ch).
Definition lead_structured (bs : list Z) (n : nat) : Prop :=
  exists chunks, concat chunks = bs /\ Forall lead_chunk chunks /\ length chunks = n.
Definition bytes (bs : list Z) : Prop := Forall (fun b => 0 <= b < 256) bs.
