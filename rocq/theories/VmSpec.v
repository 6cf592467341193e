(** Specification for bytecode: the instructions of a body as the bytecode documentation describes them. *)
From Verif Require Import Base VmModel.

(** One instruction: its name and its first operand (0 if it has none). *)
Definition instr : Type := Z * Z.
(** Number of operand words. *)
Definition operands (op : Z) : nat :=
  if isin op [PUSH; DFND; LSTO; LSTM; ARMO; ARMM; FLDO; ALIM] then 1%nat else if isin op [VARO; VARM; VARU] then 2%nat else 0%nat.
(** The documented instructions. *)
Definition documented (i : instr) : Prop :=
  In (fst i) [PUSH; DFND; LSTO; LSTM; ARMO; ARMM; FLDO; ALIM; VARO; VARM; VARU; POPS; RETN; RETD; FN1C; FN2C; FN1O; FN2O; TR2D; TR3D; TR3O; CHKV; MD1C; MD2C;
              PRED; VFYM; NOTM; SETH; SETN; SETU; SETM; SETC]
  /\ (In (fst i) [LSTO; LSTM; ARMO; ARMM] -> 0 <= snd i < 2 ^ 31).
(** The instructions from word p up to the one that returns. *)
Inductive body_of (bc : list Z) : nat -> list instr -> Prop :=
| body_ret : forall p op, nth_error bc p = Some op -> op = RETN \/ op = RETD -> body_of bc p [(op, 0)]
| body_step : forall p op a l, nth_error bc p = Some op -> op <> RETN -> op <> RETD ->
    (p + operands op < length bc)%nat ->
    a = (if (operands op =? 0)%nat then 0 else nth (p + 1) bc 0) ->
    body_of bc (p + 1 + operands op) l -> body_of bc p ((op, a) :: l).
(** Instructions that leave the stack possibly empty. *)
Definition leaves_none (op : Z) : bool := isin op [POPS; SETH; PRED].
(** A check for Nothing looks at what the instruction before it left on the stack. *)
Fixpoint checks_ok (prev : bool) (l : list instr) : Prop :=
  match l with
  | [] => True
  | (op, _) :: t => (op = CHKV -> prev = true) /\ checks_ok (negb (leaves_none op)) t
  end.
Definition has_pred (l : list instr) : bool := existsb (fun i => fst i =? PRED) l.
