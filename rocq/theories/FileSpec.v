(** What the files and paths functions promise *)
From Verif Require Import Base UtfSpec FileModel.
From Coq Require Import List.
Open Scope nat_scope.
(** Lines: a line ends at a line feed, a carriage return, or the two together; what follows the last end is a line unless it is empty. *)
Definition plain (l : list Z) : Prop := ~ In 10%Z l /\ ~ In 13%Z l.
Inductive lines : list Z -> list (list Z) -> Prop :=
| l_none : lines [] []
| l_last l : plain l -> l <> [] -> lines l [l]
| l_lf l b ls : plain l -> lines b ls -> lines (l ++ [10%Z] ++ b) (l :: ls)
| l_crlf l b ls : plain l -> lines b ls -> lines (l ++ [13%Z; 10%Z] ++ b) (l :: ls)
| l_cr l b ls : plain l -> hd_error b <> Some 10%Z -> lines b ls -> lines (l ++ [13%Z] ++ b) (l :: ls).
(** the whole file can be read *)
Definition readable (e : renv) (b : list Z) : Prop := r_opens e = true /\ length b <= r_got e.
(** what fwrite took has reached the file when it is closed *)
Definition flushed (e : wenv) : Prop := w_accepted e <= w_stored e.
Definition holds (f : fs) (p : path) (b : list Z) : Prop := f p = Some b.
(** other files are as before *)
Definition others (f g : fs) (p : path) : Prop := forall q, q <> p -> g q = f q.
(** a path with a slash, and the part after the last one *)
Definition noslash (p : path) : Prop := ~ In 47%Z p.
(** the byte a character or small number stands for *)
Definition as_byte (a : atom) (b : Z) : Prop := match a with C c => (0 <= c < 256)%Z /\ b = c | N z => (-128 <= z < 256)%Z /\ b = (if z <? 0 then z + 256 else z)%Z | O => False end.
