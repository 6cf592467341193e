(** Model of reading and writing files (src/utils/file.c, src/builtins/sysfn.c •file.Chars, Bytes, Lines, At, Parent, Name), on a system with paths of '/'.
    Simplified: the operating system is a map from paths to contents together with what its calls report ([wenv], [renv]); characters are code points, an element of a list is a character, an integer or
    something else; reference counts and element types other than those that choose a loop are left out. *)
From Verif Require Import Base SqueezeModel UtfModel.
From Coq Require Import List.
Open Scope nat_scope.
Inductive atom := C (c : Z) | N (z : Z) | O.
Definition path := list Z.
Definition fs := path -> option (list Z).
Definition set (f : fs) (p : path) (b : list Z) : fs := fun q => if list_eq_dec Z.eq_dec q p then Some b else f q.

(** ** Reading *)
(** fopen succeeds; fseek succeeds; the number of bytes that can be read before an error *)
Record renv := { r_opens : bool; r_seeks : bool; r_got : nat }.
(* file.c:100-113 stream_bytes, SZ bytes at a time *)
Fixpoint stream (SZ fuel : nat) (rest acc : list Z) : res (list Z) :=
  match fuel with 0 => UB | S fuel => match firstn SZ rest with [] => Ok acc | t => stream SZ fuel (skipn SZ rest) (acc ++ t) end end.
(* file.c:115-131 path_bytes *)
Definition path_bytes (e : renv) (f : fs) (p : path) : res (list Z) :=
  match f p with
  | None => Err
  | Some b => if negb (r_opens e) then Err else
    if r_seeks e then if Nat.min (r_got e) (length b) =? length b then Ok b else Err
    else stream (Z.to_nat 8192) (S (length b)) (firstn (r_got e) b) []
  end.
(* file.c:132-134 path_chars *)
Definition path_chars (e : renv) (f : fs) (p : path) : res (list Z) := do b <- path_bytes e f p; utf8Decode b.
(* file.c:139-146 the first loop of path_lines *)
Fixpoint line_count (fuel : nat) (p : list Z) (i n : nat) : res nat :=
  match fuel with
  | 0 => UB
  | S fuel =>
    if i <? length p then
      do b <- rd p i;
      if (b =? 10)%Z then line_count fuel p (i + 1) (n + 1) else
      if (b =? 13)%Z then
        if i + 1 <? length p then do c <- rd p (i + 1); line_count fuel p (if (c =? 10)%Z then i + 2 else i + 1) (n + 1)
        else line_count fuel p (i + 1) (n + 1)
      else line_count fuel p (i + 1) n
    else Ok n
  end.
Definition is_eol (b : Z) : bool := (b =? 10)%Z || (b =? 13)%Z.
(* file.c:152 *)
Fixpoint line_end (fuel : nat) (p : list Z) (pos : nat) : res nat :=
  match fuel with 0 => UB | S fuel => if pos <? length p then do b <- rd p pos; if is_eol b then Ok pos else line_end fuel p (pos + 1) else Ok pos end.
(* file.c:150-156 the second loop *)
Fixpoint line_loop (k : nat) (p : list Z) (pos : nat) : res (list (list Z)) :=
  match k with
  | 0 => Ok []
  | S k =>
    do e <- line_end (S (length p)) p pos;
    do d <- utf8Decode (firstn (e - pos) (skipn pos p));
    do nx <- (if e <? length p then do b <- rd p e; if (b =? 13)%Z && (e + 1 <? length p) then do c <- rd p (e + 1); Ok (if (c =? 10)%Z then e + 2 else e + 1) else Ok (e + 1) else Ok (e + 1));
    do r <- line_loop k p nx; Ok (d :: r)
  end.
(* file.c:135-159 path_lines *)
Definition split_lines (p : list Z) : res (list (list Z)) :=
  do n <- line_count (S (length p)) p 0 0;
  do n <- (if length p =? 0 then Ok n else do b <- rd p (length p - 1); Ok (if is_eol b then n else n + 1));
  line_loop n p 0.
Definition path_lines (e : renv) (f : fs) (p : path) : res (list (list Z)) := do b <- path_bytes e f p; split_lines b.

(** ** Writing *)
(** fopen succeeds; the number of bytes fwrite reports; the number of bytes in the file after fclose, whose result is not looked at *)
Record wenv := { w_opens : bool; w_accepted : nat; w_stored : nat }.
(* file.c:251-260 file_openWriteClose, file_checkWritten *)
Definition write (e : wenv) (f : fs) (p : path) (data : list Z) : fs * res unit :=
  if w_opens e then (set f p (firstn (w_stored e) data), if Nat.min (w_accepted e) (length data) =? length data then Ok tt else Err) else (f, Err).
(* o2c: an error for anything that is not a character *)
Definition o2c (a : atom) : res Z := match a with C c => Ok c | _ => Err end.
(* file.c:261-271 path_wChars; utf8lenB gives the error *)
Definition path_wChars (e : wenv) (f : fs) (p : path) (x : list atom) : fs * res unit :=
  match mapM o2c x with
  | Ok cs => if (utf8lenB cs =? Z.of_nat (length (toUTF8 cs)))%Z then write e f p (toUTF8 cs) else (f, UB)
  | Err => (f, Err)
  | UB => (f, UB)
  end.
(* file.c:230-246 get_chars; [direct]: 8-bit elements. A number goes through i32; char is 8 bits *)
Definition get_chars (direct : bool) (x : list atom) : res (list Z) :=
  if direct then mapM (fun a => match a with C c => Ok (c mod 256)%Z | N z => Ok (z mod 256)%Z | O => UB end) x
  else mapM (fun a => match a with N z => if (-2147483648 <=? z)%Z && (z <=? 2147483647)%Z then Ok (z mod 256)%Z else UB | _ => do c <- o2c a; Ok (c mod 256)%Z end) x.
(* file.c:272-281 path_wBytes *)
Definition path_wBytes (e : wenv) (f : fs) (p : path) (direct : bool) (x : list atom) : fs * res unit :=
  match get_chars direct x with Ok b => write e f p b | Err => (f, Err) | UB => (f, UB) end.
(* sysfn.c:820-837 flines_c2: [None] is an element that is not a list *)
Fixpoint join_lines (x : list (option (list atom))) (s : list atom) : res (list atom) :=
  match x with [] => Ok s | None :: _ => Err | Some l :: x => join_lines x (s ++ l ++ [C 10]) end.
Definition path_wLines (e : wenv) (f : fs) (p : path) (x : list (option (list atom))) : fs * res unit :=
  match join_lines x [] with Ok s => path_wChars e f p s | Err => (f, Err) | UB => (f, UB) end.

(** ** Paths *)
(* file.c:95-96 *)
Definition isSep (c : Z) : bool := (c =? 47)%Z.
Definition absolute (p : path) : res bool := do c <- rd p 0; Ok (isSep c).
(* file.c:163-182 path_rel; [None] is no base *)
Definition path_rel (base : option path) (rel : path) : res path :=
  do a <- (if length rel =? 0 then Ok false else absolute rel);
  if a : bool then Ok rel else
  match base with
  | None => Err
  | Some base =>
    if length rel =? 0 then Ok base else
    if length base =? 0 then Ok rel else
    do c <- rd base (length base - 1);
    let has := isSep c in
    let r := firstn (length base - (if has then 1 else 0)) base ++ [47%Z] ++ rel in
    if length r =? length base + length rel + (if has then 0 else 1) then Ok r else UB
  end.
(* file.c:189-191: downwards from i - 1 *)
Fixpoint last_sep (p : path) (i : nat) : res (option nat) :=
  match i with 0 => Ok None | S i => do c <- rd p i; if isSep c then Ok (Some i) else last_sep p i end.
(* file.c:184-196 path_parent *)
Definition path_parent (p : path) : res path :=
  if length p =? 0 then Err else
  do r <- last_sep p (length p - 1);
  match r with
  | Some i => Ok (firstn (i + 1) p)
  | None => do a <- absolute p; if a : bool then Ok p else Ok [46; 47]%Z
  end.
(* file.c:197-209 path_name *)
Definition path_name (p : path) : res path :=
  if length p =? 0 then Err else
  do r <- last_sep p (length p);
  match r with
  | Some i => if i =? length p - 1 then Err else Ok (firstn (length p - (i + 1)) (skipn (i + 1) p))
  | None => Ok p
  end.
