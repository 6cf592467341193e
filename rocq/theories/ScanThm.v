(** C35 for Scan: the operand applied from the first element on, with all intermediate results. *)
From Verif Require Import Base BitsModel BitsSpec SelectModel ArithModel ArithSpec FoldModel FoldSpec FoldProof2 FoldThm ScanModel ScanProof3 ScanProof5.
From Coq Require Import List Lia.
Open Scope Z_scope.

(** 𝔽` 𝕩 for a list of numbers: [junk] fills new memory, [umax] is the limit of lengths, [sq] narrows an array, [cv64] and [cv32] convert doubles to integers *)
Theorem C35_scan : forall junk umax sq cv32 p x, 0 < umax <= 2 ^ 48 -> keeps_arr sq -> conv 32 cv32 -> arr_ok x -> a_ia x < umax ->
  exists r, scan_c1 junk umax sq cv32 p x = Ok r /\ arr_ok r /\ vals r = scan1 (prim_op p) (vals x).
Proof. intros junk umax sq cv32 p x U KS C X N. exact (scan_c1_ok junk umax sq cv32 U KS C p x X N). Qed.
Print Assumptions C35_scan.
(** 𝕨 𝔽` 𝕩 *)
Theorem C35_scan_initial : forall junk umax sq cv64 cv32 p w x, 0 < umax <= 2 ^ 48 -> keeps_arr sq -> conv 64 cv64 -> conv 32 cv32 -> arr_ok x -> is_double w -> a_ia x < umax ->
  exists r, scan_c2 junk umax sq cv64 cv32 p w x = Ok r /\ arr_ok r /\ vals r = scanl (prim_op p) w (vals x).
Proof. intros junk umax sq cv64 cv32 p w x U KS C64 C32 X D N. exact (scan_c2_ok junk umax sq cv64 cv32 U KS C64 C32 p w x X D N). Qed.
Print Assumptions C35_scan_initial.

Definition id_arr (a : arr) : arr := a.
Example C35_scan_hyps : keeps_arr id_arr /\ conv 32 (cvx 32) /\ arr_ok (AB [2 ^ 63 + 9; 6] 67) /\ arr_ok (AI 8 [100; 100; -128]).
Proof. split; [intros a H; auto|]. split; [apply C35_conv_ex|]. split; (split; [try tauto; repeat constructor; vm_compute; congruence|]); try (vm_compute; split; congruence). repeat constructor; vm_compute; congruence. Qed.
Example C35_ne_scan : scan_c1 77 (2 ^ 48) id_arr (cvx 32) PNe (AB [2 ^ 63 + 9; 6] 67) = Ok (AB [2 ^ 63 + 7; 18446744073709551613] 67). Proof. vm_compute. reflexivity. Qed.
Example C35_lt_scan : scan_c1 77 (2 ^ 48) id_arr (cvx 32) PLt (AB [2 ^ 63 + 7 + 112; 7] 67) = Ok (AB [2 ^ 63 + 5 + 80; 2] 67). Proof. vm_compute. reflexivity. Qed.
Example C35_add_scan : scan_c1 77 (2 ^ 48) id_arr (cvx 32) (PO OAdd) (AI 8 [100; 100; -128]) = Ok (AI 32 [100; 200; 72]). Proof. vm_compute. reflexivity. Qed.
Example C35_minus_scan : scan_c1 77 (2 ^ 48) id_arr (cvx 32) (PO OSub) (AB [13] 5) = Ok (AI 8 [1; 1; 0; -1; -1]). Proof. vm_compute. reflexivity. Qed.
Example C35_sparse_scan : scan_c1 77 (2 ^ 48) id_arr (cvx 32) (PO OAdd) (AB (1 :: repeat 0 5 ++ [2 ^ 60]) 448) = Ok (AI 8 (repeat 1 444 ++ repeat 2 4)). Proof. vm_compute. reflexivity. Qed.
Example C35_min_scan2 : scan_c2 77 (2 ^ 48) id_arr (cvx 64) (cvx 32) (PO OMin) 300 (AI 8 [100; 120; -5]) = Ok (AI 8 [100; 100; -5]). Proof. vm_compute. reflexivity. Qed.
