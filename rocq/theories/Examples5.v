(** Concrete cases meeting the hypotheses of Properties5. *)
From Verif Require Import Tools Tools2 MIter MNaive MKernels MVariants Properties5.
Local Open Scope Z_scope.

Definition A3 : list Z := [1; 2; 3; 4; 5; 6; 7; 8; 9].
Definition B3 : list Z := [9; 8; 7; 6; 5; 4; 3; 2; 2].
Definition A4 : list Z := [1; 2; 3; 4; 5; 6; 7; 8; 9; 10; 11; 12; 13; 14; 15; 16].
Definition B4 : list Z := [2; 7; 1; 8; 2; 8; 1; 8; 2; 8; 4; 5; 9; 0; 4; 5].
Definition result {X} (p : prog Z X) : option X := match run p ∅ with Ok (x, _) => Some x | Fail _ => None end.
Definition failure {X} (p : prog Z X) : option err := match run p ∅ with Ok _ => None | Fail e => Some e end.

Ltac divd q := exists q; reflexivity.
Ltac ndivd := intros [q Hq]; lia.

(** C20: four tasks, blocks of 2 *)
Example ex_C20 : always (algorithms_matrix_multiply 4 A4 B4 2 2) (is_matrix 4 (prod_t_chunks 2 4 A4 B4)).
Proof. apply C20_algorithms_order; [done|done|lia|lia|divd 2%nat|divd 2%nat]. Qed.
Example ex_C20_exact : always (algorithms_matrix_multiply 4 A4 B4 2 2) (is_product_t 4 A4 B4).
Proof. apply C20_algorithms_product; [done|done|lia|lia|divd 2%nat|divd 2%nat]. Qed.
Example ex_C20_value : result (algorithms_matrix_multiply 4 A4 B4 2 2) =
  Some [51; 53; 50; 41; 123; 129; 126; 113; 195; 205; 202; 185; 267; 281; 278; 257].
Proof. vm_compute. reflexivity. Qed.
(** C21 *)
Example ex_C21_zero : must_fail (fun e => e = EDiverge) (algorithms_matrix_multiply 3 A3 B3 0 1) ∅.
Proof. apply C21_algorithms_zero_input; [done|done|lia|lia]. Qed.
Example ex_C21_result : must_fail (fun e => e = EOob) (algorithms_matrix_multiply 3 A3 B3 1 2) ∅.
Proof. apply C21_algorithms_partial_blocks; [done|done|lia|lia|lia|]. intros [Hd _]. revert Hd. ndivd. Qed.
Example ex_C21_input : must_fail (fun e => e = EOob) (algorithms_matrix_multiply 3 A3 B3 2 1) ∅.
Proof. apply C21_algorithms_partial_blocks; [done|done|lia|lia|lia|]. intros [_ Hd]. revert Hd. ndivd. Qed.
(** C22 *)
Example ex_C22 : exists C, is_product_t 4 A4 B4 C /\
  always (looped_matrix_multiply 4 A4 B4 2 4) (fun C' => C' = C) /\
  always (naive_matrix_multiply_transposed 4 A4 B4) (fun C' => C' = C).
Proof. apply C22_looped_equals_naive; [done|done|lia|lia|divd 2%nat|divd 1%nat]. Qed.
Example ex_C22_value : result (looped_matrix_multiply 4 A4 B4 2 4) =
  Some [51; 53; 50; 41; 123; 129; 126; 113; 195; 205; 202; 185; 267; 281; 278; 257].
Proof. vm_compute. reflexivity. Qed.
(** C23: the default block size *)
Example ex_C23 : always (looped_matrix_multiply 4 A4 B4 128 128) (is_zero 4).
Proof. apply C23_looped_zeros; lia. Qed.
Example ex_C23_input : always (looped_matrix_multiply 4 A4 B4 2 5) (is_zero 4).
Proof. apply C23_looped_zeros; lia. Qed.
(** C24 *)
Example ex_C24 : always (semi_matrix_multiply 4 A4 B4 128 2) (is_product_t 4 A4 B4).
Proof. apply C24_semi_product; [done|done|lia|divd 1%nat|divd 2%nat]. Qed.
Example ex_C24_value : result (semi_matrix_multiply 4 A4 B4 128 2) =
  Some [51; 53; 50; 41; 123; 129; 126; 113; 195; 205; 202; 185; 267; 281; 278; 257].
Proof. vm_compute. reflexivity. Qed.
(** C25 *)
Example ex_C25 : must_fail (fun e => e = EOob) (semi_matrix_multiply 3 A3 B3 0 3) ∅.
Proof. apply C25_semi_partial_blocks; [done|done|lia|lia|]. intros [Hd _]. revert Hd. ndivd. Qed.
Example ex_C25_input : must_fail (fun e => e = EOob) (semi_matrix_multiply 4 A4 B4 0 3) ∅.
Proof. apply C25_semi_partial_blocks; [done|done|lia|lia|]. intros [_ Hd]. revert Hd. ndivd. Qed.
Example ex_C25_zero : must_fail (fun e => e = EDiverge) (semi_matrix_multiply 4 A4 B4 0 0) ∅.
Proof. apply C25_semi_zero_block; [done|done|lia]. Qed.
Example ex_C25_small : must_fail (fun e => e = EOob) (semi_matrix_multiply 3 A3 B3 0 0) ∅.
Proof. apply C25_semi_zero_block_small; [done|done|lia]. Qed.
(** C53 *)
Example ex_C53_zero : must_fail (fun e => e = EDivZero) (looped_matrix_multiply 4 A4 B4 2 0) ∅.
Proof. apply C53_looped_zero_block. by right. Qed.
Example ex_C53_oob : must_fail (fun e => e = EOob) (looped_matrix_multiply 3 A3 B3 2 1) ∅.
Proof. apply C53_looped_oob; [done|done|lia|lia|ndivd|vm_compute; lia]. Qed.
Example ex_C53_single : always (looped_matrix_multiply 3 A3 B3 2 2)
  (is_matrix 3 (fun i j => if decide (i < 2 /\ j < 2)%nat
     then dot (fun k => nmul (ent 3 A3 i k) (ent 3 B3 j k)) (seq 0 2) else nzero)).
Proof. apply C53_looped_single_block; [done|done|lia|lia|done|done]. Qed.
Example ex_C53_single_value : result (looped_matrix_multiply 3 A3 B3 2 2) = Some [25; 16; 0; 76; 49; 0; 0; 0; 0].
Proof. vm_compute. reflexivity. Qed.
Example ex_C53_truncated : always (looped_matrix_multiply 3 A3 B3 1 2)
  (is_matrix 3 (fun i j => dot (fun k => nmul (ent 3 A3 i k) (ent 3 B3 j k)) (seq 0 (3 / 2 * 2)))).
Proof. apply C53_looped_truncated_sum; [done|done|lia|lia|lia|divd 3%nat]. Qed.
Example ex_C53_truncated_value : result (looped_matrix_multiply 3 A3 B3 1 2) = Some [25; 16; 7; 76; 49; 22; 127; 82; 37].
Proof. vm_compute. reflexivity. Qed.
