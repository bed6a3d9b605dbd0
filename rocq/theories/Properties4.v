(** C36: block counts computed through binary64. *)
From Coq Require Import ZArith.
From Verif Require Import Base MIter MCeil PCeil.

(** The result is the exact ceiling of a / b. *)
Theorem C36_double_ceil_exact a b :
  (0 <= a < 2 ^ 53)%Z -> (0 < b < 2 ^ 53)%Z ->
  exists c, block_count_double a b = Ok c /\ ((c - 1) * b < a <= c * b)%Z.
Proof. exact (block_count_double_exact a b). Qed.
(** A zero block is undefined behaviour (the conversion of an infinity or NaN). *)
Theorem C36_double_zero_block a : (0 <= a < 2 ^ 53)%Z -> block_count_double a 0 = Fail EOverflow.
Proof. exact (block_count_double_zero a). Qed.
(** Hence the integer count used in the model of iterate_indices is the computed one. *)
Theorem C36_model_count_is_computed a b :
  (Z.of_nat a < 2 ^ 53)%Z -> (Z.of_nat b < 2 ^ 53)%Z ->
  block_count_double (Z.of_nat a) (Z.of_nat b) = rbind (block_count a b) (fun c => Ok (Z.of_nat c)).
Proof. exact (block_count_model a b). Qed.
(** The bound 2^53 cannot be raised: 2^53 + 1 unit blocks are counted as 2^53. *)
Theorem C36_bound_is_sharp : block_count_double (2 ^ 53 + 1) 1 = Ok (2 ^ 53)%Z.
Proof. vm_compute. reflexivity. Qed.
Print Assumptions C36_double_ceil_exact.
Print Assumptions C36_double_zero_block.
Print Assumptions C36_model_count_is_computed.
Print Assumptions C36_bound_is_sharp.
