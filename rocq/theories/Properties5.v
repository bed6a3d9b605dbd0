(** Theorems about the variants algorithms, looped and semi (C20 to C25, C53). *)
From Verif Require Import Tools Tools2 MIter MNaive PNaive MKernels MVariants PPseudo PAlgorithms PLooped PSemi.

Section Properties5.
  Context {T : Type} `{NumOps T}.

  (** C20: summation order for every arithmetic, and the product when addition is
      exact.  [always] includes: no data race, no out-of-bounds access. *)
  Theorem C20_algorithms_order N (A B : list T) bi br :
    length A = N * N -> length B = N * N -> 0 < br -> 0 < bi -> (br | N) -> (bi | N) ->
    always (algorithms_matrix_multiply N A B bi br) (is_matrix N (prod_t_chunks bi N A B)).
  Proof. exact (alg_order N A B bi br). Qed.

  Theorem C20_algorithms_product `{!Exact T} N (A B : list T) bi br :
    length A = N * N -> length B = N * N -> 0 < br -> 0 < bi -> (br | N) -> (bi | N) ->
    always (algorithms_matrix_multiply N A B bi br) (is_product_t N A B).
  Proof. exact (alg_exact N A B bi br). Qed.

  (** C21: every schedule ends in the named error. *)
  Theorem C21_algorithms_zero_result N (A B : list T) bi :
    must_fail (fun e => e = EDivZero) (algorithms_matrix_multiply N A B bi 0) ∅.
  Proof. exact (alg_zero_result N A B bi). Qed.

  Theorem C21_algorithms_zero_input N (A B : list T) br :
    length A = N * N -> length B = N * N -> 0 < br -> 0 < N ->
    must_fail (fun e => e = EDiverge) (algorithms_matrix_multiply N A B 0 br) ∅.
  Proof. exact (alg_zero_input N A B br). Qed.

  Theorem C21_algorithms_partial_blocks N (A B : list T) bi br :
    length A = N * N -> length B = N * N -> 0 < br -> 0 < bi -> 0 < N -> ~ ((br | N) /\ (bi | N)) ->
    must_fail (fun e => e = EOob) (algorithms_matrix_multiply N A B bi br) ∅.
  Proof. exact (alg_partial_blocks N A B bi br). Qed.

  (** C22: one result vector, for every arithmetic, of both functions. *)
  Theorem C22_looped_equals_naive N (A B : list T) br bi :
    length A = N * N -> length B = N * N -> 0 < br -> 0 < bi -> (br | N) -> (bi | N) ->
    exists C, is_product_t N A B C /\
      always (looped_matrix_multiply N A B br bi) (fun C' => C' = C) /\
      always (naive_matrix_multiply_transposed N A B) (fun C' => C' = C).
  Proof. intros HA HB. exact (looped_eq_naive N A B HA HB br bi). Qed.

  (** C23 *)
  Theorem C23_looped_zeros N (A B : list T) br bi :
    0 < br -> 0 < bi -> N < br \/ N < bi ->
    always (looped_matrix_multiply N A B br bi) (is_zero N).
  Proof. exact (looped_zeros N A B br bi). Qed.

  (** C24 *)
  Theorem C24_semi_order N (A B : list T) br bi :
    length A = N * N -> length B = N * N -> 0 < bi -> (4 | N) -> (bi | N) ->
    always (semi_matrix_multiply N A B br bi) (is_matrix N (prod_t_chunks bi N A B)).
  Proof. intros HA HB. exact (semi_order N A B HA HB br bi). Qed.

  Theorem C24_semi_product `{!Exact T} N (A B : list T) br bi :
    length A = N * N -> length B = N * N -> 0 < bi -> (4 | N) -> (bi | N) ->
    always (semi_matrix_multiply N A B br bi) (is_product_t N A B).
  Proof. intros HA HB. exact (semi_exact N A B HA HB br bi). Qed.

  (** C25 *)
  Theorem C25_semi_partial_blocks N (A B : list T) br bi :
    length A = N * N -> length B = N * N -> 0 < N -> 0 < bi -> ~ ((4 | N) /\ (bi | N)) ->
    must_fail (fun e => e = EOob) (semi_matrix_multiply N A B br bi) ∅.
  Proof. intros HA HB. exact (semi_partial_blocks N A B HA HB br bi). Qed.

  Theorem C25_semi_zero_block N (A B : list T) br :
    length A = N * N -> length B = N * N -> 4 <= N ->
    must_fail (fun e => e = EDiverge) (semi_matrix_multiply N A B br 0) ∅.
  Proof. intros HA HB. exact (semi_zero_block N A B HA HB br). Qed.

  Theorem C25_semi_zero_block_small N (A B : list T) br :
    length A = N * N -> length B = N * N -> 0 < N < 4 ->
    must_fail (fun e => e = EOob) (semi_matrix_multiply N A B br 0) ∅.
  Proof. intros HA HB. exact (semi_zero_block_small N A B HA HB br). Qed.

  (** C53 *)
  Theorem C53_looped_zero_block N (A B : list T) br bi :
    br = 0 \/ bi = 0 -> must_fail (fun e => e = EDivZero) (looped_matrix_multiply N A B br bi) ∅.
  Proof. exact (looped_zero_block_fails N A B br bi). Qed.

  Theorem C53_looped_oob N (A B : list T) br bi :
    length A = N * N -> length B = N * N -> 0 < br <= N -> 0 < bi <= N -> ~ (br | N) -> 2 <= N / br * (N / bi) ->
    must_fail (fun e => e = EOob) (looped_matrix_multiply N A B br bi) ∅.
  Proof. intros HA HB. exact (looped_overshoots_fails N A B HA HB br bi). Qed.

  Theorem C53_looped_single_block N (A B : list T) br bi :
    length A = N * N -> length B = N * N -> 0 < br -> 0 < bi -> N / br = 1 -> N / bi = 1 ->
    always (looped_matrix_multiply N A B br bi)
      (is_matrix N (fun i j => if decide (i < br /\ j < br)
                               then dot (fun k => nmul (ent N A i k) (ent N B j k)) (seq 0 bi) else nzero)).
  Proof. intros HA HB. exact (looped_single_always N A B HA HB br bi). Qed.

  Theorem C53_looped_truncated_sum N (A B : list T) br bi :
    length A = N * N -> length B = N * N -> 0 < br -> 0 < bi -> 0 < N -> (br | N) ->
    always (looped_matrix_multiply N A B br bi)
      (is_matrix N (fun i j => dot (fun k => nmul (ent N A i k) (ent N B j k)) (seq 0 (N / bi * bi)))).
  Proof. intros HA HB. exact (looped_truncated N A B HA HB br bi). Qed.
End Properties5.

Print Assumptions C20_algorithms_order.
Print Assumptions C20_algorithms_product.
Print Assumptions C21_algorithms_zero_result.
Print Assumptions C21_algorithms_zero_input.
Print Assumptions C21_algorithms_partial_blocks.
Print Assumptions C22_looped_equals_naive.
Print Assumptions C23_looped_zeros.
Print Assumptions C24_semi_order.
Print Assumptions C24_semi_product.
Print Assumptions C25_semi_partial_blocks.
Print Assumptions C25_semi_zero_block.
Print Assumptions C25_semi_zero_block_small.
Print Assumptions C53_looped_zero_block.
Print Assumptions C53_looped_oob.
Print Assumptions C53_looped_single_block.
Print Assumptions C53_looped_truncated_sum.
