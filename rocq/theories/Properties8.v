(** C50: independence of the schedule.  C54: the naive kernels on short inputs. *)
From Verif Require Import Conc ConcFacts Spec SpecDet SpecTiled MNaive MRecursive MSchedule MVariants MTiled MKTest
  PDet PRecursive PPseudo PSemi PDet2.

Section Properties8.
  Context {T : Type} `{NumOps T}.

  (** C50: no law of arithmetic, no condition on block sizes. *)
  Theorem C50_naive_deterministic N (A B : list T) :
    deterministic (naive_matrix_multiply N A B) /\ deterministic (naive_matrix_multiply_transposed N A B).
  Proof. exact (conj (naive_det N A B) (naive_t_det N A B)). Qed.

  Theorem C50_single_deterministic N (A B : list T) transposed bi br reps :
    deterministic (single_matrix_multiply N A B transposed bi br reps).
  Proof. exact (drf_deterministic _ (single_drf N A B transposed bi br reps)). Qed.

  Theorem C50_pseudodynamic_deterministic N (A B : list T) transposed bi br mws maxd rel G reps :
    (Z.of_nat N * Z.of_nat N < 2 ^ 62)%Z -> (0 <= mws)%Z -> 0 < G ->
    deterministic (pseudodynamic_matrix_multiply N A B transposed br bi mws maxd rel G reps).
  Proof. intros H1 H2 H3. exact (drf_deterministic _ (ps_drf N A B transposed bi br mws maxd rel G reps H1 H2 H3)). Qed.

  Theorem C50_algorithms_deterministic N (A B : list T) bi br :
    length A = N * N -> length B = N * N -> deterministic (algorithms_matrix_multiply N A B bi br).
  Proof. exact (algorithms_det N A B bi br). Qed.

  Theorem C50_semi_deterministic N (A B : list T) br bi : deterministic (semi_matrix_multiply N A B br bi).
  Proof. exact (drf_deterministic _ (nopar_drf _ (nopar_semi N A B br bi))). Qed.

  Theorem C50_looped_deterministic N (A B : list T) br bi : deterministic (looped_matrix_multiply N A B br bi).
  Proof. exact (looped_det N A B br bi). Qed.

  Theorem C50_kernel_tiled_deterministic b N (A B : list T) transposed reps :
    blocks_ok b -> length A = N * N -> length B = N * N ->
    deterministic (kernel_tiled_matrix_multiply b N A B transposed reps).
  Proof. exact (kernel_tiled_det b N A B transposed reps). Qed.

  Theorem C50_kernel_test_deterministic N (A B : list T) transposed reps :
    length A = N * N -> length B = N * N ->
    deterministic (kernel_test_matrix_multiply kt_shipped kt_padding N A B transposed reps).
  Proof. exact (kernel_test_det N A B transposed reps). Qed.

  (** Combined races on its flag (C28), but its result does not depend on it. *)
  Theorem C50_combined_deterministic b N (A B : list T) reps :
    blocks_ok b -> length A = N * N -> length B = N * N ->
    exists C, always_tol (fun l => l = idFirst) (combined_matrix_multiply b N A B reps) (fun C' => C' = C).
  Proof. exact (combined_det b N A B reps). Qed.

  (** C54 *)
  Theorem C54_naive_short_input N (A B : list T) : 0 < N -> length A < N * N \/ length B < N * N ->
    must_fail (fun e => e = ETerminate) (naive_matrix_multiply N A B) ∅ /\
    must_fail (fun e => e = ETerminate) (naive_matrix_multiply_transposed N A B) ∅.
  Proof. exact (naive_short N A B). Qed.
End Properties8.

Print Assumptions C50_naive_deterministic.
Print Assumptions C50_single_deterministic.
Print Assumptions C50_pseudodynamic_deterministic.
Print Assumptions C50_algorithms_deterministic.
Print Assumptions C50_semi_deterministic.
Print Assumptions C50_looped_deterministic.
Print Assumptions C50_kernel_tiled_deterministic.
Print Assumptions C50_kernel_test_deterministic.
Print Assumptions C50_combined_deterministic.
Print Assumptions C54_naive_short_input.
