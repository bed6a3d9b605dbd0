(** C30 and C31: src/reference_kernels/kernel_test.cpp. *)
From Verif Require Import Conc ConcFacts Spec SpecTiled MTiled MKTest PKTest PKTest2.

Section Properties7.
  Context {T : Type} `{NumOps T}.

  (** C31, with the constants of the source *)
  Theorem C31_kernel_test_order N (A B : list T) transposed reps :
    length A = N * N -> length B = N * N -> (4 | N) -> SpecTiled.round_up N 512 <= N + 63 -> 0 < reps ->
    always (kernel_test_matrix_multiply kt_shipped kt_padding N A B transposed reps)
      (is_matrix N (tiled_entry kt_shipped N A B)).
  Proof. exact (kts_order N A B transposed reps). Qed.

  Theorem C31_kernel_test_product `{!Exact T} N (A B : list T) transposed reps :
    length A = N * N -> length B = N * N -> (4 | N) -> SpecTiled.round_up N 512 <= N + 63 -> 0 < reps ->
    always (kernel_test_matrix_multiply kt_shipped kt_padding N A B transposed reps) (is_product N A B).
  Proof. exact (kts_exact N A B transposed reps). Qed.

  Theorem C31_kernel_test_out_of_bounds N (A B : list T) transposed reps :
    length A = N * N -> length B = N * N -> 0 < N -> (4 | N) -> N + 63 < SpecTiled.round_up N 512 -> 0 < reps ->
    must_fail (fun e => e = EOob) (kernel_test_matrix_multiply kt_shipped kt_padding N A B transposed reps) ∅.
  Proof. exact (kts_oob N A B transposed reps). Qed.

  Theorem C31_kernel_test_misaligned N (A B : list T) transposed reps :
    length A = N * N -> length B = N * N -> 0 < N -> ~ (4 | N) -> 0 < reps ->
    must_fail (fun e => e = EMisaligned) (kernel_test_matrix_multiply kt_shipped kt_padding N A B transposed reps) ∅.
  Proof. exact (kts_misaligned N A B transposed reps). Qed.

  Theorem C31_kernel_test_no_repetition N (A B : list T) transposed :
    length A = N * N -> length B = N * N ->
    always (kernel_test_matrix_multiply kt_shipped kt_padding N A B transposed 0) (is_zero N).
  Proof. exact (kts_zero N A B transposed). Qed.

  (** C31, any constants *)
  Theorem C31_any_constants_product `{!Exact T} b P N (A B : list T) transposed reps :
    all_positive b -> levels_divide b -> (8 | L1_Y b) ->
    length A = N * N -> length B = N * N -> kt_fits b P N -> 0 < reps ->
    always (kernel_test_matrix_multiply b P N A B transposed reps) (is_product N A B).
  Proof. intros H1 H2 H3. exact (kt_exact b H1 H2 H3 P N A B transposed reps). Qed.

  Theorem C31_any_constants_out_of_bounds b P N (A B : list T) transposed reps :
    all_positive b -> levels_divide b -> (8 | L1_Y b) ->
    length A = N * N -> length B = N * N -> 0 < N -> 0 < reps ->
    (4 | N + P) -> N + P <= SpecTiled.round_up N (L3_K b) ->
    must_fail (fun e => e = EOob) (kernel_test_matrix_multiply b P N A B transposed reps) ∅.
  Proof. intros H1 H2 H3. exact (kt_oob b H1 H2 H3 P N A B transposed reps). Qed.

  (** C30 for kernel_test *)
  Theorem C30_kernel_test_ignores_transposed `{!Exact T, !UnitLaws T} b P N :
    all_positive b -> levels_divide b -> (8 | L1_Y b) -> kt_fits b P N -> 2 <= N -> (none1 : T) <> nzero ->
    exists A B : list T, length A = N * N /\ length B = N * N /\ forall reps, 0 < reps ->
      always (kernel_test_matrix_multiply b P N A B true reps) (fun C => is_product N A B C /\ ~ is_product_t N A B C).
  Proof. intros H1 H2 H3. exact (kt_disagrees b H1 H2 H3 P N). Qed.

  Theorem C30_kernel_test_shipped_ignores_transposed `{!Exact T, !UnitLaws T} N :
    (4 | N) -> SpecTiled.round_up N 512 <= N + 63 -> 2 <= N -> (none1 : T) <> nzero ->
    exists A B : list T, length A = N * N /\ length B = N * N /\ forall reps, 0 < reps ->
      always (kernel_test_matrix_multiply kt_shipped kt_padding N A B true reps)
        (fun C => is_product N A B C /\ ~ is_product_t N A B C).
  Proof.
    intros H4 HR. exact (kt_disagrees kt_shipped kt_shipped_pos kt_shipped_div kt_shipped_8 kt_padding N (kt_shipped_fits N H4 HR)).
  Qed.
End Properties7.

Print Assumptions C31_kernel_test_order.
Print Assumptions C31_kernel_test_product.
Print Assumptions C31_kernel_test_out_of_bounds.
Print Assumptions C31_kernel_test_misaligned.
Print Assumptions C31_kernel_test_no_repetition.
Print Assumptions C31_any_constants_product.
Print Assumptions C31_any_constants_out_of_bounds.
Print Assumptions C30_kernel_test_ignores_transposed.
Print Assumptions C30_kernel_test_shipped_ignores_transposed.
