(** C26-C30: src/variants/combined.cpp and src/reference_kernels/kernel_tiled.cpp. *)
From Verif Require Import Conc ConcFacts Spec SpecTiled MTiled PTiled4 PTiled5.

Section Properties6.
  Context {T : Type} `{NumOps T}.

  (** C26 *)
  Theorem C26_combined_order b N (A B : list T) :
    blocks_ok b -> length A = N * N -> length B = N * N ->
    always_tol (fun l => l = idFirst) (combined_matrix_multiply b N A B 1) (is_matrix N (tiled_entry b N A B)).
  Proof. exact (combined_order1 b N A B). Qed.

  Theorem C26_combined_product `{!Exact T} b N (A B : list T) :
    blocks_ok b -> length A = N * N -> length B = N * N ->
    always_tol (fun l => l = idFirst) (combined_matrix_multiply b N A B 1) (is_product N A B).
  Proof. exact (combined_exact1 b N A B). Qed.

  Theorem C26_shipped_constants : blocks_ok shipped.
  Proof. exact shipped_ok. Qed.

  (** C27 *)
  Theorem C27_combined_repetitions_order b N (A B : list T) r :
    blocks_ok b -> length A = N * N -> length B = N * N ->
    always_tol (fun l => l = idFirst) (combined_matrix_multiply b N A B r) (is_matrix N (tiled_entry_rep b r N A B)).
  Proof. exact (combined_always b N A B r). Qed.

  Theorem C27_combined_repetitions `{!Exact T} b N (A B : list T) r :
    blocks_ok b -> length A = N * N -> length B = N * N ->
    always_tol (fun l => l = idFirst) (combined_matrix_multiply b N A B r)
      (is_matrix N (fun i j => times r (prod_entry N A B i j))).
  Proof. exact (combined_exact b N A B r). Qed.

  (** C28 *)
  Theorem C28_combined_race b N (A B : list T) r :
    blocks_ok b -> length A = N * N -> length B = N * N -> 0 < r -> L3_X b < N \/ L3_Y b < N ->
    may_race (combined_matrix_multiply b N A B r) ∅ idFirst.
  Proof. intros Hb HA HB. exact (combined_race b Hb N A B HA HB r). Qed.

  Theorem C28_combined_race_shipped N (A B : list T) r :
    length A = N * N -> length B = N * N -> 0 < r -> 256 < N ->
    may_race (combined_matrix_multiply shipped N A B r) ∅ idFirst.
  Proof. intros HA HB Hr HN. exact (combined_race shipped shipped_ok N A B HA HB r Hr (or_intror HN)). Qed.

  Theorem C28_combined_single_block b N (A B : list T) r :
    blocks_ok b -> length A = N * N -> length B = N * N -> N <= L3_X b -> N <= L3_Y b ->
    always (combined_matrix_multiply b N A B r) (is_matrix N (tiled_entry_rep b r N A B)).
  Proof. intros Hb HA HB. exact (combined_single b Hb N A B HA HB r). Qed.

  (** C29 *)
  Theorem C29_kernel_tiled_order b N (A B : list T) transposed reps :
    blocks_ok b -> length A = N * N -> length B = N * N -> 0 < reps ->
    always (kernel_tiled_matrix_multiply b N A B transposed reps) (is_matrix N (tiled_entry b N A B)).
  Proof. exact (kernel_tiled_always b N A B transposed reps). Qed.

  Theorem C29_kernel_tiled_product `{!Exact T} b N (A B : list T) transposed reps :
    blocks_ok b -> length A = N * N -> length B = N * N -> 0 < reps ->
    always (kernel_tiled_matrix_multiply b N A B transposed reps) (is_product N A B).
  Proof. exact (kernel_tiled_exact b N A B transposed reps). Qed.

  Theorem C29_kernel_tiled_no_repetition b N (A B : list T) transposed :
    blocks_ok b -> length A = N * N -> length B = N * N ->
    always (kernel_tiled_matrix_multiply b N A B transposed 0) (is_zero N).
  Proof. exact (kernel_tiled_zero b N A B transposed). Qed.

  Theorem C29_verify_blocking_setup b :
    all_positive b -> verify_blocking_setup b = true <-> levels_divide b.
  Proof. exact (verify_spec b). Qed.

  Theorem C29_bad_setup_terminates b N (A B : list T) transposed reps :
    all_positive b -> ~ levels_divide b ->
    must_fail (fun e => e = ETerminate) (kernel_tiled_matrix_multiply b N A B transposed reps) ∅ /\
    must_fail (fun e => e = ETerminate) (combined_matrix_multiply b N A B reps) ∅.
  Proof. exact (verify_fails b N A B transposed reps). Qed.

  (** C30 (kernel_tiled; kernel_test in Properties7.v) *)
  Theorem C30_kernel_tiled_ignores_transposed `{!Exact T, !UnitLaws T} b N :
    blocks_ok b -> 2 <= N -> (none1 : T) <> nzero ->
    exists A B : list T, length A = N * N /\ length B = N * N /\ forall reps, 0 < reps ->
      always (kernel_tiled_matrix_multiply b N A B true reps) (fun C => is_product N A B C /\ ~ is_product_t N A B C).
  Proof. exact (kernel_tiled_disagrees b N). Qed.

  Theorem C30_identity_hides_transposed N (A B C : list T) :
    is_identity N B -> is_product N A B C <-> is_product_t N A B C.
  Proof. intros HB. exact (symmetric_hides N A B C (fun i j => identity_symmetric N B i j HB)). Qed.
End Properties6.

(** C27: for two or more repetitions the result is not the product in general. *)
Theorem C27_combined_not_product b N r : blocks_ok b -> 1 <= N -> 2 <= r ->
  exists A B : list Z, length A = N * N /\ length B = N * N /\
    always_tol (fun l => l = idFirst) (combined_matrix_multiply b N A B r) (fun C => ~ is_product N A B C).
Proof. exact (combined_not_product b N r). Qed.

(** C29: verify_blocking_setup alone is not enough; the register blocks have to
    divide the L1 blocks. *)
Theorem C29_any_verified_constants_refuted :
  exists (b : blocks) (N : nat) (A B : list Z), all_positive b /\ verify_blocking_setup b = true /\
    length A = N * N /\ length B = N * N /\
    may_fail (kernel_tiled_matrix_multiply b N A B false 1) ∅ EOob.
Proof. exact verified_constants_fail. Qed.

Print Assumptions C26_combined_order.
Print Assumptions C26_combined_product.
Print Assumptions C26_shipped_constants.
Print Assumptions C27_combined_repetitions_order.
Print Assumptions C27_combined_repetitions.
Print Assumptions C27_combined_not_product.
Print Assumptions C28_combined_race.
Print Assumptions C28_combined_race_shipped.
Print Assumptions C28_combined_single_block.
Print Assumptions C29_kernel_tiled_order.
Print Assumptions C29_kernel_tiled_product.
Print Assumptions C29_kernel_tiled_no_repetition.
Print Assumptions C29_verify_blocking_setup.
Print Assumptions C29_bad_setup_terminates.
Print Assumptions C29_any_verified_constants_refuted.
Print Assumptions C30_kernel_tiled_ignores_transposed.
Print Assumptions C30_identity_hides_transposed.
