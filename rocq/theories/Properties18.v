(** Theorems about the test suites that multiply matrices (C70 to C72), and about
    pseudodynamic on one locality (C19). *)
From Coq Require Import ZArith Reals String.
From Flocq Require Import Core IEEE754.Binary IEEE754.Bits.
From Verif Require Import Conc Num Spec SpecTiled SpecApp MDouble MContract SpecRound PRecursive POne MTests SpecTests PTests2.
Local Open Scope nat_scope.

(** C19: one computing locality (one locality in all, or two of which the root
    does not compute).  No condition on the work sizes is needed: the schedule is
    one package, and every entry is summed in the order of single. *)
Theorem C19_one_locality {T} `{NumOps T} N (A B : list T) transposed block_input block_result mws maxd rel localities reps ms d :
  (Z.of_nat N * Z.of_nat N < 2 ^ 62)%Z -> 2 <= N -> localities = 1 \/ localities = 2 -> 0 < reps ->
  length A = N * N -> length B = N * N ->
  N = ms * 2 ^ d -> ms <= block_result -> d = 0 \/ block_result < 2 * ms -> leaf_ok transposed block_input ms N ->
  always (pseudodynamic_matrix_multiply N A B transposed block_result block_input mws maxd rel localities reps)
    (is_matrix N (leaf_entry transposed block_input ms N A B)) /\
  always (single_matrix_multiply N A B transposed block_input block_result reps)
    (is_matrix N (leaf_entry transposed block_input ms N A B)).
Proof. exact (one_locality N A B transposed block_input block_result mws maxd rel localities reps ms d). Qed.
Print Assumptions C19_one_locality.

(** C70 *)
Theorem C70_suites_pass gen c : unit_draws gen -> c ∈ all_cases -> ~ two_by_two_semi c -> passes gen under_test c.
Proof. exact (suites_pass gen c). Qed.
Theorem C70_semi_two_undefined gen c : c ∈ all_cases -> two_by_two_semi c ->
  app_fails (fun e => e = EOob) (run_case gen under_test c).
Proof. exact (semi_undefined gen c). Qed.
Print Assumptions C70_suites_pass.
Print Assumptions C70_semi_two_undefined.

(** C71: the suites do not notice that the factors are swapped ... *)
Theorem C71_blind_to_swapped_factors gen c : unit_draws gen -> c ∈ all_cases -> ~ two_by_two_semi c ->
  passes gen (swapped under_test) c.
Proof. exact (suites_pass_swapped gen c). Qed.
(** ... nor, for any program, that the block sizes are exchanged ... *)
Theorem C71_blind_to_exchanged_blocks gen mult c : c ∈ all_cases ->
  passes gen (fun c => mult (exchange_blocks c)) c <-> passes gen mult c.
Proof. exact (exchange_passes gen mult c). Qed.
(** ... which they are in the calls of single: with block_input 0 and block_result
    N the test program multiplies to zero, and the variant to the product. *)
Theorem C71_blocks_exchanged_in_single {T} `{NumOps T} N (A B : list T) transposed tol : length A = N * N -> length B = N * N ->
  app_always tol (test_hpx_main "single" N A B transposed 0 N) (is_zero N) /\
  always (single_matrix_multiply N A B transposed 0 N 1) (is_matrix N (pentry transposed N A B)).
Proof. exact (exchanged_single N A B transposed tol). Qed.
Print Assumptions C71_blind_to_swapped_factors.
Print Assumptions C71_blind_to_exchanged_blocks.
Print Assumptions C71_blocks_exchanged_in_single.

(** C72: whatever program [mult] passes a case has multiplied its matrices right
    up to 2E-8. *)
Theorem C72_passing_certifies gen c mult A B : unit_draws gen -> c ∈ all_cases -> ~ two_by_two_semi c -> c_check c = Check_small (Dec 1 8) ->
  length A = c_N c * c_N c -> length B = c_N c * c_N c -> stored gen (c_N c) (c_A c) A -> stored gen (c_N c) (c_B c) B ->
  passes gen mult c ->
  app_always (fun l => c_algorithm c = "combined"%string /\ l = idFirst) (mult c (TNum <$> A) (TNum <$> B)) (fun D =>
    forall C, Forall2 compiled D C -> forall i j, i < c_N c -> j < c_N c ->
      exists x, C !! (i * c_N c + j) = Some x /\ finite64 x = true /\
        (Rabs (val64 x - exact_entry (c_transposed c) (c_N c) A B i j) <= 2 / 10 ^ 8)%R).
Proof. exact (fun Hgen => certified gen Hgen c mult A B). Qed.
Print Assumptions C72_passing_certifies.
