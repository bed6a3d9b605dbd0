(** What it means that a test case passes. *)
From Coq Require Import ZArith Reals String.
From Flocq Require Import Core IEEE754.Binary IEEE754.Bits.
From Verif Require Import Conc Num Spec MDouble MContract MTests.
Local Open Scope nat_scope.

(** Numbers between 0 and 1, as drawn from uniform_real_distribution(0.0, 1.0). *)
Definition unit_draws (gen : nat -> binary64) : Prop :=
  forall k, finite64 (gen k) = true /\ (0 <= val64 (gen k) <= 1)%R.

(** Every check of the comparison loop succeeds. *)
Definition all_checks_pass (c : test_case) (C C_reference : list binary64) : Prop :=
  forall k, k < c_N c * c_N c -> exists x y, C !! k = Some x /\ C_reference !! k = Some y /\ check_entry (c_check c) x y = true.

(** The case passes whatever the interleaving of its threads, and however the
    compiler contracts the operations.  The known race on the flag [first] of
    combined.cpp is tolerated. *)
Definition passes (gen : nat -> binary64) (mult : test_case -> list term -> list term -> app term (list term)) (c : test_case) : Prop :=
  app_always (fun l => c_algorithm c = "combined"%string /\ l = idFirst) (run_case gen mult c) (fun r =>
    forall C C_reference, Forall2 compiled r.1 C -> Forall2 compiled r.2 C_reference -> all_checks_pass c C C_reference).

(** The matrix that a source stands for. *)
Definition stored (gen : nat -> binary64) (N : nat) (s : source) (M : list binary64) : Prop :=
  match s with
  | Literal l => M = double_literal <$> l
  | Transposed_literal l => is_transpose N N (double_literal <$> l) M
  | Random => M = gen <$> seq 0 (N * N)
  end.

(** The cases in which semi.cpp is run on 2x2 matrices. *)
Definition two_by_two_semi (c : test_case) : Prop := c_algorithm c = "semi"%string /\ c_N c = 2.

(** The code under test with the two factors swapped. *)
Definition swapped {T} (mult : test_case -> list T -> list T -> app T (list T)) (c : test_case) (A B : list T) := mult c B A.

(** The case with its two block sizes exchanged. *)
Definition exchange_blocks (c : test_case) : test_case :=
  Case (c_suite c) (c_name c) (c_line c) (c_N c) (c_A c) (c_B c) (c_algorithm c) (c_transposed c)
    (c_block_result c) (c_block_input c) (c_ref c) (c_check c).
