(** Models of src/reference_kernels/naive.hpp.  Definitions only. *)
From Verif Require Export Conc Num.

Section Naive.
  Context {T : Type} `{NumOps T}.

  (** identifier of the shared result vector C *)
  Definition idC : arr := [0].

  (** src/reference_kernels/naive.hpp:12-18: one iteration of the OpenMP loop.
      An exception that leaves an OpenMP region ends in std::terminate. *)
  Definition naive_row (N : nat) (A B : list T) (i : nat) : prog T unit :=
    pcatch EOutOfRange (Err ETerminate)
      (forP 0 N 1 (fun j =>
         let! result_component :=
           forS 0 N 1 (fun k acc =>
             let! a := vat A (i * N + k) in
             let! b := vat B (k * N + j) in
             Ret (nadd acc (nmul a b))) nzero in
         wr_at idC (i * N + j) result_component)).

  (** src/reference_kernels/naive.hpp:6-21 *)
  Definition naive_matrix_multiply (N : nat) (A B : list T) : prog T (list T) :=
    valloc idC (N * N) nzero ;;;
    parL (rng 0 N 1) (naive_row N A B) ;;;
    vread idC (N * N).

  (** src/reference_kernels/naive.hpp:31-37 *)
  Definition naive_row_transposed (N : nat) (A B : list T) (i : nat) : prog T unit :=
    pcatch EOutOfRange (Err ETerminate)
      (forP 0 N 1 (fun j =>
         let! result_component :=
           forS 0 N 1 (fun k acc =>
             let! a := vat A (i * N + k) in
             let! b := vat B (j * N + k) in
             Ret (nadd acc (nmul a b))) nzero in
         wr_at idC (i * N + j) result_component)).

  (** src/reference_kernels/naive.hpp:24-40 *)
  Definition naive_matrix_multiply_transposed (N : nat) (A B : list T) : prog T (list T) :=
    valloc idC (N * N) nzero ;;;
    parL (rng 0 N 1) (naive_row_transposed N A B) ;;;
    vread idC (N * N).
End Naive.
