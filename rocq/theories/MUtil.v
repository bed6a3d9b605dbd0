(** Models of src/util.  Definitions only. *)
From Verif Require Export Conc Num.

Section Util.
  Context {T : Type} `{NumOps T}.

  (** src/util/create_identity_matrix.hpp:6-16.  [std::vector<T> m(N*N)] plus the
      [std::fill] with 0.0 give N*N zeros; then the diagonal is written. *)
  Definition create_identity_matrix (N : nat) : prog T (list T) :=
    forS 0 N 1 (fun i m => vset m (i * N + i) none1) (replicate (N * N) nzero).

  (** src/util/pattern_matrices.hpp:6-15.  [of_nat] is static_cast<double>(i). *)
  Definition create_enumerating_matrix (of_nat : nat -> T) (N : nat) : prog T (list T) :=
    forS 0 (N * N) 1 (fun i m => vset m i (of_nat i)) (replicate (N * N) nzero).

  (** src/util/transpose_matrix.hpp:6-18 *)
  Definition transpose_matrix (N : nat) (org : list T) : prog T (list T) :=
    forS 0 N 1 (fun i m =>
      forS 0 N 1 (fun j m =>
        let! v := vget org (j * N + i) in
        vset m (i * N + j) v) m) (replicate (N * N) nzero).

  (** src/util/transpose_matrix.hpp:20-33 (two-stride overload) *)
  Definition transpose_matrix_rect (stride_org stride_result : nat) (org : list T) : prog T (list T) :=
    forS 0 stride_org 1 (fun i m =>
      forS 0 stride_result 1 (fun j m =>
        let! v := vget org (j * stride_org + i) in
        vset m (i * stride_result + j) v) m) (replicate (stride_org * stride_result) nzero).

  (** Printing: the stream is modelled as the list of printed lines, each line
      the list of printed entries (separators and flushes are dropped). *)
  Definition print_grid (rows cols : nat) (idx : nat -> nat -> nat) (m : list T) : prog T (list (list T)) :=
    forS 0 rows 1 (fun i out =>
      let! line := forS 0 cols 1 (fun j line =>
                     let! v := vat m (idx i j) in Ret (line ++ [v])) [] in
      Ret (out ++ [line])) [].

  (** src/util/util.hpp:6-16 and 56-66 (same loops on std::cout / hpx::cout) *)
  Definition print_matrix_sq (N : nat) (m : list T) := print_grid N N (fun i j => i * N + j) m.
  (** src/util/util.hpp:18-28 *)
  Definition print_matrix_host (rows cols : nat) (m : list T) := print_grid rows cols (fun r c => r * cols + c) m.
  (** src/util/util.hpp:30-41 and 80-90 *)
  Definition print_matrix_transposed_sq (N : nat) (m : list T) := print_grid N N (fun i j => j * N + i) m.
  (** src/util/util.hpp:43-54 and 92-102 *)
  Definition print_matrix_transposed (N M : nat) (m : list T) := print_grid N M (fun i j => j * N + i) m.
  (** src/util/util.hpp:68-78: the row stride is N, not M *)
  Definition print_matrix (N M : nat) (m : list T) := print_grid N M (fun i j => i * N + j) m.
End Util.
