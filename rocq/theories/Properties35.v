(** More about the output with --verbose=2 (C88): the matrices that a check prints. *)
From Coq Require Import ZArith Reals String.
From Flocq Require Import Core IEEE754.Binary IEEE754.Bits.
From Verif Require Import Base Conc Num Spec MDouble MPrint MTranscript MVerbose MApp SpecApp SpecTranscript SpecVerbose PVerbose4.
Local Open Scope nat_scope.

(** C88: the matrix of the differences: it is printed row by row, and the check
    passes exactly if all its entries are below 1E-10. *)
Theorem C88_differences o (C Cref : list binary64) : length C = o_n o * o_n o -> length Cref = o_n o * o_n o ->
  exists D, diff_matrix absdiff64 o C Cref = Ret D /\
    put (matrix_chunks o (by_rows o) D) = matrix_text (o_n o) (fun i j => absdiff64 (ent (o_n o) Cref i j) (ent (o_n o) C i j)) /\
    (equal_results absdiff64 small64 C Cref = true <-> forall d, d ∈ D -> small64 d = true).
Proof. exact (diff_printed o C Cref). Qed.
Print Assumptions C88_differences.
(** C88: if the result is A, as in every suitable run (C58), then the reference is
    printed as A and all differences as 0. *)
Theorem C88_reference o (gen : nat -> binary64) : (forall k, k < o_n o * o_n o -> finite64 (gen k) = true /\ neg64 (gen k) = false) ->
  let A := gen <$> seq 0 (o_n o * o_n o) in
  exists B, build_B o (o_transposed o) = Ret B /\
  always (if negb (o_transposed o) then naive_matrix_multiply (o_n o) A B else naive_matrix_multiply_transposed (o_n o) A B) (fun R =>
    put (matrix_chunks o (by_rows o) R) = matrix_text (o_n o) (fun i j => gen (i * o_n o + j)) /\
    exists D, diff_matrix absdiff64 o A R = Ret D /\
      put (matrix_chunks o (by_rows o) D) =
        put (map (fun _ => String.concat ", " (map (fun _ => "0"%string) (seq 0 (o_n o))) ++ newline)%string (seq 0 (o_n o)))).
Proof. exact (checked_printed o gen). Qed.
Print Assumptions C88_reference.
