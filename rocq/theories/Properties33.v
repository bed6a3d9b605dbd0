(** More about the test suites (C70, C72) and transpose_matrix (C42). *)
From Coq Require Import ZArith Reals String.
From Flocq Require Import Core IEEE754.Binary IEEE754.Bits.
From Verif Require Import Conc Num Spec SpecTiled SpecApp MDouble MContract SpecRound MTests SpecTests SpecTests3 PTests3.
Local Open Scope nat_scope.

(** C42: the square form inverts itself. *)
Theorem C42_transpose_square_involutive {T} `{NumOps T} N (M : list T) : length M = N * N ->
  (let! R := transpose_matrix N M in transpose_matrix N R) = Ret M.
Proof. exact (transpose_square_involutive N M). Qed.
Print Assumptions C42_transpose_square_involutive.

(** C70: the cases are the 76 that src/tests registers, and the three excluded
    ones are named. *)
Theorem C70_cases : ((fun c => (c_suite c, c_name c)) <$> all_cases) = registered_names /\ length registered_names = 76 /\ NoDup registered_names.
Proof. exact names_counted. Qed.
Print Assumptions C70_cases.
Theorem C70_excluded c : c ∈ all_cases ->
  (two_by_two_semi c <-> c_suite c = "semi"%string /\ c_name c ∈ ["identity_2"; "apply_inverse_2"; "random_matrices_2"]%string).
Proof. exact (semi_cases c). Qed.
Print Assumptions C70_excluded.

(** C72: whatever program [mult] passes a case has multiplied its matrices right
    up to the precision of its check, for all checks that occur. *)
Theorem C72_every_check c : c ∈ all_cases -> exists d, precision (c_check c) d.
Proof. exact (precision_known c). Qed.
Print Assumptions C72_every_check.
Theorem C72_passing_certifies_all gen c mult A B d : unit_draws gen -> c ∈ all_cases -> ~ two_by_two_semi c -> precision (c_check c) d ->
  length A = c_N c * c_N c -> length B = c_N c * c_N c -> stored gen (c_N c) (c_A c) A -> stored gen (c_N c) (c_B c) B ->
  passes gen mult c ->
  app_always (fun l => c_algorithm c = "combined"%string /\ l = idFirst) (mult c (TNum <$> A) (TNum <$> B)) (fun D =>
    forall C, Forall2 compiled D C -> forall i j, i < c_N c -> j < c_N c ->
      exists x, C !! (i * c_N c + j) = Some x /\ finite64 x = true /\
        (Rabs (val64 x - exact_entry (c_transposed c) (c_N c) A B i j) <= d)%R).
Proof. exact (fun Hgen => certified_all gen Hgen c mult A B d). Qed.
Print Assumptions C72_passing_certifies_all.
(** The relative check accepts nothing but a zero where the product is zero. *)
Theorem C72_close_zero gen c mult A B : c ∈ all_cases -> ~ two_by_two_semi c -> c_check c = Check_close (Dec 1 10) ->
  length A = c_N c * c_N c -> length B = c_N c * c_N c -> stored gen (c_N c) (c_A c) A -> stored gen (c_N c) (c_B c) B ->
  passes gen mult c ->
  app_always (fun l => c_algorithm c = "combined"%string /\ l = idFirst) (mult c (TNum <$> A) (TNum <$> B)) (fun D =>
    forall C, Forall2 compiled D C -> forall i j, i < c_N c -> j < c_N c ->
      exists x, C !! (i * c_N c + j) = Some x /\ finite64 x = true /\
        (Rabs (val64 x - exact_entry (c_transposed c) (c_N c) A B i j) <= 2 / 10 ^ 12)%R /\
        (exact_entry (c_transposed c) (c_N c) A B i j = 0%R -> val64 x = 0%R)).
Proof. exact (certified_close gen c mult A B). Qed.
Print Assumptions C72_close_zero.
