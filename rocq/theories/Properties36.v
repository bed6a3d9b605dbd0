(** C78: the numbers that learning/MetaProgrammingCPP.cpp prints; C70: the literals of
    the test suites. *)
From Coq Require Import ZArith Reals String Ascii.
From Flocq Require Import IEEE754.Binary IEEE754.Bits.
From Verif Require Import Base MLearn SpecLearn SpecLearn2 PLearn PLearn2 MDouble MTests PTests4.
Local Open Scope nat_scope.

(** C78: a number is printed as its decimal numeral without superfluous zeros, and there
    is only one such numeral. *)
Theorem C78_numbers n s : show n = s <-> numeral n s.
Proof. exact (show_numeral n s). Qed.
Print Assumptions C78_numbers.

(** C70: every literal in the matrices of the cases is a finite double, and no other
    double is closer to the decimal fraction written. *)
Theorem C70_literals c l d : c ∈ all_cases ->
  (c_A c = Literal l \/ c_A c = Transposed_literal l \/ c_B c = Literal l \/ c_B c = Transposed_literal l) -> d ∈ l ->
  finite64 (double_literal d) = true /\
  forall y, finite64 y = true ->
    (Rabs (val64 (double_literal d) - IZR (d_mant d) / IZR (10 ^ d_exp d)) <= Rabs (val64 y - IZR (d_mant d) / IZR (10 ^ d_exp d)))%R.
Proof. exact (suite_literals c l d). Qed.
Print Assumptions C70_literals.
