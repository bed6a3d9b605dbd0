(** The relative balance criterion of src/variants/static_improved.cpp in doubles.
    Definitions only. *)
From Coq Require Import ZArith.
From Flocq Require Import IEEE754.Binary IEEE754.Bits.
From Verif Require Import MCeil MDouble MReport.

(** static_improved.cpp:61-67: [d] is max_work - min_work, [m] is min_work.
    Comparisons with a NaN are false. *)
Definition rel64 (max_relative_work_difference : binary64) (d m : Z) : bool :=
  match b64_compare (div64 (double_of d) (double_of m)) max_relative_work_difference with Some Lt => true | _ => false end.
(** The default 0.05, matrix_multiply.cpp:283 *)
Definition five_percent : binary64 := B754_finite 53 1024 false 7205759403792794 (-57) eq_refl.
