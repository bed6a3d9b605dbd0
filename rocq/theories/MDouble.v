(** Doubles: IEEE 754 binary64, every operation rounded to nearest even.
    Simplification: here a*b+c is never contracted into a fused operation; the
    compiler flags of /repo allow that, see MContract.v. *)
From Coq Require Import ZArith.
From Flocq Require Import Core IEEE754.Binary IEEE754.Bits.
From Verif Require Import Base Num MCeil.

Notation rne := BinarySingleNaN.mode_NE.
Notation finite64 := (is_finite 53 1024).
Notation val64 := (B2R 53 1024).
Notation neg64 := (Bsign 53 1024).

(** The C++ type double with its + and *; 0.0 and 1.0 as in the sources. *)
Global Instance B64_ops : NumOps binary64 :=
  {| nzero := B754_zero 53 1024 false; none1 := double_of 1; nadd := b64_plus rne; nmul := b64_mult rne |}.

(** std::abs(first - second), src/matrix_multiply_application/matrix_multiply.cpp:404;
    also fabs of the difference in line 423 *)
Definition absdiff64 (first second : binary64) : binary64 := b64_abs (b64_minus rne first second).
(** The literal 1E-10 of line 404: the nearest double. *)
Definition tolerance : binary64 := B754_finite 53 1024 false 7737125245533627 (-86) eq_refl.
(** [x < 1E-10]; comparisons with a NaN are false *)
Definition small64 (x : binary64) : bool :=
  match b64_compare x tolerance with Some Lt => true | _ => false end.
