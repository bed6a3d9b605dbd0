(** The random numbers that fill the matrices: std::default_random_engine and
    std::uniform_real_distribution<double>(0.0, 1.0) bound together, as in
    matrix_multiply.cpp:83-89 and create_random_matrix.hpp:8-18.  Definitions only.

    Neither class is part of /repo; the C++ standard fixes the engine up to the
    choice of the library and leaves the distribution to it.  Modelled is what
    the two libraries the project can be built with do (<random> of libstdc++ and
    of libc++, which agree up to the multiplier).  Not modelled: other libraries,
    and x87 arithmetic. *)
From Coq Require Import ZArith.
From Flocq Require Import Core IEEE754.Binary IEEE754.Bits.
From Verif Require Import Base Num MCeil MDouble MContract MReport.
Local Open Scope Z_scope.

(** linear_congruential_engine<uint_fast32_t, a, 0, 2147483647>, the type behind
    std::default_random_engine at matrix_multiply.cpp:83 and
    create_random_matrix.hpp:12.  The multiplier is 16807 (minstd_rand0, libstdc++)
    or 48271 (minstd_rand, libc++). *)
Definition modulus : Z := 2147483647.
Definition multiplier_libstdcxx : Z := 16807.
Definition multiplier_libcxx : Z := 48271.
(** The seed of the default constructor; neither caller passes another one. *)
Definition seed : Z := 1.
(** One call of the engine; the result is the new state. *)
Definition engine_step (a x : Z) : Z := (a * x) mod modulus.
(** engine.min() is 1 as the increment is 0; engine.max() is modulus - 1. *)
Definition engine_min : Z := 1.
Definition engine_max : Z := modulus - 1.

(** x * y + z, contracted or not (-march=native, see MContract.v) *)
Definition mul_add (contracted : bool) (x y z : binary64) : binary64 :=
  if contracted then fma64 x y z else nadd z (nmul x y).

(** generate_canonical<double, 53>(engine).  The range r is max - min + 1 as a
    long double; it is exact as a double too. *)
Definition engine_range : Z := engine_max - engine_min + 1.
(** The number of calls: max(1, ceil(53 / log2 r)) computed on integers as
    (53 + log2r - 1) / log2r with log2r = (size_t)(log(r) / log(2)). *)
Definition calls : nat := Z.to_nat (Z.max 1 ((53 + Z.log2 engine_range - 1) / Z.log2 engine_range)).
(** for (; k != 0; --k) { sum += (engine() - min) * tmp; tmp *= r; }.  The product
    tmp * r is computed as a long double and then rounded to double; for the two
    iterations that are made, this gives the same double as one rounding.
    [contracted k] says how iteration k is compiled. *)
Fixpoint canonical_loop (contracted : nat -> bool) (a : Z) (k : nat) (x : Z) (sum tmp : binary64) : Z * binary64 * binary64 :=
  match k with
  | O => (x, sum, tmp)
  | S k =>
      let x := engine_step a x in
      canonical_loop contracted a k x (mul_add (contracted k) (double_of (x - engine_min)) tmp sum)
        (nmul tmp (double_of engine_range))
  end.
(** nextafter(1.0, 0.0) *)
Definition below_one : binary64 := B754_finite 53 1024 false 9007199254740991 (-53) eq_refl.
(** ret = sum / tmp.  Newer versions of libstdc++ replace results that are not
    below 1 ([guarded]); libc++ and older versions do not. *)
Definition canonical (guarded : bool) (contracted : nat -> bool) (a x : Z) : Z * binary64 :=
  let '(x, sum, tmp) := canonical_loop contracted a calls x nzero none1 in
  let ret := div64 sum tmp in
  (x, if guarded then match b64_compare ret none1 with Some Lt => ret | _ => below_one end else ret).

(** uniform_real_distribution<double>(0.0, 1.0)(engine):
    canonical * (b - a) + a, matrix_multiply.cpp:84, create_random_matrix.hpp:13 *)
Definition uniform (guarded : bool) (contracted : nat -> bool) (a x : Z) : Z * binary64 :=
  let '(x, c) := canonical guarded contracted a x in
  (x, mul_add (contracted calls) c none1 nzero).

(** The state of the bound engine after k calls of myRand.  std::bind copies the
    freshly constructed engine (matrix_multiply.cpp:85, create_random_matrix.hpp:14)
    and std::generate copies the bound object (line 88, line 16): each matrix
    starts from the seed. *)
Fixpoint engine_after (guarded : bool) (contracted : nat -> bool) (a : Z) (k : nat) : Z :=
  match k with
  | O => seed
  | S k => (uniform guarded contracted a (engine_after guarded contracted a k)).1
  end.
(** The k-th number written by std::generate: matrix_multiply.cpp:88,
    create_random_matrix.hpp:16.  This is the [gen] of MApp.v and MTests.v. *)
Definition draw (guarded : bool) (contracted : nat -> bool) (a : Z) (k : nat) : binary64 :=
  (uniform guarded contracted a (engine_after guarded contracted a k)).2.
