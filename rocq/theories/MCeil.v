(** Block counts in binary64 arithmetic, src/variants/index_iterator.hpp:256-268
    (= src/memory_layout/index_iterator.hpp). *)
From Coq Require Import ZArith.
From Flocq Require Import Core IEEE754.Binary IEEE754.Bits.
From Verif Require Import Base.

(** static_cast<double>(n) for a size_t, rounding to nearest even *)
Definition double_of (n : Z) : binary64 :=
  binary_normalize 53 1024 eq_refl eq_refl BinarySingleNaN.mode_NE n 0 false.

(** static_cast<size_t>(std::ceil(static_cast<double>(ext) / static_cast<double>(block))):
    converting an infinity, a NaN or a value outside [0, 2^64) is undefined. *)
Definition block_count_double (ext block : Z) : res Z :=
  let q := b64_div BinarySingleNaN.mode_NE (double_of ext) (double_of block) in
  let c := Bnearbyint 53 1024 eq_refl unop_nan_pl64 BinarySingleNaN.mode_UP q in
  if is_finite 53 1024 c then
    let z := Btrunc 53 1024 c in
    if (0 <=? z)%Z && (z <? 2 ^ 64)%Z then Ok z else Fail EOverflow
  else Fail EOverflow.
