(** What an entry of a product is made of; NaNs and infinities. *)
From Coq Require Import ZArith.
From Flocq Require Import Core IEEE754.Binary IEEE754.Bits.
From Verif Require Import Base Num Spec MCeil MDouble.

(** The factor B[k,j], or B[j,k] if B is given transposed. *)
Definition factor {T} `{NumOps T} (transposed : bool) (N : nat) (B : list T) (k j : nat) : T :=
  if transposed then ent N B j k else ent N B k j.
(** The two pairs of matrices have the same row i and the same column j. *)
Definition same_inputs {T} `{NumOps T} (transposed : bool) (N i j : nat) (A B A' B' : list T) : Prop :=
  forall k, k < N -> ent N A i k = ent N A' i k /\ factor transposed N B k j = factor transposed N B' k j.

Notation nan64 := (is_nan 53 1024).
(** Row i of A and column j of B are free of NaNs and infinities ... *)
Definition finite_inputs (transposed : bool) (N i j : nat) (A B : list binary64) : Prop :=
  forall k, k < N -> finite64 (ent N A i k) = true /\ finite64 (factor transposed N B k j) = true.
(** ... or contain a NaN. *)
Definition nan_input (transposed : bool) (N i j : nat) (A B : list binary64) : Prop :=
  exists k, k < N /\ (nan64 (ent N A i k) = true \/ nan64 (factor transposed N B k j) = true).
Definition minus_zero : binary64 := B754_zero 53 1024 true.
