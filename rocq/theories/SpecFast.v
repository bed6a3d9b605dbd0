(** Specification for sums in any order. *)
From Coq Require Import ZArith Reals.
From Flocq Require Import Core IEEE754.Binary IEEE754.Bits.
From Verif Require Import Base Num Spec MApp SpecApp MDouble SpecRound.
Local Open Scope R_scope.

(** The bound of the rounding error of a sum of N products in any order: N roundings
    of relative size 2^-53, and N products that may underflow. *)
Definition sharp_bound (transposed : bool) (N : nat) (A B : list binary64) (i j : nat) : R :=
  ((1 + uro) ^ N - 1) * magnitude transposed N A B i j + INR N * tiny * (1 + uro) ^ N.
(** [C] is the product up to that error, wherever it is finite. *)
Definition near_product (transposed : bool) (N : nat) (A B C : list binary64) : Prop :=
  (length C = N * N)%nat /\ forall i j, (i < N)%nat -> (j < N)%nat -> exists c, C !! (i * N + j)%nat = Some c /\
    (finite64 c = true -> Rabs (val64 c - exact_entry transposed N A B i j) <= sharp_bound transposed N A B i j).
(** ... and it is finite everywhere. *)
Definition near_finite_product (transposed : bool) (N : nat) (A B C : list binary64) : Prop :=
  (length C = N * N)%nat /\ forall i j, (i < N)%nat -> (j < N)%nat -> exists c, C !! (i * N + j)%nat = Some c /\
    finite64 c = true /\ Rabs (val64 c - exact_entry transposed N A B i j) <= sharp_bound transposed N A B i j.
(** [C] has the values of the matrix [f]. *)
Definition has_values (N : nat) (f : nat -> nat -> R) (C : list binary64) : Prop :=
  (length C = N * N)%nat /\ forall i j, (i < N)%nat -> (j < N)%nat -> exists c, C !! (i * N + j)%nat = Some c /\
    finite64 c = true /\ val64 c = f i j.
