(** The numbers of a multiplicative congruential generator, by their closed form. *)
From Coq Require Import ZArith Reals.
From Flocq Require Import Core IEEE754.Binary.
From Verif Require Import Base.
Local Open Scope Z_scope.

(** The two generators that std::default_random_engine can be. *)
Definition is_multiplier (a : Z) : Prop := a = 16807 \/ a = 48271.
(** The n-th output is a^n modulo the prime 2^31 - 1. *)
Definition power_residue (a : Z) (n : nat) : Z := a ^ Z.of_nat n mod (2 ^ 31 - 1).
(** Two outputs, minus one, are the digits of a fraction in base 2^31 - 2. *)
Definition fraction (a : Z) (k : nat) : R :=
  let r := (2 ^ 31 - 2)%Z in
  let low := power_residue a (2 * k + 1) - 1 in
  let high := power_residue a (2 * k + 2) - 1 in
  ((IZR low + IZR high * IZR r) / (IZR r * IZR r))%R.
(** The sequence of fractions repeats after this many. *)
Definition period : Z := 2 ^ 30 - 1.
(** Positions i and j hold the same number. *)
Definition same_phase (i j : nat) : Prop := Z.of_nat i mod period = Z.of_nat j mod period.
