(** What the printed figures should be. *)
From Coq Require Import ZArith Reals.
From Flocq Require Import Core IEEE754.Binary IEEE754.Bits.
From Verif Require Import Base Num MDouble MApp SpecApp SpecRound.
Local Open Scope R_scope.

(** [x] is [r] up to [n] roundings to nearest. *)
Definition within_roundings (n : nat) (x : binary64) (r : R) : Prop :=
  finite64 x = true /\ r * (1 - uro) ^ n <= val64 x <= r * (1 + uro) ^ n.
(** A time that neither overflows nor underflows in the computations below; it
    covers every time a clock can measure. *)
Definition measurable (d : binary64) : Prop := finite64 d = true /\ bpow radix2 (-300) <= val64 d <= bpow radix2 300.
Definition plus_zero : binary64 := B754_zero 53 1024 false.
Definition plus_inf : binary64 := B754_infinity 53 1024 false.

(** 10^9 operations per second when [flop] operations take [seconds] *)
Definition rate (flop seconds : R) : R := flop / 1000000000 / seconds.

(** The same options with another number of repetitions *)
Definition with_repetitions (r : nat) (o : options) : options :=
  Options (o_n o) (o_transposed o) r (o_verbose o) (o_block_result o) (o_block_input o) (o_check o) (o_algorithm o)
    (o_min_work_size o) (o_max_work_difference o) (o_rel o) (o_help o).
Definition one_product_only (v : choice) : Prop :=
  match v with Algorithms | Looped | Semi | Proposal => True | _ => False end.
