(** Matrices of integers, and the bound under which no operation rounds. *)
From Coq Require Import ZArith Reals.
From Flocq Require Import Core IEEE754.Binary IEEE754.Bits.
From Verif Require Import Base Num MDouble SpecRound.
Local Open Scope R_scope.

(** All entries are integers (zeros of either sign included). *)
Definition integral (M : list binary64) : Prop :=
  forall x, x ∈ M -> finite64 x = true /\ exists z, val64 x = IZR z.
(** sum_k |A[i,k]*B[k,j]| <= 2^53 for every entry. *)
Definition within_53_bits (transposed : bool) (N : nat) (A B : list binary64) : Prop :=
  forall i j, (i < N)%nat -> (j < N)%nat -> magnitude transposed N A B i j <= bpow radix2 53.
