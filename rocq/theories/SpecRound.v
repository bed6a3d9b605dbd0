(** Exact dot products of doubles and the classical bound of the rounding error. *)
From Coq Require Import ZArith Reals.
From Flocq Require Import Core IEEE754.Binary IEEE754.Bits.
From Verif Require Import Base Num Spec MApp SpecApp MDouble.
Local Open Scope R_scope.

Definition rsum (f : nat -> R) (ks : list nat) : R := foldr (fun k s => f k + s) 0 ks.
(** Unit roundoff and half the smallest positive double. *)
Definition uro : R := bpow radix2 (-53).
Definition tiny : R := bpow radix2 (-1075).

(** sum_k A[i,k] * B[k,j] (or B[j,k]) over the reals, without any rounding, and
    the same sum of absolute values. *)
Definition factor_b (transposed : bool) (N : nat) (B : list binary64) (k j : nat) : R :=
  val64 (if transposed then ent N B j k else ent N B k j).
Definition exact_entry (transposed : bool) (N : nat) (A B : list binary64) (i j : nat) : R :=
  rsum (fun k => val64 (ent N A i k) * factor_b transposed N B k j) (seq 0 N).
Definition magnitude (transposed : bool) (N : nat) (A B : list binary64) (i j : nat) : R :=
  rsum (fun k => Rabs (val64 (ent N A i k) * factor_b transposed N B k j)) (seq 0 N).
Definition error_bound (transposed : bool) (N : nat) (A B : list binary64) (i j : nat) : R :=
  ((1 + uro) ^ (N + 2) - 1) * magnitude transposed N A B i j + INR N * tiny * (1 + uro) ^ (N + 2).

(** Which product the variant computes: the kernels ignore --transposed. *)
Definition multiplies (o : options) (v : choice) : bool :=
  match v with KernelTest | KernelTiled => false | _ => o_transposed o end.

(** All entries are finite and at most one in magnitude. *)
Definition unit_entries (M : list binary64) : Prop :=
  forall x, x ∈ M -> finite64 x = true /\ Rabs (val64 x) <= 1.

(** The ways in which the suitable variants sum up an entry: straight, in chunks
    of [b] products, or in chunks over a range padded with zeros. *)
Inductive summed {T} `{NumOps T} (N : nat) (A B : list T) (i j : nat) : bool -> T -> Prop :=
| summed_straight transposed : summed N A B i j transposed (pentry transposed N A B i j)
| summed_chunks b : (0 < b)%nat -> (b | N)%nat -> summed N A B i j true (prod_t_chunks b N A B i j)
| summed_padded b : (0 < L1_K b)%nat -> (0 < L3_K b)%nat -> (L1_K b | L3_K b)%nat -> summed N A B i j false (tiled_entry b N A B i j).
