(** The order in which an entry is summed up, as a piece of data that does not
    mention numbers. *)
From Verif Require Import Base Num Spec SpecTiled MTiled.

Inductive summation := Straight | Chunks (b : nat) | Padded (b : blocks).
Definition order_ok (N : nat) (transposed : bool) (q : summation) : Prop :=
  match q with
  | Straight => True
  | Chunks b => transposed = true /\ 0 < b /\ (b | N)
  | Padded b => transposed = false /\ 0 < L1_K b /\ 0 < L3_K b /\ (L1_K b | L3_K b)
  end.
Definition entry_in {T} `{NumOps T} (transposed : bool) (q : summation) (N : nat) (A B : list T) (i j : nat) : T :=
  match q with
  | Straight => pentry transposed N A B i j
  | Chunks b => prod_t_chunks b N A B i j
  | Padded b => tiled_entry b N A B i j
  end.
