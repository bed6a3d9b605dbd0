(** Specification of the tiled kernels, independent of their loops. *)
From Verif Require Export Spec MTiled.

(** The constants divide each other as the comments of the source demand:
    register blocks divide L1 blocks, L1 blocks divide L2 blocks, L2 blocks
    divide L3 blocks. *)
Definition blocks_ok (b : blocks) : Prop :=
  (0 < L3_X b /\ 0 < L3_Y b /\ 0 < L3_K b) /\
  ((L1_X b | L2_X b) /\ (L1_Y b | L2_Y b) /\ (L1_K b | L2_K b)) /\
  ((L2_X b | L3_X b) /\ (L2_Y b | L3_Y b) /\ (L2_K b | L3_K b)) /\
  (5 | L1_X b) /\ (8 | L1_Y b).

(** All cache-block constants are positive. *)
Definition all_positive (b : blocks) : Prop :=
  (0 < L3_X b /\ 0 < L3_Y b /\ 0 < L3_K b) /\ (0 < L2_X b /\ 0 < L2_Y b /\ 0 < L2_K b) /\ (0 < L1_X b /\ 0 < L1_Y b /\ 0 < L1_K b).
(** Each level divides the next. *)
Definition levels_divide (b : blocks) : Prop :=
  ((L1_X b | L2_X b) /\ (L1_Y b | L2_Y b) /\ (L1_K b | L2_K b)) /\
  ((L2_X b | L3_X b) /\ (L2_Y b | L3_Y b) /\ (L2_K b | L3_K b)).

(** The least multiple of [L] that is at least [N]. *)
Definition round_up (N L : nat) : nat := cdiv N L * L.

(** A padding of [P] columns and rows leaves room for everything the tiled
    loops touch, including one row of B beyond the last, and keeps rows
    aligned to vectors of four. *)
Definition kt_fits (b : blocks) (P N : nat) : Prop :=
  (4 | N + P) /\ round_up N (L3_X b) <= N + P /\ round_up N (L3_Y b) <= N + P /\ round_up N (L3_K b) < N + P.

Section SpecTiled.
  Context {T : Type} `{NumOps T}.
  (** The N x N matrix continued by zeros. *)
  Definition pent (N : nat) (M : list T) (i j : nat) : T :=
    if decide (i < N /\ j < N) then ent N M i j else nzero.
  (** Entry (i,j) in the summation order of the tiled kernels: chunks of L1_K
      summed from zero and added up, over the padded range of k. *)
  Definition tiled_entry (b : blocks) (N : nat) (A B : list T) (i j : nat) : T :=
    dot_chunks (L1_K b) (fun k => nmul (pent N A i k) (pent N B k j)) (round_up N (L3_K b)).
  (** The same chunks added up [r] times in a row without clearing. *)
  Definition tiled_entry_rep (b : blocks) (r N : nat) (A B : list T) (i j : nat) : T :=
    dot (fun q => dot (fun k => nmul (pent N A i k) (pent N B k j)) (seq (q * L1_K b) (L1_K b)))
      (seq 0 r ≫= fun _ => seq 0 (round_up N (L3_K b) / L1_K b)).
  (** The r-fold sum x + ... + x, left to right from zero. *)
  Definition times (r : nat) (x : T) : T := dot (fun _ => x) (seq 0 r).
End SpecTiled.
(** Matrices with a single one. *)
Definition is_unit {T} `{NumOps T} (N i0 j0 : nat) : list T -> Prop :=
  is_matrix N (fun i j => if decide (i = i0 /\ j = j0) then none1 else nzero).
