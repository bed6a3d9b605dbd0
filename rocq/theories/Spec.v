(** Specifications, independent of the models. *)
From Verif Require Export Num.

Section Spec.
  Context {T : Type} `{NumOps T}.

  (** Entry (i,j) of a matrix stored row by row with [w] columns.  All uses
      below have hypotheses that make the position exist. *)
  Definition ent (w : nat) (M : list T) (i j : nat) : T := default nzero (M !! (i * w + j)).

  (** [C] is the N x N matrix with entries [f i j], stored row by row. *)
  Definition is_matrix (N : nat) (f : nat -> nat -> T) (C : list T) : Prop :=
    length C = N * N /\ forall i j, i < N -> j < N -> C !! (i * N + j) = Some (f i j).

  (** The product: entry (i,j) is sum_k A[i,k] * B[k,j], left to right. *)
  Definition prod_entry (N : nat) (A B : list T) (i j : nat) : T :=
    dot (fun k => nmul (ent N A i k) (ent N B k j)) (seq 0 N).
  (** The same with B given transposed: sum_k A[i,k] * B[j,k]. *)
  Definition prod_t_entry (N : nat) (A B : list T) (i j : nat) : T :=
    dot (fun k => nmul (ent N A i k) (ent N B j k)) (seq 0 N).

  Definition is_product (N : nat) (A B C : list T) : Prop :=
    is_matrix N (prod_entry N A B) C.
  Definition is_product_t (N : nat) (A B C : list T) : Prop :=
    is_matrix N (prod_t_entry N A B) C.
  (** Product selected by the [transposed] option. *)
  Definition pentry (transposed : bool) (N : nat) (A B : list T) (i j : nat) : T :=
    if transposed then prod_t_entry N A B i j else prod_entry N A B i j.

  (** [C] (bs x bs, row by row) is the block of the matrix [f] with upper left
      corner (x,y). *)
  Definition is_block (bs x y : nat) (f : nat -> nat -> T) (C : list T) : Prop :=
    is_matrix bs (fun i j => f (x + i) (y + j)) C.

  (** Sum in chunks of [b]: every chunk is summed left to right from zero, the
      chunk sums are added left to right. *)
  Definition dot_chunks (b : nat) (f : nat -> T) (N : nat) : T :=
    dot (fun q => dot f (seq (q * b) b)) (seq 0 (N / b)).
  Definition prod_t_chunks (b N : nat) (A B : list T) (i j : nat) : T :=
    dot_chunks b (fun k => nmul (ent N A i k) (ent N B j k)) N.

  (** Size conditions of the blocked kernel, which is chosen for transposed
      input, positive block_input and blocks of at least four rows. *)
  Definition leaf_ok (transposed : bool) (block_input bs N : nat) : Prop :=
    transposed = true -> 0 < block_input -> 4 <= bs -> (4 | bs) /\ (block_input | N).
  (** Block sizes that the recursive component handles: halving [n] until it is
      at most block_result ends in a size accepted by the kernel and meets no odd
      size before. *)
  Definition rec_ok (transposed : bool) (block_input block_result N n : nat) : Prop :=
    exists ms d, n = ms * 2 ^ d /\ ms <= block_result /\ (d = 0 \/ block_result < 2 * ms) /\
      leaf_ok transposed block_input ms N.
  (** Entry (i,j) with the summation order that a block of size [bs] uses. *)
  Definition leaf_entry (transposed : bool) (block_input bs N : nat) (A B : list T) : nat -> nat -> T :=
    if negb transposed then prod_entry N A B
    else if (block_input =? 0) || (bs <? 4) then prod_t_entry N A B
    else prod_t_chunks block_input N A B.

  (** The identity matrix. *)
  Definition is_identity (N : nat) (M : list T) : Prop :=
    is_matrix N (fun i j => if decide (i = j) then none1 else nzero) M.

  (** The all-zero matrix. *)
  Definition is_zero (N : nat) (M : list T) : Prop := is_matrix N (fun _ _ => nzero) M.

  (** Printed lines of a rows x cols matrix with entries [f i j]. *)
  Definition grid_lines (rows cols : nat) (f : nat -> nat -> T) : list (list T) :=
    (fun i => f i <$> seq 0 cols) <$> seq 0 rows.

  (** [R] (cols x rows) is the transpose of [M] (rows x cols). *)
  Definition is_transpose (rows cols : nat) (M R : list T) : Prop :=
    length R = rows * cols /\
    forall i j, i < rows -> j < cols -> R !! (j * rows + i) = M !! (i * cols + j).
End Spec.
