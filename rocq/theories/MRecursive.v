(** Models of src/variants/components/recursive.cpp and src/variants/single.cpp.
    Definitions only. *)
From Verif Require Export MKernels.

Section Recursive.
  Context {T : Type} `{NumOps T}.
  (** Members of the multiplier and recursive components. *)
  Context (N : nat) (A B : list T) (transposed : bool) (block_input block_result : nat).

  (** src/variants/components/recursive.cpp:16-35.  [C] is the shared vector of
      the parent call. *)
  Definition extract_submatrix (C : arr) (C_small : list T) (x y blockSize : nat) : prog T unit :=
    pcatch EOutOfRange (Ret tt)
      (let blocksize_last := 2 * blockSize in
       forP 0 blockSize 1 (fun i =>
         forP 0 blockSize 1 (fun j =>
           let! v := vat C_small (i * blockSize + j) in
           wr_at C ((x + i) * blocksize_last + (y + j)) v))).

  (** A vector returned by value becomes the contents of array [a]. *)
  Definition vput (a : arr) (C : list T) : prog T unit :=
    foldP (seq 0 (length C)) (fun i _ =>
      let! v := vget C i in Alloc (a, i) (VD v) (Ret tt)) tt.

  (** src/variants/components/recursive.cpp:37-94.  Every call has its own
      result array [path]; the q-th child has [q :: path].  The four
      async/then pairs are parallel tasks, wait_all is the join.  The fuel
      argument is instantiated with the block size, which is always enough
      since the size at least halves. *)
  Fixpoint dist (fuel : nat) (path : arr) (x y blockSize : nat) : prog T unit :=
    let leaf := let! C := calculate_submatrix N A B transposed block_input x y blockSize in vput path C in
    match fuel with
    | O => leaf
    | S fuel' =>
        if blockSize <=? block_result then leaf
        else
          let n_new := blockSize / 2 in
          let offsets := [(0, 0, 0); (1, n_new, 0); (2, 0, n_new); (3, n_new, n_new)] in
          valloc path (blockSize * blockSize) nzero ;;;
          parL offsets (fun o =>
            let '(q, ox, oy) := o in
            dist fuel' (q :: path) (x + ox) (y + oy) n_new ;;;
            let! submatrix := vread (q :: path) (n_new * n_new) in
            extract_submatrix path submatrix ox oy n_new)
    end.

  (** recursive::distribute_recursively with the returned vector *)
  Definition distribute_recursively (path : arr) (x y blockSize : nat) : prog T (list T) :=
    dist blockSize path x y blockSize ;;; vread path (blockSize * blockSize).

  (** src/variants/single.cpp:14-46.  Component creation and registration are
      not modelled; repetition [r] uses the arrays below path [r]. *)
  Definition single_matrix_multiply (repetitions : nat) : prog T (list T) :=
    forS 0 repetitions 1 (fun r _ => distribute_recursively [r] 0 0 N) (replicate (N * N) nzero).
End Recursive.
