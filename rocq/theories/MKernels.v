(** Models of src/reference_kernels/kernel.hpp and
    src/variants/components/multiplier.cpp.  Definitions only. *)
From Verif Require Export Conc Num.

Section Kernels.
  Context {T : Type} `{NumOps T}.

  (** C[i] += v on a local vector *)
  Definition vadd (C : list T) (i : nat) (v : T) : prog T (list T) :=
    let! c := vget C i in vset C i (nadd c v).

  (** src/reference_kernels/kernel.hpp:11-27.  The result vector is passed by
      reference and returned here.  The boolean says that out_of_range has
      been thrown: the handler prints and returns, keeping the entries written
      so far. *)
  Definition kernel (A B C : list T) (N x y blockSize : nat) : prog T (list T) :=
    let! r :=
      forS 0 blockSize 1 (fun i st =>
        forS 0 blockSize 1 (fun j (st : list T * bool) =>
          if st.2 then Ret st else
          pcatch EOutOfRange (Ret (st.1, true))
            (let! result_component :=
               forS 0 N 1 (fun k acc =>
                 let! a := vat A ((x + i) * N + k) in
                 let! b := vat B (k * N + (y + j)) in
                 Ret (nadd acc (nmul a b))) nzero in
             let! C' := vset_at st.1 (i * blockSize + j) result_component in
             Ret (C', false))) st) (C, false) in
    Ret r.1.

  (** src/reference_kernels/kernel.hpp:32-44 *)
  Definition kernel_transposed (A B C : list T) (N x y blockSize : nat) : prog T (list T) :=
    forS 0 blockSize 1 (fun i C =>
      forS 0 blockSize 1 (fun j C =>
        let! result_component :=
          forS 0 N 1 (fun k acc =>
            let! a := vget A ((x + i) * N + k) in
            let! b := vget B ((y + j) * N + k) in
            Ret (nadd acc (nmul a b))) nzero in
        vset C (i * blockSize + j) result_component) C) C.

  (** src/reference_kernels/kernel.hpp:79-89: copy of a strip of A (or B) *)
  Definition ktb_copy (M small : list T) (N x k_block block_result block_input : nat) : prog T (list T) :=
    forS 0 block_result 1 (fun i s =>
      forS 0 block_input 1 (fun k s =>
        let! v := vget M ((x + i) * N + k_block + k) in
        vset s (i * block_input + k) v) s) small.

  (** The eight accumulators result_component_a_b of kernel.hpp:102-109. *)
  Definition acc8 : Type := T * T * T * T * T * T * T * T.

  (** src/reference_kernels/kernel.hpp:111-129: body of the innermost loop *)
  Definition ktb_inner (A_small B_small : list T) (block_input i j k : nat) (acc : acc8) : prog T acc8 :=
    let '(c00, c01, c10, c11, c20, c21, c30, c31) := acc in
    let! a0 := vget A_small ((i + 0) * block_input + k) in
    let! b0 := vget B_small ((j + 0) * block_input + k) in
    let! b1 := vget B_small ((j + 1) * block_input + k) in
    let! a1 := vget A_small ((i + 1) * block_input + k) in
    let! a2 := vget A_small ((i + 2) * block_input + k) in
    let! a3 := vget A_small ((i + 3) * block_input + k) in
    Ret (nadd c00 (nmul a0 b0), nadd c01 (nmul a0 b1),
         nadd c10 (nmul a1 b0), nadd c11 (nmul a1 b1),
         nadd c20 (nmul a2 b0), nadd c21 (nmul a2 b1),
         nadd c30 (nmul a3 b0), nadd c31 (nmul a3 b1)).

  (** src/reference_kernels/kernel.hpp:102-139: one 4x2 register block *)
  Definition ktb_block (A_small B_small : list T) (block_result block_input i j : nat) (C : list T) : prog T (list T) :=
    let! acc := forS 0 block_input 1 (ktb_inner A_small B_small block_input i j)
                  (nzero, nzero, nzero, nzero, nzero, nzero, nzero, nzero) in
    let '(c00, c01, c10, c11, c20, c21, c30, c31) := acc in
    let! C := vadd C ((i + 0) * block_result + (j + 0)) c00 in
    let! C := vadd C ((i + 0) * block_result + (j + 1)) c01 in
    let! C := vadd C ((i + 1) * block_result + (j + 0)) c10 in
    let! C := vadd C ((i + 1) * block_result + (j + 1)) c11 in
    let! C := vadd C ((i + 2) * block_result + (j + 0)) c20 in
    let! C := vadd C ((i + 2) * block_result + (j + 1)) c21 in
    let! C := vadd C ((i + 3) * block_result + (j + 0)) c30 in
    let! C := vadd C ((i + 3) * block_result + (j + 1)) c31 in
    Ret C.

  (** src/reference_kernels/kernel.hpp:54-149.  The loop state is
      (A_small, B_small, C). *)
  Definition kernel_transposed_blocked (A B C : list T) (N x y block_result block_input : nat) : prog T (list T) :=
    let! st :=
      forS 0 N block_input (fun k_block (st : list T * list T * list T) =>
        let '(A_small, B_small, C) := st in
        let! A_small := ktb_copy A A_small N x k_block block_result block_input in
        let! B_small := ktb_copy B B_small N y k_block block_result block_input in
        let! C := forS 0 block_result 4 (fun i C =>
                    forS 0 block_result 2 (fun j C =>
                      ktb_block A_small B_small block_result block_input i j C) C) C in
        Ret (A_small, B_small, C))
        (replicate (block_input * block_result) nzero, replicate (block_input * block_result) nzero, C) in
    Ret st.2.

  (** src/variants/components/multiplier.cpp:16-35.  The component's members
      N, A, B, transposed, block_input are parameters. *)
  Definition calculate_submatrix (N : nat) (A B : list T) (transposed : bool) (block_input : nat)
      (x y block_result : nat) : prog T (list T) :=
    let C := replicate (block_result * block_result) nzero in
    if negb transposed then kernel A B C N x y block_result
    else if (block_input =? 0) || (block_result <? 4) then kernel_transposed A B C N x y block_result
    else kernel_transposed_blocked A B C N x y block_result block_input.
End Kernels.
