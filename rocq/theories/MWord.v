(** 64-bit index arithmetic.

    The other models compute array indices and loop counters with unbounded
    natural numbers.  In the code they have the types size_t and uint64_t, whose
    operations wrap around.  MWord*.v repeat the models of the application and its
    algorithms with words: numbers below a modulus [M], which is 2^64 on the
    machine.  Apart from that the definitions are those of the other files.
    Pointer offsets inside one vector register (&v[i] and the three elements
    behind it) are not size_t operations.  Definitions only. *)
From Verif Require Export Conc Num MKernels MRecursive MSchedule.

(** The modulus of size_t and uint64_t. *)
Definition M64 : nat := Z.to_nat (2 ^ 64).

Section Word.
  Context (M : nat).

  (** a + b, a * b and a - b of size_t *)
  Definition wadd (a b : nat) : nat := (a + b) mod M.
  Definition wmul (a b : nat) : nat := (a * b) mod M.
  Definition wsub (a b : nat) : nat := (a + (M - b mod M)) mod M.
  Local Notation "a +w b" := (wadd a b) (at level 50, left associativity).
  Local Notation "a *w b" := (wmul a b) (at level 40, left associativity).
  Local Notation "a -w b" := (wsub a b) (at level 50, left associativity).

  (** The values of the counter of [for (i = lo; i < hi; i += st)] and whether
      the loop ends.  A loop that has not ended after M iterations has met a
      counter value twice and never ends. *)
  Fixpoint wrng_fuel (fuel cur hi st : nat) : list nat * bool :=
    match fuel with
    | O => ([], false)
    | S f => if cur <? hi then let r := wrng_fuel f (cur +w st) hi st in (cur :: r.1, r.2) else ([], true)
    end.
  Definition wrng (lo hi st : nat) : list nat * bool := wrng_fuel (S M) lo hi st.

  Section Loops.
    Context {T : Type}.
    (** An endless loop is cut off after M+1 iterations.  As in [forS] the step
        zero executes the body once. *)
    Definition forW {S} (lo hi st : nat) (f : nat -> S -> prog T S) (s : S) : prog T S :=
      if (lo <? hi) && (st =? 0) then pbind (fun _ => Err EDiverge) (f lo s)
      else
        let r := wrng lo hi st in
        pbind (fun s' => if r.2 then Ret s' else Err EDiverge) (foldP r.1 f s).
    Definition forPW (lo hi st : nat) (body : nat -> prog T unit) : prog T unit :=
      forW lo hi st (fun i _ => body i) tt.
    (** A parallel loop over [for (i = lo; i < hi; i += st)]; OpenMP requires that
        it ends. *)
    Definition parW (lo hi st : nat) (body : nat -> prog T unit) : prog T unit :=
      let r := wrng lo hi st in if r.2 then parL r.1 body else Err EDiverge.
  End Loops.

  (** * src/reference_kernels/naive.hpp *)
  Section Naive.
    Context {T : Type} `{NumOps T}.

    (** src/reference_kernels/naive.hpp:12-18 *)
    Definition naive_row_w (N : nat) (A B : list T) (i : nat) : prog T unit :=
      pcatch EOutOfRange (Err ETerminate)
        (forPW 0 N 1 (fun j =>
           let! result_component :=
             forW 0 N 1 (fun k acc =>
               let! a := vat A (i *w N +w k) in
               let! b := vat B (k *w N +w j) in
               Ret (nadd acc (nmul a b))) nzero in
           wr_at [0] (i *w N +w j) result_component)).
    (** src/reference_kernels/naive.hpp:6-21 *)
    Definition naive_matrix_multiply_w (N : nat) (A B : list T) : prog T (list T) :=
      valloc [0] (N *w N) nzero ;;;
      parW 0 N 1 (naive_row_w N A B) ;;;
      vread [0] (N *w N).
    (** src/reference_kernels/naive.hpp:31-37 *)
    Definition naive_row_transposed_w (N : nat) (A B : list T) (i : nat) : prog T unit :=
      pcatch EOutOfRange (Err ETerminate)
        (forPW 0 N 1 (fun j =>
           let! result_component :=
             forW 0 N 1 (fun k acc =>
               let! a := vat A (i *w N +w k) in
               let! b := vat B (j *w N +w k) in
               Ret (nadd acc (nmul a b))) nzero in
           wr_at [0] (i *w N +w j) result_component)).
    (** src/reference_kernels/naive.hpp:24-40 *)
    Definition naive_matrix_multiply_transposed_w (N : nat) (A B : list T) : prog T (list T) :=
      valloc [0] (N *w N) nzero ;;;
      parW 0 N 1 (naive_row_transposed_w N A B) ;;;
      vread [0] (N *w N).
  End Naive.

  (** * src/reference_kernels/kernel.hpp, components/multiplier.cpp *)
  Section Kernels.
    Context {T : Type} `{NumOps T}.

    (** src/reference_kernels/kernel.hpp:11-27 *)
    Definition kernel_w (A B C : list T) (N x y blockSize : nat) : prog T (list T) :=
      let! r :=
        forW 0 blockSize 1 (fun i st =>
          forW 0 blockSize 1 (fun j (st : list T * bool) =>
            if st.2 then Ret st else
            pcatch EOutOfRange (Ret (st.1, true))
              (let! result_component :=
                 forW 0 N 1 (fun k acc =>
                   let! a := vat A ((x +w i) *w N +w k) in
                   let! b := vat B (k *w N +w (y +w j)) in
                   Ret (nadd acc (nmul a b))) nzero in
               let! C' := vset_at st.1 (i *w blockSize +w j) result_component in
               Ret (C', false))) st) (C, false) in
      Ret r.1.

    (** src/reference_kernels/kernel.hpp:32-44 *)
    Definition kernel_transposed_w (A B C : list T) (N x y blockSize : nat) : prog T (list T) :=
      forW 0 blockSize 1 (fun i C =>
        forW 0 blockSize 1 (fun j C =>
          let! result_component :=
            forW 0 N 1 (fun k acc =>
              let! a := vget A ((x +w i) *w N +w k) in
              let! b := vget B ((y +w j) *w N +w k) in
              Ret (nadd acc (nmul a b))) nzero in
          vset C (i *w blockSize +w j) result_component) C) C.

    (** src/reference_kernels/kernel.hpp:79-89 *)
    Definition ktb_copy_w (V small : list T) (N x k_block block_result block_input : nat) : prog T (list T) :=
      forW 0 block_result 1 (fun i s =>
        forW 0 block_input 1 (fun k s =>
          let! v := vget V ((x +w i) *w N +w k_block +w k) in
          vset s (i *w block_input +w k) v) s) small.

    (** src/reference_kernels/kernel.hpp:111-129 *)
    Definition ktb_inner_w (A_small B_small : list T) (block_input i j k : nat) (acc : acc8 (T := T)) : prog T acc8 :=
      let '(c00, c01, c10, c11, c20, c21, c30, c31) := acc in
      let! a0 := vget A_small ((i +w 0) *w block_input +w k) in
      let! b0 := vget B_small ((j +w 0) *w block_input +w k) in
      let! b1 := vget B_small ((j +w 1) *w block_input +w k) in
      let! a1 := vget A_small ((i +w 1) *w block_input +w k) in
      let! a2 := vget A_small ((i +w 2) *w block_input +w k) in
      let! a3 := vget A_small ((i +w 3) *w block_input +w k) in
      Ret (nadd c00 (nmul a0 b0), nadd c01 (nmul a0 b1),
           nadd c10 (nmul a1 b0), nadd c11 (nmul a1 b1),
           nadd c20 (nmul a2 b0), nadd c21 (nmul a2 b1),
           nadd c30 (nmul a3 b0), nadd c31 (nmul a3 b1)).

    (** src/reference_kernels/kernel.hpp:102-139 *)
    Definition ktb_block_w (A_small B_small : list T) (block_result block_input i j : nat) (C : list T) : prog T (list T) :=
      let! acc := forW 0 block_input 1 (ktb_inner_w A_small B_small block_input i j)
                    (nzero, nzero, nzero, nzero, nzero, nzero, nzero, nzero) in
      let '(c00, c01, c10, c11, c20, c21, c30, c31) := acc in
      let! C := vadd C ((i +w 0) *w block_result +w (j +w 0)) c00 in
      let! C := vadd C ((i +w 0) *w block_result +w (j +w 1)) c01 in
      let! C := vadd C ((i +w 1) *w block_result +w (j +w 0)) c10 in
      let! C := vadd C ((i +w 1) *w block_result +w (j +w 1)) c11 in
      let! C := vadd C ((i +w 2) *w block_result +w (j +w 0)) c20 in
      let! C := vadd C ((i +w 2) *w block_result +w (j +w 1)) c21 in
      let! C := vadd C ((i +w 3) *w block_result +w (j +w 0)) c30 in
      let! C := vadd C ((i +w 3) *w block_result +w (j +w 1)) c31 in
      Ret C.

    (** src/reference_kernels/kernel.hpp:54-149 *)
    Definition kernel_transposed_blocked_w (A B C : list T) (N x y block_result block_input : nat) : prog T (list T) :=
      let! st :=
        forW 0 N block_input (fun k_block (st : list T * list T * list T) =>
          let '(A_small, B_small, C) := st in
          let! A_small := ktb_copy_w A A_small N x k_block block_result block_input in
          let! B_small := ktb_copy_w B B_small N y k_block block_result block_input in
          let! C := forW 0 block_result 4 (fun i C =>
                      forW 0 block_result 2 (fun j C =>
                        ktb_block_w A_small B_small block_result block_input i j C) C) C in
          Ret (A_small, B_small, C))
          (replicate (block_input *w block_result) nzero, replicate (block_input *w block_result) nzero, C) in
      Ret st.2.

    (** src/variants/components/multiplier.cpp:16-35 *)
    Definition calculate_submatrix_w (N : nat) (A B : list T) (transposed : bool) (block_input : nat)
        (x y block_result : nat) : prog T (list T) :=
      let C := replicate (block_result *w block_result) nzero in
      if negb transposed then kernel_w A B C N x y block_result
      else if (block_input =? 0) || (block_result <? 4) then kernel_transposed_w A B C N x y block_result
      else kernel_transposed_blocked_w A B C N x y block_result block_input.
  End Kernels.

  (** * components/recursive.cpp, single.cpp, static_improved.cpp *)
  Section Recursive.
    Context {T : Type} `{NumOps T}.
    Context (N : nat) (A B : list T) (transposed : bool) (block_input block_result : nat).

    (** src/variants/components/recursive.cpp:16-35 *)
    Definition extract_submatrix_w (C : arr) (C_small : list T) (x y blockSize : nat) : prog T unit :=
      pcatch EOutOfRange (Ret tt)
        (let blocksize_last := 2 *w blockSize in
         forPW 0 blockSize 1 (fun i =>
           forPW 0 blockSize 1 (fun j =>
             let! v := vat C_small (i *w blockSize +w j) in
             wr_at C ((x +w i) *w blocksize_last +w (y +w j)) v))).

    (** src/variants/components/recursive.cpp:37-94 *)
    Fixpoint dist_w (fuel : nat) (path : arr) (x y blockSize : nat) : prog T unit :=
      let leaf := let! C := calculate_submatrix_w N A B transposed block_input x y blockSize in vput path C in
      match fuel with
      | O => leaf
      | S fuel' =>
          if blockSize <=? block_result then leaf
          else
            let n_new := blockSize / 2 in
            let offsets := [(0, 0, 0); (1, n_new, 0); (2, 0, n_new); (3, n_new, n_new)] in
            valloc path (blockSize *w blockSize) nzero ;;;
            parL offsets (fun o =>
              let '(q, ox, oy) := o in
              dist_w fuel' (q :: path) (x +w ox) (y +w oy) n_new ;;;
              let! submatrix := vread (q :: path) (n_new *w n_new) in
              extract_submatrix_w path submatrix ox oy n_new)
      end.
    Definition distribute_recursively_w (path : arr) (x y blockSize : nat) : prog T (list T) :=
      dist_w blockSize path x y blockSize ;;; vread path (blockSize *w blockSize).

    (** src/variants/single.cpp:14-46 *)
    Definition single_matrix_multiply_w (repetitions : nat) : prog T (list T) :=
      forW 0 repetitions 1 (fun r _ => distribute_recursively_w [r] 0 0 N) (replicate (N *w N) nzero).

    (** src/variants/static_improved.cpp:31-40 *)
    Definition insert_submatrix_w (C : arr) (submatrix : list T) (x y n : nat) : prog T unit :=
      forPW 0 n 1 (fun i =>
        forPW 0 n 1 (fun j =>
          let! v := vget submatrix (i *w n +w j) in
          wr C ((x +w i) *w N +w (y +w j)) v)).
    (** src/variants/static_improved.cpp:249-269 *)
    Definition package_task_w (C path : arr) (w : work) : prog T unit :=
      let x := Z.to_nat (wx w) in let y := Z.to_nat (wy w) in let n := Z.to_nat (wN w) in
      let! submatrix := distribute_recursively_w path x y n in
      insert_submatrix_w C submatrix x y n.
    (** src/variants/static_improved.cpp:197-275.  The schedule is that of
        MSchedule.v, which wraps at 2^64. *)
    Definition static_improved_matrix_multiply_w (min_work_size max_work_difference : Z) (rel : Z -> Z -> bool)
        (num_localities repetitions : nat) : prog T (list T) :=
      let compute_localities := if 1 <? num_localities then num_localities - 1 else num_localities in
      match create_schedule (Z.of_nat N) min_work_size max_work_difference rel (S (N * N * N)) compute_localities with
      | Fail e => Err e
      | Ok all =>
          valloc [0] (N *w N) nzero ;;;
          forPW 0 repetitions 1 (fun r =>
            parL (imap (fun k w => (k, w)) (concat all)) (fun kw =>
              package_task_w [0] [kw.1; S r] kw.2)) ;;;
          vread [0] (N *w N)
      end.
  End Recursive.
End Word.
