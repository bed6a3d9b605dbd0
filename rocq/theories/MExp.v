(** Models of the kernels in /repo/otherExperiments that are written with
    plain loops.  Definitions only.

    Simplifications, for all kernels of this file and MExp2.v:
    - A and B are read-only, do not overlap C, and are lists (the buffers of
      benchmark.cpp:24-39 are distinct and never written by the kernels);
      C is a shared array that holds some contents on entry.
    - n is a uint32_t and every index is computed in size_t, so no index
      computation can wrap; indices are natural numbers.
    - [#pragma omp parallel for] is a set of tasks, one per iteration, run in
      any interleaving (OpenMP gives several iterations to one thread, which
      allows fewer interleavings); omp_set_num_threads has no effect here.
    - A local array without initialiser starts with an arbitrary value [junk]
      in every cell.
    - The compiler options -ffast-math and -mfma (Makefile), which allow the
      compiler to reorder sums and to fuse a*b+c, are the subject of MFast.v:
      there the functions below run on terms instead of numbers. *)
From Verif Require Export Conc Num.

(** The values of [#define]s are parameters of the functions below; the
    definitions at the end of each section insert the values of the code. *)
Section Exp.
  Context {T : Type} `{NumOps T}.

  (** The buffer C and its contents on entry (benchmark.cpp:28, 58). *)
  Definition cC : arr := [0].
  Definition vload (a : arr) (L : list T) : prog T unit :=
    foldP (zip (seq 0 (length L)) L) (fun ix _ => Alloc (a, ix.1) (VD ix.2) (Ret tt)) tt.
  (** Run a kernel on a buffer C and look at the contents of C afterwards. *)
  Definition with_C (C : list T) (kernel : prog T unit) : prog T (list T) :=
    vload cC C ;;; kernel ;;; vread cC (length C).

  (** ** multNaive.cpp *)

  (** multNaive.cpp:8-12: one iteration of the parallel loop *)
  Definition naive_row (A B : list T) (n i : nat) : prog T unit :=
    forP 0 n 1 (fun j =>
      forP 0 n 1 (fun k =>
        let! a := vget A (i * n + k) in
        let! b := vget B (k * n + j) in
        let! c := rd cC (i * n + j) in
        wr cC (i * n + j) (nadd c (nmul a b)))).
  (** multNaive.cpp:4-14 *)
  Definition multNaive (A B C : list T) (n : nat) : prog T (list T) :=
    with_C C (parL (rng 0 n 1) (naive_row A B n)).

  (** ** multTransposed.cpp:4-12 (no pragma: sequential); the rest of the file
      is commented out. *)
  Definition multTransposed (A B C : list T) (n : nat) : prog T (list T) :=
    with_C C (forP 0 n 1 (fun i =>
      forP 0 n 1 (fun j =>
        forP 0 n 1 (fun k =>
          let! a := vget A (i * n + k) in
          let! b := vget B (j * n + k) in
          let! c := rd cC (i * n + j) in
          wr cC (i * n + j) (nadd c (nmul a b)))))).

  (** ** multCounter.cpp *)

  (** multCounter.cpp:8-14 *)
  Definition counter_row (A B : list T) (n i : nat) : prog T unit :=
    forP 0 n 1 (fun j =>
      let! result :=
        forS 0 n 1 (fun k result =>
          let! a := vget A (i * n + k) in
          let! b := vget B (j * n + k) in
          Ret (nadd result (nmul a b))) nzero in
      wr cC (i * n + j) result).
  (** multCounter.cpp:4-16 *)
  Definition multCounter (A B C : list T) (n : nat) : prog T (list T) :=
    with_C C (parL (rng 0 n 1) (counter_row A B n)).

  (** ** multBlocked.cpp *)

  (** multBlocked.cpp:19-41: one iteration of the i and j loops of multBlocked2 *)
  Definition blocked2_tile (A B : list T) (n i j : nat) : prog T unit :=
    let! r :=
      forS 0 n 1 (fun k (r : T * T * T * T) =>
        let '(result1, result2, result3, result4) := r in
        let! a := vget A (i * n + k) in
        let! b := vget B (j * n + k) in
        let result1 := nadd result1 (nmul a b) in
        let! a := vget A ((i + 1) * n + k) in
        let! b := vget B (j * n + k) in
        let result2 := nadd result2 (nmul a b) in
        let! a := vget A (i * n + k) in
        let! b := vget B ((j + 1) * n + k) in
        let result3 := nadd result3 (nmul a b) in
        let! a := vget A ((i + 1) * n + k) in
        let! b := vget B ((j + 1) * n + k) in
        let result4 := nadd result4 (nmul a b) in
        Ret (result1, result2, result3, result4)) (nzero, nzero, nzero, nzero) in
    let '(result1, result2, result3, result4) := r in
    wr cC (i * n + j) result1 ;;;
    wr cC ((i + 1) * n + j) result2 ;;;
    wr cC (i * n + (j + 1)) result3 ;;;
    wr cC ((i + 1) * n + (j + 1)) result4.
  (** multBlocked.cpp:4-43 *)
  Definition multBlocked2 (A B C : list T) (n : nat) : prog T (list T) :=
    with_C C (parL (rng 0 n 2) (fun i => forP 0 n 2 (blocked2_tile A B n i))).

  (** multBlocked.cpp:63-145: one iteration of the i and j loops of
      multBlocked4.  The sixteen variables result1 .. result16 are the list
      [r]; result(4*di+dj+1) belongs to row i+di and column j+dj; the sixteen
      statements of lines 94-112 and of 127-145 are loops over di, dj in
      textual order. *)
  Definition blocked4_tile (A B : list T) (n i j : nat) : prog T unit :=
    let! r :=
      forS 0 n 4 (fun k r =>
        forS 0 4 1 (fun di r =>
          forS 0 4 1 (fun dj r =>
            let! a := vget A ((i + di) * n + k) in
            let! b := vget B ((j + dj) * n + k) in
            let! x := vget r (di * 4 + dj) in
            vset r (di * 4 + dj) (nadd x (nmul a b))) r) r) (replicate 16 nzero) in
    forP 0 4 1 (fun di =>
      forP 0 4 1 (fun dj =>
        let! x := vget r (di * 4 + dj) in
        wr cC ((i + di) * n + (j + dj)) x)).
  (** multBlocked.cpp:47-148 *)
  Definition multBlocked4 (A B C : list T) (n : nat) : prog T (list T) :=
    with_C C (parL (rng 0 n 4) (fun i => forP 0 n 4 (blocked4_tile A B n i))).

  (** ** Parts shared by the blocked kernels *)

  (** result[x] += v *)
  Definition add_to (result : list T) (x : nat) (v : T) : prog T (list T) :=
    let! r := vget result x in vset result x (nadd r v).

  (** Zeroing of the local result block: multGPU.cpp:20-24,
      multExchanged.cpp:22-26, multRegister.cpp:23-27, multGPUASM.cpp:26-30. *)
  Definition zero_block (bx by_ : nat) (result : list T) : prog T (list T) :=
    forS 0 bx 1 (fun ii r => forS 0 by_ 1 (fun jj r => vset r (ii * by_ + jj) nzero) r) result.

  (** Copy of a strip of a matrix whose rows belong to the block:
      multGPU.cpp:28-33 and 35-40, multExchanged.cpp:30-35,
      multRegister.cpp:32-39, multGPUASM.cpp:34-39 and 41-46. *)
  Definition copy_rows (M : list T) (n row kBlock b kc : nat) (S : list T) : prog T (list T) :=
    forS 0 b 1 (fun ii s =>
      forS 0 kc 1 (fun k s =>
        let! v := vget M ((row + ii) * n + kBlock + k) in
        vset s (ii * kc + k) v) s) S.

  (** Writing the block back: multGPU.cpp:69-73, multExchanged.cpp:101-105,
      multRegister.cpp:173-177, multGPUASM.cpp:269-273. *)
  Definition write_block (n i j bx by_ : nat) (result : list T) : prog T unit :=
    forP 0 bx 1 (fun ii =>
      forP 0 by_ 1 (fun jj =>
        let! x := vget result (ii * by_ + jj) in
        wr cC ((i + ii) * n + (j + jj)) x)).

  (** ** multGPU.cpp *)

  (** multGPU.cpp:50-64: one iteration of the ii and jj loops *)
  Definition gpu_cell (junk : T) (AA BB : list T) (b kc ii jj : nat) (result : list T) : prog T (list T) :=
    let! chunk := forS 0 4 1 (fun kk s => vset s kk nzero) (replicate 4 junk) in
    let! chunk :=
      forS 0 kc 4 (fun k s =>
        forS 0 4 1 (fun kk s =>
          let! x := vget AA ((ii + 0) * kc + k + kk) in
          let! y := vget BB ((jj + 0) * kc + k + kk) in
          add_to s kk (nmul x y)) s) chunk in
    forS 0 4 1 (fun kk r =>
      let! x := vget chunk kk in
      add_to r ((ii + 0) * b + jj + 0) x) result.
  (** multGPU.cpp:26-67: one iteration of the kBlock loop *)
  Definition gpu_chunk (junk : T) (A B : list T) (n i j b kc kBlock : nat) (result : list T) : prog T (list T) :=
    let! AA := copy_rows A n i kBlock b kc (replicate (b * kc) junk) in
    let! BB := copy_rows B n j kBlock b kc (replicate (b * kc) junk) in
    forS 0 b 1 (fun ii r => forS 0 b 1 (fun jj r => gpu_cell junk AA BB b kc ii jj r) r) result.
  (** multGPU.cpp:18-73: one iteration of the i and j loops *)
  Definition gpu_block (junk : T) (A B : list T) (n b kc i j : nat) : prog T unit :=
    let! result := zero_block b b (replicate (b * b) junk) in
    let! result := forS 0 n kc (gpu_chunk junk A B n i j b kc) result in
    write_block n i j b b result.
  (** multGPU.cpp:10-77, with BLOCKSIZE = b and KCHUNK = kc *)
  Definition multGPU_with (b kc : nat) (junk : T) (A B C : list T) (n : nat) : prog T (list T) :=
    with_C C (parL (rng 0 n b) (fun i => forP 0 n b (gpu_block junk A B n b kc i))).
  (** multGPU.cpp:6-8: the values of the macros *)
  Definition multGPU := multGPU_with 128 128.

  (** ** multExchanged.cpp *)

  (** multExchanged.cpp:37-42: the strip of B, stored transposed *)
  Definition exchanged_copy_B (B : list T) (n j kBlock by_ kc : nat) (BB : list T) : prog T (list T) :=
    forS 0 kc 1 (fun k s =>
      forS 0 by_ 1 (fun jj s =>
        let! v := vget B ((kBlock + k) * n + (j + jj)) in
        vset s (jj * kc + k) v) s) BB.
  (** multExchanged.cpp:47-65: the four arrays Aregister1 .. Aregister4 *)
  Definition exchanged_reg (junk : T) (AA : list T) (kc ii k r : nat) : prog T (list T) :=
    forS 0 4 1 (fun kk s => let! v := vget AA ((ii + r) * kc + k + kk) in vset s kk v) (replicate 4 junk).
  (** multExchanged.cpp:44-98.  The sixteen statements of lines 75-93 are
      loops over the register r and the column c in textual order. *)
  Definition exchanged_inner (junk : T) (AA BB : list T) (bx by_ kc : nat) (result : list T) : prog T (list T) :=
    forS 0 bx 4 (fun ii result =>
      forS 0 kc 4 (fun k result =>
        let! R1 := exchanged_reg junk AA kc ii k 0 in
        let! R2 := exchanged_reg junk AA kc ii k 1 in
        let! R3 := exchanged_reg junk AA kc ii k 2 in
        let! R4 := exchanged_reg junk AA kc ii k 3 in
        forS 0 by_ 4 (fun jj result =>
          forS 0 4 1 (fun kk result =>
            foldP [(R1, 0); (R2, 1); (R3, 2); (R4, 3)] (fun '(R, r) result =>
              forS 0 4 1 (fun c result =>
                let! x := vget R kk in
                let! y := vget BB ((jj + c) * kc + (k + kk)) in
                add_to result ((ii + r) * by_ + jj + c) (nmul x y)) result) result) result) result) result) result.
  (** multExchanged.cpp:28-99: one iteration of the kBlock loop *)
  Definition exchanged_chunk (junk : T) (A B : list T) (n i j bx by_ kc kBlock : nat) (result : list T) : prog T (list T) :=
    let! AA := copy_rows A n i kBlock bx kc (replicate (bx * kc) junk) in
    let! BB := exchanged_copy_B B n j kBlock by_ kc (replicate (by_ * kc) junk) in
    exchanged_inner junk AA BB bx by_ kc result.
  (** multExchanged.cpp:20-105: one iteration of the i and j loops *)
  Definition exchanged_block (junk : T) (A B : list T) (n bx by_ kc i j : nat) : prog T unit :=
    let! result := zero_block bx by_ (replicate (bx * by_) junk) in
    let! result := forS 0 n kc (exchanged_chunk junk A B n i j bx by_ kc) result in
    write_block n i j bx by_ result.
  (** multExchanged.cpp:12-110, with BLOCKSIZEX = bx, BLOCKSIZEY = by_, KCHUNK = kc *)
  Definition multExchanged_with (bx by_ kc : nat) (junk : T) (A B C : list T) (n : nat) : prog T (list T) :=
    with_C C (parL (rng 0 n bx) (fun i => forP 0 n by_ (exchanged_block junk A B n bx by_ kc i))).
  (** multExchanged.cpp:7-10: the values of the macros *)
  Definition multExchanged := multExchanged_with 128 128 128.
End Exp.
