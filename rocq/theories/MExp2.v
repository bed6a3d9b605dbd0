(** Models of the kernels in /repo/otherExperiments that are written with AVX
    intrinsics or inline assembly.  Definitions only.

    Simplifications, in addition to those of MExp.v:
    - A pointer to double has an offset: its address divided by 8, modulo 4
      (doubles are 8-byte aligned, AVX loads and stores need 32 bytes).
    - [fma] is the rounded operation of the instruction used for a*b+c: the
      fused one with __FMA__, otherwise a multiplication followed by an
      addition.  It is a parameter without laws.
    - A __m256d is a tuple of four numbers. *)
From Verif Require Export MExp.

Section Exp2.
  Context {T : Type} `{NumOps T}.

  (** ** Vectors *)

  Definition m256 : Type := T * T * T * T.
  (** _mm256_set1_pd, and _mm256_set_pd with four equal arguments *)
  Definition set1_pd (x : T) : m256 := (x, x, x, x).
  (** _mm256_fmadd_pd(a, b, c), or _mm256_add_pd(_mm256_mul_pd(a, b), c) *)
  Definition fmadd_pd (fma : T -> T -> T -> T) (a b c : m256) : m256 :=
    let '(a0, a1, a2, a3) := a in let '(b0, b1, b2, b3) := b in let '(c0, c1, c2, c3) := c in
    (fma a0 b0 c0, fma a1 b1 c1, fma a2 b2 c2, fma a3 b3 c3).
  (** The branch without __FMA__: temp = a*b; result = temp + c
      (multIntrinLoop.cpp:98-99, multRegister.cpp:79-80). *)
  Definition no_fma (a b c : T) : T := nadd (nmul a b) c.
  (** Element l of the union with double[4] (multASM.cpp:9-12, multGPUASM.cpp:13-16) *)
  Definition out_pd (v : m256) (l : nat) : T :=
    let '(v0, v1, v2, v3) := v in match l with 0 => v0 | 1 => v1 | 2 => v2 | _ => v3 end.

  (** _mm256_load_pd(p + i), p an array [v] with the given offset; also vmovapd *)
  Definition load_pd (off : nat) (v : list T) (i : nat) : prog T m256 :=
    if negb ((off + i) mod 4 =? 0) then Err EMisaligned else
    let! x0 := vget v i in
    let! x1 := vget v (i + 1) in
    let! x2 := vget v (i + 2) in
    let! x3 := vget v (i + 3) in
    Ret (x0, x1, x2, x3).
  (** _mm256_store_pd(p + i, x) *)
  Definition store_pd (off : nat) (v : list T) (i : nat) (x : m256) : prog T (list T) :=
    if negb ((off + i) mod 4 =? 0) then Err EMisaligned else
    let '(x0, x1, x2, x3) := x in
    let! v := vset v i x0 in
    let! v := vset v (i + 1) x1 in
    let! v := vset v (i + 2) x2 in
    vset v (i + 3) x3.
  (** _mm256_stream_pd(C + i, x) *)
  Definition stream_pd (off i : nat) (x : m256) : prog T unit :=
    if negb ((off + i) mod 4 =? 0) then Err EMisaligned else
    let '(x0, x1, x2, x3) := x in
    wr cC i x0 ;;; wr cC (i + 1) x1 ;;; wr cC (i + 2) x2 ;;; wr cC (i + 3) x3.

  (** Arrays of vectors. *)
  Definition gget {E} (v : list E) (i : nat) : prog T E :=
    match v !! i with Some x => Ret x | None => Err EOob end.
  Definition gset {E} (v : list E) (i : nat) (x : E) : prog T (list E) :=
    if i <? length v then Ret (<[i := x]> v) else Err EOob.

  (** ** multIntrinLoop.cpp.  The local arrays are alignas(32). *)

  (** multIntrinLoop.cpp:23-30 *)
  Definition intrin_zero (bx by_ : nat) (result : list T) : prog T (list T) :=
    forS 0 bx 1 (fun ii r => forS 0 by_ 4 (fun jj r => store_pd 0 r (ii * by_ + jj) (set1_pd nzero)) r) result.
  (** multIntrinLoop.cpp:34-43, 45-54: a strip of b rows and w columns starting at (row, col) *)
  Definition intrin_copy (off : nat) (M : list T) (n row col b w : nat) (S : list T) : prog T (list T) :=
    forS 0 b 1 (fun ii s =>
      forS 0 w 4 (fun k s =>
        let! x := load_pd off M ((row + ii) * n + (col + k)) in
        store_pd 0 s (ii * w + k) x) s) S.
  (** multIntrinLoop.cpp:67-71: loading the registers.  REG_BLOCK_II = 4,
      REG_BLOCK_JJ_SIZE = 16, REG_BLOCK_JJ_STEP = 4, REG_BLOCK_II_STRIDE = 1. *)
  Definition intrin_load (by_ ii jj : nat) (result : list T) (reg : list m256) : prog T (list m256) :=
    forS 0 16 4 (fun jjj reg =>
      forS 0 4 1 (fun iii reg =>
        let! x := load_pd 0 result ((ii + iii) * by_ + jj + jjj) in
        gset reg (jjj * 1 + iii) x) reg) reg.
  (** multIntrinLoop.cpp:75-87: Aregister *)
  Definition intrin_A (junk : T) (AA : list T) (kc ii k : nat) : prog T (list m256) :=
    forS 0 4 1 (fun iii s =>
      let! a := vget AA ((ii + iii) * kc + k + 0) in
      gset s iii (set1_pd a)) (replicate 4 (set1_pd junk)).
  (** multIntrinLoop.cpp:73-105 *)
  Definition intrin_k (fma : T -> T -> T -> T) (junk : T) (AA BB : list T) (by_ kc ii jj : nat) (reg : list m256) : prog T (list m256) :=
    forS 0 kc 1 (fun k reg =>
      let! Aregister := intrin_A junk AA kc ii k in
      forS 0 16 4 (fun jjj reg =>
        let! Bregister1 := load_pd 0 BB ((k + 0) * by_ + (jj + jjj)) in
        forS 0 4 1 (fun iii reg =>
          let! a := gget Aregister iii in
          let! r := gget reg (jjj * 1 + iii) in
          gset reg (jjj * 1 + iii) (fmadd_pd fma a Bregister1 r)) reg) reg) reg.
  (** multIntrinLoop.cpp:107-111 *)
  Definition intrin_store (by_ ii jj : nat) (reg : list m256) (result : list T) : prog T (list T) :=
    forS 0 4 1 (fun iii result =>
      forS 0 16 4 (fun jjj result =>
        let! x := gget reg (jjj * 1 + iii) in
        store_pd 0 result ((ii + iii) * by_ + jj + jjj) x) result) result.
  (** multIntrinLoop.cpp:65-111: one iteration of the ii and jj loops *)
  Definition intrin_tile (fma : T -> T -> T -> T) (junk : T) (AA BB : list T) (by_ kc ii jj : nat) (result : list T) : prog T (list T) :=
    let! reg := intrin_load by_ ii jj result (replicate 16 (set1_pd junk)) in
    let! reg := intrin_k fma junk AA BB by_ kc ii jj reg in
    intrin_store by_ ii jj reg result.
  (** multIntrinLoop.cpp:32-114: one iteration of the kBlock loop *)
  Definition intrin_chunk (fma : T -> T -> T -> T) (junk : T) (offA offB : nat) (A B : list T) (n bx by_ kc i j kBlock : nat) (result : list T) : prog T (list T) :=
    let! AA := intrin_copy offA A n i kBlock bx kc (replicate (bx * kc) junk) in
    let! BB := intrin_copy offB B n kBlock j kc by_ (replicate (by_ * kc) junk) in
    forS 0 bx 4 (fun ii result => forS 0 by_ 16 (fun jj result => intrin_tile fma junk AA BB by_ kc ii jj result) result) result.
  (** multIntrinLoop.cpp:116-122 *)
  Definition stream_block (offC n i j bx by_ : nat) (result : list T) : prog T unit :=
    forP 0 bx 1 (fun ii =>
      forP 0 by_ 4 (fun jj =>
        let! x := load_pd 0 result (ii * by_ + jj) in
        stream_pd offC ((i + ii) * n + (j + jj)) x)).
  (** multIntrinLoop.cpp:21-122: one iteration of the i and j loops *)
  Definition intrin_block (fma : T -> T -> T -> T) (junk : T) (offA offB offC : nat) (A B : list T) (n bx by_ kc i j : nat) : prog T unit :=
    let! result := intrin_zero bx by_ (replicate (bx * by_) junk) in
    let! result := forS 0 n kc (intrin_chunk fma junk offA offB A B n bx by_ kc i j) result in
    stream_block offC n i j bx by_ result.
  (** multIntrinLoop.cpp:13-127, with BLOCKSIZEX = bx, BLOCKSIZEY = by_, KCHUNK = kc *)
  Definition multIntrinLoop_with (bx by_ kc : nat) (fma : T -> T -> T -> T) (junk : T) (offA offB offC : nat) (A B C : list T) (n : nat) : prog T (list T) :=
    with_C C (parL (rng 0 n bx) (fun i => forP 0 n by_ (intrin_block fma junk offA offB offC A B n bx by_ kc i))).
  (** multIntrinLoop.cpp:8-11 *)
  Definition multIntrinLoop := multIntrinLoop_with 128 128 128.

  (** ** multRegister.cpp.  The local arrays have no alignas; their offsets are
      parameters.  AA is only read element by element. *)

  (** multRegister.cpp:60-64: loading the registers; II_BLOCKSIZE = 8, JJ_BLOCKSIZE = 2 *)
  Definition register_load (offR by_ ii jj : nat) (result : list T) (reg : list m256) : prog T (list m256) :=
    forS 0 8 1 (fun iii reg =>
      forS 0 2 1 (fun jjj reg =>
        let! x := load_pd offR result ((ii + iii) * by_ + jj + (jjj * 4)) in
        gset reg (iii * 2 + jjj) x) reg) reg.
  (** multRegister.cpp:66-83.  [idx iii jjj] is the register that is updated:
      iii * JJ_BLOCKSIZE + jjj in line 77 (with __FMA__), jjj * JJ_BLOCKSIZE + iii
      in line 80 (without). *)
  Definition register_k (fma : T -> T -> T -> T) (idx : nat -> nat -> nat) (offBB : nat) (AA BB : list T) (by_ kc ii jj : nat) (reg : list m256) : prog T (list m256) :=
    forS 0 kc 1 (fun k reg =>
      forS 0 8 1 (fun iii reg =>
        let! a := vget AA ((ii + iii) * kc + (k + 0)) in
        forS 0 2 1 (fun jjj reg =>
          let! Bregister1 := load_pd offBB BB ((k + 0) * by_ + jj + (jjj * 4)) in
          let! r := gget reg (idx iii jjj) in
          gset reg (idx iii jjj) (fmadd_pd fma (set1_pd a) Bregister1 r)) reg) reg) reg.
  (** multRegister.cpp:160-167 *)
  Definition register_store (offR by_ ii jj : nat) (reg : list m256) (result : list T) : prog T (list T) :=
    forS 0 8 1 (fun iii result =>
      forS 0 2 1 (fun jjj result =>
        let! x := gget reg (iii * 2 + jjj) in
        store_pd offR result ((ii + iii) * by_ + jj + (jjj * 4)) x) result) result.
  (** multRegister.cpp:56-168: one iteration of the ii and jj loops *)
  Definition register_tile (fma : T -> T -> T -> T) (idx : nat -> nat -> nat) (junk : T) (offR offBB : nat) (AA BB : list T) (by_ kc ii jj : nat) (result : list T) : prog T (list T) :=
    let! reg := register_load offR by_ ii jj result (replicate 16 (set1_pd junk)) in
    let! reg := register_k fma idx offBB AA BB by_ kc ii jj reg in
    register_store offR by_ ii jj reg result.
  (** multRegister.cpp:30-170: one iteration of the kBlock loop.  BB (lines 41-46)
      holds the rows kBlock .. kBlock+kc-1 and the columns j .. j+by_-1 of B. *)
  Definition register_chunk (fma : T -> T -> T -> T) (idx : nat -> nat -> nat) (junk : T) (offR offBB : nat) (A B : list T) (n bx by_ kc i j kBlock : nat) (result : list T) : prog T (list T) :=
    let! AA := copy_rows A n i kBlock bx kc (replicate (bx * kc) junk) in
    let! BB := copy_rows B n kBlock j kc by_ (replicate (by_ * kc) junk) in
    forS 0 bx 8 (fun ii result => forS 0 by_ (2 * 4) (fun jj result => register_tile fma idx junk offR offBB AA BB by_ kc ii jj result) result) result.
  (** multRegister.cpp:21-177: one iteration of the i and j loops *)
  Definition register_block (fma : T -> T -> T -> T) (idx : nat -> nat -> nat) (junk : T) (offR offBB : nat) (A B : list T) (n bx by_ kc i j : nat) : prog T unit :=
    let! result := zero_block bx by_ (replicate (bx * by_) junk) in
    let! result := forS 0 n kc (register_chunk fma idx junk offR offBB A B n bx by_ kc i j) result in
    write_block n i j bx by_ result.
  Definition multRegister_with (bx by_ kc : nat) (fma : T -> T -> T -> T) (idx : nat -> nat -> nat) (junk : T) (offR offBB : nat) (A B C : list T) (n : nat) : prog T (list T) :=
    with_C C (parL (rng 0 n bx) (fun i => forP 0 n by_ (register_block fma idx junk offR offBB A B n bx by_ kc i))).
  (** multRegister.cpp:12-182 with __FMA__ and the macros of lines 7-10 *)
  Definition multRegister_fma := fun fma => multRegister_with 256 256 64 fma (fun iii jjj => iii * 2 + jjj).
  (** The same without __FMA__ *)
  Definition multRegister_no_fma := multRegister_with 256 256 64 no_fma (fun iii jjj => jjj * 2 + iii).

  (** ** multASM.cpp *)

  (** multASM.cpp:25-59: one pass through the assembler loop.  AT&T operand
      order: "vmulpd ymm1, ymm2, ymm3" is ymm3 = ymm2 * ymm1 and
      "vaddpd ymm3, ymm4, ymm4" is ymm4 = ymm4 + ymm3. *)
  Definition asm_step (offA offB : nat) (A B : list T) (indexA indexB k : nat) (ymm4 : m256) : prog T m256 :=
    let! ymm1 := load_pd offA A (indexA + k) in
    let! ymm2 := load_pd offB B (indexB + k) in
    let '(a0, a1, a2, a3) := ymm1 in let '(b0, b1, b2, b3) := ymm2 in let '(c0, c1, c2, c3) := ymm4 in
    Ret (nadd c0 (nmul b0 a0), nadd c1 (nmul b1 a1), nadd c2 (nmul b2 a2), nadd c3 (nmul b3 a3)).
  (** multASM.cpp:18-71: one iteration of the i and j loops.  The condition is
      tested at the end of the loop (lines 47-49), so the first pass is
      unconditional.  The 32-bit signed comparison with n is the comparison of
      natural numbers, since n < 2^31 (larger matrices do not fit in memory).
      Not modelled: the asm statement has no "memory" clobber, so the compiler
      may move stores to A and B across it; there are none in this function.
      [asm_supported] is the condition of line 24; it is false for gcc 4.9,
      although the message of line 61 asks for gcc >= 4.9. *)
  Definition asm_cell (asm_supported : bool) (offA offB : nat) (A B : list T) (n i j : nat) : prog T unit :=
    let! temp1 :=
      if asm_supported then foldP (0 :: rng 4 n 4) (asm_step offA offB A B (i * n) (j * n)) (set1_pd nzero)
      else Ret (set1_pd nzero) in
    let! result1 := forS 0 4 1 (fun l result1 => Ret (nadd result1 (out_pd temp1 l))) nzero in
    wr cC (i * n + j) result1.
  (** multASM.cpp:7-74 *)
  Definition multASM (asm_supported : bool) (offA offB : nat) (A B C : list T) (n : nat) : prog T (list T) :=
    with_C C (parL (rng 0 n 1) (fun i => forP 0 n 1 (asm_cell asm_supported offA offB A B n i))).

  (** ** multGPUASM.cpp (its second half, lines 280-425, is commented out).
      The local arrays have no alignas; the sixteen variables resultChunk11 ..
      resultChunk44 are the list [ch], resultChunk(r+1)(c+1) at 4*r+c. *)

  (** multGPUASM.cpp:78-118.  The sixteen statements of lines 95-113 are loops over
      r and c in textual order.  Without __FMA__ ([fma = None]) only the loads remain. *)
  Definition gpuasm_k (fma : option (T -> T -> T -> T)) (offAA offBB : nat) (AA BB : list T) (kc ii jj : nat) (ch : list m256) : prog T (list m256) :=
    forS 0 kc 4 (fun k ch =>
      let! AA1 := load_pd offAA AA ((ii + 0) * kc + k) in
      let! AA2 := load_pd offAA AA ((ii + 1) * kc + k) in
      let! AA3 := load_pd offAA AA ((ii + 2) * kc + k) in
      let! AA4 := load_pd offAA AA ((ii + 3) * kc + k) in
      let! BB1 := load_pd offBB BB ((jj + 0) * kc + k) in
      let! BB2 := load_pd offBB BB ((jj + 1) * kc + k) in
      let! BB3 := load_pd offBB BB ((jj + 2) * kc + k) in
      let! BB4 := load_pd offBB BB ((jj + 3) * kc + k) in
      match fma with
      | None => Ret ch
      | Some fma =>
          forS 0 4 1 (fun r ch =>
            forS 0 4 1 (fun c ch =>
              let! a := gget [AA1; AA2; AA3; AA4] r in
              let! b := gget [BB1; BB2; BB3; BB4] c in
              let! x := gget ch (r * 4 + c) in
              gset ch (r * 4 + c) (fmadd_pd fma a b x)) ch) ch
      end) ch.
  (** multGPUASM.cpp:220-264; the sixteen statements as before *)
  Definition gpuasm_sum (b ii jj : nat) (ch : list m256) (result : list T) : prog T (list T) :=
    forS 0 4 1 (fun kk result =>
      forS 0 4 1 (fun r result =>
        forS 0 4 1 (fun c result =>
          let! x := gget ch (r * 4 + c) in
          add_to result ((ii + r) * b + jj + c) (out_pd x kk)) result) result) result.
  (** multGPUASM.cpp:52-264: one iteration of the ii and jj loops *)
  Definition gpuasm_tile (fma : option (T -> T -> T -> T)) (offAA offBB : nat) (AA BB : list T) (b kc ii jj : nat) (result : list T) : prog T (list T) :=
    let! ch := gpuasm_k fma offAA offBB AA BB kc ii jj (replicate 16 (set1_pd nzero)) in
    gpuasm_sum b ii jj ch result.
  (** multGPUASM.cpp:32-267: one iteration of the kBlock loop *)
  Definition gpuasm_chunk (fma : option (T -> T -> T -> T)) (junk : T) (offAA offBB : nat) (A B : list T) (n b kc i j kBlock : nat) (result : list T) : prog T (list T) :=
    let! AA := copy_rows A n i kBlock b kc (replicate (b * kc) junk) in
    let! BB := copy_rows B n j kBlock b kc (replicate (b * kc) junk) in
    forS 0 b 4 (fun ii result => forS 0 b 4 (fun jj result => gpuasm_tile fma offAA offBB AA BB b kc ii jj result) result) result.
  (** multGPUASM.cpp:24-273: one iteration of the i and j loops *)
  Definition gpuasm_block (fma : option (T -> T -> T -> T)) (junk : T) (offAA offBB : nat) (A B : list T) (n b kc i j : nat) : prog T unit :=
    let! result := zero_block b b (replicate (b * b) junk) in
    let! result := forS 0 n kc (gpuasm_chunk fma junk offAA offBB A B n b kc i j) result in
    write_block n i j b b result.
  Definition multGPUASM_with (b kc : nat) (fma : option (T -> T -> T -> T)) (junk : T) (offAA offBB : nat) (A B C : list T) (n : nat) : prog T (list T) :=
    with_C C (parL (rng 0 n b) (fun i => forP 0 n b (gpuasm_block fma junk offAA offBB A B n b kc i))).
  (** multGPUASM.cpp:11-277 with the macros of lines 7-9 *)
  Definition multGPUASM := multGPUASM_with 256 256.
End Exp2.
