(** Model of main of the benchmark, /repo/otherExperiments/benchmark.cpp:20-155.
    Timing and the printed throughput are left out.  The Makefile passes
    -ffast-math, which permits other orders of summation than the ones written;
    see MFast.v and MBenchFast.v. *)
From Coq Require Import String.
From Verif Require Export MExp MExp2 MAlign.

(** What the run depends on besides its arguments: the operation behind
    _mm256_fmadd_pd, or [None] when compiled without __FMA__; the condition of
    multASM.cpp:24; the contents of uninitialised memory; where the compiler puts
    the local arrays (in doubles); the addresses returned by new in lines 24-28
    (in bytes). *)
Record platform (T : Type) := Platform {
  p_fma : option (T -> T -> T -> T); p_asm : bool; p_junk : T;
  p_reg_result : nat; p_reg_BB : nat; p_gpuasm_AA : nat; p_gpuasm_BB : nat;
  p_A : Z; p_ATransposed : Z; p_B : Z; p_BTransposed : Z; p_C : Z }.
Arguments Platform {T}. Arguments p_fma {T}. Arguments p_asm {T}. Arguments p_junk {T}.
Arguments p_reg_result {T}. Arguments p_reg_BB {T}. Arguments p_gpuasm_AA {T}. Arguments p_gpuasm_BB {T}.
Arguments p_A {T}. Arguments p_ATransposed {T}. Arguments p_B {T}. Arguments p_BTransposed {T}. Arguments p_C {T}.

(** The exit status and the number printed in line 152, if it gets there. *)
Record bench_run (T : Type) := BenchRun { b_exit : Z; b_check : option T }.
Arguments BenchRun {T}. Arguments b_exit {T}. Arguments b_check {T}.

Section Bench.
  Context {T : Type} `{NumOps T}.
  (** The literal 2.0 of lines 43-44 and the function of line 150. *)
  Context (two : T) (root : T -> T).

  (** benchmark.cpp:41-60: the five arrays are filled by one pair of loops. *)
  Definition bench_fill (n : nat) (junk : T) : prog T (list T * list T * list T * list T * list T) :=
    forS 0 n 1 (fun i s =>
      forS 0 n 1 (fun j s =>
        let '(A, ATransposed, B, BTransposed, C) := s in
        let! A := vset A (i * n + j) two in
        let! ATransposed := vset ATransposed (j * n + i) two in
        let! B := if i =? j then vset B (i * n + j) none1 else vset B (i * n + j) nzero in
        let! BTransposed := if i =? j then vset BTransposed (j * n + i) none1 else vset BTransposed (j * n + i) nzero in
        let! C := vset C (i * n + j) nzero in
        Ret (A, ATransposed, B, BTransposed, C)) s)
      (replicate (n * n) junk, replicate (n * n) junk, replicate (n * n) junk, replicate (n * n) junk, replicate (n * n) junk).

  (** Kernels use an address only modulo 32 bytes, that is four doubles. *)
  Definition offset_of (address : Z) : nat := Z.to_nat ((address / 8) mod 4).

  (** benchmark.cpp:74-130: the kernel for argv[1]; iter is 1 (line 62), so every
      loop runs once.  [None] is the unknown name. *)
  Definition bench_kernel (p : platform T) (n : nat) (pA pB pBt pC : Z) (A B BTransposed C : list T) (name : string) : option (prog T (list T)) :=
    let fma := match p_fma p with Some f => f | None => no_fma end in
    if (name =? "naive")%string then Some (multNaive A B C n)
    else if (name =? "transposed")%string then Some (multTransposed A BTransposed C n)
    else if (name =? "counter")%string then Some (multCounter A BTransposed C n)
    else if (name =? "exchanged")%string then Some (multExchanged (p_junk p) A B C n)
    else if (name =? "blocked2")%string then Some (multBlocked2 A BTransposed C n)
    else if (name =? "blocked4")%string then Some (multBlocked4 A BTransposed C n)
    else if (name =? "asm")%string then Some (multASM (p_asm p) (offset_of pA) (offset_of pBt) A BTransposed C n)
    else if (name =? "gpu")%string then Some (multGPU (p_junk p) A BTransposed C n)
    else if (name =? "gpuasm")%string then Some (multGPUASM (p_fma p) (p_junk p) (p_gpuasm_AA p) (p_gpuasm_BB p) A BTransposed C n)
    else if (name =? "register")%string then
      Some (match p_fma p with
            | Some f => multRegister_fma f (p_junk p) (p_reg_result p) (p_reg_BB p) A B C n
            | None => multRegister_no_fma (p_junk p) (p_reg_result p) (p_reg_BB p) A B C n
            end)
    else if (name =? "intrinLoop")%string then Some (multIntrinLoop fma (p_junk p) (offset_of pA) (offset_of pB) (offset_of pC) A B C n)
    else None.

  (** benchmark.cpp:143-150 *)
  Definition bench_check (n : nat) (C : list T) : prog T T :=
    let! check :=
      forS 0 n 1 (fun i check =>
        forS 0 n 1 (fun j check =>
          let! x := vget C (i * n + j) in
          let! y := vget C (i * n + j) in
          Ret (nadd check (nmul x y))) check) nzero in
    Ret (root check).

  (** benchmark.cpp:20-155 for the constant n of line 22.  The arrays are the n*n
      doubles from the aligned pointer on; the few doubles behind them count as
      out of bounds.  A null pointer from align is an error when the first
      element is written (for n = 0 nothing is written; n = 0 is not covered).  argv has argc elements; argv[argc], a null pointer, is read by
      strcmp if argc = 0. *)
  Definition bench_main_at (n : nat) (p : platform T) (argv : list string) : prog T (bench_run T) :=
    let buffer := bench_buffer (Z.of_nat n) in
    match buffer (p_A p), buffer (p_ATransposed p), buffer (p_B p), buffer (p_BTransposed p), buffer (p_C p) with
    | Some pA, Some _, Some pB, Some pBt, Some pC =>
        let! s := bench_fill n (p_junk p) in
        let '(A, _, B, BTransposed, C) := s in
        match argv with
        | [] => Err EOob
        | [_] => Ret (BenchRun 0 None)                               (* 67-70 *)
        | _ :: name :: _ =>
            match bench_kernel p n pA pB pBt pC A B BTransposed C name with
            | None => Ret (BenchRun 0 None)                          (* 127-130 *)
            | Some kernel =>
                let! C := kernel in
                let! check := bench_check n C in
                Ret (BenchRun 0 (Some check))                        (* 152-154 *)
            end
        end
    | _, _, _, _, _ => Err EOob
    end.
  (** Line 22: n = 4096 *)
  Definition bench_n : nat := 64 * 64.
  Definition bench_main := bench_main_at bench_n.
End Bench.
