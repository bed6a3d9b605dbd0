(** The benchmark compiled with -ffast-math (see MFast.v).  Definitions only.  The
    kernels and main are separate translation units (otherExperiments/Makefile:27-28)
    and hand over the matrix through memory, so main sees doubles and not the terms
    of the kernel. *)
From Coq Require Import ZArith String.
From Flocq Require Import Core IEEE754.Binary IEEE754.Bits.
From Verif Require Import MCeil MDouble MContract.
From Verif Require Export MBench MFast.

(** benchmark.cpp:24-130: up to the return of the kernel; [None] is the unknown
    name. *)
Definition bench_product {T} `{NumOps T} (two : T) (n : nat) (p : platform T) (name : string) : prog T (option (list T)) :=
  let buffer := bench_buffer (Z.of_nat n) in
  match buffer (p_A p), buffer (p_ATransposed p), buffer (p_B p), buffer (p_BTransposed p), buffer (p_C p) with
  | Some pA, Some _, Some pB, Some pBt, Some pC =>
      let! s := bench_fill two n (p_junk p) in
      let '(A, _, B, BTransposed, C) := s in
      match bench_kernel p n pA pB pBt pC A B BTransposed C name with
      | None => Ret None
      | Some kernel => let! C := kernel in Ret (Some C)
      end
  | _, _, _, _, _ => Err EOob
  end.

(** benchmark.cpp:143-152: [v] may be printed for the matrix [C].  sqrt stays the
    IEEE operation: GCC replaces it by an approximation only for floats. *)
Definition may_print (n : nat) (C : list binary64) (v : binary64) : Prop :=
  exists e s, bench_check (fun e => e) n (TNum <$> C) = Ret e /\ machine e s /\ v = b64_sqrt rne s.
