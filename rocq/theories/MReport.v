(** The figures the programs print about a run: flop counts, averages and
    Gflops.  Definitions only.  Not modelled: the clocks (a duration is an
    argument).  MPrint.v says how the figures are written. *)
From Coq Require Import ZArith.
From Flocq Require Import Core IEEE754.Binary IEEE754.Bits.
From Verif Require Import Base Num MCeil MDouble MApp.

Definition div64 (x y : binary64) : binary64 := b64_div rne x y.
(** The literal 1E9, exactly representable. *)
Definition giga : binary64 := double_of 1000000000.

(** 2 * static_cast<double>(x) * static_cast<double>(y) * static_cast<double>(k):
    matrix_multiply.cpp:359-360 with x = y = k = N, kernel_tiled.cpp:537-538 and
    combined.cpp:364-365 with X_size, Y_size, K_size *)
Definition flops64 (x y k : Z) : binary64 :=
  nmul (nmul (nmul (double_of 2) (double_of x)) (double_of y)) (double_of k).
(** flops / 1E9, matrix_multiply.cpp:361, kernel_tiled.cpp:539, combined.cpp:366 *)
Definition gflop64 (x y k : Z) : binary64 := div64 (flops64 x y k) giga.
(** repetitions * gflop / duration, matrix_multiply.cpp:363, kernel_tiled.cpp:542,
    combined.cpp:369 *)
Definition performance64 (repetitions x y k : Z) (duration : binary64) : binary64 :=
  div64 (nmul (double_of repetitions) (gflop64 x y k)) duration.
(** duration / repetitions, matrix_multiply.cpp:231, 329 and 343 *)
Definition average64 (repetitions : Z) (duration : binary64) : binary64 := div64 duration (double_of repetitions).
(** gflop / duration_reference, matrix_multiply.cpp:384 *)
Definition reference64 (N : Z) (duration_reference : binary64) : binary64 := div64 (gflop64 N N N) duration_reference.

(** The figures of one run of the application: average time and performance, and
    the performance of the reference if --check is given.  They are not printed
    with --help (is_root_node stays false) and not for an algorithm that is not
    in the list (main returns before), matrix_multiply.cpp:227-233, 324-351, 357-386. *)
Definition known_algorithm (a : string) : bool :=
  existsb (String.eqb a) ["single"; "pseudodynamic"; "algorithms"; "looped"; "semi"; "combined"; "proposal"; "kernel_test"; "kernel_tiled"]%string.
Definition printed_figures (o : options) (duration duration_reference : binary64) : option (binary64 * binary64 * option binary64) :=
  if o_help o || negb (known_algorithm (o_algorithm o)) then None else
  let N := Z.of_nat (o_n o) in
  let r := Z.of_nat (o_repetitions o) in
  Some (average64 r duration, performance64 r N N N duration,
        if o_check o then Some (reference64 N duration_reference) else None).

(** otherExperiments/benchmark.cpp:62-63: iter is 1, [iter * 2] a size_t *)
Definition bench_flops64 (n : Z) : binary64 :=
  nmul (nmul (nmul (double_of (1 * 2)) (double_of n)) (double_of n)) (double_of n).
(** benchmark.cpp:135: the duration is cut to whole milliseconds; [ticks] is the
    number of nanoseconds (the period of the clock), not negative *)
Definition bench_seconds64 (ticks : Z) : binary64 := div64 (double_of (ticks / 1000000)) (double_of 1000).
(** benchmark.cpp:136-140 *)
Definition bench_gflops64 (n ticks : Z) : binary64 :=
  div64 (div64 (bench_flops64 n) giga) (bench_seconds64 ticks).
