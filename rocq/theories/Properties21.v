(** C75, C76: the arithmetic of an entry, and the printed figures. *)
From Coq Require Import ZArith Reals Psatz.
From Flocq Require Import Core IEEE754.Binary IEEE754.Bits.
From Verif Require Import Base Conc ConcFacts Num Spec SpecTiled SpecContract MCeil MDouble SpecRound PContract2 PCount PReport PReport2 MReport MApp SpecApp SpecCount SpecReport.

(** C75: the order of summation is one of those listed for the algorithm, chosen
    before the numbers and their type are known. *)
Theorem C75_order_of_each_algorithm o localities v : flag_ok o v -> suitable o localities v ->
  exists q : nat -> nat -> summation,
    (forall i j, i < o_n o -> j < o_n o -> order_ok (o_n o) (multiplies o v) (q i j) /\ order_of o v (q i j)) /\
    forall (T : Type) (ops : NumOps T) (A B : list T), length A = o_n o * o_n o -> length B = o_n o * o_n o ->
      always_tol (tolerated v) (computation o localities v A B)
        (is_matrix (o_n o) (fun i j => entry_in (multiplies o v) (q i j) (o_n o) A B i j)).
Proof. exact (same_order_of o localities v). Qed.
Print Assumptions C75_order_of_each_algorithm.

(** C75: run on unknowns, every algorithm leaves in place (i,j) a sum of exactly
    the products a[i,k] * b[k,j], each once and by increasing k, followed by the
    products of the zero padding; the numbers of operations are as stated. *)
Theorem C75_every_product_once o localities v : flag_ok o v -> suitable o localities v ->
  let N := o_n o in
  always_tol (tolerated v) (computation o localities v (unknowns false N) (unknowns true N)) (fun C =>
    length C = N * N /\ forall i j, i < N -> j < N -> exists t e, C !! (i * N + j) = Some t /\ chunk_additions o v e /\
      summands t = product (multiplies o v) N i j <$> seq 0 (width v N) /\
      multiplications t = width v N /\ additions t = width v N + e).
Proof. exact (count_entries o localities v). Qed.
Print Assumptions C75_every_product_once.

(** C75: 2N^3, the count the report uses, is the number of operations of the
    algorithms without chunks and less than that of the others. *)
Theorem C75_operation_counts o localities v : flag_ok o v -> suitable o localities v ->
  let N := o_n o in
  always_tol (tolerated v) (computation o localities v (unknowns false N) (unknowns true N)) (fun C =>
    total multiplications C = N * N * width v N /\
    N * N * width v N <= total additions C /\
    (never_chunked o v -> total multiplications C + total additions C = 2 * (N * (N * N))) /\
    (always_chunked v -> 0 < N -> 2 * (N * (N * N)) < total multiplications C + total additions C)).
Proof. exact (count_totals o localities v). Qed.
Print Assumptions C75_operation_counts.

Local Open Scope R_scope.
(** C76: the printed figures are the intended quotients up to a few roundings. *)
Theorem C76_figures_accurate o v d dref : (o_algorithm o, v) ∈ accepted -> o_help o = false ->
  (0 < Z.of_nat (o_n o) < 2 ^ 53)%Z -> (0 < Z.of_nat (o_repetitions o) < 2 ^ 53)%Z -> measurable d -> measurable dref ->
  exists average perf reference, printed_figures o d dref = Some (average, perf, reference) /\
    let N := INR (o_n o) in let r := INR (o_repetitions o) in
    within_roundings 1 average (val64 d / r) /\
    within_roundings 6 perf (r * rate (2 * N * N * N) (val64 d)) /\
    (o_check o = false -> reference = None) /\
    (o_check o = true -> exists x, reference = Some x /\ within_roundings 5 x (rate (2 * N * N * N) (val64 dref))).
Proof. exact (figures_accurate o v d dref). Qed.
Print Assumptions C76_figures_accurate.

(** C76: the count of floating-point operations is exact up to 2^53 and has a
    relative error of three roundings beyond. *)
Theorem C76_flops_exact x y k : (0 <= x)%Z -> (0 <= y)%Z -> (0 <= k)%Z -> (0 < x * y * k)%Z -> (2 * x * y * k <= 2 ^ 53)%Z ->
  val64 (flops64 x y k) = IZR (2 * x * y * k).
Proof. exact (flops_exact x y k). Qed.
Print Assumptions C76_flops_exact.
Theorem C76_flops_near x y k : (0 < x < 2 ^ 53)%Z -> (0 < y < 2 ^ 53)%Z -> (0 < k < 2 ^ 53)%Z ->
  within_roundings 3 (flops64 x y k) (2 * IZR x * IZR y * IZR k).
Proof. intros Hx Hy Hk. exact (proj1 (flops_near x y k Hx Hy Hk)). Qed.
Print Assumptions C76_flops_near.

(** C76: no repetitions give an infinite average and zero performance; no time
    gives infinite performance. *)
Theorem C76_no_repetitions x y k d : (0 < x < 2 ^ 53)%Z -> (0 < y < 2 ^ 53)%Z -> (0 < k < 2 ^ 53)%Z -> finite64 d = true -> 0 < val64 d ->
  performance64 0 x y k d = plus_zero /\ average64 0 d = plus_inf.
Proof. exact (no_repetitions x y k d). Qed.
Print Assumptions C76_no_repetitions.
Theorem C76_no_time r x y k : (0 < r < 2 ^ 53)%Z -> (0 < x < 2 ^ 53)%Z -> (0 < y < 2 ^ 53)%Z -> (0 < k < 2 ^ 53)%Z ->
  performance64 r x y k plus_zero = plus_inf.
Proof. exact (no_time r x y k). Qed.
Print Assumptions C76_no_time.

(** C76: algorithms, looped, semi and proposal are the same program for every
    number of repetitions. *)
Theorem C76_repetitions_ignored (T : Type) (ops : NumOps T) (absdiff : T -> T -> T) (small : T -> bool) o v r localities gen :
  (o_algorithm o, v) ∈ accepted -> one_product_only v ->
  main absdiff small (with_repetitions r o) localities gen = main absdiff small o localities gen.
Proof. exact (repetitions_ignored absdiff small o v r localities gen). Qed.
Print Assumptions C76_repetitions_ignored.

(** C76: that the printed performance is the rate of the computation is refuted
    for these algorithms: it is that rate times the number of repetitions. *)
Theorem C76_performance_of_the_run_refuted o v localities d dref :
  (o_algorithm o, v) ∈ accepted -> one_product_only v -> o_help o = false -> flag_ok o v -> suitable o localities v ->
  (0 < Z.of_nat (o_n o) < 2 ^ 53)%Z -> (0 < Z.of_nat (o_repetitions o) < 2 ^ 53)%Z -> measurable d -> measurable dref ->
  exists average perf reference, printed_figures o d dref = Some (average, perf, reference) /\
    always_tol (tolerated v) (computation o localities v (unknowns false (o_n o)) (unknowns true (o_n o))) (fun C =>
      let computed := rate (2 * INR (total multiplications C)) (val64 d) in
      within_roundings 6 perf (INR (o_repetitions o) * computed) /\
      ((1 < o_repetitions o)%nat -> 19 / 10 * computed < val64 perf)).
Proof. exact (overstated o v localities d dref). Qed.
Print Assumptions C76_performance_of_the_run_refuted.

(** C76: benchmark.cpp cuts the time to milliseconds: below one it reports an
    infinite rate, above the rate for the shorter time. *)
Theorem C76_benchmark_fast n t : (0 < n < 2 ^ 53)%Z -> (0 <= t < 1000000)%Z -> bench_gflops64 n t = plus_inf.
Proof. exact (bench_fast n t). Qed.
Print Assumptions C76_benchmark_fast.
Theorem C76_benchmark_rate n t : (0 < n < 2 ^ 53)%Z -> (1000000 <= t < 2 ^ 63)%Z ->
  finite64 (bench_gflops64 n t) = true /\
  let e := rate (2 * IZR n * IZR n * IZR n) (IZR (t / 1000000) / 1000) in
  e * (1 - uro) ^ 5 / (1 + uro) ^ 1 <= val64 (bench_gflops64 n t) <= e * (1 + uro) ^ 5 / (1 - uro) ^ 1.
Proof. exact (bench_near n t). Qed.
Print Assumptions C76_benchmark_rate.
