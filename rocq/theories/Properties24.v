(** C81-C84: how numbers are printed, the standard output of the programs, what
    evaluate.py reads from it, and the documented runs. *)
From Coq Require Import ZArith Reals Ascii String Psatz.
From Flocq Require Import Core IEEE754.Binary IEEE754.Bits.
From Verif Require Import Base Conc ConcFacts Num MCeil MDouble SpecRound SpecBench MPrint SpecPrint PPrint PPrint2 PPrint3 MReport MBench PBench64
  MTranscript PTranscript PTranscript2 PTranscript3 PTranscript4 PTranscript5 PTranscript6 PTranscript7 Properties15 Properties10 Properties11 MApp SpecApp SpecReport SpecTranscript.

(** C81: a finite double is printed as a numeral for the P-digit decimal that is
    closest to it. *)
Theorem C81_closest P x : 0 < P -> finite64 x = true ->
  exists v, denotes (show64 P x) v /\ closest_decimal P (val64 x) v /\
    (Rabs (v - val64 x) <= / 2 * bpow ten (1 - Z.of_nat P) * Rabs (val64 x))%R.
Proof. exact (show64_finite P x). Qed.
Print Assumptions C81_closest.
(** C81: it is a multiple E of the unit in the last of the P places of the number,
    within half a unit; of two that are equally close, the even one is printed. *)
Theorem C81_half_to_even P x : 0 < P -> finite64 x = true -> (val64 x <> 0)%R ->
  exists E u, denotes (show64 P x) (IZR E * bpow ten u) /\
    (bpow ten (Z.of_nat P - 1 + u) <= Rabs (val64 x) < bpow ten (Z.of_nat P + u))%R /\
    (Rabs (IZR E * bpow ten u - val64 x) <= / 2 * bpow ten u)%R /\
    ((Rabs (IZR E * bpow ten u - val64 x) = / 2 * bpow ten u)%R -> Z.Even E).
Proof. exact (show64_half_even P x). Qed.
Print Assumptions C81_half_to_even.
(** C81: the form of the numeral.  There are no superfluous zeros, and an exponent
    is used exactly for numbers below 10^-4 and from 10^P, then with one digit
    before the point. *)
Theorem C81_form P x : 0 < P -> finite64 x = true -> (val64 x <> 0)%R ->
  tidy false false (show64 P x) = true /\ no_leading_zero (show64 P x) /\
  exists v, denotes (show64 P x) v /\ (~ occurs "e" (show64 P x) <-> (bpow ten (-4) <= Rabs v < bpow ten (Z.of_nat P))%R) /\
    (occurs "e" (show64 P x) -> one_digit (show64 P x)).
Proof. exact (show64_form P x). Qed.
Print Assumptions C81_form.
(** C81: infinities and NaNs are printed as a text that is no numeral. *)
Theorem C81_no_numeral P x : finite64 x = false -> read (show64 P x) = None.
Proof. exact (show64_not_finite P x). Qed.
Print Assumptions C81_no_numeral.
(** C81: integers of at most P digits are printed exactly. *)
Theorem C81_integers P x z : 0 < P -> (Z.abs z < 10 ^ Z.of_nat P)%Z -> finite64 x = true -> val64 x = IZR z ->
  denotes (show64 P x) (IZR z).
Proof. exact (integer_exact P x z). Qed.
Print Assumptions C81_integers.
(** C81: a decimal of at most P <= 15 digits that was rounded to a double is
    printed as it was. *)
Theorem C81_decimals_survive P w x : 0 < P <= 15 -> short_decimal P w -> finite64 x = true ->
  (Rabs (val64 x - w) <= uro * Rabs w)%R -> denotes (show64 P x) w.
Proof. exact (short_survives P w x). Qed.
Print Assumptions C81_decimals_survive.
(** C81: unsigned integers are printed in full. *)
Theorem C81_unsigned n : denotes (show_int n) (IZR (Z.of_N n)) /\ forall c, occurs c (show_int n) -> as_digit c <> None.
Proof.
  split.
  - exists (Z.of_N n), 0%Z. split; [exact (read_show_int n)|]. cbn. lra.
  - intros c Hc Hd. apply has_spec in Hc. pose proof (uint_has c (N.to_uint n) Hd) as H. unfold show_int in Hc. congruence.
Qed.
Print Assumptions C81_unsigned.
(** C81: that different times are printed differently is refuted. *)
Theorem C81_distinct_refuted : exists x y, finite64 x = true /\ finite64 y = true /\ val64 x <> val64 y /\ show64 6 x = show64 6 y.
Proof. exact same_text. Qed.
Print Assumptions C81_distinct_refuted.

(** C82: the whole output of the benchmark for a name that computes the product:
    the seconds are the measured milliseconds exactly, the rate is right to
    eleven digits, and the check is 8192. *)
Theorem C82_output (p : platform binary64) prg name rest t :
  (forall a, a ∈ [p_A p; p_ATransposed p; p_B p; p_BTransposed p; p_C p] -> good_address bench_n a) ->
  p_fma p = None \/ p_fma p = Some (b64_fma rne) ->
  p_reg_result p mod 4 = 0 /\ p_reg_BB p mod 4 = 0 /\ p_gpuasm_AA p mod 4 = 0 /\ p_gpuasm_BB p mod 4 = 0 ->
  name ∈ right_names ->
  (name ∈ ["register"; "gpuasm"]%string -> is_Some (p_fma p)) -> (name = "asm"%string -> p_asm p = true) ->
  (0 <= t < 1000000000000000000)%Z ->
  always (bench_main (double_of 2) (b64_sqrt rne) p (prg :: name :: rest)) (fun r => b_exit r = 0%Z /\
    exists S G, put (bench_chunks 4096 (prg :: name :: rest) t r) =
      put ["total flops 2n^3 -> 137438953472"; newline; "gflop: 137.438953472"; newline; "seconds: "; S; newline;
           G; " Gflops"; newline; "check: 8192"; newline]%string /\
      denotes S (IZR (t / 1000000) / 1000) /\
      (if (t <? 1000000)%Z then S = "0"%string /\ G = "inf"%string
       else exists g, denotes G g /\
              let e := rate (2 * 4096 * 4096 * 4096) (IZR (t / 1000000) / 1000) in (Rabs (g - e) <= 8 / 10 ^ 12 * e)%R)).
Proof.
  intros H1 H2 H3 H4 H5 H6 Ht. eapply must_mono; [|exact (C67_right_shipped p prg name rest H1 H2 H3 H4 H5 H6)].
  intros r m <-. split; [reflexivity|]. exact (bench_output t Ht (prg :: name :: rest) (double_of 8192) "8192" (proj1 check_text)).
Qed.
Print Assumptions C82_output.
(** C82: blocked4 prints the same with another check. *)
Theorem C82_output_blocked4 (p : platform binary64) prg rest t :
  (forall a, a ∈ [p_A p; p_ATransposed p; p_B p; p_BTransposed p; p_C p] -> good_address bench_n a) ->
  p_reg_result p mod 4 = 0 /\ p_reg_BB p mod 4 = 0 /\ p_gpuasm_AA p mod 4 = 0 /\ p_gpuasm_BB p mod 4 = 0 ->
  (0 <= t < 1000000000000000000)%Z ->
  always (bench_main (double_of 2) (b64_sqrt rne) p (prg :: "blocked4"%string :: rest)) (fun r => b_exit r = 0%Z /\
    exists S G, put (bench_chunks 4096 (prg :: "blocked4"%string :: rest) t r) =
      put ["total flops 2n^3 -> 137438953472"; newline; "gflop: 137.438953472"; newline; "seconds: "; S; newline;
           G; " Gflops"; newline; "check: 4096"; newline]%string /\
      denotes S (IZR (t / 1000000) / 1000) /\
      (if (t <? 1000000)%Z then S = "0"%string /\ G = "inf"%string
       else exists g, denotes G g /\
              let e := rate (2 * 4096 * 4096 * 4096) (IZR (t / 1000000) / 1000) in (Rabs (g - e) <= 8 / 10 ^ 12 * e)%R)).
Proof.
  intros H1 H3 Ht. eapply must_mono; [|exact (proj1 (C67_wrong_reported_refuted bench_n p prg rest bench_n_8 bench_n_small bench_n_256 H1 H3))].
  intros r m <-. split; [reflexivity|]. exact (bench_output t Ht (prg :: "blocked4"%string :: rest) (double_of 4096) "4096" (proj1 (proj2 check_text))).
Qed.
Print Assumptions C82_output_blocked4.
(** C82: without a name, or with an unknown one. *)
Theorem C82_output_nothing (p : platform binary64) argv t :
  (forall a, a ∈ [p_A p; p_ATransposed p; p_B p; p_BTransposed p; p_C p] -> good_address bench_n a) ->
  match argv with [_] => True | _ :: name :: _ => name ∉ right_names /\ name <> "blocked4"%string | [] => False end ->
  exists r, bench_main (double_of 2) (b64_sqrt rne) p argv = Ret r /\ b_exit r = 0%Z /\
    put (bench_chunks 4096 argv t r) = put ["total flops 2n^3 -> 137438953472"; newline;
      (if decide (length argv = 1) then "no" else "unknown"); " implementation specified: exiting"; newline]%string.
Proof.
  intros H1 Ha. exists (BenchRun 0 None). split; [exact (C67_unknown (double_of 2) (b64_sqrt rne) bench_n p argv bench_n_8 H1 Ha)|].
  split; [reflexivity|]. unfold bench_chunks. cbn [b_check]. rewrite (proj1 flops_text).
  destruct argv as [|prg [|name rest]]; [contradiction|reflexivity|reflexivity].
Qed.
Print Assumptions C82_output_nothing.

(** C83: the model of re.search finds what the documentation of regular
    expressions says. *)
Theorem C83_search lit stop s g : (search lit stop s = Some g <-> found lit stop s g) /\
  (search lit stop s = None <-> forall a h, ~ match_at lit stop s a h).
Proof. split; [exact (search_found lit stop s g)|exact (search_not_found lit stop s)]. Qed.
Print Assumptions C83_search.
(** C83: whatever the order in which the pieces of the two streams arrive, the
    script reads the total and the average time of the run. *)
Theorem C83_times o k v verdict l : (o_algorithm o, v) ∈ accepted -> names_ok k -> l ≡ₚ app_chunks o k verdict ->
  total_time (put l) = Some (show64 6 (reported_time v k)) /\
  average_time (put l) = Some (show64 6 (average64 (Z.of_nat (o_repetitions o)) (reported_time v k))).
Proof. intros Hv Hn Hl. split; [exact (find_total o k verdict Hn v l Hv Hl)|exact (find_average o k verdict Hn v l Hv Hl)]. Qed.
Print Assumptions C83_times.
(** C83: and the performance, unless the algorithm prints an inner one. *)
Theorem C83_performance o k v verdict l : (o_algorithm o, v) ∈ accepted -> ~ reports_inner v -> names_ok k -> l ≡ₚ app_chunks o k verdict ->
  let N := Z.of_nat (o_n o) in
  performance (put l) = Some (show64 6 (performance64 (Z.of_nat (o_repetitions o)) N N N (reported_time v k))).
Proof. intros Hv Hi Hn Hl. exact (find_performance o k verdict Hn v l Hv Hi Hl). Qed.
Print Assumptions C83_performance.
(** C83: the number the script plots is r * 2N^3 / 10^9 / duration with an error of
    at most 5.1 millionths. *)
Theorem C83_plotted o k v verdict l : (o_algorithm o, v) ∈ accepted -> o_help o = false -> ~ reports_inner v -> names_ok k ->
  (0 < Z.of_nat (o_n o) < 2 ^ 53)%Z -> (0 < Z.of_nat (o_repetitions o) < 2 ^ 53)%Z -> measurable (reported_time v k) ->
  l ≡ₚ app_chunks o k verdict ->
  exists s x, performance (put l) = Some s /\ denotes s x /\
    let e := (INR (o_repetitions o) * rate (2 * INR (o_n o) * INR (o_n o) * INR (o_n o)) (val64 (reported_time v k)))%R in
    (Rabs (x - e) <= 51 / 10000000 * e)%R.
Proof. exact (plotted o k v verdict l). Qed.
Print Assumptions C83_plotted.
(** C83: that the script reads the performance of the run for every algorithm is
    refuted: for combined and kernel_tiled it reads that of the padded product. *)
Theorem C83_performance_refuted o k v verdict : (o_algorithm o, v) ∈ accepted -> reports_inner v -> names_ok k ->
  exists X Y K, padded_to (Z.of_nat (o_n o)) 420 X /\ padded_to (Z.of_nat (o_n o)) 256 Y /\ padded_to (Z.of_nat (o_n o)) 256 K /\
    performance (put (app_chunks o k verdict)) = Some (show64 6 (performance64 (Z.of_nat (o_repetitions o)) X Y K (c_inner k))).
Proof.
  intros Hv Hi Hn. destruct (inner_sizes o) as (X & Y & K & H1 & H2 & H3 & E). exists X, Y, K. split; [exact H1|]. split; [exact H2|].
  split; [exact H3|]. rewrite <-E. exact (find_inner o k verdict v Hv Hi).
Qed.
Print Assumptions C83_performance_refuted.
(** C83: for a name that is not in the list nothing is found. *)
Theorem C83_unknown o k verdict : o_algorithm o ∉ accepted.*1 -> ~ occurs ":" (o_algorithm o) ->
  total_time (put (app_chunks o k verdict)) = None /\ average_time (put (app_chunks o k verdict)) = None /\
  performance (put (app_chunks o k verdict)) = None.
Proof. exact (unknown_silent o k verdict). Qed.
Print Assumptions C83_unknown.

(** C84: each of the ten runs of evaluate.py returns the product on any number of
    localities, and the script reads its performance. *)
Theorem C84_evaluate rel o localities (gen : nat -> binary64) k : o ∈ evaluate_runs rel -> 0 < localities ->
  (forall i, i < o_n o * o_n o -> finite64 (gen i) = true /\ neg64 (gen i) = false) -> names_ok k -> measurable (c_total k) ->
  app_always (fun _ => False) (main absdiff64 small64 o localities gen) (fun r =>
    r = Outcome 0 false None (gen <$> seq 0 (o_n o * o_n o)) /\
    forall l, l ≡ₚ app_chunks o k (r_check r) -> exists s x, performance (put l) = Some s /\ denotes s x /\
      let e := (INR (o_repetitions o) * rate (2 * INR (o_n o) * INR (o_n o) * INR (o_n o)) (val64 (c_total k)))%R in
      (Rabs (x - e) <= 51 / 10000000 * e)%R).
Proof. exact (evaluate_run rel o localities gen k). Qed.
Print Assumptions C84_evaluate.
(** C84: four of the five commands in README.md return the product. *)
Theorem C84_readme rel name localities (gen : nat -> binary64) : name ∈ ["single"; "kernel_tiled"; "pseudodynamic"; "kernel_test"]%string -> 0 < localities ->
  let o := readme_options rel name in
  (forall i, i < o_n o * o_n o -> finite64 (gen i) = true /\ neg64 (gen i) = false) ->
  app_always (fun _ => False) (main absdiff64 small64 o localities gen) (eq (Outcome 0 false None (gen <$> seq 0 (o_n o * o_n o)))).
Proof. exact (readme_run rel name localities gen). Qed.
Print Assumptions C84_readme.
(** C84: that the fifth, combined, does so is refuted: it is rejected, for B is
    transposed unless --transposed=false is given. *)
Theorem C84_readme_combined_refuted {T} `{NumOps T} (absdiff : T -> T -> T) (small : T -> bool) rel localities gen :
  app_fails (fun e => e = EException) (main absdiff small (readme_options rel "combined") localities gen).
Proof. exact (readme_combined absdiff small rel localities gen). Qed.
Print Assumptions C84_readme_combined_refuted.
