(** Concrete cases for Properties24.  The output shown in the README files of the
    repository is what the model prints. *)
From Coq Require Import ZArith Reals Ascii String Psatz.
From Flocq Require Import Core IEEE754.Binary IEEE754.Bits.
From Verif Require Import Base Conc ConcFacts SpecRound SpecBench MCeil MDouble MPrint SpecPrint MReport MBench PBench64 MTranscript PCeil Examples10 Examples11 Examples15 Examples21 Properties24 MApp SpecApp SpecReport SpecTranscript.
Local Open Scope string_scope.

(** a / b rounded, as the compiler does with a literal *)
Definition dec (a b : Z) : binary64 := div64 (double_of a) (double_of b).

(** * Numbers *)
Example ex_show : map (show64 6) [dec 1 10; dec 2 3; dec (-2) 3; dec 1274106 100000; double_of 1000000; double_of 999999; dec 1999999 2; dec 1 8192; dec 1 100000; dec 1 0; dec (-1) 0; dec 0 (-1)] =
  ["0.1"; "0.666667"; "-0.666667"; "12.7411"; "1e+06"; "999999"; "1e+06"; "0.00012207"; "1e-05"; "inf"; "-inf"; "-0"]%string.
Proof. vm_compute. reflexivity. Qed.
(** The default of --max-relative-work-difference in the usage text in README.md:
    boost prints 17 digits. *)
Example ex_show17 : show64 17 (dec 5 100) = "0.050000000000000003".
Proof. vm_compute. reflexivity. Qed.
Example ex_read : map read ["12.7411"; "1e+06"; "-1e-05"; "137438953472"; "inf"; "1."; ".5"; "1e5"] =
  [Some (127411, -4); Some (1, 6); Some (-1, -5); Some (137438953472, 0); None; None; None; None]%Z.
Proof. vm_compute. reflexivity. Qed.
Example ex_C81_closest := C81_closest 6 (dec 2 3) ltac:(lia) ltac:(vm_compute; reflexivity).
(** Two ties, and numerals with and without an exponent *)
Example ex_ties : map (show64 6) [dec 200001 2; dec 200003 2] = ["100000"; "100002"].
Proof. vm_compute. reflexivity. Qed.
Lemma not_zero x : finite64 x = true -> Binary.B2FF 53 1024 x <> Binary.F754_zero false -> Binary.B2FF 53 1024 x <> Binary.F754_zero true -> (val64 x <> 0)%R.
Proof.
  destruct x as [[]|s|s pl Hpl|s m e Hb]; try discriminate; [done..|]. intros _ _ _.
  apply F2R_neq_0. by destruct s.
Qed.
Example ex_C81_half_to_even := C81_half_to_even 6 (dec 200001 2) ltac:(lia) ltac:(vm_compute; reflexivity)
  ltac:(apply not_zero; vm_compute; [reflexivity|discriminate|discriminate]).
Example ex_C81_form := C81_form 6 (dec 1 100000) ltac:(lia) ltac:(vm_compute; reflexivity)
  ltac:(apply not_zero; vm_compute; [reflexivity|discriminate|discriminate]).
Example ex_tidy : map (tidy false false) ["12.7411"; "100"; "1e+06"; "-0.5"; "1.50"; "1."; "2.0e+07"; "1.e+07"] =
  [true; true; true; true; false; false; false; false].
Proof. reflexivity. Qed.
Example ex_C81_no_numeral := C81_no_numeral 6 (dec 1 0) ltac:(vm_compute; reflexivity).
Example ex_C81_integers : denotes (show64 6 (double_of 8192)) 8192.
Proof.
  destruct (double_of_exact 8192 ltac:(lia)) as [E F]. exact (C81_integers 6 (double_of 8192) 8192 ltac:(lia) ltac:(cbn; lia) F E).
Qed.
(** The double next to 0.1 is printed as 0.1. *)
Example ex_C81_decimals_survive : denotes (show64 15 tenth) (1 / 10).
Proof.
  apply C81_decimals_survive; [lia| |reflexivity|].
  - exists 1%Z, (-1)%Z. split; [cbn; lia|]. change (bpow ten (-1)) with (/ 10)%R. lra.
  - replace (val64 tenth) with (7205759403792794 * / 72057594037927936)%R by reflexivity. unfold uro. change (bpow radix2 (-53)) with (/ 9007199254740992)%R.
    rewrite (Rabs_pos_eq (1 / 10)) by lra. apply Rabs_le. lra.
Qed.
Example ex_C81_unsigned : show_int 137438953472 = "137438953472".
Proof. vm_compute. reflexivity. Qed.

(** * otherExperiments/README.md *)
Definition readme_bench (name : string) (ms : Z) : string :=
  put (bench_chunks 4096 ["./benchmark"; name] (ms * 1000000 + 123456) (BenchRun 0 (Some (double_of 8192)))).
Definition sample (seconds gflops : string) : string :=
  put ["total flops 2n^3 -> 137438953472"; newline; "gflop: 137.438953472"; newline; "seconds: "; seconds; newline;
       gflops; " Gflops"; newline; "check: 8192"; newline].
Example ex_readme_naive : readme_bench "naive" 200649 = sample "200.649" "0.684972033113".
Proof. vm_compute. reflexivity. Qed.
Example ex_readme_transposed : readme_bench "transposed" 73292 = sample "73.292" "1.87522449206".
Proof. vm_compute. reflexivity. Qed.
Example ex_readme_counter : readme_bench "counter" 5665 = sample "5.665" "24.2610685741".
Proof. vm_compute. reflexivity. Qed.
Example ex_readme_blocked2 : readme_bench "blocked2" 2577 = sample "2.577" "53.3329272301".
Proof. vm_compute. reflexivity. Qed.
Example ex_readme_gpu : readme_bench "gpu" 2571 = sample "2.571" "53.457391471".
Proof. vm_compute. reflexivity. Qed.
Example ex_readme_intrinLoop : readme_bench "intrinLoop" 1212 = sample "1.212" "113.398476462".
Proof. vm_compute. reflexivity. Qed.
Example ex_C82_shipped name : name ∈ right_names ->
  always (bench_main (double_of 2) (b64_sqrt rne) (pc (Some (b64_fma rne)) true inf64 8) ["./benchmark"; name]) (fun r => b_exit r = 0%Z /\
    exists S G, put (bench_chunks 4096 ["./benchmark"; name] 1212123456 r) = sample S G /\ denotes S (1212 / 1000)).
Proof.
  intros Hn. eapply must_mono; [|apply (C82_output (pc (Some (b64_fma rne)) true inf64 8) "./benchmark" name [] 1212123456);
    [apply pc_good, n4096|by right|cbn; split_and!; reflexivity|exact Hn|by eexists|done|lia]].
  cbn beta. intros r m (E & S & G & H1 & H2 & _). split; [exact E|]. exists S, G. split; [exact H1|exact H2].
Qed.
Example ex_C82_blocked4 := C82_output_blocked4 (pc None true inf64 8) "./benchmark" [] 1212123456 (pc_good _ _ _ _ _ n4096)
  ltac:(cbn; split_and!; reflexivity) ltac:(lia).
Example ex_C82_nothing := C82_output_nothing (pc None true inf64 8) ["./benchmark"] 0 (pc_good _ _ _ _ _ n4096) I.

(** * README.md *)
Definition never (x y : Z) : bool := false.
Definition readme_app (name : string) (k : clocks) : string := put (app_chunks (readme_options never name) k None).
Definition local (total inner : binary64) : clocks := Clocks total inner (double_of 0) [].
Definition lines (l : list string) : string := put (flat_map (fun s => [s; newline]) l).
Example ex_readme_single : readme_app "single" (local (dec 1274106 100000) (double_of 0)) =
  lines ["before HPX"; "in HPX main"; "using parallel single node algorithm"; "[N = 8192] total time: 12.7411s";
         "[N = 8192] average time per run: 12.7411s (repetitions = 1)"; "after HPX";
         "[N = 8192] performance: 86.2967Gflops (average across repetitions)"].
Proof. vm_compute. reflexivity. Qed.
Example ex_readme_combined : readme_app "combined" (local (dec 85711 10000) (dec 676058 100000)) =
  lines ["before HPX"; "in HPX main"; "duration inner: 6.76058s";
         "[X_size = 8400, Y_size = 8192, K_size = 8192] inner performance: 166.765Gflops (average across repetitions)";
         "[N = 8192] total time: 8.5711s"; "[N = 8192] average time per run: 8.5711s (repetitions = 1)"; "after HPX";
         "[N = 8192] performance: 128.281Gflops (average across repetitions)"].
Proof. vm_compute. reflexivity. Qed.
Example ex_readme_kernel_tiled : readme_app "kernel_tiled" (local (double_of 7) (dec 645054 100000)) =
  lines ["before HPX"; "in HPX main"; "after HPX"; "duration inner: 6.45054s";
         "[X_size = 8400, Y_size = 8192, K_size = 8192] inner performance: 174.781Gflops (average across repetitions)";
         "non-HPX [N = 8192] total time: 6.45054s"; "non-HPX [N = 8192] average time per run: 6.45054s (repetitions = 1)";
         "[N = 8192] performance: 170.453Gflops (average across repetitions)"].
Proof. vm_compute. reflexivity. Qed.
Example ex_readme_pseudodynamic : readme_app "pseudodynamic" (local (dec 130368 10000) (double_of 0)) =
  lines ["before HPX"; "in HPX main"; "using pseudodynamic distributed algorithm"; "[N = 8192] total time: 13.0368s";
         "[N = 8192] average time per run: 13.0368s (repetitions = 1)"; "after HPX";
         "[N = 8192] performance: 84.3391Gflops (average across repetitions)"].
Proof. vm_compute. reflexivity. Qed.
Example ex_readme_kernel_test : readme_app "kernel_test" (local (dec 115435 10000) (double_of 0)) =
  lines ["before HPX"; "in HPX main"; "after HPX"; "non-HPX [N = 8192] total time: 11.5435s";
         "non-HPX [N = 8192] average time per run: 11.5435s (repetitions = 1)";
         "[N = 8192] performance: 95.2494Gflops (average across repetitions)"].
Proof. vm_compute. reflexivity. Qed.

(** * What evaluate.py reads *)
Example ex_search : search "b(" ")" "ab(b()c)" = Some "b(" /\ search "b(" ")" (put ["ab("; newline; ")"]) = None.
Proof. vm_compute. done. Qed.
Example ex_script_single : let s := readme_app "single" (local (dec 1274106 100000) (double_of 0)) in
  total_time s = Some "12.7411" /\ average_time s = Some "12.7411" /\ performance s = Some "86.2967".
Proof. vm_compute. done. Qed.
(** not 170.453 *)
Example ex_script_kernel_tiled : performance (readme_app "kernel_tiled" (local (double_of 7) (dec 645054 100000))) = Some "174.781".
Proof. vm_compute. done. Qed.
Definition three : clocks := Clocks (dec 130368 10000) (double_of 0) (double_of 0) ["{0000000100000000, 0000000000000000}"; "{0000000200000000, 0000000000000000}"].
Lemma three_names : names_ok three.
Proof.
  intros id Hid Ho. apply elem_of_list_In in Hid. apply PTranscript.has_spec in Ho. cbn [c_ids three In] in Hid.
  destruct Hid as [<-|[<-|[]]]; vm_compute in Ho; discriminate.
Qed.
Example ex_C83_times l := C83_times (readme_options never "pseudodynamic") three Pseudodynamic None l ltac:(apply elem_of_list_In; cbn; tauto) three_names.
Lemma local_names total inner : names_ok (local total inner).
Proof. intros id Hid. by apply elem_of_nil in Hid. Qed.
Lemma three_measurable : measurable (double_of 3).
Proof.
  destruct (double_of_exact 3 ltac:(lia)) as [E F]. split; [exact F|]. rewrite E. split.
  - apply Rle_trans with (bpow radix2 0); [apply bpow_le; lia|cbn; lra].
  - apply Rle_trans with (bpow radix2 2); [change (bpow radix2 2) with 4%R; lra|apply bpow_le; lia].
Qed.
Lemma readme_n name : (0 < Z.of_nat (o_n (readme_options never name)) < 2 ^ 53)%Z.
Proof. cbn [o_n readme_options]. rewrite Z2Nat.id; lia. Qed.
Example ex_C83_plotted l := C83_plotted (readme_options never "single") (local (double_of 3) (double_of 0)) Single None l
  ltac:(apply elem_of_list_In; cbn; tauto) eq_refl ltac:(intros [H|H]; discriminate) (local_names _ _) (readme_n _) ltac:(cbn; lia) three_measurable.
Example ex_C83_refuted := C83_performance_refuted (readme_options never "kernel_tiled") (local (double_of 7) (double_of 6)) KernelTiled None
  ltac:(apply elem_of_list_In; cbn; tauto) (or_intror eq_refl) (local_names _ _).
Example ex_C83_unknown : performance (readme_app "strassen" (local (double_of 7) (double_of 6))) = None.
Proof.
  apply C83_unknown.
  - intros H. apply elem_of_list_In in H. cbn in H. repeat destruct H as [H|H]; try discriminate. exact H.
  - intros Ho. apply PTranscript.has_spec in Ho. vm_compute in Ho. discriminate.
Qed.

(** * The documented runs *)
Lemma run_in : evaluate_options never (Z.to_nat 2048) 5 0 ∈ evaluate_runs never.
Proof. apply elem_of_list_In. cbn -[Z.to_nat]. tauto. Qed.
(** Entry i of A is i modulo 7. *)
Definition mod7 (i : nat) : binary64 := double_of (Z.of_nat (i mod 7)).
Lemma mod7_good i : finite64 (mod7 i) = true /\ neg64 (mod7 i) = false.
Proof.
  unfold mod7. pose proof (Nat.mod_upper_bound i 7 ltac:(lia)) as H. revert H. generalize (i mod 7). intros r H.
  do 7 (destruct r as [|r]; [split; vm_compute; reflexivity|]). lia.
Qed.
Example ex_C84_evaluate := C84_evaluate never _ 3 mod7 (Clocks (double_of 3) (double_of 0) (double_of 0) (c_ids three)) run_in ltac:(lia)
  (fun i _ => mod7_good i) three_names three_measurable.
Example ex_C84_readme := C84_readme never "kernel_tiled" 1 mod7 ltac:(apply elem_of_list_In; cbn; tauto) ltac:(lia) (fun i _ => mod7_good i).
Example ex_C84_combined := C84_readme_combined_refuted absdiff64 small64 never 1 mod7.
