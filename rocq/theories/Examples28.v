(** Concrete cases for Properties28. *)
From Coq Require Import ZArith Reals Ascii String Psatz.
From Flocq Require Import Core IEEE754.Binary IEEE754.Bits.
From Verif Require Import Base Conc ConcFacts SpecRound SpecBench MDouble MPrint SpecPrint MReport MCeil MBench PBench64 PCeil MSchedule SpecSched PPseudo MTranscript PVerbose2
  Examples10 Examples11 Examples15 Examples21 Examples24 Properties28 MVerbose MApp SpecApp SpecReport SpecTranscript SpecVerbose.
Local Open Scope string_scope.

Definition some_options (n verbose block_result : nat) (transposed check : bool) (reps : nat) (algorithm : string) (difference : Z) : options :=
  Options n transposed reps verbose block_result 4 check algorithm 2 difference never false.
Definition root : string := "{0000000100000000, 0000000000000000}".
Lemma root_ok : ~ occurs ":" root.
Proof. intros Ho. apply PTranscript.has_spec in Ho. vm_compute in Ho. discriminate. Qed.
Definition numbers (n : nat) : list binary64 := map mod7 (seq 0 (n * n)).
Definition identity (n : nat) : list binary64 := flat_map (fun i => map (fun j => double_of (if (i =? j)%nat then 1 else 0)) (seq 0 n)) (seq 0 n).
Definition zeros (n : nat) : list binary64 := repeat (double_of 0) (n * n).
Definition local2 : clocks := Clocks (double_of 2) (double_of 1) (double_of 4) [].

(** * A run of single on matrices with four rows *)
Definition run4 (verbose : nat) : list string :=
  app_chunks_verbose (some_options 4 verbose 2 true true 1 "single" 1) local2 1 root (numbers 4) (identity 4) (numbers 4) (numbers 4) (zeros 4) (Some true).
Example ex_single_one : put (run4 1) = lines
  ["before HPX"; "in HPX main"; "using parallel single node algorithm";
   root ++ " work on x: 0, y: 0 blockSize: 4"; "handling large matrix, more work... (blocksize == 4)";
   root ++ " work on x: 0, y: 0 blockSize: 2"; root ++ " work on x: 2, y: 0 blockSize: 2";
   root ++ " work on x: 0, y: 2 blockSize: 2"; root ++ " work on x: 2, y: 2 blockSize: 2";
   "[N = 4] total time: 2s"; "[N = 4] average time per run: 2s (repetitions = 1)"; "after HPX";
   "[N = 4] performance: 6.4e-08Gflops (average across repetitions)"; "naive matMult took 4 [s]";
   "[N = 4] performance reference: 3.2e-08 Gflops (reference implementation)"; "check passed"].
Proof. vm_compute. reflexivity. Qed.
Example ex_single_two : put (firstn 68 (run4 2)) = lines
  ["before HPX"; "in HPX main"; "matrix A:"; "0, 1, 2, 3"; "4, 5, 6, 0"; "1, 2, 3, 4"; "5, 6, 0, 1"; "matrix B:"; "1, 0, 0, 0"; "0, 1, 0, 0"; "0, 0, 1, 0"; "0, 0, 0, 1"].
Proof. vm_compute. reflexivity. Qed.
Example ex_single_scripts : forall verbose, verbose ∈ [0; 1; 2]%nat ->
  total_time (put (run4 verbose)) = Some "2" /\ average_time (put (run4 verbose)) = Some "2" /\ performance (put (run4 verbose)) = Some "6.4e-08".
Proof. intros v Hv. apply elem_of_list_In in Hv. cbn in Hv. destruct Hv as [<-|[<-|[<-|[]]]]; vm_compute; done. Qed.
Lemma local2_names : names_ok local2.
Proof. intros id Hid. by apply elem_of_nil in Hid. Qed.
Example ex_C88_level_zero := C88_level_zero (some_options 4 0 2 true true 1 "single" 1) local2 1 root (numbers 4) (identity 4) (numbers 4) (numbers 4) (zeros 4) (Some true) eq_refl.
Example ex_C88_times : total_time (put (rev (run4 2))) = Some (show64 6 (double_of 2)).
Proof.
  exact (proj1 (C88_times (some_options 4 2 2 true true 1 "single" 1) local2 1 root (numbers 4) (identity 4) (numbers 4) (numbers 4) (zeros 4) Single (Some true) (rev (run4 2))
    ltac:(apply elem_of_list_In; cbn; tauto) local2_names root_ok (Permutation_sym (Permutation_rev _)))).
Qed.
Lemma lone : 1 <= 1. Proof. lia. Qed.
Lemma halves_4_2 : halves 2 4.
Proof. by exists 2, 1. Qed.
Example ex_C88_single := C88_single_lines (some_options 4 1 2 true true 1 "single" 1) local2 1 root (numbers 4) (identity 4) (numbers 4) (numbers 4) (zeros 4) (Some true) 3 1 (run4 1)
  eq_refl lone root_ok halves_4_2 (reflexivity _).
(** Entry (3, 1) is in the seventh line. *)
Example ex_line : nth 6 (run4 1) "" = chunk_work root 2 0 2 /\ computes 2 3 1 (nth 6 (run4 1) "").
Proof. split; [reflexivity|]. apply (computes_work 2 3 1 root 2 0 2 root_ok). lia. Qed.
Lemma performance_single : ~ reports_inner Single.
Proof. intros [H|H]; discriminate. Qed.
Example ex_C88_performance := C88_performance (some_options 4 2 2 true true 1 "single" 1) local2 1 root (numbers 4) (identity 4) (numbers 4) (numbers 4) (zeros 4) Single (Some true) (run4 2)
  ltac:(apply elem_of_list_In; cbn; tauto) performance_single local2_names root_ok (reflexivity _).
Example ex_C88_plotted := C88_plotted (some_options 4 2 2 true true 1 "single" 1) (local (double_of 3) (double_of 0)) 1 root (numbers 4) (identity 4) (numbers 4) (numbers 4) (zeros 4)
  Single (Some true) _ ltac:(apply elem_of_list_In; cbn; tauto) eq_refl performance_single (local_names _ _) root_ok ltac:(cbn; lia) ltac:(cbn; lia) three_measurable (reflexivity _).

(** * Three rows: the last entry is in no line. *)
Definition run3 : list string :=
  app_chunks_verbose (some_options 3 1 1 false false 1 "single" 1) local2 1 root (numbers 3) (identity 3) (numbers 3) (numbers 3) (zeros 3) None.
Example ex_odd : firstn 6 (skipn 3 run3) = [chunk_work root 0 0 3; chunk_large 3; chunk_work root 0 0 1; chunk_work root 1 0 1; chunk_work root 0 1 1; chunk_work root 1 1 1].
Proof. reflexivity. Qed.
Example ex_C88_odd : counts (computes 1 2 2) run3 0.
Proof. exact (C88_lines_refuted (some_options 3 1 1 false false 1 "single" 1) local2 1 root (numbers 3) (identity 3) (numbers 3) (numbers 3) (zeros 3) None run3
  eq_refl lone root_ok ltac:(cbn; lia) eq_refl (reflexivity _)). Qed.

(** * pseudodynamic with two computing localities *)
Definition options3 : options := some_options 4 1 2 true false 1 "pseudodynamic" 1.
Definition two : clocks := Clocks (double_of 2) (double_of 0) (double_of 0) ["{0000000200000000, 0000000000000000}"; "{0000000300000000, 0000000000000000}"].
Lemma two_names : names_ok two.
Proof.
  intros id Hid Ho. apply elem_of_list_In in Hid. apply PTranscript.has_spec in Ho. cbn [c_ids two In] in Hid.
  destruct Hid as [<-|[<-|[]]]; vm_compute in Ho; discriminate.
Qed.
Definition id1 : string := nth 0 (c_ids two) "".
Definition id2 : string := nth 1 (c_ids two) "".
Definition runp : list string := app_chunks_verbose options3 two 3 root [] [] [] [] [] None.
Example ex_pseudodynamic : put runp = lines
  ["before HPX"; "in HPX main"; "using pseudodynamic distributed algorithm"; "info: root node is not used for computation";
   "computing on id: " ++ id1; "computing on id: " ++ id2;
   "-----work-distribution:-----"; "locality: 0 = [2], [2]"; "locality: 1 = [2], [2]";
   id1 ++ " work on x: 0, y: 0 blockSize: 2"; id1 ++ " work on x: 2, y: 0 blockSize: 2";
   id2 ++ " work on x: 0, y: 2 blockSize: 2"; id2 ++ " work on x: 2, y: 2 blockSize: 2";
   "[N = 4] total time: 2s"; "[N = 4] average time per run: 2s (repetitions = 1)"; "after HPX";
   "[N = 4] performance: 6.4e-08Gflops (average across repetitions)"].
Proof. vm_compute. reflexivity. Qed.
(** With --max-work-difference=0 the same schedule counts as aborted. *)
Example ex_aborted : aborted ∉ runp /\
  aborted ∈ app_chunks_verbose (some_options 4 1 2 true false 1 "pseudodynamic" 0) two 3 root [] [] [] [] [] None.
Proof.
  split.
  - intros H. apply elem_of_list_In in H. vm_compute in H. repeat destruct H as [H|H]; try discriminate. exact H.
  - apply elem_of_list_In. vm_compute. do 6 right. left. reflexivity.
Qed.
Lemma small_n : (Z.of_nat 4 * Z.of_nat 4 < 2 ^ 62)%Z.
Proof. done. Qed.
Example ex_C88_schedule := C88_schedule options3 two 3 root [] [] [] [] [] None eq_refl lone two_names root_ok ltac:(lia) small_n ltac:(cbn; lia).
Example ex_C88_where := C88_where options3 two 3 root [] [] [] [] [] None eq_refl lone two_names root_ok ltac:(lia) small_n ltac:(cbn; lia).
Lemma sizes_4_2 n : size_of 4 2 n -> n = 4%Z \/ n = 2%Z.
Proof.
  intros (k&Hk&->&Hc). destruct (decide (k = 0)%Z) as [->|H0]; [left; reflexivity|].
  destruct (decide (k = 1)%Z) as [->|H1]; [right; reflexivity|]. exfalso.
  destruct Hc as [?|Hc]; [lia|]. assert (4 / 2 ^ (k - 1) <= 2)%Z; [|lia].
  apply Z.div_le_upper_bound; [apply Z.pow_pos_nonneg; lia|].
  assert (2 ^ 1 <= 2 ^ (k - 1))%Z by (apply Z.pow_le_mono_r; lia). lia.
Qed.
Lemma even_4_2 : even_chain 4 2.
Proof. change 4%Z with (2 ^ Z.of_nat 2)%Z. by apply even_chain_pow2. Qed.
Lemma halves_sizes n : size_of 4 2 n -> halves 2 (Z.to_nat n).
Proof. intros H. destruct (sizes_4_2 n H) as [->| ->]; [exact halves_4_2|]. exists 2, 0. split; [reflexivity|lia]. Qed.
Example ex_C88_pseudodynamic := C88_pseudodynamic_lines options3 two 3 root [] [] [] [] [] None 1 3 runp eq_refl lone two_names root_ok ltac:(lia) small_n ltac:(cbn; lia)
  even_4_2 halves_sizes (reflexivity _).

(** * The matrices *)
Example ex_C88_inputs := C88_inputs (some_options 4 2 2 true true 1 "single" 1) mod7.
Example ex_matrix : matrix_text 2 (fun i j => mod7 (i * 2 + j)) = lines ["0, 1"; "2, 3"].
Proof. vm_compute. reflexivity. Qed.
Lemma combined_in : ("combined", Combined) ∈ accepted.
Proof. apply elem_of_list_In. cbn. tauto. Qed.
Example ex_C88_padding := C88_padding (some_options 300 1 2 false true 1 "combined" 1) local2 1 root [] [] [] [] [] Combined None combined_in (or_introl eq_refl) lone.
Example ex_padding : put (padding_chunks (some_options 300 1 2 false true 1 "combined" 1)) = lines
  ["matrix padding: x_pad = 120, y_pad = 212, k_pad = 212"; "matrix dimensions for calculation: X = 420, Y = 512, K = 512"].
Proof. vm_compute. reflexivity. Qed.
Example ex_C88_refuted := C88_performance_refuted (some_options 300 1 2 false true 1 "combined" 1) local2 1 root [] [] [] [] [] Combined None combined_in (or_introl eq_refl) local2_names root_ok.
Example ex_C88_result := C88_result o_semi 1 mod7 Semi "" eq_refl ltac:(apply elem_of_list_In; cbn; tauto) eq_refl semi_suits (fun i _ => mod7_good i).
