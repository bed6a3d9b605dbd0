(** C88: the output with --verbose. *)
From Coq Require Import ZArith NArith Reals Ascii String Psatz.
From Flocq Require Import Core IEEE754.Binary IEEE754.Bits.
From Verif Require Import Base Conc ConcFacts Num MDouble SpecRound SpecBench Spec MPrint SpecPrint MReport MSchedule SpecSched PTiled PApp Properties11
  MTranscript PTranscript PTranscript3 PTranscript5 MVerbose PVerbose PVerbose2 PVerbose3 MApp SpecApp SpecReport SpecTranscript SpecVerbose.

(** C88: with --verbose=0 it is the output of C82 to C84. *)
Theorem C88_level_zero o k localities here A B C Cref diff verdict : o_verbose o = 0 ->
  app_chunks_verbose o k localities here A B C Cref diff verdict = app_chunks o k verdict.
Proof. exact (verbose_zero o k localities here A B C Cref diff verdict). Qed.
Print Assumptions C88_level_zero.
(** C88: at every level, and in whatever order the pieces arrive, evaluate.py reads
    the same times and the same performance. *)
Theorem C88_times o k localities here A B C Cref diff v verdict l : (o_algorithm o, v) ∈ accepted -> names_ok k -> ~ occurs ":" here ->
  l ≡ₚ app_chunks_verbose o k localities here A B C Cref diff verdict ->
  total_time (put l) = Some (show64 6 (reported_time v k)) /\
  average_time (put l) = Some (show64 6 (average64 (Z.of_nat (o_repetitions o)) (reported_time v k))).
Proof. intros Hv Hn Hh Hl. exact (verbose_times o k localities here A B C Cref diff Hn Hh v verdict l Hv Hl). Qed.
Print Assumptions C88_times.
Theorem C88_performance o k localities here A B C Cref diff v verdict l : (o_algorithm o, v) ∈ accepted -> ~ reports_inner v -> names_ok k -> ~ occurs ":" here ->
  l ≡ₚ app_chunks_verbose o k localities here A B C Cref diff verdict ->
  let N := Z.of_nat (o_n o) in
  performance (put l) = Some (show64 6 (performance64 (Z.of_nat (o_repetitions o)) N N N (reported_time v k))).
Proof. intros Hv Hi Hn Hh Hl. exact (verbose_performance o k localities here A B C Cref diff Hn Hh v verdict l Hv Hi Hl). Qed.
Print Assumptions C88_performance.
Theorem C88_plotted o k localities here A B C Cref diff v verdict l : (o_algorithm o, v) ∈ accepted -> o_help o = false -> ~ reports_inner v -> names_ok k -> ~ occurs ":" here ->
  (0 < Z.of_nat (o_n o) < 2 ^ 53)%Z -> (0 < Z.of_nat (o_repetitions o) < 2 ^ 53)%Z -> measurable (reported_time v k) ->
  l ≡ₚ app_chunks_verbose o k localities here A B C Cref diff verdict ->
  exists s x, performance (put l) = Some s /\ denotes s x /\
    let e := (INR (o_repetitions o) * rate (2 * INR (o_n o) * INR (o_n o) * INR (o_n o)) (val64 (reported_time v k)))%R in
    (Rabs (x - e) <= 51 / 10000000 * e)%R.
Proof.
  intros Hv Hp Hi Hn Hh HN Hr Hm Hl.
  rewrite (verbose_same o k localities here A B C Cref diff Hn Hh v verdict l _ Hv Hi Hl (reflexivity _)).
  exact (plotted o k v verdict _ Hv Hp Hi Hn HN Hr Hm (reflexivity _)).
Qed.
Print Assumptions C88_plotted.
(** C88: for combined and kernel_tiled, in program order, it is that of the padded
    product at every level. *)
Theorem C88_performance_refuted o k localities here A B C Cref diff v verdict : (o_algorithm o, v) ∈ accepted -> reports_inner v -> names_ok k -> ~ occurs ":" here ->
  exists X Y K, padded_to (Z.of_nat (o_n o)) 420 X /\ padded_to (Z.of_nat (o_n o)) 256 Y /\ padded_to (Z.of_nat (o_n o)) 256 K /\
    performance (put (app_chunks_verbose o k localities here A B C Cref diff verdict)) =
      Some (show64 6 (performance64 (Z.of_nat (o_repetitions o)) X Y K (c_inner k))).
Proof.
  intros Hv Hi Hn Hh. destruct (inner_sizes o) as (X & Y & K & H1 & H2 & H3 & E). exists X, Y, K. split; [exact H1|]. split; [exact H2|].
  split; [exact H3|]. rewrite <-E. exact (verbose_inner o k localities here A B C Cref diff Hn Hh v verdict Hv Hi).
Qed.
Print Assumptions C88_performance_refuted.

(** C88: with --algorithm=single every entry of the matrix is in exactly one line
    about a block that is computed, per repetition, and no other entry is. *)
Theorem C88_single_lines o k localities here A B C Cref diff verdict i j l : o_algorithm o = "single"%string -> 1 <= o_verbose o -> ~ occurs ":" here ->
  halves (o_block_result o) (o_n o) -> l ≡ₚ app_chunks_verbose o k localities here A B C Cref diff verdict ->
  (i < o_n o /\ j < o_n o -> counts (computes (o_block_result o) i j) l (o_repetitions o)) /\
  (~ (i < o_n o /\ j < o_n o) -> counts (computes (o_block_result o) i j) l 0).
Proof.
  intros Ha Hv Hh Hn Hl. pose proof (single_count o k localities here A B C Cref diff Hh Hv verdict i j l Ha Hn Hl) as H.
  destruct (decide _); split; done.
Qed.
Print Assumptions C88_single_lines.
(** C88: the same over all localities with --algorithm=pseudodynamic. *)
Theorem C88_pseudodynamic_lines o k localities here A B C Cref diff verdict i j l : o_algorithm o = "pseudodynamic"%string -> 1 <= o_verbose o ->
  names_ok k -> ~ occurs ":" here -> 0 < localities -> (Z.of_nat (o_n o) * Z.of_nat (o_n o) < 2 ^ 62)%Z -> (0 <= o_min_work_size o)%Z ->
  even_chain (Z.of_nat (o_n o)) (o_min_work_size o) ->
  (forall n, size_of (Z.of_nat (o_n o)) (o_min_work_size o) n -> halves (o_block_result o) (Z.to_nat n)) ->
  l ≡ₚ app_chunks_verbose o k localities here A B C Cref diff verdict ->
  (i < o_n o /\ j < o_n o -> counts (computes (o_block_result o) i j) l (o_repetitions o)) /\
  (~ (i < o_n o /\ j < o_n o) -> counts (computes (o_block_result o) i j) l 0).
Proof.
  intros Ha Hv Hk Hh Hlo HN Hm He Hs Hl.
  pose proof (pseudodynamic_count o k localities here A B C Cref diff Hk Hh Hv verdict i j l Ha Hlo HN Hm He Hs Hl) as H.
  destruct (decide _); split; done.
Qed.
Print Assumptions C88_pseudodynamic_lines.
(** C88: that every entry is in such a line is refuted for each odd size above
    --block-result: the last entry is in none. *)
Theorem C88_lines_refuted o k localities here A B C Cref diff verdict l : o_algorithm o = "single"%string -> 1 <= o_verbose o -> ~ occurs ":" here ->
  o_block_result o < o_n o -> Nat.odd (o_n o) = true -> l ≡ₚ app_chunks_verbose o k localities here A B C Cref diff verdict ->
  counts (computes (o_block_result o) (o_n o - 1) (o_n o - 1)) l 0.
Proof. intros Ha Hv Hh Hb Ho Hl. exact (single_odd o k localities here A B C Cref diff Hh Hv verdict l Ha Hb Ho Hl). Qed.
Print Assumptions C88_lines_refuted.

(** C88: the schedule is printed, and the message that it was aborted is printed
    exactly if the balance asked for is not reached. *)
Theorem C88_schedule o k localities here A B C Cref diff verdict : o_algorithm o = "pseudodynamic"%string -> 1 <= o_verbose o ->
  names_ok k -> ~ occurs ":" here -> 0 < localities -> (Z.of_nat (o_n o) * Z.of_nat (o_n o) < 2 ^ 62)%Z -> (0 <= o_min_work_size o)%Z ->
  let chunks := app_chunks_verbose o k localities here A B C Cref diff verdict in
  exists s,
    create_schedule_state (Z.of_nat (o_n o)) (o_min_work_size o) (o_max_work_difference o) (o_rel o) (S (o_n o * o_n o * o_n o))
      (if 1 <? localities then localities - 1 else localities) = Ok s /\
    (aborted ∈ chunks <-> ~ balanced (o_max_work_difference o) (o_rel o) (total_work s)) /\
    exists before rest, put chunks = (put before ++ schedule_text (all_work s) ++ put rest)%string.
Proof.
  intros Ha Hv Hk Hh Hlo HN Hm chunks. destruct (aborted_iff o k localities here A B C Cref diff Hv verdict Ha Hlo HN Hm) as (s & Hs & Hab & b & r & E).
  exists s. split; [exact Hs|]. split; [exact Hab|]. exists b, r. unfold chunks. rewrite E, !put_app, schedule_put. reflexivity.
Qed.
Print Assumptions C88_schedule.

(** C88: with --verbose=2 the matrices are printed row by row.  B is printed as the
    identity, transposed or not. *)
Theorem C88_inputs o (gen : nat -> binary64) : exists B, build_B o (o_transposed o) = Ret B /\
  put (input_chunks o (gen <$> seq 0 (o_n o * o_n o)) B) =
    ("matrix A:" ++ newline ++ matrix_text (o_n o) (fun i j => gen (i * o_n o + j)) ++
     "matrix B:" ++ newline ++ put (map (fun i => String.concat ", " (map (fun j => if (i =? j)%nat then "1" else "0") (seq 0 (o_n o))) ++ newline) (seq 0 (o_n o))))%string.
Proof.
  destruct (build_B_ok (T := binary64) o (o_transposed o)) as (B & HB & HI). exists B. split; [exact HB|].
  exact (input_put o gen B HI).
Qed.
Print Assumptions C88_inputs.
(** C88: and the matrix printed as the result of a suitable run is A again. *)
Theorem C88_result (o : options) localities (gen : nat -> binary64) v pre :
  o_help o = false -> (o_algorithm o, v) ∈ accepted -> flag_ok o v -> suitable o localities v ->
  (forall k, (k < o_n o * o_n o)%nat -> finite64 (gen k) = true /\ neg64 (gen k) = false) ->
  app_always (tolerated v) (main absdiff64 small64 o localities gen) (fun r =>
    put (result_chunks o (r_C r) pre) = (pre ++ "matrix C:" ++ newline ++ matrix_text (o_n o) (fun i j => gen (i * o_n o + j)))%string).
Proof.
  intros Hh Hv Hf Hs Hg. refine (app_always_mono _ _ _ _ _ (C58_end_to_end_double o localities gen v Hh Hv Hf Hs Hg)).
  intros r ->. exact (result_put o gen pre).
Qed.
Print Assumptions C88_result.
(** C88: combined, proposal and kernel_tiled print the padded sizes they compute with. *)
Theorem C88_padding o k localities here A B C Cref diff v verdict : (o_algorithm o, v) ∈ accepted -> v = Combined \/ v = Proposal \/ v = KernelTiled -> 1 <= o_verbose o ->
  exists X Y K, padded_to (Z.of_nat (o_n o)) 420 (Z.of_nat X) /\ padded_to (Z.of_nat (o_n o)) 256 (Z.of_nat Y) /\ padded_to (Z.of_nat (o_n o)) 256 (Z.of_nat K) /\
    ("matrix padding: x_pad = " ++ show_nat (X - o_n o) ++ ", y_pad = " ++ show_nat (Y - o_n o) ++ ", k_pad = " ++ show_nat (K - o_n o) ++ newline)%string
      ∈ app_chunks_verbose o k localities here A B C Cref diff verdict /\
    ("matrix dimensions for calculation: X = " ++ show_nat X ++ ", Y = " ++ show_nat Y ++ ", K = " ++ show_nat K ++ newline)%string
      ∈ app_chunks_verbose o k localities here A B C Cref diff verdict.
Proof. exact (padding_lines o k localities here A B C Cref diff v verdict). Qed.
Print Assumptions C88_padding.
(** C88: with --algorithm=pseudodynamic every locality writes lines about blocks in
    its own packages only, and one about each of its packages. *)
Theorem C88_where o k localities here A B C Cref diff verdict : o_algorithm o = "pseudodynamic"%string -> 1 <= o_verbose o ->
  names_ok k -> ~ occurs ":" here -> 0 < localities -> (Z.of_nat (o_n o) * Z.of_nat (o_n o) < 2 ^ 62)%Z -> (0 <= o_min_work_size o)%Z ->
  let chunks := app_chunks_verbose o k localities here A B C Cref diff verdict in
  exists all,
    create_schedule (Z.of_nat (o_n o)) (o_min_work_size o) (o_max_work_difference o) (o_rel o) (S (o_n o * o_n o * o_n o))
      (if 1 <? localities then localities - 1 else localities) = Ok all /\
    (forall line h x y n, line ∈ chunks -> ~ occurs ":" h -> says line h x y n -> exists i ws w, all !! i = Some ws /\ w ∈ ws /\ h = nth i (c_ids k) here /\
      (wx w <= Z.of_nat x /\ Z.of_nat x + Z.of_nat n <= wx w + wN w /\ wy w <= Z.of_nat y /\ Z.of_nat y + Z.of_nat n <= wy w + wN w)%Z) /\
    (0 < o_repetitions o -> forall i ws w, all !! i = Some ws -> w ∈ ws ->
      exists line, line ∈ chunks /\ says line (nth i (c_ids k) here) (Z.to_nat (wx w)) (Z.to_nat (wy w)) (Z.to_nat (wN w))).
Proof. exact (package_lines o k localities here A B C Cref diff verdict). Qed.
Print Assumptions C88_where.
