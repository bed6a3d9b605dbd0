(** C87: the command line. *)
From Coq Require Import ZArith NArith Reals Ascii String Psatz.
From stdpp Require Import list.
From Flocq Require Import Core IEEE754.Binary IEEE754.Bits.
From Verif Require Import Base Conc ConcFacts Num MDouble SpecRound SpecBench MPrint SpecPrint MBalance MReport MTranscript PApp Properties24
  MCmdline PCmdline PCmdline2 PCmdline3 PCmdline4 PCmdline5 MApp SpecApp SpecReport SpecTranscript SpecCmdline.

(** C87: exactly those command lines are accepted that the specification gives a
    meaning and that set no option twice; the meaning is unique. *)
Theorem C87_accepted strtod accepts args :
  (forall m, parse strtod accepts [] args = Parsed m <-> exists l, sets strtod accepts l args /\ NoDup l.*1 /\ m = reverse l) /\
  forall l l', sets strtod accepts l args -> NoDup l.*1 -> sets strtod accepts l' args -> NoDup l'.*1 -> l = l'.
Proof.
  split; [intros m; exact (accepted_iff strtod accepts args m)|].
  intros l l' H1 H2 H3 H4.
  assert (E1 : parse strtod accepts [] args = Parsed (reverse l)) by (apply accepted_iff; exists l; done).
  assert (E2 : parse strtod accepts [] args = Parsed (reverse l')) by (apply accepted_iff; exists l'; done).
  rewrite E1 in E2. injection E2 as E. rewrite <- (reverse_involutive l), E. apply reverse_involutive.
Qed.
Print Assumptions C87_accepted.
(** C87: then the program runs with the values given and the defaults for the rest;
    no value is read with the wrong type. *)
Theorem C87_command {T} `{NumOps T} strtod accepts (absdiff : T -> T -> T) (small : T -> bool) init_error localities gen args l :
  sets strtod accepts l args -> NoDup l.*1 ->
  exists o, selects l o /\
    command strtod accepts absdiff small init_error localities gen args = Some (main absdiff small o localities gen).
Proof.
  intros H1 H2. destruct (extract_selects strtod accepts l args H1 H2) as (o&E&Ho). exists o. split; [exact Ho|].
  unfold command. rewrite (proj2 (accepted_iff strtod accepts args (reverse l))) by (exists l; done). rewrite E. reflexivity.
Qed.
Print Assumptions C87_command.
(** C87: every other command line is rejected: nothing is computed and main returns
    what hpx::init returned.  (If a word that begins with a dash stands where a value
    is due the model says nothing.) *)
Theorem C87_rejected {T} `{NumOps T} strtod accepts (absdiff : T -> T -> T) (small : T -> bool) init_error localities gen args :
  ~ (exists l, sets strtod accepts l args /\ NoDup l.*1) -> ~ dash_value args ->
  command strtod accepts absdiff small init_error localities gen args = Some (ADone (Outcome init_error false None [])).
Proof. intros H1 H2. unfold command. rewrite rejected by assumption. reflexivity. Qed.
Print Assumptions C87_rejected.
(** C87: that negative numbers are rejected is refuted: --n-value=-k asks for
    matrices of size 2^64 - k. *)
Theorem C87_negative_refuted {T} `{NumOps T} strtod accepts (absdiff : T -> T -> T) (small : T -> bool) init_error localities gen k :
  (0 < k < 2 ^ 64)%N ->
  exists o, N.of_nat (o_n o) = (2 ^ 64 - k)%N /\
    command strtod accepts absdiff small init_error localities gen ["--n-value=-" ++ show_int k]%string = Some (main absdiff small o localities gen).
Proof.
  intros Hk.
  exists (Options (N.to_nat (2 ^ 64 - k)) true 1 0 128 128 false "single" 256 10000 (rel64 five_percent) false).
  split; [apply N2Nat.id|]. unfold command. rewrite minus_parse by exact Hk. reflexivity.
Qed.
Print Assumptions C87_negative_refuted.

(** C87: the command line of evaluate.py.  It selects the options the script means if
    HPX accepts the three words it does not know from the program. *)
Theorem C87_evaluate {T} `{NumOps T} strtod accepts (absdiff : T -> T -> T) (small : T -> bool) init_error localities gen n repetition transposed blockInput :
  (n < 2 ^ 64)%N -> (repetition < 2 ^ 64)%N -> (blockInput < 2 ^ 64)%N ->
  Forall (fun w => accepts w = true) ["--small-block-size=128"; "--hpx:cores=16"; "--hpx:thread=16"]%string ->
  command strtod accepts absdiff small init_error localities gen (evaluate_args n repetition transposed blockInput) =
  Some (main absdiff small (Options (N.to_nat n) transposed (N.to_nat repetition) 0 128 (N.to_nat blockInput) false "pseudodynamic" 256 0
    (rel64 five_percent) false) localities gen).
Proof.
  intros H1 H2 H3 Ha. apply Forall_cons in Ha as [Ha1 Ha]. apply Forall_cons in Ha as [Ha2 Ha]. apply Forall_cons in Ha as [Ha3 _].
  unfold command. rewrite evaluate_parse by assumption. rewrite Ha1, Ha2, Ha3. cbn [andb]. rewrite evaluate_extract. reflexivity.
Qed.
Print Assumptions C87_evaluate.
(** C87: otherwise the program computes nothing and the script stops with an
    exception, for there is no performance to read. *)
Theorem C87_evaluate_stops {T} `{NumOps T} strtod accepts (absdiff : T -> T -> T) (small : T -> bool) init_error localities gen n repetition transposed blockInput k verdict :
  (n < 2 ^ 64)%N -> (repetition < 2 ^ 64)%N -> (blockInput < 2 ^ 64)%N ->
  Exists (fun w => accepts w = false) ["--small-block-size=128"; "--hpx:cores=16"; "--hpx:thread=16"]%string ->
  let args := evaluate_args n repetition transposed blockInput in
  command strtod accepts absdiff small init_error localities gen args = Some (ADone (Outcome init_error false None [])) /\
  total_time (put (command_chunks strtod accepts k verdict args)) = None /\
  performance (put (command_chunks strtod accepts k verdict args)) = None.
Proof.
  intros H1 H2 H3 Ha args.
  assert (E : parse strtod accepts [] args = Rejected).
  { unfold args. rewrite evaluate_parse by assumption. rewrite !Exists_cons in Ha. destruct Ha as [Ha|[Ha|[Ha|Ha]]].
    - rewrite Ha. reflexivity.
    - rewrite Ha, andb_false_r. reflexivity.
    - rewrite Ha, andb_false_r. reflexivity.
    - apply Exists_nil in Ha. contradiction. }
  unfold command, command_chunks. rewrite E. split; [reflexivity|]. split; vm_compute; reflexivity.
Qed.
Print Assumptions C87_evaluate_stops.
(** C87: from the text of the script to the number it plots: each of its ten calls
    starts a run that returns the product on any number of localities, and reads its
    performance. *)
Theorem C87_evaluate_runs strtod accepts init_error localities (gen : nat -> binary64) n repetition transposed blockInput k :
  Forall (fun w => accepts w = true) ["--small-block-size=128"; "--hpx:cores=16"; "--hpx:thread=16"]%string ->
  (n, repetition, transposed, blockInput) ∈ evaluate_calls -> (0 < localities)%nat ->
  (forall i, (i < N.to_nat n * N.to_nat n)%nat -> finite64 (gen i) = true /\ neg64 (gen i) = false) -> names_ok k -> measurable (c_total k) ->
  let args := evaluate_args n repetition transposed blockInput in
  exists a, command strtod accepts absdiff64 small64 init_error localities gen args = Some a /\
  app_always (fun _ => False) a (fun r =>
    r = Outcome 0 false None (gen <$> seq 0 (N.to_nat n * N.to_nat n)) /\
    forall l, l ≡ₚ command_chunks strtod accepts k (r_check r) args -> exists s x, performance (put l) = Some s /\ denotes s x /\
      let e := (INR (N.to_nat repetition) * rate (2 * INR (N.to_nat n) * INR (N.to_nat n) * INR (N.to_nat n)) (val64 (c_total k)))%R in
      (Rabs (x - e) <= 51 / 10000000 * e)%R).
Proof.
  intros Ha Hc Hl Hg Hk Ht args.
  assert (Hr : (n < 2 ^ 64)%N /\ (repetition < 2 ^ 64)%N /\ (blockInput < 2 ^ 64)%N /\ transposed = true /\
    evaluate_options (rel64 five_percent) (N.to_nat n) (N.to_nat repetition) (N.to_nat blockInput) ∈ evaluate_runs (rel64 five_percent)).
  { set (rel := rel64 five_percent). clearbody rel. clear - Hc. unfold evaluate_calls in Hc. cbn [flat_map map combine Datatypes.app] in Hc.
    unfold evaluate_runs. cbn [flat_map map Datatypes.app fst snd].
    repeat (apply elem_of_cons in Hc as [E|Hc];
      [injection E as -> -> -> ->; split; [reflexivity|]; split; [reflexivity|]; split; [reflexivity|]; split; [reflexivity|];
       repeat first [left; reflexivity|right]|]).
    apply elem_of_nil in Hc. contradiction. }
  destruct Hr as (H1&H2&H3&->&Hr).
  exists (main absdiff64 small64 (evaluate_options (rel64 five_percent) (N.to_nat n) (N.to_nat repetition) (N.to_nat blockInput)) localities gen).
  split; [exact (C87_evaluate strtod accepts absdiff64 small64 init_error localities gen n repetition true blockInput H1 H2 H3 Ha)|].
  assert (Ec : forall v, command_chunks strtod accepts k v args =
    app_chunks (evaluate_options (rel64 five_percent) (N.to_nat n) (N.to_nat repetition) (N.to_nat blockInput)) k v).
  { intros v. unfold command_chunks, args. rewrite evaluate_parse by assumption.
    apply Forall_cons in Ha as [Ha1 Ha]. apply Forall_cons in Ha as [Ha2 Ha]. apply Forall_cons in Ha as [Ha3 _].
    rewrite Ha1, Ha2, Ha3. cbn [andb]. rewrite evaluate_extract. reflexivity. }
  refine (app_always_mono _ _ _ _ _ (C84_evaluate (rel64 five_percent) _ localities gen k Hr Hl Hg Hk Ht)).
  intros r [Hr1 Hr2]. split; [exact Hr1|]. intros l El. rewrite Ec in El. exact (Hr2 l El).
Qed.
Print Assumptions C87_evaluate_runs.

(** C87: the command lines in README.md, for any name in the place of the algorithm *)
Theorem C87_readme {T} `{NumOps T} strtod accepts (absdiff : T -> T -> T) (small : T -> bool) init_error localities gen algorithm :
  ~ occurs " " algorithm -> algorithm <> ""%string -> accepts "--hpx:threads=4"%string = true ->
  command strtod accepts absdiff small init_error localities gen (readme_args algorithm) =
  Some (main absdiff small (readme_options (rel64 five_percent) algorithm) localities gen).
Proof. intros H1 H2 H3. unfold command. rewrite readme_parse by assumption. rewrite H3, readme_extract. reflexivity. Qed.
Print Assumptions C87_readme.
(** C87: four of the five return the product. *)
Theorem C87_readme_runs strtod accepts init_error localities (gen : nat -> binary64) name :
  name ∈ ["single"; "kernel_tiled"; "pseudodynamic"; "kernel_test"]%string -> accepts "--hpx:threads=4"%string = true -> (0 < localities)%nat ->
  let n := Z.to_nat 8192 in
  (forall i, (i < n * n)%nat -> finite64 (gen i) = true /\ neg64 (gen i) = false) ->
  exists a, command strtod accepts absdiff64 small64 init_error localities gen (readme_args name) = Some a /\
    app_always (fun _ => False) a (eq (Outcome 0 false None (gen <$> seq 0 (n * n)))).
Proof.
  intros Hn Ha Hl n Hg. exists (main absdiff64 small64 (readme_options (rel64 five_percent) name) localities gen). split.
  - assert (Hx : ~ occurs " " name /\ name <> ""%string).
    { clear - Hn. repeat (apply elem_of_cons in Hn as [->|Hn]; [split; [apply occurs_has; reflexivity|discriminate]|]).
      apply elem_of_nil in Hn. contradiction. }
    apply C87_readme; [exact (proj1 Hx)|exact (proj2 Hx)|exact Ha].
  - exact (C84_readme (rel64 five_percent) name localities gen Hn Hl Hg).
Qed.
Print Assumptions C87_readme_runs.
(** C87: that the fifth does so is refuted: the exception is thrown. *)
Theorem C87_readme_combined_refuted {T} `{NumOps T} strtod accepts (absdiff : T -> T -> T) (small : T -> bool) init_error localities gen :
  accepts "--hpx:threads=4"%string = true ->
  exists a, command strtod accepts absdiff small init_error localities gen (readme_args "combined") = Some a /\
    app_fails (fun e => e = EException) a.
Proof.
  intros Ha. exists (main absdiff small (readme_options (rel64 five_percent) "combined") localities gen). split.
  - apply C87_readme; [apply occurs_has; reflexivity|discriminate|exact Ha].
  - exact (C84_readme_combined_refuted absdiff small (rel64 five_percent) localities gen).
Qed.
Print Assumptions C87_readme_combined_refuted.
(** C87: the words that the tests hand to HPX ask for the threads they need. *)
Theorem C87_runner bind threads : Forall foreign (runner_args bind threads) /\
  exists text, ("--hpx:threads=" ++ text)%string ∈ runner_args bind threads /\ decimal text threads.
Proof. exact (runner_words bind threads). Qed.
Print Assumptions C87_runner.
(** C87: that DISABLE_BIND_FOR_CIRCLE_CI hands the option --hpx:bind to HPX is
    refuted: there is a blank before it, so that it is a plain word. *)
Theorem C87_runner_bind_refuted threads : (forall w, w ∈ runner_args true threads -> ~ begins "--hpx:bind" w) /\
  exists w, w ∈ runner_args true threads /\ ~ begins "-" w.
Proof.
  split; [exact (runner_bind true threads)|]. exists " --hpx:bind=none"%string. split; [right; left|]. intros [q Hq]. discriminate.
Qed.
Print Assumptions C87_runner_bind_refuted.
