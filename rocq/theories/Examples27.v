(** Cases for C87. *)
From Coq Require Import ZArith NArith Reals Ascii String Psatz.
From stdpp Require Import list.
From Flocq Require Import Core IEEE754.Binary IEEE754.Bits.
From Verif Require Import Base Conc ConcFacts Num MDouble SpecRound SpecBench MPrint SpecPrint MBalance MReport MTranscript MCeil Examples24 Properties27
  MCmdline PCmdline PCmdline2 PCmdline3 PCmdline4 PCmdline5 MApp SpecApp SpecReport SpecTranscript SpecCmdline.
Local Open Scope string_scope.

(** A strtod that knows one number, and an HPX that knows two of its options *)
Definition strtod (s : string) : option binary64 := if s =? "0.05" then Some five_percent else None.
Definition some_hpx (w : string) : bool := (w =? "--hpx:threads=4") || (w =? "--hpx:cores=16").
Definition line : list string :=
  ["--n-value=16"; "--transposed"; "OFF"; "--hpx:threads=4"; "--rep=+03"; "--max-r"; "0.05"; "--algorithm=semi"; "--help"].
Definition line_set : list (string * value) :=
  [("n-value", VUnsigned 16); ("transposed", VBool false); ("repetitions", VUnsigned 3); ("max-relative-work-difference", VDouble five_percent);
   ("algorithm", VString "semi"); ("help", VString "")].
Lemma line_parse : parse strtod some_hpx [] line = Parsed (reverse line_set).
Proof. vm_compute. reflexivity. Qed.
Lemma line_sets : sets strtod some_hpx line_set line /\ NoDup line_set.*1.
Proof.
  destruct (proj1 (proj1 (C87_accepted strtod some_hpx line) _) line_parse) as (l&H1&H2&E).
  assert (l = line_set) as -> by (rewrite <- (reverse_involutive l), <- E; apply reverse_involutive). done.
Qed.
Example ex_C87_command : exists o, command strtod some_hpx absdiff64 small64 7 2 mod7 line = Some (main absdiff64 small64 o 2 mod7) /\
  o_n o = 16 /\ o_transposed o = false /\ o_repetitions o = 3 /\ o_check o = false /\ o_algorithm o = "semi" /\ o_help o = true.
Proof.
  destruct (C87_command strtod some_hpx absdiff64 small64 7 2 mod7 line line_set (proj1 line_sets) (proj2 line_sets)) as (o&_&E).
  eexists. split; [reflexivity|]. done.
Qed.
(** Twice, too large, no number, unknown, two options that begin so, no value, a value for a flag *)
Definition wrong_lines : list (list string) :=
  [["--n-value=16"; "--n-value=16"]; ["--n-value=18446744073709551616"]; ["--n-value=0x10"]; ["--small-block-size=128"]; ["--max=3"];
   ["--h"]; ["--verbose"]; ["--help=yes"]; ["--check=maybe"]; ["--algorithm="]].
Example ex_wrong : Forall (fun args => parse strtod some_hpx [] args = Rejected) wrong_lines.
Proof. repeat (apply Forall_cons; split; [vm_compute; reflexivity|]). by apply Forall_nil. Qed.
Lemma wrong_number : ~ (exists l, sets strtod some_hpx l ["--n-value=0x10"] /\ NoDup l.*1) /\ ~ dash_value ["--n-value=0x10"].
Proof.
  split.
  - intros (l&H1&H2). assert (E : parse strtod some_hpx [] ["--n-value=0x10"] = Parsed (reverse l)) by (apply C87_accepted; exists l; done).
    vm_compute in E. discriminate.
  - intros (before&p&r&text&rest&E&_). by destruct before as [|? [|? ?]].
Qed.
Example ex_C87_rejected := C87_rejected strtod some_hpx absdiff64 small64 7 2 mod7 ["--n-value=0x10"] (proj1 wrong_number) (proj2 wrong_number).
(** The largest number that is accepted, and the negative ones *)
Example ex_largest : cast_unsigned "18446744073709551615" = Some (2 ^ 64 - 1)%N /\ cast_unsigned "-1" = Some (2 ^ 64 - 1)%N /\
  cast_unsigned "-18446744073709551616" = None /\ cast_unsigned "-0" = Some 0%N /\ cast_unsigned "- 1" = None /\ cast_unsigned "" = None.
Proof. vm_compute. done. Qed.
Example ex_C87_negative := C87_negative_refuted strtod some_hpx absdiff64 small64 7 2 mod7 1 ltac:(lia).
(** The words of the script's first call *)
Example ex_evaluate_words : evaluate_args 512 10 true 128 =
  ["--n-value=512"; "--repetitions=10"; "--small-block-size=128"; "--verbose=0"; "--check=false"; "--algorithm=pseudodynamic"; "--hpx:cores=16";
   "--hpx:thread=16"; "--max-work-difference=0"; "--transposed=True"; "--block-input=128"].
Proof. vm_compute. done. Qed.
Definition lenient (w : string) : bool := true.
Lemma all_accepted : Forall (fun w => lenient w = true) ["--small-block-size=128"; "--hpx:cores=16"; "--hpx:thread=16"].
Proof. repeat (apply Forall_cons; split; [done|]). by apply Forall_nil. Qed.
Example ex_C87_evaluate := C87_evaluate strtod lenient absdiff64 small64 7 2 mod7 512 10 false 128 ltac:(lia) ltac:(lia) ltac:(lia) all_accepted.
Example ex_C87_stops := C87_evaluate_stops strtod some_hpx absdiff64 small64 7 2 mod7 512 10 true 128 three None ltac:(lia) ltac:(lia) ltac:(lia)
  ltac:(apply Exists_cons_hd; vm_compute; reflexivity).
Lemma last_call : (8192%N, 1%N, true, 0%N) ∈ evaluate_calls.
Proof. apply elem_of_list_In. cbn. tauto. Qed.
Example ex_C87_runs := C87_evaluate_runs strtod lenient 7 3 mod7 _ _ _ _ (Clocks (double_of 3) (double_of 0) (double_of 0) (c_ids three))
  all_accepted last_call ltac:(lia) (fun i _ => mod7_good i) three_names three_measurable.
Example ex_ten_calls : length evaluate_calls = 10.
Proof. reflexivity. Qed.
Example ex_C87_readme := C87_readme strtod some_hpx absdiff64 small64 7 2 mod7 "strassen" ltac:(apply occurs_has; reflexivity) ltac:(discriminate) eq_refl.
Example ex_C87_readme_runs := C87_readme_runs strtod some_hpx 7 1 mod7 "kernel_tiled" ltac:(apply elem_of_list_In; cbn; tauto) eq_refl ltac:(lia) (fun i _ => mod7_good i).
Example ex_C87_combined := C87_readme_combined_refuted strtod some_hpx absdiff64 small64 7 1 mod7 eq_refl.
Example ex_C87_runner : runner_args true 4 = ["--hpx:threads=4"; " --hpx:bind=none"] /\ runner_args false 16 = ["--hpx:threads=16"].
Proof. vm_compute. done. Qed.
