(** What the programs write to the standard output, and how evaluate.py reads it.
    Definitions only. *)
From Coq Require Import ZArith Ascii String.
From Flocq Require Import IEEE754.Binary IEEE754.Bits.
From Verif Require Import Base MDouble MPrint MBench MReport MApp.
Local Open Scope string_scope.

(** std::endl *)
Definition newline : string := String (ascii_of_nat 10) "".
(** One statement [os << a << b << ...] *)
Definition put (parts : list string) : string := fold_right append "" parts.
Definition show_nat (n : nat) : string := show_int (N.of_nat n).

(** * The application *)

(** What a run depends on besides the options: the durations measured around the
    algorithm (matrix_multiply.cpp:227 and 325), inside it (combined.cpp:329,
    kernel_tiled.cpp:493) and around the reference (matrix_multiply.cpp:381), and
    the names of the localities that compute. *)
Record clocks := Clocks { c_total : binary64; c_inner : binary64; c_reference : binary64; c_ids : list string }.

Section Application.
  Context (o : options) (c : clocks).
  Let N := show_nat (o_n o).
  Let reps := Z.of_nat (o_repetitions o).
  Let size := Z.of_nat (o_n o).
  Let double (x : binary64) := show64 6 x.

  (** combined.cpp:332 and 364-370, kernel_tiled.cpp:496 and 537-543 *)
  Definition inner_chunks : list string :=
    let X := (o_n o + padding (o_n o) (L3_X shipped))%nat in
    let Y := (o_n o + padding (o_n o) (L3_Y shipped))%nat in
    let K := (o_n o + padding (o_n o) (L3_K shipped))%nat in
    [put ["duration inner: "; double (c_inner c); "s"; newline];
     put ["[X_size = "; show_nat X; ", Y_size = "; show_nat Y; ", K_size = "; show_nat K; "] inner performance: ";
          double (performance64 reps (Z.of_nat X) (Z.of_nat Y) (Z.of_nat K) (c_inner c));
          "Gflops (average across repetitions)"; newline]].

  (** matrix_multiply.cpp:228-233, 326-330 and 340-344; [pre] is "" or "non-HPX " *)
  Definition time_chunks (pre : string) (duration : binary64) : list string :=
    [put [pre ++ "[N = "; N; "] total time: "; double duration; "s"; newline];
     put [pre ++ "[N = "; N; "] average time per run: "; double (average64 reps duration);
          "s (repetitions = "; show_nat (o_repetitions o); ")"; newline]].

  (** matrix_multiply.cpp:173-176, 188-191 and 203-206: no end of line *)
  Definition warning_chunks (algorithm : string) : list string :=
    if (1 <? o_repetitions o)%nat
    then [put ["warning: algorithm """; algorithm; """ doesn't support the ""repetitions"" parameter"]] else [].

  (** static_improved.cpp:198-217 *)
  Definition static_chunks : list string :=
    put ["using pseudodynamic distributed algorithm"; newline] ::
    match c_ids c with
    | [] => []
    | ids => put ["info: root node is not used for computation"; newline] ::
             map (fun id => put ["computing on id: "; id; newline]) ids
    end.

  (** hpx_main, matrix_multiply.cpp:59 and 134-233, for --verbose=0 and without
      --help; [c_ids] is empty if there is one locality only. *)
  Definition hpx_chunks : list string :=
    let a := o_algorithm o in
    let times := time_chunks "" (c_total c) in
    put ["in HPX main"; newline] ::
    (if a =? "single" then put ["using parallel single node algorithm"; newline] :: times
     else if a =? "pseudodynamic" then (static_chunks ++ times)%list
     else if a =? "algorithms" then (warning_chunks "looped" ++ times)%list
     else if a =? "looped" then (warning_chunks "looped" ++ times)%list
     else if a =? "semi" then (warning_chunks "semi" ++ times)%list
     else if a =? "combined" then (inner_chunks ++ times)%list
     else if a =? "proposal" then times
     else []).

  (** matrix_multiply.cpp:357-418; [duration] is the global variable, [verdict] the
      result of the check if it is made.  %1% in a boost::format is operator<<. *)
  Definition report_chunks (duration : binary64) (verdict : option bool) : list string :=
    put ["[N = "; N; "] performance: "; double (performance64 reps size size size duration);
         "Gflops (average across repetitions)"; newline] ::
    match verdict with
    | None => []
    | Some ok =>
        ((if (1 <? o_repetitions o)%nat then [put ["info: repetitions > 1: checking only last iteration"; newline]] else []) ++
         [put ["naive matMult took "; double (c_reference c); " [s]"; newline];
          put ["[N = "; N; "] performance reference: "; double (reference64 size (c_reference c));
               " Gflops (reference implementation)"; newline];
          put [if ok then "check passed" else "error: check failed!"; newline]])%list
    end.

  (** main, matrix_multiply.cpp:315-418.  The pieces that are written by one
      statement each, in program order. *)
  Definition app_chunks (verdict : option bool) : list string :=
    put ["before HPX"; newline] :: (hpx_chunks ++ put ["after HPX"; newline] ::
    (if o_algorithm o =? "kernel_test" then time_chunks "non-HPX " (c_total c) ++ report_chunks (c_total c) verdict
     else if o_algorithm o =? "kernel_tiled" then
       inner_chunks ++ time_chunks "non-HPX " (c_inner c) ++ report_chunks (c_inner c) verdict
     else if known_algorithm (o_algorithm o) then report_chunks (c_total c) verdict
     else [put [""""; o_algorithm o; """ not a valid algorithm"; newline]]))%list.
End Application.

(** * evaluate.py *)

(** What is left of [s] behind the prefix [p] *)
Fixpoint behind (p s : string) : option string :=
  match p, s with
  | EmptyString, _ => Some s
  | String a p, String b s => if (a =? b)%char then behind p s else None
  | String _ _, EmptyString => None
  end.
(** The pattern (.*?)stop at the beginning of [s]: the group.  The dot does not
    match the end of a line. *)
Fixpoint lazy_group (stop s : string) : option string :=
  match behind stop s with
  | Some _ => Some ""
  | None =>
      match s with
      | EmptyString => None
      | String a s => if (a =? ascii_of_nat 10)%char then None else option_map (String a) (lazy_group stop s)
      end
  end.
(** evaluate.py:21-23: re.search(r'<lit>(.*?)<stop>', s).group(1) *)
Fixpoint search (lit stop s : string) : option string :=
  match match behind lit s with Some r => lazy_group stop r | None => None end with
  | Some g => Some g
  | None => match s with EmptyString => None | String _ s => search lit stop s end
  end.
(** The three searches on a standard output.  None: re.search returns None and
    .group raises an exception. *)
Definition total_time (s : string) := search "total time: " "s" s.
Definition average_time (s : string) := search "average time per run: " "s" s.
Definition performance (s : string) := search "performance: " "Gflops" s.

(** evaluate.py:6-10, 40-41, 47-48, 54-55: the options of the ten runs (their command
    lines are in MCmdline.v).  Not modelled: that the script is written for Python 2
    although its first line names python3.4. *)
Definition evaluate_options (rel : Z -> Z -> bool) (n repetition blockInput : nat) : options :=
  Options n true repetition 0 128 blockInput false "pseudodynamic" 256 0 rel false.
Definition evaluate_runs (rel : Z -> Z -> bool) : list options :=
  flat_map (fun blockInput => map (fun p => evaluate_options rel (Z.to_nat p.1) p.2 blockInput)
    [(512%Z, 10); (1024%Z, 10); (2048%Z, 5); (4096%Z, 2); (8192%Z, 1)]) [128; 0].

(** The options of the commands in README.md:58, 68, 79, 93 and 103; what is not
    given there has its default value. *)
Definition readme_options (rel : Z -> Z -> bool) (algorithm : string) : options :=
  Options (Z.to_nat 8192) true 1 0 128 128 false algorithm 256 10000 rel false.

(** * The benchmark *)

(** otherExperiments/benchmark.cpp:65, 67-70, 127-130, 136-140 and 152 for a run
    whose outcome is [r] and whose kernel takes [ticks] nanoseconds; the precision
    set in line 65 stays set. *)
Definition bench_chunks (n : Z) (argv : list string) (ticks : Z) (r : bench_run binary64) : list string :=
  put ["total flops 2n^3 -> "; show64 12 (bench_flops64 n); newline] ::
  match b_check r with
  | None => [put [match argv with [_] => "no implementation specified: exiting"
                             | _ => "unknown implementation specified: exiting" end; newline]]
  | Some check =>
      [put ["gflop: "; show64 12 (div64 (bench_flops64 n) giga); newline];
       put ["seconds: "; show64 12 (bench_seconds64 ticks); newline];
       put [show64 12 (bench_gflops64 n ticks); " Gflops"; newline];
       put ["check: "; show64 12 check; newline]]
  end.
