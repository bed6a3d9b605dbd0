(** What matrix_multiply.cpp and the algorithms write with --verbose.  Definitions
    only. *)
From Coq Require Import ZArith Ascii String.
From Flocq Require Import IEEE754.Binary IEEE754.Bits.
From Verif Require Import Base MDouble MPrint MBench MReport MSchedule MApp MTranscript.
Local Open Scope string_scope.

(** src/variants/components/recursive.cpp:42-44; [here] is how hpx::find_here() is printed. *)
Definition chunk_work (here : string) (x y blockSize : nat) : string :=
  put [here; " work on x: "; show_nat x; ", y: "; show_nat y; " blockSize: "; show_nat blockSize; newline].
(** recursive.cpp:55-57 *)
Definition chunk_large (blockSize : nat) : string :=
  put ["handling large matrix, more work... (blocksize == "; show_nat blockSize; ")"; newline].
(** recursive.cpp:37-94: what distribute_recursively and the calls below it write.  The
    fuel is as in MRecursive.v.  The calls run in parallel; this is one order. *)
Fixpoint trace (fuel block_result : nat) (here : string) (x y blockSize : nat) : list string :=
  chunk_work here x y blockSize ::
  match fuel with
  | O => []
  | S fuel' =>
      if (blockSize <=? block_result)%nat then []
      else
        let n_new := (blockSize / 2)%nat in
        chunk_large blockSize ::
        flat_map (fun p => trace fuel' block_result here (x + p.1) (y + p.2) n_new) [(0, 0); (n_new, 0); (0, n_new); (n_new, n_new)]
  end.
Definition work_trace (block_result : nat) (here : string) (x y blockSize : nat) : list string :=
  trace blockSize block_result here x y blockSize.

(** static_improved.cpp:15-29 *)
Definition schedule_chunks (all_work : list (list work)) : list string :=
  put ["-----work-distribution:-----"; newline] ::
  concat (imap (fun i ws =>
    put ["locality: "; show_nat i; " = "] ::
    concat (imap (fun j w => ((if (0 <? j)%nat then [", "] else []) ++ [put ["["; show_int (Z.to_N (wN w)); "]"]])%list) ws) ++
    [newline])%list all_work).
(** static_improved.cpp:244-272: the packages of one repetition; [name] is what
    find_here() is on the locality with index i. *)
Definition packages_trace (block_result : nat) (name : nat -> string) (all_work : list (list work)) : list string :=
  concat (imap (fun i ws => flat_map (fun w =>
    work_trace block_result (name i) (Z.to_nat (wx w)) (Z.to_nat (wy w)) (Z.to_nat (wN w))) ws) all_work).

Section Verbose.
  Context (o : options) (c : clocks) (num_localities : nat).
  (** How the root locality is printed; [c_ids] has the others. *)
  Context (here : string).
  (** The matrices of the run and the difference to the reference (line 421) *)
  Context (A B C Cref diff : list binary64).

  Definition at_level (v : nat) (l : list string) : list string := if (v <=? o_verbose o)%nat then l else [].

  (** util.hpp:5-16, 56-66 and 80-90.  The matrices have N*N elements, see MApp.v. *)
  Definition matrix_chunks (index : nat -> nat -> nat) (m : list binary64) : list string :=
    flat_map (fun i =>
      flat_map (fun j => ((if (0 <? j)%nat then [", "] else []) ++ [show64 6 (nth (index i j) m (B754_zero 53 1024 false))])%list) (seq 0 (o_n o)) ++ [newline])%list
      (seq 0 (o_n o)).
  Definition by_rows (i j : nat) : nat := i * o_n o + j.
  Definition by_columns (i j : nat) : nat := j * o_n o + i.

  (** matrix_multiply.cpp:91-94 and 120-127 *)
  Definition input_chunks : list string :=
    (put ["matrix A:"; newline] :: matrix_chunks by_rows A ++
     put ["matrix B:"; newline] :: matrix_chunks (if o_transposed o then by_columns else by_rows) B)%list.
  (** matrix_multiply.cpp:235-238 and 332-335, 346-349; [pre] is "" or "non-HPX " *)
  Definition result_chunks (pre : string) : list string :=
    put [pre ++ "matrix C:"; newline] :: matrix_chunks by_rows C.
  (** kernel_tiled.cpp:84-97, combined.cpp:81-94, proposal.cpp:91-104 *)
  Definition padding_chunks : list string :=
    let x := padding (o_n o) (L3_X shipped) in
    let y := padding (o_n o) (L3_Y shipped) in
    let k := padding (o_n o) (L3_K shipped) in
    [put ["matrix padding: x_pad = "; show_nat x; ", y_pad = "; show_nat y; ", k_pad = "; show_nat k; newline];
     put ["matrix dimensions for calculation: X = "; show_nat (o_n o + x); ", Y = "; show_nat (o_n o + y);
          ", K = "; show_nat (o_n o + k); newline]].
  (** matrix_multiply.cpp:169-172, 184-187 and 199-202: no end of line *)
  Definition unsupported_chunks (algorithm : string) : list string :=
    [put ["warning: algorithm """; algorithm; """ doesn't support the ""verbose"" parameter"]].
  (** matrix_multiply.cpp:150-155 *)
  Definition single_chunks : list string :=
    flat_map (fun _ => work_trace (o_block_result o) here 0 0 (o_n o)) (seq 0 (o_repetitions o)).
  (** static_improved.cpp:163-169 and 239-272; the message in line 165 is written if the
      loop of lines 86-192 ends although the balance is not reached. *)
  Definition pseudodynamic_chunks : list string :=
    let localities := if (1 <? num_localities)%nat then (num_localities - 1)%nat else num_localities in
    let N := Z.of_nat (o_n o) in
    match create_schedule_state N (o_min_work_size o) (o_max_work_difference o) (o_rel o) (S (o_n o * o_n o * o_n o)) localities with
    | Ok s =>
        ((match fulfills_constraints (o_max_work_difference o) (o_rel o) (total_work s) with
          | Ok false => [put ["aborted due to no valid work package to distribute found"; newline]]
          | _ => []
          end) ++
         schedule_chunks (all_work s) ++
         flat_map (fun _ => packages_trace (o_block_result o) (fun i => nth i (c_ids c) here) (all_work s)) (seq 0 (o_repetitions o)))%list
    | Fail _ => []
    end.

  (** hpx_main, matrix_multiply.cpp:59 and 91-238, without --help *)
  Definition hpx_chunks_verbose : list string :=
    let a := o_algorithm o in
    let times := (time_chunks o "" (c_total c) ++ at_level 2 (result_chunks ""))%list in
    (put ["in HPX main"; newline] :: at_level 2 input_chunks ++
    (if a =? "single" then put ["using parallel single node algorithm"; newline] :: at_level 1 single_chunks ++ times
     else if a =? "pseudodynamic" then static_chunks c ++ at_level 1 pseudodynamic_chunks ++ times
     else if a =? "algorithms" then at_level 1 (unsupported_chunks "looped") ++ warning_chunks o "looped" ++ times
     else if a =? "looped" then at_level 1 (unsupported_chunks "looped") ++ warning_chunks o "looped" ++ times
     else if a =? "semi" then at_level 1 (unsupported_chunks "semi") ++ warning_chunks o "semi" ++ times
     else if a =? "combined" then at_level 1 padding_chunks ++ inner_chunks o c ++ times
     else if a =? "proposal" then at_level 1 padding_chunks ++ times
     else []))%list.

  (** matrix_multiply.cpp:357-428 *)
  Definition report_chunks_verbose (duration : binary64) (verdict : option bool) : list string :=
    put ["[N = "; show_nat (o_n o); "] performance: ";
         show64 6 (performance64 (Z.of_nat (o_repetitions o)) (Z.of_nat (o_n o)) (Z.of_nat (o_n o)) (Z.of_nat (o_n o)) duration);
         "Gflops (average across repetitions)"; newline] ::
    match verdict with
    | None => []
    | Some ok =>
        ((if (1 <? o_repetitions o)%nat then [put ["info: repetitions > 1: checking only last iteration"; newline]] else []) ++
         [put ["naive matMult took "; show64 6 (c_reference c); " [s]"; newline];
          put ["[N = "; show_nat (o_n o); "] performance reference: "; show64 6 (reference64 (Z.of_nat (o_n o)) (c_reference c));
               " Gflops (reference implementation)"; newline]] ++
         at_level 2 (put ["matrix Cref:"; newline] :: matrix_chunks by_rows Cref) ++
         [put [if ok then "check passed" else "error: check failed!"; newline]] ++
         at_level 2 (put ["diff_matrix:"; newline] :: matrix_chunks by_rows diff))%list
    end.

  (** main, matrix_multiply.cpp:315-430 *)
  Definition app_chunks_verbose (verdict : option bool) : list string :=
    let host := time_chunks o "non-HPX " in
    put ["before HPX"; newline] :: (hpx_chunks_verbose ++ put ["after HPX"; newline] ::
    (if o_algorithm o =? "kernel_test" then
       host (c_total c) ++ at_level 2 (result_chunks "non-HPX ") ++ report_chunks_verbose (c_total c) verdict
     else if o_algorithm o =? "kernel_tiled" then
       at_level 1 padding_chunks ++ inner_chunks o c ++ host (c_inner c) ++ at_level 2 (result_chunks "non-HPX ") ++
       report_chunks_verbose (c_inner c) verdict
     else if known_algorithm (o_algorithm o) then report_chunks_verbose (c_total c) verdict
     else [put [""""; o_algorithm o; """ not a valid algorithm"; newline]]))%list.
End Verbose.
