(** C48, C57, C58: the application and the proposal variant.  A number type with
    no laws at all stands for the doubles; [absdiff] and [small] are the
    comparison of the check, [gen k] is the k-th generated random number. *)
From Verif Require Import Base Conc Num Spec SpecTiled SpecSched SpecApp PTiled5 PProposal PApp PApp2 MApp.

Section Properties10.
  Context {T : Type} `{NumOps T}.
  Context (absdiff : T -> T -> T) (small : T -> bool) (o : options) (localities : nat) (gen : nat -> T).
  Notation N := (o_n o).
  Notation A := (gen <$> seq 0 (N * N)).
  Notation main := (main absdiff small o localities gen).
  Notation same x y := (small (absdiff x y) = true).

  (** C48: an accepted name runs the named computation on A and the identity, and
      nothing else that could change the outcome. *)
  Theorem C48_dispatch v : o_help o = false -> (o_algorithm o, v) ∈ accepted -> flag_ok o v ->
    exists B, is_identity N B /\ same_behaviour main (ACall (computation o localities v A B) (report absdiff small o A B)).
  Proof. exact (main_dispatch absdiff small o localities gen v). Qed.
  Theorem C48_wrong_flag v : o_help o = false -> (o_algorithm o, v) ∈ accepted -> ~ flag_ok o v ->
    app_fails (fun e => e = EException) main.
  Proof. exact (main_wrong_flag absdiff small o localities gen v). Qed.
  Theorem C48_unknown_name : o_help o = false -> o_algorithm o ∉ accepted.*1 ->
    app_always (fun _ => False) main (fun r => r = Outcome 1 true None []).
  Proof. exact (main_unknown absdiff small o localities gen). Qed.
  (** --help computes nothing, unless the name is one of the two variants that
      run after hpx::init: these then run on empty matrices. *)
  Theorem C48_help : o_help o = true -> o_algorithm o <> "kernel_test"%string -> o_algorithm o <> "kernel_tiled"%string ->
    main = ADone (Outcome 0 false None []).
  Proof. exact (main_help absdiff small o localities gen). Qed.
  Theorem C48_help_kernel_test : o_help o = true -> o_algorithm o = "kernel_test"%string -> 0 < N ->
    app_fails (fun e => e = EOob) main.
  Proof. exact (main_help_kernel_test absdiff small o localities gen). Qed.
  Theorem C48_help_kernel_tiled : o_help o = true -> o_algorithm o = "kernel_tiled"%string -> 0 < N ->
    app_fails (fun e => e = EOutOfRange) main.
  Proof. exact (main_help_kernel_tiled absdiff small o localities gen). Qed.

  (** C57: proposal never returns. *)
  Theorem C57_proposal_shipped n (M M' : list T) : length M = n * n -> length M' = n * n ->
    proposal_matrix_multiply shipped 128 n M M' = Err (if n <=? 256 then EOob else ENoReturn).
  Proof. exact (proposal_shipped n M M'). Qed.
  Theorem C57_proposal_any_constants b tile_size n (M M' : list T) :
    verify_blocking_setup b = true -> 0 < L3_X b -> 0 < L3_Y b -> 0 < L3_K b ->
    length M = n * n -> length M' = n * n ->
    exists e, is_ub e = true /\ proposal_matrix_multiply b tile_size n M M' = Err e.
  Proof. intros Hv HX HY HK. exact (proposal_ub b tile_size n M M' Hv HX HY HK). Qed.

  (** C58: whenever the chosen variant suits the size, the run ends with status
      0, C = A and a positive check, in every schedule; the only race is the one
      of combined.cpp. *)
  Theorem C58_end_to_end v : o_help o = false -> (o_algorithm o, v) ∈ accepted -> flag_ok o v -> suitable o localities v ->
    unit_on (nzero : T) -> (forall k, k < N * N -> unit_on (gen k) /\ same (gen k) (gen k)) ->
    app_always (tolerated v) main (fun r => r = Outcome 0 false (if o_check o then Some true else None) A).
  Proof. exact (app_end_to_end o localities absdiff small gen v). Qed.
  (** The default command line is out of bounds. *)
  Theorem C58_default_command_line rel : app_fails (fun e => e = EOob) (MApp.main absdiff small (default_options rel) localities gen).
  Proof. exact (main_default absdiff small localities gen rel). Qed.
  (** --repetitions=0 with --algorithm=single. *)
  Theorem C58_single_no_repetition : o_help o = false -> o_algorithm o = "single"%string -> o_repetitions o = 0 ->
    o_check o = true -> 0 < N ->
    if decide (o_verbose o < 2) then app_always (fun _ => False) main (fun r => r = Outcome 0 false (Some false) [])
    else app_fails (fun e => e = EOutOfRange) main.
  Proof. exact (main_single_no_repetition absdiff small o localities gen). Qed.

  (** C47: the check compares with the product selected by --transposed. *)
  Theorem C47_check v r : o_help o = false -> (o_algorithm o, v) ∈ accepted -> flag_ok o v -> app_ends main (Ok r) ->
    r_status r = 0 /\ r_invalid r = false /\
    exists B, is_identity N B /\ may_return (computation o localities v A B) (r_C r) /\
      if o_check o then exists ok, r_check r = Some ok /\
          is_verdict (fun x y => same x y) N (pentry (o_transposed o) N A B) (r_C r) ok
      else r_check r = None.
  Proof. exact (app_check absdiff small o localities gen v r). Qed.
  Theorem C58_combined_repetitions `{!Exact T} `{!UnitLaws T} k : o_help o = false -> o_algorithm o = "combined"%string ->
    o_transposed o = false -> o_check o = true ->
    k < N * N -> ~ same (times (o_repetitions o) (gen k)) (gen k) ->
    app_always (tolerated Combined) main (fun r => r_status r = 0 /\ r_check r = Some false).
  Proof.
    intros Hh Ha Ht Hc Hk Hs.
    exact (main_combined_reps absdiff small o localities gen k Hh Ha Ht Hc Hk (not_true_is_false _ Hs)).
  Qed.
End Properties10.

Print Assumptions C48_dispatch.
Print Assumptions C48_wrong_flag.
Print Assumptions C48_unknown_name.
Print Assumptions C48_help.
Print Assumptions C48_help_kernel_test.
Print Assumptions C48_help_kernel_tiled.
Print Assumptions C57_proposal_shipped.
Print Assumptions C57_proposal_any_constants.
Print Assumptions C58_end_to_end.
Print Assumptions C58_default_command_line.
Print Assumptions C58_single_no_repetition.
Print Assumptions C47_check.
Print Assumptions C58_combined_repetitions.
