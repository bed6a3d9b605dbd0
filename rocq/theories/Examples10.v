(** Non-trivial instances of the theorems in Properties10.v, over the integers. *)
From Verif Require Import Base Conc Num Spec SpecTiled SpecSched SpecApp PTiled5 PApp2 Properties10 MApp.

Definition zabs (x y : Z) : Z := Z.abs (x - y).
Definition zsmall (x : Z) : bool := (x <? 1)%Z.
Definition zgen (k : nat) : Z := Z.of_nat (3 * k + 1).
Definition relz (a b : Z) : bool := (a <? b)%Z.
(** n transposed repetitions verbose block_result block_input check algorithm *)
Definition opt n tr reps verb br bi alg := Options n tr reps verb br bi true alg 16 10000 relz false.

Lemma z_unit (x : Z) : unit_on x.
Proof. unfold unit_on. cbn. lia. Qed.
Lemma z_same (x : Z) : zsmall (zabs x x) = true.
Proof. unfold zsmall, zabs. apply Z.ltb_lt. lia. Qed.

(** The nine names. *)
Example ex_C48_names : accepted.*1 =
  ["single"; "pseudodynamic"; "algorithms"; "looped"; "semi"; "combined"; "proposal"; "kernel_test"; "kernel_tiled"]%string.
Proof. reflexivity. Qed.
Example ex_C48_dispatch := C48_dispatch zabs zsmall (opt 8 true 1 2 4 4 "semi") 1 zgen Semi eq_refl ltac:(set_solver) eq_refl.
Example ex_C48_flag : app_fails (fun e => e = EException) (main zabs zsmall (opt 8 false 1 0 4 4 "semi") 1 zgen).
Proof. apply (C48_wrong_flag _ _ _ _ _ Semi); [reflexivity|set_solver|discriminate]. Qed.
Example ex_C48_flag_combined : app_fails (fun e => e = EException) (main zabs zsmall (opt 8 true 1 0 4 4 "combined") 1 zgen).
Proof. apply (C48_wrong_flag _ _ _ _ _ Combined); [reflexivity|set_solver|discriminate]. Qed.
Example ex_C48_unknown : app_always (fun _ => False) (main zabs zsmall (opt 8 true 1 2 4 4 "Semi") 1 zgen) (fun r => r = Outcome 1 true None []).
Proof.
  apply C48_unknown_name; [reflexivity|]. cbn. rewrite !elem_of_cons, elem_of_nil.
  intros [?|[?|[?|[?|[?|[?|[?|[?|[?|[]]]]]]]]]]; discriminate.
Qed.
Example ex_C48_help : main zabs zsmall (Options 8 true 1 0 4 4 true "semi" 16 10000 relz true) 1 zgen = ADone (Outcome 0 false None []).
Proof. apply C48_help; [reflexivity|discriminate|discriminate]. Qed.
Example ex_C48_help_test := C48_help_kernel_test zabs zsmall (Options 8 true 1 0 4 4 true "kernel_test" 16 10000 relz true) 1 zgen eq_refl eq_refl.
Example ex_C48_help_tiled := C48_help_kernel_tiled zabs zsmall (Options 8 true 1 0 4 4 true "kernel_tiled" 16 10000 relz true) 1 zgen eq_refl eq_refl.

Example ex_C57 : proposal_matrix_multiply shipped 128 2 [1%Z; 2%Z; 3%Z; 4%Z] [1%Z; 0%Z; 0%Z; 1%Z] = Err EOob.
Proof. exact (C57_proposal_shipped 2 [1%Z; 2%Z; 3%Z; 4%Z] [1%Z; 0%Z; 0%Z; 1%Z] eq_refl eq_refl). Qed.
Example ex_C57_large (M M' : list Z) : length M = 300 * 300 -> length M' = 300 * 300 ->
  proposal_matrix_multiply shipped 128 300 M M' = Err ENoReturn.
Proof. exact (C57_proposal_shipped 300 M M'). Qed.
Example ex_C57_constants : exists e, is_ub e = true /\
  proposal_matrix_multiply (MTiled.Blocks 40 64 32 20 32 16 10 16 8) 10 2 [1%Z; 2%Z; 3%Z; 4%Z] [1%Z; 0%Z; 0%Z; 1%Z] = Err e.
Proof. apply C57_proposal_any_constants; try reflexivity; cbn; lia. Qed.

(** One suitable command line for each of the eight variants that work. *)
Definition ends_well v o loc_ : Prop :=
  app_always (tolerated v) (main zabs zsmall o loc_ zgen) (fun r => r = Outcome 0 false (Some true) (zgen <$> seq 0 (o_n o * o_n o))).
Lemma ends_intro v o l : o_help o = false -> o_check o = true -> (o_algorithm o, v) ∈ accepted -> flag_ok o v -> suitable o l v -> ends_well v o l.
Proof.
  intros Hh Hc Hin Hf Hs. unfold ends_well.
  pose proof (C58_end_to_end zabs zsmall o l zgen v Hh Hin Hf Hs (z_unit 0)) as He. rewrite Hc in He.
  apply He. intros k _. split; [apply z_unit|apply z_same].
Qed.
Example ex_C58_single : ends_well Single (opt 8 true 2 2 4 4 "single") 1.
Proof.
  apply ends_intro; [reflexivity|reflexivity|set_solver|exact I|]. split; [cbn; lia|].
  exists 4, 1. split; [reflexivity|]. split; [cbn; lia|]. split; [right; cbn; lia|].
  intros _ _ _. split; [exists 1; reflexivity|exists 2; reflexivity].
Qed.
(** min_work_size 4: the schedule has packages of size 8 and 4. *)
Lemma sizes_8_4 n : size_of 8 4 n -> n = 8%Z \/ n = 4%Z.
Proof.
  intros (k&Hk&->&Hc). destruct (decide (k = 0)%Z) as [->|H0]; [left; reflexivity|].
  destruct (decide (k = 1)%Z) as [->|H1]; [right; reflexivity|]. exfalso.
  destruct Hc as [?|Hc]; [lia|]. assert (8 / 2 ^ (k - 1) <= 4)%Z; [|lia].
  apply Z.div_le_upper_bound; [apply Z.pow_pos_nonneg; lia|].
  assert (2 ^ 1 <= 2 ^ (k - 1))%Z by (apply Z.pow_le_mono_r; lia). lia.
Qed.
Example ex_C58_pseudodynamic : ends_well Pseudodynamic (Options 8 true 2 2 4 4 true "pseudodynamic" 4 10000 relz false) 3.
Proof.
  apply ends_intro; [reflexivity|reflexivity|set_solver|exact I|].
  cbn [suitable o_n o_transposed o_repetitions o_block_result o_block_input o_min_work_size].
  split_and!; [reflexivity|lia|lia|lia| |].
  - intros n Hn Hlt. destruct (sizes_8_4 n Hn) as [->| ->]; [exists 4%Z; reflexivity|lia].
  - intros n Hn. destruct (sizes_8_4 n Hn) as [->| ->].
    + exists 4, 1. split; [reflexivity|]. split; [lia|]. split; [right; lia|].
      intros _ _ _. split; [exists 1; reflexivity|exists 2; reflexivity].
    + exists 4, 0. split; [reflexivity|]. split; [lia|]. split; [left; reflexivity|].
      intros _ _ _. split; [exists 1; reflexivity|exists 2; reflexivity].
Qed.
Example ex_C58_algorithms : ends_well Algorithms (opt 8 true 1 2 4 2 "algorithms") 1.
Proof. apply ends_intro; [reflexivity|reflexivity|set_solver|reflexivity|]. split_and!; [cbn; lia|cbn; lia|exists 2; reflexivity|exists 4; reflexivity]. Qed.
Example ex_C58_looped : ends_well Looped (opt 8 true 1 2 4 2 "looped") 1.
Proof. apply ends_intro; [reflexivity|reflexivity|set_solver|reflexivity|]. split_and!; [cbn; lia|cbn; lia|exists 2; reflexivity|exists 4; reflexivity]. Qed.
Example ex_C58_semi : ends_well Semi (opt 8 true 1 2 3 2 "semi") 1.
Proof. apply ends_intro; [reflexivity|reflexivity|set_solver|reflexivity|]. split_and!; [cbn; lia|exists 2; reflexivity|exists 4; reflexivity]. Qed.
Example ex_C58_combined : ends_well Combined (opt 7 false 1 2 4 4 "combined") 1.
Proof. apply ends_intro; [reflexivity|reflexivity|set_solver|reflexivity|]. reflexivity. Qed.
Example ex_C58_kernel_test : ends_well KernelTest (opt 504 true 3 0 4 4 "kernel_test") 1.
Proof. apply ends_intro; [reflexivity|reflexivity|set_solver|exact I|]. split_and!; [cbn; lia|exists 126; reflexivity|apply Nat.leb_le; vm_compute; reflexivity]. Qed.
Example ex_C58_kernel_tiled : ends_well KernelTiled (opt 7 true 3 2 4 4 "kernel_tiled") 1.
Proof. apply ends_intro; [reflexivity|reflexivity|set_solver|exact I|]. cbn. lia. Qed.
Example ex_C58_default := C58_default_command_line zabs zsmall 1 zgen relz.
Example ex_C58_no_repetition : app_always (fun _ => False) (main zabs zsmall (opt 8 true 0 0 4 4 "single") 1 zgen) (fun r => r = Outcome 0 false (Some false) []).
Proof. exact (C58_single_no_repetition zabs zsmall (opt 8 true 0 0 4 4 "single") 1 zgen eq_refl eq_refl eq_refl eq_refl ltac:(cbn; lia)). Qed.
Example ex_C58_no_repetition_verbose : app_fails (fun e => e = EOutOfRange) (main zabs zsmall (opt 8 true 0 2 4 4 "single") 1 zgen).
Proof. exact (C58_single_no_repetition zabs zsmall (opt 8 true 0 2 4 4 "single") 1 zgen eq_refl eq_refl eq_refl eq_refl ltac:(cbn; lia)). Qed.
Example ex_C58_combined_twice : app_always (tolerated Combined) (main zabs zsmall (opt 7 false 2 2 4 4 "combined") 1 zgen)
  (fun r => r_status r = 0 /\ r_check r = Some false).
Proof. apply (C58_combined_repetitions zabs zsmall _ _ _ 5); try reflexivity; [cbn; lia|discriminate]. Qed.

(** C47: a check that fails on a run that exists. *)
Example ex_C47_run : app_ends (main zabs zsmall (opt 8 true 0 0 4 4 "single") 1 zgen) (Ok (Outcome 0 false (Some false) [])).
Proof. destruct (app_always_ends _ _ _ ex_C58_no_repetition) as (r & He & Hr). rewrite Hr in He. exact He. Qed.
Example ex_C47 : exists B, is_identity 8 B /\
  is_verdict (fun x y => zsmall (zabs x y) = true) 8 (pentry true 8 (zgen <$> seq 0 64) B) [] false.
Proof.
  destruct (C47_check zabs zsmall (opt 8 true 0 0 4 4 "single") 1 zgen Single _ eq_refl ltac:(set_solver) I ex_C47_run)
    as (_ & _ & B & HB & _ & ok & Hok & Hv). injection Hok as <-. exists B. split; [exact HB|exact Hv].
Qed.
