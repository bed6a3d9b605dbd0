(** Concrete cases of C86. *)
From Coq Require Import ZArith.
From stdpp Require Import list.
From Verif Require Import MSchedule SpecSched SpecScale PPseudo MCeil MDouble MBalance Properties26.
Local Open Scope Z_scope.

Local Notation no := (fun _ _ => false).

(** N = 4096 on three localities with the default min_work_size, difference and
    bound is the schedule for N = 16 drawn 256 times as large: [86; 86; 84] of 256. *)
Example C86_scale_doubles_case : exists s, create_schedule_state 16 1 1 (rel64 five_percent) 100 3 = Ok s /\
  total_work s = [86; 86; 84] /\ map length (all_work s) = [5; 5; 12]%nat /\
  create_schedule_state 4096 256 10000 (rel64 five_percent) 100 3 = Ok (scale 256 s).
Proof.
  assert (exists s, create_schedule_state 16 1 1 (rel64 five_percent) 100 3 = Ok s /\
    total_work s = [86; 86; 84] /\ map length (all_work s) = [5; 5; 12]%nat) as (s & E & H1 & H2).
  { eexists. split; [vm_compute; reflexivity|]. split; reflexivity. }
  exists s. split; [done|]. split; [done|]. split; [done|].
  change 4096 with (256 * 16). rewrite C86_scale_doubles; [|done|lia|lia|lia|lia|].
  - change (256 / 256) with 1. change ((10000 + 256 * 256 - 1) / (256 * 256)) with 1. by rewrite E.
  - change 16 with (2 ^ Z.of_nat 4). by apply even_chain_pow2.
Qed.
(** A bound that is never met; min_work_size 7 acts like 2 of a third of the size *)
Example C86_scale_case : create_schedule_state (3 * 8) 7 0 no 100 2 =
  match create_schedule_state 8 2 0 no 100 2 with Ok s => Ok (scale 3 s) | Fail e => Fail e end.
Proof. rewrite (C86_scale 3 8 7 0 no no); [done|lia|lia|lia|lia| |done]. change 8 with (2 ^ Z.of_nat 3). by apply even_chain_pow2. Qed.

(** Packages of size 2: min_work_size 0 gives what 1 gives *)
Example C86_min_work_size_case s : create_schedule_state 8 1 0 no 100 4 = Ok s -> create_schedule_state 8 0 0 no 100 4 = Ok s.
Proof.
  intros E. apply (C86_min_work_size 8 0 1); [lia|lia|lia|done|]. revert E. vm_compute create_schedule_state. intros [= <-].
  cbn [all_work]. intros w Hw. apply elem_of_list_In in Hw. cbn in Hw. repeat (destruct Hw as [<-|Hw]; [done|]). done.
Qed.

(** Equal shares of N = 8 on four localities; with min_work_size 4 two stay idle and
    the others have packages of that size. *)
Example C86_power_of_two_case : exists s s', create_schedule_state 8 1 0 no 100 (2 ^ 2) = Ok s /\ total_work s = [16; 16; 16; 16] /\
  create_schedule_state 8 4 0 no 100 (2 ^ 2) = Ok s' /\ total_work s' = [32; 32; 0; 0] /\ even_chain 8 1 /\ even_chain 8 4.
Proof.
  eexists _, _. split; [vm_compute; reflexivity|]. split; [reflexivity|]. split; [vm_compute; reflexivity|]. split; [reflexivity|].
  change 8 with (2 ^ Z.of_nat 3). split; by apply even_chain_pow2.
Qed.
(** 24 = 3 * 8 rows on four localities, min_work_size 5 *)
Example C86_equal_shares_case : exists s, create_schedule_state 24 5 0 no 100 (2 ^ 2) = Ok s /\ total_work s = [144; 144; 144; 144] /\
  (2 ^ Z.of_nat 3 | 24) /\ 2 ^ Z.of_nat 2 * 5 < 24.
Proof. eexists. split; [vm_compute; reflexivity|]. split; [reflexivity|]. split; [by exists 3|done]. Qed.
Example C86_equal_shares_refuted_case : 0 < 8 /\ (512 * 8) * (512 * 8) < 2 ^ 62 /\ 2 ^ Z.of_nat 8 * (2 * 8 - 1) < 512 * 8 /\ (2 ^ Z.of_nat 9 | 512 * 8).
Proof. split; [lia|]. split; [lia|]. split; [lia|]. by exists 8. Qed.
