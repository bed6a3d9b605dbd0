(** Concrete cases for Properties25. *)
From Coq Require Import ZArith Reals Psatz.
From Flocq Require Import Core IEEE754.Binary IEEE754.Bits.
From Verif Require Import Spec Conc MSchedule SpecSched SpecBalance MCeil PCeil MDouble MBalance SpecRound Properties25.
Local Open Scope Z_scope.

Definition strict (d m : Z) : bool := false.
(** Three localities and N = 16 do not come out even: stuck, within a factor of two. *)
Example ex_C85_three : exists all, create_schedule_state 16 1 0 strict 1000 3 = Ok (Sched all [86; 86; 84]).
Proof. eexists. vm_compute. reflexivity. Qed.
Example ex_C85_factor s := C85_within_factor_two 16 1 0 strict 1000 3 ltac:(lia) ltac:(lia) ltac:(lia) s.
(** Sixteen localities, of which six get something to do; the bound is 8. *)
Example ex_C85_six : exists all, create_schedule 4 1 0 strict 1000 16 = Ok all /\ busy all = 6%nat /\ 2 * Z.of_nat (busy all) * (1 * 1) <= 4 * 4.
Proof.
  destruct (create_schedule 4 1 0 strict 1000 16) as [all|] eqn:E; [|vm_compute in E; discriminate]. exists all. split; [done|].
  assert (busy all = 6%nat) as Hb by (vm_compute in E; injection E as <-; vm_compute; reflexivity). split; [exact Hb|].
  destruct (C85_busy_bound_power 4 1 0 strict 1000 16 ltac:(lia) ltac:(lia) ltac:(lia) 2 all eq_refl E) as [H|H]; [lia|exact H].
Qed.
Example ex_C85_busy all := C85_busy_bound 4 1 0 strict 1000 16 ltac:(lia) ltac:(lia) ltac:(lia) all.
Example ex_C85_pairs all := C85_packages_in_pairs 4 1 0 strict 1000 16 all.
(** The default min_work_size *)
Example ex_C85_idle : create_schedule 256 256 10000 (rel64 five_percent) 1 64 = Ok ([Work 0 0 256] :: replicate 63 []).
Proof. apply C85_distributed_refuted; lia. Qed.
Example ex_C85_two := C85_two_localities 4096 256 10000 (rel64 five_percent) 2 ltac:(lia) ltac:(lia) ltac:(lia) ltac:(lia) ltac:(lia).
Example ex_C85_criterion : rel64 (double_of 5) 4 1 = true /\ rel64 (double_of 5) 5 1 = false /\ rel64 five_percent 1 20 = false /\ rel64 five_percent 1 21 = true.
Proof. split_and!; vm_compute; reflexivity. Qed.
Example ex_C85_relative := C85_relative_criterion five_percent 1 21 eq_refl ltac:(lia) ltac:(lia).
Example ex_C85_guarantee s := C85_guarantee 8192 256 10000 five_percent 1000 5 s ltac:(lia) ltac:(lia) ltac:(lia) eq_refl.
