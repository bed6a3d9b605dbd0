(** Concrete cases meeting the hypotheses of the theorems in Properties2.v. *)
From Verif Require Import Tools MSchedule SpecSched PSchedule PPseudo Examples1 Properties2.
Local Open Scope Z_scope.

Definition never : Z -> Z -> bool := fun _ _ => false.
Definition W := Work.

(** C13, C14, C17, C18: 8 x 8 on three localities; sizes above 1 are split *)
Definition sched8 : list (list work) :=
  match create_schedule 8 1 0 never 600 3 with Ok all => all | Fail _ => [] end.
Example ex_C13 : create_schedule 8 1 0 never 600 3 = Ok sched8.
Proof. by vm_compute. Qed.
Example ex_C13_hyp : exists all, create_schedule 8 1 0 never 600 3 = Ok all /\
  forall fuel', (600 <= fuel')%nat -> create_schedule 8 1 0 never fuel' 3 = Ok all.
Proof. apply C13_schedule_terminates; lia. Qed.
Example ex_C13_size : length (concat sched8) = 25%nat /\ length sched8 = 3%nat.
Proof. by vm_compute. Qed.
Example ex_C13_areas : area <$> sched8 = [22; 22; 20].
Proof. by vm_compute. Qed.
(** the loop of a two-locality schedule *)
Example ex_sched2 : create_schedule 4 1 0 never 65 2 =
  Ok [[W 0 0 2; W 2 0 2]; [W 0 2 2; W 2 2 2]].
Proof. by vm_compute. Qed.
Example ex_C14 : Forall (inside 8) (concat sched8) /\ forall i j, (hits i j (concat sched8) <= 1)%nat.
Proof. apply (C14_packages_disjoint_inside 8 1 0 never 3) with (fuel := 600%nat); [lia|lia|lia|]. exact ex_C13. Qed.
(** C15 *)
Example ex_C15 : forall i j, hits i j (concat sched8) = (if decide (0 <= i < 8 /\ 0 <= j < 8) then 1%nat else 0%nat).
Proof.
  apply (C15_power_of_two 3 1 0 never 3 600); [lia|lia|]. exact ex_C13.
Qed.
(** even_chain for sizes that are not powers of two: 12 with min_work_size 3 *)
Example ex_even_chain : even_chain 12 3.
Proof.
  intros n (k&Hk&->&Hc) Hlt. assert (k < 2) as Hk2.
  { destruct (decide (k < 2)); [done|]. assert (12 / 2 ^ k <= 3); [|lia].
    apply Z.div_le_upper_bound; [apply Z.pow_pos_nonneg; lia|].
    assert (2 ^ 2 <= 2 ^ k) by (apply Z.pow_le_mono_r; lia). lia. }
  assert (k = 0 \/ k = 1) as [->| ->] by lia; [exists 6|exists 3]; reflexivity.
Qed.
(** C16 *)
Example ex_C16 : exists all, create_schedule 3 1 0 never 28 2 = Ok all /\ hits 2 2 (concat all) = 0%nat /\
  all = [[W 0 0 1; W 1 0 1]; [W 0 1 1; W 1 1 1]].
Proof. eexists. by vm_compute. Qed.
Example ex_C16_hyp all : create_schedule 3 1 0 never 28 2 = Ok all -> hits (3 - 1) (3 - 1) (concat all) = 0%nat.
Proof. apply C16_odd_loses_entry; first [lia|reflexivity]. Qed.
Example ex_C16_even : (* min_work_size 0 and zero bounds: everything is lost *)
  exists all, create_schedule 2 0 0 never 9 2 = Ok all /\ area (concat all) = 0.
Proof. eexists. by vm_compute. Qed.
(** C17: balanced on return, and stuck on return *)
Example ex_C17_balanced : match create_schedule_state 4 1 1 never 65 2 with
  Ok s => total_work s = [8; 8] | Fail _ => False end.
Proof. by vm_compute. Qed.
Example ex_C17_stuck : match create_schedule_state 4 2 1 never 65 3 with
  Ok s => total_work s = [8; 8; 0] | Fail _ => False end.
Proof. by vm_compute. Qed.

Local Close Scope Z_scope.
(** C19: 4 x 4 on four localities (three compute), sizes above 1 are split *)
Example ex_C19 : always (pseudodynamic_matrix_multiply (2 ^ 2) A4 B4 true 2 0 1 0 never 4 2)
                        (is_matrix (2 ^ 2) (pentry true (2 ^ 2) A4 B4)).
Proof. apply C19_pseudodynamic_power_of_two; first [lia | reflexivity | (left; reflexivity) | apply _]. Qed.
Example ex_C19_value :
  result (pseudodynamic_matrix_multiply 4 A4 B4 true 2 0 1 0 never 4 2) =
  result (pseudodynamic_matrix_multiply 4 A4 B4 true 4 2 4 10000 never 1 1).
Proof. by vm_compute. Qed.
Example ex_C19_value2 :
  result (pseudodynamic_matrix_multiply 4 A4 B4 true 2 0 1 0 never 4 2) =
  Some [7; 5; 15; 22;  4; 1; 9; 15;  5; 15; 1; 15;  4; 8; 9; 4]%Z.
Proof. by vm_compute. Qed.
(** C16: the product of 3 x 3 matrices on three localities loses row and column 2 *)
Example ex_C16_product :
  result (pseudodynamic_matrix_multiply 3 A3 A3 true 3 0 1 0 never 3 1) = Some [14; 32; 0; 32; 77; 0; 0; 0; 0]%Z.
Proof. by vm_compute. Qed.
