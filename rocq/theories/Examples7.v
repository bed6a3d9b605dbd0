(** Concrete cases meeting the hypotheses of the theorems of Properties7.v. *)
From Verif Require Import Conc ConcFacts Spec SpecTiled MTiled MKTest Properties7.
Local Open Scope Z_scope.

(** Sizes that fit the shipped padding: 512 itself, and 452 (452 + 63 >= 512). *)
Example ex_C31 (A B : list Z) : length A = (512 * 512)%nat -> length B = (512 * 512)%nat ->
  always (kernel_test_matrix_multiply kt_shipped kt_padding 512 A B false 2) (is_product 512 A B).
Proof.
  intros HA HB. apply C31_kernel_test_product; [exact HA|exact HB|exists 128%nat; reflexivity| |lia].
  apply Nat.leb_le. vm_compute. reflexivity.
Qed.
Example ex_C31_order (A B : list Z) : length A = (452 * 452)%nat -> length B = (452 * 452)%nat ->
  always (kernel_test_matrix_multiply kt_shipped kt_padding 452 A B false 1) (is_matrix 452 (tiled_entry kt_shipped 452 A B)).
Proof.
  intros HA HB. apply C31_kernel_test_order; [exact HA|exact HB|exists 113%nat; reflexivity| |lia].
  apply Nat.leb_le. vm_compute. reflexivity.
Qed.
(** 448 = 512 - 64 just does not fit, nor does the application's default 4. *)
Example ex_C31_oob (A B : list Z) : length A = (448 * 448)%nat -> length B = (448 * 448)%nat ->
  must_fail (fun e => e = EOob) (kernel_test_matrix_multiply kt_shipped kt_padding 448 A B false 1) ∅.
Proof.
  intros HA HB. apply C31_kernel_test_out_of_bounds; [exact HA|exact HB|lia|exists 112%nat; reflexivity| |lia].
  apply Nat.leb_le. vm_compute. reflexivity.
Qed.
Example ex_C31_oob_4 :
  must_fail (fun e => e = EOob) (kernel_test_matrix_multiply kt_shipped kt_padding 4 (replicate 16 1) (replicate 16 1) false 1) ∅.
Proof.
  apply C31_kernel_test_out_of_bounds; [reflexivity|reflexivity|lia|exists 1%nat; reflexivity| |lia].
  apply Nat.leb_le. vm_compute. reflexivity.
Qed.
Example ex_C31_misaligned :
  must_fail (fun e => e = EMisaligned)
    (kernel_test_matrix_multiply kt_shipped kt_padding 3 (replicate 9 1) (replicate 9 1) false 1) ∅.
Proof. apply C31_kernel_test_misaligned; [reflexivity|reflexivity|lia| |lia]. intros [q Hq]. lia. Qed.
Example ex_C31_zero :
  always (kernel_test_matrix_multiply kt_shipped kt_padding 3 (replicate 9 1) (replicate 9 1) false 0) (is_zero 3).
Proof. apply C31_kernel_test_no_repetition; reflexivity. Qed.

(** Small constants: L3 6 x 16 x 4, L2 6 x 8 x 2, L1 6 x 8 x 2; padding 13.
    As in the source, 5 does not divide L1_X. *)
Definition ktsmall : blocks := Blocks 6 16 4 6 8 2 6 8 2.
Lemma ktsmall_pos : all_positive ktsmall.
Proof. unfold all_positive, ktsmall. cbn. lia. Qed.
Lemma ktsmall_div : levels_divide ktsmall.
Proof.
  unfold levels_divide, ktsmall. cbn [L3_X L3_Y L3_K L2_X L2_Y L2_K L1_X L1_Y L1_K].
  split; [split; [exists 1%nat|split; [exists 1%nat|exists 1%nat]]; reflexivity|split; [exists 1%nat|split; [exists 2%nat|exists 2%nat]]; reflexivity].
Qed.
Lemma ktsmall_8 : (8 | L1_Y ktsmall)%nat.
Proof. exists 1%nat. reflexivity. Qed.
Lemma ktsmall_fits : kt_fits ktsmall 13 3.
Proof. split; [exists 4%nat; reflexivity|]. vm_compute. lia. Qed.
Definition ktA : list Z := [1; 2; 3; 4; 5; 6; 7; 8; 9].
Definition ktB : list Z := [1; 0; 2; 3; 1; 0; 0; 5; 1].
Example ex_C31_any : always (kernel_test_matrix_multiply ktsmall 13 3 ktA ktB true 2) (is_product 3 ktA ktB).
Proof. exact (C31_any_constants_product ktsmall 13 3 ktA ktB true 2 ktsmall_pos ktsmall_div ktsmall_8 eq_refl eq_refl ktsmall_fits ltac:(lia)). Qed.
Example ex_C31_any_value :
  match run (kernel_test_matrix_multiply ktsmall 13 3 ktA ktB true 2) ∅ with Ok (C, _) => Some C | Fail _ => None end =
  Some [7; 17; 5; 19; 35; 14; 31; 53; 23].
Proof. vm_compute. reflexivity. Qed.
Example ex_C31_any_oob : must_fail (fun e => e = EOob) (kernel_test_matrix_multiply ktsmall 1 3 ktA ktB true 1) ∅.
Proof.
  apply C31_any_constants_out_of_bounds; [exact ktsmall_pos|exact ktsmall_div|exact ktsmall_8|reflexivity|reflexivity|lia|lia|exists 1%nat; reflexivity|vm_compute; lia].
Qed.
Example ex_C31_any_oob_value :
  match run (kernel_test_matrix_multiply ktsmall 1 3 ktA ktB true 1) ∅ with Ok _ => None | Fail e => Some e end = Some EOob.
Proof. vm_compute. reflexivity. Qed.
Example ex_C30_kernel_test : exists A B : list Z, length A = 9%nat /\ length B = 9%nat /\ forall reps, (0 < reps)%nat ->
  always (kernel_test_matrix_multiply ktsmall 13 3 A B true reps) (fun C => is_product 3 A B C /\ ~ is_product_t 3 A B C).
Proof. exact (C30_kernel_test_ignores_transposed ktsmall 13 3 ktsmall_pos ktsmall_div ktsmall_8 ktsmall_fits ltac:(lia) ltac:(discriminate)). Qed.
Example ex_C30_kernel_test_shipped : exists A B : list Z, length A = (512 * 512)%nat /\ length B = (512 * 512)%nat /\ forall reps, (0 < reps)%nat ->
  always (kernel_test_matrix_multiply kt_shipped kt_padding 512 A B true reps) (fun C => is_product 512 A B C /\ ~ is_product_t 512 A B C).
Proof.
  apply (C30_kernel_test_shipped_ignores_transposed 512); [exists 128%nat; reflexivity| |lia|discriminate].
  apply Nat.leb_le. vm_compute. reflexivity.
Qed.
