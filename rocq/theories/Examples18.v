(** Concrete cases for Properties18.v. *)
From Coq Require Import ZArith Reals String.
From Flocq Require Import Core IEEE754.Binary IEEE754.Bits.
From Verif Require Import Conc Num Spec SpecTiled SpecApp MCeil MDouble PDouble MContract SpecRound MTests SpecTests Properties18.
Local Open Scope nat_scope.

(** There are 76 cases; the table starts with those of test_algorithms.cpp, and
    exactly three run semi on 2x2 matrices. *)
Example number_of_cases : length all_cases = 76.
Proof. reflexivity. Qed.
Example semi_cases : filter two_by_two_semi all_cases =
  [Case "semi" "identity_2" 23 2 (Literal inverse_A2) (Transposed_literal identity_B2) "semi" true 1 1 Ref_A (Check_close (Dec 1 10));
   Case "semi" "apply_inverse_2" 72 2 (Literal inverse_A2) (Transposed_literal inverse_B2) "semi" true 1 1 Ref_identity (Check_close (Dec 1 10));
   Case "semi" "random_matrices_2" 260 2 Random Random "semi" true 1 1 Ref_naive (Check_small (Dec 1 8))].
Proof. reflexivity. Qed.

(** A generator that yields 1, 0, 1, 0, ... *)
Definition alternate (k : nat) : binary64 := if Nat.even k then double_of 1 else double_of 0.
Lemma alternate_draws : unit_draws alternate.
Proof.
  intros k. unfold alternate. destruct (Nat.even k); [|split; [reflexivity|change (val64 (double_of 0)) with 0%R; split; [apply Rle_refl|apply Rle_0_1]]].
  split; [reflexivity|]. rewrite one_value. split; [apply Rle_0_1|apply Rle_refl].
Qed.
Definition case_8 := Case "pseudodynamic" "random_matrices_8_transposed" 744 8 Random Random "pseudodynamic" true 1 1 Ref_naive (Check_small (Dec 1 8)).
Lemma case_8_in : case_8 ∈ all_cases.
Proof. unfold all_cases. rewrite !elem_of_app. right; right; right; left. unfold suite_pseudodynamic, case_8. repeat (apply elem_of_list_here || apply elem_of_list_further). Qed.
Lemma case_8_not : ~ two_by_two_semi case_8.
Proof. intros [H _]. discriminate H. Qed.
Example case_8_passes : passes alternate under_test case_8 /\ passes alternate (swapped under_test) case_8.
Proof. exact (conj (C70_suites_pass _ _ alternate_draws case_8_in case_8_not) (C71_blind_to_swapped_factors _ _ alternate_draws case_8_in case_8_not)). Qed.
Example case_8_certified : let A := alternate <$> seq 0 (8 * 8) in
  app_always (fun l => c_algorithm case_8 = "combined"%string /\ l = idFirst) (under_test case_8 (TNum <$> A) (TNum <$> A)) (fun D =>
    forall C, Forall2 compiled D C -> forall i j, i < 8 -> j < 8 ->
      exists x, C !! (i * 8 + j) = Some x /\ finite64 x = true /\ (Rabs (val64 x - exact_entry true 8 A A i j) <= 2 / 10 ^ 8)%R).
Proof.
  intros A. exact (C72_passing_certifies alternate case_8 under_test A A alternate_draws case_8_in case_8_not eq_refl eq_refl eq_refl eq_refl eq_refl
    (proj1 case_8_passes)).
Qed.
(** The checks can fail: 1 is not close to 1.5, and not within 1E-8 of it. *)
Example checks_discriminate :
  check_entry (Check_close (Dec 1 10)) (double_of 1) (double_literal (Dec 15 1)) = false /\
  check_entry (Check_small (Dec 1 8)) (double_of 1) (double_literal (Dec 15 1)) = false.
Proof. split; vm_compute; reflexivity. Qed.

(** 6 = 3 * 2: one locality, blocks of 3 rows *)
Example one_locality_6 (A B : list Z) : length A = 6 * 6 -> length B = 6 * 6 ->
  always (pseudodynamic_matrix_multiply 6 A B true 3 2 7 5 (fun _ _ => false) 2 1) (is_matrix 6 (prod_t_entry 6 A B)).
Proof.
  intros HA HB. refine (proj1 (C19_one_locality 6 A B true 2 3 7 5 (fun _ _ => false) 2 1 3 1 _ _ _ _ HA HB eq_refl _ _ _)); try lia. intros _ _ H. lia.
Qed.
(** All ones: the product of 2x2 matrices of ones is not zero. *)
Example exchanged_2 : always (single_matrix_multiply 2 [1; 1; 1; 1]%Z [1; 1; 1; 1]%Z false 0 2 1) (is_matrix 2 (pentry false 2 [1; 1; 1; 1]%Z [1; 1; 1; 1]%Z)) /\
  pentry false 2 [1; 1; 1; 1]%Z [1; 1; 1; 1]%Z 0 0 = 2%Z.
Proof. split; [exact (proj2 (C71_blocks_exchanged_in_single 2 [1; 1; 1; 1]%Z [1; 1; 1; 1]%Z false (fun _ => False) eq_refl eq_refl))|reflexivity]. Qed.
