(** Instances of the theorems of Properties33. *)
From Coq Require Import ZArith Reals String.
From Flocq Require Import Core IEEE754.Binary IEEE754.Bits.
From Verif Require Import Conc Num Spec SpecTiled SpecApp MDouble MContract SpecRound MTests SpecTests SpecTests3 Properties18 Properties33 Examples18.
Local Open Scope nat_scope.

Example transpose_twice : (let! R := transpose_matrix 2 [1; 2; 3; 4]%Z in transpose_matrix 2 R) = Ret [1; 2; 3; 4]%Z /\
  transpose_matrix 2 [1; 2; 3; 4]%Z <> Ret [1; 2; 3; 4]%Z.
Proof. split; [exact (C42_transpose_square_involutive 2 [1; 2; 3; 4]%Z eq_refl)|]. vm_compute. discriminate. Qed.

(** The case of test_single.cpp that uses the relative check. *)
Definition case_close : test_case :=
  Case "single" "apply_inverse_2" 23 2 (Literal inverse_A2) (Literal inverse_B2) "single" false 1 1 Ref_identity (Check_close (Dec 1 10)).
Lemma case_close_in : case_close ∈ all_cases.
Proof. unfold all_cases. rewrite !elem_of_app. do 5 right. left. apply elem_of_list_here. Qed.
Lemma case_close_not : ~ two_by_two_semi case_close.
Proof. intros [H _]. discriminate H. Qed.
Example case_close_certified : let A := double_literal <$> inverse_A2 in let B := double_literal <$> inverse_B2 in
  app_always (fun l => c_algorithm case_close = "combined"%string /\ l = idFirst) (under_test case_close (TNum <$> A) (TNum <$> B)) (fun D =>
    forall C, Forall2 compiled D C -> forall i j, i < 2 -> j < 2 ->
      exists x, C !! (i * 2 + j) = Some x /\ finite64 x = true /\ (Rabs (val64 x - exact_entry false 2 A B i j) <= 2 / 10 ^ 12)%R /\
        (exact_entry false 2 A B i j = 0%R -> val64 x = 0%R)).
Proof.
  intros A B. exact (C72_close_zero alternate case_close under_test A B case_close_in case_close_not eq_refl eq_refl eq_refl eq_refl eq_refl
    (C70_suites_pass _ _ alternate_draws case_close_in case_close_not)).
Qed.
(** The case of test_naive.cpp, with the coarse check. *)
Definition case_naive : test_case :=
  Case "naive" "apply_inverse_4" 34 4 (Literal inverse_A4) (Literal inverse_B4) "naive" false 1 1 Ref_identity (Check_small (Dec 1 5)).
Lemma case_naive_in : case_naive ∈ all_cases.
Proof. unfold all_cases. rewrite !elem_of_app. do 6 right. apply elem_of_list_further, elem_of_list_here. Qed.
Lemma case_naive_not : ~ two_by_two_semi case_naive.
Proof. intros [H _]. discriminate H. Qed.
Example case_naive_certified : let A := double_literal <$> inverse_A4 in let B := double_literal <$> inverse_B4 in
  app_always (fun l => c_algorithm case_naive = "combined"%string /\ l = idFirst) (under_test case_naive (TNum <$> A) (TNum <$> B)) (fun D =>
    forall C, Forall2 compiled D C -> forall i j, i < 4 -> j < 4 ->
      exists x, C !! (i * 4 + j) = Some x /\ finite64 x = true /\ (Rabs (val64 x - exact_entry false 4 A B i j) <= 2 / 10 ^ 5)%R).
Proof.
  intros A B. exact (C72_passing_certifies_all alternate case_naive under_test A B _ alternate_draws case_naive_in case_naive_not precision_5 eq_refl eq_refl eq_refl eq_refl
    (C70_suites_pass _ _ alternate_draws case_naive_in case_naive_not)).
Qed.
Example excluded_or_not : two_by_two_semi (Case "semi" "random_matrices_2" 260 2 Random Random "semi" true 1 1 Ref_naive (Check_small (Dec 1 8))) /\
  ("semi", "random_matrices_4")%string ∈ registered_names.
Proof.
  split; [by split|]. apply (bool_decide_unpack _). vm_compute. exact I.
Qed.
