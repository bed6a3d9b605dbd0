(** Concrete cases meeting the hypotheses of the theorems of Properties8.v. *)
From Verif Require Import Conc ConcFacts Spec SpecDet SpecTiled MNaive MRecursive MSchedule MVariants MTiled MKTest Examples6 Properties8.
Local Open Scope Z_scope.

(** A deliberately non-associative arithmetic: differences instead of sums. *)
Definition subOps : NumOps Z := {| nzero := 0; none1 := 1; nadd := Z.sub; nmul := Z.mul |}.
Example ex_C50_naive : deterministic (naive_matrix_multiply (H := subOps) 3 exA exB).
Proof. exact (proj1 (C50_naive_deterministic (H := subOps) 3 exA exB)). Qed.
Example ex_C50_naive_value :
  match run (naive_matrix_multiply (H := subOps) 3 exA exB) ∅ with Ok (C, _) => Some C | Fail _ => None end =
  Some [-7; -17; -5; -19; -35; -14; -31; -53; -23].
Proof. vm_compute. reflexivity. Qed.
Example ex_C50_single : deterministic (single_matrix_multiply 3 exA exB false 0 2 1).
Proof. apply C50_single_deterministic. Qed.
Example ex_C50_pseudo : deterministic (pseudodynamic_matrix_multiply 3 exA exB false 2 0 1 10 (fun _ _ => false) 3 1).
Proof. apply C50_pseudodynamic_deterministic; [reflexivity|lia|lia]. Qed.
Example ex_C50_algorithms : deterministic (algorithms_matrix_multiply 3 exA exB 3 1).
Proof. exact (C50_algorithms_deterministic 3 exA exB 3 1 eq_refl eq_refl). Qed.
Example ex_C50_semi : deterministic (semi_matrix_multiply 3 exA exB 1 1).
Proof. apply C50_semi_deterministic. Qed.
Example ex_C50_looped : deterministic (looped_matrix_multiply 3 exA exB 1 1).
Proof. apply C50_looped_deterministic. Qed.
Example ex_C50_tiled : deterministic (kernel_tiled_matrix_multiply small 3 exA exB false 1).
Proof. exact (C50_kernel_tiled_deterministic small 3 exA exB false 1 small_ok eq_refl eq_refl). Qed.
Example ex_C50_test (A B : list Z) : length A = (512 * 512)%nat -> length B = (512 * 512)%nat ->
  deterministic (kernel_test_matrix_multiply kt_shipped kt_padding 512 A B false 1).
Proof. intros HA HB. exact (C50_kernel_test_deterministic 512 A B false 1 HA HB). Qed.
Example ex_C50_combined : exists C, always_tol (fun l => l = idFirst) (combined_matrix_multiply small 3 exA exB 2) (fun C' => C' = C).
Proof. exact (C50_combined_deterministic small 3 exA exB 2 small_ok eq_refl eq_refl). Qed.
Example ex_C54 : must_fail (fun e => e = ETerminate) (naive_matrix_multiply 3 [1; 2] exB) ∅ /\
  must_fail (fun e => e = ETerminate) (naive_matrix_multiply_transposed 3 [1; 2] exB) ∅.
Proof. apply C54_naive_short_input; [lia|left; cbn; lia]. Qed.
