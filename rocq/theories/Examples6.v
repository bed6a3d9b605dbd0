(** Concrete cases meeting the hypotheses of the theorems of Properties6.v. *)
From Verif Require Import Conc ConcFacts Spec SpecTiled MTiled Properties6.
Local Open Scope Z_scope.

(** Small constants: L3 10 x 16 x 4, L2 10 x 8 x 2, L1 5 x 8 x 2. *)
Definition small : blocks := Blocks 10 16 4 10 8 2 5 8 2.
Lemma small_ok : blocks_ok small.
Proof.
  unfold blocks_ok, small. cbn [L3_X L3_Y L3_K L2_X L2_Y L2_K L1_X L1_Y L1_K].
  split; [lia|]. split; [split; [exists 2%nat|split; [exists 1%nat|exists 1%nat]]; reflexivity|].
  split; [split; [exists 1%nat|split; [exists 2%nat|exists 2%nat]]; reflexivity|].
  split; exists 1%nat; reflexivity.
Qed.
Definition exA : list Z := [1; 2; 3; 4; 5; 6; 7; 8; 9].
Definition exB : list Z := [1; 0; 2; 3; 1; 0; 0; 5; 1].

Example ex_C26 : always_tol (fun l => l = idFirst) (combined_matrix_multiply small 3 exA exB 1) (is_product 3 exA exB).
Proof. exact (C26_combined_product small 3 exA exB small_ok eq_refl eq_refl). Qed.
(** The result is what one expects. *)
Example ex_C26_value :
  match run (combined_matrix_multiply small 3 exA exB 1) ∅ with Ok (C, _) => Some C | Fail _ => None end =
  Some [7; 17; 5; 19; 35; 14; 31; 53; 23].
Proof. vm_compute. reflexivity. Qed.
Example ex_C27 : always_tol (fun l => l = idFirst) (combined_matrix_multiply small 3 exA exB 3)
  (is_matrix 3 (fun i j => times 3 (prod_entry 3 exA exB i j))).
Proof. exact (C27_combined_repetitions small 3 exA exB 3 small_ok eq_refl eq_refl). Qed.
Example ex_C27_value :
  match run (combined_matrix_multiply small 3 exA exB 2) ∅ with Ok (C, _) => Some C | Fail _ => None end =
  Some [14; 34; 10; 38; 70; 28; 62; 106; 46].
Proof. vm_compute. reflexivity. Qed.
Example ex_C27_not : exists A B : list Z, length A = 9%nat /\ length B = 9%nat /\
  always_tol (fun l => l = idFirst) (combined_matrix_multiply small 3 A B 2) (fun C => ~ is_product 3 A B C).
Proof. exact (C27_combined_not_product small 3 2 small_ok ltac:(lia) ltac:(lia)). Qed.
Definition big : list Z := replicate 121 1.
Example ex_C28 : may_race (combined_matrix_multiply small 11 big big 1) ∅ idFirst.
Proof. exact (C28_combined_race small 11 big big 1 small_ok eq_refl eq_refl ltac:(lia) (or_introl (ltac:(cbn; lia) : (10 < 11)%nat))). Qed.
Example ex_C28_single : always (combined_matrix_multiply small 3 exA exB 2) (is_matrix 3 (tiled_entry_rep small 2 3 exA exB)).
Proof. exact (C28_combined_single_block small 3 exA exB 2 small_ok eq_refl eq_refl ltac:(cbn; lia) ltac:(cbn; lia)). Qed.
Example ex_C28_shipped (A B : list Z) : length A = (300 * 300)%nat -> length B = (300 * 300)%nat ->
  may_race (combined_matrix_multiply shipped 300 A B 1) ∅ idFirst.
Proof. intros HA HB. exact (C28_combined_race_shipped 300 A B 1 HA HB ltac:(lia) ltac:(lia)). Qed.
Example ex_C29 : always (kernel_tiled_matrix_multiply small 3 exA exB false 2) (is_product 3 exA exB).
Proof. exact (C29_kernel_tiled_product small 3 exA exB false 2 small_ok eq_refl eq_refl ltac:(lia)). Qed.
Example ex_C29_value :
  match run (kernel_tiled_matrix_multiply small 3 exA exB true 2) ∅ with Ok (C, _) => Some C | Fail _ => None end =
  Some [7; 17; 5; 19; 35; 14; 31; 53; 23].
Proof. vm_compute. reflexivity. Qed.
Example ex_C29_zero : always (kernel_tiled_matrix_multiply small 3 exA exB false 0) (is_zero 3).
Proof. exact (C29_kernel_tiled_no_repetition small 3 exA exB false small_ok eq_refl eq_refl). Qed.
Example ex_C29_verify : verify_blocking_setup small = true.
Proof. apply C29_verify_blocking_setup; [unfold all_positive; cbn; lia|]. split; [exact (proj1 (proj2 small_ok))|exact (proj1 (proj2 (proj2 small_ok)))]. Qed.
Definition bad : blocks := Blocks 10 16 4 10 8 2 6 8 2.
Example ex_C29_bad : must_fail (fun e => e = ETerminate) (kernel_tiled_matrix_multiply bad 3 exA exB false 1) ∅ /\
  must_fail (fun e => e = ETerminate) (combined_matrix_multiply bad 3 exA exB 1) ∅.
Proof.
  apply C29_bad_setup_terminates; [unfold all_positive; cbn; lia|]. intros [[[q Hq] _] _]. cbn in Hq. lia.
Qed.
Example ex_C30 : exists A B : list Z, length A = 9%nat /\ length B = 9%nat /\ forall reps, (0 < reps)%nat ->
  always (kernel_tiled_matrix_multiply small 3 A B true reps) (fun C => is_product 3 A B C /\ ~ is_product_t 3 A B C).
Proof. exact (C30_kernel_tiled_ignores_transposed small 3 small_ok ltac:(lia) ltac:(discriminate)). Qed.
Example ex_C30_identity : is_product 2 [1; 2; 3; 4] [1; 0; 0; 1] [1; 2; 3; 4] <-> is_product_t 2 [1; 2; 3; 4] [1; 0; 0; 1] [1; 2; 3; 4].
Proof.
  apply C30_identity_hides_transposed. split; [reflexivity|]. intros [|[|i]] [|[|j]] Hi Hj; try lia; reflexivity.
Qed.
