(** Concrete cases meeting the hypotheses of the theorems in Properties1.v.
    The values are computed by running the models on integers. *)
From Verif Require Import Tools MUtil MNaive MKernels MRecursive Properties1.
Local Open Scope Z_scope.

Definition result {T A} (p : prog T A) : option A :=
  match run p ∅ with Ok (a, _) => Some a | Fail _ => None end.

Definition A2 : list Z := [1; 2; 3; 4].
Definition B2 : list Z := [5; 6; 7; 8].
Definition A4 : list Z := [1; 2; 3; 4;  0; 1; 2; 3;  5; 0; 0; 1;  2; 2; 1; 0].
Definition B4 : list Z := [1; 0; 2; 0;  3; 1; 0; 0;  0; 4; 1; 1;  2; 0; 0; 5].
Definition A3 : list Z := [1; 2; 3;  4; 5; 6;  7; 8; 9].

(** C01 *)
Example ex_C01 : always (naive_matrix_multiply 2 A2 B2) (is_product 2 A2 B2).
Proof. by apply C01_naive_product. Qed.
Example ex_C01_value : result (naive_matrix_multiply 2 A2 B2) = Some [19; 22; 43; 50].
Proof. by vm_compute. Qed.
(** C02 *)
Example ex_C02 : always (naive_matrix_multiply_transposed 2 A2 B2) (is_product_t 2 A2 B2).
Proof. by apply C02_naive_transposed_product. Qed.
Example ex_C02_value : result (naive_matrix_multiply_transposed 2 A2 B2) = Some [17; 23; 39; 53].
Proof. by vm_compute. Qed.
(** C03, C04: the lower left 1x1 and the lower right 2x2 block *)
Example ex_C03 : kernel A2 B2 [0] 2 1 0 1 = Ret [43].
Proof. by vm_compute. Qed.
Example ex_C03_hyp : exists C', kernel A4 B4 [0; 0; 0; 0] 4 2 2 2 = Ret C' /\ is_block 2 2 2 (prod_entry 4 A4 B4) C'.
Proof. apply C03_kernel_block; done || lia. Qed.
Example ex_C04 : exists C', kernel_transposed A4 B4 [0; 0; 0; 0] 4 2 2 2 = Ret C' /\ is_block 2 2 2 (prod_t_entry 4 A4 B4) C'.
Proof. apply C04_kernel_transposed_block; done || lia. Qed.
(** C05: 4x4 block, chunks of 2 *)
Example ex_C05 : exists C', kernel_transposed_blocked A4 B4 (replicate (4 * 4) nzero) 4 0 0 4 2 = Ret C' /\
   is_block 4 0 0 (prod_t_entry 4 A4 B4) C'.
Proof. apply (C05_kernel_transposed_blocked_product A4 B4 4 0 0 4 2); first [reflexivity | lia | (exists 2%nat; reflexivity) | (exists 1%nat; reflexivity)]. Qed.
Example ex_C05_value : kernel_transposed_blocked A4 B4 (replicate 16 0) 4 0 0 4 2 =
  Ret [7; 5; 15; 22;  4; 1; 9; 15;  5; 15; 1; 15;  4; 8; 9; 4].
Proof. by vm_compute. Qed.
(** C06 *)
Example ex_C06 : kernel_transposed_blocked A4 B4 (replicate 16 0) 4 0 0 4 3 = Err EOob.
Proof.
  apply C06_kernel_transposed_blocked_oob_input; try reflexivity; try lia; intros [q Hq]; lia.
Qed.
Example ex_C06b : kernel_transposed_blocked A4 B4 (replicate 4 0) 4 0 0 2 2 = Err EOob.
Proof.
  apply C06_kernel_transposed_blocked_oob_result; try reflexivity; try lia; intros [q Hq]; lia.
Qed.
(** C07: the three kernels *)
Example ex_C07 transposed bi : (bi ≤ 2)%nat ->
  exists C, calculate_submatrix 4 A4 B4 transposed bi 0 0 4 = Ret C /\ is_block 4 0 0 (pentry transposed 4 A4 B4) C.
Proof.
  intros Hbi. apply C07_calculate_submatrix_product; [done|done|lia|lia|]. intros _ Hb _.
  split; [by exists 1%nat|]. destruct bi as [|[|[|]]]; [lia|by exists 4%nat|by exists 2%nat|lia].
Qed.
(** C08, C09: N = 4 = 1 * 2^2, block_result 1: two levels of recursion, 21 tasks *)
Example ex_C08 : always (distribute_recursively 4 A4 B4 true 2 1 [7%nat] 0 0 4) (is_block 4 0 0 (pentry true 4 A4 B4)).
Proof. apply (C08_distribute_recursively_product 4 A4 B4 true 2 1 1 2 [7%nat] 0 0); first [reflexivity | simpl; lia | intros _ _ Hb; lia]. Qed.
Example ex_C09 : always (single_matrix_multiply 4 A4 B4 false 0 2 3) (is_matrix 4 (pentry false 4 A4 B4)).
Proof. apply (C09_single_product 4 A4 B4 false 0 2 2 1 3); try done; lia. Qed.
Example ex_C09_value : result (single_matrix_multiply 4 A4 B4 false 0 1 2) =
  Some [15; 14; 5; 23;  9; 9; 2; 17;  7; 0; 10; 5;  8; 6; 5; 1].
Proof. by vm_compute. Qed.
(** C10 *)
Example ex_C10_value : result (single_matrix_multiply 3 A3 A3 true 2 0 1) = Some (replicate 9 0).
Proof. by vm_compute. Qed.
(** C11: 3x3 with block_result 1: compare with the product 30 36 42 / 66 81 96 / 102 126 150 *)
Example ex_C11_value : result (distribute_recursively 3 A3 A3 false 0 1 [] 0 0 3) =
  Some [30; 36; 66; 81; 0; 0; 0; 0; 0].
Proof. by vm_compute. Qed.
Example ex_C11 : always (distribute_recursively 3 A3 A3 false 0 1 [] 0 0 (2 * 1 + 1))
  (fun C => C = [30; 36; 66; 81; 0; 0; 0; 0; 0]).
Proof.
  assert (H : (1 <= 1)%nat) by lia.
  eapply must_mono; [|refine (C11_odd_block_contents 3 A3 A3 false 0 1 1 0 [] 0 0 1 eq_refl eq_refl H (or_introl eq_refl) _ eq_refl _ _ _); first [done|lia]].
  intros C m (Hl&HC&Hz). simpl in *.
  do 9 (destruct C as [|? C]; [done|]). destruct C; [|done].
  pose proof (HC 0%nat 0%nat ltac:(lia) ltac:(lia)) as H1. pose proof (HC 0%nat 1%nat ltac:(lia) ltac:(lia)) as H2.
  pose proof (HC 1%nat 0%nat ltac:(lia) ltac:(lia)) as H3. pose proof (HC 1%nat 1%nat ltac:(lia) ltac:(lia)) as H4.
  pose proof (Hz 4%nat ltac:(lia)) as H5. pose proof (Hz 5%nat ltac:(lia)) as H6.
  pose proof (Hz 6%nat ltac:(lia)) as H7. pose proof (Hz 7%nat ltac:(lia)) as H8. pose proof (Hz 8%nat ltac:(lia)) as H9.
  vm_compute in H1, H2, H3, H4, H5, H6, H7, H8, H9. congruence.
Qed.
Example ex_C11_returns : may_return (distribute_recursively 3 A3 A3 false 0 1 [] 0 0 (2 * 1 + 1)) [30; 36; 66; 81; 0; 0; 0; 0; 0].
Proof.
  pose proof (run_steps (distribute_recursively 3 A3 A3 false 0 1 [] 0 0 (2 * 1 + 1)) ∅) as Hs.
  destruct (run _ ∅) as [[C m]|] eqn:E; [|by vm_compute in E].
  exists m. replace [30; 36; 66; 81; 0; 0; 0; 0; 0] with C; [exact Hs|].
  assert (Some C = Some [30; 36; 66; 81; 0; 0; 0; 0; 0]) as [= ->]; [|done].
  rewrite <- ex_C11_value. unfold result. change 3%nat with (2 * 1 + 1)%nat at 2. by rewrite E.
Qed.
(** C12 *)
Example ex_C12 : single_matrix_multiply 4 A4 B4 true 128 128 1 = Err EOob.
Proof. by apply C12_default_command_line_oob. Qed.
(** C42 *)
Example ex_C42 : transpose_matrix_rect 3 2 [1; 2; 3; 4; 5; 6] = Ret [1; 4; 2; 5; 3; 6].
Proof. by vm_compute. Qed.
(** C43 *)
Example ex_C43 : always (let! Id := create_identity_matrix 3 in naive_matrix_multiply 3 A3 Id) (fun C => C = A3).
Proof. by apply C43_identity_product. Qed.
(** C46 *)
Example ex_C46 : print_matrix 2 3 [1; 2; 3; 4; 5; 6] = Ret [[1; 2; 3]; [3; 4; 5]].
Proof. by vm_compute. Qed.
Example ex_C46_host : print_matrix_host 2 3 [1; 2; 3; 4; 5; 6] = Ret [[1; 2; 3]; [4; 5; 6]].
Proof. by vm_compute. Qed.
Example ex_C46_tall : print_matrix 3 2 [1; 2; 3; 4; 5; 6] = Err EOutOfRange.
Proof. by vm_compute. Qed.
