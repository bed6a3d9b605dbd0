(** Property theorems, part 1: reference kernels, block kernels, the recursive
    component, algorithm single, util. *)
From Verif Require Import Spec Conc MUtil MNaive MKernels MRecursive.
From Verif Require Import Tools PNaive PUtil PKernels PRecursive PDet.

Section Props.
  Context {T : Type} `{NumOps T}.

  (** C01: for every N, A, B and every schedule, the naive kernel terminates
      without failure or data race and returns the product, summed left to
      right. *)
  Theorem C01_naive_product N (A B : list T) :
    length A = N * N -> length B = N * N ->
    always (naive_matrix_multiply N A B) (is_product N A B).
  Proof. exact (naive_correct N A B). Qed.

  (** C02: same for the transposed kernel; and it returns bit for bit what the
      naive kernel returns for the transposed matrix. *)
  Theorem C02_naive_transposed_product N (A B : list T) :
    length A = N * N -> length B = N * N ->
    always (naive_matrix_multiply_transposed N A B) (is_product_t N A B).
  Proof. exact (naive_transposed_correct N A B). Qed.

  Theorem C02_naive_transposed_eq N (A B : list T) :
    length A = N * N -> length B = N * N ->
    exists C, always (naive_matrix_multiply_transposed N A B) (fun C' => C' = C) /\
              always (let! Bt := transpose_matrix N B in naive_matrix_multiply N A Bt) (fun C' => C' = C).
  Proof. exact (naive_transposed_eq N A B). Qed.

  (** C03 *)
  Theorem C03_kernel_block (A B C : list T) N x y bs :
    length A = N * N -> length B = N * N -> length C = bs * bs -> x + bs <= N -> y + bs <= N ->
    exists C', kernel A B C N x y bs = Ret C' /\ is_block bs x y (prod_entry N A B) C'.
  Proof. exact (kernel_correct A B C N x y bs). Qed.

  (** C04 *)
  Theorem C04_kernel_transposed_block (A B C : list T) N x y bs :
    length A = N * N -> length B = N * N -> length C = bs * bs -> x + bs <= N -> y + bs <= N ->
    exists C', kernel_transposed A B C N x y bs = Ret C' /\ is_block bs x y (prod_t_entry N A B) C'.
  Proof. exact (kernel_transposed_correct A B C N x y bs). Qed.

  (** C05: order of summation for every arithmetic ... *)
  Theorem C05_kernel_transposed_blocked_order (A B : list T) N x y br bi :
    length A = N * N -> length B = N * N -> x + br <= N -> y + br <= N ->
    (4 | br) -> 0 < bi -> (bi | N) ->
    exists C', kernel_transposed_blocked A B (replicate (br * br) nzero) N x y br bi = Ret C' /\
               is_block br x y (prod_t_chunks bi N A B) C'.
  Proof. exact (ktb_correct A B N x y br bi). Qed.

  (** ... hence the exact product when addition is associative. *)
  Theorem C05_kernel_transposed_blocked_product `{!Exact T} (A B : list T) N x y br bi :
    length A = N * N -> length B = N * N -> x + br <= N -> y + br <= N ->
    (4 | br) -> 0 < bi -> (bi | N) ->
    exists C', kernel_transposed_blocked A B (replicate (br * br) nzero) N x y br bi = Ret C' /\
               is_block br x y (prod_t_entry N A B) C'.
  Proof. exact (ktb_correct_exact A B N x y br bi). Qed.

  (** C06 *)
  Theorem C06_kernel_transposed_blocked_oob_input (A B C : list T) N x y br bi :
    length A = N * N -> length B = N * N -> length C = br * br -> 0 < br -> x + br <= N -> y + br <= N ->
    0 < bi -> ~ (bi | N) -> x + br = N \/ y + br = N ->
    kernel_transposed_blocked A B C N x y br bi = Err EOob.
  Proof. exact (ktb_oob_input A B C N x y br bi). Qed.

  Theorem C06_kernel_transposed_blocked_oob_result (A B C : list T) N x y br bi :
    length C = br * br -> 0 < br -> 0 < N -> 0 < bi -> ~ (4 | br) ->
    kernel_transposed_blocked A B C N x y br bi = Err EOob.
  Proof. exact (ktb_oob_result A B C N x y br bi). Qed.

  (** C07 *)
  Theorem C07_calculate_submatrix_order N (A B : list T) transposed bi x y bs :
    length A = N * N -> length B = N * N -> x + bs <= N -> y + bs <= N -> leaf_ok transposed bi bs N ->
    exists C, calculate_submatrix N A B transposed bi x y bs = Ret C /\
              is_block bs x y (leaf_entry transposed bi bs N A B) C.
  Proof. exact (calculate_submatrix_order N A B transposed bi x y bs). Qed.

  Theorem C07_calculate_submatrix_product `{!Exact T} N (A B : list T) transposed bi x y bs :
    length A = N * N -> length B = N * N -> x + bs <= N -> y + bs <= N -> leaf_ok transposed bi bs N ->
    exists C, calculate_submatrix N A B transposed bi x y bs = Ret C /\
              is_block bs x y (pentry transposed N A B) C.
  Proof. exact (calculate_submatrix_exact N A B transposed bi x y bs). Qed.

  (** C08: the block size is ms * 2^d; it is halved d times, until it is at most
      block_result. *)
  Theorem C08_distribute_recursively_order N (A B : list T) transposed bi br ms d path x y :
    length A = N * N -> length B = N * N ->
    ms <= br -> d = 0 \/ br < 2 * ms -> leaf_ok transposed bi ms N ->
    x + ms * 2 ^ d <= N -> y + ms * 2 ^ d <= N ->
    always (distribute_recursively N A B transposed bi br path x y (ms * 2 ^ d))
           (is_block (ms * 2 ^ d) x y (leaf_entry transposed bi ms N A B)).
  Proof. exact (distribute_always N A B transposed bi br ms d path x y). Qed.

  Theorem C08_distribute_recursively_product `{!Exact T} N (A B : list T) transposed bi br ms d path x y :
    length A = N * N -> length B = N * N ->
    ms <= br -> d = 0 \/ br < 2 * ms -> leaf_ok transposed bi ms N ->
    x + ms * 2 ^ d <= N -> y + ms * 2 ^ d <= N ->
    always (distribute_recursively N A B transposed bi br path x y (ms * 2 ^ d))
           (is_block (ms * 2 ^ d) x y (pentry transposed N A B)).
  Proof. exact (distribute_always_exact N A B transposed bi br ms d path x y). Qed.

  (** C09 *)
  Theorem C09_single_order N (A B : list T) transposed bi br ms d reps :
    length A = N * N -> length B = N * N ->
    N = ms * 2 ^ d -> ms <= br -> d = 0 \/ br < 2 * ms -> leaf_ok transposed bi ms N -> 0 < reps ->
    always (single_matrix_multiply N A B transposed bi br reps)
           (is_matrix N (leaf_entry transposed bi ms N A B)).
  Proof. exact (single_always N A B transposed bi br ms d reps). Qed.

  Theorem C09_single_product `{!Exact T} N (A B : list T) transposed bi br ms d reps :
    length A = N * N -> length B = N * N ->
    N = ms * 2 ^ d -> ms <= br -> d = 0 \/ br < 2 * ms -> leaf_ok transposed bi ms N -> 0 < reps ->
    always (single_matrix_multiply N A B transposed bi br reps)
           (is_matrix N (pentry transposed N A B)).
  Proof. exact (single_always_exact N A B transposed bi br ms d reps). Qed.

  Theorem C09_single_no_repetitions N (A B : list T) transposed bi br :
    always (single_matrix_multiply N A B transposed bi br 0) (is_zero N).
  Proof. exact (single_no_reps N A B transposed bi br). Qed.

  (** C10 *)
  Theorem C10_single_block_result_zero N (A B : list T) transposed bi reps :
    always (single_matrix_multiply N A B transposed bi 0 reps) (is_zero N).
  Proof. exact (single_zero_always N A B transposed bi reps). Qed.

  (** C11: an odd block of size 2n+1 that has to be split: whatever a schedule
      returns, the last 4n+1 entries are zero ... *)
  Theorem C11_odd_block_tail_zero N (A B C : list T) transposed bi br path x y n :
    br < 2 * n + 1 ->
    may_return (distribute_recursively N A B transposed bi br path x y (2 * n + 1)) C ->
    length C = (2 * n + 1) * (2 * n + 1) /\
    forall p, 2 * n * (2 * n) <= p < (2 * n + 1) * (2 * n + 1) -> C !! p = Some nzero.
  Proof. exact (odd_tail_always N A B C transposed bi br path x y n). Qed.

  (** ... and the entries before them are the product's upper left 2n x 2n part
      stored with stride 2n instead of 2n+1. *)
  Theorem C11_odd_block_contents N (A B : list T) transposed bi br ms d path x y n :
    length A = N * N -> length B = N * N ->
    ms <= br -> d = 0 \/ br < 2 * ms -> leaf_ok transposed bi ms N ->
    n = ms * 2 ^ d -> br < 2 * n + 1 -> x + (2 * n + 1) <= N -> y + (2 * n + 1) <= N ->
    always (distribute_recursively N A B transposed bi br path x y (2 * n + 1))
      (fun C => length C = (2 * n + 1) * (2 * n + 1) /\
        (forall i j, i < 2 * n -> j < 2 * n ->
           C !! (i * (2 * n) + j) = Some (leaf_entry transposed bi ms N A B (x + i) (y + j))) /\
        (forall p, 2 * n * (2 * n) <= p < (2 * n + 1) * (2 * n + 1) -> C !! p = Some nzero)).
  Proof. exact (odd_contents_always N A B transposed bi br ms d path x y n). Qed.

  (** C12 *)
  Theorem C12_default_command_line_oob (A B : list T) :
    length A = 4 * 4 -> length B = 4 * 4 ->
    single_matrix_multiply 4 A B true 128 128 1 = Err EOob.
  Proof. exact (default_cli A B). Qed.

  (** C42 *)
  Theorem C42_transpose_square N (M : list T) : length M = N * N ->
    exists R, transpose_matrix N M = Ret R /\ is_transpose N N M R.
  Proof. exact (transpose_rect_correct N N M). Qed.
  Theorem C42_transpose_rect rows cols (M : list T) : length M = rows * cols ->
    exists R, transpose_matrix_rect cols rows M = Ret R /\ is_transpose rows cols M R.
  Proof. exact (transpose_rect_correct cols rows M). Qed.
  Theorem C42_transpose_involutive rows cols (M : list T) : length M = rows * cols ->
    (let! R := transpose_matrix_rect cols rows M in transpose_matrix_rect rows cols R) = Ret M.
  Proof. exact (transpose_rect_involutive cols rows M). Qed.

  (** C43 *)
  Theorem C43_identity_matrix N : exists M : list T, create_identity_matrix N = Ret M /\ is_identity N M.
  Proof. exact (create_identity_correct N). Qed.
  Theorem C43_identity_product `{!UnitLaws T} N (A : list T) : length A = N * N ->
    always (let! Id := create_identity_matrix N in naive_matrix_multiply N A Id) (fun C => C = A).
  Proof. exact (naive_identity N A). Qed.

  (** C46 *)
  Theorem C46_print_matrix_host rows cols (m : list T) : length m = rows * cols ->
    print_matrix_host rows cols m = Ret (grid_lines rows cols (fun i j => ent cols m i j)).
  Proof. exact (print_host_ok rows cols m). Qed.
  Theorem C46_print_matrix_wide N M (m : list T) : length m = N * M -> N <= M ->
    print_matrix N M m = Ret (grid_lines N M (fun i j => ent N m i j)).
  Proof. exact (print_matrix_wide N M m). Qed.
  Theorem C46_print_matrix_tall N M (m : list T) : length m = N * M -> 0 < M -> M < N ->
    print_matrix N M m = Err EOutOfRange.
  Proof. exact (print_matrix_tall N M m). Qed.
End Props.

(** C11: hence the product is not returned for some inputs, for every odd size
    that is split, whatever the other parameters are. *)
Theorem C11_odd_block_wrong_refuted N transposed bi br path x y n :
  br < 2 * n + 1 -> x + (2 * n + 1) <= N -> y + (2 * n + 1) <= N ->
  exists A B : list Z, length A = N * N /\ length B = N * N /\
    forall C, may_return (distribute_recursively N A B transposed bi br path x y (2 * n + 1)) C ->
      ~ is_block (2 * n + 1) x y (pentry transposed N A B) C.
Proof. exact (odd_wrong N transposed bi br path x y n). Qed.

(** C46: for non-square shapes the printed lines differ from the matrix. *)
Theorem C46_print_matrix_wrong_refuted N M : 1 < N -> N < M ->
  exists m : list Z, length m = N * M /\
    print_matrix N M m <> Ret (grid_lines N M (fun i j => ent M m i j)).
Proof. exact (print_matrix_wrong N M). Qed.

Print Assumptions C01_naive_product.
Print Assumptions C02_naive_transposed_product.
Print Assumptions C02_naive_transposed_eq.
Print Assumptions C03_kernel_block.
Print Assumptions C04_kernel_transposed_block.
Print Assumptions C05_kernel_transposed_blocked_order.
Print Assumptions C05_kernel_transposed_blocked_product.
Print Assumptions C06_kernel_transposed_blocked_oob_input.
Print Assumptions C06_kernel_transposed_blocked_oob_result.
Print Assumptions C07_calculate_submatrix_order.
Print Assumptions C07_calculate_submatrix_product.
Print Assumptions C08_distribute_recursively_order.
Print Assumptions C08_distribute_recursively_product.
Print Assumptions C09_single_order.
Print Assumptions C09_single_product.
Print Assumptions C09_single_no_repetitions.
Print Assumptions C10_single_block_result_zero.
Print Assumptions C11_odd_block_tail_zero.
Print Assumptions C11_odd_block_contents.
Print Assumptions C11_odd_block_wrong_refuted.
Print Assumptions C12_default_command_line_oob.
Print Assumptions C42_transpose_square.
Print Assumptions C42_transpose_rect.
Print Assumptions C42_transpose_involutive.
Print Assumptions C43_identity_matrix.
Print Assumptions C43_identity_product.
Print Assumptions C46_print_matrix_host.
Print Assumptions C46_print_matrix_wide.
Print Assumptions C46_print_matrix_tall.
Print Assumptions C46_print_matrix_wrong_refuted.
