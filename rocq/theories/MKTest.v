(** Model of src/reference_kernels/kernel_test.cpp.  Definitions only.

    Vc::double_v has four lanes (AVX), as the offsets y and y + 4 assume.  A
    contraction of acc += a * b into a fused operation is modelled in MContract.v. *)
From Verif Require Export MTiled.

(** The constants kernel_test.cpp:7-15; X_REG = 5 and Y_REG = 8 (16-17) are
    fixed.  The block sizes and PADDING (6) are parameters below. *)
Definition kt_shipped : blocks := Blocks 256 256 512 128 128 64 64 32 16.
Definition kt_padding : nat := 64.

Section KTest.
  Context {T : Type} `{NumOps T}.
  Context (b : blocks) (PADDING : nat).

  (** kernel_test.cpp:31-37 (A_padded) and 48-54 (B_padded) *)
  Definition kt_pad (N : nat) (M : list T) : prog T (list T) :=
    forS 0 N 1 (fun i P =>
      forS 0 N 1 (fun j P =>
        let! v := vget M (i * N + j) in
        vset P (i * (N + PADDING) + j) v) P) (replicate ((N + PADDING) * (N + PADDING)) nzero).
  (** kernel_test.cpp:40-46 *)
  Definition kt_trans (N : nat) (A : list T) : prog T (list T) :=
    forS 0 N 1 (fun i A_trans =>
      forS 0 N 1 (fun j A_trans =>
        let! v := vget A (j * N + i) in
        vset A_trans (i * (N + PADDING) + j) v) A_trans) (replicate ((N + PADDING) * (N + PADDING)) nzero).

  (** The loop-carried values b_temp_1, b_temp_2 and the accumulators. *)
  Definition kt_state : Type := v4 (T := T) * v4 (T := T) * acc10 (T := T).

  (** kernel_test.cpp:105-138: one value of k_inner.  W is N + PADDING. *)
  Definition kt_inner (W : nat) (A_trans B_padded : list T) (x y k_inner : nat) (s : kt_state) : prog T kt_state :=
    let '(b_temp_1, b_temp_2, (acc_11, acc_21, acc_31, acc_41, acc_51, acc_12, acc_22, acc_32, acc_42, acc_52)) := s in
    let! a_temp_1 := vget A_trans (k_inner * W + (x + 0)) in
    let! a_temp_2 := vget A_trans (k_inner * W + (x + 1)) in
    let! a_temp_3 := vget A_trans (k_inner * W + (x + 2)) in
    let! a_temp_4 := vget A_trans (k_inner * W + (x + 3)) in
    let! a_temp_5 := vget A_trans (k_inner * W + (x + 4)) in
    let! b_next_1 := vload_aligned B_padded ((k_inner + 1) * W + y) in
    let! b_next_2 := vload_aligned B_padded ((k_inner + 1) * W + (y + 4)) in
    Ret (b_next_1, b_next_2,
         (v4_add acc_11 (v4_scale a_temp_1 b_temp_1),
          v4_add acc_21 (v4_scale a_temp_2 b_temp_1),
          v4_add acc_31 (v4_scale a_temp_3 b_temp_1),
          v4_add acc_41 (v4_scale a_temp_4 b_temp_1),
          v4_add acc_51 (v4_scale a_temp_5 b_temp_1),
          v4_add acc_12 (v4_scale a_temp_1 b_temp_2),
          v4_add acc_22 (v4_scale a_temp_2 b_temp_2),
          v4_add acc_32 (v4_scale a_temp_3 b_temp_2),
          v4_add acc_42 (v4_scale a_temp_4 b_temp_2),
          v4_add acc_52 (v4_scale a_temp_5 b_temp_2))).

  (** [if (c) p] *)
  Definition kt_when (c : bool) (p : prog T unit) : prog T unit := if c then p else Ret tt.

  (** kernel_test.cpp:80-228: one register block *)
  Definition kt_block (W : nat) (A_trans B_padded : list T) (l1_x l1_k x y : nat) : prog T unit :=
    let! b_temp_1 := vload_aligned B_padded (l1_k * W + y) in
    let! b_temp_2 := vload_aligned B_padded (l1_k * W + (y + 4)) in
    let! s := forS l1_k (l1_k + L1_K b) 1 (kt_inner W A_trans B_padded x y)
                (b_temp_1, b_temp_2,
                 (v4_zero, v4_zero, v4_zero, v4_zero, v4_zero, v4_zero, v4_zero, v4_zero, v4_zero, v4_zero)) in
    let '(_, _, (acc_11, acc_21, acc_31, acc_41, acc_51, acc_12, acc_22, acc_32, acc_42, acc_52)) := s in
    add4 idCp ((x + 0) * W + y) acc_11 ;;;
    kt_when (x + 1 <? l1_x + L1_X b) (add4 idCp ((x + 1) * W + y) acc_21) ;;;
    kt_when (x + 2 <? l1_x + L1_X b) (add4 idCp ((x + 2) * W + y) acc_31) ;;;
    kt_when (x + 3 <? l1_x + L1_X b) (add4 idCp ((x + 3) * W + y) acc_41) ;;;
    kt_when (x + 4 <? l1_x + L1_X b) (add4 idCp ((x + 4) * W + y) acc_51) ;;;
    add4 idCp ((x + 0) * W + (y + 4)) acc_12 ;;;
    kt_when (x + 1 <? l1_x + L1_X b) (add4 idCp ((x + 1) * W + (y + 4)) acc_22) ;;;
    kt_when (x + 2 <? l1_x + L1_X b) (add4 idCp ((x + 2) * W + (y + 4)) acc_32) ;;;
    kt_when (x + 3 <? l1_x + L1_X b) (add4 idCp ((x + 3) * W + (y + 4)) acc_42) ;;;
    kt_when (x + 4 <? l1_x + L1_X b) (add4 idCp ((x + 4) * W + (y + 4)) acc_52).

  (** kernel_test.cpp:77-230 *)
  Definition kt_l1 (W : nat) (A_trans B_padded : list T) (l1_x l1_y l1_k : nat) : prog T unit :=
    forP l1_x (l1_x + L1_X b) 5 (fun x =>
      forP l1_y (l1_y + L1_Y b) 8 (fun y => kt_block W A_trans B_padded l1_x l1_k x y)).

  (** kernel_test.cpp:65-238: the body of the parallel loop *)
  Definition kt_task (N : nat) (A_trans B_padded : list T) (l3_x l3_y : nat) : prog T unit :=
    forP 0 N (L3_K b) (fun l3_k =>
      forP l3_x (l3_x + L3_X b) (L2_X b) (fun l2_x =>
        forP l3_y (l3_y + L3_Y b) (L2_Y b) (fun l2_y =>
          forP l3_k (l3_k + L3_K b) (L2_K b) (fun l2_k =>
            forP l2_x (l2_x + L2_X b) (L1_X b) (fun l1_x =>
              forP l2_y (l2_y + L2_Y b) (L1_Y b) (fun l1_y =>
                forP l2_k (l2_k + L2_K b) (L1_K b) (fun l1_k =>
                  kt_l1 (N + PADDING) A_trans B_padded l1_x l1_y l1_k))))))).

  (** kernel_test.cpp:242-249; C is filled with zeros before (line 243) *)
  Definition kt_copy_back (N : nat) : prog T (list T) :=
    forS 0 N 1 (fun i C =>
      forS 0 N 1 (fun j C =>
        let! v := rd idCp (i * (N + PADDING) + j) in
        vset C (i * N + j) v) C) (replicate (N * N) nzero).

  (** kernel_test.cpp:26-252.  [transposed] is not used by the code.  The loop
      marked omp parallel for collapse(2) has one task per pair (l3_x, l3_y);
      A_trans and B_padded are not changed inside. *)
  Definition kernel_test_matrix_multiply (N : nat) (A B : list T) (transposed : bool) (repetitions : nat)
      : prog T (list T) :=
    valloc idCp ((N + PADDING) * (N + PADDING)) nzero ;;;
    let! A_padded := kt_pad N A in
    let! A_trans := kt_trans N A in
    let! B_padded := kt_pad N B in
    forP 0 repetitions 1 (fun _ =>
      forP 0 ((N + PADDING) * (N + PADDING)) 1 (fun i => wr idCp i nzero) ;;;
      parL (rng 0 N (L3_X b) ≫= fun l3_x => rng 0 N (L3_Y b) ≫= fun l3_y => [(l3_x, l3_y)])
        (fun t => kt_task N A_trans B_padded t.1 t.2)) ;;;
    kt_copy_back N.
End KTest.
