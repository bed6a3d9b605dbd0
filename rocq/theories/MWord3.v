(** 64-bit index arithmetic, continued: kernel_tiled.cpp, combined.cpp and
    kernel_test.cpp (see MWord.v).  Definitions only. *)
From Verif Require Export MWord2 MTiled MKTest.

Section Word.
  Context (M : nat).
  Local Notation "a +w b" := (wadd M a b) (at level 50, left associativity).
  Local Notation "a *w b" := (wmul M a b) (at level 40, left associativity).

  (** omp parallel for collapse(2) over [for (x = 0; x < hx; x += sx)] and
      [for (y = 0; y < hy; y += sy)] *)
  Definition parW2 {T} (hx sx hy sy : nat) (body : nat * nat -> prog T unit) : prog T unit :=
    let rx := wrng M 0 hx sx in
    let ry := wrng M 0 hy sy in
    if rx.2 && ry.2 then parL (rx.1 ≫= fun x => ry.1 ≫= fun y => [(x, y)]) body else Err EDiverge.

  (** * src/reference_kernels/kernel_tiled.cpp and src/variants/combined.cpp *)
  Section Tiled.
    Context {T : Type} `{NumOps T}.
    Context (b : blocks).

    (** kernel_tiled.cpp:98-104, combined.cpp:95-101 *)
    Definition pad_A_w (N X_size K_size : nat) (A_org : list T) : prog T (list T) :=
      forW M 0 N 1 (fun x A =>
        forW M 0 N 1 (fun k A =>
          let! v := vat A_org (x *w N +w k) in
          vset_at A (x *w K_size +w k) v) A) (replicate (X_size *w K_size) nzero).
    (** kernel_tiled.cpp:105-111, combined.cpp:102-108 *)
    Definition pad_B_w (N Y_size K_size : nat) (B_org : list T) : prog T (list T) :=
      forW M 0 N 1 (fun y B =>
        forW M 0 N 1 (fun k B =>
          let! v := vat B_org (k *w N +w y) in
          vset_at B (k *w Y_size +w y) v) B) (replicate (K_size *w Y_size) nzero).

    (** kernel_tiled.cpp:125-138, combined.cpp:132-145 *)
    Definition tile_A_w (X_size K_size : nat) (A : list T) : prog T (list T) :=
      forW M 0 (X_size / L1_X b) 1 (fun l1_x A_trans =>
        forW M 0 (K_size / L1_K b) 1 (fun l1_k A_trans =>
          let base_index := (L1_X b *w L1_K b) *w (l1_k *w (X_size / L1_X b) +w l1_x) in
          forW M 0 (L1_X b) 1 (fun x A_trans =>
            forW M 0 (L1_K b) 1 (fun k A_trans =>
              let! v := vget A ((l1_x *w L1_X b +w x) *w K_size +w (l1_k *w L1_K b +w k)) in
              vset A_trans (base_index +w k *w L1_X b +w x) v) A_trans) A_trans) A_trans)
        (replicate (K_size *w X_size) nzero).
    (** kernel_tiled.cpp:141-154, combined.cpp:148-161 *)
    Definition tile_B_w (Y_size K_size : nat) (B : list T) : prog T (list T) :=
      forW M 0 (Y_size / L1_Y b) 1 (fun l1_y B_padded =>
        forW M 0 (K_size / L1_K b) 1 (fun l1_k B_padded =>
          let base_index := (L1_Y b *w L1_K b) *w (l1_k *w (Y_size / L1_Y b) +w l1_y) in
          forW M 0 (L1_Y b) 1 (fun y B_padded =>
            forW M 0 (L1_K b) 1 (fun k B_padded =>
              let! v := vget B ((l1_k *w L1_K b +w k) *w Y_size +w (l1_y *w L1_Y b +w y)) in
              vset B_padded (base_index +w k *w L1_Y b +w y) v) B_padded) B_padded) B_padded)
        (replicate (K_size *w Y_size) nzero).


    (** kernel_tiled.cpp:297-338, combined.cpp:219-253: one value of k_inner *)
    Definition reg_inner_w (A_trans B_padded : list T) (A_base B_base x y k_inner : nat) (acc : acc10) : prog T acc10 :=
      let '(acc_11, acc_21, acc_31, acc_41, acc_51, acc_12, acc_22, acc_32, acc_42, acc_52) := acc in
      let! b_temp_1 := vload_aligned B_padded (B_base +w k_inner *w L1_Y b +w y) in
      let! b_temp_2 := vload_aligned B_padded (B_base +w k_inner *w L1_Y b +w (y +w 4)) in
      let! a_temp_1 := vget A_trans (A_base +w k_inner *w L1_X b +w (x +w 0)) in
      let! a_temp_2 := vget A_trans (A_base +w k_inner *w L1_X b +w (x +w 1)) in
      let! a_temp_3 := vget A_trans (A_base +w k_inner *w L1_X b +w (x +w 2)) in
      let! a_temp_4 := vget A_trans (A_base +w k_inner *w L1_X b +w (x +w 3)) in
      let! a_temp_5 := vget A_trans (A_base +w k_inner *w L1_X b +w (x +w 4)) in
      Ret (v4_add acc_11 (v4_scale a_temp_1 b_temp_1),
           v4_add acc_21 (v4_scale a_temp_2 b_temp_1),
           v4_add acc_31 (v4_scale a_temp_3 b_temp_1),
           v4_add acc_41 (v4_scale a_temp_4 b_temp_1),
           v4_add acc_51 (v4_scale a_temp_5 b_temp_1),
           v4_add acc_12 (v4_scale a_temp_1 b_temp_2),
           v4_add acc_22 (v4_scale a_temp_2 b_temp_2),
           v4_add acc_32 (v4_scale a_temp_3 b_temp_2),
           v4_add acc_42 (v4_scale a_temp_4 b_temp_2),
           v4_add acc_52 (v4_scale a_temp_5 b_temp_2)).

    (** kernel_tiled.cpp:267-456, combined.cpp:205-318: one register block *)
    Definition reg_block_w (A_trans B_padded : list T) (A_base B_base C_base x y : nat) : prog T unit :=
      let! acc := forW M 0 (L1_K b) 1 (reg_inner_w A_trans B_padded A_base B_base x y)
                    (v4_zero, v4_zero, v4_zero, v4_zero, v4_zero, v4_zero, v4_zero, v4_zero, v4_zero, v4_zero) in
      let '(acc_11, acc_21, acc_31, acc_41, acc_51, acc_12, acc_22, acc_32, acc_42, acc_52) := acc in
      add4 idCp (C_base +w (x +w 0) *w L1_Y b +w y) acc_11 ;;;
      add4 idCp (C_base +w (x +w 1) *w L1_Y b +w y) acc_21 ;;;
      add4 idCp (C_base +w (x +w 2) *w L1_Y b +w y) acc_31 ;;;
      add4 idCp (C_base +w (x +w 3) *w L1_Y b +w y) acc_41 ;;;
      add4 idCp (C_base +w (x +w 4) *w L1_Y b +w y) acc_51 ;;;
      add4 idCp (C_base +w (x +w 0) *w L1_Y b +w (y +w 4)) acc_12 ;;;
      add4 idCp (C_base +w (x +w 1) *w L1_Y b +w (y +w 4)) acc_22 ;;;
      add4 idCp (C_base +w (x +w 2) *w L1_Y b +w (y +w 4)) acc_32 ;;;
      add4 idCp (C_base +w (x +w 3) *w L1_Y b +w (y +w 4)) acc_42 ;;;
      add4 idCp (C_base +w (x +w 4) *w L1_Y b +w (y +w 4)) acc_52.

    (** kernel_tiled.cpp:248-262 and 264-480, combined.cpp:192-320 *)
    Definition l1_kernel_w (X_size Y_size : nat) (A_trans B_padded : list T) (l1_x l1_y l1_k : nat) : prog T unit :=
      let l1_block_x := l1_x / L1_X b in
      let l1_block_y := l1_y / L1_Y b in
      let C_base_index := (L1_X b *w L1_Y b) *w (l1_block_x *w (Y_size / L1_Y b) +w l1_block_y) in
      let l1_block_k := l1_k / L1_K b in
      let A_base_index := (L1_X b *w L1_K b) *w (l1_block_k *w (X_size / L1_X b) +w l1_block_x) in
      let B_base_index := (L1_Y b *w L1_K b) *w (l1_block_k *w (Y_size / L1_Y b) +w l1_block_y) in
      forPW M 0 (L1_X b) 5 (fun x =>
        forPW M 0 (L1_Y b) 8 (fun y =>
          reg_block_w A_trans B_padded A_base_index B_base_index C_base_index x y)).

    (** kernel_tiled.cpp:518-535, combined.cpp:337-354 *)
    Definition untile_C_w (N X_size Y_size : nat) : prog T (list T) :=
      forW M 0 (X_size / L1_X b) 1 (fun l1_x C_return =>
        forW M 0 (Y_size / L1_Y b) 1 (fun l1_y C_return =>
          let base_index := (L1_X b *w L1_Y b) *w (l1_x *w (Y_size / L1_Y b) +w l1_y) in
          forW M 0 (L1_X b) 1 (fun x C_return =>
            forW M 0 (L1_Y b) 1 (fun y C_return =>
              if (l1_x *w L1_X b +w x <? N) && (l1_y *w L1_Y b +w y <? N) then
                let! v := rd_at idCp (base_index +w x *w L1_Y b +w y) in
                vset_at C_return ((l1_x *w L1_X b +w x) *w N +w (l1_y *w L1_Y b +w y)) v
              else Ret C_return) C_return) C_return) C_return)
        (replicate (N *w N) nzero).

    (** kernel_tiled.cpp:240-487: the body of the parallel loop *)
    Definition kernel_tiled_task_w (X_size Y_size K_size : nat) (A_trans B_padded : list T) (l3_x l3_y : nat) : prog T unit :=
      forPW M 0 K_size (L3_K b) (fun l3_k =>
        forPW M l3_x (l3_x +w L3_X b) (L2_X b) (fun l2_x =>
          forPW M l3_y (l3_y +w L3_Y b) (L2_Y b) (fun l2_y =>
            forPW M l3_k (l3_k +w L3_K b) (L2_K b) (fun l2_k =>
              forPW M l2_x (l2_x +w L2_X b) (L1_X b) (fun l1_x =>
                forPW M l2_y (l2_y +w L2_Y b) (L1_Y b) (fun l1_y =>
                  forPW M l2_k (l2_k +w L2_K b) (L1_K b) (fun l1_k =>
                    l1_kernel_w X_size Y_size A_trans B_padded l1_x l1_y l1_k))))))).

    (** kernel_tiled.cpp:64-112 followed by 114-546 *)
    Definition kernel_tiled_matrix_multiply_w (N : nat) (A_org B_org : list T) (transposed : bool) (repetitions : nat)
        : prog T (list T) :=
      if negb (verify_blocking_setup b) then Err ETerminate else
      let X_size := N +w padding N (L3_X b) in
      let Y_size := N +w padding N (L3_Y b) in
      let K_size := N +w padding N (L3_K b) in
      let! A := pad_A_w N X_size K_size A_org in
      let! B := pad_B_w N Y_size K_size B_org in
      valloc idCp (X_size *w Y_size) nzero ;;;
      let! A_trans := tile_A_w X_size K_size A in
      let! B_padded := tile_B_w Y_size K_size B in
      forPW M 0 repetitions 1 (fun _ =>
        forPW M 0 (X_size *w Y_size) 1 (fun i => wr idCp i nzero) ;;;
        parW2 X_size (L3_X b) Y_size (L3_Y b)
          (fun t => kernel_tiled_task_w X_size Y_size K_size A_trans B_padded t.1 t.2)) ;;;
      untile_C_w N X_size Y_size.

    (** combined.cpp:121-127 *)
    Definition transpose_untiled_w (X_size K_size : nat) (A : list T) : prog T (list T) :=
      forW M 0 K_size 1 (fun i A_trans_untiled =>
        forW M 0 X_size 1 (fun j A_trans_untiled =>
          let! v := vget A (j *w K_size +w i) in
          vset A_trans_untiled (i *w X_size +w j) v) A_trans_untiled) (replicate (K_size *w X_size) nzero).


    (** combined.cpp:190-326: the callback *)
    Definition combined_callback_w (X_size Y_size : nat) (A_trans B_padded : list T) (p : list nat) : prog T unit :=
      let! l1_x := ofres (lget p 0) in
      let! l1_y := ofres (lget p 1) in
      let! l1_k := ofres (lget p 2) in
      l1_kernel_w X_size Y_size A_trans B_padded l1_x l1_y l1_k ;;;
      clear_first.


    (** combined.cpp:61-109 followed by 111-373 *)
    Definition combined_matrix_multiply_w (N : nat) (A_org B_org : list T) (repetitions : nat) : prog T (list T) :=
      if negb (verify_blocking_setup b) then Err ETerminate else
      Alloc idFirst (VF true) (
      let X_size := N +w padding N (L3_X b) in
      let Y_size := N +w padding N (L3_Y b) in
      let K_size := N +w padding N (L3_K b) in
      let! A := pad_A_w N X_size K_size A_org in
      let! B := pad_B_w N Y_size K_size B_org in
      valloc idCp (X_size *w Y_size) nzero ;;;
      let! A_trans_untiled := transpose_untiled_w X_size K_size A in
      let! A_trans := tile_A_w X_size K_size A in
      let! B_padded := tile_B_w Y_size K_size B in
      forPW M 0 repetitions 1 (fun _ =>
        let! p := ofres (combined_policy b) in
        Wr idFirst (VF true) (fun ok : bool => if ok then Ret tt else Err EDangling) ;;;
        iterate_indices_w M 3 p [0; 0; 0] [X_size; Y_size; K_size] (combined_callback_w X_size Y_size A_trans B_padded)) ;;;
      untile_C_w N X_size Y_size).
  End Tiled.

  (** * src/reference_kernels/kernel_test.cpp *)
  Section KTest.
    Context {T : Type} `{NumOps T}.
    Context (b : blocks) (PADDING : nat).

  (** kernel_test.cpp:31-37 (A_padded) and 48-54 (B_padded) *)
    Definition kt_pad_w (N : nat) (V : list T) : prog T (list T) :=
      forW M 0 N 1 (fun i P =>
        forW M 0 N 1 (fun j P =>
          let! v := vget V (i *w N +w j) in
          vset P (i *w (N +w PADDING) +w j) v) P) (replicate ((N +w PADDING) *w (N +w PADDING)) nzero).
    (** kernel_test.cpp:40-46 *)
    Definition kt_trans_w (N : nat) (A : list T) : prog T (list T) :=
      forW M 0 N 1 (fun i A_trans =>
        forW M 0 N 1 (fun j A_trans =>
          let! v := vget A (j *w N +w i) in
          vset A_trans (i *w (N +w PADDING) +w j) v) A_trans) (replicate ((N +w PADDING) *w (N +w PADDING)) nzero).


    (** kernel_test.cpp:105-138: one value of k_inner.  W is N + PADDING. *)
    Definition kt_inner_w (W : nat) (A_trans B_padded : list T) (x y k_inner : nat) (s : kt_state) : prog T kt_state :=
      let '(b_temp_1, b_temp_2, (acc_11, acc_21, acc_31, acc_41, acc_51, acc_12, acc_22, acc_32, acc_42, acc_52)) := s in
      let! a_temp_1 := vget A_trans (k_inner *w W +w (x +w 0)) in
      let! a_temp_2 := vget A_trans (k_inner *w W +w (x +w 1)) in
      let! a_temp_3 := vget A_trans (k_inner *w W +w (x +w 2)) in
      let! a_temp_4 := vget A_trans (k_inner *w W +w (x +w 3)) in
      let! a_temp_5 := vget A_trans (k_inner *w W +w (x +w 4)) in
      let! b_next_1 := vload_aligned B_padded ((k_inner +w 1) *w W +w y) in
      let! b_next_2 := vload_aligned B_padded ((k_inner +w 1) *w W +w (y +w 4)) in
      Ret (b_next_1, b_next_2,
           (v4_add acc_11 (v4_scale a_temp_1 b_temp_1),
            v4_add acc_21 (v4_scale a_temp_2 b_temp_1),
            v4_add acc_31 (v4_scale a_temp_3 b_temp_1),
            v4_add acc_41 (v4_scale a_temp_4 b_temp_1),
            v4_add acc_51 (v4_scale a_temp_5 b_temp_1),
            v4_add acc_12 (v4_scale a_temp_1 b_temp_2),
            v4_add acc_22 (v4_scale a_temp_2 b_temp_2),
            v4_add acc_32 (v4_scale a_temp_3 b_temp_2),
            v4_add acc_42 (v4_scale a_temp_4 b_temp_2),
            v4_add acc_52 (v4_scale a_temp_5 b_temp_2))).


    (** kernel_test.cpp:80-228: one register block *)
    Definition kt_block_w (W : nat) (A_trans B_padded : list T) (l1_x l1_k x y : nat) : prog T unit :=
      let! b_temp_1 := vload_aligned B_padded (l1_k *w W +w y) in
      let! b_temp_2 := vload_aligned B_padded (l1_k *w W +w (y +w 4)) in
      let! s := forW M l1_k (l1_k +w L1_K b) 1 (kt_inner_w W A_trans B_padded x y)
                  (b_temp_1, b_temp_2,
                   (v4_zero, v4_zero, v4_zero, v4_zero, v4_zero, v4_zero, v4_zero, v4_zero, v4_zero, v4_zero)) in
      let '(_, _, (acc_11, acc_21, acc_31, acc_41, acc_51, acc_12, acc_22, acc_32, acc_42, acc_52)) := s in
      add4 idCp ((x +w 0) *w W +w y) acc_11 ;;;
      kt_when (x +w 1 <? l1_x +w L1_X b) (add4 idCp ((x +w 1) *w W +w y) acc_21) ;;;
      kt_when (x +w 2 <? l1_x +w L1_X b) (add4 idCp ((x +w 2) *w W +w y) acc_31) ;;;
      kt_when (x +w 3 <? l1_x +w L1_X b) (add4 idCp ((x +w 3) *w W +w y) acc_41) ;;;
      kt_when (x +w 4 <? l1_x +w L1_X b) (add4 idCp ((x +w 4) *w W +w y) acc_51) ;;;
      add4 idCp ((x +w 0) *w W +w (y +w 4)) acc_12 ;;;
      kt_when (x +w 1 <? l1_x +w L1_X b) (add4 idCp ((x +w 1) *w W +w (y +w 4)) acc_22) ;;;
      kt_when (x +w 2 <? l1_x +w L1_X b) (add4 idCp ((x +w 2) *w W +w (y +w 4)) acc_32) ;;;
      kt_when (x +w 3 <? l1_x +w L1_X b) (add4 idCp ((x +w 3) *w W +w (y +w 4)) acc_42) ;;;
      kt_when (x +w 4 <? l1_x +w L1_X b) (add4 idCp ((x +w 4) *w W +w (y +w 4)) acc_52).

    (** kernel_test.cpp:77-230 *)
    Definition kt_l1_w (W : nat) (A_trans B_padded : list T) (l1_x l1_y l1_k : nat) : prog T unit :=
      forPW M l1_x (l1_x +w L1_X b) 5 (fun x =>
        forPW M l1_y (l1_y +w L1_Y b) 8 (fun y => kt_block_w W A_trans B_padded l1_x l1_k x y)).

    (** kernel_test.cpp:65-238: the body of the parallel loop *)
    Definition kt_task_w (N : nat) (A_trans B_padded : list T) (l3_x l3_y : nat) : prog T unit :=
      forPW M 0 N (L3_K b) (fun l3_k =>
        forPW M l3_x (l3_x +w L3_X b) (L2_X b) (fun l2_x =>
          forPW M l3_y (l3_y +w L3_Y b) (L2_Y b) (fun l2_y =>
            forPW M l3_k (l3_k +w L3_K b) (L2_K b) (fun l2_k =>
              forPW M l2_x (l2_x +w L2_X b) (L1_X b) (fun l1_x =>
                forPW M l2_y (l2_y +w L2_Y b) (L1_Y b) (fun l1_y =>
                  forPW M l2_k (l2_k +w L2_K b) (L1_K b) (fun l1_k =>
                    kt_l1_w (N +w PADDING) A_trans B_padded l1_x l1_y l1_k))))))).

    (** kernel_test.cpp:242-249; C is filled with zeros before (line 243) *)
    Definition kt_copy_back_w (N : nat) : prog T (list T) :=
      forW M 0 N 1 (fun i C =>
        forW M 0 N 1 (fun j C =>
          let! v := rd idCp (i *w (N +w PADDING) +w j) in
          vset C (i *w N +w j) v) C) (replicate (N *w N) nzero).

    (** kernel_test.cpp:26-252 *)
    Definition kernel_test_matrix_multiply_w (N : nat) (A B : list T) (transposed : bool) (repetitions : nat)
        : prog T (list T) :=
      valloc idCp ((N +w PADDING) *w (N +w PADDING)) nzero ;;;
      let! A_padded := kt_pad_w N A in
      let! A_trans := kt_trans_w N A in
      let! B_padded := kt_pad_w N B in
      forPW M 0 repetitions 1 (fun _ =>
        forPW M 0 ((N +w PADDING) *w (N +w PADDING)) 1 (fun i => wr idCp i nzero) ;;;
        parW2 N (L3_X b) N (L3_Y b)
          (fun t => kt_task_w N A_trans B_padded t.1 t.2)) ;;;
      kt_copy_back_w N.
  End KTest.
End Word.
