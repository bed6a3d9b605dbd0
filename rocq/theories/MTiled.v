(** Models of src/reference_kernels/kernel_tiled.cpp and
    src/variants/combined.cpp.  Definitions only.

    Vc::double_v has four lanes (AVX); the code relies on it by the offsets
    y and y + 4 and Y_REG = 8.  A contraction of acc += a * b into a
    fused operation is modelled in MContract.v, printing in MTranscript.v.  Timing
    is not modelled. *)
From Verif Require Export Conc Num MIter.

(** The cache-block constants, kernel_tiled.cpp:12-25 and combined.cpp:15-23.
    They are parameters here; [shipped] are the values in the source.  X_REG = 5
    and Y_REG = 8 ("cannot be changed!") are fixed. *)
Record blocks := Blocks {
  L3_X : nat; L3_Y : nat; L3_K : nat;
  L2_X : nat; L2_Y : nat; L2_K : nat;
  L1_X : nat; L1_Y : nat; L1_K : nat }.
Definition shipped : blocks := Blocks 420 256 256 70 64 128 35 16 64.

(** kernel_tiled.cpp:46-62, combined.cpp:43-59; [false] is the path ending in
    [throw;] without an active exception. *)
Definition verify_blocking_setup (b : blocks) : bool :=
  ((L2_X b mod L1_X b =? 0) && (L3_X b mod L2_X b =? 0)) &&
  (((L2_Y b mod L1_Y b =? 0) && (L3_Y b mod L2_Y b =? 0)) &&
   ((L2_K b mod L1_K b =? 0) && (L3_K b mod L2_K b =? 0))).

(** kernel_tiled.cpp:71-82, combined.cpp:68-79 *)
Definition padding (N L : nat) : nat :=
  let pad := L - N mod L in if pad =? L then 0 else pad.

Section Tiled.
  Context {T : Type} `{NumOps T}.

  (** Vc::double_v *)
  Definition v4 : Type := T * T * T * T.
  Definition v4_zero : v4 := (nzero, nzero, nzero, nzero).
  Definition v4_add (u v : v4) : v4 :=
    let '(u0, u1, u2, u3) := u in let '(v0, v1, v2, v3) := v in
    (nadd u0 v0, nadd u1 v1, nadd u2 v2, nadd u3 v3).
  (** a * v with a broadcast scalar a *)
  Definition v4_scale (a : T) (v : v4) : v4 :=
    let '(v0, v1, v2, v3) := v in (nmul a v0, nmul a v1, nmul a v2, nmul a v3).

  (** double_v(&v[i], Vc::flags::vector_aligned) on a vector whose storage is
      aligned to 32 bytes *)
  Definition vload_aligned (v : list T) (i : nat) : prog T v4 :=
    if negb (i mod 4 =? 0) then Err EMisaligned else
    let! x0 := vget v i in
    let! x1 := vget v (i + 1) in
    let! x2 := vget v (i + 2) in
    let! x3 := vget v (i + 3) in
    Ret (x0, x1, x2, x3).
  (** double_v(&a[i], Vc::flags::element_aligned) on a shared vector *)
  Definition load4 (a : arr) (i : nat) : prog T v4 :=
    let! x0 := rd a i in
    let! x1 := rd a (i + 1) in
    let! x2 := rd a (i + 2) in
    let! x3 := rd a (i + 3) in
    Ret (x0, x1, x2, x3).
  (** v.memstore(&a[i], Vc::flags::element_aligned) *)
  Definition store4 (a : arr) (i : nat) (v : v4) : prog T unit :=
    let '(x0, x1, x2, x3) := v in
    wr a i x0 ;;; wr a (i + 1) x1 ;;; wr a (i + 2) x2 ;;; wr a (i + 3) x3.
  (** res = load; res += acc; res.memstore *)
  Definition add4 (a : arr) (i : nat) (acc : v4) : prog T unit :=
    let! res := load4 a i in store4 a i (v4_add res acc).

  (** C_padded *)
  Definition idCp : arr := [0].
  (** the captured flag [first] of combined.cpp:187 *)
  Definition idFirst : loc := ([1], 0).

  Context (b : blocks).

  (** kernel_tiled.cpp:98-104, combined.cpp:95-101 *)
  Definition pad_A (N X_size K_size : nat) (A_org : list T) : prog T (list T) :=
    forS 0 N 1 (fun x A =>
      forS 0 N 1 (fun k A =>
        let! v := vat A_org (x * N + k) in
        vset_at A (x * K_size + k) v) A) (replicate (X_size * K_size) nzero).
  (** kernel_tiled.cpp:105-111, combined.cpp:102-108 *)
  Definition pad_B (N Y_size K_size : nat) (B_org : list T) : prog T (list T) :=
    forS 0 N 1 (fun y B =>
      forS 0 N 1 (fun k B =>
        let! v := vat B_org (k * N + y) in
        vset_at B (k * Y_size + y) v) B) (replicate (K_size * Y_size) nzero).

  (** kernel_tiled.cpp:125-138, combined.cpp:132-145 *)
  Definition tile_A (X_size K_size : nat) (A : list T) : prog T (list T) :=
    forS 0 (X_size / L1_X b) 1 (fun l1_x A_trans =>
      forS 0 (K_size / L1_K b) 1 (fun l1_k A_trans =>
        let base_index := (L1_X b * L1_K b) * (l1_k * (X_size / L1_X b) + l1_x) in
        forS 0 (L1_X b) 1 (fun x A_trans =>
          forS 0 (L1_K b) 1 (fun k A_trans =>
            let! v := vget A ((l1_x * L1_X b + x) * K_size + (l1_k * L1_K b + k)) in
            vset A_trans (base_index + k * L1_X b + x) v) A_trans) A_trans) A_trans)
      (replicate (K_size * X_size) nzero).
  (** kernel_tiled.cpp:141-154, combined.cpp:148-161 *)
  Definition tile_B (Y_size K_size : nat) (B : list T) : prog T (list T) :=
    forS 0 (Y_size / L1_Y b) 1 (fun l1_y B_padded =>
      forS 0 (K_size / L1_K b) 1 (fun l1_k B_padded =>
        let base_index := (L1_Y b * L1_K b) * (l1_k * (Y_size / L1_Y b) + l1_y) in
        forS 0 (L1_Y b) 1 (fun y B_padded =>
          forS 0 (L1_K b) 1 (fun k B_padded =>
            let! v := vget B ((l1_k * L1_K b + k) * Y_size + (l1_y * L1_Y b + y)) in
            vset B_padded (base_index + k * L1_Y b + y) v) B_padded) B_padded) B_padded)
      (replicate (K_size * Y_size) nzero).

  (** The accumulators acc_11 .. acc_51, acc_12 .. acc_52. *)
  Definition acc10 : Type := v4 * v4 * v4 * v4 * v4 * v4 * v4 * v4 * v4 * v4.

  (** kernel_tiled.cpp:297-338, combined.cpp:219-253: one value of k_inner *)
  Definition reg_inner (A_trans B_padded : list T) (A_base B_base x y k_inner : nat) (acc : acc10) : prog T acc10 :=
    let '(acc_11, acc_21, acc_31, acc_41, acc_51, acc_12, acc_22, acc_32, acc_42, acc_52) := acc in
    let! b_temp_1 := vload_aligned B_padded (B_base + k_inner * L1_Y b + y) in
    let! b_temp_2 := vload_aligned B_padded (B_base + k_inner * L1_Y b + (y + 4)) in
    let! a_temp_1 := vget A_trans (A_base + k_inner * L1_X b + (x + 0)) in
    let! a_temp_2 := vget A_trans (A_base + k_inner * L1_X b + (x + 1)) in
    let! a_temp_3 := vget A_trans (A_base + k_inner * L1_X b + (x + 2)) in
    let! a_temp_4 := vget A_trans (A_base + k_inner * L1_X b + (x + 3)) in
    let! a_temp_5 := vget A_trans (A_base + k_inner * L1_X b + (x + 4)) in
    Ret (v4_add acc_11 (v4_scale a_temp_1 b_temp_1),
         v4_add acc_21 (v4_scale a_temp_2 b_temp_1),
         v4_add acc_31 (v4_scale a_temp_3 b_temp_1),
         v4_add acc_41 (v4_scale a_temp_4 b_temp_1),
         v4_add acc_51 (v4_scale a_temp_5 b_temp_1),
         v4_add acc_12 (v4_scale a_temp_1 b_temp_2),
         v4_add acc_22 (v4_scale a_temp_2 b_temp_2),
         v4_add acc_32 (v4_scale a_temp_3 b_temp_2),
         v4_add acc_42 (v4_scale a_temp_4 b_temp_2),
         v4_add acc_52 (v4_scale a_temp_5 b_temp_2)).

  (** kernel_tiled.cpp:267-456, combined.cpp:205-318: one register block *)
  Definition reg_block (A_trans B_padded : list T) (A_base B_base C_base x y : nat) : prog T unit :=
    let! acc := forS 0 (L1_K b) 1 (reg_inner A_trans B_padded A_base B_base x y)
                  (v4_zero, v4_zero, v4_zero, v4_zero, v4_zero, v4_zero, v4_zero, v4_zero, v4_zero, v4_zero) in
    let '(acc_11, acc_21, acc_31, acc_41, acc_51, acc_12, acc_22, acc_32, acc_42, acc_52) := acc in
    add4 idCp (C_base + (x + 0) * L1_Y b + y) acc_11 ;;;
    add4 idCp (C_base + (x + 1) * L1_Y b + y) acc_21 ;;;
    add4 idCp (C_base + (x + 2) * L1_Y b + y) acc_31 ;;;
    add4 idCp (C_base + (x + 3) * L1_Y b + y) acc_41 ;;;
    add4 idCp (C_base + (x + 4) * L1_Y b + y) acc_51 ;;;
    add4 idCp (C_base + (x + 0) * L1_Y b + (y + 4)) acc_12 ;;;
    add4 idCp (C_base + (x + 1) * L1_Y b + (y + 4)) acc_22 ;;;
    add4 idCp (C_base + (x + 2) * L1_Y b + (y + 4)) acc_32 ;;;
    add4 idCp (C_base + (x + 3) * L1_Y b + (y + 4)) acc_42 ;;;
    add4 idCp (C_base + (x + 4) * L1_Y b + (y + 4)) acc_52.

  (** kernel_tiled.cpp:248-262 and 264-480, combined.cpp:192-320 *)
  Definition l1_kernel (X_size Y_size : nat) (A_trans B_padded : list T) (l1_x l1_y l1_k : nat) : prog T unit :=
    let l1_block_x := l1_x / L1_X b in
    let l1_block_y := l1_y / L1_Y b in
    let C_base_index := (L1_X b * L1_Y b) * (l1_block_x * (Y_size / L1_Y b) + l1_block_y) in
    let l1_block_k := l1_k / L1_K b in
    let A_base_index := (L1_X b * L1_K b) * (l1_block_k * (X_size / L1_X b) + l1_block_x) in
    let B_base_index := (L1_Y b * L1_K b) * (l1_block_k * (Y_size / L1_Y b) + l1_block_y) in
    forP 0 (L1_X b) 5 (fun x =>
      forP 0 (L1_Y b) 8 (fun y =>
        reg_block A_trans B_padded A_base_index B_base_index C_base_index x y)).

  (** kernel_tiled.cpp:518-535, combined.cpp:337-354 *)
  Definition untile_C (N X_size Y_size : nat) : prog T (list T) :=
    forS 0 (X_size / L1_X b) 1 (fun l1_x C_return =>
      forS 0 (Y_size / L1_Y b) 1 (fun l1_y C_return =>
        let base_index := (L1_X b * L1_Y b) * (l1_x * (Y_size / L1_Y b) + l1_y) in
        forS 0 (L1_X b) 1 (fun x C_return =>
          forS 0 (L1_Y b) 1 (fun y C_return =>
            if (l1_x * L1_X b + x <? N) && (l1_y * L1_Y b + y <? N) then
              let! v := rd_at idCp (base_index + x * L1_Y b + y) in
              vset_at C_return ((l1_x * L1_X b + x) * N + (l1_y * L1_Y b + y)) v
            else Ret C_return) C_return) C_return) C_return)
      (replicate (N * N) nzero).

  (** kernel_tiled.cpp:240-487: the body of the parallel loop *)
  Definition kernel_tiled_task (X_size Y_size K_size : nat) (A_trans B_padded : list T) (l3_x l3_y : nat) : prog T unit :=
    forP 0 K_size (L3_K b) (fun l3_k =>
      forP l3_x (l3_x + L3_X b) (L2_X b) (fun l2_x =>
        forP l3_y (l3_y + L3_Y b) (L2_Y b) (fun l2_y =>
          forP l3_k (l3_k + L3_K b) (L2_K b) (fun l2_k =>
            forP l2_x (l2_x + L2_X b) (L1_X b) (fun l1_x =>
              forP l2_y (l2_y + L2_Y b) (L1_Y b) (fun l1_y =>
                forP l2_k (l2_k + L2_K b) (L1_K b) (fun l1_k =>
                  l1_kernel X_size Y_size A_trans B_padded l1_x l1_y l1_k))))))).

  (** kernel_tiled.cpp:64-112 followed by 114-546.  [transposed] is not used by
      the code.  The loop marked omp parallel for collapse(2) has one task per
      pair (l3_x, l3_y); A, B, A_trans and B_padded are not changed inside. *)
  Definition kernel_tiled_matrix_multiply (N : nat) (A_org B_org : list T) (transposed : bool) (repetitions : nat)
      : prog T (list T) :=
    if negb (verify_blocking_setup b) then Err ETerminate else
    let X_size := N + padding N (L3_X b) in
    let Y_size := N + padding N (L3_Y b) in
    let K_size := N + padding N (L3_K b) in
    let! A := pad_A N X_size K_size A_org in
    let! B := pad_B N Y_size K_size B_org in
    valloc idCp (X_size * Y_size) nzero ;;;
    let! A_trans := tile_A X_size K_size A in
    let! B_padded := tile_B Y_size K_size B in
    forP 0 repetitions 1 (fun _ =>
      forP 0 (X_size * Y_size) 1 (fun i => wr idCp i nzero) ;;;
      parL (rng 0 X_size (L3_X b) ≫= fun l3_x => rng 0 Y_size (L3_Y b) ≫= fun l3_y => [(l3_x, l3_y)])
        (fun t => kernel_tiled_task X_size Y_size K_size A_trans B_padded t.1 t.2)) ;;;
    untile_C N X_size Y_size.

  (** combined.cpp:121-127 *)
  Definition transpose_untiled (X_size K_size : nat) (A : list T) : prog T (list T) :=
    forS 0 K_size 1 (fun i A_trans_untiled =>
      forS 0 X_size 1 (fun j A_trans_untiled =>
        let! v := vget A (j * K_size + i) in
        vset A_trans_untiled (i * X_size + j) v) A_trans_untiled) (replicate (K_size * X_size) nzero).

  (** combined.cpp:322-324 *)
  Definition clear_first : prog T unit :=
    Rd idFirst (fun o => match o with
                         | Some (VF true) => Wr idFirst (VF false) (fun ok : bool => if ok then Ret tt else Err EDangling)
                         | Some (VF false) => Ret tt
                         | Some (VD _) => Err EType
                         | None => Err EDangling end).

  (** combined.cpp:190-326: the callback *)
  Definition combined_callback (X_size Y_size : nat) (A_trans B_padded : list T) (p : list nat) : prog T unit :=
    let! l1_x := ofres (lget p 0) in
    let! l1_y := ofres (lget p 1) in
    let! l1_k := ofres (lget p 2) in
    l1_kernel X_size Y_size A_trans B_padded l1_x l1_y l1_k ;;;
    clear_first.

  (** combined.cpp:177-182 *)
  Definition combined_policy : res policy :=
    let? p := policy_new 3 in
    let? p := set_final_steps p [L1_X b; L1_Y b; L1_K b] in
    let? p := add_blocking p [L2_X b; L2_Y b; L2_K b] [false; false; false] in
    add_blocking p [L3_X b; L3_Y b; L3_K b] [true; true; false].

  (** combined.cpp:61-109 followed by 111-373.  The storage of [first] is created
      once, up front; every repetition sets it to true (line 187). *)
  Definition combined_matrix_multiply (N : nat) (A_org B_org : list T) (repetitions : nat) : prog T (list T) :=
    if negb (verify_blocking_setup b) then Err ETerminate else
    Alloc idFirst (VF true) (
    let X_size := N + padding N (L3_X b) in
    let Y_size := N + padding N (L3_Y b) in
    let K_size := N + padding N (L3_K b) in
    let! A := pad_A N X_size K_size A_org in
    let! B := pad_B N Y_size K_size B_org in
    valloc idCp (X_size * Y_size) nzero ;;;
    let! A_trans_untiled := transpose_untiled X_size K_size A in
    let! A_trans := tile_A X_size K_size A in
    let! B_padded := tile_B Y_size K_size B in
    forP 0 repetitions 1 (fun _ =>
      let! p := ofres combined_policy in
      Wr idFirst (VF true) (fun ok : bool => if ok then Ret tt else Err EDangling) ;;;
      iterate_indices 3 p [0; 0; 0] [X_size; Y_size; K_size] (combined_callback X_size Y_size A_trans B_padded)) ;;;
    untile_C N X_size Y_size).
End Tiled.
