(** Models of src/variants/algorithms.hpp, src/variants/looped.hpp and
    src/variants/semi.cpp.  Definitions only. *)
From Verif Require Export Conc Num MKernels MIter.

Section Algorithms.
  Context {T : Type} `{NumOps T}.

  (** ---- src/variants/algorithms.hpp ---- *)

  (** algorithms.hpp:27-35: increment of index_iterator.  The state is (x, y,
      position of wrapped_iterator). *)
  Definition index_iterator_increment (stride : nat) (t : nat * nat * nat) : nat * nat * nat :=
    let '(x, y, w) := t in
    if y =? stride - 1 then (x + 1, 0, w + 1) else (x, y + 1, w + 1).
  (** The values seen by for_each_n(seq, it, n, f). *)
  Fixpoint index_iterates (n stride : nat) (t : nat * nat * nat) : list (nat * nat * nat) :=
    match n with O => [] | S n' => t :: index_iterates n' stride (index_iterator_increment stride t) end.

  (** algorithms.hpp:70-90 and 104-112: dim_index_iterator(dim, max_index_1d, _).
      The increment is that of index_iterator.hpp with min T() and step 1; the
      third constructor argument is not used. *)
  Definition alg_dim_iterates (n dim max_index_1d : nat) : res (list (list nat)) :=
    iterates n (replicate dim 0) (replicate dim max_index_1d) (replicate dim 1) (replicate dim 0).

  (** std::inner_product(u + lo, u + hi, v + at, 0.0) *)
  Definition inner_product (u v : list T) (lo hi at_ : nat) : prog T T :=
    forS 0 (hi - lo) 1 (fun k acc =>
      let! a := vget u (lo + k) in
      let! b := vget v (at_ + k) in
      Ret (nadd acc (nmul a b))) nzero.

  (** algorithms.hpp:194-199 (A_small) and 202-207 (B_small) *)
  Definition alg_copy (M small : list T) (N outer k_block block_result block_input : nat) : prog T (list T) :=
    forS 0 block_result 1 (fun x s =>
      forS 0 block_input 1 (fun k s =>
        let! v := vget M ((outer + x) * N + k_block + k) in
        vset s (x * block_input + k) v) s) small.

  (** algorithms.hpp:211-232: the sequential for_each_n over C_inner *)
  Definition alg_inner (A_small B_small C_inner : list T) (block_result block_input : nat) : prog T (list T) :=
    foldP (index_iterates (block_result * block_result) block_result (0, 0, 0)) (fun t C_inner =>
      let '(x, y, w) := t in
      let! s := inner_product A_small B_small (x * block_input) ((x + 1) * block_input) (y * block_input) in
      vadd C_inner w s) C_inner.

  (** algorithms.hpp:165-242: the task of one result block.  C is array [0]. *)
  Definition alg_task (N : nat) (A B : list T) (block_input block_result : nat) (cur_index : list nat) : prog T unit :=
    let! block_x := ofres (lget cur_index 0) in
    let! block_y := ofres (lget cur_index 1) in
    let outer_x := block_x * block_result in
    let outer_y := block_y * block_result in
    let! st :=
      forS 0 N block_input (fun k_block (st : list T * list T * list T) =>
        let '(A_small, B_small, C_inner) := st in
        let! A_small := alg_copy A A_small N outer_x k_block block_result block_input in
        let! B_small := alg_copy B B_small N outer_y k_block block_result block_input in
        let! C_inner := alg_inner A_small B_small C_inner block_result block_input in
        Ret (A_small, B_small, C_inner))
        (replicate (block_input * block_result) nzero, replicate (block_input * block_result) nzero,
         replicate (block_result * block_result) nzero) in
    forP 0 block_result 1 (fun x => forP 0 block_result 1 (fun y =>
      let! c := vget st.2 (x * block_result + y) in
      wr [0] ((outer_x + x) * N + (outer_y + y)) c)).

  (** algorithms.hpp:130-244.  The reference handed to the callback points into
      the iterator; HPX gives every partition its own copy, so a task is modelled
      with the value of the iterator. *)
  Definition algorithms_matrix_multiply (N : nat) (A B : list T) (block_input block_result : nat) : prog T (list T) :=
    valloc [0] (N * N) nzero ;;;
    if block_result =? 0 then Err EDivZero else
    let result_blocks := if N mod block_result =? 0 then N / block_result else N / block_result + 1 in
    let! blocks := ofres (alg_dim_iterates (result_blocks * result_blocks) 2 result_blocks) in
    parL blocks (alg_task N A B block_input block_result) ;;;
    vread [0] (N * N).

  (** ---- src/variants/looped.hpp ---- *)

  (** looped.hpp:162-165: the number of blocks, rounded down.  (max < min does
      not occur.) *)
  Definition looped_count (dim : nat) (mn mx block : list nat) : res nat :=
    foldR (seq 0 dim) (fun d acc =>
      let? hi := lget mx d in
      let? lo := lget mn d in
      let? b := lget block d in
      if b =? 0 then Fail EDivZero else Ok (acc * ((hi - lo) / b))) 1.

  (** looped.hpp:148-228.  [conf]: the stack of blockings, last added first.  The
      increment of looped::dim_index_iterator (looped.hpp:31-53) has the text of
      index_iterator.hpp's.  The callback works on the state [S] (the captured
      vector C). *)
  Fixpoint looped_iterate {S} (conf : list (list nat)) (mn mx : list nat)
      (f : list nat -> S -> prog T S) (s : S) : prog T S :=
    if negb (length mn =? length mx) then Err ETerminate else
    let dim := length mn in
    match conf with
    | [] => Err EEmpty
    | block :: conf' =>
        let! inner_index_count := ofres (looped_count dim mn mx block) in
        let! it := ofres (dim_index_iterator mn mx block) in
        let! curs := ofres (iterates inner_index_count mn mx block it) in
        match conf' with
        | [] => foldP curs f s
        | _ :: _ =>
            foldP curs (fun cur_index s =>
              let! recursive_max := ofres (add_block dim cur_index block) in
              looped_iterate conf' cur_index recursive_max f s) s
        end
    end.

  (** looped.hpp:248-284.  policy(3) pushes {1,1,1}, then the block is added
      (three entries, so add_blocking does not throw). *)
  Definition looped_matrix_multiply (N : nat) (A B : list T) (block_result block_input : nat) : prog T (list T) :=
    looped_iterate [[block_result; block_result; block_input]; [1; 1; 1]] [0; 0; 0] [N; N; N]
      (fun cur_index C =>
        let! x := ofres (lget cur_index 0) in
        let! y := ofres (lget cur_index 1) in
        let! k := ofres (lget cur_index 2) in
        let! a := vget A (x * N + k) in
        let! b := vget B (y * N + k) in
        vadd C (x * N + y) (nmul a b)) (replicate (N * N) nzero).

  (** ---- src/variants/semi.cpp ---- *)

  (** semi.cpp:36-45 and 109-113: copy of an N x N matrix through
      iterate_indices<2>; [src] reads the source. *)
  Definition semi_copy (N : nat) (dst : arr) (src : nat -> prog T T) : prog T unit :=
    let! pol_copy := ofres (policy_new 2) in
    iterate_indices 2 pol_copy [0; 0] [N; N] (fun p =>
      let! x := ofres (lget p 0) in
      let! y := ofres (lget p 1) in
      let! v := src (x * N + y) in
      wr dst (x * N + y) v).

  (** C_conflict[i] += v *)
  Definition semi_add (i : nat) (v : T) : prog T unit :=
    let! c := rd [3] i in wr [3] i (nadd c v).

  (** semi.cpp:78-96: the innermost loop *)
  Definition semi_inner (N x y k k_inner : nat) (acc : T * T * T * T * T * T * T * T) : prog T (T * T * T * T * T * T * T * T) :=
    let '(c00, c01, c10, c11, c20, c21, c30, c31) := acc in
    let! a0 := rd [1] ((x + 0) * N + k + k_inner) in
    let! b0 := rd [2] ((y + 0) * N + k + k_inner) in
    let! b1 := rd [2] ((y + 1) * N + k + k_inner) in
    let! a1 := rd [1] ((x + 1) * N + k + k_inner) in
    let! a2 := rd [1] ((x + 2) * N + k + k_inner) in
    let! a3 := rd [1] ((x + 3) * N + k + k_inner) in
    Ret (nadd c00 (nmul a0 b0), nadd c01 (nmul a0 b1),
         nadd c10 (nmul a1 b0), nadd c11 (nmul a1 b1),
         nadd c20 (nmul a2 b0), nadd c21 (nmul a2 b1),
         nadd c30 (nmul a3 b0), nadd c31 (nmul a3 b1)).

  (** semi.cpp:65-107: the callback.  Repeated reads of the same element are
      merged. *)
  Definition semi_kernel (N block_input : nat) (p : list nat) : prog T unit :=
    let! x := ofres (lget p 0) in
    let! y := ofres (lget p 1) in
    let! k := ofres (lget p 2) in
    let! acc := forS 0 block_input 1 (semi_inner N x y k)
                  (nzero, nzero, nzero, nzero, nzero, nzero, nzero, nzero) in
    let '(c00, c01, c10, c11, c20, c21, c30, c31) := acc in
    semi_add ((x + 0) * N + (y + 0)) c00 ;;;
    semi_add ((x + 0) * N + (y + 1)) c01 ;;;
    semi_add ((x + 1) * N + (y + 0)) c10 ;;;
    semi_add ((x + 1) * N + (y + 1)) c11 ;;;
    semi_add ((x + 2) * N + (y + 0)) c20 ;;;
    semi_add ((x + 2) * N + (y + 1)) c21 ;;;
    semi_add ((x + 3) * N + (y + 0)) c30 ;;;
    semi_add ((x + 3) * N + (y + 1)) c31.

  (** semi.cpp:20-116.  Arrays: C = [0], A_conflict = [1], B_conflict = [2],
      C_conflict = [3].  N_fixed = N. *)
  Definition semi_matrix_multiply (N : nat) (A B : list T) (block_result block_input : nat) : prog T (list T) :=
    valloc [1] (N * N) nzero ;;;
    valloc [2] (N * N) nzero ;;;
    semi_copy N [1] (vget A) ;;;
    semi_copy N [2] (vget B) ;;;
    valloc [0] (N * N) nzero ;;;
    valloc [3] (N * N) nzero ;;;
    let! policy := ofres (policy_new 3) in
    let! policy := ofres (set_final_steps policy [4; 2; block_input]) in
    iterate_indices 3 policy [0; 0; 0] [N; N; N] (semi_kernel N block_input) ;;;
    semi_copy N [0] (rd [3]) ;;;
    vread [0] (N * N).
End Algorithms.
