(** 64-bit index arithmetic, continued: the iteration library and the variants
    algorithms, looped and semi (see MWord.v).  Definitions only. *)
From Verif Require Export MWord MIter MVariants.

Section Word.
  Context (M : nat).
  Local Notation "a +w b" := (wadd M a b) (at level 50, left associativity).
  Local Notation "a *w b" := (wmul M a b) (at level 40, left associativity).
  Local Notation "a -w b" := (wsub M a b) (at level 50, left associativity).

  (** * src/variants/index_iterator.hpp *)
  Section Nest.
    Context {T : Type}.
    (** index_iterator.hpp:23-37 *)
    Fixpoint execute_looped_w (dim cur_dim : nat) (mn mx st : list nat) (f : list nat -> prog T unit)
        (args : list nat) : prog T unit :=
      match dim with
      | O => f args
      | S dim' =>
          let! lo := ofres (lget mn cur_dim) in
          let! hi := ofres (lget mx cur_dim) in
          let! s := ofres (lget st cur_dim) in
          forPW M lo hi s (fun cur => execute_looped_w dim' (S cur_dim) mn mx st f (args ++ [cur]))
      end.
    (** index_iterator.hpp:39-43 *)
    Definition loop_nest_w (dim : nat) (mn mx st : list nat) (f : list nat -> prog T unit) : prog T unit :=
      execute_looped_w dim 0 mn mx st f [].
  End Nest.

  (** index_iterator.hpp:65-85 *)
  Fixpoint increment_from_w (fuel d : nat) (mn mx st cur : list nat) : res (list nat) :=
    match fuel with
    | O => Ok cur
    | S fuel' =>
        let? c := lget cur d in
        let? s := lget st d in
        let? m := lget mx d in
        if c +w s <? m then
          let? cur1 := lset cur d (c +w s) in
          foldR (seq 0 d) (fun i cur => let? v := lget mn i in lset cur i v) cur1
        else increment_from_w fuel' (S d) mn mx st cur
    end.
  Definition dim_increment_w (mn mx st cur : list nat) : res (list nat) :=
    increment_from_w (length mn) 0 mn mx st cur.
  (** The values seen by for_each_n(policy, it, n, f) *)
  Fixpoint iterates_w (n : nat) (mn mx st cur : list nat) : res (list (list nat)) :=
    match n with
    | O => Ok []
    | S n' =>
        let? nxt := dim_increment_w mn mx st cur in
        let? l := iterates_w n' mn mx st nxt in
        Ok (cur :: l)
    end.
  (** index_iterator.hpp:256-268.  The quotient is that of MIter.v, see C36. *)
  Definition index_count_w (dim : nat) (which : bool) (parallel_dims : list bool) (mn mx block : list nat) : res nat :=
    foldR (seq 0 dim) (fun d acc =>
      let? b := lget parallel_dims d in
      let? lo := lget mn d in
      let? hi := lget mx d in
      let? bl := lget block d in
      let? c := block_count (hi -w lo) bl in
      Ok (if bool_decide ((b : bool) = which) then acc *w c else acc)) 1.
  (** index_iterator.hpp:322-331 *)
  Definition add_block_w (dim : nat) (cur block : list nat) : res (list nat) :=
    foldR (seq 0 dim) (fun d acc =>
      let? c := lget cur d in
      let? b := lget block d in
      Ok (acc ++ [c +w b])) [].

  Section Iterate.
    Context {T : Type}.
    (** index_iterator.hpp:168-363 *)
    Fixpoint iterate_conf_w (dim : nat) (conf : list (list nat * list bool)) (mn mx : list nat)
        (f : list nat -> prog T unit) : prog T unit :=
      if negb (length mn =? length mx) || negb (length mn =? dim) then Err ETerminate else
      match conf with
      | [] => Err EEmpty
      | (block, parallel_dims) :: conf' =>
          match conf' with
          | [] => loop_nest_w dim mn mx block f
          | _ :: _ =>
              let! map := ofres (par_map dim parallel_dims) in
              let! min_reduced := ofres (reduce_dims dim parallel_dims mn) in
              let! max_reduced := ofres (reduce_dims dim parallel_dims mx) in
              let! block_reduced := ofres (reduce_dims dim parallel_dims block) in
              let! count_reduced := ofres (index_count_w dim true parallel_dims mn mx block) in
              let! count_remain := ofres (index_count_w dim false parallel_dims mn mx block) in
              let! it := ofres (dim_index_iterator min_reduced max_reduced block_reduced) in
              let! partials := ofres (iterates_w count_reduced min_reduced max_reduced block_reduced it) in
              parL partials (fun partial_index =>
                let! min_fill := ofres (map_dims partial_index map mn) in
                let! max_fill := ofres (map_dims partial_index map mx) in
                let! it := ofres (dim_index_iterator min_fill max_fill block) in
                let! curs := ofres (iterates_w count_remain min_fill max_fill block it) in
                foldP curs (fun cur_index _ =>
                  let! recursive_max := ofres (add_block_w dim cur_index block) in
                  iterate_conf_w dim conf' cur_index recursive_max f) tt)
          end
      end.
    Definition iterate_indices_w (dim : nat) (p : policy) (mn mx : list nat) (f : list nat -> prog T unit) : prog T unit :=
      iterate_conf_w dim (pconf p) mn mx f.
  End Iterate.

  Section Variants.
    Context {T : Type} `{NumOps T}.

    (** * src/variants/algorithms.hpp *)
    (** algorithms.hpp:27-35; the position of wrapped_iterator is a pointer. *)
    Definition index_iterator_increment_w (stride : nat) (t : nat * nat * nat) : nat * nat * nat :=
      let '(x, y, w) := t in
      if y =? stride -w 1 then (x +w 1, 0, w + 1) else (x, y +w 1, w + 1).
    Fixpoint index_iterates_w (n stride : nat) (t : nat * nat * nat) : list (nat * nat * nat) :=
      match n with O => [] | S n' => t :: index_iterates_w n' stride (index_iterator_increment_w stride t) end.
    (** algorithms.hpp:70-90 and 104-112 *)
    Definition alg_dim_iterates_w (n dim max_index_1d : nat) : res (list (list nat)) :=
      iterates_w n (replicate dim 0) (replicate dim max_index_1d) (replicate dim 1) (replicate dim 0).
    (** algorithms.hpp:194-199 and 202-207 *)
    Definition alg_copy_w (V small : list T) (N outer k_block block_result block_input : nat) : prog T (list T) :=
      forW M 0 block_result 1 (fun x s =>
        forW M 0 block_input 1 (fun k s =>
          let! v := vget V ((outer +w x) *w N +w k_block +w k) in
          vset s (x *w block_input +w k) v) s) small.
    (** algorithms.hpp:211-232.  The ends of the range of inner_product are
        A_small.begin() plus a size_t. *)
    Definition alg_inner_w (A_small B_small C_inner : list T) (block_result block_input : nat) : prog T (list T) :=
      foldP (index_iterates_w (block_result *w block_result) block_result (0, 0, 0)) (fun t C_inner =>
        let '(x, y, w) := t in
        let! s := inner_product A_small B_small (x *w block_input) ((x +w 1) *w block_input) (y *w block_input) in
        vadd C_inner w s) C_inner.
    (** algorithms.hpp:165-242 *)
    Definition alg_task_w (N : nat) (A B : list T) (block_input block_result : nat) (cur_index : list nat) : prog T unit :=
      let! block_x := ofres (lget cur_index 0) in
      let! block_y := ofres (lget cur_index 1) in
      let outer_x := block_x *w block_result in
      let outer_y := block_y *w block_result in
      let! st :=
        forW M 0 N block_input (fun k_block (st : list T * list T * list T) =>
          let '(A_small, B_small, C_inner) := st in
          let! A_small := alg_copy_w A A_small N outer_x k_block block_result block_input in
          let! B_small := alg_copy_w B B_small N outer_y k_block block_result block_input in
          let! C_inner := alg_inner_w A_small B_small C_inner block_result block_input in
          Ret (A_small, B_small, C_inner))
          (replicate (block_input *w block_result) nzero, replicate (block_input *w block_result) nzero,
           replicate (block_result *w block_result) nzero) in
      forPW M 0 block_result 1 (fun x => forPW M 0 block_result 1 (fun y =>
        let! c := vget st.2 (x *w block_result +w y) in
        wr [0] ((outer_x +w x) *w N +w (outer_y +w y)) c)).
    (** algorithms.hpp:130-244 *)
    Definition algorithms_matrix_multiply_w (N : nat) (A B : list T) (block_input block_result : nat) : prog T (list T) :=
      valloc [0] (N *w N) nzero ;;;
      if block_result =? 0 then Err EDivZero else
      let result_blocks := if N mod block_result =? 0 then N / block_result else N / block_result +w 1 in
      let! blocks := ofres (alg_dim_iterates_w (result_blocks *w result_blocks) 2 result_blocks) in
      parL blocks (alg_task_w N A B block_input block_result) ;;;
      vread [0] (N *w N).

    (** * src/variants/looped.hpp *)
    (** looped.hpp:162-165 *)
    Definition looped_count_w (dim : nat) (mn mx block : list nat) : res nat :=
      foldR (seq 0 dim) (fun d acc =>
        let? hi := lget mx d in
        let? lo := lget mn d in
        let? b := lget block d in
        if b =? 0 then Fail EDivZero else Ok (acc *w ((hi -w lo) / b))) 1.
    (** looped.hpp:148-228 *)
    Fixpoint looped_iterate_w {S} (conf : list (list nat)) (mn mx : list nat)
        (f : list nat -> S -> prog T S) (s : S) : prog T S :=
      if negb (length mn =? length mx) then Err ETerminate else
      let dim := length mn in
      match conf with
      | [] => Err EEmpty
      | block :: conf' =>
          let! inner_index_count := ofres (looped_count_w dim mn mx block) in
          let! it := ofres (dim_index_iterator mn mx block) in
          let! curs := ofres (iterates_w inner_index_count mn mx block it) in
          match conf' with
          | [] => foldP curs f s
          | _ :: _ =>
              foldP curs (fun cur_index s =>
                let! recursive_max := ofres (add_block_w dim cur_index block) in
                looped_iterate_w conf' cur_index recursive_max f s) s
          end
      end.
    (** looped.hpp:248-284 *)
    Definition looped_matrix_multiply_w (N : nat) (A B : list T) (block_result block_input : nat) : prog T (list T) :=
      looped_iterate_w [[block_result; block_result; block_input]; [1; 1; 1]] [0; 0; 0] [N; N; N]
        (fun cur_index C =>
          let! x := ofres (lget cur_index 0) in
          let! y := ofres (lget cur_index 1) in
          let! k := ofres (lget cur_index 2) in
          let! a := vget A (x *w N +w k) in
          let! b := vget B (y *w N +w k) in
          vadd C (x *w N +w y) (nmul a b)) (replicate (N *w N) nzero).

    (** * src/variants/semi.cpp *)
    (** semi.cpp:36-45 and 109-113 *)
    Definition semi_copy_w (N : nat) (dst : arr) (src : nat -> prog T T) : prog T unit :=
      let! pol_copy := ofres (policy_new 2) in
      iterate_indices_w 2 pol_copy [0; 0] [N; N] (fun p =>
        let! x := ofres (lget p 0) in
        let! y := ofres (lget p 1) in
        let! v := src (x *w N +w y) in
        wr dst (x *w N +w y) v).
    (** semi.cpp:78-96 *)
    Definition semi_inner_w (N x y k k_inner : nat) (acc : T * T * T * T * T * T * T * T) : prog T (T * T * T * T * T * T * T * T) :=
      let '(c00, c01, c10, c11, c20, c21, c30, c31) := acc in
      let! a0 := rd [1] ((x +w 0) *w N +w k +w k_inner) in
      let! b0 := rd [2] ((y +w 0) *w N +w k +w k_inner) in
      let! b1 := rd [2] ((y +w 1) *w N +w k +w k_inner) in
      let! a1 := rd [1] ((x +w 1) *w N +w k +w k_inner) in
      let! a2 := rd [1] ((x +w 2) *w N +w k +w k_inner) in
      let! a3 := rd [1] ((x +w 3) *w N +w k +w k_inner) in
      Ret (nadd c00 (nmul a0 b0), nadd c01 (nmul a0 b1),
           nadd c10 (nmul a1 b0), nadd c11 (nmul a1 b1),
           nadd c20 (nmul a2 b0), nadd c21 (nmul a2 b1),
           nadd c30 (nmul a3 b0), nadd c31 (nmul a3 b1)).
    (** semi.cpp:65-107 *)
    Definition semi_kernel_w (N block_input : nat) (p : list nat) : prog T unit :=
      let! x := ofres (lget p 0) in
      let! y := ofres (lget p 1) in
      let! k := ofres (lget p 2) in
      let! acc := forW M 0 block_input 1 (semi_inner_w N x y k)
                    (nzero, nzero, nzero, nzero, nzero, nzero, nzero, nzero) in
      let '(c00, c01, c10, c11, c20, c21, c30, c31) := acc in
      semi_add ((x +w 0) *w N +w (y +w 0)) c00 ;;;
      semi_add ((x +w 0) *w N +w (y +w 1)) c01 ;;;
      semi_add ((x +w 1) *w N +w (y +w 0)) c10 ;;;
      semi_add ((x +w 1) *w N +w (y +w 1)) c11 ;;;
      semi_add ((x +w 2) *w N +w (y +w 0)) c20 ;;;
      semi_add ((x +w 2) *w N +w (y +w 1)) c21 ;;;
      semi_add ((x +w 3) *w N +w (y +w 0)) c30 ;;;
      semi_add ((x +w 3) *w N +w (y +w 1)) c31.
    (** semi.cpp:20-116 *)
    Definition semi_matrix_multiply_w (N : nat) (A B : list T) (block_result block_input : nat) : prog T (list T) :=
      valloc [1] (N *w N) nzero ;;;
      valloc [2] (N *w N) nzero ;;;
      semi_copy_w N [1] (vget A) ;;;
      semi_copy_w N [2] (vget B) ;;;
      valloc [0] (N *w N) nzero ;;;
      valloc [3] (N *w N) nzero ;;;
      let! policy := ofres (policy_new 3) in
      let! policy := ofres (set_final_steps policy [4; 2; block_input]) in
      iterate_indices_w 3 policy [0; 0; 0] [N; N; N] (semi_kernel_w N block_input) ;;;
      semi_copy_w N [0] (rd [3]) ;;;
      vread [0] (N *w N).
  End Variants.
End Word.
