(** Models of the iteration library src/variants/index_iterator.hpp (the file
    src/memory_layout/index_iterator.hpp has the same code).  Definitions only.

    Index values are [nat]: wrap-around of size_t is not modelled.  Where the
    code computes [max[d] - min[d]] with max[d] < min[d] the machine value wraps;
    every theorem assumes min <= max. *)
From Verif Require Export Conc.

Definition ofres {T A} (r : res A) : prog T A :=
  match r with Ok a => Ret a | Fail e => Err e end.

(** v.at(i) and v.at(i) = x on a vector held by value *)
Definition lat {A} (v : list A) (i : nat) : res A :=
  match v !! i with Some a => Ok a | None => Fail EOutOfRange end.
Definition lset_at {A} (v : list A) (i : nat) (x : A) : res (list A) :=
  if i <? length v then Ok (<[i := x]> v) else Fail EOutOfRange.
Definition lset {A} (v : list A) (i : nat) (x : A) : res (list A) :=
  if i <? length v then Ok (<[i := x]> v) else Fail EOob.
Fixpoint foldR {S X} (l : list X) (f : X -> S -> res S) (s : S) : res S :=
  match l with [] => Ok s | x :: l => let? s' := f x s in foldR l f s' end.

(** index_iterator.hpp:12-21 *)
Definition map_dims (sub_index map index : list nat) : res (list nat) :=
  if negb (length sub_index =? length map) then Fail ETerminate else
  foldR (seq 0 (length sub_index)) (fun i index =>
    let? p := lget map i in
    let? v := lat sub_index i in
    lset_at index p v) index.

Section Nest.
  Context {T : Type}.

  (** index_iterator.hpp:23-37: [dim] nested loops remain, [args] are the loop
      variables of the enclosing loops. *)
  Fixpoint execute_looped (dim cur_dim : nat) (mn mx st : list nat) (f : list nat -> prog T unit)
      (args : list nat) : prog T unit :=
    match dim with
    | O => f args
    | S dim' =>
        let! lo := ofres (lget mn cur_dim) in
        let! hi := ofres (lget mx cur_dim) in
        let! s := ofres (lget st cur_dim) in
        forP lo hi s (fun cur => execute_looped dim' (S cur_dim) mn mx st f (args ++ [cur]))
    end.
  (** index_iterator.hpp:39-43.  (If the outermost range is empty the code does
      not read [step]; the vectors have dim entries in every use.) *)
  Definition loop_nest (dim : nat) (mn mx st : list nat) (f : list nat -> prog T unit) : prog T unit :=
    execute_looped dim 0 mn mx st f [].
End Nest.

(** ---- dim_index_iterator, index_iterator.hpp:45-129 ---- *)

(** Lines 65-85: from dimension [d] on; [fuel] dimensions are left. *)
Fixpoint increment_from (fuel d : nat) (mn mx st cur : list nat) : res (list nat) :=
  match fuel with
  | O => Ok cur
  | S fuel' =>
      let? c := lget cur d in
      let? s := lget st d in
      let? m := lget mx d in
      if c + s <? m then
        let? cur1 := lset cur d (c + s) in
        foldR (seq 0 d) (fun i cur => let? v := lget mn i in lset cur i v) cur1
      else increment_from fuel' (S d) mn mx st cur
  end.
Definition dim_increment (mn mx st cur : list nat) : res (list nat) :=
  increment_from (length mn) 0 mn mx st cur.

(** Lines 109-117: constructor; the iterator starts at min. *)
Definition dim_index_iterator (mn mx st : list nat) : res (list nat) :=
  if negb (length mn =? length mx) || negb (length mx =? length st) then Fail ETerminate else Ok mn.

(** The values seen by for_each_n(policy, it, n, f): [*it], [*++it], ... *)
Fixpoint iterates (n : nat) (mn mx st cur : list nat) : res (list (list nat)) :=
  match n with
  | O => Ok []
  | S n' =>
      let? nxt := dim_increment mn mx st cur in
      let? l := iterates n' mn mx st nxt in
      Ok (cur :: l)
  end.

(** ---- blocking_pseudo_execution_policy, index_iterator.hpp:131-166 ---- *)

(** blocking_configuration, last element of the vector first (it is used as a
    stack), together with the number of dimensions. *)
Record policy := Policy { pdim : nat; pconf : list (list nat * list bool) }.

(** Lines 138-146 *)
Definition add_blocking (p : policy) (block : list nat) (parallel_dims : list bool) : res policy :=
  if negb (length block =? pdim p) || negb (length parallel_dims =? pdim p) then Fail ETerminate
  else Ok (Policy (pdim p) ((block, parallel_dims) :: pconf p)).
(** Lines 133-136 *)
Definition policy_new (dim : nat) : res policy :=
  add_blocking (Policy dim []) (replicate dim 1) (replicate dim false).
(** Lines 148-152 *)
Definition policy_pop (p : policy) : res (list nat * list bool * policy) :=
  match pconf p with
  | [] => Fail EEmpty
  | c :: conf => Ok (c, Policy (pdim p) conf)
  end.
(** Lines 156-158: element 0 of the vector is the last of the list here. *)
Fixpoint set_first (conf : list (list nat * list bool)) (steps : list nat) : res (list (list nat * list bool)) :=
  match conf with
  | [] => Fail EOob
  | [(_, pd)] => Ok [(steps, pd)]
  | c :: conf => let? conf' := set_first conf steps in Ok (c :: conf')
  end.
Definition set_final_steps (p : policy) (steps : list nat) : res policy :=
  let? conf := set_first (pconf p) steps in Ok (Policy (pdim p) conf).

(** ---- iterate_indices, index_iterator.hpp:168-363 ---- *)

(** Lines 224-230: [map], the parallel dimensions in ascending order *)
Definition par_map (dim : nat) (parallel_dims : list bool) : res (list nat) :=
  foldR (seq 0 dim) (fun d acc =>
    let? b := lat parallel_dims d in
    Ok (if (b : bool) then acc ++ [d] else acc)) [].
(** Lines 232-254: the entries of [v] in the parallel dimensions *)
Definition reduce_dims (dim : nat) (parallel_dims : list bool) (v : list nat) : res (list nat) :=
  foldR (seq 0 dim) (fun d acc =>
    let? b := lat parallel_dims d in
    if (b : bool) then let? x := lget v d in Ok (acc ++ [x]) else Ok acc) [].

(** Lines 256-268: static_cast<size_t>(ceil(double(ext) / double(block))).  For
    block = 0 the quotient is infinite or NaN and its conversion undefined.  For
    block > 0 the model uses the exact ceiling; property C36 shows that the
    computation in double gives the same value below 2^53. *)
Definition block_count (ext block : nat) : res nat :=
  if block =? 0 then Fail EOverflow else Ok (cdiv ext block).
(** Lines 256-268: product of the counts of the dimensions whose flag is [which] *)
Definition index_count (dim : nat) (which : bool) (parallel_dims : list bool) (mn mx block : list nat) : res nat :=
  foldR (seq 0 dim) (fun d acc =>
    let? b := lget parallel_dims d in
    let? lo := lget mn d in
    let? hi := lget mx d in
    let? bl := lget block d in
    let? c := block_count (hi - lo) bl in
    Ok (if bool_decide ((b : bool) = which) then acc * c else acc)) 1.
(** Lines 322-331: recursive_max[d] = cur_index[d] + block[d] (and the copy
    recursive_min of cur_index) *)
Definition add_block (dim : nat) (cur block : list nat) : res (list nat) :=
  foldR (seq 0 dim) (fun d acc =>
    let? c := lget cur d in
    let? b := lget block d in
    Ok (acc ++ [c + b])) [].

Section Iterate.
  Context {T : Type}.

  (** Lines 168-363.  The policy is given by its stack [conf] (copied by value
      into every call).  The outer for_each_n is parallel: one task per value of
      the reduced iterator; the inner one is sequential. *)
  Fixpoint iterate_conf (dim : nat) (conf : list (list nat * list bool)) (mn mx : list nat)
      (f : list nat -> prog T unit) : prog T unit :=
    if negb (length mn =? length mx) || negb (length mn =? dim) then Err ETerminate else
    match conf with
    | [] => Err EEmpty
    | (block, parallel_dims) :: conf' =>
        match conf' with
        | [] => loop_nest dim mn mx block f
        | _ :: _ =>
            let! map := ofres (par_map dim parallel_dims) in
            let! min_reduced := ofres (reduce_dims dim parallel_dims mn) in
            let! max_reduced := ofres (reduce_dims dim parallel_dims mx) in
            let! block_reduced := ofres (reduce_dims dim parallel_dims block) in
            let! count_reduced := ofres (index_count dim true parallel_dims mn mx block) in
            let! count_remain := ofres (index_count dim false parallel_dims mn mx block) in
            let! it := ofres (dim_index_iterator min_reduced max_reduced block_reduced) in
            let! partials := ofres (iterates count_reduced min_reduced max_reduced block_reduced it) in
            parL partials (fun partial_index =>
              let! min_fill := ofres (map_dims partial_index map mn) in
              let! max_fill := ofres (map_dims partial_index map mx) in
              let! it := ofres (dim_index_iterator min_fill max_fill block) in
              let! curs := ofres (iterates count_remain min_fill max_fill block it) in
              foldP curs (fun cur_index _ =>
                let! recursive_max := ofres (add_block dim cur_index block) in
                iterate_conf dim conf' cur_index recursive_max f) tt)
        end
    end.
  Definition iterate_indices (dim : nat) (p : policy) (mn mx : list nat) (f : list nat -> prog T unit) : prog T unit :=
    iterate_conf dim (pconf p) mn mx f.
End Iterate.
