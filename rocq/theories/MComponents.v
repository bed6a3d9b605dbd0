(** The components of single and pseudodynamic, and how they find each other by
    name.  Definitions only. *)
From Coq Require Import ZArith Ascii String.
From Verif Require Import Base Conc Num MKernels MRecursive MSchedule MPrint MApp MTranscript MVerbose.
Local Open Scope string_scope.

Section Components.
  Context {T : Type} `{NumOps T}.

  (** The members of components/multiplier.hpp:10-28 and components/recursive.hpp:12-21,
      without verbose *)
  Inductive component :=
  | Multiplier (N : nat) (A B : list T) (transposed : bool) (block_input : nat)
  | Recursive (block_result : nat).
  (** A component and the id of the locality that it is on *)
  Record object := Object { lives_on : nat; members : component }.
  (** What register_as has entered *)
  Definition registry := list (string * object).
  (** std::to_string of an id *)
  Definition multiplier_name (k : nat) : string := "/multiplier#" ++ show_nat k.
  Definition recursive_name (k : nat) : string := "/recursive#" ++ show_nat k.

  (** What the call with the array [path] gets when it asks for a name (connect_to).
      Several components may be registered under one name; None: there is none, the
      call waits for ever.  A component of the other kind is used at a wrong type. *)
  Context (resolve : arr -> string -> option object).

  (** components/recursive.cpp:37-94 for a component on locality [loc], see MRecursive.v.
      get_locality_id() is the locality of the component. *)
  Fixpoint dist_named (fuel : nat) (path : arr) (loc block_result x y blockSize : nat) : prog T unit :=
    let leaf :=
      match resolve path (multiplier_name loc) with
      | Some (Object _ (Multiplier N A B transposed block_input)) =>
          let! C := calculate_submatrix N A B transposed block_input x y blockSize in vput path C
      | Some (Object _ (Recursive _)) => Err EType
      | None => Err EDiverge
      end in
    match fuel with
    | O => leaf
    | S fuel' =>
        if (blockSize <=? block_result)%nat then leaf
        else
          match resolve path (recursive_name loc) with
          | Some (Object loc' (Recursive block_result')) =>
              let n_new := blockSize / 2 in
              let offsets := [(0, 0, 0); (1, n_new, 0); (2, 0, n_new); (3, n_new, n_new)] in
              valloc path (blockSize * blockSize) nzero ;;;
              parL offsets (fun o =>
                let '(q, ox, oy) := o in
                dist_named fuel' (q :: path) loc' block_result' (x + ox) (y + oy) n_new ;;;
                let! submatrix := vread (q :: path) (n_new * n_new) in
                extract_submatrix path submatrix ox oy n_new)
          | Some (Object _ (Multiplier _ _ _ _ _)) => Err EType
          | None => Err EDiverge
          end
    end.
  Definition distribute_named (path : arr) (loc block_result x y blockSize : nat) : prog T (list T) :=
    dist_named blockSize path loc block_result x y blockSize ;;; vread path (blockSize * blockSize).

  (** single.cpp:23-37 and matrix_multiply.cpp:137-149: what is registered; [here] is the
      id of the locality. *)
  Definition single_registry (here N : nat) (A B : list T) (transposed : bool) (block_input block_result : nat) : registry :=
    [(multiplier_name here, Object here (Multiplier N A B transposed block_input));
     (recursive_name here, Object here (Recursive block_result))].
  (** single.cpp:14-46 *)
  Definition single_named (here N block_result repetitions : nat) : prog T (list T) :=
    forS 0 repetitions 1 (fun r _ => distribute_named [r] here block_result 0 0 N) (replicate (N * N) nzero).
  (** matrix_multiply.cpp:150-155 *)
  Definition app_single_named (here : nat) (o : options) : prog T (list T) :=
    forS 0 (o_repetitions o) 1 (fun r _ => distribute_named [r] here (o_block_result o) 0 0 (o_n o)) [].

  (** static_improved.cpp:201-214: the ids of the localities that compute; [ids] is
      find_all_localities() and [root] find_root_locality(). *)
  Fixpoint erase (root : nat) (ids : list nat) : list nat :=
    match ids with
    | [] => []
    | k :: ids => if (k =? root)%nat then ids else k :: erase root ids
    end.
  Definition compute_ids (root : nat) (ids : list nat) : list nat := if (1 <? length ids)%nat then erase root ids else ids.
  (** The packages with the index of their locality, in the order of lines 246-249 *)
  Definition indexed (all : list (list work)) : list (nat * work) := concat (imap (fun i ws => map (fun w => (i, w)) ws) all).
  (** static_improved.cpp:221-233 (one multiplier per id) and 249-256 *)
  Definition static_registry (root : nat) (ids : list nat) (N : nat) (A B : list T) (transposed : bool) (block_input block_result : nat)
      (all : list (list work)) (repetitions : nat) : registry :=
    (map (fun k => (multiplier_name k, Object k (Multiplier N A B transposed block_input))) (compute_ids root ids) ++
     flat_map (fun _ => flat_map (fun iw => match compute_ids root ids !! iw.1 with
       | Some k => [(recursive_name k, Object k (Recursive block_result))]
       | None => []
       end) (indexed all)) (seq 0 repetitions))%list.
  (** static_improved.cpp:197-275, see MSchedule.v *)
  Definition static_improved_named (root : nat) (ids : list nat) (N block_result : nat)
      (min_work_size max_work_difference : Z) (rel : Z -> Z -> bool) (repetitions : nat) : prog T (list T) :=
    let num_localities := length ids in
    let compute_localities := if (1 <? num_localities)%nat then num_localities - 1 else num_localities in
    match create_schedule (Z.of_nat N) min_work_size max_work_difference rel (S (N * N * N)) compute_localities with
    | Fail e => Err e
    | Ok all =>
        valloc [0] (N * N) nzero ;;;
        forP 0 repetitions 1 (fun r =>
          parL (imap (fun k iw => (k, iw)) (indexed all)) (fun kiw =>
            let '(k, (i, w)) := kiw in
            match compute_ids root ids !! i with
            | Some loc =>
                let x := Z.to_nat (wx w) in let y := Z.to_nat (wy w) in let n := Z.to_nat (wN w) in
                let! submatrix := distribute_named [k; S r] loc block_result x y n in
                insert_submatrix N [0] submatrix x y n
            | None => Err EOob
            end)) ;;;
        vread [0] (N * N)
    end.

  (** What the calls write with --verbose (MVerbose.v); [print] is how the id of a
      locality is written.  A call that fails writes nothing more. *)
  Fixpoint trace_named (print : nat -> string) (fuel : nat) (path : arr) (loc block_result x y blockSize : nat) : list string :=
    chunk_work (print loc) x y blockSize ::
    match fuel with
    | O => []
    | S fuel' =>
        if (blockSize <=? block_result)%nat then []
        else
          let n_new := (blockSize / 2)%nat in
          chunk_large blockSize ::
          match resolve path (recursive_name loc) with
          | Some (Object loc' (Recursive block_result')) =>
              flat_map (fun o => let '(q, ox, oy) := o in trace_named print fuel' (q :: path) loc' block_result' (x + ox) (y + oy) n_new)
                [(0, 0, 0); (1, n_new, 0); (2, 0, n_new); (3, n_new, n_new)]
          | _ => []
          end
    end.
End Components.
Arguments component T : clear implicits.
Arguments object T : clear implicits.
Arguments registry T : clear implicits.
