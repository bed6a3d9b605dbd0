(** Models of src/variants/static_improved.cpp (with
    src/variants/matrix_multiply_work.hpp) and src/variants/pseudodynamic.cpp.
    Definitions only. *)
From Verif Require Export MRecursive.
Local Open Scope Z_scope.

(** src/variants/matrix_multiply_work.hpp:5-10 *)
Record work := Work { wx : Z; wy : Z; wN : Z }.

(** State of the loop of create_schedule: packages and recorded work of every
    locality. *)
Record sched := Sched { all_work : list (list work); total_work : list Z }.

Section Schedule.
  (** Members of static_improved.  [rel d m] is the outcome of
      double(d) / double(m) < max_relative_work_difference (lines 61-67).  It is
      an arbitrary function here, so the theorems hold for every floating-point
      behaviour and every bound. *)
  Context (N min_work_size max_work_difference : Z) (rel : Z -> Z -> bool).

  (** Smallest and largest element, lines 43-53. *)
  Definition min_max (t0 : Z) (ts : list Z) : Z * Z :=
    foldl (fun mm t => (if t <? mm.1 then t else mm.1, if mm.2 <? t then t else mm.2)) (t0, t0) ts.

  (** src/variants/static_improved.cpp:42-72 *)
  Definition fulfills_constraints (total : list Z) : res bool :=
    let? t0 := lget total 0 in
    let '(min_work, max_work) := min_max t0 (tail total) in
    Ok (if u64 (max_work - min_work) <? max_work_difference then true
        else if (0 <? min_work) && (0 <? max_work) then rel (u64 (max_work - min_work)) min_work
        else false).

  (** src/variants/static_improved.cpp:89-110; the loop runs over the
      num_localities elements of total_work. *)
  Record extremes := Ext { e_max : Z; e_maxs : list nat; e_min : Z; e_minidx : nat }.
  Definition ext_step (e : extremes) (i : nat) (t : Z) : extremes :=
    Ext (if e_max e <? t then t else e_max e)
        (if e_max e <? t then [i] else if t =? e_max e then e_maxs e ++ [i] else e_maxs e)
        (if t <? e_min e then t else e_min e)
        (if t <? e_min e then i else e_minidx e).
  Fixpoint ext_loop (e : extremes) (i : nat) (ts : list Z) : extremes :=
    match ts with
    | [] => e
    | t :: ts => ext_loop (ext_step e i t) (S i) ts
    end.
  Definition extremes_of (total : list Z) : res extremes :=
    let? t0 := lget total 0 in
    Ok (ext_loop (Ext t0 [0%nat] t0 0%nat) 1 (tail total)).

  (** Lines 138-145: imbalance between the two localities after splitting [w]. *)
  Definition work_difference (max_work min_work : Z) (w : work) : res Z :=
    let split_size := u64 (wN w * wN w) / 2 in
    let? d := chk64 (s64 (u64 (max_work - split_size)) - s64 (u64 (min_work + split_size))) in
    chk64 (Z.abs d).

  (** Lines 133-152: [j] is the index of the first element of [ws]. *)
  Fixpoint pick_loop (max_work min_work : Z) (ws : list work) (j : nat) (smallest : Z) (idx : nat) : res nat :=
    match ws with
    | [] => Ok idx
    | w :: ws =>
        if wN w <=? min_work_size then pick_loop max_work min_work ws (S j) smallest idx
        else
          let? d := work_difference max_work min_work w in
          if u64 d <=? smallest then pick_loop max_work min_work ws (S j) (u64 d) j
          else pick_loop max_work min_work ws (S j) smallest idx
    end.
  Definition pick (max_work min_work : Z) (ws : list work) : res nat :=
    pick_loop max_work min_work ws 0 (u64 (max_work - min_work)) (length ws).

  (** Lines 128-161: first most-loaded locality with a package to balance. *)
  Fixpoint find_package (all : list (list work)) (max_work min_work : Z) (maxs : list nat) : res (option (nat * nat)) :=
    match maxs with
    | [] => Ok None
    | i :: maxs =>
        let? ws := lget all i in
        let? j := pick max_work min_work ws in
        if (j =? length ws)%nat then find_package all max_work min_work maxs else Ok (Some (i, j))
    end.

  (** Lines 171-191 *)
  Definition split_package (s : sched) (imax j imin : nat) : res sched :=
    let? ws := lget (all_work s) imax in
    let? w := lget ws j in
    let n := wN w / 2 in
    let all1 := <[imax := delete j ws]> (all_work s) in
    let all2 := alter (fun l => l ++ [Work (u64 (wx w + 0)) (u64 (wy w + 0)) n]) imax all1 in
    let all3 := alter (fun l => l ++ [Work (u64 (wx w + n)) (u64 (wy w + 0)) n]) imax all2 in
    let all4 := alter (fun l => l ++ [Work (u64 (wx w + 0)) (u64 (wy w + n)) n]) imin all3 in
    let all5 := alter (fun l => l ++ [Work (u64 (wx w + n)) (u64 (wy w + n)) n]) imin all4 in
    let? tmax := lget (total_work s) imax in
    let total1 := <[imax := u64 (tmax - u64 (2 * n * n))]> (total_work s) in
    let? tmin := lget total1 imin in
    let total2 := <[imin := u64 (tmin + u64 (2 * n * n))]> total1 in
    Ok (Sched all5 total2).

  (** One evaluation of the loop condition and body, lines 86-192; [None] means
      that the loop is left. *)
  Definition sched_step (s : sched) : res (option sched) :=
    let? ok := fulfills_constraints (total_work s) in
    if ok then Ok None
    else
      let? e := extremes_of (total_work s) in
      let? f := find_package (all_work s) (e_max e) (e_min e) (e_maxs e) in
      match f with
      | None => Ok None
      | Some (imax, j) =>
          let? s' := split_package s imax j (e_minidx e) in
          Ok (Some s')
      end.

  (** Lines 77-84 *)
  Definition sched_init (num_localities : nat) : res sched :=
    match num_localities with
    | O => Fail EOob
    | S n => Ok (Sched ([Work 0 0 N] :: replicate n []) (u64 (N * N) :: replicate n 0))
    end.

  (** The while loop with an iteration bound; running out of it is reported as
      divergence (proved impossible for the bound used below). *)
  Fixpoint sched_loop (fuel : nat) (s : sched) : res sched :=
    match fuel with
    | O => Fail EDiverge
    | S fuel =>
        let? o := sched_step s in
        match o with
        | None => Ok s
        | Some s' => sched_loop fuel s'
        end
    end.
  (** src/variants/static_improved.cpp:74-195, with the final work totals *)
  Definition create_schedule_state (fuel num_localities : nat) : res sched :=
    let? s := sched_init num_localities in sched_loop fuel s.
  Definition create_schedule (fuel num_localities : nat) : res (list (list work)) :=
    let? s := create_schedule_state fuel num_localities in Ok (all_work s).
End Schedule.

Local Close Scope Z_scope.

Section StaticImproved.
  Context {T : Type} `{NumOps T}.
  Context (N : nat) (A B : list T) (transposed : bool) (block_input block_result : nat).

  (** src/variants/static_improved.cpp:31-40; C is the member vector. *)
  Definition insert_submatrix (C : arr) (submatrix : list T) (x y n : nat) : prog T unit :=
    forP 0 n 1 (fun i =>
      forP 0 n 1 (fun j =>
        let! v := vget submatrix (i * n + j) in
        wr C ((x + i) * N + (y + j)) v)).

  (** Lines 249-269: one package: remote action followed by its continuation. *)
  Definition package_task (C path : arr) (w : work) : prog T unit :=
    let x := Z.to_nat (wx w) in let y := Z.to_nat (wy w) in let n := Z.to_nat (wN w) in
    let! submatrix := distribute_recursively N A B transposed block_input block_result path x y n in
    insert_submatrix C submatrix x y n.

  (** src/variants/static_improved.cpp:197-275 for [num_localities] localities
      (all_ids and num_localities agree).  The main thread only starts the tasks
      of a repetition and waits for all of them, so a repetition is a parallel
      loop over all packages.  Component creation and registration, printing and
      transport are not modelled; A and B are read-only copies of the multiplier
      components.  C is array [0]; package [k] of repetition [r] uses the arrays
      below path [k; S r]. *)
  Definition static_improved_matrix_multiply (min_work_size max_work_difference : Z) (rel : Z -> Z -> bool)
      (num_localities repetitions : nat) : prog T (list T) :=
    let compute_localities := if 1 <? num_localities then num_localities - 1 else num_localities in
    match create_schedule (Z.of_nat N) min_work_size max_work_difference rel (S (N * N * N)) compute_localities with
    | Fail e => Err e
    | Ok all =>
        valloc [0] (N * N) nzero ;;;
        forP 0 repetitions 1 (fun r =>
          parL (imap (fun k w => (k, w)) (concat all)) (fun kw =>
            package_task [0] [kw.1; S r] kw.2)) ;;;
        vread [0] (N * N)
    end.
End StaticImproved.

(** src/variants/pseudodynamic.cpp:7-29: the constructor arguments are passed on
    by position (block_input before block_result). *)
Definition pseudodynamic_matrix_multiply {T} `{NumOps T} (N : nat) (A B : list T) (transposed : bool)
    (block_result block_input : nat) (min_work_size max_work_difference : Z) (rel : Z -> Z -> bool)
    (num_localities repetitions : nat) : prog T (list T) :=
  static_improved_matrix_multiply N A B transposed block_input block_result
    min_work_size max_work_difference rel num_localities repetitions.
