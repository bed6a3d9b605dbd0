(** 64-bit index arithmetic, continued: the application (see MWord.v and MApp.v).
    The branch for --algorithm=proposal keeps the arithmetic of MApp.v: it reads
    outside its matrices for every size (C57).  Definitions only. *)
From Verif Require Export MWord3 MApp.

Section AppW.
  Context (M : nat).
  Local Notation "a +w b" := (wadd M a b) (at level 50, left associativity).
  Local Notation "a *w b" := (wmul M a b) (at level 40, left associativity).
  Context {T : Type} `{NumOps T}.
  (** std::abs(first - second), and the comparison "< 1E-10" *)
  Context (absdiff : T -> T -> T) (small : T -> bool).
  Context (o : options).
  Let N := o_n o.

  (** The root locality runs hpx_main; [num_localities] localities exist;
      [gen k] is the k-th number drawn from the generator. *)
  Context (num_localities : nat) (gen : nat -> T).

  (** src/util/util.hpp:6-16 and 56-66, 30-41 and 80-90 *)
  Definition print_grid_w (rows cols : nat) (idx : nat -> nat -> nat) (m : list T) : prog T (list (list T)) :=
    forW M 0 rows 1 (fun i out =>
      let! line := forW M 0 cols 1 (fun j line =>
                     let! v := vat m (idx i j) in Ret (line ++ [v])) [] in
      Ret (out ++ [line])) [].
  Definition print_matrix_sq_w (N : nat) (m : list T) := print_grid_w N N (fun i j => i *w N +w j) m.
  Definition print_matrix_transposed_sq_w (N : nat) (m : list T) := print_grid_w N N (fun i j => j *w N +w i) m.

  (** matrix_multiply.cpp:96-118 *)
  Definition build_B_w (transposed : bool) : prog T (list T) :=
    forW M 0 N 1 (fun i B =>
      forW M 0 N 1 (fun j B =>
        vset_at B (if transposed then j *w N +w i else i *w N +w j) (if i =? j then none1 else nzero)) B)
      (replicate (N *w N) nzero).

  (** matrix_multiply.cpp:134-156; C is an empty vector before the loop. *)
  Definition app_single_w (A B : list T) : prog T (list T) :=
    forW M 0 (o_repetitions o) 1 (fun r _ =>
      distribute_recursively_w M N A B (o_transposed o) (o_block_input o) (o_block_result o) [r] 0 0 N) [].

  (** matrix_multiply.cpp:227-240: printing C at verbose >= 2 *)
  Definition hpx_end_w (A B C : list T) : app T (globals T) :=
    when (2 <=? o_verbose o) (print_matrix_sq_w N C) (ADone (Globals A B C false true)).

  (** matrix_multiply.cpp:134-225.  The exception thrown by the checks of the
      transposed flag leaves hpx_main. *)
  Definition hpx_dispatch_w (A B : list T) : app T (globals T) :=
    let algorithm := o_algorithm o in
    let transposed := o_transposed o in
    let run p := ACall p (hpx_end_w A B) in
    if (algorithm =? "single")%string then run (app_single_w A B)
    else if (algorithm =? "pseudodynamic")%string then
      run (static_improved_matrix_multiply_w M N A B transposed (o_block_input o) (o_block_result o)
             (o_min_work_size o) (o_max_work_difference o) (o_rel o) num_localities (o_repetitions o))
    else if (algorithm =? "algorithms")%string then
      if negb transposed then AFail EException
      else run (algorithms_matrix_multiply_w M N A B (o_block_input o) (o_block_result o))
    else if (algorithm =? "looped")%string then
      if negb transposed then AFail EException
      else run (looped_matrix_multiply_w M N A B (o_block_result o) (o_block_input o))
    else if (algorithm =? "semi")%string then
      if negb transposed then AFail EException
      else run (semi_matrix_multiply_w M N A B (o_block_result o) (o_block_input o))
    else if (algorithm =? "combined")%string then
      if transposed then AFail EException
      else run (combined_matrix_multiply_w M shipped N A B (o_repetitions o))
    else if (algorithm =? "proposal")%string then
      run (proposal_matrix_multiply shipped 128 N A B)
    else ADone (Globals A B [] true true).

  (** matrix_multiply.cpp:57-241 *)
  Definition hpx_main_w : app T (globals T) :=
    if o_help o then ADone (Globals [] [] [] false false) else
    let A := gen <$> seq 0 (N *w N) in
    when (2 <=? o_verbose o) (print_matrix_sq_w N A) (
      ACall (build_B_w (o_transposed o)) (fun B =>
        when (2 <=? o_verbose o) (if negb (o_transposed o) then print_matrix_sq_w N B else print_matrix_transposed_sq_w N B)
          (hpx_dispatch_w A B))).

  (** matrix_multiply.cpp:421-424 *)
  Definition diff_matrix_w (C Cref : list T) : prog T (list T) :=
    forW M 0 (N *w N) 1 (fun k diff =>
      let! r := vat Cref k in
      let! c := vat C k in
      vset_at diff k (absdiff r c)) (replicate (N *w N) nzero).

  (** matrix_multiply.cpp:357-430 *)
  Definition finish_w (g : globals T) : app T (outcome T) :=
    let C := g_C g in
    let reference := if negb (o_transposed o) then naive_matrix_multiply_w M N (g_A g) (g_B g)
                     else naive_matrix_multiply_transposed_w M N (g_A g) (g_B g) in
    if g_is_root g && o_check o then
      ACall reference (fun Cref =>
        let ok := equal_results absdiff small C Cref in
        if 2 <=? o_verbose o then
          ACall (print_matrix_sq_w N Cref) (fun _ =>
          ACall (diff_matrix_w C Cref) (fun diff =>
          ACall (print_matrix_sq_w N diff) (fun _ => ADone (Outcome 0 false (Some ok) C))))
        else ADone (Outcome 0 false (Some ok) C))
    else ADone (Outcome 0 false None C).

  (** matrix_multiply.cpp:317-355, then [finish].  An exception thrown in
      hpx_main does not come back from hpx::init (the runtime ends the process). *)
  Definition main_w : app T (outcome T) :=
    abind hpx_main_w (fun g =>
      let after C :=
        let g' := Globals (g_A g) (g_B g) C (g_non_hpx g) (g_is_root g) in
        if 2 <=? o_verbose o then ACall (print_matrix_sq_w N C) (fun _ => finish_w g') else finish_w g' in
      if (o_algorithm o =? "kernel_test")%string then
        ACall (kernel_test_matrix_multiply_w M kt_shipped kt_padding N (g_A g) (g_B g) (o_transposed o) (o_repetitions o)) after
      else if (o_algorithm o =? "kernel_tiled")%string then
        ACall (kernel_tiled_matrix_multiply_w M shipped N (g_A g) (g_B g) (o_transposed o) (o_repetitions o)) after
      else if g_non_hpx g then ADone (Outcome 1 true None (g_C g))
      else finish_w g).
End AppW.
